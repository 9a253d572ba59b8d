(** * The calls of [RemoteModel], for any kind of record *)
From Verif Require Import Base RemoteModel.
From Coq Require Import Permutation.

Section Generic.
  Variable D : Type.
  Variable fresh : list (record D) -> bytes.
  Variable listing : list (record D) -> list (record D).
  Variable ok : fault -> Prop.

  (** Nothing fails. *)
  Definition clean : Prop := forall f, ok f -> f = FOk.
  Let wpp {A} (p : prog D A) := wp fresh listing ok p.

  Lemma gwp_get (s : server D) : wpp getRecords (fun o s' => s' = s /\ (clean -> o = Done (listing (sv_recs s))) /\ match o with Done l => l = listing (sv_recs s) | _ => True end) s.
  Proof.
    cbn. split; [auto|]. split; [|split]; intros x O; (split; [destruct x; reflexivity|]); (split; [|exact I]); intros C; specialize (C _ O); discriminate C.
  Qed.
  Lemma gwp_unit c (s s1 : server D) : exec fresh listing c s = (RDone, s1) ->
    wpp (unitCall c) (fun o s' => (s' = s \/ s' = s1) /\ (clean -> o = Done tt) /\ match o with Done _ => s' = s1 | _ => True end) s.
  Proof.
    intros E. assert (H : forall x, effect fresh listing x c s = s \/ effect fresh listing x c s = s1) by (intros []; unfold effect; rewrite ?E; auto).
    unfold wpp, unitCall. cbn [wp]. rewrite E. cbn [fst snd wp]. split; [auto|].
    split; [|split]; intros x O; (split; [apply H|]); (split; [|exact I]); intros C; specialize (C _ O); discriminate C.
  Qed.
  Lemma gwp_create a (s : server D) : let s1 := change s (mkRecord (fresh (sv_recs s)) a None :: sv_recs s) in
    wpp (createRecord a) (fun o s' => (s' = s \/ s' = s1) /\ (clean -> o = Done (fresh (sv_recs s))) /\ match o with Done id => id = fresh (sv_recs s) /\ s' = s1 | _ => True end) s.
  Proof.
    intros s1. assert (H : forall x, effect fresh listing x (CCreate a) s = s \/ effect fresh listing x (CCreate a) s = s1) by (intros []; auto).
    unfold wpp, createRecord. cbn [wp exec fst snd]. fold s1. split; [auto|].
    split; [|split]; intros x O; (split; [apply H|]); (split; [|exact I]); intros C; specialize (C _ O); discriminate C.
  Qed.
  (** A review is asked for when something changed. *)
  Lemma gwp_review (s : server D) :
    wpp requestReview (fun o s' => sv_recs s' = sv_recs s /\ (sv_reviews s' = sv_reviews s \/ sv_reviews s' = sv_recs s :: sv_reviews s) /\ (clean -> o = Done tt) /\
      match o with Done _ => if sv_wip s then sv_wip s' = false /\ sv_reviews s' = sv_recs s :: sv_reviews s else s' = s | _ => True end) s.
  Proof.
    unfold wpp, requestReview, effect. cbn [wp exec fst snd]. destruct (sv_wip s) eqn:W.
    - split; [|split; [|split]; intros x O; (split; [destruct x; reflexivity|]); (split; [destruct x; auto|]); (split; [|exact I]); intros C; specialize (C _ O); discriminate C].
      cbn. split; [repeat split; auto|]. split; [|split]; intros x O; (split; [destruct x; reflexivity|]); (split; [destruct x; auto|]); (split; [|exact I]); intros C; specialize (C _ O); discriminate C.
    - split; [cbn; repeat split; auto|]. split; [|split]; intros x O; (split; [destruct x; reflexivity|]); (split; [destruct x; auto|]); (split; [|exact I]); intros C; specialize (C _ O); discriminate C.
  Qed.

  Lemma g_existsb id (l : list (record D)) : existsb (hasId id) l = true <-> In id (map r_id l).
  Proof.
    rewrite existsb_exists, in_map_iff. split; intros [r [A B0]]; exists r; [unfold hasId in B0; apply (proj1 (beq_eq _ _)) in B0|unfold hasId; subst id; split; [exact B0|apply beq_refl]]. auto.
  Qed.
  Lemma g_map_other id f (l : list (record D)) : ~ In id (map r_id l) -> map (fun r => if hasId id r then f r else r) l = l.
  Proof.
    induction l as [|r l IH]; intros N; [reflexivity|]. cbn [map] in *. unfold hasId at 1. destruct (beq id (r_id r)) eqn:E; [apply (proj1 (beq_eq _ _)) in E; subst id; exfalso; apply N; left; reflexivity|].
    f_equal. apply IH. intros I. apply N. right. exact I.
  Qed.
  Lemma g_in_filter id (l : list (record D)) r : In r (filter (fun r => negb (hasId id r)) l) <-> In r l /\ r_id r <> id.
  Proof.
    rewrite filter_In, negb_true_iff. unfold hasId. split; intros [A E]; (split; [exact A|]).
    - intros Q. rewrite Q, beq_refl in E. discriminate E.
    - destruct (beq id (r_id r)) eqn:Q; [apply (proj1 (beq_eq _ _)) in Q; subst id; contradiction|reflexivity].
  Qed.
  Lemma g_nodup_filter {A B} (g : A -> B) (f : A -> bool) (l : list A) : NoDup (map g l) -> NoDup (map g (filter f l)).
  Proof.
    induction l as [|r l IH]; intros N; [constructor|]. cbn [map filter] in *. apply NoDup_cons_iff in N. destruct N as [NI N].
    destruct (f r); [|auto]. cbn [map]. constructor; [|auto]. intros I. apply NI. apply in_map_iff in I. destruct I as [x [E I]]. apply filter_In in I. rewrite <- E. apply in_map. tauto.
  Qed.
  Lemma g_nodup_inj {A B} (g : A -> B) (l : list A) x y : NoDup (map g l) -> In x l -> In y l -> g x = g y -> x = y.
  Proof.
    induction l as [|r l IH]; intros N IX IY E; [destruct IX|]. cbn [map] in N. apply NoDup_cons_iff in N. destruct N as [NI N].
    destruct IX as [<-|IX], IY as [<-|IY]; [reflexivity| | |auto]; exfalso; apply NI; [rewrite E|rewrite <- E]; apply in_map; assumption.
  Qed.
End Generic.
