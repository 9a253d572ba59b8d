(** * Publication of one channel under failures: the whole run *)
From Verif Require Import Base MerkleModel TimeModel TimeProofs IssuersModel FilterModel FilterProofs QueryModel TextProofs P_Query RemoteModel PublishModel P_RunIds PublishProofs IsoProofs PublishProofs2 P_Publish PublishProofs3.
From Coq Require Import Strings.Byte Sorting.Permutation Sorting.Sorted.

(** ** Parts of the invariant *)

Definition base (seen : bytes -> Prop) (b : bucket) (ch : channel) (recs : list frec) : Prop :=
  NoDup (map r_id recs) /\
  (forall r, In r (chan ch recs) -> a_inc (r_data r) <> None /\ a_name (r_data r) <> None /\ (r_att r = None \/ exists run, isRun run /\ seen run /\ runOf r run /\ (In run (b_ids b) -> b_ready b run = true))) /\
  (length (filter isFull (chan ch recs)) <= 1)%nat.

Lemma chan_without ch D l : chan ch (without D l) = without D (chan ch l).
Proof.
  unfold chan, without. induction l as [|r l IH]; [reflexivity|]. cbn [filter].
  destruct (negb (memb (r_id r) D)) eqn:E, (inChannel ch r) eqn:C; cbn [filter]; rewrite ?C, ?E, ?IH; reflexivity.
Qed.
Lemma in_chan ch l r : In r (chan ch l) <-> In r l /\ inChannel ch r = true.
Proof. apply filter_In. Qed.
Lemma nodup_ids (l : list frec) r r' : NoDup (map r_id l) -> In r l -> In r' l -> r_id r = r_id r' -> r = r'.
Proof.
  induction l as [|x l IH]; intros ND I I' E; [destruct I|]. cbn [map] in ND. apply NoDup_cons_iff in ND. destruct ND as [NI ND].
  destruct I as [<-|I], I' as [<-|I']; [reflexivity| | |apply IH; assumption]; exfalso; apply NI; [rewrite E|rewrite <- E]; apply in_map; assumption.
Qed.
Lemma others_without ch D l : NoDup (map r_id l) -> (forall id, In id D -> exists r, In r (chan ch l) /\ r_id r = id) -> others ch (without D l) = others ch l.
Proof.
  intros ND H. unfold others, without.
  assert (G : forall m, (forall r, In r m -> In r l) -> filter (fun r => negb (inChannel ch r)) (filter (fun r => negb (memb (r_id r) D)) m) = filter (fun r => negb (inChannel ch r)) m).
  { induction m as [|r m IH]; intros S; [reflexivity|]. cbn [filter]. destruct (memb (r_id r) D) eqn:E; cbn [negb filter].
    - apply memb_in in E. destruct (H _ E) as [r' [C Ei]]. apply in_chan in C. destruct C as [C1 C2].
      assert (r' = r) by (apply (nodup_ids l); [exact ND|exact C1|apply S; left; reflexivity|exact Ei]). subst r'. rewrite C2. cbn [negb]. apply IH. intros x I. apply S. right. exact I.
    - rewrite IH by (intros x I; apply S; right; exact I). reflexivity. }
  apply G. auto.
Qed.
Lemma nodup_without D (l : list frec) : NoDup (map r_id l) -> NoDup (map r_id (without D l)).
Proof.
  induction l as [|r l IH]; intros ND; [constructor|]. cbn [map] in ND. apply NoDup_cons_iff in ND. destruct ND as [NI ND]. unfold without in *. cbn [filter].
  destruct (negb (memb (r_id r) D)); [|apply IH; exact ND]. cbn [map]. constructor; [|apply IH; exact ND].
  intros I. apply NI. apply in_map_iff in I. destruct I as [x [E I]]. apply filter_In in I. rewrite <- E. apply in_map. tauto.
Qed.
Lemma filter_filter_len {A} (f g : A -> bool) l : (length (filter f (filter g l)) <= length (filter f l))%nat.
Proof. induction l as [|x l IH]; [reflexivity|]. cbn [filter]. destruct (g x); cbn [filter]; destruct (f x); cbn [length]; lia. Qed.
Lemma base_without seen b ch D l : base seen b ch l -> base seen b ch (without D l).
Proof.
  intros [ND [A F]]. split; [apply nodup_without; exact ND|]. rewrite chan_without. split.
  - intros r I. apply in_without in I. apply A. tauto.
  - unfold without. etransitivity; [apply filter_filter_len|exact F].
Qed.
Lemma base_recoverable seen b ch l : recoverable seen b ch l -> base seen b ch l.
Proof. intros [A [B0 [C _]]]. split; [|split]; assumption. Qed.
Lemma one_full (l : list frec) r r' : (length (filter isFull l) <= 1)%nat -> In r l -> In r' l -> isFull r = true -> isFull r' = true -> r = r'.
Proof.
  intros L I I' F F'. assert (J : In r (filter isFull l)) by (apply filter_In; auto). assert (J' : In r' (filter isFull l)) by (apply filter_In; auto).
  destruct (filter isFull l) as [|x [|y m]]; [destruct J| |cbn [length] in L; lia]. destruct J as [<-|[]], J' as [<-|[]]. reflexivity.
Qed.
Lemma isFull_inc (r : frec) : isFull r = true <-> a_inc (r_data r) = Some false.
Proof. unfold isFull. destruct (a_inc (r_data r)) as [[]|]; cbn; split; congruence. Qed.

(** Deleting some of the full filters, or, without full filters, any records. *)
Lemma clear_full seen b ch l D : recoverable seen b ch l -> (forall id, In id D -> exists r, In r (chan ch l) /\ r_id r = id /\ a_inc (r_data r) = Some false) -> recoverable seen b ch (without D l).
Proof.
  intros R H. destruct D as [|d D]; [rewrite without_nil; exact R|]. pose proof (base_recoverable _ _ _ _ R) as BS. destruct (base_without seen b ch (d :: D) l BS) as [A [B0 C]].
  split; [exact A|]. split; [exact B0|]. split; [exact C|]. right. left. intros r I. rewrite chan_without in I. apply in_without in I. destruct I as [I N].
  destruct (isFull r) eqn:F; [|reflexivity]. exfalso. destruct (H d (or_introl eq_refl)) as [f [If [Ef Ff]]]. apply (proj2 (isFull_inc f)) in Ff.
  assert (r = f) by (apply (one_full (chan ch l)); [apply BS|exact I|exact If|exact F|exact Ff]). subst f. apply N. left. symmetry. exact Ef.
Qed.
Lemma clear_some seen b ch l D : base seen b ch l -> (forall r, In r (chan ch l) -> isFull r = false) -> recoverable seen b ch (without D l).
Proof.
  intros BS N. destruct (base_without seen b ch D l BS) as [A [B0 C]]. split; [exact A|]. split; [exact B0|]. split; [exact C|]. right. left.
  intros r I. rewrite chan_without in I. apply in_without in I. apply N. tauto.
Qed.

(** ** Adding a record *)

Lemma chan_cons ch r l : chan ch (r :: l) = if inChannel ch r then r :: chan ch l else chan ch l.
Proof. unfold chan. cbn [filter]. reflexivity. Qed.
Lemma others_cons ch r l : inChannel ch r = true -> others ch (r :: l) = others ch l.
Proof. intros E. unfold others. cbn [filter]. rewrite E. reflexivity. Qed.

Lemma add_unattached seen b ch l (r : frec) : base seen b ch l -> ~ In (r_id r) (map r_id l) -> inChannel ch r = true -> r_att r = None -> a_inc (r_data r) <> None -> a_name (r_data r) <> None ->
  (isFull r = true -> chan ch l = []) -> recoverable seen b ch (r :: l).
Proof.
  intros [ND [A F]] N E AT AI AN FU. split; [cbn [map]; constructor; assumption|]. rewrite chan_cons, E. split; [intros x [<-|I]; [auto|apply A; exact I]|]. split.
  - cbn [filter]. destruct (isFull r) eqn:X; [rewrite (FU eq_refl); cbn; lia|exact F].
  - right. right. exists r. split; [left; reflexivity|exact AT].
Qed.
Lemma add_sound seen b ch l r l0 xs inc p x : plain ch -> base seen b ch l -> ~ In (r_id r) (map r_id l) -> isRun (itemRun x) -> seen (itemRun x) -> (In (itemRun x) (b_ids b) -> b_ready b (itemRun x) = true) -> recordOf ch inc p x r ->
  Permutation l0 (chan ch (r :: l)) -> publishes ch l0 xs -> faithful b ch xs -> recoverable seen b ch (r :: l) /\ sound b ch (r :: l) xs.
Proof.
  intros PL [ND [A F]] N WX SX BX RX P PU FA. assert (S : sound b ch (r :: l) xs) by (exists l0; auto). split; [|exact S].
  destruct (recordOf_facts _ _ _ _ _ PL WX RX) as [E1 [E2 [_ [E4 [_ E6]]]]].
  split; [cbn [map]; constructor; assumption|]. split; [|split; [|left; eauto]].
  - rewrite chan_cons, E4. intros y [<-|I]; [|apply A; exact I]. rewrite E1, E2. split; [discriminate|]. split; [discriminate|]. right. exists (itemRun x). auto.
  - destruct (publishes_runs ch l0 xs PL) as [_ [_ [_ L1]]]; [apply FA|exact PU|]. rewrite <- (Permutation_length (perm_filter isFull _ _ P)), L1. lia.
Qed.

(** ** Extending a chain by the next run *)

Lemma strong_snoc {A} (R : A -> A -> Prop) l x : StronglySorted R l -> (forall y, In y l -> R y x) -> StronglySorted R (l ++ [x]).
Proof.
  induction 1 as [|y l S IH F]; intros H; cbn [app]; [constructor; constructor|]. constructor; [apply IH; intros z I; apply H; right; exact I|].
  apply Forall_app. split; [exact F|]. constructor; [apply H; left; reflexivity|constructor].
Qed.
Lemma strong_app_inv {A} (R : A -> A -> Prop) : forall l m, StronglySorted R (l ++ m) -> StronglySorted R l /\ StronglySorted R m /\ forall x y, In x l -> In y m -> R x y.
Proof.
  induction l as [|x l IH]; intros m S; cbn [app] in S; [split; [constructor|]; split; [exact S|intros x y []]|]. apply StronglySorted_inv in S. destruct S as [S F].
  destruct (IH m S) as [G1 [G2 G3]]. apply Forall_app in F. destruct F as [F1 F2]. rewrite Forall_forall in F2. split; [constructor; assumption|]. split; [exact G2|]. intros y z [<-|I] J; [apply F2; exact J|apply G3; assumption].
Qed.

Lemma faithful_snoc b ch xs y pre r rest t data : timely b -> faithful b ch xs -> lastOf xs = Some y -> b_ids b = (pre ++ [itemRun y]) ++ r :: rest ->
  b_ready b r = true -> b_time b r = Some t -> b_delta b r (c_dir ch) = Some data -> faithful b ch (xs ++ [(r, t, data)]).
Proof.
  intros [TS TR] [S1 [W F]] L EB RB T D.
  assert (Ir : In r (b_ids b)) by (rewrite EB; apply in_or_app; right; left; reflexivity).
  pose proof TS as TS'. rewrite EB in TS'. destruct (strong_app_inv _ _ _ TS') as [SP [SR SX]].
  assert (YR : before (itemRun y) r) by (apply SX; [apply in_or_app; right; left; reflexivity|left; reflexivity]).
  assert (NEX : xs <> []) by (intros ->; discriminate L). pose proof L as L'. apply (proj1 (lastOf_some _ _)) in L'. destruct L' as [xs' EX].
  unfold faithful. rewrite !map_app. cbn [map]. split; [|split].
  - apply strong_snoc; [exact S1|]. intros z I. cbn [itemRun fst]. rewrite EX, map_app in I, S1. cbn [map] in I, S1. apply in_app_iff in I. destruct I as [I|[<-|[]]]; [|exact YR].
    apply (before_trans _ (itemRun y)); [|exact YR]. exact (sorted_last _ _ _ S1 z I).
  - apply Forall_app. split; [exact W|]. constructor; [|constructor]. apply TR. exact Ir.
  - destruct xs as [|x0 xs0]; [congruence|]. cbn [app]. destruct F as [F0 [F1 F2]]. split; [exact F0|]. split.
    + intros x I Ix. apply in_app_iff in I. destruct I as [I|[<-|[]]]; [apply F1; assumption|]. cbn [itemRun itemTime fst snd]. auto.
    + intros r' y' L' I NB NA. rewrite app_comm_cons, lastOf_app in L'. injection L' as <-. cbn [itemRun fst] in NA.
      match goal with |- In _ ?l => assert (EL : l = map itemRun (x0 :: xs0) ++ [r]) by (cbn [map app]; rewrite ?map_app; reflexivity); rewrite EL end. apply in_or_app.
      rewrite EB in I. apply in_app_iff in I. destruct I as [I|[<-|I]].
      * left. apply (F2 r' y L); [rewrite EB; apply in_or_app; left; exact I|exact NB|]. apply in_app_iff in I. destruct I as [I|[<-|[]]]; [|apply before_irrefl].
        apply before_asym. exact (sorted_last _ _ _ SP r' I).
      * right. left. reflexivity.
      * exfalso. apply NA. apply StronglySorted_inv in SR. destruct SR as [_ FR]. rewrite Forall_forall in FR. apply FR. exact I.
Qed.

(** A full filter of a run is a chain by itself. *)
Lemma faithful_one b ch r t data : timely b -> In r (b_ids b) -> b_ready b r = true -> b_time b r = Some t -> b_filter b r (c_dir ch) = Some data -> faithful b ch [(r, t, data)].
Proof.
  intros [TS TR] I RB T F. destruct (TR r I) as [R _].
  split; [repeat constructor|]. split; [constructor; [exact R|constructor]|].
  split; [auto|]. split; [intros x []|]. intros r' y L I' NB NA. injection L as <-. cbn [itemRun fst map In] in *. left.
  (* strictly sorted identifiers: neither before the other means equal *)
  assert (G : forall l, StronglySorted before l -> In r l -> In r' l -> ~ before r r' -> ~ before r' r -> r = r').
  { clear. induction l as [|x l IH]; intros S I I' N N'; [destruct I|]. apply StronglySorted_inv in S. destruct S as [S F]. rewrite Forall_forall in F.
    destruct I as [<-|I], I' as [<-|I']; [reflexivity|exfalso; apply N; apply F; exact I'|exfalso; apply N'; apply F; exact I|apply IH; assumption]. }
  exact (G _ TS I I' NA NB).
Qed.

(** ** The run *)
(** What is left of a bucket when its oldest runs are deleted. *)
Definition tailOf (b full : bucket) : Prop :=
  (exists old, b_ids full = old ++ b_ids b) /\
  forall r, In r (b_ids b) -> b_ready full r = b_ready b r /\
    (b_ready b r = true -> b_time full r = b_time b r /\ forall d, b_filter full r d = b_filter b r d /\ b_delta full r d = b_delta b r d).
Lemma tailOf_refl b : tailOf b b.
Proof. split; [exists []; reflexivity|auto]. Qed.
Lemma timely_tail b full : timely full -> tailOf b full -> timely b.
Proof.
  intros [S R] [[old E] A]. split; [rewrite E in S; apply (strong_app_inv _ _ _ S)|]. intros r I.
  destruct (R r) as [R1 R2]; [rewrite E; apply in_or_app; right; exact I|]. split; [exact R1|]. intros RD. destruct (A r I) as [A1 A2]. destruct (R2 (eq_trans A1 RD)) as [t T].
  exists t. rewrite <- T. symmetry. apply A2. exact RD.
Qed.

Section Run.
  Variable fresh : list frec -> bytes.
  Variable listing : list frec -> list frec.
  Variable ok : fault -> Prop.
  Hypothesis Fresh : forall l, ~ In (fresh l) (map r_id l).
  Hypothesis Listing : forall l, Permutation (listing l) l.
  Variables b full : bucket.
  Variable ch : channel.
  Hypothesis TimelyF : timely full.
  Hypothesis Tail : tailOf b full.
  Hypothesis Plain : plain ch.
  Variable seen : bytes -> Prop.
  Hypothesis Seen : forall r, In r (b_ids b) -> seen r.
  Let Timely : timely b := timely_tail b full TimelyF Tail.

  Let wpp {A} (p : prog attrs A) := wp fresh listing ok p.
  Let server := server attrs.

  Lemma kept r : In r (b_ids b) -> b_ready b r = true -> In r (b_ids full) /\ b_ready full r = true /\ b_time full r = b_time b r /\ forall d, b_filter full r d = b_filter b r d /\ b_delta full r d = b_delta b r d.
  Proof.
    intros I RD. pose proof Tail as TL. destruct TL as [[old E] A]. destruct (A r I) as [A1 A2]. split; [rewrite E; apply in_or_app; right; exact I|]. split; [congruence|]. apply A2. exact RD.
  Qed.

  Lemma wp_clearRecords inc (s : server) : NoDup (map r_id (sv_recs s)) -> (forall r, In r (chan ch (sv_recs s)) -> a_inc (r_data r) <> None) ->
    wpp (clearRecords inc false ch) (fun o s' => exists D, sv_recs s' = without D (sv_recs s) /\ sv_reviews s' = sv_reviews s /\
      (forall id, In id D -> exists r, In r (chan ch (sv_recs s)) /\ r_id r = id /\ a_inc (r_data r) = Some inc) /\
      match o with Done _ => forall r, In r (chan ch (sv_recs s)) -> a_inc (r_data r) = Some inc -> In (r_id r) D | Raised _ => faulty ok | Died => True end) s.
  Proof.
    intros ND A. unfold wpp, clearRecords. apply wp_seq. eapply wp_mono; [|exact (wp_get fresh listing ok s)].
    intros o s' [-> H]. destruct o as [l|e|]; [|exists []; rewrite without_nil; repeat split; [intros id []|exact H]|exists []; rewrite without_nil; repeat split; intros id []].
    subst l. pose proof (perm_filter (inChannel ch) _ _ (Listing (sv_recs s))) as P. fold (chan ch (sv_recs s)) in P.
    assert (IFF : forall r, In r (filter (inChannel ch) (listing (sv_recs s))) <-> In r (chan ch (sv_recs s))).
    { intros r. split; intros I; [apply (Permutation_in _ P); exact I|apply (Permutation_in _ (Permutation_sym P)); exact I]. }
    eapply wp_mono; [|apply (wp_delete fresh listing ok inc)].
    - intros o s' [D [E [RV [HD HO]]]]. exists D. split; [exact E|]. split; [exact RV|]. split.
      + intros id I. destruct (HD id I) as [r [J K]]. exists r. split; [apply IFF; exact J|exact K].
      + destruct o; [|exact HO|exact HO]. intros r I. apply HO. apply IFF. exact I.
    - intros r I. apply IFF in I. apply A. exact I.
    - apply (Permutation_NoDup (l := map r_id (chan ch (sv_recs s)))); [apply Permutation_map; apply Permutation_sym; exact P|].
      clear -ND. induction (sv_recs s) as [|x l IH]; [constructor|]. cbn [map] in ND. apply NoDup_cons_iff in ND. destruct ND as [NI ND]. rewrite chan_cons.
      destruct (inChannel ch x); [|apply IH; exact ND]. cbn [map]. constructor; [|apply IH; exact ND]. intros I. apply NI. apply in_map_iff in I. destruct I as [y [E I]]. rewrite <- E. apply in_map. apply in_chan in I. tauto.
    - intros r I. apply IFF in I. apply in_chan in I. tauto.
  Qed.

  (** The channel publishes the runs up to [new]. *)
  Definition current (recs : list frec) (new : bytes) : Prop := exists xs y, sound full ch recs xs /\ lastOf xs = Some y /\ itemRun y = new.

  Definition complete : Prop := forall r, In r (b_ids b) -> b_ready b r = true -> b_filter b r (c_dir ch) <> None /\ b_delta b r (c_dir ch) <> None.

  Definition Post {A} (new : bytes) (s0 : server) (o : outcome A) (s' : server) : Prop :=
    recoverable seen full ch (sv_recs s') /\ others ch (sv_recs s') = others ch (sv_recs s0) /\
    match o with
    | Done _ => current (sv_recs s') new /\ sv_wip s' = false /\ sv_reviews s' = sv_recs s' :: sv_reviews s0
    | Raised _ => faulty ok \/ ~ complete
    | Died => True
    end.

  Lemma wp_finish {A} (v : A) new (s0 s : server) : recoverable seen full ch (sv_recs s) -> others ch (sv_recs s) = others ch (sv_recs s0) -> current (sv_recs s) new ->
    sv_wip s = true -> sv_reviews s = sv_reviews s0 -> wpp (seq (if false then Ret tt else requestReview) (fun _ => Ret v)) (Post new s0) s.
  Proof.
    intros R O C W RV. unfold wpp. apply wp_seq. eapply wp_mono; [|exact (wp_review fresh listing ok s W)].
    intros o s' [E H]. destruct o as [[]|e|]; cbn [wp]; unfold Post; rewrite E; (split; [exact R|split; [exact O|]]); [|left; exact H|exact H].
    split; [exact C|]. split; [apply H|]. destruct H as [_ H]. rewrite H, RV. reflexivity.
  Qed.

  Lemma wp_replace new t data (s0 : server) : lastOf (b_ids b) = Some new -> b_ready b new = true -> b_time b new = Some t -> b_filter b new (c_dir ch) = Some data -> recoverable seen full ch (sv_recs s0) ->
    wpp (seq (clearRecords false false ch) (fun _ =>
         seq (clearRecords true false ch) (fun _ =>
           seq (publishFull false ch new t data) (fun _ => seq (if false then Ret tt else requestReview) (fun _ => Ret (Some new)))))) (Post new s0) s0.
  Proof.
    intros L RN T F R. pose proof (base_recoverable _ _ _ _ R) as BS.
    assert (IN : In new (b_ids b)) by (apply (proj1 (lastOf_some _ _)) in L; destruct L as [l' ->]; apply in_or_app; right; left; reflexivity).
    assert (IRN : isRun new) by (apply Timely; exact IN).
    unfold wpp. apply wp_seq. eapply wp_mono; [|apply (wp_clearRecords false s0 (proj1 BS) (fun r I => proj1 (proj1 (proj2 BS) r I)))]. intros o s1 [D [E1 [RV1 [HD HO]]]].
    assert (R1 : recoverable seen full ch (sv_recs s1)) by (rewrite E1; apply clear_full; assumption).
    assert (O1 : others ch (sv_recs s1) = others ch (sv_recs s0)).
    { rewrite E1. apply others_without; [apply BS|]. intros id I. destruct (HD id I) as [r [J [K _]]]. eauto. }
    destruct o as [[]|e|]; [|split; [exact R1|split; [exact O1|left; exact HO]]|split; [exact R1|split; [exact O1|exact HO]]].
    assert (NF : forall r, In r (chan ch (sv_recs s1)) -> isFull r = false).
    { intros r I. rewrite E1, chan_without in I. apply in_without in I. destruct I as [I N]. destruct (isFull r) eqn:X; [|reflexivity]. exfalso. apply N. apply HO; [exact I|apply isFull_inc; exact X]. }
    pose proof (base_recoverable _ _ _ _ R1) as BS1. clear HD HO.
    apply wp_seq. eapply wp_mono; [|apply (wp_clearRecords true s1 (proj1 BS1) (fun r I => proj1 (proj1 (proj2 BS1) r I)))]. intros o s2 [D2 [E2 [RV2 [HD HO]]]].
    assert (R2 : recoverable seen full ch (sv_recs s2)) by (rewrite E2; apply clear_some; assumption).
    assert (O2 : others ch (sv_recs s2) = others ch (sv_recs s0)).
    { rewrite <- O1, E2. apply others_without; [apply BS1|]. intros id I. destruct (HD id I) as [r [J [K _]]]. eauto. }
    destruct o as [[]|e|]; [|split; [exact R2|split; [exact O2|left; exact HO]]|split; [exact R2|split; [exact O2|exact HO]]].
    assert (EMP : chan ch (sv_recs s2) = []).
    { destruct (chan ch (sv_recs s2)) as [|r m] eqn:X; [reflexivity|]. exfalso. assert (I : In r (chan ch (sv_recs s2))) by (rewrite X; left; reflexivity).
      rewrite E2, chan_without in I. apply in_without in I. destruct I as [I N]. apply N. apply HO; [exact I|]. pose proof (NF r I) as G. destruct BS1 as [_ [A _]]. destruct (A r I) as [B1 _].
      unfold isFull in G. destruct (a_inc (r_data r)) as [[]|]; [reflexivity|discriminate G|congruence]. }
    pose proof (base_recoverable _ _ _ _ R2) as BS2. apply wp_seq. unfold publishFull.
    set (a := mkAttrs (Some (fullName t)) (Some false) None (Some (c_slug ch)) (t * 1000)).
    eapply wp_mono; [|exact (wp_publish fresh listing ok Fresh a (fullName t) (fullFile ch new) data s2)].
    set (id := fresh (sv_recs s2)). intros o s3 [[RV3 PT] HO3].
    set (r1 := mkRecord id a None : frec) in *. set (r2 := mkRecord id a (Some (fullFile ch new, data)) : frec) in *.
    assert (IC : forall x, inChannel ch (mkRecord id a x) = true) by (intros x; apply beq_refl).
    assert (RX : recordOf ch false None (new, t, data) r2) by (split; reflexivity).
    assert (FRE : ~ In id (map r_id (sv_recs s2))) by apply Fresh.
    assert (A1 : recoverable seen full ch (r1 :: sv_recs s2)).
    { apply add_unattached; [exact BS2|exact FRE|apply IC|reflexivity|discriminate|discriminate|intros _; exact EMP]. }
    destruct (add_sound seen full ch (sv_recs s2) r2 [r2] [(new, t, data)] false None (new, t, data) Plain BS2 FRE IRN (Seen _ IN) (fun _ => proj1 (proj2 (kept new IN RN))) RX) as [A2 S2].
    { rewrite chan_cons. unfold r2 at 2. rewrite (IC (Some (fullFile ch new, data))). fold r2. rewrite EMP. reflexivity. }
    { split; [exact RX|exact I]. }
    { destruct (kept new IN RN) as [K1 [K2 [K3 K4]]]. apply faithful_one; [exact TimelyF|exact K1|exact K2|congruence|]. rewrite (proj1 (K4 _)). exact F. }
    assert (R3 : recoverable seen full ch (sv_recs s3)) by (destruct PT as [-> |[-> | ->]]; assumption).
    assert (O3 : others ch (sv_recs s3) = others ch (sv_recs s0)) by (destruct PT as [-> |[-> | ->]]; rewrite ?others_cons by apply IC; exact O2).
    destruct o as [i|e|]; [|split; [exact R3|split; [exact O3|left; exact HO3]]|split; [exact R3|split; [exact O3|exact HO3]]].
    destruct HO3 as [-> [W3 E3]]. apply wp_finish; [exact R3|exact O3| |exact W3|congruence].
    exists [(new, t, data)], (new, t, data). rewrite E3. split; [exact S2|auto].
  Qed.

  (** The next runs are added one by one. *)
  Lemma wp_deltas : forall runs new (s0 s : server) l xs y z pre p,
    lastOf (b_ids b) = Some new -> recoverable seen full ch (sv_recs s) -> others ch (sv_recs s) = others ch (sv_recs s0) -> sv_reviews s = sv_reviews s0 ->
    (runs = [] -> sv_wip s = true) ->
    Permutation l (chan ch (sv_recs s)) -> publishes ch l xs -> faithful full ch xs -> lastOf xs = Some y -> lastOf l = Some z -> p = r_id z ->
    b_ids b = (pre ++ [itemRun y]) ++ runs -> (forall r, In r runs -> b_ready b r = true) ->
    wpp (seq (publishDeltas false b ch p runs) (fun _ => seq (if false then Ret tt else requestReview) (fun _ => Ret (@None bytes)))) (Post new s0) s.
  Proof.
    induction runs as [|r runs IH]; intros new s0 s l xs y z pre p L R O RV W P PU FA LX LL EP EB RDY; cbn [publishDeltas].
    - cbn [seq]. apply wp_finish; [exact R|exact O| |apply W; reflexivity|exact RV]. exists xs, y. split; [exists l; auto|]. split; [exact LX|].
      rewrite app_nil_r in EB. rewrite EB, lastOf_app in L. congruence.
    - assert (Ir : In r (b_ids b)) by (rewrite EB; apply in_or_app; right; left; reflexivity).
      destruct (b_delta b r (c_dir ch)) as [data|] eqn:ED; [|split; [exact R|]; split; [exact O|]; right; intros C; exact (proj2 (C r Ir (RDY r (or_introl eq_refl))) ED)].
      destruct (proj2 Timely r Ir) as [IRN TT]. destruct (TT (RDY r (or_introl eq_refl))) as [t T]. rewrite T.
      pose proof (base_recoverable _ _ _ _ R) as BS.
      assert (ASSOC : forall (p : prog attrs bytes) (f : bytes -> prog attrs unit) (g : unit -> prog attrs (option bytes)) (Q : outcome (option bytes) -> server -> Prop) s,
        wpp (seq p (fun a => seq (f a) g)) Q s -> wpp (seq (seq p f) g) Q s).
      { clear. intros p f g Q. unfold wpp. induction p as [a|e|c k IHp]; intros s H; cbn [seq wp] in *; [exact H|exact H|]. destruct H as [H1 [H2 [H3 H4]]]. repeat split; auto. }
      apply ASSOC. unfold wpp. apply wp_seq. unfold publishDelta. set (a := mkAttrs (Some (diffName t)) (Some true) (Some p) (Some (c_slug ch)) (t * 1000)).
      eapply wp_mono; [|exact (wp_publish fresh listing ok Fresh a (diffName t) (deltaFile ch r) data s)].
      set (id := fresh (sv_recs s)). intros o s3 [[RV3 PT] HO3].
      set (r1 := mkRecord id a None : frec) in *. set (r2 := mkRecord id a (Some (deltaFile ch r, data)) : frec) in *.
      assert (IC : forall x, inChannel ch (mkRecord id a x) = true) by (intros x; apply beq_refl).
      assert (RX : recordOf ch true (Some p) (r, t, data) r2) by (split; reflexivity).
      assert (FRE : ~ In id (map r_id (sv_recs s))) by apply Fresh.
      assert (A1 : recoverable seen full ch (r1 :: sv_recs s)).
      { apply add_unattached; [exact BS|exact FRE|apply IC|reflexivity|discriminate|discriminate|discriminate]. }
      assert (P2 : Permutation (l ++ [r2]) (chan ch (r2 :: sv_recs s))).
      { rewrite chan_cons. unfold r2 at 2. rewrite (IC (Some (deltaFile ch r, data))). fold r2. rewrite <- P. symmetry. apply Permutation_cons_append. }
      assert (PU2 : publishes ch (l ++ [r2]) (xs ++ [(r, t, data)])) by (eapply publishes_snoc; [exact PU|exact LL|rewrite <- EP; exact RX]).
      destruct (kept r Ir (RDY r (or_introl eq_refl))) as [K1 [K2 [K3 K4]]].
      assert (EBF : exists old, b_ids full = ((old ++ pre) ++ [itemRun y]) ++ r :: runs) by (pose proof Tail as TL; destruct TL as [[old E] _]; exists old; rewrite E, EB, <- !app_assoc; reflexivity).
      destruct EBF as [old EBF].
      assert (FA2 : faithful full ch (xs ++ [(r, t, data)])) by (eapply faithful_snoc; [exact TimelyF|exact FA|exact LX|exact EBF|exact K2|congruence|rewrite (proj2 (K4 _)); exact ED]).
      destruct (add_sound seen full ch (sv_recs s) r2 (l ++ [r2]) (xs ++ [(r, t, data)]) true (Some p) (r, t, data) Plain BS FRE IRN (Seen _ Ir) (fun _ => K2) RX P2 PU2 FA2) as [A2 S2].
      assert (R3 : recoverable seen full ch (sv_recs s3)) by (destruct PT as [-> |[-> | ->]]; assumption).
      assert (O3 : others ch (sv_recs s3) = others ch (sv_recs s0)) by (destruct PT as [-> |[-> | ->]]; rewrite ?others_cons by apply IC; exact O).
      destruct o as [i|e|]; [|split; [exact R3|split; [exact O3|left; exact HO3]]|split; [exact R3|split; [exact O3|exact HO3]]].
      destruct HO3 as [-> [W3 E3]]. fold id in E3. fold r2 in E3.
      apply (IH new s0 s3 (l ++ [r2]) (xs ++ [(r, t, data)]) (r, t, data) r2 (pre ++ [itemRun y]) id); auto.
      + congruence.
      + rewrite E3. exact P2.
      + apply lastOf_app.
      + apply lastOf_app.
      + cbn [itemRun fst]. rewrite EB, <- !app_assoc. reflexivity.
      + intros q I. apply RDY. right. exact I.
  Qed.

  Definition Whole (s0 : server) (o : outcome (option bytes)) (s' : server) : Prop :=
    recoverable seen full ch (sv_recs s') /\ others ch (sv_recs s') = others ch (sv_recs s0) /\
    match o with
    | Done _ =>
        match lastOf (b_ids b) with
        | Some new =>
            if b_ready b new then current (sv_recs s') new /\ (s' = s0 \/ sv_wip s' = false /\ sv_reviews s' = sv_recs s' :: sv_reviews s0)
            else s' = s0
        | None => s' = s0
        end
    | Raised _ => faulty ok \/ ~ complete
    | Died => True
    end.

  Lemma runOf_fun (r : frec) a c : runOf r a -> runOf r c -> a = c.
  Proof.
    intros [n1 [d1 [e1 [A1 [B1 C1]]]]] [n2 [d2 [e2 [A2 [B2 C2]]]]]. rewrite A1 in A2. injection A2 as <- <-.
    assert (G : Some (a, e1) = Some (c, e2)) by (transitivity (rcut "-"%byte n1); [symmetry|]; apply rcut_spec; auto). congruence.
  Qed.
  Lemma Forall2_in_l {A B0} (R : A -> B0 -> Prop) l m : Forall2 R l m -> forall x, In x l -> exists y, In y m /\ R x y.
  Proof. induction 1 as [|a c l m H F IH]; intros x I; [destruct I|]. destruct I as [<-|I]; [exists c; split; [left; reflexivity|exact H]|]. destruct (IH x I) as [y [J K]]. exists y. split; [right; exact J|exact K]. Qed.

  Lemma wp_whole (s0 : server) : recoverable seen full ch (sv_recs s0) -> wpp (publishCrlite false b ch) (Whole s0) s0.
  Proof.
    intros R. unfold wpp, publishCrlite. apply wp_seq. eapply wp_mono; [|exact (wp_get fresh listing ok s0)].
    intros o s' [-> H]. destruct o as [all|e|]; [|split; [exact R|split; [reflexivity|left; exact H]]|split; [exact R|split; [reflexivity|exact I]]].
    subst all. pose proof (perm_filter (inChannel ch) _ _ (Listing (sv_recs s0))) as PL. fold (chan ch (sv_recs s0)) in PL.
    pose proof (base_recoverable _ _ _ _ R) as BS. destruct (BS) as [ND [AT FU]].
    assert (EXI : exists existing, sortRecords (filter (inChannel ch) (listing (sv_recs s0))) = Val existing /\ Permutation existing (chan ch (sv_recs s0))).
    { destruct (sortRecords_perm (filter (inChannel ch) (listing (sv_recs s0)))) as [l [E P]].
      { intros r I. apply (Permutation_in _ PL) in I. apply AT. exact I. }
      exists l. split; [exact E|]. etransitivity; [exact P|exact PL]. }
    destruct EXI as [existing [ES PE]]. rewrite ES. unfold ofPy at 1. cbn [seq].
    destruct (lastOf (b_ids b)) as [new|] eqn:EN; [|split; [exact R|]; split; [reflexivity|]; rewrite EN; reflexivity].
    destruct (b_ready b new) eqn:RD; [|split; [exact R|]; split; [reflexivity|]; rewrite EN, RD; reflexivity].
    assert (IN : In new (b_ids b)) by (pose proof EN as L; apply (proj1 (lastOf_some _ _)) in L; destruct L as [l' ->]; apply in_or_app; right; left; reflexivity).
    assert (IE : forall r, In r existing -> In r (chan ch (sv_recs s0))) by (intros r I; apply (Permutation_in _ PE); exact I).
    assert (IC : forall r, In r existing -> inChannel ch r = true) by (intros r I; apply IE in I; apply in_chan in I; tauto).
    destruct (C44_decided b ch existing new EN RD) as [t ET].
    { intros r I. exact (proj2 Timely r I). }
    { intros r I. destruct (AT r (IE r I)) as [A [_ [B0|[run [B1 [_ B2]]]]]]; split; [exact A|left; exact B0|exact A|right; exists run]. destruct B2 as [B2 B3]. split; [exact B1|]. split; [exact B2|].
      intros J. pose proof Tail as TL. destruct TL as [[old E] TA]. rewrite <- (proj1 (TA run J)). apply B3. rewrite E. apply in_or_app. right. exact J. }
    { exact IC. }
    rewrite ET. unfold ofPy. cbn [seq]. destruct t as [cl up]. cbn [t_clear t_upload].
    assert (PW : forall o s', Post new s0 o s' -> Whole s0 o s').
    { intros o s' [A [B0 C]]. split; [exact A|]. split; [exact B0|]. destruct o; [rewrite EN, RD; destruct C as [C1 C2]; auto|exact C|exact I]. }
    destruct cl.
    - destruct (C44_full _ _ _ _ ET) as [new' [EN' ->]]. rewrite EN in EN'. injection EN' as <-. cbn [lastOf].
      destruct (b_filter b new (c_dir ch)) as [data|] eqn:EF; [|split; [exact R|]; split; [reflexivity|]; right; intros C; exact (proj1 (C new IN RD) EF)].
      destruct (proj2 (proj2 Timely new IN) RD) as [t T]. rewrite T. eapply wp_mono; [exact PW|]. exact (wp_replace new t data s0 EN RD T EF R).
    - destruct existing as [|f existing0] eqn:EE.
      { unfold determine in ET. rewrite EN in ET. discriminate ET. }
      rewrite <- EE in *. assert (NE : existing <> []) by (rewrite EE; discriminate). clear EE f existing0.
      assert (WR : forall r, In r (b_ids b) -> isRun r) by (intros r I; apply Timely; exact I).
      apply (proj1 (C44_incremental b ch existing up (proj1 Timely) WR NE IC)) in ET.
      destruct ET as [new' [pre [runs [cut [m [t0 [t1 [[l [PC [CC [_ ATC]]]] [EN' [RO [EC [EB [PRE [UP [RP [RVU _]]]]]]]]]]]]]]]]. rewrite EN in EN'. injection EN' as <-.
      assert (SND : exists xs, sound full ch (sv_recs s0) xs).
      { destruct R as [_ [_ [_ [R|[R|[r [I N]]]]]]]; [exact R| |].
        - exfalso. destruct l as [|f l]; [destruct CC|]. destruct CC as [CF _]. assert (If : In f (chan ch (sv_recs s0))) by (apply IE; apply (Permutation_in _ PC); left; reflexivity).
          apply R in If. apply (proj2 (isFull_inc f)) in CF. congruence.
        - exfalso. apply (ATC r); [|exact N]. apply (Permutation_in _ (Permutation_sym PC)). apply (Permutation_in _ (Permutation_sym PE)). exact I. }
      destruct SND as [xs [l1 [P1 [PU FA]]]].
      assert (FR : Forall isRun (map itemRun xs)) by apply FA. destruct (publishes_runs ch l1 xs Plain FR PU) as [RO' _].
      assert (PEL : Permutation existing l1) by (etransitivity; [exact PE|symmetry; exact P1]).
      (* the last record by name is the last of the chain *)
      destruct (lastOf xs) as [y|] eqn:LX; [|apply (proj1 (lastOf_none _)) in LX; subst xs; destruct FA as [_ [_ []]]].
      pose proof LX as LX'. apply (proj1 (lastOf_some _ _)) in LX'. destruct LX' as [xs' EX].
      destruct (lastOf existing) as [z|] eqn:LE; [|apply (proj1 (lastOf_none _)) in LE; contradiction].
      pose proof LE as LE'. apply (proj1 (lastOf_some _ _)) in LE'. destruct LE' as [ex' EEX].
      assert (RZ : runOf z cut).
      { rewrite EEX in RO. apply Forall2_app_inv_l in RO. destruct RO as [ra [rb [_ [RB ER]]]]. inversion RB as [|? c ? ? RB1 RB2]; subst. inversion RB2; subst.
        rewrite lastOf_app in EC. injection EC as <-. exact RB1. }
      assert (LAST : exists l1', l1 = l1' ++ [z] /\ itemRun y = cut).
      { rewrite EX, map_app in RO'. cbn [map] in RO'. apply Forall2_app_inv_r in RO'. destruct RO' as [la [lb [RA [RB EL]]]]. inversion RB as [|zl ? ? ? RB1 RB2]; subst lb. inversion RB2; subst.
        assert (IZ : In z (la ++ [zl])) by (apply (Permutation_in _ PEL); apply in_or_app; right; left; reflexivity).
        assert (NB : ~ before cut (itemRun y)).
        { assert (IL : In zl (ex' ++ [z])) by (apply (Permutation_in _ (Permutation_sym PEL)); apply in_or_app; right; left; reflexivity).
          destruct (Forall2_in_l _ _ _ RO _ IL) as [rr [Irr Rrr]]. assert (rr = itemRun y) by (eapply runOf_fun; eassumption). subst rr. apply PRE. apply RP. exact Irr. }
        apply in_app_iff in IZ. destruct IZ as [IZ|[->|[]]].
        - exfalso. apply NB. destruct (Forall2_in_l _ _ _ RA _ IZ) as [rr [Irr Rrr]]. assert (rr = cut) by (eapply runOf_fun; eassumption). subst rr.
          destruct FA as [FS _]. rewrite map_app in FS. exact (sorted_last _ _ _ FS cut Irr).
        - exists la. split; [reflexivity|]. eapply runOf_fun; eassumption. }
      destruct LAST as [l1' [EL1 EYC]]. subst cut.
      (* the last published run comes just before the new ones *)
      assert (EPRE : exists pre', pre = pre' ++ [itemRun y]).
      { assert (IP : In (itemRun y) pre) by (apply RP; apply (proj1 (lastOf_some _ _)) in EC; destruct EC as [rr ->]; apply in_or_app; right; left; reflexivity).
        apply in_split in IP. destruct IP as [l2 [l3 EP]]. exists l2. destruct l3 as [|w l3]; [exact EP|]. exfalso. apply (PRE w); [rewrite EP; apply in_or_app; right; right; left; reflexivity|].
        destruct Timely as [TS _]. rewrite EB, EP, <- app_assoc in TS. destruct (strong_app_inv _ _ _ TS) as [_ [S2 _]]. cbn [app] in S2. apply StronglySorted_inv in S2. destruct S2 as [_ F2]. rewrite Forall_forall in F2. apply F2. left. reflexivity. }
      destruct EPRE as [pre' ->].
      destruct (lastOf up) as [final|] eqn:LU.
      + assert (FN : final = new).
        { apply (proj1 (lastOf_some _ _)) in LU. destruct LU as [u' ->]. rewrite EB, app_assoc, lastOf_app in EN. congruence. }
        subst final. destruct (b_filter b new (c_dir ch)) as [data|] eqn:EF; [|split; [exact R|]; split; [reflexivity|]; right; intros C; exact (proj1 (C new IN RD) EF)].
        eapply wp_mono; [exact PW|]. apply (wp_deltas up new s0 s0 l1 xs y z pre' (r_id z)); auto; [intros ->; discriminate LU|rewrite EL1; apply lastOf_app|intros q Iq; apply RVU; exact Iq].
      + apply (proj1 (lastOf_none _)) in LU. subst up. cbn [wp]. split; [exact R|]. split; [reflexivity|]. rewrite EN, RD. split; [|left; reflexivity].
        exists xs, y. split; [exists l1; auto|]. split; [exact LX|]. rewrite app_nil_r in EB. rewrite EB, lastOf_app in EN. congruence.
  Qed.
End Run.
