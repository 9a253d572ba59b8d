(** * C82: one run of the publisher over its three collections *)
From Verif Require Import Base Base64 RemoteModel RemoteProofs PublishModel CtlogsModel CtlogsProofs IntermediatesModel P_Publish PublishProofs PublishProofs2 P_RunIds PublishProofs3 PublishProofs4 P_Recover P_Ctlogs P_Intermediates PublishMainModel.
From Coq Require Import Permutation Sorted.

Section C82.
  Variable idOfKey : bytes -> option bytes.
  Variable parsePem : bytes -> pem.
  Variable decode64 : bytes -> option bytes.
  Variable order : list pinfo -> list pinfo.
  Variable freshL : list lrec -> bytes.   Variable listL : list lrec -> list lrec.
  Variable freshF : list frec -> bytes.   Variable listF : list frec -> list frec.
  Variable freshI : list irec -> bytes.   Variable listI : list irec -> list irec.
  Notation main := (mainRun idOfKey parsePem decode64 order freshL listL freshF listF freshI listI).

  (** ** Dry runs *)
  Lemma run_wp (p : prog attrs (option bytes)) (s : server attrs) : (forall fs, snd (run freshF listF p s fs) = s) -> wp freshF listF (fun _ => True) p (fun _ s' => s' = s) s.
  Proof using Type.
    assert (G : forall s0, (forall fs, snd (run freshF listF p s0 fs) = s) -> wp freshF listF (fun _ => True) p (fun _ s' => s' = s) s0); [|apply G].
    induction p as [a|e|c k IH]; intros s0 H; cbn [wp]; [exact (H [])|exact (H [])|]. repeat split.
    - apply IH. intros fs. exact (H (FOk :: fs)).
    - intros b _. apply IH. intros fs. exact (H (FKinto b :: fs)).
    - intros b _. apply IH. intros fs. exact (H (FOther b :: fs)).
    - intros b _. exact (H [FDie b]).
  Qed.
  Lemma dry_filters b l (s : server attrs) fs : snd (run freshF listF (publishAll true b l) s fs) = s.
  Proof using Type.
    apply (wp_run _ freshF listF (fun _ => True) (publishAll true b l) (fun _ s' => s' = s)); [|apply Forall_forall; auto]. unfold publishAll. apply wp_seq.
    assert (E : forall l, wp freshF listF (fun _ => True) (publishEnabled true b l) (fun _ s' => s' = s) s).
    { clear l. induction l as [|ch l IH]; cbn [publishEnabled]; [reflexivity|]. destruct (c_enabled ch); [|exact IH]. apply wp_seq.
      eapply wp_mono; [|apply run_wp; intros fs'; apply C45_dry_run]. intros o s' ->. destruct o; [exact IH|reflexivity|reflexivity]. }
    eapply wp_mono; [|apply E]. intros o s' ->. destruct o; [|reflexivity|reflexivity].
    induction l as [|ch l IH]; cbn [clearDisabled clearRecords seq]; [reflexivity|]. destruct (c_enabled ch); exact IH.
  Qed.
  (** With --noop none of the three collections changes, whatever is read and whatever fails. *)
  Theorem C82_dry_run inp (s : site) t : snd (main true inp s t) = s.
  Proof using Type.
    unfold mainRun.
    assert (L : snd (run freshL listL (logsStage idOfKey true inp) (s_logs s) (t_logs t)) = s_logs s) by (unfold logsStage; destruct (i_logs inp); [apply C46_dry_run|reflexivity]).
    assert (F : snd (run freshF listF (filtersStage true inp) (s_filters s) (t_filters t)) = s_filters s) by (apply dry_filters).
    assert (I : snd (run freshI listI (intsStage parsePem decode64 order true inp) (s_ints s) (t_ints t)) = s_ints s).
    { unfold intsStage. destruct (i_local inp) as [[es|]|]; [apply C47_dry_run|reflexivity|]. destruct (lastOf (i_ids inp)) as [r|]; [|reflexivity]. destruct (i_enrolled inp r); [apply C47_dry_run|reflexivity]. }
    destruct (run freshL listL _ _ _) as [o1 a]. destruct (run freshF listF _ _ _) as [o2 b]. destruct (run freshI listI _ _ _) as [o3 c]. cbn [snd] in L, F, I. subst a b c.
    destruct o1; [|destruct s; reflexivity|destruct s; reflexivity]. destruct o2; destruct s; reflexivity.
  Qed.

  (** ** What comes before what *)
  Hypothesis ListL : forall l, Permutation (listL l) l.

  (** The filters are touched only after the list of logs was fetched and found sound, and found in the collection by the id of each log. *)
  Theorem C82_logs_first noop inp (s : site) t : s_filters (snd (main noop inp s t)) <> s_filters s \/ s_ints (snd (main noop inp s t)) <> s_ints s \/ fst (main noop inp s t) = Done tt ->
    exists ops, i_logs inp = Some ops /\ goodList idOfKey ops /\ NoDup (map (fun r => g_logID (r_data r)) (sv_recs (s_logs s))) /\ (forall r, In r (sv_recs (s_logs s)) -> g_logID (r_data r) <> None).
  Proof using ListL.
    unfold mainRun, logsStage. destruct (i_logs inp) as [ops|]; [|cbn; intros [H|[H|H]]; [congruence|congruence|discriminate]].
    intros H. exists ops. split; [reflexivity|].
    assert (D : fst (run freshL listL (publishCtlogs idOfKey noop ops) (s_logs s) (t_logs t)) = Done tt).
    { destruct (run freshL listL (publishCtlogs idOfKey noop ops) (s_logs s) (t_logs t)) as [[[]|e|] a]; [reflexivity| |]; cbn in H; destruct H as [H|[H|H]]; congruence. }
    assert (R := fun P => proj2 (C46_refused idOfKey freshL listL ListL noop ops (s_logs s) (t_logs t) P) D). clear D H. unfold goodList in *.
    split; [|split].
    - destruct (distinct (map fst (upstream ops))) eqn:E1; [destruct (checkIds idOfKey (upstream ops)) as [[]|e] eqn:E2|].
      + apply goodList_iff. auto.
      + exfalso. apply R. left. intros X. apply goodList_iff in X. destruct X as [_ X]. congruence.
      + exfalso. apply R. left. intros X. apply goodList_iff in X. destruct X as [X _]. congruence.
    - assert (dec : forall x y : option bytes, {x = y} + {x <> y}) by (decide equality; apply list_eq_dec; apply Byte.byte_eq_dec).
      destruct (ListDec.NoDup_dec dec (map (fun r : lrec => g_logID (r_data r)) (sv_recs (s_logs s)))) as [N|N]; [exact N|]. exfalso. apply R. right. left. exact N.
    - intros r I E. apply R. right. right. exists r. auto.
  Qed.

  (** A list of logs that is not sound, or one unusable record among the logs, keeps filters and intermediates from being published: nothing at all changes. *)
  Theorem C82_blocked noop inp (s : site) t :
    (forall ops, i_logs inp = Some ops -> ~ goodList idOfKey ops) \/ (exists r, In r (sv_recs (s_logs s)) /\ g_logID (r_data r) = None) ->
    snd (main noop inp s t) = s /\ fst (main noop inp s t) <> Done tt.
  Proof using ListL.
    intros H. unfold mainRun, logsStage. destruct (i_logs inp) as [ops|]; [|cbn; destruct s; split; [reflexivity|discriminate]].
    destruct (C46_refused idOfKey freshL listL ListL noop ops (s_logs s) (t_logs t)) as [S O].
    { destruct H as [H|H]; [left; exact (H ops eq_refl)|right; right; exact H]. }
    destruct (run freshL listL (publishCtlogs idOfKey noop ops) (s_logs s) (t_logs t)) as [[[]|e|] a]; cbn in S, O; [congruence| |]; subst a; destruct s; split; (reflexivity || discriminate).
  Qed.

  (** Intermediates are touched only if the filter stage has ended without an exception. *)
  Theorem C82_filters_before_intermediates noop inp (s : site) t : s_ints (snd (main noop inp s t)) <> s_ints s \/ fst (main noop inp s t) = Done tt ->
    fst (run freshF listF (publishAll noop (i_bucket inp) channels) (s_filters s) (t_filters t)) = Done tt.
  Proof using Type.
    unfold mainRun. destruct (run freshL listL _ _ _) as [[u|e|] a]; [|cbn; intros [H|H]; congruence|cbn; intros [H|H]; congruence].
    unfold filtersStage. destruct (run freshF listF _ _ _) as [[[]|e|] b]; [reflexivity| |]; cbn; intros [H|H]; congruence.
  Qed.

  (** ** Success *)
  Lemma wp_any {D A} fresh listing (p : prog D A) : forall s, wp fresh listing (fun _ => True) p (fun _ _ => True) s.
  Proof using Type. induction p as [a|e|c k IH]; intros s; cbn [wp]; auto. Qed.
  Definition settled {D} (o : outcome unit) (s : server D) : Prop := o = Done tt -> sv_wip s = false.
  Lemma wp_review {D} fresh listing (s : server D) : wp fresh listing (fun _ => True) requestReview settled s.
  Proof using Type.
    unfold requestReview, unitCall, settled. cbn [wp exec fst snd]. repeat split; try (intros; discriminate).
    destruct (sv_wip s) eqn:E; [|cbn [wp]; auto]. cbn [wp exec fst snd]. repeat split; try (intros; discriminate).
  Qed.
  Lemma wp_then {D A} fresh listing (p : prog D A) f : (forall a s, wp fresh listing (fun _ => True) (f a) settled s) -> forall s : server D, wp fresh listing (fun _ => True) (seq p f) settled s.
  Proof using Type.
    intros H s. apply wp_seq. eapply wp_mono; [|apply wp_any]. intros o s' _. destruct o; [apply H|discriminate|discriminate].
  Qed.
  Lemma settled_logs ops (s : server clog) fs : settled (fst (run freshL listL (publishCtlogs idOfKey false ops) s fs)) (snd (run freshL listL (publishCtlogs idOfKey false ops) s fs)).
  Proof using Type.
    apply (wp_run _ freshL listL (fun _ => True) (publishCtlogs idOfKey false ops) settled); [|apply Forall_forall; auto]. unfold publishCtlogs.
    destruct (negb (distinct (map fst (upstream ops)))); [discriminate|]. do 3 (apply wp_then; intros ? ?). destruct (negb _); [discriminate|]. do 3 (apply wp_then; intros ? ?). apply wp_review.
  Qed.
  Lemma settled_ints es (s : server idata) fs : settled (fst (run freshI listI (publishIntermediates parsePem decode64 order false es) s fs)) (snd (run freshI listI (publishIntermediates parsePem decode64 order false es) s fs)).
  Proof using Type.
    apply (wp_run _ freshI listI (fun _ => True) (publishIntermediates parsePem decode64 order false es) settled); [|apply Forall_forall; auto]. unfold publishIntermediates.
    destruct (loadLocal _ _ _ _) as [loc|]; [|discriminate]. apply wp_then. intros l s0. destruct (loadRemote _ _ _ _ l) as [[rem bad]|]; [|discriminate].
    do 4 (apply wp_then; intros ? ?). unfold verify. apply wp_then. intros l' s'. destruct (loadRemote _ _ _ _ l') as [[rem' [|]]|]; [|discriminate|discriminate].
    destruct (forallb _ _); [|discriminate]. destruct (forallb _ _); [apply wp_review|discriminate].
  Qed.

  (** Where the intermediates come from: the file given, or the latest run of the bucket. *)
  Definition source (inp : inputs) (es : list entry) : Prop :=
    i_local inp = Some (Some es) \/ (i_local inp = None /\ exists l r, i_ids inp = l ++ [r] /\ i_enrolled inp r = Some es).
  Lemma lastOf_app {A} (l : list A) r : lastOf (l ++ [r]) = Some r.
  Proof using Type. induction l as [|x l IH]; [reflexivity|]. cbn [app lastOf]. destruct (l ++ [r]) eqn:E; [destruct l; discriminate E|exact IH]. Qed.
  Lemma stage_source noop inp es : source inp es -> intsStage parsePem decode64 order noop inp = publishIntermediates parsePem decode64 order noop es.
  Proof using Type. unfold intsStage. intros [->|[-> [l [r [-> E]]]]]; [reflexivity|]. rewrite lastOf_app, E. reflexivity. Qed.
  Lemma stage_cases noop inp : (exists es, source inp es) \/ intsStage parsePem decode64 order noop inp = Raise EOther \/ (intsStage parsePem decode64 order noop inp = Ret tt /\ i_local inp = None /\ i_ids inp = []).
  Proof using Type.
    unfold intsStage, source. destruct (i_local inp) as [[es|]|]; [left; exists es; auto|auto|].
    destruct (lastOf (i_ids inp)) as [r|] eqn:E.
    - destruct (i_enrolled inp r) as [es|] eqn:E2; [|auto]. left. exists es. right. split; [reflexivity|]. apply (proj1 (lastOf_some _ _)) in E. destruct E as [l E]. exists l, r. auto.
    - right. right. split; [reflexivity|]. split; [reflexivity|]. destruct (i_ids inp) as [|x l]; [reflexivity|]. exfalso. revert x E. induction l as [|y l IH]; intros x E; [discriminate E|]. cbn [lastOf] in E. exact (IH y E).
  Qed.

  Hypothesis H32 : hashes32 parsePem.
  Hypothesis Order : forall l, Permutation (order l) l.
  Hypothesis FreshL : forall l, ~ In (freshL l) (map r_id l).
  Hypothesis FreshF : forall l, ~ In (freshF l) (map r_id l).
  Hypothesis ListF : forall l, Permutation (listF l) l.
  Hypothesis FreshI : forall l, ~ In (freshI l) (map r_id l).
  Hypothesis ListI : forall l, Permutation (listI l) l.
  Hypothesis D64 : forall h, decode64 (b64encode stdAlphabet h) = Some h.

  (** A run that reports success has left no unreviewed change of the logs, and exactly the intermediates of its source, under review or reviewed; whatever calls failed
      on the way. *)
  Theorem C82_success inp (s : site) t : NoDup (map r_id (sv_recs (s_ints s))) -> fst (main false inp s t) = Done tt ->
    let s' := snd (main false inp s t) in
    sv_wip (s_logs s') = false /\
    ((i_local inp = None /\ i_ids inp = [] /\ s_ints s' = s_ints s) \/
     (sv_wip (s_ints s') = false /\ exists es, source inp es /\ exact parsePem decode64 es (sv_recs (s_ints s')))).
  Proof using H32 Order FreshI ListI D64.
    intros ND. unfold mainRun, logsStage. destruct (i_logs inp) as [ops|]; [|discriminate]. pose proof (settled_logs ops (s_logs s) (t_logs t)) as SL. unfold settled in SL.
    destruct (run freshL listL _ _ _) as [[[]|e|] a]; [|discriminate|discriminate]. cbn [fst snd] in SL. specialize (SL eq_refl).
    destruct (run freshF listF _ _ _) as [[[]|e|] b]; [|discriminate|discriminate].
    destruct (stage_cases false inp) as [[es S]|[E|[E1 [E2 E3]]]].
    - rewrite (stage_source false inp es S). pose proof (settled_ints es (s_ints s) (t_ints t)) as SI. unfold settled in SI.
      pose proof (C47_reviewed_is_exact parsePem decode64 order freshI listI H32 Order FreshI ListI D64 es (s_ints s) (t_ints t) ND) as [_ EX].
      destruct (run freshI listI _ _ _) as [o3 c]. cbn [fst snd s_logs s_ints] in *. intros ->. split; [exact SL|]. right. split; [auto|]. exists es. split; [exact S|]. apply EX. left. reflexivity.
    - rewrite E. cbn. discriminate.
    - rewrite E1. cbn [run fst snd s_logs s_ints]. intros _. split; [exact SL|]. left. auto.
  Qed.

  (** When nothing fails, one run brings all three collections up to date: the logs as the list says, with the enrolments kept; each channel up to the latest run; the
      intermediates of the latest run. *)
  Theorem C82_complete inp (s : site) ops es b seen new :
    i_logs inp = Some ops -> goodList idOfKey ops -> goodRecs (sv_recs (s_logs s)) ->
    (forall ch, i_bucket inp ch = b) -> NoDup (map r_id (sv_recs (s_filters s))) -> timely b ->
    (forall ch, In ch channels -> complete b ch /\ exists b0, history freshF listF ch (seen ch) b0 (s_filters s) /\ grows (seen ch) b0 b) ->
    lastOf (b_ids b) = Some new -> b_ready b new = true -> (forall r, In r (sv_recs (s_filters s)) -> a_inc (r_data r) <> None) ->
    source inp es -> NoDup (map r_id (sv_recs (s_ints s))) -> readable parsePem decode64 es (sv_recs (s_ints s)) ->
    exists s', main false inp s calm = (Done tt, s') /\
      (forall o t w, listed ops o t w -> exists r, In r (sv_recs (s_logs s')) /\ describes o t w (r_data r) /\ flagFrom (sv_recs (s_logs s)) (r_data r)) /\
      (forall r, In r (sv_recs (s_logs s')) -> exists o t w, listed ops o t w /\ describes o t w (r_data r)) /\
      (forall r, In r (sv_recs (s_filters s')) -> a_channel (r_data r) <> Some (B "experimental+deltas")) /\
      (forall slug dir, In (slug, dir) serves ->
         (exists r, In r (sv_recs (s_filters s')) /\ a_channel (r_data r) = Some slug /\ runOf r new) /\
         (forall r, In r (sv_recs (s_filters s')) -> a_channel (r_data r) = Some slug ->
            exists run name data, runOf r run /\ r_att r = Some (name, data) /\
              (In run (b_ids b) -> match a_inc (r_data r) with Some false => b_filter b run dir = Some data | Some true => b_delta b run dir = Some data | None => False end))) /\
      exact parsePem decode64 es (sv_recs (s_ints s')) /\ sv_wip (s_logs s') = false /\ sv_wip (s_ints s') = false.
  Proof using ListL H32 Order FreshL FreshF ListF FreshI ListI D64.
    intros EL GL GR EB NF TI HC LA RD INC SRC NI RE.
    destruct (C46_synchronised idOfKey freshL listL FreshL ListL ops (s_logs s) GL GR) as [a [RA [A1 [A2 [_ [A3 _]]]]]].
    assert (Q : publishAll false (i_bucket inp) channels = publishAll false (fun _ => b) channels).
    { unfold publishAll. assert (X : forall l, publishEnabled false (i_bucket inp) l = publishEnabled false (fun _ => b) l).
      { induction l as [|ch l IH]; [reflexivity|]. cbn [publishEnabled]. rewrite EB, IH. reflexivity. } rewrite X. reflexivity. }
    destruct (C45_configured freshF listF b (s_filters s) seen new FreshF ListF NF TI HC LA RD INC) as [c [RC [C1 C2]]].
    destruct (C47_repairs parsePem decode64 order freshI listI H32 Order FreshI ListI D64 es (s_ints s) NI RE) as [d [RX [D1 [D2 _]]]].
    exists (mkSite a c d). cbn [s_logs s_filters s_ints]. split; [|auto 10].
    unfold mainRun, logsStage, filtersStage, calm. cbn [t_logs t_filters t_ints]. rewrite EL, RA, Q, RC, (stage_source false inp es SRC), RX. reflexivity.
  Qed.

  (** ** Any number of runs, each with its own inputs and failures *)
  Fixpoint mains (s : site) (h : list (bool * inputs * troubles)) : site :=
    match h with
    | [] => s
    | (noop, inp, t) :: h' => mains (snd (main noop inp s t)) h'
    end.
  (** The logs stay usable and a log that every list names keeps its enrolment; a certificate that every source names stays published. *)
  Theorem C82_over_runs h : forall s : site, goodRecs (sv_recs (s_logs s)) -> NoDup (map r_id (sv_recs (s_ints s))) ->
    goodRecs (sv_recs (s_logs (mains s h))) /\ NoDup (map r_id (sv_recs (s_ints (mains s h)))) /\
    (forall id e, (forall noop inp t, In (noop, inp, t) h -> forall ops, i_logs inp = Some ops -> exists o k w, listed ops o k w /\ w_logID w = id) ->
       (exists r, In r (sv_recs (s_logs s)) /\ g_logID (r_data r) = Some id /\ g_enrolled (r_data r) = Some e) ->
       exists r, In r (sv_recs (s_logs (mains s h))) /\ g_logID (r_data r) = Some id /\ g_enrolled (r_data r) = Some e) /\
    (forall u, (forall noop inp t, In (noop, inp, t) h -> forall es, source inp es -> wanted parsePem decode64 es u) ->
       (exists r, In r (sv_recs (s_ints s)) /\ holds parsePem decode64 r u) ->
       exists r, In r (sv_recs (s_ints (mains s h))) /\ holds parsePem decode64 r u).
  Proof using ListL H32 Order FreshL FreshI ListI D64.
    induction h as [|[[noop inp] t] h IH]; intros s G N; cbn [mains]; [auto|].
    destruct noop.
    { rewrite C82_dry_run. destruct (IH s G N) as [I1 [I2 [I3 I4]]]. split; [exact I1|]. split; [exact I2|]. split.
      - intros id e H. apply I3. intros n i t' J. apply (H n i t'). right. exact J.
      - intros u H. apply I4. intros n i t' J. apply (H n i t'). right. exact J. }
    assert (L : goodRecs (sv_recs (s_logs (snd (main false inp s t)))) /\
      forall id e, (forall ops, i_logs inp = Some ops -> exists o k w, listed ops o k w /\ w_logID w = id) ->
       (exists r, In r (sv_recs (s_logs s)) /\ g_logID (r_data r) = Some id /\ g_enrolled (r_data r) = Some e) ->
       exists r, In r (sv_recs (s_logs (snd (main false inp s t)))) /\ g_logID (r_data r) = Some id /\ g_enrolled (r_data r) = Some e).
    { assert (E : s_logs (snd (main false inp s t)) = snd (run freshL listL (logsStage idOfKey false inp) (s_logs s) (t_logs t))).
      { unfold mainRun. destruct (run freshL listL _ _ _) as [[u|e|] a]; [|reflexivity|reflexivity]. destruct (run freshF listF _ _ _) as [[u2|e|] b]; [|reflexivity|reflexivity].
        destruct (run freshI listI _ _ _) as [o c]. reflexivity. }
      rewrite E. unfold logsStage. destruct (i_logs inp) as [ops|]; [|cbn; auto].
      destruct (C46_any_faults idOfKey freshL listL FreshL ListL ops (s_logs s) (t_logs t) G) as [_ [K1 K2]]. split; [exact K2|].
      intros id e H [r [I [R1 R2]]]. destruct (H ops eq_refl) as [o [k [w [LI <-]]]]. destruct (K1 r o k w I LI R1) as [r' [I' [_ [Q1 Q2]]]]. exists r'. split; [exact I'|]. split; [exact Q1|congruence]. }
    assert (J : NoDup (map r_id (sv_recs (s_ints (snd (main false inp s t))))) /\
      forall u, (forall es, source inp es -> wanted parsePem decode64 es u) -> (exists r, In r (sv_recs (s_ints s)) /\ holds parsePem decode64 r u) ->
       exists r, In r (sv_recs (s_ints (snd (main false inp s t)))) /\ holds parsePem decode64 r u).
    { assert (E : s_ints (snd (main false inp s t)) = s_ints s \/ s_ints (snd (main false inp s t)) = snd (run freshI listI (intsStage parsePem decode64 order false inp) (s_ints s) (t_ints t))).
      { unfold mainRun. destruct (run freshL listL _ _ _) as [[u|e|] a]; [|auto|auto]. destruct (run freshF listF _ _ _) as [[u2|e|] b]; [|auto|auto].
        destruct (run freshI listI _ _ _) as [o c]. auto. }
      destruct E as [->| ->]; [auto|]. destruct (stage_cases false inp) as [[es S]|[E|[E _]]].
      - rewrite (stage_source false inp es S). destruct (C47_stays_published parsePem decode64 order freshI listI H32 Order FreshI ListI D64 es (s_ints s) (t_ints t) N) as [K1 K2].
        split; [exact K1|]. intros u W [r [I HU]]. exact (K2 u r I HU (W es S)).
      - rewrite E. cbn. auto.
      - rewrite E. cbn. auto. }
    destruct L as [L1 L2], J as [J1 J2]. destruct (IH _ L1 J1) as [I1 [I2 [I3 I4]]]. split; [exact I1|]. split; [exact I2|]. split.
    - intros id e H X. apply I3; [intros n i t' K; apply (H n i t'); right; exact K|]. apply L2; [|exact X]. exact (H false inp t (or_introl eq_refl)).
    - intros u H X. apply I4; [intros n i t' K; apply (H n i t'); right; exact K|]. apply J2; [|exact X]. exact (H false inp t (or_introl eq_refl)).
  Qed.
End C82.
Print Assumptions C82_dry_run.
Print Assumptions C82_logs_first.
Print Assumptions C82_blocked.
Print Assumptions C82_filters_before_intermediates.
Print Assumptions C82_success.
Print Assumptions C82_complete.
Print Assumptions C82_over_runs.

(** ** A concrete case, and weaknesses *)
Section Concrete.
  Let hash (k : bytes) : option bytes := Some (B "hash of " ++ k).
  Let w1 := mkRaw (B "log one") (B "k1") (B "hash of k1") 86400 [B "usable"] (B "https://one/").
  Let w2 := mkRaw (B "log two") (B "k2") (B "hash of k2") 86400 [B "usable"] (B "https://two/").
  Let wX := mkRaw (B "log X") (B "kX") (B "hash of k9") 86400 [B "usable"] (B "https://x/").
  Let ops := [mkOperator (B "Op A") [w1] [w2]].
  Let opsX := [mkOperator (B "Op A") [w1; wX] [w2]].
  Let r1 := B "20260101-0".  Let r2 := B "20260101-1".
  (** The bucket holds two runs, the second of which is being uploaded or is there. *)
  Let bk (there : bool) : bucket := mkBucket [r1; r2] (fun r => beq r r1 || there) (fun r _ => beq r r1 || there) (fun r => if beq r r1 then Some 1000%Z else if there then Some 2000%Z else None)
      (fun r d => Some (B "full " ++ r ++ B " of " ++ d)) (fun r d => Some (B "update " ++ r ++ B " of " ++ d)).
  Let dec := b64decode stdAlphabet.
  Let enc := b64encode stdAlphabet.
  Let ent (x : bytes) : entry := mkEntry (Some (B "PEM " ++ x)) (Some (enc (h32 "k"%byte x))) (Some x) None.
  (** The first run has the intermediate A, the second B. *)
  Let enrolled (r : bytes) : option (list entry) := if beq r r1 then Some [ent (B "A")] else if beq r r2 then Some [ent (B "B")] else None.
  Let inp (l : option (list operator)) (there : bool) : inputs := mkInputs l (fun _ => bk there) [r1; r2] enrolled None.
  Let go := mainRun hash toyPem dec (fun l => l) freshLog (fun l => l) freshEx (fun l => l) freshInt (fun l => l).
  Let k1 : lrec := mkRecord (B "r1") (mkLog (Some true) (Some false) (Some (B "log one")) (Some (B "k1")) (Some (B "hash of k1")) (Some 86400%Z) (Some (B "Op A")) None (Some (B "https://old/"))) None.
  Let s0 := mkSite (mkServer [k1] false []) (mkServer [] false []) (mkServer [] false []).
  Let viewL (s : site) := map (fun r : lrec => (g_description (r_data r), g_enrolled (r_data r))) (sv_recs (s_logs s)).
  Let viewF (s : site) := map (fun r : frec => (a_channel (r_data r), option_map snd (r_att r))) (sv_recs (s_filters s)).
  Let viewI (s : site) := map (fun r : irec => option_map snd (r_att r)) (sv_recs (s_ints s)).

  Example C82_example_meets :
    goodList hash ops /\ goodRecs (sv_recs (s_logs s0)) /\ timely (bk true) /\
    (forall ch, In ch channels -> complete (bk true) ch /\ exists b0, history freshEx (fun l => l) ch (fun _ => False) b0 (s_filters s0) /\ grows (fun _ => False) b0 (bk true)) /\
    source (inp (Some ops) true) [ent (B "B")] /\ readable toyPem dec [ent (B "B")] (sv_recs (s_ints s0)) /\
    hashes32 toyPem /\ (forall h, dec (enc h) = Some h) /\ (forall l, ~ In (freshLog l) (map r_id l)) /\ (forall l, ~ In (freshEx l) (map r_id l)) /\ (forall l, ~ In (freshInt l) (map r_id l)).
  Proof.
    split; [split; [apply distinct_spec; reflexivity|intros o t w [[<-|[]] I]; destruct t; cbn in I; intuition (subst; reflexivity)]|].
    split; [split; [repeat constructor; intros []|split; [repeat constructor; intros []|intros r [<-|[]]; split; discriminate]]|].
    split.
    { destruct run_r as [A [A' _]], before_r as [D _]. split.
      - cbn [b_ids bk]. apply SSorted_cons; [apply SSorted_cons; [apply SSorted_nil|apply Forall_nil]|apply Forall_cons; [exact D|apply Forall_nil]].
      - intros r [<-|[<-|[]]]; (split; [assumption|]); intros _; [exists 1000%Z|exists 2000%Z]; vm_compute; reflexivity. }
    split.
    { intros c _. split; [intros r _ _; split; discriminate|]. exists (mkBucket [] (fun _ => true) (fun _ _ => true) (fun _ => None) (fun _ _ => None) (fun _ _ => None)).
      split; [apply HStart; [reflexivity|reflexivity|apply NoDup_nil]|intros r _; right; intros r' []]. }
    split; [right; split; [reflexivity|exists [r1], r2; split; reflexivity]|].
    split; [split; [intros e [<-|[]]; vm_compute; discriminate|intros r []]|].
    split; [exact toy32|]. split; [intros h; apply b64decode_encode; exact std_good|]. split; [exact freshLog_new|]. split; [exact freshEx_new|exact freshInt_new].
  Qed.
  Example C82_example : let out := go false (inp (Some ops) true) s0 calm in let s := snd out in fst out = Done tt /\
    viewL s = [(Some (B "log two"), Some true); (Some (B "log one"), Some false)] /\
    viewF s = [(Some (B "compat"), Some (B "full 20260101-1 of clubcard-priority")); (Some (B "default"), Some (B "full 20260101-1 of clubcard-all"))] /\
    viewI s = [Some (B "PEM B")].
  Proof. vm_compute. auto. Qed.
  (** One log of the list has an id that is not the hash of its key: a new filter is ready, and is not published. *)
  Example C82_blocked_example : ~ goodList hash opsX /\ go false (inp (Some opsX) true) s0 calm = (Raised EConsistency, s0).
  Proof.
    split; [|vm_compute; reflexivity]. intros [_ H]. assert (L : listed opsX (mkOperator (B "Op A") [w1; wX] [w2]) false wX) by (split; [left; reflexivity|right; left; reflexivity]).
    apply H in L. vm_compute in L. discriminate L.
  Qed.
  (** The upload of the filters fails: the intermediates are left alone. *)
  Example C82_stopped_example : let out := go false (inp (Some ops) true) s0 (mkTroubles [] [FOk; FOk; FOk; FOk; FKinto false] []) in fst out = Raised EKinto /\ viewI (snd out) = [].
  Proof. vm_compute. auto. Qed.

  (** Filters and intermediates need not belong to the same run: while the files of a run are being uploaded its filters are not ready, but its intermediates are taken. *)
  Theorem C82_same_run_refuted : exists i s, let out := go false i s calm in let s' := snd out in fst out = Done tt /\ sv_recs (s_filters s') = [] /\
    (forall ch, b_ids (i_bucket i ch) = i_ids i /\ lastOf (i_ids i) = Some r2 /\ b_ready (i_bucket i ch) r2 = false) /\
    (forall r, In r (sv_recs (s_ints s')) -> exists d, r_att r = Some (d, B "PEM B")) /\ sv_recs (s_ints s') <> [].
  Proof.
    exists (inp (Some ops) false), s0. split; [vm_compute; reflexivity|]. split; [vm_compute; reflexivity|]. split; [intros ch; split; [reflexivity|split; reflexivity]|].
    split; [|vm_compute; discriminate].
    assert (E : forallb (fun r : irec => match r_att r with Some (_, x) => beq x (B "PEM B") | None => false end) (sv_recs (s_ints (snd (go false (inp (Some ops) false) s0 calm)))) = true) by (vm_compute; reflexivity).
    intros r I. rewrite forallb_forall in E. specialize (E r I). destruct (r_att r) as [[d x]|]; [|discriminate E]. exists d. destruct (beq_spec x (B "PEM B")) as [Q|]; [rewrite Q; reflexivity|discriminate E].
  Qed.
  (** The records of a channel that is no longer in use are deleted after the reviews of the other channels were asked for: the run reports success, and what it last
      asked a review of is not what the collection holds, which is marked as being changed; the same run again changes nothing about it. *)
  Theorem C82_reviewed_refuted : exists i s, let out := go false i s calm in let s' := snd out in fst out = Done tt /\
    (exists q l, sv_reviews (s_filters s') = q :: l /\ q <> sv_recs (s_filters s')) /\ sv_wip (s_filters s') = true /\
    s_filters (snd (go false i s' calm)) = s_filters s'.
  Proof.
    set (old := mkRecord (B "old") (mkAttrs (Some (B "20250101-0-experimental+deltas.filter")) (Some false) None (Some (B "experimental+deltas")) 500) (Some (B "f", B "old filter")) : frec).
    set (i := inp (Some ops) true). set (s := mkSite (s_logs s0) (mkServer [old] false []) (s_ints s0)). exists i, s.
    split; [vm_compute; reflexivity|]. split; [|split; vm_compute; reflexivity].
    set (rv := sv_reviews (s_filters (snd (go false i s calm)))). exists (hd [] rv), (tl rv). split; [vm_compute; reflexivity|].
    intros E. assert (L : length (hd [] rv) = length (sv_recs (s_filters (snd (go false i s calm))))) by (rewrite E; reflexivity). vm_compute in L. discriminate L.
  Qed.
End Concrete.
Print Assumptions C82_same_run_refuted.
Print Assumptions C82_reviewed_refuted.
