(** * C45: the publisher recovers from failures and crashes

    The specification is at the top of PublishProofs3.v: [publishes] says which
    records publish a list of runs, [faithful] that these runs are in order, without
    a gap and with the contents of the bucket, [sound] that the records of the
    channel do so. *)
From Verif Require Import Base MerkleModel TimeModel TimeProofs IssuersModel FilterModel FilterProofs QueryModel TextProofs P_Query RemoteModel PublishModel P_RunIds PublishProofs IsoProofs PublishProofs2 P_Publish PublishProofs3 PublishProofs4.
From Coq Require Import Strings.Byte Sorting.Permutation Sorting.Sorted.

(** How the bucket may change between two runs of the publisher: old runs may be
    deleted; a run that was not there a moment ago is later than all runs seen so
    far; a completed run does not change; one that is not completed may change in
    any way. *)
Definition grows (seen : bytes -> Prop) (b b' : bucket) : Prop :=
  forall r, In r (b_ids b') ->
    (In r (b_ids b) /\ (b_ready b r = true -> b_ready b' r = true /\ b_time b' r = b_time b r /\ forall d, b_filter b' r d = b_filter b r d /\ b_delta b' r d = b_delta b r d)) \/
    (forall r', seen r' -> before r' r).

Lemma tailOf_in b m r : tailOf b m -> In r (b_ids b) -> In r (b_ids m).
Proof. intros [[old E] _] I. rewrite E. apply in_or_app. right. exact I. Qed.

Section History.
  Variable fresh : list frec -> bytes.
  Variable listing : list frec -> list frec.
  Variable ch : channel.

  (** The states a channel can be in: it starts without records; the publisher is
      run again and again, and each run is stopped by any failures; meanwhile other
      records come and go.  The second argument is the bucket, or a record of it in
      which its oldest runs are kept after they are deleted. *)
  Inductive history : (bytes -> Prop) -> bucket -> server attrs -> Prop :=
  | HStart b s : b_ids b = [] -> chan ch (sv_recs s) = [] -> NoDup (map r_id (sv_recs s)) -> history (fun _ => False) b s
  | HRun seen m s m' b' fs : history seen m s -> timely m' -> grows seen m m' -> tailOf b' m' ->
      history (fun r => seen r \/ In r (b_ids m')) m' (snd (run fresh listing (publishCrlite false b' ch) s fs))
  | HOther seen b s s' : history seen b s -> chan ch (sv_recs s') = chan ch (sv_recs s) -> NoDup (map r_id (sv_recs s')) -> history seen b s'.

  Hypothesis Fresh : forall l, ~ In (fresh l) (map r_id l).
  Hypothesis Listing : forall l, Permutation (listing l) l.
  Hypothesis Plain : plain ch.

  Lemma recoverable_grows seen b b' recs : recoverable seen b ch recs -> timely b' -> grows seen b b' -> recoverable (fun r => seen r \/ In r (b_ids b')) b' ch recs.
  Proof.
    intros [ND [AT [FU R]]] T G. split; [exact ND|]. split; [|split; [exact FU|]].
    - intros r I. destruct (AT r I) as [A [B0 [C|[run [C1 [C2 C3]]]]]]; (split; [exact A|]; split; [exact B0|]); [left; exact C|right; exists run]. destruct C3 as [C3 C4]. split; [exact C1|]. split; [left; exact C2|]. split; [exact C3|].
      intros J. destruct (G run J) as [[K1 K2]|K]; [apply K2; apply C4; exact K1|]. exfalso. exact (before_irrefl run (K run C2)).
    - destruct R as [[xs [l [P [PU FA]]]]|R]; [|right; exact R]. left. exists xs, l. split; [exact P|]. split; [exact PU|].
      assert (SE : forall r, In r (map itemRun xs) -> seen r).
      { destruct (publishes_runs ch l xs Plain) as [RO _]; [apply FA|exact PU|].
        assert (IC : forall r, In r l -> In r (chan ch recs)) by (intros r I; apply (Permutation_in _ P); exact I).
        intros r I. clear -RO I AT IC FA PU Plain. destruct (publishes_runs ch l xs Plain) as [_ [_ [HL _]]]; [apply FA|exact PU|].
        assert (X : exists z, In z l /\ runOf z r).
        { clear -RO I. revert I. induction RO as [|z q l m H F IH]; intros I; [destruct I|]. destruct I as [<-|I]; [exists z; split; [left; reflexivity|exact H]|]. destruct (IH I) as [w [J K]]. exists w. split; [right; exact J|exact K]. }
        destruct X as [z [Iz Rz]]. destruct (AT z (IC z Iz)) as [_ [_ [C|[run [C1 [C2 C3]]]]]]; [exfalso; destruct (HL z Iz) as [_ [HL2 _]]; exact (HL2 C)|]. assert (r = run) by (eapply runOf_fun; [exact Rz|apply C3]). subst run. exact C2. }
      assert (OLD : forall r, In r (map itemRun xs) -> In r (b_ids b') -> In r (b_ids b) /\ (b_ready b r = true -> b_ready b' r = true /\ b_time b' r = b_time b r /\ forall d, b_filter b' r d = b_filter b r d /\ b_delta b' r d = b_delta b r d)).
      { intros r I J. destruct (G r J) as [H|H]; [exact H|]. exfalso. exact (before_irrefl r (H r (SE r I))). }
      destruct FA as [F1 [F2 F3]]. split; [exact F1|]. split; [exact F2|]. destruct xs as [|x0 xs]; [destruct F3|]. destruct F3 as [G1 [G2 G3]]. split; [|split].
      + intros I. destruct (OLD (itemRun x0)) as [J K]; [left; reflexivity|exact I|]. destruct (G1 J) as [RB GG]. destruct (K RB) as [K0 [K1 K2]]. rewrite K1, (proj1 (K2 _)). split; [exact K0|exact GG].
      + intros x Ix I. destruct (OLD (itemRun x)) as [J K]; [right; apply in_map; exact Ix|exact I|]. destruct (G2 x Ix J) as [RB GG]. destruct (K RB) as [K0 [K1 K2]]. rewrite K1, (proj2 (K2 _)). split; [exact K0|exact GG].
      + intros r y L I NB NA. destruct (G r I) as [[J _]|J]; [apply (G3 r y L J NB NA)|]. exfalso. apply NA. apply J. apply SE.
        apply (proj1 (lastOf_some _ _)) in L. destruct L as [l' ->]. rewrite map_app. apply in_or_app. right. left. reflexivity.
  Qed.

  Lemma history_recoverable seen b s : history seen b s -> recoverable seen b ch (sv_recs s).
  Proof.
    induction 1 as [b s E C ND|seen m s m' b' fs H IH T G TL|seen b s s' H IH C ND].
    - split; [exact ND|]. rewrite C. split; [intros r []|]. split; [cbn; lia|]. right. left. intros r [].
    - pose proof (recoverable_grows _ _ _ _ IH T G) as R.
      pose proof (wp_run _ fresh listing (fun _ => True) (publishCrlite false b' ch) (Whole (fun _ => True) b' m' ch (fun r => seen r \/ In r (b_ids m')) s) s fs) as W.
      destruct W as [A _]; [|apply Forall_forall; auto|exact A].
      apply (wp_whole fresh listing (fun _ => True) Fresh Listing b' m' ch T TL Plain (fun r => seen r \/ In r (b_ids m'))); [intros r I; right; exact (tailOf_in _ _ _ TL I)|exact R].
    - destruct IH as [_ [A [F R]]]. split; [exact ND|]. rewrite C. split; [exact A|]. split; [exact F|].
      destruct R as [[xs [l [P Q]]]|R]; [left; exists xs, l; rewrite C; auto|right; exact R].
  Qed.

  (** Whatever has happened, records that form a chain publish runs of the bucket,
      in order, without a gap, and with the right contents. *)
  Theorem C45_accepted_is_sound : forall seen b s, history seen b s -> verifyRecords ch (sv_recs s) = Val tt ->
    chan ch (sv_recs s) = [] \/ exists xs, sound b ch (sv_recs s) xs.
  Proof.
    intros seen b s H V. apply history_recoverable in H. destruct H as [_ [_ [_ R]]]. apply (proj1 (C43_accepts ch (sv_recs s))) in V. fold (chan ch (sv_recs s)) in V.
    destruct V as [V|[l [P [C [_ AT]]]]]; [left; exact V|]. destruct R as [R|[R|[r [I N]]]]; [right; exact R| |].
    - exfalso. destruct l as [|f l]; [destruct C|]. destruct C as [CF _]. assert (If : In f (chan ch (sv_recs s))) by (apply (Permutation_in _ P); left; reflexivity).
      apply R in If. apply (proj2 (isFull_inc f)) in CF. congruence.
    - exfalso. apply (AT r); [|exact N]. apply (Permutation_in _ (Permutation_sym P)). exact I.
  Qed.

  (** After any history, a run without failures leads to the latest run. *)
  Theorem C45_recovers : forall seen m s m' b' new, history seen m s -> timely m' -> grows seen m m' -> tailOf b' m' -> complete b' ch -> lastOf (b_ids b') = Some new -> b_ready b' new = true ->
    exists v s', run fresh listing (publishCrlite false b' ch) s [] = (Done v, s') /\
      (exists xs y, sound m' ch (sv_recs s') xs /\ lastOf xs = Some y /\ itemRun y = new) /\
      others ch (sv_recs s') = others ch (sv_recs s) /\
      (s' = s \/ sv_wip s' = false /\ sv_reviews s' = sv_recs s' :: sv_reviews s).
  Proof.
    intros seen b s m' b' new H T G TL C L RD. apply history_recoverable in H. pose proof (recoverable_grows _ _ _ _ H T G) as R.
    pose proof (wp_run _ fresh listing (fun f => f = FOk) (publishCrlite false b' ch) (Whole (fun f => f = FOk) b' m' ch (fun r => seen r \/ In r (b_ids m')) s) s []) as W.
    destruct W as [_ [O D]]; [|constructor|].
    - apply (wp_whole fresh listing (fun f => f = FOk) Fresh Listing b' m' ch T TL Plain (fun r => seen r \/ In r (b_ids m'))); [intros r I; right; exact (tailOf_in _ _ _ TL I)|exact R].
    - destruct (run fresh listing (publishCrlite false b' ch) s []) as [o s'] eqn:E. cbn [fst snd] in *. destruct o as [v|e|].
      + rewrite L, RD in D. destruct D as [D1 D2]. exists v, s'. auto.
      + exfalso. destruct D as [[x [X|X]]|X]; [discriminate X|discriminate X|exact (X C)].
      + exfalso. clear -E. assert (NDie : forall A (p : prog attrs A) s, fst (run fresh listing p s []) <> Died).
        { induction p as [a|e|c k IHp]; intros s0; cbn [run]; [discriminate|discriminate|apply IHp]. }
        apply (NDie _ (publishCrlite false b' ch) s). rewrite E. reflexivity.
  Qed.

  (** No run touches the records of other channels, however it ends. *)
  Theorem C45_other_channels : forall seen m s m' b' fs, history seen m s -> timely m' -> grows seen m m' -> tailOf b' m' ->
    others ch (sv_recs (snd (run fresh listing (publishCrlite false b' ch) s fs))) = others ch (sv_recs s).
  Proof.
    intros seen m s m' b' fs H T G TL. apply history_recoverable in H. pose proof (recoverable_grows _ _ _ _ H T G) as R.
    pose proof (wp_run _ fresh listing (fun _ => True) (publishCrlite false b' ch) (Whole (fun _ => True) b' m' ch (fun r => seen r \/ In r (b_ids m')) s) s fs) as W.
    destruct W as [_ [O _]]; [|apply Forall_forall; auto|exact O].
    apply (wp_whole fresh listing (fun _ => True) Fresh Listing b' m' ch T TL Plain (fun r => seen r \/ In r (b_ids m'))); [intros r I; right; exact (tailOf_in _ _ _ TL I)|exact R].
  Qed.

  (** A dry run changes nothing, whatever the state. *)
  Theorem C45_dry_run : forall b s fs, snd (run fresh listing (publishCrlite true b ch) s fs) = s.
  Proof.
    intros b s fs.
    assert (W : wp fresh listing (fun _ => True) (publishCrlite true b ch) (fun _ s' => s' = s) s).
    { unfold publishCrlite. apply wp_seq. eapply wp_mono; [|exact (wp_get fresh listing (fun _ => True) s)]. intros o s' [-> _]. destruct o as [l| |]; [|reflexivity|reflexivity].
      destruct (sortRecords (filter (inChannel ch) l)) as [ex|e]; [|reflexivity]. cbn [ofPy seq]. destruct (lastOf (b_ids b)) as [new|]; [|reflexivity]. destruct (b_ready b new); [|reflexivity].
      destruct (determine b ch ex) as [t|e]; [|reflexivity]. cbn [ofPy seq]. destruct (lastOf (t_upload t)) as [final|]; [|reflexivity]. destruct (b_filter b final (c_dir ch)); [|reflexivity].
      destruct (t_clear t); cbn [clearRecords seq]; [destruct (b_time b final); reflexivity|]. destruct (lastOf ex) as [prev|]; [|reflexivity].
      generalize (r_id prev). induction (t_upload t) as [|r up IH]; intros p; cbn [publishDeltas seq]; [reflexivity|]. destruct (b_delta b r (c_dir ch)); [|reflexivity]. destruct (b_time b r); [|reflexivity].
      cbn [publishDelta publishRecord seq]. apply IH. }
    exact (wp_run _ fresh listing (fun _ => True) _ (fun _ s' => s' = s) s fs W ltac:(apply Forall_forall; auto)).
  Qed.
End History.
Print Assumptions C45_accepted_is_sound.
Print Assumptions C45_recovers.
Print Assumptions C45_other_channels.
Print Assumptions C45_dry_run.

(** ** All channels *)

Lemma chan_others ch ch' recs : c_slug ch <> c_slug ch' -> chan ch' recs = filter (inChannel ch') (others ch recs).
Proof.
  intros N. unfold chan, others. induction recs as [|r l IH]; [reflexivity|]. cbn [filter]. destruct (inChannel ch r) eqn:E; cbn [negb filter].
  - rewrite IH. destruct (inChannel ch' r) eqn:E'; [|reflexivity]. exfalso. apply N. unfold inChannel in *. apply (proj1 (beq_eq _ _)) in E, E'. congruence.
  - destruct (inChannel ch' r); rewrite IH; reflexivity.
Qed.
Lemma chan_same ch ch' recs recs' : c_slug ch <> c_slug ch' -> others ch recs' = others ch recs -> chan ch' recs' = chan ch' recs.
Proof. intros N E. rewrite !(chan_others ch ch') by exact N. rewrite E. reflexivity. Qed.
Lemma sound_chan b ch recs recs' xs : chan ch recs' = chan ch recs -> sound b ch recs xs -> sound b ch recs' xs.
Proof. intros E [l [P Q]]. exists l. rewrite E. auto. Qed.
Lemma recoverable_chan seen b ch recs recs' : chan ch recs' = chan ch recs -> NoDup (map r_id recs') -> recoverable seen b ch recs -> recoverable seen b ch recs'.
Proof.
  intros E ND [_ [A [F R]]]. split; [exact ND|]. rewrite E. split; [exact A|]. split; [exact F|].
  destruct R as [[xs S]|R]; [left; exists xs; eapply sound_chan; eassumption|right; exact R].
Qed.

Section All.
  Variable fresh : list frec -> bytes.
  Variable listing : list frec -> list frec.
  Variable ok : fault -> Prop.
  Hypothesis Fresh : forall l, ~ In (fresh l) (map r_id l).
  Hypothesis Listing : forall l, Permutation (listing l) l.
  Variable b : channel -> bucket.
  Variable seen : channel -> bytes -> Prop.

  Definition ready (ch : channel) (l : list frec) : Prop := forall new, lastOf (b_ids (b ch)) = Some new -> b_ready (b ch) new = true -> current (b ch) ch l new.

  Definition AllPost (l : list channel) (s0 : server attrs) (o : outcome unit) (s' : server attrs) : Prop :=
    NoDup (map r_id (sv_recs s')) /\
    (forall ch, In ch l -> c_enabled ch = true -> recoverable (seen ch) (b ch) ch (sv_recs s')) /\
    (forall ch', (forall ch, In ch l -> c_enabled ch = true -> c_slug ch <> c_slug ch') -> chan ch' (sv_recs s') = chan ch' (sv_recs s0)) /\
    match o with
    | Done _ => forall ch, In ch l -> c_enabled ch = true -> ready ch (sv_recs s')
    | Raised _ => faulty ok \/ exists ch, In ch l /\ c_enabled ch = true /\ ~ complete (b ch) ch
    | Died => True
    end.

  Lemma wp_enabled : forall l (s0 : server attrs), NoDup (map c_slug l) -> (forall ch, In ch l -> c_enabled ch = true -> plain ch /\ timely (b ch) /\ (forall r, In r (b_ids (b ch)) -> seen ch r) /\ recoverable (seen ch) (b ch) ch (sv_recs s0)) ->
    NoDup (map r_id (sv_recs s0)) -> wp fresh listing ok (publishEnabled false b l) (AllPost l s0) s0.
  Proof.
    induction l as [|ch l IH]; intros s0 NS H ND; cbn [publishEnabled].
    - cbn [wp]. split; [exact ND|]. split; [intros ch []|]. split; [reflexivity|intros ch []].
    - cbn [map] in NS. apply NoDup_cons_iff in NS. destruct NS as [NI NS].
      assert (DIFF : forall c, In c l -> c_slug ch <> c_slug c) by (intros c I E; apply NI; rewrite E; apply in_map; exact I).
      destruct (c_enabled ch) eqn:EN.
      + destruct (H ch (or_introl eq_refl) EN) as [PL [TI [SE RE]]]. apply wp_seq.
        eapply wp_mono; [|exact (wp_whole fresh listing ok Fresh Listing (b ch) (b ch) ch TI (tailOf_refl _) PL (seen ch) SE s0 RE)].
        intros o s1 [R1 [O1 D1]].
        assert (OTH : forall ch', c_slug ch <> c_slug ch' -> chan ch' (sv_recs s1) = chan ch' (sv_recs s0)) by (intros ch' N; apply (chan_same ch ch'); assumption).
        assert (ND1 : NoDup (map r_id (sv_recs s1))) by apply R1.
        assert (REST : forall c, In c l -> c_enabled c = true -> recoverable (seen c) (b c) c (sv_recs s1)).
        { intros c I E. apply (recoverable_chan _ _ _ (sv_recs s0)); [apply OTH; apply DIFF; exact I|exact ND1|apply H; [right; exact I|exact E]]. }
        assert (ALLR : forall c, In c (ch :: l) -> c_enabled c = true -> recoverable (seen c) (b c) c (sv_recs s1)) by (intros c [<-|I] E; [exact R1|apply REST; assumption]).
        assert (UNT : forall ch', (forall c, In c (ch :: l) -> c_enabled c = true -> c_slug c <> c_slug ch') -> chan ch' (sv_recs s1) = chan ch' (sv_recs s0)) by (intros ch' N; apply OTH; apply N; [left; reflexivity|exact EN]).
        destruct o as [v|e|].
        * eapply wp_mono; [|apply (IH s1 NS); [intros c I E; destruct (H c (or_intror I) E) as [A [B0 [C _]]]; split; [exact A|]; split; [exact B0|]; split; [exact C|apply REST; assumption]|exact ND1]].
          intros o s2 [ND2 [R2 [U2 D2]]].
          assert (KEEP : chan ch (sv_recs s2) = chan ch (sv_recs s1)) by (apply U2; intros c I _ E; apply (DIFF c I); symmetry; exact E).
          split; [exact ND2|]. split; [intros c [<-|I] E; [apply (recoverable_chan _ _ _ (sv_recs s1)); assumption|apply R2; assumption]|]. split.
          -- intros ch' N. rewrite (U2 ch') by (intros c I E; apply N; [right; exact I|exact E]). apply UNT. exact N.
          -- destruct o as [u|e|]; [|destruct D2 as [F|[c [I [E X]]]]; [left; exact F|right; exists c; split; [right; exact I|auto]]|exact I].
             intros c [<-|I] E; [|apply D2; assumption]. intros new L RD. rewrite L, RD in D1. destruct D1 as [[xs [y [S Q]]] _]. exists xs, y. split; [|exact Q]. eapply sound_chan; [exact KEEP|exact S].
        * split; [exact ND1|]. split; [exact ALLR|]. split; [exact UNT|]. destruct D1 as [F|X]; [left; exact F|right; exists ch; split; [left; reflexivity|auto]].
        * split; [exact ND1|]. split; [exact ALLR|]. split; [exact UNT|exact I].
      + eapply wp_mono; [|apply (IH s0 NS); [intros c I E; apply H; [right; exact I|exact E]|exact ND]].
        intros o s2 [ND2 [R2 [U2 D2]]]. split; [exact ND2|]. split; [intros c [<-|I] E; [congruence|apply R2; assumption]|]. split.
        * intros ch' N. apply U2. intros c I E. apply N; [right; exact I|exact E].
        * destruct o as [u|e|]; [|destruct D2 as [F|[c [I [E X]]]]; [left; exact F|right; exists c; split; [right; exact I|auto]]|exact I].
          intros c [<-|I] E; [congruence|apply D2; assumption].
  Qed.

  (** The channels that are not enabled are emptied. *)
  Lemma wp_disabled : forall l (s0 : server attrs), NoDup (map c_slug l) -> NoDup (map r_id (sv_recs s0)) ->
    (forall ch r, In ch l -> c_enabled ch = false -> In r (chan ch (sv_recs s0)) -> a_inc (r_data r) <> None) ->
    wp fresh listing ok (clearDisabled false l) (fun o s' => NoDup (map r_id (sv_recs s')) /\
      (forall ch', (forall ch, In ch l -> c_enabled ch = false -> c_slug ch <> c_slug ch') -> chan ch' (sv_recs s') = chan ch' (sv_recs s0)) /\
      match o with Done _ => forall ch, In ch l -> c_enabled ch = false -> chan ch (sv_recs s') = [] | Raised _ => faulty ok | Died => True end) s0.
  Proof.
    induction l as [|ch l IH]; intros s0 NS ND H; cbn [clearDisabled].
    - cbn [wp]. split; [exact ND|]. split; [reflexivity|intros ch []].
    - cbn [map] in NS. apply NoDup_cons_iff in NS. destruct NS as [NI NS].
      assert (DIFF : forall c, In c l -> c_slug ch <> c_slug c) by (intros c I E; apply NI; rewrite E; apply in_map; exact I).
      destruct (c_enabled ch) eqn:EN.
      + eapply wp_mono; [|apply (IH s0 NS ND); intros c r I; apply H; right; exact I]. intros o s2 [ND2 [U2 D2]]. split; [exact ND2|]. split.
        * intros ch' N. apply U2. intros c I E. apply N; [right; exact I|exact E].
        * destruct o as [u|e|]; [|exact D2|exact I]. intros c [<-|I] E; [congruence|apply D2; assumption].
      + apply wp_seq. eapply wp_mono; [|apply (wp_clearRecords fresh listing ok Listing ch false s0 ND); intros r I; apply (H ch r); [left; reflexivity|exact EN|exact I]].
        intros o s1 [D [E1 [_ [HD HO]]]].
        assert (ND1 : NoDup (map r_id (sv_recs s1))) by (rewrite E1; apply nodup_without; exact ND).
        assert (OTH : forall ch', c_slug ch <> c_slug ch' -> chan ch' (sv_recs s1) = chan ch' (sv_recs s0)).
        { intros ch' N. apply (chan_same ch ch' _ _ N). rewrite E1. apply others_without; [exact ND|]. intros id I. destruct (HD id I) as [r [J [K _]]]. eauto. }
        assert (UNT : forall ch', (forall c, In c (ch :: l) -> c_enabled c = false -> c_slug c <> c_slug ch') -> chan ch' (sv_recs s1) = chan ch' (sv_recs s0)) by (intros ch' N; apply OTH; apply N; [left; reflexivity|exact EN]).
        destruct o as [[]|e|]; [|split; [exact ND1|split; [exact UNT|exact HO]]|split; [exact ND1|split; [exact UNT|exact I]]].
        assert (A1 : forall r, In r (chan ch (sv_recs s1)) -> a_inc (r_data r) <> None) by (intros r I; rewrite E1, chan_without in I; apply in_without in I; apply (H ch r); [left; reflexivity|exact EN|tauto]).
        apply wp_seq. eapply wp_mono; [|apply (wp_clearRecords fresh listing ok Listing ch true s1 ND1 A1)].
        intros o s2 [D2 [E2 [_ [HD2 HO2]]]].
        assert (ND2 : NoDup (map r_id (sv_recs s2))) by (rewrite E2; apply nodup_without; exact ND1).
        assert (OTH2 : forall ch', c_slug ch <> c_slug ch' -> chan ch' (sv_recs s2) = chan ch' (sv_recs s0)).
        { intros ch' N. rewrite <- (OTH ch' N). apply (chan_same ch ch' _ _ N). rewrite E2. apply others_without; [exact ND1|]. intros id I. destruct (HD2 id I) as [r [J [K _]]]. eauto. }
        assert (UNT2 : forall ch', (forall c, In c (ch :: l) -> c_enabled c = false -> c_slug c <> c_slug ch') -> chan ch' (sv_recs s2) = chan ch' (sv_recs s0)) by (intros ch' N; apply OTH2; apply N; [left; reflexivity|exact EN]).
        destruct o as [[]|e|]; [|split; [exact ND2|split; [exact UNT2|exact HO2]]|split; [exact ND2|split; [exact UNT2|exact I]]].
        assert (EMP : chan ch (sv_recs s2) = []).
        { destruct (chan ch (sv_recs s2)) as [|r m] eqn:X; [reflexivity|]. exfalso. assert (I : In r (chan ch (sv_recs s2))) by (rewrite X; left; reflexivity).
          rewrite E2, chan_without in I. apply in_without in I. destruct I as [I N]. pose proof (A1 r I) as G. apply N. apply HO2; [exact I|].
          destruct (a_inc (r_data r)) as [[]|] eqn:AI; [reflexivity| |congruence]. exfalso. rewrite E1, chan_without in I. apply in_without in I. destruct I as [I N']. apply N'. apply HO; [exact I|exact AI]. }
        eapply wp_mono; [|apply (IH s2 NS ND2)].
        * intros o s3 [ND3 [U3 D3]]. split; [exact ND3|]. split.
          -- intros ch' N. rewrite (U3 ch') by (intros c I E; apply N; [right; exact I|exact E]). apply UNT2. exact N.
          -- destruct o as [u|e|]; [|exact D3|exact I]. intros c [<-|I] E; [|apply D3; assumption]. rewrite (U3 ch); [exact EMP|]. intros c I _ X. apply (DIFF c I). symmetry. exact X.
        * intros c r I E J. rewrite (OTH2 c (DIFF c I)) in J. apply (H c r); [right; exact I|exact E|exact J].
  Qed.
End All.

(** One invocation of the publisher on all its channels: without failures every
    enabled channel leads to its latest run and every other channel is empty. *)
Theorem C45_all_channels : forall fresh listing b (l : list channel) (s : server attrs) seen,
  (forall m, ~ In (fresh m) (map r_id m)) -> (forall m, Permutation (listing m) m) ->
  NoDup (map c_slug l) -> NoDup (map r_id (sv_recs s)) ->
  (forall ch, In ch l -> c_enabled ch = true ->
     plain ch /\ timely (b ch) /\ complete (b ch) ch /\
     exists b0, history fresh listing ch (seen ch) b0 s /\ grows (seen ch) b0 (b ch)) ->
  (forall ch r, In ch l -> c_enabled ch = false -> In r (chan ch (sv_recs s)) -> a_inc (r_data r) <> None) ->
  exists s', run fresh listing (publishAll false b l) s [] = (Done tt, s') /\
    (forall ch new, In ch l -> c_enabled ch = true -> lastOf (b_ids (b ch)) = Some new -> b_ready (b ch) new = true ->
       exists xs y, sound (b ch) ch (sv_recs s') xs /\ lastOf xs = Some y /\ itemRun y = new) /\
    (forall ch, In ch l -> c_enabled ch = false -> chan ch (sv_recs s') = []) /\
    (forall ch', (forall ch, In ch l -> c_slug ch <> c_slug ch') -> chan ch' (sv_recs s') = chan ch' (sv_recs s)).
Proof.
  intros fresh listing b l s seen FR LI NS ND H HD.
  set (seen' := fun ch r => seen ch r \/ In r (b_ids (b ch))).
  assert (W : wp fresh listing (fun f => f = FOk) (publishAll false b l) (fun o s' => match o with
      | Done _ => (forall ch new, In ch l -> c_enabled ch = true -> lastOf (b_ids (b ch)) = Some new -> b_ready (b ch) new = true -> exists xs y, sound (b ch) ch (sv_recs s') xs /\ lastOf xs = Some y /\ itemRun y = new) /\
         (forall ch, In ch l -> c_enabled ch = false -> chan ch (sv_recs s') = []) /\ (forall ch', (forall ch, In ch l -> c_slug ch <> c_slug ch') -> chan ch' (sv_recs s') = chan ch' (sv_recs s))
      | Raised _ => False | Died => True end) s).
  { unfold publishAll. apply wp_seq. eapply wp_mono; [|apply (wp_enabled fresh listing (fun f => f = FOk) FR LI b seen' l s NS)].
    - intros o s1 [ND1 [_ [U1 D1]]]. destruct o as [[]|e|].
      + eapply wp_mono; [|apply (wp_disabled fresh listing (fun f => f = FOk) LI b seen' l s1 NS ND1)].
        * intros o s2 [ND2 [U2 D2]]. destruct o as [u|e|]; [|destruct D2 as [x [X|X]]; discriminate X|exact I]. split; [|split].
          -- intros ch new I E L RD. destruct (D1 ch I E new L RD) as [xs [y [S Q]]]. exists xs, y. split; [|exact Q]. eapply sound_chan; [|exact S].
             apply U2. intros c Ic Ec X. assert (c = ch). { clear -NS I Ic X. induction l as [|x l IH]; [destruct I|]. cbn [map] in NS. apply NoDup_cons_iff in NS. destruct NS as [NI NS].
               destruct I as [->|I], Ic as [->|Ic]; [reflexivity| | |apply IH; assumption]; exfalso; apply NI; [rewrite <- X|rewrite X]; apply in_map; assumption. } subst c. congruence.
          -- exact D2.
          -- intros ch' N. rewrite (U2 ch') by (intros c I _; apply N; exact I). apply U1. intros c I _. apply N. exact I.
        * intros ch r I E J. rewrite (U1 ch) in J; [apply (HD ch r I E J)|]. intros c Ic Ec X.
          assert (c = ch). { clear -NS I Ic X. induction l as [|x l IH]; [destruct I|]. cbn [map] in NS. apply NoDup_cons_iff in NS. destruct NS as [NI NS].
               destruct I as [->|I], Ic as [->|Ic]; [reflexivity| | |apply IH; assumption]; exfalso; apply NI; [rewrite <- X|rewrite X]; apply in_map; assumption. } subst c. congruence.
      + destruct D1 as [[x [X|X]]|[ch [I [E X]]]]; [discriminate X|discriminate X|]. apply X. apply H; assumption.
      + exact I.
    - intros ch I E. destruct (H ch I E) as [PL [TI [_ [b0 [HI GR]]]]]. split; [exact PL|]. split; [exact TI|]. split; [intros r J; right; exact J|].
      apply (recoverable_grows ch PL (seen ch) b0); [|exact TI|exact GR]. apply (history_recoverable fresh listing ch FR LI PL). exact HI.
    - exact ND. }
  pose proof (wp_run _ fresh listing (fun f => f = FOk) _ _ s [] W ltac:(constructor)) as X. cbv beta in X.
  assert (NDie : forall A (p : prog attrs A) s, fst (run fresh listing p s []) <> Died).
  { induction p as [a|e|c k IHp]; intros s0; cbn [run]; [discriminate|discriminate|apply IHp]. }
  pose proof (NDie _ (publishAll false b l) s) as N.
  destruct (run fresh listing (publishAll false b l) s []) as [[[]|e|] s'] eqn:E; cbn [fst snd] in *; [|destruct X|congruence].
  exists s'. split; [reflexivity|exact X].
Qed.
Print Assumptions C45_all_channels.

(** What each channel of the program serves. *)
Definition serves : list (bytes * bytes) := [(B "default", B "clubcard-all"); (B "compat", B "clubcard-priority")].

Lemma publishes_each ch : forall l xs, publishes ch l xs ->
  (forall r, In r l -> exists x p, In x xs /\ recordOf ch (match a_inc (r_data r) with Some i => i | None => true end) p x r /\
     (a_inc (r_data r) = Some false -> exists xs', xs = x :: xs') /\ (a_inc (r_data r) = Some true -> exists x0 xs', xs = x0 :: xs' /\ In x xs') /\ a_inc (r_data r) <> None) /\
  (forall x, In x xs -> exists r i p, In r l /\ recordOf ch i p x r).
Proof.
  intros l xs P. destruct l as [|f l], xs as [|x0 xs]; try destruct P. rename H into F. rename H0 into D.
  assert (G : forall l p xs, deltas ch p l xs ->
    (forall r, In r l -> exists x q, In x xs /\ recordOf ch true q x r) /\ (forall x, In x xs -> exists r q, In r l /\ recordOf ch true q x r)).
  { clear. induction l as [|r l IH]; intros p [|x xs] D; try destruct D; [split; intros ? []|]. destruct (IH _ _ H0) as [A B0]. split.
    - intros r' [<-|I]; [exists x, (Some p); split; [left; reflexivity|assumption]|]. destruct (A r' I) as [y [q [J K]]]. exists y, q. split; [right; exact J|exact K].
    - intros x' [<-|I]; [exists r, (Some p); split; [left; reflexivity|assumption]|]. destruct (B0 x' I) as [y [q [J K]]]. exists y, q. split; [right; exact J|exact K]. }
  destruct (G _ _ _ D) as [A B0]. split.
  - intros r [<-|I].
    + assert (E : a_inc (r_data f) = Some false) by (rewrite (proj1 F); reflexivity). exists x0, None. rewrite E. split; [left; reflexivity|]. split; [exact F|].
      split; [intros _; exists xs; reflexivity|]. split; [discriminate|discriminate].
    + destruct (A r I) as [x [q [J K]]]. assert (E : a_inc (r_data r) = Some true) by (rewrite (proj1 K); reflexivity). exists x, q. rewrite E.
      split; [right; exact J|]. split; [exact K|]. split; [discriminate|]. split; [intros _; exists x0, xs; auto|discriminate].
  - intros x [<-|I]; [exists f, false, None; split; [left; reflexivity|exact F]|]. destruct (B0 x I) as [r [q [J K]]]. exists r, true, q. split; [right; exact J|exact K].
Qed.

(** The publisher with the channels that it has: afterwards the default channel
    serves the filters for all certificates and the compat channel those for
    priority revocations, up to the latest run; the experimental channel is
    empty. *)
Theorem C45_configured : forall fresh listing b (s : server attrs) seen new,
  (forall m, ~ In (fresh m) (map r_id m)) -> (forall m, Permutation (listing m) m) -> NoDup (map r_id (sv_recs s)) ->
  timely b -> (forall ch, In ch channels -> complete b ch /\ exists b0, history fresh listing ch (seen ch) b0 s /\ grows (seen ch) b0 b) ->
  lastOf (b_ids b) = Some new -> b_ready b new = true ->
  (forall r, In r (sv_recs s) -> a_inc (r_data r) <> None) ->
  exists s', run fresh listing (publishAll false (fun _ => b) channels) s [] = (Done tt, s') /\
    (forall r, In r (sv_recs s') -> a_channel (r_data r) <> Some (B "experimental+deltas")) /\
    (forall slug dir, In (slug, dir) serves ->
       (exists r, In r (sv_recs s') /\ a_channel (r_data r) = Some slug /\ runOf r new) /\
       (forall r, In r (sv_recs s') -> a_channel (r_data r) = Some slug ->
          exists run name data, runOf r run /\ r_att r = Some (name, data) /\
            (In run (b_ids b) ->
               match a_inc (r_data r) with
               | Some false => b_filter b run dir = Some data
               | Some true => b_delta b run dir = Some data
               | None => False
               end))).
Proof.
  intros fresh listing b s seen new FR LI ND TI HC LA RD INC.
  assert (PL : forall ch, In ch channels -> plain ch).
  { intros ch [<-|[<-|[<-|[]]]]; split; cbn [c_slug c_deltaName]; apply rcut_none; vm_compute; reflexivity. }
  assert (NS : NoDup (map c_slug channels)).
  { repeat constructor; cbn [In map]; intros X; repeat (destruct X as [X|X]; [discriminate X|]); exact X. }
  destruct (C45_all_channels fresh listing (fun _ => b) channels s seen FR LI NS ND) as [s' [R [EN [DI _]]]].
  { intros ch I _. destruct (HC ch I) as [C H]. split; [apply PL; exact I|]. auto. }
  { intros ch r _ _ I. unfold chan in I. apply filter_In in I. apply INC. apply I. }
  exists s'. split; [exact R|]. split.
  - intros r I E. set (x := mkChannel (B "experimental+deltas") (B "clubcard-all") (B "filter.delta") 20 false).
    assert (J : In r (chan x (sv_recs s'))) by (unfold chan; apply filter_In; split; [exact I|]; unfold inChannel; rewrite E; reflexivity).
    rewrite (DI x) in J; [destruct J|left; reflexivity|reflexivity].
  - intros slug dir I. assert (X : exists ch, In ch channels /\ c_enabled ch = true /\ c_slug ch = slug /\ c_dir ch = dir).
    { destruct I as [I|[I|[]]]; assert (slug = _) by (symmetry; exact (f_equal fst I)); assert (dir = _) by (symmetry; exact (f_equal snd I)); subst slug dir;
        [exists (mkChannel (B "default") (B "clubcard-all") (B "filter.delta") 45 true)|exists (mkChannel (B "compat") (B "clubcard-priority") (B "filter.delta") 45 true)];
        (split; [unfold channels; cbn [In]; auto|auto]). }
    destruct X as [ch [Ic [Ee [<- <-]]]]. destruct (EN ch new Ic Ee LA RD) as [xs [y [[l [P [PU FA]]] [LY IY]]]].
    destruct (publishes_each _ _ _ PU) as [A B0]. pose proof FA as [_ [RU F3]]. rewrite Forall_forall in RU.
    assert (RX : forall x, In x xs -> isRun (itemRun x)) by (intros x J; apply RU; apply in_map; exact J).
    split.
    + assert (Jy : In y xs) by (apply (proj1 (lastOf_some _ _)) in LY; destruct LY as [l' ->]; apply in_or_app; right; left; reflexivity).
      destruct (B0 y Jy) as [r [i [p [Jr Q]]]]. exists r. apply (Permutation_in _ P) in Jr. unfold chan in Jr. apply filter_In in Jr. split; [apply Jr|].
      split; [rewrite (proj1 Q); reflexivity|]. rewrite <- IY. apply (recordOf_facts ch i p y r (PL ch Ic) (RX y Jy) Q).
    + intros r Ir E. assert (J : In r l).
      { apply (Permutation_in _ (Permutation_sym P)). unfold chan. apply filter_In. split; [exact Ir|]. unfold inChannel. rewrite E. apply beq_refl. }
      destruct (A r J) as [x [p [Jx [Q [Q1 [Q2 Q3]]]]]]. destruct (recordOf_facts _ _ _ _ _ (PL ch Ic) (RX x Jx) Q) as [_ [_ [_ [_ [_ RO]]]]].
      exists (itemRun x). destruct RO as [name [data [rest [RO1 RO2]]]]. exists name, data. split; [exists name, data, rest; auto|]. split; [exact RO1|].
      intros Ib. destruct Q as [_ QA]. assert (ED : snd x = data) by congruence. subst data.
      destruct (a_inc (r_data r)) as [[]|]; [| |congruence].
      * destruct (Q2 eq_refl) as [x0 [xs' [EX JX]]]. rewrite EX in F3. destruct F3 as [_ [F4 _]]. destruct (F4 x JX Ib) as [_ [_ F5]]. exact F5.
      * destruct (Q1 eq_refl) as [xs' EX]. rewrite EX in F3. destruct F3 as [F4 _]. destruct (F4 Ib) as [_ [_ F5]]. exact F5.
Qed.
Print Assumptions C45_configured.

(** ** A concrete case, and a failure *)
Section Concrete.
  Definition freshEx (l : list frec) : bytes := concat (map r_id l) ++ B "x".
  Lemma freshEx_new : forall l, ~ In (freshEx l) (map r_id l).
  Proof.
    intros l I. assert (G : forall m : list bytes, forall x, In x m -> (length x <= length (concat m))%nat).
    { induction m as [|y m IH]; intros x J; [destruct J|]. cbn [concat]. rewrite app_length. destruct J as [->|J]; [lia|]. specialize (IH x J). lia. }
    apply G in I. unfold freshEx in I. rewrite app_length in I. cbn in I. lia.
  Qed.
  Let listingEx (l : list frec) := l.
  Let ch := mkChannel (B "default") (B "mlbf") (B "filter.delta") 20 true.
  Let r1 := B "20260101-0".  Let r2 := B "20260101-1".  Let r3 := B "20260102-0".
  Let bk (ids : list bytes) : bucket :=
    mkBucket ids (fun _ => true) (fun _ _ => true) (fun r => if beq r r1 then Some 1000%Z else if beq r r2 then Some 2000%Z else if beq r r3 then Some 3000%Z else None)
      (fun r _ => Some (B "full " ++ r)) (fun r _ => Some (B "update " ++ r)).
  (** The second run is being uploaded: no timestamp, no filters yet. *)
  Let uploading : bucket :=
    mkBucket [r1; r2] (fun r => beq r r1) (fun r _ => beq r r1) (fun r => if beq r r1 then Some 1000%Z else None)
      (fun r _ => if beq r r1 then Some (B "full " ++ r) else None) (fun r _ => if beq r r1 then Some (B "update " ++ r) else None).
  Let s0 := mkServer [] false [] : server attrs.

  Lemma run_r : isRun r1 /\ isRun r2 /\ isRun r3.
  Proof.
    split; [|split]; [exists (B "20260101"), 0%N, (B "0")|exists (B "20260101"), 1%N, (B "1")|exists (B "20260102"), 0%N, (B "0")]; repeat split; discriminate.
  Qed.
  Lemma before_r : before r1 r2 /\ before r2 r3 /\ before r1 r3.
  Proof.
    split; [|split]; [exists (B "20260101"), 0%N, (B "20260101"), 1%N|exists (B "20260101"), 1%N, (B "20260102"), 0%N|exists (B "20260101"), 0%N, (B "20260102"), 0%N];
      (split; [eexists; repeat split; try reflexivity; discriminate|]; split; [eexists; repeat split; try reflexivity; discriminate|]); vm_compute; auto.
  Qed.
  Lemma timely3 : timely (bk [r1; r2; r3]).
  Proof.
    destruct run_r as [A [B0 C]], before_r as [D [E F]]. split.
    - cbn [b_ids bk]. apply SSorted_cons; [apply SSorted_cons; [apply SSorted_cons; [apply SSorted_nil|apply Forall_nil]|apply Forall_cons; [exact E|apply Forall_nil]]|apply Forall_cons; [exact D|apply Forall_cons; [exact F|apply Forall_nil]]].
    - intros r [<-|[<-|[<-|[]]]]; (split; [assumption|intros _]); [exists 1000%Z|exists 2000%Z|exists 3000%Z]; vm_compute; reflexivity.
  Qed.
  Lemma timely1 : timely (bk [r1]).
  Proof.
    split; [cbn [b_ids bk]; apply SSorted_cons; [apply SSorted_nil|apply Forall_nil]|]. intros r [<-|[]]. split; [apply run_r|]. intros _. exists 1000%Z. vm_compute. reflexivity.
  Qed.

  Lemma timelyU : timely uploading.
  Proof.
    destruct run_r as [A [B0 C]], before_r as [D [E F]]. split.
    - cbn [b_ids uploading]. apply SSorted_cons; [apply SSorted_cons; [apply SSorted_nil|apply Forall_nil]|apply Forall_cons; [exact D|apply Forall_nil]].
    - intros r [<-|[<-|[]]]; (split; [assumption|]); intros H; [exists 1000%Z; vm_compute; reflexivity|vm_compute in H; discriminate H].
  Qed.

  (** The publisher is killed while it attaches the first full filter; the next time
      it goes through; then it finds a run that is being uploaded and waits in vain;
      then it is killed in the middle of the updates; and at last it goes through. *)
  Let after1 := snd (run freshEx listingEx (publishCrlite false (bk [r1]) ch) s0 [FOk; FOk; FOk; FOk; FDie false]).
  Let after2 := snd (run freshEx listingEx (publishCrlite false (bk [r1]) ch) after1 []).
  Let waited := snd (run freshEx listingEx (publishCrlite false uploading ch) after2 []).
  Let after3 := snd (run freshEx listingEx (publishCrlite false (bk [r1; r2; r3]) ch) waited [FOk; FOk; FOk; FDie true]).
  Let after4 := snd (run freshEx listingEx (publishCrlite false (bk [r1; r2; r3]) ch) after3 []).

  Example C45_history_example : exists seen, history freshEx listingEx ch seen (bk [r1; r2; r3]) after3 /\ grows seen (bk [r1; r2; r3]) (bk [r1; r2; r3]) /\ complete (bk [r1; r2; r3]) ch.
  Proof.
    destruct before_r as [D [E F]]. eexists. split; [|split].
    - apply HRun with (m := uploading); [apply HRun with (m := bk [r1]); [apply HRun with (m := bk [r1]); [apply HRun with (m := bk []); [apply HStart; [reflexivity|reflexivity|constructor]|exact timely1| |apply tailOf_refl]|exact timely1| |apply tailOf_refl]|exact timelyU| |apply tailOf_refl]|exact timely3| |apply tailOf_refl].
      + intros r I. right. intros r' [].
      + intros r I. left. split; [exact I|]. intros _. split; [reflexivity|]. split; [reflexivity|]. intros d. split; reflexivity.
      + intros r [<-|[<-|[]]]; [left; split; [left; reflexivity|]; intros _; split; [reflexivity|]; split; [reflexivity|]; intros d; split; reflexivity|].
        right. intros r' [[[]|[<-|[]]]|[<-|[]]]; assumption.
      + intros r [<-|[<-|[<-|[]]]].
        * left. split; [left; reflexivity|]. intros _. split; [reflexivity|]. split; [reflexivity|]. intros d. split; reflexivity.
        * left. split; [right; left; reflexivity|]. intros H. vm_compute in H. discriminate H.
        * right. intros r' [[[[]|[<-|[]]]|[<-|[]]]|[<-|[<-|[]]]]; assumption.
    - intros r I. left. split; [exact I|]. intros _. split; [reflexivity|]. split; [reflexivity|]. intros d. split; reflexivity.
    - intros r _ _. split; discriminate.
  Qed.
  (** The oldest run is deleted before the publisher sees the later ones: it cannot
      add to a chain that begins there, and starts again. *)
  Example C45_deleted_example : tailOf (bk [r2; r3]) (bk [r1; r2; r3]) /\ complete (bk [r2; r3]) ch /\
    map (fun r : frec => r_att r) (sv_recs (snd (run freshEx listingEx (publishCrlite false (bk [r2; r3]) ch) after2 []))) = [Some (B "20260102-0-default.filter", B "full 20260102-0")] /\
    map (fun r : frec => r_att r) (sv_recs (snd (run freshEx listingEx (publishCrlite false (bk [r1; r2; r3]) ch) after2 []))) =
      [Some (B "20260102-0-default.filter.delta", B "update 20260102-0"); Some (B "20260101-1-default.filter.delta", B "update 20260101-1"); Some (B "20260101-0-default.filter", B "full 20260101-0")].
  Proof.
    split; [split; [exists [r1]; reflexivity|auto]|]. split; [intros r _ _; split; discriminate|]. split; vm_compute; reflexivity.
  Qed.
  (** What the server holds after each of these runs: run, kind, whether the file is there. *)
  Example C45_example :
    let view (s : server attrs) := map (fun r : frec => (a_inc (r_data r), r_att r)) (sv_recs s) in
    (view after1, view after2, view after3, view after4, sv_wip after4) =
    ([(Some false, None)],
     [(Some false, Some (B "20260101-0-default.filter", B "full 20260101-0"))],
     [(Some true, None); (Some true, Some (B "20260101-1-default.filter.delta", B "update 20260101-1")); (Some false, Some (B "20260101-0-default.filter", B "full 20260101-0"))],
     [(Some false, Some (B "20260102-0-default.filter", B "full 20260102-0"))], false).
  Proof. vm_compute. reflexivity. Qed.

  (** If the publisher dies between the last upload and the request for a review,
      the next run has nothing to do and asks for no review: the new filter stays
      unpublished until there is another run. *)
  Theorem C45_review_refuted : exists b (s s' : server attrs),
    s = snd (run freshEx listingEx (publishCrlite false b ch) s0 [FOk; FOk; FOk; FOk; FOk; FDie false]) /\
    run freshEx listingEx (publishCrlite false b ch) s [] = (Done None, s') /\
    timely b /\ complete b ch /\ sv_recs s' <> [] /\ sv_reviews s' = [] /\ sv_wip s' = true.
  Proof.
    exists (bk [r1]), (snd (run freshEx listingEx (publishCrlite false (bk [r1]) ch) s0 [FOk; FOk; FOk; FOk; FOk; FDie false])), 
      (snd (run freshEx listingEx (publishCrlite false (bk [r1]) ch) s0 [FOk; FOk; FOk; FOk; FOk; FDie false])).
    split; [reflexivity|]. split; [vm_compute; reflexivity|]. split; [exact timely1|]. split; [intros r _ _; split; discriminate|]. split; [vm_compute; discriminate|]. split; vm_compute; reflexivity.
  Qed.
  (** The three channels of the program, from an empty server: the contents say
      where they come from. *)
  Let bd : bucket := mkBucket [r1; r2] (fun _ => true) (fun _ _ => true) (fun r => if beq r r1 then Some 1000%Z else Some 2000%Z)
      (fun r d => Some (B "full " ++ r ++ B " of " ++ d)) (fun r d => Some (B "update " ++ r ++ B " of " ++ d)).
  Example C45_configured_case :
    (forall ch, In ch channels -> complete bd ch /\ history freshEx listingEx ch (fun _ => False) (bk []) s0 /\ grows (fun _ => False) (bk []) bd) /\
    map (fun r : frec => (a_channel (r_data r), r_att r)) (sv_recs (snd (run freshEx listingEx (publishAll false (fun _ => bd) channels) s0 []))) =
      [(Some (B "compat"), Some (B "20260101-1-compat.filter", B "full 20260101-1 of clubcard-priority"));
       (Some (B "default"), Some (B "20260101-1-default.filter", B "full 20260101-1 of clubcard-all"))].
  Proof.
    split; [|vm_compute; reflexivity]. intros c _. split; [intros r _ _; split; discriminate|]. split; [|intros r _; right; intros r' []].
    apply HStart; [reflexivity|reflexivity|apply NoDup_nil].
  Qed.
End Concrete.
Print Assumptions C45_review_refuted.
