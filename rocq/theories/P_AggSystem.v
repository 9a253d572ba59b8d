(** * C68: the workers of aggregate-crls *)
From Verif Require Import Base MerkleModel SerialModel StoreModel StoreProofs AggModel AggProofs AggSystem AggSysProofs AggSysInv AggSysEnd P_Agg.
From Coq Require Import Strings.Byte Permutation.

Section C68.
  Variables (sha256 lower : bytes -> bytes) (Cert : Type)
    (parseCRL : bytes -> option crl) (checkSig : Cert -> bytes -> bool).
  Local Notation task := (task Cert).
  Local Notation st := (st Cert).
  Local Notation t_issuer := (t_issuer Cert).
  Local Notation t_cert := (t_cert Cert).
  Local Notation t_urls := (t_urls Cert).
  Local Notation s_disk := (s_disk Cert).
  Local Notation s_rev := (s_rev Cert).
  Local Notation s_phase := (s_phase Cert).
  Local Notation s_cancelled := (s_cancelled Cert).
  Local Notation s_audit := (s_audit Cert).
  Local Notation crlPath := (crlPath sha256 lower).

  (** What the environment may do. *)
  Variable allowedFetch : task -> url -> fetchEnv -> Prop.
  Variable allowedProc : task -> url -> procEnv -> Prop.
  Local Notation step := (step sha256 lower Cert parseCRL checkSig allowedFetch allowedProc).
  Local Notation runs := (runs sha256 lower Cert parseCRL checkSig allowedFetch allowedProc).

  (** The queue: different issuers, whose identifiers (base64url) have no slash. *)
  Definition goodQueue (ts : list task) : Prop :=
    NoDup (map t_issuer ts) /\ forall t, In t ts -> ~ In "/"%byte (t_issuer t).

  (** A CRL signed by the issuer is kept for the URL, with entries [l]. *)
  Definition keeps (t : task) (d : disk) (u : url) (l : list (bytes * N)) : Prop :=
    exists f c, alookup (crlPath (t_issuer t) u) d = Some f /\ parseCRL (f_data f) = Some c /\
      checkSig (t_cert t) (f_data f) = true /\ entriesAre c l.

  (** At every moment of every run, so also if the process dies there: the file
      kept for a URL is the one from before or a CRL with a good signature of
      the issuer; the revocation file of an issuer is the one from before or the
      beginning of the list of the entries of all its CRLs; no other file is
      touched. *)
  Theorem C68_always_safe : forall n ts d r s, goodQueue ts -> runs (init Cert n ts d r) s ->
    (forall t u, In t ts -> In u (t_urls t) ->
       alookup (crlPath (t_issuer t) u) (s_disk s) = alookup (crlPath (t_issuer t) u) d \/
       exists f c, alookup (crlPath (t_issuer t) u) (s_disk s) = Some f /\ parseCRL (f_data f) = Some c /\
         checkSig (t_cert t) (f_data f) = true) /\
    (forall t, In t ts ->
       alookup (t_issuer t) (s_rev s) = alookup (t_issuer t) r \/
       exists ls whole k, Forall2 (keeps t (s_disk s)) (t_urls t) ls /\ readsAs whole (concat ls) /\
         alookup (t_issuer t) (s_rev s) = Some (firstn k whole)) /\
    (forall q, (forall t u, In t ts -> In u (t_urls t) -> q <> crlPath (t_issuer t) u /\ q <> tmpOf (crlPath (t_issuer t) u)) ->
       alookup q (s_disk s) = alookup q d) /\
    (forall i, ~ In i (map t_issuer ts) -> alookup i (s_rev s) = alookup i r).
  Proof using Type.
    intros n ts d r s G R. pose proof (inv_runs sha256 lower Cert parseCRL checkSig allowedFetch allowedProc n ts d r G s R) as I.
    split; [|split; [|split]].
    - intros t u T U. destruct (always_safe sha256 lower Cert parseCRL checkSig allowedFetch allowedProc n ts d r s t u I T U) as [X|[f [X V]]].
      + left; exact X.
      + right. apply crlValid_iff in V. destruct V as [c [V1 V2]]. exists f, c. auto.
    - intros t T. destruct (always_rev sha256 lower Cert parseCRL checkSig allowedFetch allowedProc n ts d r s t I T) as [X|[ls [k [F X]]]]; [left; exact X|].
      right. exists ls, (revokedFile (concat ls)), k. split; [|split; [apply revokedFile_reads|exact X]].
      revert F. generalize (t_urls t) as us. intros us F. clear -F. induction F as [|u l us ls X _ IH]; constructor; [|exact IH]. destruct X as [p [f [c [E [L [V P]]]]]]. injection E as <-. apply loadCRL_inv in V. destruct V as [V1 V2].
      exists f, c. split; [exact L|]. split; [exact V1|]. split; [exact V2|]. apply C30_entries_exact. exact P.
    - intros q N. destruct I as [[_ _ D _ _] _ _ _ _ _ _ _ _]. apply D. intros t T O. apply owned_inv in O. destruct O as [u [U [E|E]]]; destruct (N t u T U); contradiction.
    - intros i N. destruct I as [[_ _ _ Rv _] _ _ _ _ _ _ _ _]. apply Rv. exact N.
  Qed.

  (** What belongs to the queue in a list of jobs of [aggregateCrls]. *)
  Definition queued (j : job Cert) : task := mkTask Cert (j_issuer j) (j_cert j) (j_partitioned j) (map fst (j_urls j)).

  (** However the workers are interleaved, a run that is not cancelled and ends
      with code 0 leaves the files that a run of the issuers one after the other
      leaves, and the audit has the same entries; nothing was given up.  So
      C29, C30, C55 and C56 hold of such a run. *)
  Theorem C68_one_after_the_other : forall n ts d r s, goodQueue ts -> (0 < n)%nat ->
    runs (init Cert n ts d r) s -> s_phase s = Ended 0 -> s_cancelled s = false ->
    exists js d' r' os au, map queued js = ts /\
      aggregateCrls sha256 lower Cert parseCRL checkSig js d r = (d', r', os, au) /\
      (forall q, alookup q (s_disk s) = alookup q d') /\ (forall i, alookup i (s_rev s) = alookup i r') /\
      Permutation (s_audit s) au /\
      (forall i o, In (i, o) os -> o = AgWritten \/ o = AgIncomplete) /\
      (forall j, In j js -> j_storeErr j = None /\
         (forall u e, In (u, e) (j_urls j) -> allowedFetch (queued j) u e) /\
         (forall pe, In pe (j_proc j) -> pe_cancelled pe = false /\ exists u, In u (map fst (j_urls j)) /\ allowedProc (queued j) u pe)).
  Proof using Type.
    intros n ts d r s G N R P C. pose proof (inv_runs sha256 lower Cert parseCRL checkSig allowedFetch allowedProc n ts d r G s R) as I.
    destruct (sequential sha256 lower Cert parseCRL checkSig allowedFetch allowedProc n ts d r G s I N P C)
      as [js [d' [r' [os [au [T [A [D [Rv [Au [O J]]]]]]]]]]].
    exists js, d', r', os, au. split; [exact T|]. split; [exact A|]. split; [exact D|]. split; [exact Rv|]. split; [exact Au|].
    split; [intros i o Hin; rewrite Forall_forall in O; apply (O _ Hin)|].
    intros j Hj. destruct (J j Hj) as [J1 [J2 [J3 J4]]]. split; [exact J1|]. split; [exact J3|].
    intros pe Hpe.
    assert (X : exists u, In (u, pe) (combine (map fst (j_urls j)) (j_proc j))).
    { assert (L : length (j_proc j) = length (map fst (j_urls j))) by (rewrite map_length; exact J2). clear -Hpe L. revert L.
      generalize (map fst (j_urls j)) as us. revert Hpe. induction (j_proc j) as [|y l IH]; intros Hpe us L; [destruct Hpe|].
      destruct us as [|u us]; [discriminate|]. destruct Hpe as [->|Hpe].
      - exists u. left; reflexivity.
      - injection L as L. destruct (IH Hpe us L) as [v V]. exists v. right; exact V. }
    destruct X as [u X]. destruct (J4 u pe X) as [Y1 Y2]. split; [exact Y2|]. exists u. split; [apply (in_combine_l _ _ _ _ X)|exact Y1].
  Qed.

  (** *** Runs end *)

  Definition urlsLeft (i : fitem Cert) : nat := (2 + 2 * length (fi_rest Cert i) + match fi_cur Cert i with Some _ => 1 | None => 0 end)%nat.
  Definition fWeight (w : fworker Cert) : nat := match w with FIdle _ => 1 | FBusy _ i => urlsLeft i | FGone _ => 0 end.
  Definition fWait (w : fworker Cert) : nat :=
    match w with FBusy _ i => match fi_cur Cert i with Some c => length (c_todo c) | None => 0 end | _ => 0 end%nat.
  Definition aWeight (w : aworker Cert) : nat :=
    match w with
    | AIdle _ => 1 | AGone _ => 0
    | ABusy _ a => match ai_phase Cert a with AProc _ _ rest => 3 + length rest | AWrite _ _ => 2 | ADone _ => 2 end
    end%nat.
  Definition aWait (w : aworker Cert) : nat :=
    match w with ABusy _ a => match ai_phase Cert a with AWrite c n => length c - n | _ => 0 end | _ => 0 end%nat.
  Definition sum {A} (f : A -> nat) (l : list A) : nat := fold_right (fun x k => f x + k)%nat 0%nat l.

  Definition rank1 (s : st) : nat :=
    (match s_phase s with Fetching => 5 | Aggregating => 3 | Ended _ => 0 end + if s_cancelled s then 0 else 1)%nat.
  Definition rank2 (s : st) : nat :=
    match s_phase s with
    | Fetching => sum (fun t => 2 + 2 * length (t_urls t)) (s_queue Cert s) + sum fWeight (s_fetch Cert s)
    | Aggregating => sum (fun i => 3 + length (fi_done Cert i)) (s_results Cert s) + sum aWeight (s_agg Cert s)
    | Ended _ => 0
    end%nat.
  Definition rank3 (s : st) : nat :=
    match s_phase s with
    | Fetching => sum fWait (s_fetch Cert s) | Aggregating => sum aWait (s_agg Cert s) | Ended _ => 0
    end%nat.

  Lemma sum_mid {A} (f : A -> nat) w1 x w2 : sum f (w1 ++ x :: w2) = (sum f w1 + f x + sum f w2)%nat.
  Proof using Type. unfold sum. induction w1 as [|y l IH]; cbn [fold_right app]; [lia|]. rewrite IH. lia. Qed.

  Lemma sum_cons {A} (f : A -> nat) x l : sum f (x :: l) = (f x + sum f l)%nat.
  Proof using Type. reflexivity. Qed.
  Lemma sum_nil {A} (f : A -> nat) : sum f [] = 0%nat.
  Proof using Type. reflexivity. Qed.

  Lemma step_rank s s' : step s s' ->
    (rank1 s' < rank1 s)%nat \/
    (rank1 s' = rank1 s /\ rank2 s' < rank2 s)%nat \/
    (rank1 s' = rank1 s /\ rank2 s' = rank2 s /\ rank3 s' < rank3 s)%nat.
  Proof using Type.
    intros ST. inversion ST; subst; unfold rank1, rank2, rank3, setFetch, setAgg, setPhase;
      cbn [AggSystem.s_phase AggSystem.s_cancelled AggSystem.s_queue AggSystem.s_fetch AggSystem.s_results AggSystem.s_agg].
    - left. rewrite H0. destruct H as [-> | ->]; lia.
    - right; left. rewrite H, H0, H1. split; [reflexivity|]. rewrite !sum_mid, ?sum_cons, ?sum_nil. cbn [fWeight urlsLeft AggSystem.fi_rest AggSystem.fi_cur]. unfold urlsLeft. cbn [AggSystem.fi_rest AggSystem.fi_cur]. lia.
    - right; left. rewrite H, H0, H1. split; [reflexivity|]. rewrite !sum_mid, ?sum_cons, ?sum_nil. cbn [fWeight]. lia.
    - right. rewrite H, H0, !sum_mid.
      inversion H1; subst; cbn [fWeight fWait AggSystem.fi_cur c_todo] in *; unfold urlsLeft; cbn [AggSystem.fi_rest AggSystem.fi_cur length c_todo].
      1,2,4,5: left; split; [reflexivity|]; lia.
      right. split; [reflexivity|]. split; [reflexivity|]. lia.
    - left. rewrite H. lia.
    - left. rewrite H. lia.
    - right; left. rewrite H, H0, H1. split; [reflexivity|]. rewrite !sum_mid, ?sum_cons, ?sum_nil. cbn [aWeight AggSystem.ai_phase AggSystem.fi_done]. rewrite map_length. lia.
    - right; left. rewrite H, H0, H1. split; [reflexivity|]. rewrite !sum_mid, ?sum_cons, ?sum_nil. cbn [aWeight]. lia.
    - right. rewrite H, H0, !sum_mid.
      inversion H1; subst; cbn [aWeight aWait AggSystem.ai_phase length] in *.
      1,2,3,4,6: left; split; [reflexivity|]; lia.
      right. split; [reflexivity|]. split; [reflexivity|]. lia.
    - left. rewrite H. lia.
    - left. rewrite H. lia.
    - left. rewrite H. lia.
  Qed.

  (** There is no infinite run. *)
  Theorem C68_no_infinite_run : forall s, Acc (fun s' s => step s s') s.
  Proof using Type.
    assert (X : forall a b c s, rank1 s = a -> rank2 s = b -> rank3 s = c -> Acc (fun s' s => step s s') s).
    { induction a as [a IHa] using lt_wf_ind. induction b as [b IHb] using lt_wf_ind. induction c as [c IHc] using lt_wf_ind.
      intros s E1 E2 E3. constructor. intros s' ST. destruct (step_rank s s' ST) as [L|[[E L]|[E [E' L]]]].
      - apply (IHa (rank1 s') ltac:(lia) (rank2 s') (rank3 s')); reflexivity.
      - apply (IHb (rank2 s') ltac:(lia) (rank3 s')); congruence.
      - apply (IHc (rank3 s')); congruence || lia. }
    intros s. eapply X; reflexivity.
  Qed.

  Lemma runs_trans s1 s2 s3 : runs s1 s2 -> runs s2 s3 -> runs s1 s3.
  Proof using Type. intros R1 R2. induction R2 as [|a b c R2 IH ST]; [exact R1|]. eapply RunsStep; [apply IH; exact R1|exact ST]. Qed.

  Lemma processOne_some cert part known d u p pe f l : pe_cancelled pe = false ->
    exists f' l' au, processAll Cert parseCRL checkSig cert part known d [(u, p, pe)] f l = (Some (f', l'), au).
  Proof using Type.
    intros C. cbn [AggModel.processAll]. rewrite C. destruct p as [path|]; [|eauto].
    destruct (match alookup path d with Some g => _ | None => _ end) as [c|]; [|eauto].
    destruct (processCRL c) as [[|x l0]|]; eauto.
  Qed.

  (** A state that has not ended can go on, if the environment answers. *)
  Lemma progress n ts d r s : goodQueue ts -> runs (init Cert n ts d r) s ->
    (forall t u, exists e, allowedFetch t u e /\ fe_cancelled e = false) ->
    (forall t u, exists pe, allowedProc t u pe /\ pe_cancelled pe = false) ->
    (exists c, s_phase s = Ended c) \/ exists s', step s s'.
  Proof using Type.
    intros G R HF HP. pose proof (inv_runs sha256 lower Cert parseCRL checkSig allowedFetch allowedProc n ts d r G s R) as I.
    destruct (s_phase s) as [| |c] eqn:PH; [right|right|left; eauto].
    - assert (K : Forall (fun w => w = FGone Cert) (s_fetch Cert s) \/ exists w1 w w2, s_fetch Cert s = w1 ++ w :: w2 /\ w <> FGone Cert).
      { clear. induction (s_fetch Cert s) as [|w l IH]; [left; constructor|]. destruct w as [|i|].
        - right. exists [], (FIdle Cert), l. split; [reflexivity|discriminate].
        - right. exists [], (FBusy Cert i), l. split; [reflexivity|discriminate].
        - destruct IH as [IH|[w1 [w [w2 [-> N]]]]]; [left; constructor; [reflexivity|exact IH]|]. right. exists (FGone Cert :: w1), w, w2. split; [reflexivity|exact N]. }
      destruct K as [K|[w1 [w [w2 [E N]]]]].
      + destruct (s_cancelled s) eqn:C; [eexists; apply StStopped; assumption|eexists; apply StFetched; assumption].
      + destruct w as [|[t done cur rest]|]; [| |congruence].
        * destruct (s_queue Cert s) as [|t q] eqn:Q; [eexists; eapply StLeave; eassumption|eexists; eapply StTake; eassumption].
        * destruct cur as [[u e p au [|x tr]]|].
          -- eexists. eapply StFetch; [exact PH|exact E|apply FmNext].
          -- eexists. eapply StFetch; [exact PH|exact E|apply FmFile].
          -- destruct rest as [|u rest]; [eexists; eapply StFetch; [exact PH|exact E|apply FmSend]|].
             destruct (s_cancelled s) eqn:C; [eexists; eapply StFetch; [exact PH|exact E|apply FmCancelled; exact C]|].
             destruct (HF t u) as [e [A1 A2]].
             destruct (fetchPlan sha256 lower Cert parseCRL checkSig t e u (s_disk s)) as [[tr p] au] eqn:P.
             eexists. eapply StFetch; [exact PH|exact E|eapply FmStart; eassumption].
    - assert (K : Forall (fun w => w = AGone Cert) (s_agg Cert s) \/ exists w1 w w2, s_agg Cert s = w1 ++ w :: w2 /\ w <> AGone Cert).
      { clear. induction (s_agg Cert s) as [|w l IH]; [left; constructor|]. destruct w as [|i|].
        - right. exists [], (AIdle Cert), l. split; [reflexivity|discriminate].
        - right. exists [], (ABusy Cert i), l. split; [reflexivity|discriminate].
        - destruct IH as [IH|[w1 [w [w2 [-> N]]]]]; [left; constructor; [reflexivity|exact IH]|]. right. exists (AGone Cert :: w1), w, w2. split; [reflexivity|exact N]. }
      destruct K as [K|[w1 [w [w2 [E N]]]]]; [eexists; apply StSave; assumption|].
      destruct w as [|a|]; [| |congruence].
      + destruct (s_results Cert s) as [|i rs] eqn:Q; [eexists; eapply StALeave; eassumption|].
        pose proof (iv_results _ _ _ _ _ _ _ _ _ _ _ _ I) as RE. rewrite Q in RE. inversion RE as [|x y [F1 F2] F3 F4]; subst.
        destruct i as [t done cur rest]. cbn in F1, F2. subst cur rest. eexists. eapply StATake; eassumption.
      + assert (OKA : okA Cert parseCRL checkSig allowedProc r (s_disk s) (s_rev s) a).
        { pose proof (co_ok _ _ _ _ _ _ _ _ _ _ _ (iv_core _ _ _ _ _ _ _ _ _ _ _ _ I)) as F. rewrite Forall_forall in F.
          apply (F (IA Cert a)). unfold items. rewrite E, flat_map_app.
          do 4 (apply in_or_app; right). apply in_or_app; left. apply in_or_app; right. left; reflexivity. }
        destruct a as [t done pes [f l [|[u p] rest]|c k|o]].
        * destruct f; [eexists; eapply StAgg; [exact PH|exact E|apply AmSkip]|eexists; eapply StAgg; [exact PH|exact E|apply AmOpen]].
        * destruct (s_cancelled s) eqn:C; [eexists; eapply StAgg; [exact PH|exact E|apply AmCancelled; exact C]|].
          destruct (HP t u) as [pe [A1 A2]].
          destruct (processOne_some (t_cert t) (t_partitioned Cert t) (map (fun x => u_norm (fst (fst x))) done) (s_disk s) u p pe f l A2) as [f' [l' [au P]]].
          eexists. eapply StAgg; [exact PH|exact E|eapply AmCrl; eassumption].
        * destruct OKA as [_ [_ [K _]]]. cbn [AggSystem.ai_phase] in K.
          destruct (Nat.eq_dec k (length c)) as [->|NE]; [eexists; eapply StAgg; [exact PH|exact E|apply AmWritten]|].
          eexists. eapply StAgg; [exact PH|exact E|apply (AmWrite _ _ _ _ _ t done pes c k (length c))]. lia.
        * exfalso. apply (iv_busy _ _ _ _ _ _ _ _ _ _ _ _ I (mkA Cert t done pes (ADone o))) with (o := o); [|reflexivity].
          rewrite E. apply in_or_app; right; left; reflexivity.
  Qed.

  (** Every run comes to an end: none is infinite ([C68_no_infinite_run]) and one
      that has not ended can go on, if servers and files answer at all. *)
  Theorem C68_ends : forall n ts d r s, goodQueue ts -> runs (init Cert n ts d r) s ->
    (forall t u, exists e, allowedFetch t u e /\ fe_cancelled e = false) ->
    (forall t u, exists pe, allowedProc t u pe /\ pe_cancelled pe = false) ->
    exists s' c, runs s s' /\ s_phase s' = Ended c.
  Proof using Type.
    intros n ts d r s G R HF HP. revert R. induction (C68_no_infinite_run s) as [s _ IH]. intros R.
    destruct (progress n ts d r s G R HF HP) as [[c E]|[s1 ST]].
    - exists s, c. split; [apply RunsRefl|exact E].
    - destruct (IH s1 ST (RunsStep _ _ _ _ _ _ _ _ _ _ R ST)) as [s' [c [R' E]]]. exists s', c. split; [|exact E].
      eapply runs_trans; [|exact R']. eapply RunsStep; [apply RunsRefl|exact ST].
  Qed.
  Definition saveOK (r : revDir) (aggregated : Prop) (s : st) : Prop :=
    match s_phase s with
    | Fetching => s_saved Cert s = false /\ s_rev s = r
    | Aggregating => s_saved Cert s = false /\ aggregated
    | Ended c => (s_saved Cert s = true -> c = 0%nat /\ aggregated) /\
        (c = 0%nat -> s_saved Cert s = false -> s_cancelled s = true /\ s_rev s = r)
    end.

  Lemma saveOK_step r (A A' : Prop) s s' : step s s' -> (A -> A') -> (s_phase s' = Aggregating -> s_cancelled s' = false -> A') ->
    saveOK r A s -> saveOK r A' s'.
  Proof using Type.
    intros S Q N IH. unfold saveOK in *.
    destruct S; cbn [setFetch setAgg setPhase AggSystem.s_phase AggSystem.s_saved AggSystem.s_rev AggSystem.s_cancelled] in *;
      try (rewrite H in IH |- *; tauto).
    - destruct H as [H|H]; rewrite H in IH |- *; tauto.
    - rewrite H in IH. split; [apply IH|]. apply N; [reflexivity|assumption].
    - rewrite H in IH. destruct IH as [I1 I2]. split; [rewrite I1; discriminate|]. auto.
    - rewrite H in IH. destruct IH as [I1 I2]. split; [rewrite I1; discriminate|discriminate].
    - rewrite H in IH. destruct IH as [I1 I2]. split; [auto|discriminate].
    - rewrite H in IH. destruct IH as [I1 I2]. split; [rewrite I1; discriminate|discriminate].
  Qed.

  (** The list of issuers is written only at the end of an aggregation, which is
      begun only by a run that has not been cancelled.  A run that ends with code 0
      and has not written it was cancelled before, and has not touched any
      revocation file. *)
  Theorem C68_list_of_issuers : forall n ts d r s, runs (init Cert n ts d r) s ->
    (s_saved Cert s = true -> s_phase s = Ended 0 /\
       exists s1, runs (init Cert n ts d r) s1 /\ s_phase s1 = Aggregating /\ s_cancelled s1 = false /\ runs s1 s) /\
    (s_phase s = Ended 0 -> s_saved Cert s = false -> s_cancelled s = true /\ s_rev s = r).
  Proof using Type.
    intros n ts d r s R.
    assert (H : saveOK r (exists s1, runs (init Cert n ts d r) s1 /\ s_phase s1 = Aggregating /\ s_cancelled s1 = false /\ runs s1 s) s).
    { remember (init Cert n ts d r) as s0 eqn:E0. induction R as [s0|s0 s2 s3 R IH S]; [subst s0; split; reflexivity|].
      refine (saveOK_step r _ _ s2 s3 S _ _ (IH E0)).
      - intros (s1 & A1 & A2 & A3 & A4). exists s1. repeat (split; [assumption|]). eapply RunsStep; eassumption.
      - intros P C. exists s3. split; [eapply RunsStep; eassumption|]. split; [exact P|]. split; [exact C|apply RunsRefl]. }
    unfold saveOK in H. destruct (s_phase s) as [| |c].
    - destruct H as [H1 _]. split; [rewrite H1; discriminate|discriminate].
    - destruct H as [H1 _]. split; [rewrite H1; discriminate|discriminate].
    - destruct H as [H1 H2]. split; [intros Sv; destruct (H1 Sv) as [-> X]; split; [reflexivity|exact X]|].
      intros E. injection E as ->. apply H2. reflexivity.
  Qed.
End C68.
Print Assumptions C68_list_of_issuers.
Print Assumptions C68_always_safe.
Print Assumptions C68_one_after_the_other.
Print Assumptions C68_no_infinite_run.
Print Assumptions C68_ends.

(** Servers that answer with proper CRLs and a disk that works: [body t u] is
    what the server has for the URL and the entries in it. *)
Definition honestServers {Cert} (parseCRL : bytes -> option crl) (checkSig : Cert -> bytes -> bool)
    (body : task Cert -> url -> bytes * list (bytes * N)) (t : task Cert) (u : url) (e : fetchEnv) : Prop :=
  honestUrl Cert parseCRL checkSig (t_cert Cert t) (u, e) (body t u).
Definition honestReads {Cert} (t : task Cert) (u : url) (pe : procEnv) : Prop := pe_readErr pe = false.

(** Then every run that ends with code 0, however its workers are interleaved,
    has written the revocation files of all issuers, with exactly the entries of
    their CRLs.  Whatever earlier runs left on the disk, only a temporary file that
    looks like what its server now has could stand in the way (C88). *)
Theorem C68_all_written : forall sha256 lower Cert parseCRL checkSig body n ts d r s,
  goodQueue Cert ts -> (0 < n)%nat ->
  (forall t, In t ts -> NoDup (map (makeFilename sha256 lower) (t_urls Cert t))) ->
  runs sha256 lower Cert parseCRL checkSig
    (fun t u e => honestServers parseCRL checkSig body t u e /\
       replaces (snd (dv_attempts (fe_dv e) 0%nat)) (alookup (tmpOf (crlPath sha256 lower (t_issuer Cert t) u)) d))
    honestReads (init Cert n ts d r) s ->
  s_phase Cert s = Ended 0 -> s_cancelled Cert s = false ->
  forall t, In t ts -> exists data, alookup (t_issuer Cert t) (s_rev Cert s) = Some data /\
    readsAs data (flat_map (fun u => snd (body t u)) (t_urls Cert t)).
Proof.
  intros sha256 lower Cert parseCRL checkSig body n ts d r s G N W R P C t T.
  destruct (C68_one_after_the_other _ _ _ _ _ _ _ n ts d r s G N R P C) as [js [d' [r' [os [au [TS [A [D [Rv [_ [_ J]]]]]]]]]]].
  set (bls := fun j : job Cert => map (fun ue => body (queued Cert j) (fst ue)) (j_urls j)).
  assert (ND : NoDup (map j_issuer js)).
  { replace (map j_issuer js) with (map (t_issuer Cert) ts); [apply (proj1 G)|]. rewrite <- TS, map_map. reflexivity. }
  destruct (C29_honest_run sha256 lower Cert parseCRL checkSig js (map bls js) d r ND) as [d2 [r2 [au2 [A2 F]]]].
  { assert (H : forall j, In j js -> honestJob sha256 lower Cert parseCRL checkSig d j (bls j)).
    { intros j Hj. destruct (J j Hj) as [J1 [J2 J3]].
      assert (Tj : In (queued Cert j) ts) by (rewrite <- TS; apply in_map; exact Hj).
      pose proof (W _ Tj) as W1. cbn [t_urls queued] in W1. unfold honestJob. split; [apply (proj2 G _ Tj)|].
      split.
      { unfold bls. assert (J2' : forall ue, In ue (j_urls j) -> honestUrl Cert parseCRL checkSig (j_cert j) ue (body (queued Cert j) (fst ue)))
          by (intros [u e] I; apply (proj1 (J2 u e I))).
        clear -J2'. induction (j_urls j) as [|x l IH]; constructor; [apply J2'; left; reflexivity|]. apply IH. intros; apply J2'; right; assumption. }
      split; [rewrite map_map in W1; exact W1|].
      split; [intros u e I; apply (proj2 (J2 u e I))|].
      split; [|exact J1]. intros pe I. destruct (J3 pe I) as [X1 [u [_ X2]]]. split; [exact X1|exact X2]. }
    clear -H. induction js as [|j js IH]; cbn [map]; constructor; [apply H; left; reflexivity|]. apply IH. intros; apply H; right; assumption. }
  rewrite A in A2. assert (E : r2 = r') by congruence. subst r2.
  rewrite <- TS in T. apply in_map_iff in T. destruct T as [j [<- Hj]].
  assert (X : exists data, alookup (j_issuer j) r' = Some data /\ readsAs data (flat_map snd (bls j))).
  { clear -F Hj. induction js as [|j0 js IH]; [destruct Hj|]. cbn [map] in F. inversion F as [|a b c e F1 F2 E1 E2]; subst. destruct Hj as [->|Hj]; [exact F1|apply IH; assumption]. }
  destruct X as [data [X1 X2]]. exists data. cbn [t_issuer queued t_urls]. rewrite Rv. split; [exact X1|].
  replace (flat_map (fun u => snd (body (queued Cert j) u)) (map fst (j_urls j))) with (flat_map snd (bls j)); [exact X2|].
  unfold bls. rewrite !flat_map_concat_map, !map_map. reflexivity.
Qed.
Print Assumptions C68_all_written.

(** ** Concrete runs *)

Definition xFree {A B C : Type} : A -> B -> C -> Prop := fun _ _ _ => True.
Definition xStep := step xHash (fun s => s) byte xParse xSig xFree xFree.
Definition xRuns := runs xHash (fun s => s) byte xParse xSig xFree xFree.
Definition xTask (i : bytes) (cert : byte) (us : list url) : task byte := mkTask byte i cert true us.
Definition xOld : revDir := [(B "I", B "00ff" ++ [nl])].

Lemma xRuns_cons s1 s2 s3 : xStep s1 s2 -> xRuns s2 s3 -> xRuns s1 s3.
Proof. intros ST R. eapply runs_trans; [|exact R]. eapply RunsStep; [apply RunsRefl|exact ST]. Qed.

Ltac tidy := cbv [init setFetch setAgg setPhase s_phase s_cancelled s_queue s_fetch s_results s_agg s_lost s_given s_out s_disk s_rev s_saved s_audit repeat app map audited].

(** With no threads the program succeeds and saves the issuer list, with no
    revocation list written. *)
Theorem C68_no_threads_refuted : exists t d r s,
  xRuns (init byte 0 [t] d r) s /\ s_phase byte s = Ended 0 /\ s_cancelled byte s = false /\ s_saved byte s = true /\
  t_urls byte t <> [] /\ alookup (t_issuer byte t) (s_rev byte s) = None.
Proof.
  exists (xTask (B "I") "K" [xI1]), [], []. eexists. split.
  { eapply xRuns_cons; [apply StFetched; [reflexivity|constructor|reflexivity]|]. tidy.
    eapply xRuns_cons; [apply StSave; [reflexivity|constructor]|]. tidy. apply RunsRefl. }
  repeat split. discriminate.
Qed.
Print Assumptions C68_no_threads_refuted.

(** *** One issuer with one CRL, fetched properly by one worker *)

Definition xBody : bytes := B "C1abK".
Definition xEnv : fetchEnv := xServe xBody.

Ltac plan := match goal with |- ?l = _ => let v := eval vm_compute in l in transitivity v; [vm_compute; reflexivity|reflexivity] end.
Ltac fetchStart w1 w2 e := eapply xRuns_cons; [eapply (StFetch _ _ _ _ _ _ _ _ w1 w2); [reflexivity|reflexivity|]; eapply (FmStart _ _ _ _ _ _ _ _ _ _ _ e); [reflexivity|reflexivity|exact I|plan]|]; tidy.
Ltac fetchFiles w1 w2 := repeat (eapply xRuns_cons; [eapply (StFetch _ _ _ _ _ _ _ _ w1 w2); [reflexivity|reflexivity|apply FmFile]|]; tidy).
Ltac fetchNext w1 w2 := eapply xRuns_cons; [eapply (StFetch _ _ _ _ _ _ _ _ w1 w2); [reflexivity|reflexivity|apply FmNext]|]; tidy.
Ltac fetchSend w1 w2 := eapply xRuns_cons; [eapply (StFetch _ _ _ _ _ _ _ _ w1 w2); [reflexivity|reflexivity|apply FmSend]|]; tidy.
Ltac fetchTask w1 w2 e :=
  eapply xRuns_cons; [eapply (StTake _ _ _ _ _ _ _ _ w1 w2); reflexivity|]; tidy;
  fetchStart w1 w2 e; fetchFiles w1 w2; fetchNext w1 w2; fetchSend w1 w2.

(** A signal during the aggregation: the program still saves the issuer list and
    ends with code 0, though no revocation list was written and every server
    answered properly. *)
Theorem C68_cancelled_refuted : exists t d r s,
  xRuns (init byte 1 [t] d r) s /\ s_phase byte s = Ended 0 /\ s_saved byte s = true /\
  alookup (t_issuer byte t) (s_rev byte s) = None /\
  (exists f, In xI1 (t_urls byte t) /\ alookup (crlPath xHash (fun s => s) (t_issuer byte t) xI1) (s_disk byte s) = Some f /\ f_data f = xBody).
Proof.
  exists (xTask (B "I") "K" [xI1]), [], []. eexists. split.
  { tidy. fetchTask (@nil (fworker byte)) (@nil (fworker byte)) xEnv.
    eapply xRuns_cons; [eapply (StLeave _ _ _ _ _ _ _ _ [] []); reflexivity|]; tidy.
    eapply xRuns_cons; [eapply StFetched; [reflexivity|constructor; [reflexivity|constructor]|reflexivity]|]; tidy.
    eapply xRuns_cons; [eapply StSignal; [right; reflexivity|reflexivity]|]; tidy.
    eapply xRuns_cons; [eapply (StATake _ _ _ _ _ _ _ _ [] []); reflexivity|]; tidy.
    eapply xRuns_cons; [eapply (StAgg _ _ _ _ _ _ _ _ [] []); [reflexivity|reflexivity|apply AmCancelled; reflexivity]|]; tidy.
    eapply xRuns_cons; [eapply StSave; [reflexivity|constructor; [reflexivity|constructor]]|]; tidy.
    apply RunsRefl. }
  split; [reflexivity|]. split; [reflexivity|]. split; [reflexivity|]. eexists. split; [left; reflexivity|]. split; [vm_compute; reflexivity|reflexivity].
Qed.
Print Assumptions C68_cancelled_refuted.

(** A run that is cancelled while it fetches. *)
Example C68_stopped_case : exists t r s,
  xRuns (init byte 1 [t] [] r) s /\ s_phase byte s = Ended 0 /\ s_saved byte s = false /\ s_cancelled byte s = true /\ s_rev byte s = r.
Proof.
  exists (xTask (B "I") "K" [xI1]), []. eexists. split.
  { tidy. eapply xRuns_cons; [eapply (StTake _ _ _ _ _ _ _ _ [] []); reflexivity|]; tidy.
    eapply xRuns_cons; [eapply StSignal; [left; reflexivity|reflexivity]|]; tidy.
    eapply xRuns_cons; [eapply (StFetch _ _ _ _ _ _ _ _ [] []); [reflexivity|reflexivity|apply FmCancelled; reflexivity]|]; tidy.
    eapply xRuns_cons; [eapply StStopped; [reflexivity|constructor; [reflexivity|constructor]|reflexivity]|]; tidy.
    apply RunsRefl. }
  repeat split; reflexivity.
Qed.

(** *** Two issuers and two workers *)

Definition xTwo : list (task byte) := [xTask (B "I") "K" [xI1]; xTask (B "J") "K" [xJ1]].

Ltac fetchBoth :=
  fetchTask (@nil (fworker byte)) [FIdle byte] xEnv;
  fetchTask [FIdle byte] (@nil (fworker byte)) xEnv;
  eapply xRuns_cons; [eapply (StLeave _ _ _ _ _ _ _ _ [] [FIdle byte]); reflexivity|]; tidy;
  eapply xRuns_cons; [eapply (StLeave _ _ _ _ _ _ _ _ [FGone byte] []); reflexivity|]; tidy;
  eapply xRuns_cons; [eapply StFetched; [reflexivity|constructor; [reflexivity|constructor; [reflexivity|constructor]]|reflexivity]|]; tidy.
Ltac aggTake w1 w2 := eapply xRuns_cons; [eapply (StATake _ _ _ _ _ _ _ _ w1 w2); reflexivity|]; tidy.
Ltac aggCrl w1 w2 := eapply xRuns_cons;
  [eapply (StAgg _ _ _ _ _ _ _ _ w1 w2); [reflexivity|reflexivity|]; eapply (AmCrl _ _ _ _ _ _ _ _ _ _ _ _ _ (mkProc false false None)); [reflexivity|reflexivity|exact I|plan]|]; tidy.
Ltac aggOpen w1 w2 := eapply xRuns_cons; [eapply (StAgg _ _ _ _ _ _ _ _ w1 w2); [reflexivity|reflexivity|apply AmOpen]|]; tidy.

(** An error with the file of one issuer ends the process while the file of
    another one is half written: its old list is gone, the new one is not there. *)
Theorem C68_half_written_refuted : exists r s,
  xRuns (init byte 2 xTwo [] r) s /\ s_phase byte s = Ended 255 /\
  alookup (B "I") r = Some (B "00ff" ++ [nl]) /\ alookup (B "I") (s_rev byte s) = Some (B "0061" ++ [nl] ++ B "0") /\
  alookup (B "J") (s_rev byte s) = None.
Proof.
  exists xOld. eexists. split.
  { unfold xTwo. tidy. fetchBoth.
    aggTake (@nil (aworker byte)) [AIdle byte]. aggCrl (@nil (aworker byte)) [AIdle byte].
    match goal with |- xRuns (mkSt _ _ _ _ _ _ [?a; _] _ _ _ _ _ _ _) _ => aggTake [a] (@nil (aworker byte)); aggCrl [a] (@nil (aworker byte)) end.
    match goal with |- xRuns (mkSt _ _ _ _ _ _ [_; ?b] _ _ _ _ _ _ _) _ => aggOpen (@nil (aworker byte)) [b] end.
    match goal with |- xRuns (mkSt _ _ _ _ _ _ [ABusy _ (mkA _ ?t ?dn ?pes (AWrite ?c ?k)); ?b] _ _ _ _ _ _ _) _ =>
      eapply xRuns_cons; [eapply (StAgg _ _ _ _ _ _ _ _ [] [b]); [reflexivity|reflexivity|apply (AmWrite _ _ _ _ _ t dn pes c k 6); vm_compute; lia]|]; tidy end.
    match goal with |- xRuns (mkSt _ _ _ _ _ _ [?a; _] _ _ _ _ _ _ _) _ =>
      eapply xRuns_cons; [eapply (StFatal _ _ _ _ _ _ _ _ [a] []); [reflexivity|reflexivity|apply AfOpen]|]; tidy end.
    apply RunsRefl. }
  split; [reflexivity|]. vm_compute. auto.
Qed.
Print Assumptions C68_half_written_refuted.

(** Two workers on two issuers, interleaved; the run ends well, so the
    hypotheses of [C68_one_after_the_other] can be met. *)
Example C68_example : goodQueue byte xTwo /\ exists s,
  xRuns (init byte 2 xTwo [] xOld) s /\ s_phase byte s = Ended 0 /\ s_cancelled byte s = false /\ s_saved byte s = true /\
  alookup (B "I") (s_rev byte s) = Some (B "0061" ++ [nl] ++ B "0062" ++ [nl]) /\
  alookup (B "J") (s_rev byte s) = Some (B "0061" ++ [nl] ++ B "0062" ++ [nl]) /\
  s_audit byte s = [(B "J", xJ1, AuWrongIDP); (B "J", xJ1, AuValid 2 xBody); (B "I", xI1, AuWrongIDP); (B "I", xI1, AuValid 2 xBody)].
Proof.
  split.
  { split; [vm_compute; constructor; [intros [X|[]]; discriminate X|constructor; [intros []|constructor]]|].
    intros t [<-|[<-|[]]] [X|[]]; discriminate X. }
  eexists. split.
  { unfold xTwo. tidy. fetchBoth.
    aggTake (@nil (aworker byte)) [AIdle byte].
    match goal with |- xRuns (mkSt _ _ _ _ _ _ [?a; _] _ _ _ _ _ _ _) _ => aggTake [a] (@nil (aworker byte)); aggCrl [a] (@nil (aworker byte)); aggOpen [a] (@nil (aworker byte)) end.
    match goal with |- xRuns (mkSt _ _ _ _ _ _ [_; ?b] _ _ _ _ _ _ _) _ => aggCrl (@nil (aworker byte)) [b]; aggOpen (@nil (aworker byte)) [b] end.
    match goal with |- xRuns (mkSt _ _ _ _ _ _ [?a; ABusy _ (mkA _ ?t ?dn ?pes (AWrite ?c ?k))] _ _ _ _ _ _ _) _ =>
      eapply xRuns_cons; [eapply (StAgg _ _ _ _ _ _ _ _ [a] []); [reflexivity|reflexivity|apply (AmWrite _ _ _ _ _ t dn pes c k (length c)); vm_compute; lia]|]; tidy;
      eapply xRuns_cons; [eapply (StAgg _ _ _ _ _ _ _ _ [a] []); [reflexivity|reflexivity|apply AmWritten]|]; tidy;
      eapply xRuns_cons; [eapply (StALeave _ _ _ _ _ _ _ _ [a] []); reflexivity|]; tidy end.
    match goal with |- xRuns (mkSt _ _ _ _ _ _ [ABusy _ (mkA _ ?t ?dn ?pes (AWrite ?c ?k)); ?b] _ _ _ _ _ _ _) _ =>
      eapply xRuns_cons; [eapply (StAgg _ _ _ _ _ _ _ _ [] [b]); [reflexivity|reflexivity|apply (AmWrite _ _ _ _ _ t dn pes c k (length c)); vm_compute; lia]|]; tidy;
      eapply xRuns_cons; [eapply (StAgg _ _ _ _ _ _ _ _ [] [b]); [reflexivity|reflexivity|apply AmWritten]|]; tidy;
      eapply xRuns_cons; [eapply (StALeave _ _ _ _ _ _ _ _ [] [b]); reflexivity|]; tidy end.
    eapply xRuns_cons; [eapply StSave; [reflexivity|constructor; [reflexivity|constructor; [reflexivity|constructor]]]|]; tidy.
    apply RunsRefl. }
  vm_compute. repeat split.
Qed.
