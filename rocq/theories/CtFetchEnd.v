(** * Provenance of events, and the whole process with both kinds of logs *)
From Verif Require Import Base MerkleModel MerkleSpec MerkleProofs MerkleProofs2 MerkleProofs3
  CtFetchModel CtFetchProofs CtFetchSafety CtFetchJobs CtFetchTiled CtFetchMin CtSystem.

Section End_.
  Variable sha256 : bytes -> bytes.
  Context {Cert : Type}.
  Notation event := (event Cert).

  (** ** What the outcome of an entry means *)
  Definition issuerOf (chain : list (option (parsedCert Cert))) (iss : Cert) : Prop :=
    exists i0 rest, chain = Some i0 :: rest /\
      ((pc_preIssuer Cert i0 = false /\ iss = pc_cert Cert i0) \/
       (pc_preIssuer Cert i0 = true /\ exists i1 rest', rest = Some i1 :: rest' /\ iss = pc_cert Cert i1)).

  Definition handled (logExpired : bool) (cert : parsedCert Cert) (chain : list (option (parsedCert Cert)))
      (o : storeOutcome Cert) : Prop :=
    match o with
    | SQueued x iss => x = pc_cert Cert cert /\ issuerOf chain iss
    | SSkipExpired => pc_expired Cert cert = true /\ logExpired = false
    | SSkipNoChain => chain = []
    | SFatal => False
    end.

  Lemma storeLogEntry_handled le c cert chain :
    storeLogEntry Cert le c cert chain <> SFatal ->
    exists x, cert = Some x /\ handled le x chain (storeLogEntry Cert le c cert chain).
  Proof.
    unfold storeLogEntry. destruct cert as [x|]; [|congruence]. intros H. exists x. split; [reflexivity|].
    destruct (pc_expired Cert x) eqn:Ex; destruct le; cbn [andb negb] in *;
      try (cbn [handled]; auto; fail).
    all: destruct chain as [|[i0|] rest]; cbn [handled]; auto; try congruence.
    all: destruct (pc_preIssuer Cert i0) eqn:Ep.
    all: try (destruct rest as [|[i1|] rest]; try congruence).
    all: destruct c; try congruence; cbn [handled]; split; auto.
    all: unfold issuerOf; do 2 eexists; split; [reflexivity|]; rewrite Ep.
    all: try (left; split; reflexivity).
    all: right; split; [reflexivity|]; do 2 eexists; split; reflexivity.
  Qed.

  (** The raw entry an event comes from. *)
  Definition fromEntry (le : bool) (es : list (rawEntry Cert)) (e : event) : Prop :=
    match e with
    | EEntry _ ts leaf o => exists r c cert chain, In r es /\ re_leaf Cert r = leaf /\
        re_parsed Cert r = Some (ts, c, Some cert, chain) /\ handled le cert chain o
    | EState _ => True
    end.
  Fixpoint allEntries (rs : list (resp Cert)) : list (rawEntry Cert) :=
    match rs with
    | [] => []
    | REntries es :: rs' => es ++ allEntries rs'
    | _ :: rs' => allEntries rs'
    end.

  Lemma fromEntry_incl le es es' e : incl es es' -> fromEntry le es e -> fromEntry le es' e.
  Proof.
    destruct e; cbn [fromEntry]; auto. intros H [r [c [cert [chain [A B]]]]].
    exists r, c, cert, chain. split; [apply H; exact A|exact B].
  Qed.

  Lemma handleEntries_from le es : forall index v mn mx tr r,
    handleEntries sha256 Cert le es index v mn mx = (tr, r) -> Forall (fromEntry le es) tr.
  Proof.
    induction es as [|e es IH]; intros index v mn mx tr r H; cbn [handleEntries] in H.
    - injection H as <- <-. constructor.
    - assert (Inc : incl es (e :: es)) by (intros x; right; assumption).
      destruct (re_parsed Cert e) as [[[[ts c] cert] chain]|] eqn:Ep.
      2:{ eapply Forall_impl; [|exact (IH _ _ _ _ _ _ H)]. intros; eapply fromEntry_incl; eauto. }
      pose proof (storeLogEntry_handled le c cert chain) as SH.
      destruct (storeLogEntry Cert le c cert chain) as [c1 c2| | |] eqn:Eo.
      4:{ injection H as <- <-. constructor. }
      all: destruct (SH ltac:(discriminate)) as [x [Ex Hx]].
      all: destruct (consume sha256 v (re_leaf Cert e)); try (injection H as <- <-; constructor; fail).
      all: destruct (handleEntries sha256 Cert le es (add64 index 1) a (minTsUpd mn ts) (maxTsUpd mx ts)) as [tr' r'] eqn:Eh.
      all: injection H as <- <-; constructor;
        [cbn [fromEntry]; exists e, c, x, chain; rewrite Ep, Ex; split; [left; reflexivity|]; split; [reflexivity|]; split; [reflexivity|exact Hx]|].
      all: eapply Forall_impl; [|exact (IH _ _ _ _ _ _ Eh)]; intros; eapply fromEntry_incl; eauto.
  Qed.

  Lemma download_from le resps : forall index v mn mx tr r rs',
    download sha256 Cert le resps index v mn mx = (tr, r, rs') ->
    Forall (fromEntry le (allEntries resps)) tr /\ incl (allEntries rs') (allEntries resps).
  Proof.
    induction resps as [|rp resps IH]; intros index v mn mx tr r rs' H; cbn [download] in H.
    - destruct (st_last (v_subtree v) <? index)%N; injection H as <- <- <-; split; try constructor; apply incl_refl.
    - destruct (st_last (v_subtree v) <? index)%N; [injection H as <- <- <-; split; [constructor|apply incl_refl]|].
      destruct rp as [[|]| |es]; cbn [allEntries].
      + injection H as <- <- <-; split; [constructor|apply incl_refl].
      + eapply IH; eassumption.
      + injection H as <- <- <-; split; [constructor|apply incl_refl].
      + destruct (handleEntries sha256 Cert le es index v mn mx) as [tr1 r1] eqn:Eh.
        pose proof (handleEntries_from _ _ _ _ _ _ _ _ Eh) as F1.
        assert (F1' : Forall (fromEntry le (es ++ allEntries resps)) tr1).
        { eapply Forall_impl; [|exact F1]. intros; eapply fromEntry_incl; eauto. apply incl_appl, incl_refl. }
        destruct r1 as [[[[[i' v'] mn'] mx']| |]|];
          try (injection H as <- <- <-; split; [exact F1'|apply incl_appr, incl_refl]).
        destruct (download sha256 Cert le resps i' v' mn' mx') as [[tr2 r2] rs2] eqn:Ed.
        injection H as <- <- <-. destruct (IH _ _ _ _ _ _ _ Ed) as [F2 I2].
        split; [|apply incl_appr; exact I2].
        apply Forall_app. split; [exact F1'|].
        eapply Forall_impl; [|exact F2]. intros; eapply fromEntry_incl; eauto. apply incl_appr, incl_refl.
  Qed.

  Lemma runVerifiers_from w le now vs : forall s resps cancels tr o,
    runVerifiers sha256 Cert w le now vs s resps cancels = (tr, o) ->
    Forall (fromEntry le (allEntries resps)) tr.
  Proof.
    induction vs as [|st vs IH]; intros s resps cancels tr o R; cbn [runVerifiers] in R.
    - injection R as <- <-. constructor.
    - destruct (download sha256 Cert le resps (st_first st) (newVerifier st) 0 0) as [[tr1 r] resps'] eqn:Ed.
      destruct (download_from _ _ _ _ _ _ _ _ _ Ed) as [F1 I1].
      destruct r as [v mn mx| | |]; try (injection R as <- <-; exact F1).
      destruct (checkClaim v); try (injection R as <- <-; exact F1).
      destruct (updateState w (Some (st_first st, st_last st)) mn mx now s) as [s'|]; try (injection R as <- <-; exact F1).
      destruct (hd (false, false) cancels) as [[] [|]]; try (injection R as <- <-; exact F1).
      + injection R as <- <-. apply Forall_app. split; [exact F1|]. repeat constructor.
      + destruct (runVerifiers sha256 Cert w le now vs s' resps' (tl cancels)) as [tr' o'] eqn:Er.
        injection R as <- <-. apply Forall_app. split; [exact F1|]. constructor; [exact I|].
        eapply Forall_impl; [|exact (IH _ _ _ _ _ Er)]. intros; eapply fromEntry_incl; eauto.
  Qed.

  Lemma run_from J s e tr o :
    run sha256 Cert J s e = (tr, o) ->
    Forall (fromEntry (je_logExpired Cert e) (allEntries (je_resps Cert e))) tr.
  Proof.
    intros R. unfold run in R.
    destruct (je_head Cert e) as [h|]; [|injection R as <- <-; constructor].
    destruct (chooseTask J (je_recent Cert e) (Some h) s) eqn:Ew; try (injection R as <- <-; constructor; fail).
    4:{ destruct (ls_maxEntry s =? sub64 (sth_size h) 1)%N; [|injection R as <- <-; constructor].
        cbn [updateState] in R.
        destruct (fst (hd (false, false) (je_cancels Cert e))); injection R as <- <-; repeat constructor. }
    all: match type of R with context[jobRange ?a ?b ?c ?d] => destruct (jobRange a b c d) as [fl| |] end;
      try (injection R as <- <-; constructor; fail).
    all: destruct (proofSizes fl) as [old new].
    all: destruct (je_proof Cert e) as [proof|]; [|injection R as <- <-; constructor].
    all: destruct (consistencyProofToSubtrees proof old new) as [sts| |]; try (injection R as <- <-; constructor; fail).
    all: match type of R with context[runVerifiers ?a ?b ?c ?d ?e0 ?f ?g ?h0 ?i] =>
           destruct (runVerifiers a b c d e0 f g h0 i) as [tr1 o1] eqn:Er end.
    all: assert (tr1 = tr) as -> by (cbv zeta in R; congruence).
    all: exact (runVerifiers_from _ _ _ _ _ _ _ _ _ Er).
  Qed.

  (** ** Tiled *)
  Definition tIssuerOf (chain : list (issuerFetch Cert)) (iss : Cert) : Prop :=
    exists i0 rest, chain = IFCert i0 :: rest /\
      ((pc_preIssuer Cert i0 = false /\ iss = pc_cert Cert i0) \/
       (pc_preIssuer Cert i0 = true /\ exists i1 rest', rest = IFCert i1 :: rest' /\ iss = pc_cert Cert i1)).
  Definition tHandled (logExpired : bool) (cert : parsedCert Cert) (chain : list (issuerFetch Cert))
      (o : storeOutcome Cert) : Prop :=
    match o with
    | SQueued x iss => x = pc_cert Cert cert /\ tIssuerOf chain iss
    | SSkipExpired => pc_expired Cert cert = true /\ logExpired = false
    | SSkipNoChain => chain = []
    | SFatal => False
    end.
  Lemma storeTiled_handled le c cert chain o :
    storeLogEntryTiled Cert le c cert chain = TSOk o ->
    exists x, cert = Some x /\ tHandled le x chain o.
  Proof.
    unfold storeLogEntryTiled. destruct cert as [x|]; [|discriminate]. intros H. exists x. split; [reflexivity|].
    destruct (pc_expired Cert x) eqn:Ex; destruct le; cbn [andb negb] in *;
      try (injection H as <-; cbn [tHandled]; auto; fail).
    all: destruct chain as [|[i0| |] rest]; try discriminate; try (injection H as <-; cbn [tHandled]; auto; fail).
    all: destruct (pc_preIssuer Cert i0) eqn:Ep.
    all: try (destruct rest as [|[i1| |] rest]; try discriminate).
    all: destruct c; try discriminate; injection H as <-; cbn [tHandled]; split; auto.
    all: unfold tIssuerOf; do 2 eexists; split; [reflexivity|]; rewrite Ep.
    all: try (left; split; reflexivity).
    all: right; split; [reflexivity|]; do 2 eexists; split; reflexivity.
  Qed.
  Definition tFrom (le : bool) (es : list (tiledEntry Cert)) (e : event) : Prop :=
    match e with
    | EEntry _ ts leaf o => exists r cert, In r es /\ te_leaf Cert r = leaf /\ te_ts Cert r = ts /\
        te_cert Cert r = Some cert /\ tHandled le cert (te_chain Cert r) o
    | EState _ => True
    end.
  Lemma tFrom_incl le es es' e : incl es es' -> tFrom le es e -> tFrom le es' e.
  Proof.
    destruct e; cbn [tFrom]; auto. intros H [r [cert [A B]]].
    exists r, cert. split; [apply H; exact A|exact B].
  Qed.
  Lemma readLogEntries_from le bs now es endc cerr : forall s mE mn mx tr vars r,
    readLogEntries Cert le bs now es endc cerr s mE mn mx = (tr, vars, r) -> Forall (tFrom le es) tr.
  Proof.
    induction es as [|e es IH]; intros s mE mn mx tr vars r R; cbn [readLogEntries] in R.
    - destruct endc; injection R as <- <- <-; repeat constructor.
    - assert (Inc : incl es (e :: es)) by (intros x; right; assumption).
      destruct (storeLogEntryTiled Cert le (te_cancelled Cert e) (te_cert Cert e) (te_chain Cert e)) as [o| |] eqn:Eo;
        try (injection R as <- <- <-; constructor; fail).
      destruct (storeTiled_handled _ _ _ _ _ Eo) as [x [Ex Hx]].
      assert (Hd : forall i, tFrom le (e :: es) (EEntry i (te_ts Cert e) (te_leaf Cert e) o)).
      { intros i. cbn [tFrom]. exists e, x. split; [left; reflexivity|]. split; [reflexivity|]. split; [reflexivity|]. split; [exact Ex|exact Hx]. }
      destruct (bs =? 0)%N; [injection R as <- <- <-; constructor; [apply Hd|constructor]|].
      destruct (add64 mE 1 mod bs =? 0)%N.
      + destruct (te_saveCancelled Cert e); [injection R as <- <- <-; constructor; [apply Hd|constructor]|].
        match type of R with context[readLogEntries ?a ?b ?c ?d ?e0 ?f ?g ?h0 ?i ?j ?k] =>
          destruct (readLogEntries a b c d e0 f g h0 i j k) as [[tr2 v2] r2] eqn:E2 end.
        injection R as <- <- <-. constructor; [apply Hd|]. constructor; [exact I|].
        eapply Forall_impl; [|exact (IH _ _ _ _ _ _ _ E2)]. intros; eapply tFrom_incl; eauto.
      + match type of R with context[readLogEntries ?a ?b ?c ?d ?e0 ?f ?g ?h0 ?i ?j ?k] =>
          destruct (readLogEntries a b c d e0 f g h0 i j k) as [[tr2 v2] r2] eqn:E2 end.
        injection R as <- <- <-. constructor; [apply Hd|].
        eapply Forall_impl; [|exact (IH _ _ _ _ _ _ _ E2)]. intros; eapply tFrom_incl; eauto.
  Qed.
  Definition tAll (e : tiledEnv Cert) : list (tiledEntry Cert) :=
    fst (fst (tj_first Cert e)) ++ fst (fst (tj_second Cert e)).
  Lemma runTiled_from bs s e tr o :
    runTiled Cert bs s e = (tr, o) -> Forall (tFrom (tj_logExpired Cert e) (tAll e)) tr.
  Proof.
    unfold runTiled, tAll. destruct (tj_head Cert e) as [h|]; [|intros R; injection R as <- <-; constructor].
    destruct (tj_first Cert e) as [[es c] ce]. destruct (tj_second Cert e) as [[es2 c2] ce2]. cbn [fst].
    destruct (chooseTaskTiled bs (tj_recent Cert e) (Some h) s); intros R;
      try (injection R as <- <-; constructor; fail).
    - match type of R with context[readLogEntries ?a ?b ?c ?d ?e0 ?f ?g ?h0 ?i ?j ?k] =>
          destruct (readLogEntries a b c d e0 f g h0 i j k) as [[tr2 v2] r2] eqn:E2 end.
      injection R as <- <-. eapply Forall_impl; [|exact (readLogEntries_from _ _ _ _ _ _ _ _ _ _ _ _ _ E2)].
      intros; eapply tFrom_incl; [|eassumption]. apply incl_appl, incl_refl.
    - match type of R with context[readLogEntries ?a ?b ?c ?d ?e0 ?f ?g ?h0 ?i ?j ?k] =>
          destruct (readLogEntries a b c d e0 f g h0 i j k) as [[tr2 [[[s2 m2] n2] x2]] r2] eqn:E2 end.
      assert (F : Forall (tFrom (tj_logExpired Cert e) (es ++ es2)) tr2).
      { eapply Forall_impl; [|exact (readLogEntries_from _ _ _ _ _ _ _ _ _ _ _ _ _ E2)].
        intros; eapply tFrom_incl; [|eassumption]. apply incl_appl, incl_refl. }
      destruct r2 as [[]| |]; try (injection R as <- <-; exact F).
      match type of R with context[readLogEntries ?a ?b ?c ?d ?e0 ?f ?g ?h0 ?i ?j ?k] =>
          destruct (readLogEntries a b c d e0 f g h0 i j k) as [[tr3 v3] r3] eqn:E3 end.
      injection R as <- <-. apply Forall_app. split; [exact F|].
      eapply Forall_impl; [|exact (readLogEntries_from _ _ _ _ _ _ _ _ _ _ _ _ _ E3)].
      intros; eapply tFrom_incl; [|eassumption]. apply incl_appr, incl_refl.
    - destruct (add64 (ls_maxEntry s) 1 =? sth_size h)%N; [|injection R as <- <-; constructor].
      destruct (tj_sleepCancelled Cert e); injection R as <- <-; repeat constructor.
  Qed.

  (** ** The two kinds of jobs as workers of the process *)
  Variable J : N.                       (* BatchSize *)
  Variable tiled : bytes -> bool.       (* log metadata: is the log tiled? *)

  (** What is assumed of the outside world in one job: sizes fit in 63 bits
      (both libraries use int64). *)
  Definition envOk (e : jobEnv Cert) : Prop :=
    headOk (je_head Cert e) /\ Forall respOk (je_resps Cert e).
  Definition tEnvOk (s : logState) (e : tiledEnv Cert) : Prop :=
    (ls_maxEntry s + tiledBudget e < two63)%N.

  (** Jobs on RFC 6962 logs, possibly restricted by [extra]. *)
  Variable extra : logState -> jobEnv Cert -> Prop.
  Definition jobs6962 (s : logState) (e : jobEnv Cert) (tr : list event) : Prop :=
    (envOk e /\ extra s e) /\ exists o, run sha256 Cert J s e = (tr, o).
  Definition jobsTiled (s : logState) (e : tiledEnv Cert) (tr : list event) : Prop :=
    tEnvOk s e /\ exists o, runTiled Cert J s e = (tr, o).

  (** A job observes an RFC 6962 log or a tiled log. *)
  Definition anyEnv : Type := (jobEnv Cert + tiledEnv Cert)%type.
  Definition Wall (lg : bytes) (s : logState) (en : anyEnv) (tr : list event) : Prop :=
    match en with
    | inl e => tiled lg = false /\ jobs6962 s e tr
    | inr e => tiled lg = true /\ jobsTiled s e tr
    end.

  Definition wfTiled (s : logState) : Prop :=
    ls_minEntry s = 0%N /\ (ls_maxEntry s < two63)%N /\ (ls_lastUpdate s = None -> ls_maxEntry s = 0%N).
  Definition wfAll (lg : bytes) (s : logState) : Prop :=
    if tiled lg then wfTiled s else wfState s.

  Hypothesis HJ : (0 < J < two63)%N.

  Lemma wfAll_fresh lg : wfAll lg freshState.
  Proof.
    unfold wfAll, wfTiled, wfState. destruct (tiled lg); cbn; repeat split; reflexivity.
  Qed.

  Lemma In_split_state (tr : list event) st : In (EState st) tr -> exists pre post, tr = pre ++ EState st :: post.
  Proof. intros H. apply in_split in H. exact H. Qed.

  Lemma nEntries_le (tr : list event) : forall k, numbered k tr -> (nEntries tr <= N.of_nat (length tr))%N.
  Proof. induction tr as [|[i ts l o|s] tr IH]; intros k H; cbn [nEntries length numbered] in *; [lia| |];
    [destruct H as [_ [_ H]]|]; specialize (IH _ H); lia. Qed.

  Lemma runTiled_budget s e tr o : tEnvOk s e -> runTiled Cert J s e = (tr, o) ->
    (ls_maxEntry s + nEntries tr < two63)%N.
  Proof.
    intros HB R. unfold tEnvOk in HB. unfold runTiled in R.
    assert (Two : (two64 = two63 + two63)%N) by reflexivity.
    unfold tiledBudget in HB.
    destruct (tj_head Cert e) as [h|]; [|injection R as <- <-; cbn; lia].
    destruct (tj_first Cert e) as [[es c] ce]. destruct (tj_second Cert e) as [[es2 c2] ce2]. cbn [fst] in HB.
    destruct (chooseTaskTiled J (tj_recent Cert e) (Some h) s);
      try (injection R as <- <-; cbn; lia).
    - match type of R with context[readLogEntries ?a ?b ?c ?d ?e0 ?f ?g ?h0 ?i ?j ?k] =>
          destruct (readLogEntries a b c d e0 f g h0 i j k) as [[tr2 [[[s2 m2] n2] x2]] r2] eqn:E2 end.
      injection R as <- <-.
      pose proof (fun c => readLogEntries_sound _ _ _ _ _ _ _ _ _ _ _ _ _ _ _ _ (N.le_refl _) (N.le_refl _) c E2) as Q.
      destruct (Q ltac:(lia)) as [A1 [A2 [A3 _]]]. lia.
    - match type of R with context[readLogEntries ?a ?b ?c ?d ?e0 ?f ?g ?h0 ?i ?j ?k] =>
          destruct (readLogEntries a b c d e0 f g h0 i j k) as [[tr2 [[[s2 m2] n2] x2]] r2] eqn:E2 end.
      pose proof (fun c => readLogEntries_sound _ _ _ _ _ _ _ _ _ _ _ _ _ _ _ _ (N.le_refl _) (N.le_refl _) c E2) as Q.
      destruct (Q ltac:(lia)) as [A1 [A2 [A3 [A4 [A5 _]]]]].
      destruct r2 as [[]| |]; try (injection R as <- <-; lia).
      match type of R with context[readLogEntries ?a ?b ?c ?d ?e0 ?f ?g ?h0 ?i ?j ?k] =>
          destruct (readLogEntries a b c d e0 f g h0 i j k) as [[tr3 [[[s3 m3] n3] x3]] r3] eqn:E3 end.
      pose proof (fun c => readLogEntries_sound _ _ _ _ _ _ _ _ _ _ _ _ _ _ _ _ A4 A5 c E3) as Q3.
      destruct (Q3 ltac:(lia)) as [B1 [B2 [B3 _]]].
      injection R as <- <-. rewrite nEntries_app. lia.
    - destruct (add64 (ls_maxEntry s) 1 =? sth_size h)%N; [|injection R as <- <-; cbn; lia].
      destruct (tj_sleepCancelled Cert e); injection R as <- <-; cbn; lia.
  Qed.

  Lemma Wall_wf lg s0 en tr st : Wall lg s0 en tr -> wfAll lg s0 -> In (EState st) tr -> wfAll lg st.
  Proof.
    unfold Wall, wfAll. intros Hw W0 Hin. apply In_split_state in Hin. destruct Hin as [pre [post E]].
    assert (Two : (two64 = two63 + two63)%N) by reflexivity.
    destruct en as [e|e]; destruct Hw as [T Hw]; rewrite T in W0 |- *.
    - destruct Hw as [[[EH ER] EX] [o R]].
      destruct (run_sound sha256 J s0 e tr o HJ EH ER W0 R) as [[sts [P S]]|[->|[s' [h [-> [H1 [H2 [H3 [H4 [H5 [H6 H7]]]]]]]]]]].
      + exact (proj1 (S _ _ _ E)).
      + destruct pre; discriminate.
      + destruct pre as [|? [|? ?]]; try discriminate. injection E as <- <-.
        unfold wfState in *. rewrite H3, H4. destruct (ls_lastUpdate s'); [|congruence].
        destruct (ls_lastUpdate s0); [exact W0|]. unfold two63. lia.
    - destruct Hw as [HB [o R]]. pose proof (runTiled_budget _ _ _ _ HB R) as Bd.
      destruct (runTiled_sound J s0 e tr o) as [Nm Hs]; [unfold tEnvOk, two63, two64 in *; lia|exact R|].
      destruct (Hs _ _ _ E) as [A1 [A2 [A3 _]]].
      unfold wfTiled. split; [exact A1|]. split; [|intros X; congruence].
      rewrite E, nEntries_app in Bd. lia.
  Qed.

  Lemma Wall_mono lg s0 en tr st : Wall lg s0 en tr -> wfAll lg s0 -> In (EState st) tr ->
    ls_lastUpdate s0 <> None -> wider s0 st.
  Proof.
    unfold Wall, wfAll. intros Hw W0 Hin NN. apply In_split_state in Hin. destruct Hin as [pre [post E]].
    destruct en as [e|e]; destruct Hw as [T Hw]; rewrite T in W0.
    - destruct Hw as [[[EH ER] EX] [o R]]. split.
      + destruct (run_sound sha256 J s0 e tr o HJ EH ER W0 R) as [[sts [P S]]|[->|[s' [h [-> [H1 [H2 [H3 [H4 [H5 [H6 H7]]]]]]]]]]].
        * destruct (S _ _ _ E) as [_ [_ [_ [X _]]]]. exact (X NN).
        * destruct pre; discriminate.
        * destruct pre as [|? [|? ?]]; try discriminate. injection E as <- <-. rewrite H5. lia.
      + destruct (run_min sha256 J s0 e tr o HJ EH ER W0 R) as [M|[s' [h [-> [_ [M _]]]]]].
        * exact (proj1 (M _ _ _ E) NN).
        * destruct pre as [|? [|? ?]]; try discriminate. injection E as <- <-. rewrite M. lia.
    - destruct Hw as [HB [o R]]. split.
      + destruct (runTiled_sound J s0 e tr o) as [Nm Hs]; [unfold tEnvOk, two63, two64 in *; lia|exact R|].
        destruct (Hs _ _ _ E) as [A1 [A2 [A3 [A4 _]]]]. exact A4.
      + exact (proj1 (runTiled_min _ _ _ _ _ R _ _ _ E)).
  Qed.

  (** The two exceptional situations in which index 0 is claimed without having
      been downloaded. *)
  Definition indexZeroGap (s : @sys Cert anyEnv) (lg : bytes) (i : N) : Prop :=
    i = 0%N /\
    (tiled lg = true \/
     exists e tr h s0, In (lg, s0, inl e, tr) (history s) /\ jobs6962 s0 e tr /\ ls_lastUpdate s0 = None /\
       je_head Cert e = Some h /\ sth_size h = 1%N).

  (** [pre] followed by the save point [sp] was emitted by a job on [lg]. *)
  Lemma end_to_end s lg st i :
    reachable J Wall s -> alookup lg (saved s) = Some st -> claims st i ->
    indexZeroGap s lg i \/
    (tiled lg = false /\ exists s0 e tr pre sp post sts, In (lg, s0, inl e, pre ++ [EState sp]) (history s) /\
       jobs6962 s0 e tr /\ tr = pre ++ EState sp :: post /\ wfState s0 /\
       proofTerms J s0 e sts /\ verifiedSeg sha256 sts pre i /\
       (exists ts leaf o, In (EEntry i ts leaf o) pre /\
          fromEntry (je_logExpired Cert e) (allEntries (je_resps Cert e)) (EEntry i ts leaf o) /\
          (ts <= ls_maxTs st)%N /\ (tsNonzero pre -> (ls_minTs st <= ts)%N)) /\
       incl (itemsOf lg pre) (db s)) \/
    (tiled lg = true /\ exists s0 e tr pre sp post, In (lg, s0, inr e, pre ++ [EState sp]) (history s) /\
       jobsTiled s0 e tr /\ tr = pre ++ EState sp :: post /\
       (exists ts leaf o, In (EEntry i ts leaf o) pre /\
          tFrom (tj_logExpired Cert e) (tAll e) (EEntry i ts leaf o) /\
          (ts <= ls_maxTs st)%N /\ (ls_minTs st <= ts)%N) /\
       incl (itemsOf lg pre) (db s)).
  Proof.
    intros R L C.
    destruct (saved_justified J Wall wfAll wfAll_fresh Wall_wf Wall_mono s lg st i R L C)
      as [_ [s0 [en [tr [pre [sp [post [Hw [W0 [E [Hh [C1 [C2 [[Mx Mn] HI]]]]]]]]]]]]]].
    unfold Wall in Hw. unfold wfAll in W0.
    assert (Two : (two64 = two63 + two63)%N) by reflexivity.
    unfold indexZeroGap.
    destruct en as [e|e]; destruct Hw as [T Hw]; rewrite T in W0 |- *.
    - destruct Hw as [[[EH ER] EX] [o Rn]].
      destruct (run_sound sha256 J s0 e tr o HJ EH ER W0 Rn) as [[sts [P S]]|[->|[s' [h [-> [H1 [H2 [H3 [H4 [H5 [H6 H7]]]]]]]]]]].
      + right; left. split; [reflexivity|].
        destruct (S _ _ _ E) as [_ [_ [_ [_ Ju]]]].
        destruct (Ju i C1) as [[X _]|[V [ts [leaf [oo [I [O Tl]]]]]]]; [contradiction|].
        exists s0, e, tr, pre, sp, post, sts. split; [exact Hh|].
        split; [split; [split; [split; assumption|exact EX]|exists o; exact Rn]|]. split; [exact E|].
        split; [exact W0|]. split; [exact P|].
        split; [exact V|]. split; [|exact HI].
        exists ts, leaf, oo. split; [exact I|].
        split; [|split; [exact (N.le_trans _ _ _ Tl Mx)|]].
        { pose proof (run_from _ _ _ _ _ Rn) as F. rewrite Forall_forall in F. apply F.
          rewrite E. apply in_app_iff. auto. }
        intros Nz. destruct (run_min sha256 J s0 e tr o HJ EH ER W0 Rn) as [M|[s' [h [-> [_ [M _]]]]]].
        * destruct (M _ _ _ E) as [_ [M2 _]]. exact (N.le_trans _ _ _ Mn (M2 Nz _ _ _ _ I)).
        * destruct pre as [|? [|? ?]]; try discriminate. destruct I.
      + destruct pre; discriminate.
      + destruct pre as [|? [|? ?]]; try discriminate. injection E as <- <-.
        left. unfold claims in C1, C2. rewrite H3, H4 in C1. unfold wfState in W0.
        destruct (ls_lastUpdate s0) as [u|] eqn:El; [exfalso; apply C2; split; [discriminate|tauto]|].
        destruct W0 as [W1 W2].
        split; [lia|]. right. exists e, [EState s'], h, s0. split; [exact Hh|].
        split; [split; [split; [split; assumption|exact EX]|exists o; exact Rn]|]. split; [exact El|]. split; [exact H1|].
        rewrite W2 in H2. specialize (H7 eq_refl).
        destruct (N.eq_dec (sth_size h) 0) as [Z|Z].
        * rewrite Z in H2. discriminate H2.
        * rewrite sub64_small in H2 by (unfold two64; lia). lia.
    - destruct (N.eq_dec i 0) as [->|Nz]; [left; auto|]. right; right. split; [reflexivity|].
      destruct Hw as [HB [o Rn]].
      destruct (runTiled_sound J s0 e tr o) as [Nm Hs]; [unfold tEnvOk, two63, two64 in *; lia|exact Rn|].
      destruct (Hs _ _ _ E) as [A1 [A2 [A3 [_ [Ts _]]]]].
      destruct (runTiled_min _ _ _ _ _ Rn _ _ _ E) as [_ Tm].
      exists s0, e, tr, pre, sp, post. split; [exact Hh|].
      split; [split; [exact HB|exists o; exact Rn]|]. split; [exact E|].
      split; [|exact HI].
      rewrite E in Nm. apply numbered_app in Nm. destruct Nm as [Nm _].
      unfold claims in C1, C2. destruct W0 as [W1 [W2 W3]].
      destruct (numbered_In _ _ Nm i) as [ts [leaf [oo [I O]]]].
      { destruct (ls_lastUpdate s0) eqn:El.
        - split; [|lia]. apply N.nle_gt. intros X. apply C2. split; [discriminate|lia].
        - rewrite W3 in * by reflexivity. lia. }
      exists ts, leaf, oo. split; [exact I|].
      split; [|split; [exact (N.le_trans _ _ _ (Ts _ _ _ _ I) Mx)|exact (N.le_trans _ _ _ Mn (Tm _ _ _ _ I))]].
      pose proof (runTiled_from _ _ _ _ _ Rn) as F. rewrite Forall_forall in F. apply F.
      rewrite E. apply in_app_iff. auto.
  Qed.
End End_.
