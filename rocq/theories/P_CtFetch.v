(** * Properties C05-C09, C11, C12: the log workers and the insert worker of ct-fetch.

    Model: CtFetchModel.v (one job), CtSystem.v (the process).
    [reachable J (Wall ...)]: a state of the whole process, after any sequence of
    jobs, failures, cancellations and restarts. *)
From Verif Require Import Base MerkleModel MerkleSpec MerkleProofs MerkleProofs2 MerkleProofs3
  CtFetchModel CtFetchProofs CtFetchSafety CtFetchJobs CtFetchTiled CtFetchMin CtSystem CtFetchEnd P_Merkle.

(** ** Concrete data for the examples *)
Definition lh := leafHash toyHash.
Definition ph := pairHash toyHash.
Definition raw (x : bytes) (expired : bool) (ts : N) : rawEntry bytes :=
  mkRE x (Some (ts, false, Some (mkPC (B "cert" ++ x) expired false), [Some (mkPC (B "issuer") false false)])).
(** A five-entry log; the first job with JobSize 4 fetches [1,4]; entry 2 is expired;
    the server rate-limits once and answers one entry at a time. *)
Definition exEnv : jobEnv bytes :=
  mkEnv (Some (mkSTH 5 100)) false 7
        (Some [lh (B "1"); ph (lh (B "2")) (lh (B "3")); lh (B "4")])
        [REntries [raw (B "1") false 11]; REntries [raw (B "2") true 12]; R429 false;
         REntries [raw (B "3") false 13]; REntries [raw (B "4") false 14]] [] false.
Definition exTrace : list (event bytes) := fst (run toyHash bytes 4 freshState exEnv).
(** A log whose first tree head has a single entry. *)
Definition exOne : jobEnv bytes := mkEnv (Some (mkSTH 1 100)) false 7 None [] [] false.
Definition tE (x : bytes) (ts : N) : tiledEntry bytes :=
  mkTE ts x false (Some (mkPC (B "cert" ++ x) false false)) [IFCert (mkPC (B "issuer") false false)] false.
Definition exTiled : tiledEnv bytes :=
  mkTEnv (Some (mkSTH 4 100)) false 7 false
         ([tE (B "1") 11; tE (B "2") 12], false, false) ([tE (B "3") 13], false, false) false.

Definition noExtra (s : logState) (e : jobEnv bytes) : Prop := True.
Definition isTiled (lg : bytes) : bool := beq lg (B "tiled").

(** ** C05 *)

(** The range of a job lies inside the tree, is not empty, has at most JobSize
    entries and is adjacent to the saved range.  All arithmetic here is over
    unbounded integers, so nothing wrapped.  For Backfill the tree must not have
    shrunk below MinEntry. *)
Theorem C05_job_range :
  forall J recent h s w,
    (0 < J < two63)%N -> (sth_size h <= two63)%N -> wfState s ->
    chooseTask J recent (Some h) s = w -> w = TInit \/ w = TUpdate \/ w = TBackfill ->
    (w = TBackfill -> (ls_minEntry s <= sth_size h)%N) ->
    exists f l, jobRange J w h s = Ok (f, l) /\ (f <= l)%N /\ (l < sth_size h)%N /\ (l - f + 1 <= J)%N /\
      match w with
      | TInit => ls_lastUpdate s = None /\ (l + 1 = sth_size h)%N /\ (f = 0%N \/ (l - f + 1 = J)%N)
      | TUpdate => ls_lastUpdate s <> None /\ (f = ls_maxEntry s + 1)%N /\
                   ((l + 1 = sth_size h)%N \/ (l - f + 1 = J)%N)
      | _ => ls_lastUpdate s <> None /\ (l + 1 = ls_minEntry s)%N /\ (f mod J = 0)%N
      end.
Proof.
  intros J recent h s w HJ HS W C Hw HB.
  destruct (jobRange_bounds J recent h s w HJ HS W C Hw HB) as [f [l [E [A1 [A2 [A3 A4]]]]]].
  exists f, l. split; [exact E|]. split; [exact A1|]. split; [exact A2|]. split; [exact A3|].
  apply chooseTask_cases in C. destruct Hw as [->|[->| ->]].
  - split; [tauto|]. split; [lia|tauto].
  - split; [tauto|]. split; [tauto|]. destruct A4 as [_ [A4|A4]]; [left; lia|right; exact A4].
  - tauto.
Qed.
Print Assumptions C05_job_range.

(** Sleep is chosen only when there is nothing to do (or the tree is too small
    for a consistency proof, or the last update was less than 10 minutes ago and
    less than a whole job is missing at the top). *)
Theorem C05_sleep_means_nothing_to_do :
  forall J recent h s,
    (0 < J < two63)%N -> (sth_size h <= two63)%N -> wfState s ->
    chooseTask J recent (Some h) s = TSleep ->
    (sth_size h <= 3)%N \/
    (ls_lastUpdate s <> None /\ ls_minEntry s = 0%N /\
     ((sth_size h <= ls_maxEntry s + 1)%N \/ (recent = true /\ (sth_size h <= ls_maxEntry s + J)%N))).
Proof.
  intros J recent h s HJ HS W C. unfold chooseTask in C. unfold wfState in W.
  assert (Two : (two64 = two63 + two63)%N) by reflexivity.
  destruct (N.leb_spec (sth_size h) 3); [left; assumption|right].
  destruct (ls_lastUpdate s); [|discriminate]. split; [discriminate|].
  rewrite add64_small in C by lia. rewrite sub64_small in C by lia.
  destruct (N.ltb_spec (ls_maxEntry s + J) (sth_size h)); [discriminate|].
  destruct (N.ltb_spec 0 (ls_minEntry s)); [discriminate|]. split; [lia|].
  destruct recent; [right; split; [reflexivity|lia]|].
  destruct (N.ltb_spec (ls_maxEntry s) (sth_size h - 1)); [discriminate|]. left; lia.
Qed.
Print Assumptions C05_sleep_means_nothing_to_do.

(** A job never panics (index out of range, division by zero), whatever the log
    answers, from every state the process can have saved. *)
Theorem C05_job_never_panics :
  forall (sha256 : bytes -> bytes) (Cert : Type) J s (e : jobEnv Cert) tr o,
    (0 < J < two63)%N -> headOk (je_head Cert e) ->
    (N.of_nat (totalEntries (je_resps Cert e)) < two64)%N -> wfState s ->
    run sha256 Cert J s e = (tr, o) -> o <> OPanic.
Proof. intros. eapply run_no_panic; eassumption. Qed.
Print Assumptions C05_job_never_panics.

(** With BatchSize 0 a backfill does panic (here after the log showed a smaller
    tree than before), so the hypothesis is needed. *)
Example C05_job_size_zero_panics :
  run toyHash bytes 0 (mkLS 2 5 0 0 (Some 1%N)) (mkEnv (Some (mkSTH 5 9)) true 7 None [] [] false) = ([], OPanic).
Proof. vm_compute. reflexivity. Qed.

(** Saved [10,20], tree of 25, JobSize 8: Backfill [8,9]. *)
Example C05_example :
  chooseTask 8 false (Some (mkSTH 25 0)) (mkLS 10 20 0 0 (Some 1%N)) = TBackfill /\
  jobRange 8 TBackfill (mkSTH 25 0) (mkLS 10 20 0 0 (Some 1%N)) = Ok (8, 9)%N /\
  chooseTask 8 false (Some (mkSTH 40 0)) (mkLS 10 20 0 0 (Some 1%N)) = TUpdate /\
  jobRange 8 TUpdate (mkSTH 40 0) (mkLS 10 20 0 0 (Some 1%N)) = Ok (21, 28)%N.
Proof. vm_compute. repeat split. Qed.

(** ** C06 *)

(** Index [i] was downloaded and verified by the job with environment [e] before
    the end of [pre]: a whole subtree of the consistency proof the log gave, with
    [i] in it, was processed entry by entry in order, and the RFC 6962 hash of the
    processed leaves is the subtree root in the proof. *)
Definition downloadedAndVerified (sha256 : bytes -> bytes) {Cert} (J : N) (s0 : logState) (e : jobEnv Cert)
    (pre : list (event Cert)) (i : N) : Prop :=
  exists h fl proof sts st a seg b,
    je_head Cert e = Some h /\ jobRange J (chooseTask J (je_recent Cert e) (Some h) s0) h s0 = Ok fl /\
    je_proof Cert e = Some proof /\
    consistencyProofToSubtrees proof (fst (proofSizes fl)) (snd (proofSizes fl)) = Ok sts /\ In st sts /\
    (st_first st <= i <= st_last st)%N /\
    pre = a ++ seg ++ b /\
    entriesFrom (st_first st) seg /\ N.of_nat (length seg) = (st_last st - st_first st + 1)%N /\
    MTH sha256 (leavesOf seg) (st_root st).

Lemma verified_of sha256 {Cert} J s (e : jobEnv Cert) sts pre i :
  proofTerms J s e sts -> verifiedSeg sha256 sts pre i -> downloadedAndVerified sha256 J s e pre i.
Proof.
  intros [h [fl [proof [A1 [A2 [A3 A4]]]]]] [a [seg [b [st [C [D [E [F [G H]]]]]]]]].
  exists h, fl, proof, sts, st, a, seg, b. auto 12.
Qed.

(** One job: whatever it saves beyond what it started with was downloaded and
    verified before the save point. *)
Theorem C06_one_job :
  forall (sha256 : bytes -> bytes) (Cert : Type) J s0 (e : jobEnv Cert) tr o pre st post i,
    (0 < J < two63)%N -> headOk (je_head Cert e) -> Forall respOk (je_resps Cert e) -> wfState s0 ->
    run sha256 Cert J s0 e = (tr, o) -> tr = pre ++ EState st :: post ->
    claims st i -> ~ claims s0 i ->
    (ls_lastUpdate s0 = None -> forall h, je_head Cert e = Some h -> sth_size h <> 1%N) ->
    downloadedAndVerified sha256 J s0 e pre i.
Proof.
  intros sha Cert J s0 e tr o pre st post i HJ HH HR W R E C C0 NX.
  destruct (run_sound sha J s0 e tr o HJ HH HR W R) as [[sts [P S]]|[->|[s' [h [-> [H1 [H2 [H3 [H4 [H5 [H6 H7]]]]]]]]]]].
  - destruct (S _ _ _ E) as [_ [_ [_ [_ Ju]]]].
    destruct (Ju i C) as [[X _]|[V _]]; [contradiction|]. eapply verified_of; eassumption.
  - destruct pre; discriminate.
  - exfalso. destruct pre as [|? [|? ?]]; try discriminate. injection E as <- <-.
    unfold claims in C, C0. rewrite H3, H4 in C. unfold wfState in W.
    destruct (ls_lastUpdate s0) as [u|] eqn:El; [apply C0; split; [discriminate|tauto]|].
    specialize (H7 eq_refl). destruct W as [W1 W2]. rewrite W2 in H2.
    destruct (N.eq_dec (sth_size h) 0) as [Z|Z]; [rewrite Z in H2; discriminate H2|].
    rewrite sub64_small in H2 by (unfold two64; lia).
    apply (NX eq_refl h H1). lia.
Qed.
Print Assumptions C06_one_job.

(** [history s] records everything the jobs emitted in the run of the process that
    led to [s]: log, state the job started from, what it observed, events so far.
    [emittedBy s lg s0 e pre]: a job on [lg] really did start from [s0], observe [e],
    and emit [pre] followed by a save point. *)
Definition emittedBy sha256 {Cert} (J : N) (s : @sys Cert (@anyEnv Cert)) (lg : bytes) (s0 : logState)
    (e : jobEnv Cert) (pre : list (event Cert)) : Prop :=
  exists sp post o, In (lg, s0, inl e, pre ++ [EState sp]) (history s) /\
    run sha256 Cert J s0 e = (pre ++ EState sp :: post, o).

(** The whole process: at every moment, an index in the saved range of an
    RFC 6962 log other than index 0 was downloaded and verified by some job that ran. *)
Theorem C06_saved_range_verified_but_zero :
  forall (sha256 : bytes -> bytes) (Cert : Type) J tiled s lg st i,
    (0 < J < two63)%N -> tiled lg = false ->
    reachable J (Wall sha256 J tiled (fun _ (_ : jobEnv Cert) => True)) s ->
    alookup lg (saved s) = Some st -> claims st i -> i <> 0%N ->
    exists s0 e pre, emittedBy sha256 J s lg s0 e pre /\ downloadedAndVerified sha256 J s0 e pre i.
Proof.
  intros sha Cert J tiled s lg st i HJ T R L C Nz.
  destruct (end_to_end sha J tiled _ HJ s lg st i R L C)
    as [[Z _]|[[_ [s0 [e [tr [pre [sp [post [sts [Hh [[_ [o Rn]] [E [_ [P [V _]]]]]]]]]]]]]]|[T' _]]]; [contradiction| |congruence].
  exists s0, e, pre. split; [|eapply verified_of; eassumption].
  exists sp, post, o. split; [exact Hh|]. rewrite <- E. exact Rn.
Qed.
Print Assumptions C06_saved_range_verified_but_zero.

(** The same for every index, if no log is first contacted when its tree has
    exactly one entry. *)
Theorem C06_saved_range_verified :
  forall (sha256 : bytes -> bytes) (Cert : Type) J tiled s lg st i,
    (0 < J < two63)%N -> tiled lg = false ->
    reachable J (Wall sha256 J tiled (fun s0 (e : jobEnv Cert) =>
        ls_lastUpdate s0 = None -> forall h, je_head Cert e = Some h -> sth_size h <> 1%N)) s ->
    alookup lg (saved s) = Some st -> claims st i ->
    exists s0 e pre, emittedBy sha256 J s lg s0 e pre /\ downloadedAndVerified sha256 J s0 e pre i.
Proof.
  intros sha Cert J tiled s lg st i HJ T R L C.
  destruct (end_to_end sha J tiled _ HJ s lg st i R L C)
    as [[Z [T'|X]]|[[_ [s0 [e [tr [pre [sp [post [sts [Hh [[_ [o Rn]] [E [_ [P [V _]]]]]]]]]]]]]]|[T' _]]]; [congruence| | |congruence].
  - destruct X as [e [tr [h [s0 [_ [[[_ EX] _] [F [H1 H2]]]]]]]]. exfalso. exact (EX F h H1 H2).
  - exists s0, e, pre. split; [|eapply verified_of; eassumption].
    exists sp, post, o. split; [exact Hh|]. rewrite <- E. exact Rn.
Qed.
Print Assumptions C06_saved_range_verified.

(** Without that assumption the claim is false: first contact with a one-entry
    log saves a state that claims entry 0, and nothing was ever downloaded. *)
Theorem C06_single_entry_log_refuted :
  exists s st, reachable 4 (Wall toyHash 4 isTiled noExtra) s /\
    alookup (B "log") (saved s) = Some st /\ claims st 0 /\ db s = [].
Proof.
  set (tr := fst (run toyHash bytes 4 freshState exOne)).
  destruct (job_completes_initial 4 (Wall toyHash 4 isTiled noExtra) (B "log") (inl exOne) tr) as [s [R [L I]]].
  { split; [reflexivity|]. split; [split; [split; [vm_compute; discriminate|constructor]|exact I]|]. eexists. reflexivity. }
  exists s. eexists. split; [exact R|]. split; [rewrite L; vm_compute; reflexivity|].
  split; [split; [discriminate|split; vm_compute; discriminate]|].
  destruct (db s) as [|x d]; [reflexivity|]. destruct (I x (or_introl eq_refl)).
Qed.
Print Assumptions C06_single_entry_log_refuted.

(** The hypotheses of the two theorems are met by a real run: after the example
    job the saved range is [1,4]. *)
Example C06_example : exists s st,
  reachable 4 (Wall toyHash 4 isTiled (fun s0 (e : jobEnv bytes) =>
        ls_lastUpdate s0 = None -> forall h, je_head bytes e = Some h -> sth_size h <> 1%N)) s /\
  alookup (B "log") (saved s) = Some st /\ claims st 3 /\ isTiled (B "log") = false.
Proof.
  destruct (job_completes_initial 4 (Wall toyHash 4 isTiled (fun s0 (e : jobEnv bytes) =>
        ls_lastUpdate s0 = None -> forall h, je_head bytes e = Some h -> sth_size h <> 1%N)) (B "log") (inl exEnv) exTrace) as [s [R [L I]]].
  { split; [reflexivity|]. split; [split; [split; [vm_compute; discriminate|repeat constructor]|]|].
    - intros _ h H. vm_compute in H. injection H as <-. discriminate.
    - exists OOk. vm_compute. reflexivity. }
  exists s. eexists. split; [exact R|]. split; [rewrite L; vm_compute; reflexivity|].
  split; [split; [discriminate|split; vm_compute; discriminate]|reflexivity].
Qed.

(** If the proof given to the job was the RFC 6962 consistency proof of a log with
    entries [D] for the two sizes asked for, then what was downloaded for index [i]
    is the log's own entry [i], or a SHA-256 collision is at hand. *)
Theorem C06_entries_are_the_logs_own :
  forall (sha256 : bytes -> bytes) (Cert : Type) J s0 (e : jobEnv Cert) pre i (D : list bytes) h f l p,
    (forall x, length (sha256 x) = 32%nat) -> (N.of_nat (length D) < two64)%N ->
    je_head Cert e = Some h -> jobRange J (chooseTask J (je_recent Cert e) (Some h) s0) h s0 = Ok (f, l) ->
    (l < N.of_nat (length D))%N ->
    je_proof Cert e = Some p ->
    PROOF sha256 (N.to_nat (if (f =? 0)%N then 3 else f)%N) (firstn (N.to_nat (l + 1)) D) p ->
    downloadedAndVerified sha256 J s0 e pre i ->
    (exists ts o, In (EEntry i ts (nth (N.to_nat i) D []) o) pre) \/
    (* a collision between a string hashed for the downloaded leaves of some range
       and a string hashed for the log's entries of that range *)
    (exists a seg b f' l' x y, pre = a ++ seg ++ b /\ (f' <= i <= l')%N /\
       hashed sha256 (leavesOf seg) x /\ hashed sha256 (entries D f' l') y /\
       x <> y /\ sha256 x = sha256 y).
Proof.
  intros sha Cert J s0 e pre i D h f l p HL HD Hh Hj Hl Hp HP
    [h' [fl [p' [sts [st [a [seg [b [A1 [A2 [A3 [A4 [A5 [A6 [A7 [A8 [A9 A10]]]]]]]]]]]]]]]]].
  rewrite Hh in A1. injection A1 as <-. rewrite Hj in A2. apply Ok_inj in A2. subst fl.
  rewrite Hp in A3. injection A3 as <-.
  destruct (honest_proof sha _ _ _ HP) as [sts' [E F]]; [rewrite firstn_length; lia|].
  unfold proofSizes in A4. cbn [fst snd] in A4. rewrite add64_small in A4 by lia.
  rewrite firstn_length, Nat.min_l, !N2Nat.id in E by lia.
  rewrite A4 in E. apply Ok_inj in E. subst sts'.
  rewrite Forall_forall in F. specialize (F _ A5). unfold honestTerm in F.
  assert (Le : (st_last st < N.of_nat (N.to_nat (l + 1)))%N).
  { pose proof (consistency_lt _ _ _ _ A4) as Lt.
    assert (X : (st_first st <= st_last st <= l)%N); [|lia].
    destruct (N.eqb_spec f 0) as [->|Nf].
    - destruct (C03_no_straddle p 3 l sts st) as [X _]; auto; lia.
    - destruct (C03_no_straddle p f l sts st) as [X _]; auto; lia. }
  rewrite entries_firstn in F by lia.
  pose proof (leavesOf_length _ _ A8) as LL.
  destruct (list_eq_dec bytes_eq_dec (leavesOf seg) (entries D (st_first st) (st_last st))) as [Eq|Ne].
  - left.
    assert (G : forall (sg : list (event Cert)) k n, entriesFrom k sg -> (n < length sg)%nat ->
              exists ts o, In (EEntry (k + N.of_nat n) ts (nth n (leavesOf sg) []) o) sg).
    { clear. induction sg as [|[j ts lf o|s] sg IH]; intros k n H Hn; cbn [length entriesFrom] in *; [lia| |contradiction].
      destruct H as [-> [_ H]]. destruct n as [|n].
      - exists ts, o. left. cbn [leavesOf nth]. rewrite N.add_0_r. reflexivity.
      - destruct (IH _ n H ltac:(lia)) as [ts' [o' I]]. exists ts', o'. right. cbn [leavesOf nth].
        replace (k + N.of_nat (S n))%N with (k + 1 + N.of_nat n)%N by lia. exact I. }
    destruct (G seg (st_first st) (N.to_nat (i - st_first st)) A8) as [ts [o I]]; [lia|].
    exists ts, o. rewrite A7. apply in_app_iff. right. apply in_app_iff. left.
    rewrite Eq in I. unfold entries in I.
    replace (st_first st + N.of_nat (N.to_nat (i - st_first st)))%N with i in I by lia.
    assert (Nt : forall (L : list bytes) k n, (n < k)%nat -> nth n (firstn k L) [] = nth n L []).
    { clear. induction L as [|x L IH]; intros [|k] [|n] H; cbn; try lia; auto. apply IH. lia. }
    assert (Ns : forall (L : list bytes) k n, nth n (skipn k L) [] = nth (k + n) L []).
    { clear. induction L as [|x L IH]; intros [|k] n; cbn; auto. destruct n; reflexivity. }
    rewrite Nt in I by lia. rewrite Ns in I.
    replace (N.to_nat (st_first st) + N.to_nat (i - st_first st))%nat with (N.to_nat i) in I by lia.
    exact I.
  - right.
    destruct (collision sha HL (length (leavesOf seg)) (leavesOf seg) (entries D (st_first st) (st_last st)) (st_root st))
      as [x [y [X3 [X4 [X1 X2]]]]]; auto.
    + pose proof (entries_length D (st_first st) (st_last st) ltac:(lia) ltac:(lia)). lia.
    + exists a, seg, b, (st_first st), (st_last st), x, y. auto 10.
Qed.
Print Assumptions C06_entries_are_the_logs_own.

(** The example job, with its three save points, meets the hypotheses: the proof
    is the RFC consistency proof between sizes 1 and 5 of the log 0,1,2,3,4. *)
Example C06_own_entries_example :
  PROOF toyHash 1 (firstn 5 [B "0"; B "1"; B "2"; B "3"; B "4"])
        [lh (B "1"); ph (lh (B "2")) (lh (B "3")); lh (B "4")] /\
  jobRange 4 (chooseTask 4 false (Some (mkSTH 5 100)) freshState) (mkSTH 5 100) freshState = Ok (1, 4)%N /\
  exists pre st post, exTrace = pre ++ EState st :: post /\ claims st 3 /\
    downloadedAndVerified toyHash 4 freshState exEnv pre 3.
Proof.
  split; [|split].
  - split; [cbn; lia|]. change [lh (B "1"); ph (lh (B "2")) (lh (B "3")); lh (B "4")]
      with ([lh (B "1"); ph (lh (B "2")) (lh (B "3"))] ++ [lh (B "4")]).
    eapply SP_left with (k := 4%nat) (j := 2%nat); try reflexivity; try (cbn; lia); [|constructor].
    change [lh (B "1"); ph (lh (B "2")) (lh (B "3"))] with ([lh (B "1")] ++ [ph (lh (B "2")) (lh (B "3"))]).
    eapply SP_left with (k := 2%nat) (j := 1%nat); try reflexivity; try (cbn; lia).
    + change [lh (B "1")] with ([] ++ [lh (B "1")]).
      eapply SP_left with (k := 1%nat) (j := 0%nat); try reflexivity; try (cbn; lia); [|constructor].
      apply (SP_true toyHash [B "0"]).
    + apply (MTH_node toyHash _ 1 0); try reflexivity; try (cbn; lia); constructor.
  - vm_compute. reflexivity.
  - set (tr := exTrace).
    assert (E : tr = firstn 6 tr ++ EState (mkLS 1 4 11 14 (Some 7%N)) :: []) by (vm_compute; reflexivity).
    exists (firstn 6 tr), (mkLS 1 4 11 14 (Some 7%N)), []. split; [exact E|].
    assert (C : claims (mkLS 1 4 11 14 (Some 7%N)) 3) by (split; [discriminate|split; vm_compute; discriminate]).
    split; [exact C|].
    eapply (C06_one_job toyHash bytes 4 freshState exEnv tr OOk).
    + split; reflexivity.
    + vm_compute. discriminate.
    + repeat constructor.
    + split; reflexivity.
    + vm_compute. reflexivity.
    + exact E.
    + exact C.
    + intros [X _]. apply X. reflexivity.
    + intros _ h H. vm_compute in H. injection H as <-. discriminate.
Qed.

(** ** C07 *)

(** A step of the process that changes what log states are saved happens only
    when every certificate the insert worker took off the channel before is in
    the cache; jobs, their contents, store failures (partial inserts), retries
    and cancellations are arbitrary. *)
Theorem C07_state_saved_only_after_stores :
  forall (Cert Env : Type) batchSize (W : bytes -> logState -> Env -> list (event Cert) -> Prop) s s',
    reachable batchSize W s -> step batchSize W s s' -> saved s' <> saved s ->
    forall it, In (MItem it) (received s) -> In it (db s').
Proof. intros. eapply save_after_store; eassumption. Qed.
Print Assumptions C07_state_saved_only_after_stores.

(** The queue is bounded, and the store is called when it is full or a log state is to
    be saved and at no other time: a batch without a log state has exactly BatchSize - 1
    entries (1 if that is 0), one with a log state has fewer. *)
Theorem C07_batches :
  forall (Cert Env : Type) batchSize (W : bytes -> logState -> Env -> list (event Cert) -> Prop) s,
    (batchSize < two64)%N -> reachable batchSize W s ->
    let b := N.max 1 (batchSize - 1) in
    match wmode s with
    | Reading => (N.of_nat (length (queue s)) < b)%N
    | Trying None => N.of_nat (length (queue s)) = b
    | Trying (Some _) => (N.of_nat (length (queue s)) < b)%N
    | Returned => (N.of_nat (length (queue s)) <= b)%N
    end.
Proof.
  intros Cert Env bs W s HB R b.
  induction R as [|s s' R IH St]; [cbn; lia|].
  destruct St as [s lg s0 en tr _ _|s js1 js2 lg s0 en dn e rest _|s js1 js2 j _|s m ms Hm Hc|s ls part Hm _|s lg st wr Hm|s ls Hm|s ls Hm|s];
    cbn [wmode queue]; try exact IH.
  - rewrite Hm in IH. unfold keepReading. destruct m as [it|lg st]; cbn [enqueue stateOf].
    + rewrite app_length. cbn [length]. rewrite andb_true_r.
      assert (Hw : w64 (N.of_nat (length (queue s) + 1) + 1) = (N.of_nat (length (queue s) + 1) + 1)%N)
        by (apply N.mod_small; unfold two64 in *; lia).
      rewrite Hw. destruct (N.ltb_spec (N.of_nat (length (queue s) + 1) + 1) bs); lia.
    + rewrite andb_false_r. exact IH.
  - cbn [length]. lia.
  - rewrite Hm in IH. destruct ls; lia.
  - cbn [length]. lia.
Qed.
Print Assumptions C07_batches.

(** A worker that sends two certificates and a state, with BatchSize 2: the first
    certificate is stored alone, a store fails, and then the state is saved. *)
Example C07_example :
  let ev := EEntry 1 11 (B "1") (SQueued (B "cert1") (B "issuer")) in
  let es := EState (mkLS 1 1 11 11 (Some 7%N)) in
  let W := fun (_ : bytes) (_ : logState) (_ : unit) (tr : list (event bytes)) => tr = [ev; es] in
  exists s s', reachable 2 W s /\ step 2 W s s' /\ saved s' <> saved s /\
    In (MItem (mkItem (B "log") (B "cert1") (B "issuer") 11)) (received s).
Proof.
  intros ev es W. set (lg := B "log").
  assert (R0 : reachable 2 W initial) by constructor.
  pose proof (r_step _ _ _ _ R0 (st_start 2 W initial lg freshState tt [ev; es] (or_intror eq_refl) eq_refl)) as R1.
  pose proof (r_step _ _ _ _ R1 (st_emit 2 W (mkSys [] [] [] [] Reading [mkJob lg freshState tt [] [ev; es]] [] [])
                [] [] lg freshState tt [] ev [es] eq_refl)) as R2.
  set (it := mkItem lg (B "cert1") (B "issuer") 11).
  set (h1 := [(lg, freshState, tt, [ev])]).
  set (h2 := (lg, freshState, tt, [ev; es]) :: h1).
  pose proof (r_step _ _ _ _ R2 (st_emit 2 W (mkSys [] [] [MItem it] [] Reading [mkJob lg freshState tt [ev] [es]] [] h1)
                [] [] lg freshState tt [ev] es [] eq_refl)) as R3.
  pose proof (r_step _ _ _ _ R3 (st_recv 2 W (mkSys [] [] [MItem it; MState lg (mkLS 1 1 11 11 (Some 7%N))] [] Reading
                [mkJob lg freshState tt [ev; es] []] [] h2) _ _ eq_refl eq_refl)) as R4.
  pose proof (r_step _ _ _ _ R4 (st_store_fails 2 W
                (mkSys [] [] [MState lg (mkLS 1 1 11 11 (Some 7%N))] [it] (Trying None)
                       [mkJob lg freshState tt [ev; es] []] [MItem it] h2) None [] eq_refl ltac:(intros x []))) as R5.
  pose proof (r_step _ _ _ _ R5 (st_ok 2 W
                (mkSys [] [] [MState lg (mkLS 1 1 11 11 (Some 7%N))] [it] (Trying None)
                       [mkJob lg freshState tt [ev; es] []] [MItem it] h2) None eq_refl)) as R6.
  pose proof (r_step _ _ _ _ R6 (st_recv 2 W
                (mkSys [it] [] [MState lg (mkLS 1 1 11 11 (Some 7%N))] [] Reading
                       [mkJob lg freshState tt [ev; es] []] [MItem it] h2)
                (MState lg (mkLS 1 1 11 11 (Some 7%N))) [] eq_refl eq_refl)) as R7.
  eexists. eexists. split; [exact R7|]. split; [apply (st_ok 2 W _ (Some (lg, mkLS 1 1 11 11 (Some 7%N)))); reflexivity|].
  split; [vm_compute; discriminate|]. vm_compute. left. reflexivity.
Qed.

(** ** C08 *)

(** How entry [i] of log [lg] was dealt with by a job: it was parsed from what the
    log sent, and either it is in the cache (under its issuer, with the timestamp
    and log of this entry), or it was expired and expired entries are not wanted,
    or it came without an issuer. *)
Definition dealtWith {Cert : Type} (lg : bytes) (d : list (@item Cert)) (logExpired : bool)
    (ts : N) (cert : parsedCert Cert) (hasChain : bool) (issuer : Cert -> Prop) : Prop :=
  (exists iss, issuer iss /\ In (mkItem lg (pc_cert Cert cert) iss ts) d) \/
  (pc_expired Cert cert = true /\ logExpired = false) \/
  hasChain = false.

Lemma itemsOf_In {Cert} lg (tr : list (event Cert)) i ts leaf c iss :
  In (EEntry i ts leaf (SQueued c iss)) tr -> In (mkItem lg c iss ts) (itemsOf lg tr).
Proof.
  induction tr as [|[j t l [c' i'| | |]|st] tr IH]; cbn; [tauto| | | | |]; intros [H|H]; try discriminate H; auto.
  injection H as _ <- _ <- <-. auto.
Qed.

(** The same for tiled logs. *)
Definition emittedByTiled {Cert} (J : N) (s : @sys Cert (@anyEnv Cert)) (lg : bytes) (s0 : logState)
    (e : tiledEnv Cert) (pre : list (event Cert)) : Prop :=
  exists sp post o, In (lg, s0, inr e, pre ++ [EState sp]) (history s) /\
    runTiled Cert J s0 e = (pre ++ EState sp :: post, o).

(** Index [i] of RFC 6962 log [lg] was handled by a job that ran. *)
Definition handled6962 sha256 {Cert} (J : N) (s : @sys Cert (@anyEnv Cert)) (lg : bytes) (i : N) : Prop :=
  exists s0 (e : jobEnv Cert) pre r c cert chain ts leaf out,
    emittedBy sha256 J s lg s0 e pre /\ In (EEntry i ts leaf out) pre /\
    In r (allEntries (je_resps Cert e)) /\ re_leaf Cert r = leaf /\
    re_parsed Cert r = Some (ts, c, Some cert, chain) /\
    dealtWith lg (db s) (je_logExpired Cert e) ts cert
      (match chain with [] => false | _ => true end) (issuerOf chain).
Definition handledTiled {Cert} (J : N) (s : @sys Cert (@anyEnv Cert)) (lg : bytes) (i : N) : Prop :=
  exists s0 (e : tiledEnv Cert) pre r cert leaf out,
    emittedByTiled J s lg s0 e pre /\ In (EEntry i (te_ts Cert r) leaf out) pre /\
    In r (tAll e) /\ te_leaf Cert r = leaf /\ te_cert Cert r = Some cert /\
    dealtWith lg (db s) (tj_logExpired Cert e) (te_ts Cert r) cert
      (match te_chain Cert r with [] => false | _ => true end) (tIssuerOf (te_chain Cert r)).

Lemma dealt_of {Cert} lg (d : list (@item Cert)) le pre i ts leaf out cert chain :
  In (EEntry i ts leaf out) pre -> incl (itemsOf lg pre) d -> handled le cert chain out ->
  dealtWith lg d le ts cert (match chain with [] => false | _ => true end) (issuerOf chain).
Proof.
  intros I Inc F. unfold dealtWith. destruct out as [x iss| | |]; cbn [handled] in F.
  - left. destruct F as [-> F]. exists iss. split; [exact F|]. apply Inc. eapply itemsOf_In. exact I.
  - right; left; exact F.
  - right; right. rewrite F. reflexivity.
  - destruct F.
Qed.
Lemma dealt_of_tiled {Cert} lg (d : list (@item Cert)) le pre i ts leaf out cert chain :
  In (EEntry i ts leaf out) pre -> incl (itemsOf lg pre) d -> tHandled le cert chain out ->
  dealtWith lg d le ts cert (match chain with [] => false | _ => true end) (tIssuerOf chain).
Proof.
  intros I Inc F. unfold dealtWith. destruct out as [x iss| | |]; cbn [tHandled] in F.
  - left. destruct F as [-> F]. exists iss. split; [exact F|]. apply Inc. eapply itemsOf_In. exact I.
  - right; left; exact F.
  - right; right. rewrite F. reflexivity.
  - destruct F.
Qed.

(** Whenever a log state is found in the cache, every index of its range other
    than 0 was dealt with by a job that ran.  RFC 6962 logs and tiled logs alike. *)
Theorem C08_saved_range_stored :
  forall (sha256 : bytes -> bytes) (Cert : Type) J tiled s lg st i,
    (0 < J < two63)%N ->
    reachable J (Wall sha256 J tiled (fun _ (_ : jobEnv Cert) => True)) s ->
    alookup lg (saved s) = Some st -> claims st i -> i <> 0%N ->
    if tiled lg then handledTiled J s lg i else handled6962 sha256 J s lg i.
Proof.
  intros sha Cert J tiled s lg st i HJ R L C Nz.
  destruct (end_to_end sha J tiled _ HJ s lg st i R L C) as [[Z _]|[H|H]]; [contradiction| |].
  - destruct H as [-> [s0 [e [tr [pre [sp [post [sts [Hh [[_ [o Rn]] [E [_ [P [V [[ts [leaf [out [I [F _]]]]] Inc]]]]]]]]]]]]]]].
    cbn [fromEntry] in F. destruct F as [r [c [cert [chain [F1 [F2 [F3 F4]]]]]]].
    exists s0, e, pre, r, c, cert, chain, ts, leaf, out.
    split; [exists sp, post, o; split; [exact Hh|rewrite <- E; exact Rn]|]. split; [exact I|]. split; [exact F1|].
    split; [exact F2|]. split; [exact F3|]. eapply dealt_of; eassumption.
  - destruct H as [-> [s0 [e [tr [pre [sp [post [Hh [[_ [o Rn]] [E [[ts [leaf [out [I [F _]]]]] Inc]]]]]]]]]]].
    cbn [tFrom] in F. destruct F as [r [cert [F1 [F2 [F3 [F4 F5]]]]]].
    exists s0, e, pre, r, cert, leaf, out. rewrite F3.
    split; [exists sp, post, o; split; [exact Hh|rewrite <- E; exact Rn]|]. split; [exact I|]. split; [exact F1|].
    split; [exact F2|]. split; [exact F4|]. eapply dealt_of_tiled; eassumption.
Qed.
Print Assumptions C08_saved_range_stored.

(** For RFC 6962 logs never first contacted with a single-entry tree, index 0 too. *)
Theorem C08_entry_zero_stored :
  forall (sha256 : bytes -> bytes) (Cert : Type) J tiled s lg st i,
    (0 < J < two63)%N -> tiled lg = false ->
    reachable J (Wall sha256 J tiled (fun s0 (e : jobEnv Cert) =>
        ls_lastUpdate s0 = None -> forall h, je_head Cert e = Some h -> sth_size h <> 1%N)) s ->
    alookup lg (saved s) = Some st -> claims st i ->
    handled6962 sha256 J s lg i.
Proof.
  intros sha Cert J tiled s lg st i HJ T R L C.
  destruct (end_to_end sha J tiled _ HJ s lg st i R L C) as [[Z [T'|X]]|[H|[T' _]]]; [congruence| | |congruence].
  { destruct X as [e [tr [h [s0 [_ [[[_ EX] _] [F [H1 H2]]]]]]]]. exfalso. exact (EX F h H1 H2). }
  destruct H as [_ [s0 [e [tr [pre [sp [post [sts [Hh [[_ [o Rn]] [E [_ [P [V [[ts [leaf [out [I [F _]]]]] Inc]]]]]]]]]]]]]]].
  cbn [fromEntry] in F. destruct F as [r [c [cert [chain [F1 [F2 [F3 F4]]]]]]].
  exists s0, e, pre, r, c, cert, chain, ts, leaf, out.
  split; [exists sp, post, o; split; [exact Hh|rewrite <- E; exact Rn]|]. split; [exact I|]. split; [exact F1|].
  split; [exact F2|]. split; [exact F3|]. eapply dealt_of; eassumption.
Qed.
Print Assumptions C08_entry_zero_stored.

(** The state reached in C06_example: entry 3 really is in the cache. *)
Example C08_example : exists s st,
  reachable 4 (Wall toyHash 4 isTiled (fun s0 (e : jobEnv bytes) =>
        ls_lastUpdate s0 = None -> forall h, je_head bytes e = Some h -> sth_size h <> 1%N)) s /\
  alookup (B "log") (saved s) = Some st /\ claims st 2 /\ claims st 3.
Proof.
  destruct (job_completes_initial 4 (Wall toyHash 4 isTiled (fun s0 (e : jobEnv bytes) =>
        ls_lastUpdate s0 = None -> forall h, je_head bytes e = Some h -> sth_size h <> 1%N)) (B "log") (inl exEnv) exTrace) as [s [R [L I]]].
  { split; [reflexivity|]. split; [split; [split; [vm_compute; discriminate|repeat constructor]|]|].
    - intros _ h H. vm_compute in H. injection H as <-. discriminate.
    - exists OOk. vm_compute. reflexivity. }
  exists s. eexists. split; [exact R|]. split; [rewrite L; vm_compute; reflexivity|].
  split; (split; [discriminate|split; vm_compute; discriminate]).
Qed.

(** ** C09 *)

(** Where MaxTimestamp comes from.  At each save point
    it is the MaxTimestamp the job started with, the timestamp of an entry
    processed before the save point, or - only if the range reaches the end of the
    tree - the timestamp of the signed tree head. *)
Theorem C09_max_timestamp_source :
  forall (sha256 : bytes -> bytes) (Cert : Type) J s0 (e : jobEnv Cert) tr o pre st post,
    (0 < J < two63)%N -> headOk (je_head Cert e) -> Forall respOk (je_resps Cert e) -> wfState s0 ->
    run sha256 Cert J s0 e = (tr, o) -> tr = pre ++ EState st :: post ->
    ls_maxTs st = ls_maxTs s0 \/
    (exists i leaf out, In (EEntry i (ls_maxTs st) leaf out) pre) \/
    (exists h, je_head Cert e = Some h /\ ls_maxTs st = sth_ts h /\
               ((ls_maxEntry st + 1) mod two64 = sth_size h)%N).
Proof.
  intros sha Cert J s0 e tr o pre st post HJ HH HR W R E.
  destruct (run_sound sha J s0 e tr o HJ HH HR W R) as [[sts [P S]]|[->|[s' [h [-> [H1 [H2 [H3 [H4 [H5 [H6 H7]]]]]]]]]]].
  - destruct (S _ _ _ E) as [_ [_ [[M|M] _]]]; auto.
  - destruct pre; discriminate.
  - destruct pre as [|? [|? ?]]; try discriminate. injection E as <- <-.
    rewrite H5. destruct (N.max_spec (ls_maxTs s0) (sth_ts h)) as [[_ ->]|[_ ->]]; [|left; reflexivity].
    right; right. exists h. split; [exact H1|]. split; [reflexivity|].
    rewrite H4, H2. rewrite H1 in HH. cbn [headOk] in HH.
    destruct (N.eq_dec (sth_size h) 0) as [->|Z]; [reflexivity|].
    rewrite sub64_small by (unfold two63, two64 in *; lia).
    replace (sth_size h - 1 + 1)%N with (sth_size h) by lia.
    apply N.mod_small. unfold two63, two64 in *; lia.
Qed.
Print Assumptions C09_max_timestamp_source.

Theorem C09_max_timestamp_source_tiled :
  forall (Cert : Type) bs s0 (e : tiledEnv Cert) tr o pre st post,
    (ls_maxEntry s0 + tiledBudget e + 1 < two64)%N ->
    runTiled Cert bs s0 e = (tr, o) -> tr = pre ++ EState st :: post ->
    ls_maxTs st = ls_maxTs s0 \/
    (exists i leaf out, In (EEntry i (ls_maxTs st) leaf out) pre) \/
    (exists h, tj_head Cert e = Some h /\ ls_maxTs st = sth_ts h /\ (ls_maxEntry st + 1)%N = sth_size h).
Proof.
  intros Cert bs s0 e tr o pre st post HB R E.
  destruct (runTiled_sound bs s0 e tr o HB R) as [_ H]. destruct (H _ _ _ E) as [_ [_ [_ [_ [_ X]]]]]. exact X.
Qed.
Print Assumptions C09_max_timestamp_source_tiled.

(** Where MinTimestamp of an RFC 6962 log comes from: the same with the timestamp of
    an entry, or - when the worker had nothing to do and the range starts at 0 (or
    the tree has at most three entries) - the number MinEntry. *)
Theorem C09_min_timestamp_source :
  forall (sha256 : bytes -> bytes) (Cert : Type) J s0 (e : jobEnv Cert) tr o pre st post,
    (0 < J < two63)%N -> headOk (je_head Cert e) -> Forall respOk (je_resps Cert e) -> wfState s0 ->
    run sha256 Cert J s0 e = (tr, o) -> tr = pre ++ EState st :: post ->
    ls_minTs st = ls_minTs s0 \/
    (exists i leaf out, In (EEntry i (ls_minTs st) leaf out) pre) \/
    (ls_minTs st = ls_minEntry s0 /\
     exists h, je_head Cert e = Some h /\ (ls_minEntry s0 = 0%N \/ (sth_size h <= 3)%N)).
Proof.
  intros sha Cert J s0 e tr o pre st post HJ HH HR W R E.
  destruct (run_min sha J s0 e tr o HJ HH HR W R) as [M|[s' [h [-> [H1 [H2 H3]]]]]].
  - destruct (M _ _ _ E) as [_ [_ [X|X]]]; auto.
  - destruct pre as [|? [|? ?]]; try discriminate. injection E as <- <-.
    rewrite H2. destruct (N.min_spec (ls_minTs s0) (ls_minEntry s0)) as [[_ ->]|[_ ->]]; [left; reflexivity|].
    right; right. split; [reflexivity|]. exists h. auto.
Qed.
Print Assumptions C09_min_timestamp_source.

(** What a log never sends: an entry with timestamp 0 (1 January 1970). *)
Definition timestampsNonzero {Cert} (e : jobEnv Cert) : Prop :=
  forall r ts c cert chain, In r (allEntries (je_resps Cert e)) ->
    re_parsed Cert r = Some (ts, c, cert, chain) -> ts <> 0%N.

(** [i] was processed by a job that ran, with timestamp [ts]. *)
Definition processed {Cert} (s : @sys Cert (@anyEnv Cert)) (lg : bytes) (i ts : N) : Prop :=
  exists s0 en evs leaf out, In (lg, s0, en, evs) (history s) /\ In (EEntry i ts leaf out) evs.

(** MinTimestamp <= timestamp <= MaxTimestamp for every entry of a saved range,
    both kinds of logs (index 0 excepted, see C06 and C11). *)
Theorem C09_timestamps_bound :
  forall (sha256 : bytes -> bytes) (Cert : Type) J tiled s lg st i,
    (0 < J < two63)%N ->
    reachable J (Wall sha256 J tiled (fun _ (e : jobEnv Cert) => timestampsNonzero e)) s ->
    alookup lg (saved s) = Some st -> claims st i -> i <> 0%N ->
    exists ts, processed s lg i ts /\ (ls_minTs st <= ts <= ls_maxTs st)%N.
Proof.
  intros sha Cert J tiled s lg st i HJ R L C Nz.
  destruct (end_to_end sha J tiled _ HJ s lg st i R L C) as [[Z _]|[H|H]]; [contradiction| |].
  - destruct H as [T [s0 [e [tr [pre [sp [post [sts [Hh [[[_ EX] [o Rn]] [E [_ [P [V [[ts [leaf [out [I [F [Tl Tm]]]]]] Inc]]]]]]]]]]]]]]].
    exists ts. split.
    + exists s0, (inl e), (pre ++ [EState sp]), leaf, out. split; [exact Hh|apply in_app_iff; auto].
    + split; [|exact Tl]. apply Tm. intros j t l' o' Ij.
      pose proof (run_from sha _ _ _ _ _ Rn) as Fr. rewrite Forall_forall in Fr.
      destruct (Fr (EEntry j t l' o')) as [r [c [cert [chain [F1 [F2 [F3 _]]]]]]]; [rewrite E; apply in_app_iff; auto|].
      exact (EX r t c _ _ F1 F3).
  - destruct H as [T [s0 [e [tr [pre [sp [post [Hh [Jb [E [[ts [leaf [out [I [F [Tl Tm]]]]]] Inc]]]]]]]]]]].
    exists ts. split; [|split; assumption].
    exists s0, (inr e), (pre ++ [EState sp]), leaf, out. split; [exact Hh|apply in_app_iff; auto].
Qed.
Print Assumptions C09_timestamps_bound.

(** MaxTimestamp is a bound without any assumption on the timestamps. *)
Theorem C09_max_timestamp_bounds :
  forall (sha256 : bytes -> bytes) (Cert : Type) J tiled s lg st i,
    (0 < J < two63)%N ->
    reachable J (Wall sha256 J tiled (fun _ (_ : jobEnv Cert) => True)) s ->
    alookup lg (saved s) = Some st -> claims st i -> i <> 0%N ->
    exists ts, processed s lg i ts /\ (ts <= ls_maxTs st)%N.
Proof.
  intros sha Cert J tiled s lg st i HJ R L C Nz.
  destruct (end_to_end sha J tiled _ HJ s lg st i R L C) as [[Z _]|[H|H]]; [contradiction| |].
  - destruct H as [T [s0 [e [tr [pre [sp [post [sts [Hh [_ [_ [_ [_ [_ [[ts [leaf [out [I [_ [Tl _]]]]]] _]]]]]]]]]]]]]]].
    exists ts. split; [|exact Tl].
    exists s0, (inl e), (pre ++ [EState sp]), leaf, out. split; [exact Hh|apply in_app_iff; auto].
  - destruct H as [T [s0 [e [tr [pre [sp [post [Hh [_ [_ [[ts [leaf [out [I [_ [Tl _]]]]]] _]]]]]]]]]]].
    exists ts. split; [|exact Tl].
    exists s0, (inr e), (pre ++ [EState sp]), leaf, out. split; [exact Hh|apply in_app_iff; auto].
Qed.
Print Assumptions C09_max_timestamp_bounds.

(** An entry with timestamp 0 makes the worker forget the minimum seen so far
    (rfc6962.go:677: 0 stands for "none yet"): with timestamps 5, 0, 7 the
    subtree's minimum is 7, above two of its entries. *)
Theorem C09_zero_timestamp_refuted :
  exists resps tr v mx, download toyHash bytes false resps 4 (newVerifier (mkSubtree (B "r") 4 6)) 0 0
      = (tr, DDone v 7 mx, []) /\
    exists leaf o, In (EEntry 4 5 leaf o) tr.
Proof.
  exists [REntries [raw (B "a") false 5; raw (B "b") false 0; raw (B "c") false 7]]. do 3 eexists.
  split; [vm_compute; reflexivity|]. do 2 eexists. left. reflexivity.
Qed.
Print Assumptions C09_zero_timestamp_refuted.

(** MinTimestamp is not the least timestamp: when an RFC 6962 worker has nothing
    to do it passes MinEntry (rfc6962.go:358) as the minimum timestamp. *)
Theorem C09_min_timestamp_refuted :
  exists s0 (e : jobEnv bytes) st, wfState s0 /\ ls_minTs s0 = 1700000000000%N /\
    run toyHash bytes 4 s0 e = ([EState st], OOk) /\
    ls_minEntry st = ls_minEntry s0 /\ ls_maxEntry st = ls_maxEntry s0 /\ ls_minTs st = 0%N.
Proof.
  exists (mkLS 0 4 1700000000000 1700000000001 (Some 1%N)),
         (mkEnv (Some (mkSTH 5 1700000000002)) false 7 None [] [] false).
  eexists. split; [vm_compute; split; [discriminate|reflexivity]|]. split; [reflexivity|].
  split; [vm_compute; reflexivity|]. vm_compute. auto.
Qed.
Print Assumptions C09_min_timestamp_refuted.

(** The hypotheses of C09_timestamps_bound are met by the example job, which saves
    [1,4] with timestamps 11 and 14. *)
Example C09_example : exists s st,
  reachable 4 (Wall toyHash 4 isTiled (fun _ (e : jobEnv bytes) => timestampsNonzero e)) s /\
  alookup (B "log") (saved s) = Some st /\ claims st 3 /\ ls_minTs st = 11%N /\ ls_maxTs st = 14%N.
Proof.
  destruct (job_completes_initial 4 (Wall toyHash 4 isTiled (fun _ (e : jobEnv bytes) => timestampsNonzero e))
              (B "log") (inl exEnv) exTrace) as [s [R [L I]]].
  { split; [reflexivity|]. split; [split; [split; [vm_compute; discriminate|repeat constructor]|]|].
    - intros r ts c cert chain Hin Hp.
      cbv [exEnv je_resps allEntries app] in Hin. cbn [In] in Hin.
      repeat destruct Hin as [<-|Hin]; [..|destruct Hin]; injection Hp as <- _ _ _; discriminate.
    - exists OOk. vm_compute. reflexivity. }
  exists s. eexists. split; [exact R|]. split; [rewrite L; vm_compute; reflexivity|].
  split; [split; [discriminate|split; vm_compute; discriminate]|]. split; reflexivity.
Qed.

(** ** C11 *)

(** A tiled job hands on entries MaxEntry+1, MaxEntry+2, ... in order, and at each
    save point the saved MaxEntry has grown by exactly the number of entries
    handed on so far; MinEntry is 0. *)
Theorem C11_tiled_range_grows_by_stored_entries :
  forall (Cert : Type) bs s0 (e : tiledEnv Cert) tr o,
    (ls_maxEntry s0 + tiledBudget e + 1 < two64)%N ->
    runTiled Cert bs s0 e = (tr, o) ->
    numbered (ls_maxEntry s0) tr /\
    forall pre st post, tr = pre ++ EState st :: post ->
      ls_minEntry st = 0%N /\ ls_lastUpdate st <> None /\
      ls_maxEntry st = (ls_maxEntry s0 + nEntries pre)%N /\ tsLe (ls_maxTs st) pre.
Proof.
  intros Cert bs s0 e tr o HB R. destruct (runTiled_sound bs s0 e tr o HB R) as [A H].
  split; [exact A|]. intros pre st post E. destruct (H _ _ _ E) as [H1 [H2 [H3 [_ [H5 _]]]]]. auto.
Qed.
Print Assumptions C11_tiled_range_grows_by_stored_entries.

(** An entry that cannot be stored (issuer not reachable) ends the job with
    everything before it handed on, and nothing after it. *)
Theorem C11_stops_at_failing_entry :
  forall (Cert : Type) le bs now pre bad post c ce s mE mn mx,
    storeLogEntryTiled Cert le (te_cancelled Cert bad) (te_cert Cert bad) (te_chain Cert bad) = TSRetry ->
    (0 < bs)%N -> (mE + N.of_nat (length pre) < two64)%N ->
    Forall (fun t => te_saveCancelled Cert t = false /\ exists o,
       storeLogEntryTiled Cert le (te_cancelled Cert t) (te_cert Cert t) (te_chain Cert t) = TSOk o) pre ->
    exists tr vars, readLogEntries Cert le bs now (pre ++ bad :: post) c ce s mE mn mx = (tr, vars, Ok false) /\
      nEntries tr = N.of_nat (length pre).
Proof.
  intros Cert le bs now pre bad post c ce s mE mn mx Hbad Hbs. revert s mE mn mx.
  induction pre as [|t pre IH]; intros s mE mn mx Hb F; cbn [app readLogEntries].
  - rewrite Hbad. do 2 eexists. split; reflexivity.
  - inversion F as [|? ? [F1 [o F2]] F3]; subst. rewrite F2, F1.
    destruct (N.eqb_spec bs 0); [lia|]. cbn [length] in Hb.
    rewrite add64_small by lia.
    destruct ((mE + 1) mod bs =? 0)%N.
    + destruct (IH (updateStateTiled (mE + 1) (N.min mn (te_ts Cert t)) (N.max mx (te_ts Cert t)) now s)
                   (mE + 1)%N (N.min mn (te_ts Cert t)) (N.max mx (te_ts Cert t)) ltac:(lia) F3) as [tr [v [E K]]].
      rewrite E. do 2 eexists. split; [reflexivity|]. cbn [nEntries length]. lia.
    + destruct (IH s (mE + 1)%N (N.min mn (te_ts Cert t)) (N.max mx (te_ts Cert t)) ltac:(lia) F3) as [tr [v [E K]]].
      rewrite E. do 2 eexists. split; [reflexivity|]. cbn [nEntries length]. lia.
Qed.
Print Assumptions C11_stops_at_failing_entry.

(** Entry 0 of a tiled log is claimed although it is never fetched. *)
Theorem C11_entry_zero_refuted :
  exists s st, reachable 4 (Wall toyHash 4 isTiled noExtra) s /\
    alookup (B "tiled") (saved s) = Some st /\ claims st 0 /\ ls_maxEntry st = 3%N /\
    forall (s0 : logState) (e : tiledEnv bytes) tr o, wfTiled s0 -> tEnvOk s0 e ->
      runTiled bytes 4 s0 e = (tr, o) -> forall ts leaf out, ~ In (EEntry 0 ts leaf out) tr.
Proof.
  set (tr := fst (runTiled bytes 4 freshState exTiled)).
  destruct (job_completes_initial 4 (Wall toyHash 4 isTiled noExtra) (B "tiled") (inr exTiled) tr) as [s [R [L I]]].
  { split; [reflexivity|]. split; [vm_compute; reflexivity|]. eexists. reflexivity. }
  exists s. eexists. split; [exact R|]. split; [rewrite L; vm_compute; reflexivity|].
  split; [split; [discriminate|split; vm_compute; discriminate]|]. split; [reflexivity|].
  intros s0 e tr' o W Ok_ Rn ts leaf out Hin.
  destruct (runTiled_sound 4 s0 e tr' o) as [Nm _]; [unfold tEnvOk, two63, two64 in *; lia|exact Rn|].
  assert (G : forall (t : list (event bytes)) k, numbered k t -> forall i a b c, In (EEntry i a b c) t -> (k < i)%N).
  { clear. induction t as [|[j x l oo|st] t IH]; intros k H i a b c Hin; cbn [numbered] in H; [destruct Hin| |].
    - destruct H as [-> [_ H]]. destruct Hin as [Hin|Hin]; [injection Hin as <- _ _ _; lia|].
      specialize (IH _ H _ _ _ _ Hin). lia.
    - destruct Hin as [Hin|Hin]; [discriminate|]. exact (IH _ H _ _ _ _ Hin). }
  specialize (G _ _ Nm _ _ _ _ Hin). lia.
Qed.
Print Assumptions C11_entry_zero_refuted.

Example C11_example :
  exists tr, runTiled bytes 4 freshState exTiled = (tr, OOk) /\ nEntries tr = 3%N /\
    lastState tr None = Some (mkLS 0 3 0 13 (Some 7%N)).
Proof. eexists. split; [vm_compute; reflexivity|]. vm_compute. auto. Qed.

(** ** C12 *)

(** The range downloader: whatever the server answers, entries are handed on in
    order starting with the first requested one, none twice and none skipped; and
    if the download ends and the claim check passes, they are exactly the requested
    entries. *)
Theorem C12_download_in_order :
  forall (sha256 : bytes -> bytes) (Cert : Type) le resps st tr r rs',
    Forall respOk resps -> (st_first st <= st_last st)%N -> (st_last st < two63)%N ->
    download sha256 Cert le resps (st_first st) (newVerifier st) 0 0 = (tr, r, rs') ->
    entriesFrom (st_first st) tr /\
    forall v mn mx, r = DDone v mn mx -> checkClaim v = Ok tt ->
      N.of_nat (length tr) = (st_last st - st_first st + 1)%N /\ MTH sha256 (leavesOf tr) (st_root st).
Proof.
  intros sha Cert le resps st tr r rs' F H1 H2 H.
  destruct (download_spec sha _ _ _ _ _ _ _ _ _ H F) as [A1 [A2 A3]]; cbn [newVerifier v_subtree v_num];
    [exact H2|lia|unfold two63, two64 in *; lia|].
  cbn [newVerifier v_subtree v_num] in *. rewrite N.add_0_r in A1.
  split; [exact A1|]. intros v mn mx -> C.
  destruct (subtree_verified sha _ _ _ _ _ _ _ _ H F H1 H2 C) as [_ [B1 [B2 _]]]. auto.
Qed.
Print Assumptions C12_download_in_order.

(** The downloader itself does not refuse a response that is longer than what was
    asked for: the surplus entries are sent to the store before the claim check
    fails. *)
Theorem C12_overlong_response_refuted :
  exists resps tr v mn mx,
    download toyHash bytes false resps 4 (newVerifier (mkSubtree (lh (B "a")) 4 4)) 0 0
      = (tr, DDone v mn mx, []) /\
    (exists ts leaf c iss, In (EEntry 5 ts leaf (SQueued c iss)) tr) /\ checkClaim v = Err.
Proof.
  exists [REntries [raw (B "a") false 1; raw (B "b") false 2]]. do 4 eexists.
  split; [vm_compute; reflexivity|]. split; [|vm_compute; reflexivity].
  do 4 eexists. right. left. reflexivity.
Qed.
Print Assumptions C12_overlong_response_refuted.

Example C12_example : exists tr v mn mx,
  download toyHash bytes false
    [REntries [raw (B "2") false 12]; R429 false; REntries [raw (B "3") true 13]; RErr]
    2 (newVerifier (mkSubtree (ph (lh (B "2")) (lh (B "3"))) 2 3)) 0 0 = (tr, DDone v mn mx, [RErr]) /\
  checkClaim v = Ok tt /\ length tr = 2%nat /\ mn = 12%N /\ mx = 13%N.
Proof. do 4 eexists. split; [vm_compute; reflexivity|]. vm_compute. auto. Qed.
