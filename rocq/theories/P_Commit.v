(** * Commit: C18 to C22
    Statements about the step model of CommitModel.v; see there for what a step
    is and for the simplifications. *)
From Verif Require Import Base MerkleModel SerialModel SerialProofs TimeModel CommitModel CommitProofs CommitProofs2 CommitRetry CommitExec.

(** The states an installation can get into: any number of inserts, saved log
    states, commits, crashes, evictions and restarts, in any order. *)
Definition reachable (binDate : bytes -> Z) (readOnly uniq lossy : bool) (t : db) : Prop :=
  exists now, steps binDate readOnly uniq lossy (emptyDb now) t.

(** ** Sample values *)
Definition kA : bytes := B "log::ct.example/a".
Definition bin0 : bytes := B "serials::2030-01-01-10::issuer".
Definition tok1 : bytes := B "token-1".
Definition tok2 : bytes := B "token-2".
Definition idL : bytes := repeat "a"%byte 32.
Definition binAt (b : bytes) : Z := (if beq b bin0 then 1000 * nsHour else 0)%Z.
(** Entries of the log with timestamps 5 s and 100 s (in ms). *)
Definition entOld : bytes := newMember 5000 idL [x01; x02].
Definition entOld2 : bytes := newMember 6000 idL [x01; x03].
Definition entNew : bytes := newMember 100000 idL [x01; x04].
(** The log with a merge delay of 60 s, seen up to 100 s, later up to 200 s. *)
Definition log1 : ctLog := mkLog (Some idL) 60 (B "ct.example/a") 0 1 5000 100000.
Definition log2 : ctLog := mkLog (Some idL) 60 (B "ct.example/a") 0 1 5000 200000.

(** ** C18 *)

(** Whatever was inserted concurrently and wherever commits died: a certificate
    entry in the range of a log state in the coverage file that this file covers
    has its serial in the file of its bin, until the expiry hour begins. *)
Theorem C18_coverage_never_outruns_storage : forall binDate readOnly t logs l b e,
  reachable binDate readOnly true false t ->
  d_cov t = Some logs -> In l logs -> In (b, e) (l_claims l) ->
  isCovered (newCoverageCutoffMap (map l_log logs)) e = true ->
  (d_now t < binDate b)%Z ->
  In (asSerial e) (d_files t b).
Proof.
  intros binDate readOnly t logs l b e [now R] C L Cl V A.
  pose proof (steps_inv binDate readOnly _ _ (empty_inv binDate now) R) as I.
  eapply i_cov; [exact I|exact C|exists l; split; eassumption|exact V|exact A].
Qed.
Print Assumptions C18_coverage_never_outruns_storage.

(** Storage holds nothing that was never inserted for that bin, even when the
    cache loses data or lists a key twice. *)
Theorem C18_storage_invents_nothing : forall binDate readOnly uniq lossy t b x,
  reachable binDate readOnly uniq lossy t -> In x (d_files t b) ->
  exists e, In (b, e) (d_inserted t) /\ asSerial e = x.
Proof.
  intros binDate readOnly uniq lossy t b x [now R] H.
  pose proof (steps_inv2 binDate readOnly uniq lossy _ _ (empty_inv2 now) R) as I.
  eapply n_files; eassumption.
Qed.
Print Assumptions C18_storage_invents_nothing.

(** ** C19 *)
Theorem C19_known_never_lost : forall binDate readOnly t b e,
  reachable binDate readOnly true false t ->
  In (b, e) (d_inserted t) -> (d_now t < binDate b)%Z ->
  In e (d_sets t b) \/ In (asSerial e) (d_files t b).
Proof.
  intros binDate readOnly t b e [now R] H A.
  pose proof (steps_inv binDate readOnly _ _ (empty_inv binDate now) R) as I.
  eapply i_known; eassumption.
Qed.
Print Assumptions C19_known_never_lost.

(** Runs given as lists of actions (CommitExec.v). *)
Lemma run_reachable binDate uniq lossy now l t :
  execs binDate uniq lossy l (emptyDb now) = Some t -> reachable binDate false uniq lossy t.
Proof. intros H. exists now. eapply execs_steps; [apply empty_inv2|exact H]. Qed.

Lemma memb_false x l : memb x l = false -> ~ In x l.
Proof. intros H I. apply memb_spec in I. congruence. Qed.

(** What a run ends in, observed by a function that can be computed. *)
Lemma run_obs {A} binDate uniq lossy now l (f : db -> A) v :
  option_map f (execs binDate uniq lossy l (emptyDb now)) = Some v ->
  exists t, reachable binDate false uniq lossy t /\ f t = v.
Proof.
  destruct (execs _ _ _ l _) as [t|] eqn:E; [|discriminate]. intros H. injection H as H.
  exists t. split; [eapply run_reachable; exact E|exact H].
Qed.

(** A commit by [tok1] that lists and moves [bin0]; the goroutine returns [xs]. *)
Definition moveBin (i : nat) (xs : list bytes) : list act :=
  [ATaskScan i] ++ map (ASee i) xs ++ [ACovered i; AMerge i; AReplace i; ARemove i (length xs); ATaskDone i].
Definition fullCommit (logs : list bytes) (xs : list bytes) : list act :=
  [AAcquire tok1; AStart tok1] ++ map ALoad logs ++ [AScan; AList [bin0]] ++
  moveBin 0 xs ++ [ACover; AExpired; ANext; AFinish; AUnlock].

(** A run in which the hypotheses of C18 and C19 hold: two certificates, one
    covered and moved, one not yet; one inserted in the middle of the commit; a
    second commit crashes. *)
Definition sampleRun : list act :=
  [AInsert bin0 entOld; AInsert bin0 entNew; ASave kA (mkLst log1 [(bin0, entOld); (bin0, entNew)])] ++
  [AAcquire tok1; AStart tok1; ALoad kA; AScan; AInsert bin0 entOld2; AList [bin0]] ++
  moveBin 0 [entNew; entOld2; entOld] ++ [ACover; AExpired; ANext; AFinish; AUnlock] ++
  [AAcquire tok2; AStart tok2; ALoad kA; AScan; AAbort; AUnlock; ATick 5].

Example C18_C19_case : exists t logs l,
  reachable binAt false true false t /\ d_cov t = Some logs /\ In l logs /\
  In (bin0, entOld) (l_claims l) /\ isCovered (newCoverageCutoffMap (map l_log logs)) entOld = true /\
  In (bin0, entNew) (l_claims l) /\ isCovered (newCoverageCutoffMap (map l_log logs)) entNew = false /\
  (d_now t < binAt bin0)%Z /\ d_files t bin0 = [[x01; x02]; [x01; x03]] /\ d_sets t bin0 = [entNew].
Proof.
  destruct (run_obs binAt true false 0 sampleRun
    (fun t => (d_cov t, d_files t bin0, d_sets t bin0, (d_now t <? binAt bin0)%Z))
    (Some [mkLst log1 [(bin0, entOld); (bin0, entNew)]], [[x01; x02]; [x01; x03]], [entNew], true))
    as (t & R & E); [vm_compute; reflexivity|].
  injection E as E1 E2 E3 E4. exists t, [mkLst log1 [(bin0, entOld); (bin0, entNew)]], (mkLst log1 [(bin0, entOld); (bin0, entNew)]).
  split; [exact R|]. split; [exact E1|]. split; [left; reflexivity|]. split; [left; reflexivity|].
  split; [vm_compute; reflexivity|]. split; [right; left; reflexivity|]. split; [vm_compute; reflexivity|].
  split; [lia|]. split; assumption.
Qed.

(** Entries that are not yet covered exist in the cache only.  After the cache is
    lost, ct-fetch restores the log states of the coverage file and continues
    after their last entry, so that these entries are never fetched again: a later
    commit covers them although their serials are not in storage. *)
Theorem C18_cache_loss_refuted : exists t logs l b e,
  reachable binAt false true true t /\
  d_cov t = Some logs /\ In l logs /\ In (b, e) (l_claims l) /\
  isCovered (newCoverageCutoffMap (map l_log logs)) e = true /\
  (d_now t < binAt b)%Z /\ ~ In (asSerial e) (d_files t b).
Proof.
  destruct (run_obs binAt true true 0
    ([AInsert bin0 entOld; AInsert bin0 entNew; ASave kA (mkLst log1 [(bin0, entOld); (bin0, entNew)])] ++
     fullCommit [kA] [entNew; entOld] ++ fullCommit [kA] [entNew] ++
     [ALoss; ARestoreLog kA 0; ARestore; AContinue kA (mkLst log2 [(bin0, entOld); (bin0, entNew)])] ++
     [AAcquire tok1; AStart tok1; ALoad kA; AScan; AList [bin0]; ATaskScan 0; ACovered 0; ACover])
    (fun t => (d_cov t, memb (asSerial entNew) (d_files t bin0), (d_now t <? binAt bin0)%Z))
    (Some [mkLst log2 [(bin0, entOld); (bin0, entNew)]], false, true)) as (t & R & E); [vm_compute; reflexivity|].
  injection E as E1 E2 E3. exists t, [mkLst log2 [(bin0, entOld); (bin0, entNew)]], (mkLst log2 [(bin0, entOld); (bin0, entNew)]), bin0, entNew.
  split; [exact R|]. split; [exact E1|]. split; [left; reflexivity|]. split; [right; left; reflexivity|].
  split; [vm_compute; reflexivity|]. split; [lia|]. apply memb_false. exact E2.
Qed.
Print Assumptions C18_cache_loss_refuted.

(** Within the expiry hour the cache may have dropped a serial of a certificate
    that is still valid (bins expire a millisecond before the hour is over). *)
Theorem C19_last_hour_refuted : exists t b e,
  reachable binAt false true false t /\ In (b, e) (d_inserted t) /\
  (d_now t <= binAt b + nsHour - nsMilli)%Z /\
  ~ In e (d_sets t b) /\ ~ In (asSerial e) (d_files t b).
Proof.
  destruct (run_obs binAt true false 0 [AInsert bin0 entOld; ATick (1000 * nsHour); AEvict bin0]
    (fun t => (d_inserted t, (d_now t <=? binAt bin0 + nsHour - nsMilli)%Z, d_sets t bin0, d_files t bin0))
    ([(bin0, entOld)], true, [], [])) as (t & R & E); [vm_compute; reflexivity|].
  injection E as E1 E2 E3 E4. exists t, bin0, entOld. rewrite E1, E3, E4.
  split; [exact R|]. split; [left; reflexivity|]. split; [apply Z.leb_le; exact E2|]. split; intros [].
Qed.
Print Assumptions C19_last_hour_refuted.

(** When a key is listed twice, two goroutines merge the same file: an old
    entry (say from a backfill) that arrives between their reads is lost. *)
Theorem C19_repeated_key_refuted : exists t b e,
  reachable binAt false false false t /\ In (b, e) (d_inserted t) /\ (d_now t < binAt b)%Z /\
  ~ In e (d_sets t b) /\ ~ In (asSerial e) (d_files t b).
Proof.
  destruct (run_obs binAt false false 0
    ([AInsert bin0 entOld; ASave kA (mkLst log1 [(bin0, entOld)]); AAcquire tok1; AStart tok1; ALoad kA; AScan;
      AList [bin0; bin0]; ATaskScan 0; ASee 0 entOld; ACovered 0; AInsert bin0 entOld2;
      ATaskScan 1; ASee 1 entOld; ASee 1 entOld2; ACovered 1; AMerge 0; AMerge 1; AReplace 1; ARemove 1 2; AReplace 0])
    (fun t => (memp (bin0, entOld2) (d_inserted t), (d_now t <? binAt bin0)%Z,
               memb entOld2 (d_sets t bin0), memb (asSerial entOld2) (d_files t bin0)))
    (true, true, false, false)) as (t & R & E); [vm_compute; reflexivity|].
  injection E as E1 E2 E3 E4. exists t, bin0, entOld2.
  split; [exact R|]. split; [apply memp_spec; exact E1|]. split; [lia|].
  split; apply memb_false; assumption.
Qed.
Print Assumptions C19_repeated_key_refuted.

(** ** C20 *)

(** The serials a commit has to leave in the file of a bin: those there, and
    those of the covered entries in the cache. *)
Definition due (s : db) (logs : list lstate) (b x : bytes) : Prop :=
  In x (d_files s b) \/
  exists e, In e (d_sets s b) /\ isCovered (newCoverageCutoffMap (map l_log logs)) e = true /\ asSerial e = x.

(** What an undisturbed commit that read all log states ends in. *)
Theorem C20_commit_result : forall binDate readOnly k s logs t,
  distinctLogs s -> allLogs s logs -> completed binDate readOnly k s logs t ->
  d_epoch t = (d_epoch s + 1)%N /\ d_sepoch t = d_epoch s /\ d_cov t = Some logs /\ d_commit t = None /\
  forall b x, (d_now s <= binDate b + nsHour - nsMilli)%Z -> (In x (d_files t b) <-> due s logs b x).
Proof.
  intros binDate readOnly k s logs t D A C.
  exact (completed_files binDate readOnly s logs D A k logs t A C).
Qed.
Print Assumptions C20_commit_result.

(** A commit that is not refused can run to its end. *)
Theorem C20_commit_possible : forall binDate k s (logKeys bins : list bytes),
  d_commit s = None -> d_lock s = Some k -> inStep (d_epoch s) (d_sepoch s) = true ->
  (forall u, d_logs s u <> None -> In u logKeys) -> (forall b, d_sets s b <> [] -> In b bins) ->
  exists logs t, allLogs s logs /\ completed binDate false k s logs t.
Proof. intros. eapply commit_completes; eauto. Qed.
Print Assumptions C20_commit_possible.

(** A commit by [k] died in state [t], any time before it incremented the cache
    epoch; another commit by [k'] follows once it has the lock.  It is allowed,
    and when complete it leaves what a commit without the crash leaves: the same
    epochs, the same log states in the coverage file, the same serials in the file
    of every bin that has not expired. *)
Theorem C20_retry : forall binDate k k' s t,
  distinctLogs s -> running binDate false k s t ->
  (forall e, d_commit t <> Some (mkCm k e PFinish)) ->
  let s' := setLock (setCommit t None) (Some k') in
  inStep (d_epoch s') (d_sepoch s') = true /\
  forall logs u logs' u', allLogs s logs -> completed binDate false k s logs u ->
    allLogs s' logs' -> completed binDate false k' s' logs' u' ->
    d_epoch u' = d_epoch u /\ d_sepoch u' = d_sepoch u /\
    (exists c c', d_cov u = Some c /\ d_cov u' = Some c' /\ forall l, In l c <-> In l c') /\
    forall b x, (d_now s <= binDate b + nsHour - nsMilli)%Z -> (In x (d_files u' b) <-> In x (d_files u b)).
Proof.
  intros binDate k k' s t D R NF s'.
  assert (E0 : inStep (d_epoch s) (d_sepoch s) = true) by (clear - R; induction R; assumption).
  destruct (running_frame binDate false k s t R) as (F1 & F2 & F3 & F4). specialize (F4 NF).
  split; [subst s'; fields; rewrite F3, F4; exact E0|].
  intros logs u logs' u' A C A' C'.
  destruct (crashed_total binDate false s logs D A k t R) as (_ & _ & _ & T & _).
  assert (D' : distinctLogs s') by (unfold distinctLogs; subst s'; fields; rewrite F1; exact D).
  assert (AA : allLogs s logs').
  { unfold allLogs, fromLogs in *. subst s'. fieldsIn A'. rewrite F1 in A'. exact A'. }
  assert (CV : forall e, isCovered (newCoverageCutoffMap (map l_log logs')) e = isCovered (newCoverageCutoffMap (map l_log logs)) e).
  { intros e. apply (covered_same s); assumption. }
  destruct (C20_commit_result _ _ _ _ _ _ D A C) as (X1 & X2 & X3 & _ & X4).
  destruct (C20_commit_result _ _ _ _ _ _ D' A' C') as (Y1 & Y2 & Y3 & _ & Y4).
  assert (ES : d_epoch s' = d_epoch s) by (subst s'; fields; exact F4).
  split; [congruence|]. split; [congruence|]. split.
  - exists logs, logs'. split; [exact X3|]. split; [exact Y3|]. intros l. split; intros H.
    + destruct A as [A1 _], AA as [_ A2]. destruct (A1 l H) as (v & Hv). eapply A2; exact Hv.
    + destruct A as [_ A1], AA as [A2 _]. destruct (A2 l H) as (v & Hv). eapply A1; exact Hv.
  - intros b x Hb. rewrite X4 by exact Hb. rewrite Y4 by (subst s'; fields; rewrite F2; exact Hb).
    specialize (T b x Hb). unfold total, covF, cutoffs in T. unfold due. subst s'. fields.
    rewrite <- T. split; (intros [H|(e & H1 & H2 & H3)]; [left; exact H|right; exists e]); rewrite ?CV in *; auto.
Qed.
Print Assumptions C20_retry.

(** A commit that dies after replacing a file and removing one of two entries:
    the hypotheses of the retry theorem hold, and both commits can complete. *)
Definition before : db :=
  mkDb (upd (fun _ => []) bin0 [entOld; entOld2; entNew])
       (upd (fun _ => None) kA (Some (mkLst log1 [(bin0, entOld); (bin0, entNew)])))
       0 (Some tok1) (fun _ => []) None 0 0 None [(bin0, entOld); (bin0, entOld2); (bin0, entNew)].

Example C20_case : exists t,
  distinctLogs before /\ running binAt false tok1 before t /\
  (forall e, d_commit t <> Some (mkCm tok1 e PFinish)) /\
  d_files t bin0 = [[x01; x02]; [x01; x03]] /\ d_sets t bin0 = [entOld; entNew] /\
  (exists logs u, allLogs before logs /\ completed binAt false tok1 before logs u) /\
  (exists logs u, allLogs (setLock (setCommit t None) (Some tok2)) logs /\
     completed binAt false tok2 (setLock (setCommit t None) (Some tok2)) logs u).
Proof.
  assert (I : inv2 before).
  { assert (Z : forall b e, In e (d_sets before b) -> In (b, e) (d_inserted before)).
    { cbn [before d_sets d_inserted]. intros b e. unfold upd. destruct (beq_spec b bin0) as [->|]; [|intros []].
      intros [<-|[<-|[<-|[]]]]; cbn [In]; auto. }
    split; [exact Z|intros b x []|discriminate]. }
  assert (R0 : running binAt false tok1 before (setPhase before tok1 0 (PLoad []))) by (apply run_start; reflexivity).
  pose (f := fun t => (d_commit t, d_files t bin0, d_sets t bin0)).
  assert (E : option_map f (execs binAt true false
      [ALoad kA; AScan; AList [bin0]; ATaskScan 0; ASee 0 entNew; ASee 0 entOld; ASee 0 entOld2; ACovered 0; AMerge 0;
       AReplace 0; ARemove 0 1] (setPhase before tok1 0 (PLoad []))) =
    Some (Some (mkCm tok1 0 (PMove [mkLst log1 [(bin0, entOld); (bin0, entNew)]] [(bin0, TRemove [entOld])])),
          [[x01; x02]; [x01; x03]], [entOld; entNew])) by (vm_compute; reflexivity).
  destruct (execs _ _ _ _ _) as [t|] eqn:X in E; [|discriminate]. unfold f in E. cbn [option_map] in E.
  injection E as E1 E2 E3.
  assert (R : running binAt false tok1 before t).
  { eapply (execs_running binAt false tok1 before) with (t := setPhase before tok1 0 (PLoad [])); [| |exists (mkCm tok1 0 (PLoad [])); split; reflexivity| |exact X].
    - eapply (step_inv2 binAt false true false); [exact I|]. eapply step_own. apply (SStart binAt false true tok1 before); reflexivity.
    - exact R0.
    - reflexivity. }
  destruct (running_frame binAt false tok1 before t R) as (F1 & F2 & F3 & F4).
  assert (LG : forall s, d_logs s = d_logs before -> forall u, d_logs s u <> None -> In u [kA]).
  { intros s -> u. cbn [before d_logs]. unfold upd. destruct (beq_spec u kA) as [->|]; [left; reflexivity|congruence]. }
  exists t. split; [|split; [exact R|split; [|split; [exact E2|split; [exact E3|split]]]]].
  - intros u v l l' id. cbn [before d_logs]. unfold upd. destruct (beq u kA), (beq v kA); congruence.
  - intros e. rewrite E1. discriminate.
  - apply (C20_commit_possible binAt tok1 before [kA] [bin0]); try reflexivity.
    + apply LG. reflexivity.
    + intros b. cbn [before d_sets]. unfold upd. destruct (beq_spec b bin0) as [->|]; [left; reflexivity|congruence].
  - apply (C20_commit_possible binAt tok2 _ [kA] (map fst (d_inserted before))); fields; try reflexivity.
    + rewrite F3, F4; [reflexivity|]. intros e. rewrite E1. discriminate.
    + apply LG. fields. exact F1.
    + intros b Hb. destruct (d_sets t b) as [|x l] eqn:SB; [congruence|].
      assert (R' : inv2 t /\ d_inserted t = d_inserted before).
      { clear - R I. induction R as [C RO L EE|t u R IH O N].
        - split; [|reflexivity]. eapply (step_inv2 binAt false true false); [exact I|]. eapply step_own. eapply SStart; eassumption.
        - destruct IH as [IH1 IH2]. split; [eapply (step_inv2 binAt false true false); [exact IH1|eapply step_own; exact O]|].
          destruct O; fields; exact IH2. }
      destruct R' as [R1 R2]. rewrite <- R2. apply (in_map fst _ (b, x)). apply (n_sets _ R1). rewrite SB. left; reflexivity.
Qed.

(** A crash between the increment of the cache epoch and the write of the epoch
    file leaves the epochs two apart: every later commit is refused until a
    restore (C22). *)
Theorem C20_crash_between_epochs : forall binDate k k' s t e,
  running binDate false k s t -> d_commit t = Some (mkCm k e PFinish) -> d_epoch s <> 0%N ->
  let s' := setLock (setCommit t None) (Some k') in
  d_epoch s' = (d_sepoch s' + 2)%N /\
  forall k'' u, ~ running binDate false k'' s' u.
Proof.
  intros binDate k k' s t e R C NZ s'.
  assert (X : d_sepoch t = d_sepoch s /\ d_epoch t = (d_epoch s + 1)%N /\ inStep (d_epoch s) (d_sepoch s) = true).
  { destruct (running_frame binDate false k s t R) as (F1 & F2 & F3 & F4).
    split; [exact F3|]. split; [|clear - R; induction R; assumption].
    revert C. clear s' F1 F2 F3 F4 NZ. revert e. induction R as [C0 RO L E|t u R IH O N]; intros e C; [discriminate C|].
    assert (G : forall e0, d_commit t = Some (mkCm k e0 PEpoch) -> d_epoch t = d_epoch s).
    { intros e0 H0. apply (proj2 (proj2 (proj2 (running_frame binDate false k s t R)))). intros e1. congruence. }
    destruct O; fieldsIn C; fields; try congruence; try (eapply IH; eassumption).
    erewrite G by eassumption. reflexivity. }
  destruct X as (X1 & X2 & X3). apply inStep_spec in X3.
  assert (Y : inStep (d_epoch s') (d_sepoch s') = false).
  { subst s'. fields. unfold inStep. rewrite X1, X2. lia. }
  split.
  - subst s'. fields. rewrite X1, X2. lia.
  - intros k'' u R'. assert (inStep (d_epoch s') (d_sepoch s') = true) by (clear - R'; induction R'; assumption). congruence.
Qed.
Print Assumptions C20_crash_between_epochs.

(** ** C21 *)
Lemma guard_accepts readOnly k s e : commitGuard readOnly k s = inl e <->
  readOnly = false /\ d_lock s = Some k /\ inStep (d_epoch s) (d_sepoch s) = true /\ e = d_epoch s.
Proof.
  unfold commitGuard, inStep. destruct readOnly; [split; [discriminate|intros (?&_); discriminate]|].
  destruct (d_lock s) as [k'|]; [destruct (beq_spec k' k) as [->|N]|]; cbn [negb];
    try (split; [discriminate|intros (_ & E & _); congruence]).
  destruct (d_epoch s =? d_sepoch s + 1)%N, ((d_epoch s =? 0)%N && (d_sepoch s =? 0)%N); cbn [negb andb orb];
    split; try discriminate; try (intros H; injection H as <-; auto); intros (_ & _ & H & ->); try reflexivity; discriminate.
Qed.

(** The call is refused in exactly these cases: read-only storage, no lock or
    somebody else's, epochs out of step. *)
Theorem C21_refused_iff : forall readOnly k s,
  (exists r, commitGuard readOnly k s = inr r) <->
  readOnly = true \/ d_lock s <> Some k \/
  (d_epoch s <> d_sepoch s + 1 /\ ~ (d_epoch s = 0 /\ d_sepoch s = 0))%N.
Proof.
  intros readOnly k s. pose proof (guard_accepts readOnly k s) as G.
  assert (S : inStep (d_epoch s) (d_sepoch s) = true <->
    ~ (d_epoch s <> d_sepoch s + 1 /\ ~ (d_epoch s = 0 /\ d_sepoch s = 0))%N).
  { rewrite inStep_spec. lia. }
  assert (DL : d_lock s = Some k \/ d_lock s <> Some k).
  { destruct (d_lock s) as [k'|]; [|right; discriminate]. destruct (bytes_eq_dec k' k) as [->|N]; [left|right]; congruence. }
  split.
  - intros (r & E). destruct readOnly; [auto|]. destruct DL as [DL|DL]; [|auto]. right. right.
    destruct (inStep (d_epoch s) (d_sepoch s)) eqn:EI.
    + destruct (G (d_epoch s)) as [_ G2]. rewrite G2 in E by auto. discriminate.
    + unfold inStep in EI. lia.
  - intros H. destruct (commitGuard readOnly k s) as [e|r] eqn:E; [|eauto]. exfalso.
    destruct (proj1 (G e) eq_refl) as (E1 & E2 & E3 & _). apply S in E3. destruct H as [H|[H|H]]; [congruence|contradiction|contradiction].
Qed.
Print Assumptions C21_refused_iff.

(** A refused call changes neither cache nor storage, whatever it does. *)
Theorem C21_refused_changes_nothing : forall binDate readOnly uniq k s r t,
  d_commit s = None -> commitGuard readOnly k s = inr r ->
  owns binDate readOnly uniq k s t -> t = s.
Proof.
  intros binDate readOnly uniq k s r t C G H.
  induction H as [s|s t u H IH O]; [reflexivity|]. specialize (IH C G). subst t.
  exfalso. destruct O; try congruence.
  assert (commitGuard readOnly k s = inl (d_epoch s)) by (apply guard_accepts; auto). congruence.
Qed.
Print Assumptions C21_refused_changes_nothing.

Example C21_case :
  commitGuard true tok1 before = inr RefReadOnly /\ commitGuard false tok2 before = inr RefNoLock /\
  commitGuard false tok1 (setEpoch before 2) = inr RefEpochs /\ commitGuard false tok1 before = inl 0%N /\
  commitGuard false tok1 (setSEpoch (setEpoch before 3) 2) = inl 3%N.
Proof. repeat split. Qed.

(** ** C22 *)

(** In every history without cache loss: while a commit runs, the cache epoch it
    read is one ahead of storage (or both are zero); otherwise the epochs are in
    step, or two apart after a crash between the two writes. *)
Theorem C22_epochs : forall binDate readOnly uniq t,
  reachable binDate readOnly uniq false t ->
  match d_commit t with
  | None => d_epoch t = d_sepoch t + 1 \/ (d_epoch t = 0 /\ d_sepoch t = 0) \/ d_epoch t = d_sepoch t + 2
  | Some c => (cm_epoch c = d_sepoch t + 1 \/ (cm_epoch c = 0 /\ d_sepoch t = 0)) /\
      (d_epoch t = cm_epoch c \/ (cm_phase c = PFinish /\ d_epoch t = cm_epoch c + 1))
  end%N.
Proof.
  intros binDate readOnly uniq t [now R].
  pose proof (steps_inv3 binDate readOnly uniq _ _ (empty_inv3 readOnly now) R) as [_ E].
  destruct (d_commit t) as [c|].
  - destruct E as [E1 E2]. apply inStep_spec in E1. split; [exact E1|].
    destruct (cm_phase c); auto.
  - destruct E as [E|E]; [apply inStep_spec in E|]; lia.
Qed.
Print Assumptions C22_epochs.

(** The cache, emptied while no commit runs and after at least two commits, is
    never committed from before ct-fetch has reset its epoch: until then no commit
    runs and the files, the coverage and the storage epoch stay as they were. *)
Theorem C22_loss_needs_restore : forall binDate readOnly uniq s t,
  d_commit s = None -> d_epoch s = 0%N -> d_sepoch s <> 0%N ->
  steps binDate readOnly uniq true s t ->
  let untouched u := d_commit u = None /\ d_epoch u = 0%N /\ d_files u = d_files s /\ d_cov u = d_cov s /\
    d_sepoch u = d_sepoch s in
  untouched t \/
  exists u, steps binDate readOnly uniq true s u /\ untouched u /\ d_lock u = None /\
    steps binDate readOnly uniq true (setEpoch u (d_sepoch u + 1)%N) t.
Proof.
  intros binDate readOnly uniq s t C E N H untouched.
  assert (S0 : inStep 0 (d_sepoch s) = false) by (unfold inStep; lia).
  induction H as [s|s t u H IH S].
  - left. repeat split; assumption.
  - specialize (IH C E N S0). destruct IH as [(U1 & U2 & U3 & U4 & U5)|(v & V1 & V2 & V3 & V4)].
    2:{ right. exists v. split; [exact V1|]. split; [exact V2|]. split; [exact V3|]. eapply steps_step; eassumption. }
    destruct S as [t u X|k t u O].
    + destruct X; try (left; unfold untouched; fields; rewrite ?U1; cbn [option_map]; auto; fail).
      right. exists s0. split; [exact H|]. split; [repeat split; assumption|]. split; [assumption|constructor].
    + destruct O; try congruence.
Qed.
Print Assumptions C22_loss_needs_restore.

(** After the very first commit the storage epoch is still zero: a lost cache has
    the same epochs as a fresh installation, and the next commit replaces the
    coverage by an empty one. *)
Theorem C22_first_commit_refuted : exists t,
  reachable binAt false true true t /\
  d_sepoch t = 0%N /\ d_cov t = Some [] /\ d_files t bin0 = [[x01; x02]].
Proof.
  destruct (run_obs binAt true true 0
    ([AInsert bin0 entOld; ASave kA (mkLst log1 [(bin0, entOld)])] ++
     fullCommit [kA] [entOld] ++ [ALoss; AAcquire tok1; AStart tok1; AScan; AList [bin0]; ATaskScan 0; ACovered 0; ACover])
    (fun t => (d_sepoch t, d_cov t, d_files t bin0)) (0%N, Some [], [[x01; x02]])) as (t & R & X); [vm_compute; reflexivity|].
  injection X as X1 X2 X3. exists t. auto.
Qed.
Print Assumptions C22_first_commit_refuted.

(** Reachable states in which the hypotheses of C22_loss_needs_restore hold, and
    in which a restore and a new commit follow. *)
Example C22_case : exists s t,
  reachable binAt false true true s /\ d_commit s = None /\ d_epoch s = 0%N /\ d_sepoch s = 1%N /\
  d_cov s = Some [mkLst log1 [(bin0, entOld)]] /\
  reachable binAt false true true t /\ d_commit t = None /\ d_epoch t = 3%N /\ d_sepoch t = 2%N /\
  d_cov t = Some [mkLst log1 [(bin0, entOld)]].
Proof.
  destruct (run_obs binAt true true 0
    ([AInsert bin0 entOld; ASave kA (mkLst log1 [(bin0, entOld)])] ++
     fullCommit [kA] [entOld] ++ [AAcquire tok1; AStart tok1; ALoad kA; AScan; AList [bin0]; ATaskScan 0; ACovered 0;
       ACover; AExpired; ANext; AFinish; AUnlock; ALoss])
    (fun t => (d_commit t, d_epoch t, d_sepoch t, d_cov t)) (None, 0%N, 1%N, Some [mkLst log1 [(bin0, entOld)]]))
    as (s & R & X); [vm_compute; reflexivity|].
  destruct (run_obs binAt true true 0
    ([AInsert bin0 entOld; ASave kA (mkLst log1 [(bin0, entOld)])] ++
     fullCommit [kA] [entOld] ++ [AAcquire tok1; AStart tok1; ALoad kA; AScan; AList [bin0]; ATaskScan 0; ACovered 0;
       ACover; AExpired; ANext; AFinish; AUnlock; ALoss; ARestoreLog kA 0; ARestore; AAcquire tok2; AStart tok2; ALoad kA;
       AScan; AList [bin0]; ATaskScan 0; ACovered 0; ACover; AExpired; ANext; AFinish])
    (fun t => (d_commit t, d_epoch t, d_sepoch t, d_cov t)) (None, 3%N, 2%N, Some [mkLst log1 [(bin0, entOld)]]))
    as (t & R' & X'); [vm_compute; reflexivity|].
  injection X as X1 X2 X3 X4. injection X' as Y1 Y2 Y3 Y4. exists s, t. auto 12.
Qed.

(** ** C23, part: a running commit holds the lock *)
Theorem C23_commit_holds_lock : forall binDate readOnly uniq t c,
  reachable binDate readOnly uniq false t -> d_commit t = Some c ->
  d_lock t = Some (cm_tok c) /\ readOnly = false.
Proof.
  intros binDate readOnly uniq t c [now R] C.
  pose proof (steps_inv3 binDate readOnly uniq _ _ (empty_inv3 readOnly now) R) as [L _]. auto.
Qed.
Print Assumptions C23_commit_holds_lock.
