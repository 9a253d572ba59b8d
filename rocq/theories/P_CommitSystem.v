(** * Several processes on one installation: C69
    Statements about the system of CommitSystem.v: any number of commits and of
    starts of ct-fetch, over one cache and one storage directory. *)
From Verif Require Import Base MerkleModel SerialModel SerialProofs TimeModel StoreModel
  CommitModel CommitProofs CommitProofs2 CommitExec P_Commit
  CommitSystem CommitSystemProofs CommitSystemProofs2 CommitSystemExec.

(** The states that any number of processes can bring an installation into. *)
Definition mreach (binDate : bytes -> Z) (prompt : bool) (m : sys) : Prop :=
  exists now, msteps binDate prompt (emptySys now) m.

(** Between the guards of a commit and its end, or in the part of a check that
    changes the cache. *)
Definition changing (p : proc) : bool :=
  match p with CRun _ | RKeys _ _ _ | RDel _ _ _ _ | RPut _ _ _ => true | _ => false end.

(** ** When every holder of the lock is done, or dead, within the four hours *)

(** No two processes change storage or restore the cache at the same time. *)
Theorem C69_one_at_a_time : forall binDate m i j,
  mreach binDate true m -> changing (m_procs m i) = true -> changing (m_procs m j) = true -> i = j.
Proof.
  intros binDate m i j [now R] Hi Hj. apply sim_run in R. destruct R as (X & _ & _).
  assert (A : forall a, changing (m_procs m a) = true -> exists k, holds (m_procs m a) = Some k).
  { intros a Ha. destruct (m_procs m a); try discriminate Ha; eexists; reflexivity. }
  destruct (A i Hi) as [k Hk]. destruct (A j Hj) as [k' Hk']. eapply (x_one _ X); eassumption.
Qed.
Print Assumptions C69_one_at_a_time.

(** Inserted serials are in the cache or in storage until they expire, whatever
    number of processes commit, die, and start ct-fetch, in any interleaving. *)
Theorem C69_known_never_lost : forall binDate m b e,
  mreach binDate true m -> In (b, e) (d_inserted (m_db m)) -> (d_now (m_db m) < binDate b)%Z ->
  In e (d_sets (m_db m) b) \/ In (asSerial e) (d_files (m_db m) b).
Proof.
  intros binDate m b e [now R] H A. apply sim_run in R. destruct R as (_ & _ & s & (oc & -> & _) & _ & G).
  exact (i_known _ _ (g_inv _ _ G) b e H A).
Qed.
Print Assumptions C69_known_never_lost.

Theorem C69_coverage_never_outruns_storage : forall binDate m logs l b e,
  mreach binDate true m ->
  d_cov (m_db m) = Some logs -> In l logs -> In (b, e) (l_claims l) ->
  isCovered (newCoverageCutoffMap (map l_log logs)) e = true ->
  (d_now (m_db m) < binDate b)%Z ->
  In (asSerial e) (d_files (m_db m) b).
Proof.
  intros binDate m logs l b e [now R] C L Cl V A. apply sim_run in R. destruct R as (_ & _ & s & (oc & -> & _) & _ & G).
  refine (i_cov _ _ (g_inv _ _ G) logs b e C _ V A). exists l. split; assumption.
Qed.
Print Assumptions C69_coverage_never_outruns_storage.

(** To cache and storage, the processes look like the one process of
    CommitModel.v: their run is a run of that model, in which besides the epoch may
    be set while no commit runs; the commit of the model is the one that runs. *)
Theorem C69_acts_as_one : forall binDate now m,
  msteps binDate true (emptySys now) m ->
  exists oc, gsteps binDate (emptyDb now) (setCommit (m_db m) oc) /\
    forall c, oc = Some c <-> exists i, m_procs m i = CRun c.
Proof.
  intros binDate now m R. apply sim_run in R. destruct R as (X & _ & s & (oc & -> & Rn) & G & _).
  exists oc. split; [exact G|]. intros c. split.
  - intros ->. exact Rn.
  - intros [i Hi]. destruct oc as [c'|]; cbn [runner] in Rn.
    + destruct Rn as [j Hj]. assert (i = j) as <- by (eapply run_unique; eassumption). congruence.
    + specialize (Rn i). rewrite Hi in Rn. discriminate.
Qed.
Print Assumptions C69_acts_as_one.

(** ** Whether or not locks expire under their holders *)
Theorem C69_storage_invents_nothing : forall binDate prompt m b x,
  mreach binDate prompt m -> In x (d_files (m_db m) b) ->
  exists e, In (b, e) (d_inserted (m_db m)) /\ asSerial e = x.
Proof.
  intros binDate prompt m b x [now R] H. apply sane_run in R. pose proof (s_all2 _ R 0%nat) as I.
  exact (n_files _ I b x H).
Qed.
Print Assumptions C69_storage_invents_nothing.

(** ** The start of ct-fetch *)

(** When no other process moves meanwhile, a start that gets past its check leaves
    the epochs in step: the next commit is accepted. *)
Theorem C69_restart_alone : forall binDate prompt m i n,
  mreach binDate prompt m -> m_procs m i = Out -> alone binDate prompt i m n -> m_procs n i = Ready ->
  d_epoch (m_db n) = (d_sepoch (m_db n) + 1)%N \/ (d_epoch (m_db n) = 0%N /\ d_sepoch (m_db n) = 0%N).
Proof.
  intros binDate prompt m i n [now R] O A E. apply sane_run in R.
  destruct (alone_in_step binDate prompt i m n (s_none _ R) O A) as [C _]. rewrite E in C. cbn [checkOK] in C.
  unfold inStep in C. apply orb_prop in C. destruct C as [C|C]; [left; apply N.eqb_eq; exact C|right].
  apply andb_prop in C. split; apply N.eqb_eq; apply C.
Qed.
Print Assumptions C69_restart_alone.

(** A restoration leaves in the cache exactly the log states of the coverage file,
    each under its key, sets the epoch, and touches neither serials nor storage. *)
Theorem C69_restart_restores : forall binDate prompt m i n ls,
  d_cov (m_db m) = Some ls -> m_procs m i = EBehind (d_sepoch (m_db m)) ->
  within binDate prompt i m n -> m_procs n i = Ready ->
  d_epoch (m_db n) = (d_sepoch (m_db n) + 1)%N /\
  (forall u l, d_logs (m_db n) u = Some l -> In l ls /\ u = logKey (lg_url (l_log l))) /\
  (forall l, In l ls -> d_logs (m_db n) (logKey (lg_url (l_log l))) <> None) /\
  d_sets (m_db n) = d_sets (m_db m) /\ d_files (m_db n) = d_files (m_db m) /\
  d_cov (m_db n) = d_cov (m_db m) /\ d_sepoch (m_db n) = d_sepoch (m_db m).
Proof.
  intros binDate prompt m i n ls C E W Rd. pose proof (restored binDate prompt i m n ls C E W) as [St R].
  rewrite Rd in R. destruct R as [R1 [R2 R3]]. destruct St as (S1 & S2 & S3 & S4).
  rewrite S3. repeat split; try assumption; eapply R2; eassumption.
Qed.
Print Assumptions C69_restart_restores.

(** In whatever state processes have left an installation: once the lock is free, a
    start of ct-fetch can get past its check, and leaves the epochs in step and
    the lock free. *)
Theorem C69_restart_possible : forall binDate prompt m i,
  mreach binDate prompt m -> m_procs m i = Out -> d_lock (m_db m) = None ->
  exists n, alone binDate prompt i m n /\ m_procs n i = Ready /\ d_lock (m_db n) = None /\
    (d_epoch (m_db n) = (d_sepoch (m_db n) + 1)%N \/ (d_epoch (m_db n) = 0%N /\ d_sepoch (m_db n) = 0%N)).
Proof.
  intros binDate prompt m i R O L. pose proof R as [now R0].
  destruct (restart_possible binDate prompt now m i R0 O L) as (n & A & E & F). exists n.
  split; [exact A|]. split; [exact E|]. split; [exact F|]. eapply C69_restart_alone; eassumption.
Qed.
Print Assumptions C69_restart_possible.

(** ** Runs *)
Definition tok3 : bytes := B "token-3".
Definition tok4 : bytes := B "token-4".
Definition tok1b : bytes := B "token-5".
Definition st1 : lstate := mkLst log1 [(bin0, entOld); (bin0, entNew)].

(** Process [i] takes the lock with token [k] and passes the guards. *)
Definition begin (i : nat) (k : bytes) : list mact := [BAcquire i k; BNext i; BNext i; BNext i].
Definition owned (i : nat) (l : list act) : list mact := map (BOwn i) l.
Definition body (xs : list bytes) : list act := [ALoad kA; AScan; AList [bin0]] ++ moveBin 0 xs ++ [ACover; AExpired].
(** A commit from lock to release. *)
Definition wholeCommit (i : nat) (k : bytes) (xs : list bytes) : list mact :=
  begin i k ++ owned i (body xs ++ [ANext; AFinish]) ++ [BNext i; BNext i].

(** Two commits; in the second, process 0 dies between the two epochs and leaves
    the lock behind; the lock expires; process 1 starts ct-fetch, which restores
    the log state of the coverage file; process 2 commits; at the end process 3
    has the lock. *)
Definition storyRun : list mact :=
  [BInsert bin0 entOld; BInsert bin0 entNew; BSave kA st1] ++ wholeCommit 0 tok1 [entNew; entOld] ++
  begin 0 tok2 ++ owned 0 (body [entNew] ++ [ANext]) ++ [BDie 0; BTick (5 * nsHour); BExpireLock; BInsert bin0 entOld2] ++
  [BNext 1; BNext 1; BNext 1; BTake 1 tok3; BKeys 1; BNext 1; BNext 1; BNext 1; BNext 1; BNext 1; BNext 1].

Example C69_case : exists m n,
  msteps binAt true (emptySys 0) m /\ m_procs m 1%nat = Ready /\
  d_epoch (m_db m) = 1%N /\ d_sepoch (m_db m) = 0%N /\ d_logs (m_db m) kA = Some st1 /\
  msteps binAt true (emptySys 0) n /\ m_procs n 3%nat = CLocked tok1b /\ d_lock (m_db n) = Some tok1b /\
  d_files (m_db n) bin0 = [[x01; x02]; [x01; x03]] /\ d_sets (m_db n) bin0 = [entNew] /\
  d_cov (m_db n) = Some [st1] /\ d_epoch (m_db n) = 2%N /\ d_sepoch (m_db n) = 1%N.
Proof.
  destruct (mrun_obs binAt true 0 storyRun
    (fun m => (m_procs m 1%nat, d_epoch (m_db m), d_sepoch (m_db m), d_logs (m_db m) kA))
    (Ready, 1%N, 0%N, Some st1)) as (m & R & E); [vm_compute; reflexivity|].
  destruct (mrun_obs binAt true 0 (storyRun ++ wholeCommit 2 tok4 [entOld2; entNew] ++ [BAcquire 3 tok1b; BNext 3])
    (fun m => (m_procs m 3%nat, d_lock (m_db m), d_files (m_db m) bin0, d_sets (m_db m) bin0, d_cov (m_db m), d_epoch (m_db m), d_sepoch (m_db m)))
    (CLocked tok1b, Some tok1b, [[x01; x02]; [x01; x03]], [entNew], Some [st1], 2%N, 1%N)) as (n & R' & E'); [vm_compute; reflexivity|].
  injection E as E1 E2 E3 E4. injection E' as F1 F2 F3 F4 F5 F6 F7. exists m, n. auto 14.
Qed.

(** The hypotheses of the theorems about the start of ct-fetch: between the death
    of process 0 and the restoration. *)
Example C69_restart_case : exists m n ls,
  mreach binAt true m /\ m_procs m 1%nat = Out /\ d_lock (m_db m) = None /\ inStep (d_epoch (m_db m)) (d_sepoch (m_db m)) = false /\
  mreach binAt true n /\ m_procs n 1%nat = EBehind (d_sepoch (m_db n)) /\ d_cov (m_db n) = Some ls /\ ls <> [].
Proof.
  destruct (mrun_obs binAt true 0 (firstn (length storyRun - 11) storyRun)
    (fun m => (m_procs m 1%nat, d_lock (m_db m), inStep (d_epoch (m_db m)) (d_sepoch (m_db m))))
    (Out, None, false)) as (m & R & E); [vm_compute; reflexivity|].
  destruct (mrun_obs binAt true 0 (firstn (length storyRun - 9) storyRun)
    (fun m => (m_procs m 1%nat, d_sepoch (m_db m), d_cov (m_db m)))
    (EBehind 0, 0%N, Some [st1])) as (n & R' & E'); [vm_compute; reflexivity|].
  injection E as E1 E2 E3. injection E' as F1 F2 F3. exists m, n, [st1].
  split; [exists 0%Z; exact R|]. split; [exact E1|]. split; [exact E2|]. split; [exact E3|]. split; [exists 0%Z; exact R'|].
  split; [rewrite F2; exact F1|]. split; [exact F3|discriminate].
Qed.

(** ** What fails *)

(** A start of ct-fetch that overlaps the end of a commit.  It reads the epochs
    while the commit is between the two, then takes the lock when the commit has
    released it, and sets the cache epoch from the old storage epoch: with no
    process left and the check passed, the epochs are out of step, and every commit
    is refused until ct-fetch is started again. *)
Theorem C69_restart_race_refuted : exists m,
  mreach binAt true m /\ m_procs m 1%nat = Ready /\ (forall i, i <> 1%nat -> m_procs m i = Out) /\ d_lock (m_db m) = None /\
  d_epoch (m_db m) = 1%N /\ d_sepoch (m_db m) = 1%N /\ forall k, commitGuard false k (setLock (m_db m) (Some k)) = inr RefEpochs.
Proof.
  set (l := [BInsert bin0 entOld; BInsert bin0 entNew; BSave kA st1] ++ wholeCommit 0 tok1 [entNew; entOld] ++
     begin 0 tok2 ++ owned 0 (body [entNew] ++ [ANext]) ++ [BNext 1; BNext 1; BNext 1] ++ [BOwn 0 AFinish; BNext 0; BNext 0] ++
     [BTake 1 tok3; BKeys 1; BNext 1; BNext 1; BNext 1; BNext 1; BNext 1; BNext 1]).
  destruct (mexecs binAt true [] l (emptySys 0)) as [m|] eqn:X.
  2:{ exfalso. revert X. vm_compute. discriminate. }
  assert (E : option_map (fun m => (map (m_procs m) (seq 0 10), d_lock (m_db m), d_epoch (m_db m), d_sepoch (m_db m)))
      (mexecs binAt true [] l (emptySys 0)) =
      Some ([Out; Ready; Out; Out; Out; Out; Out; Out; Out; Out], None, 1%N, 1%N)) by (vm_compute; reflexivity).
  rewrite X in E. cbn [option_map] in E. injection E as E0 E1 E2 E3 E4 E5 E6 E7 E8 E9 EL Ee Es.
  exists m. split; [exists 0%Z; eapply mexecs_run; [apply msteps_refl| | |exact X]|].
  - intros u Hu. cbn [emptySys m_db emptyDb d_logs] in Hu. congruence.
  - intros i _. reflexivity.
  - split; [exact E1|]. split; [|split; [exact EL|split; [exact Ee|split; [exact Es|]]]].
    + intros i N. do 10 (destruct i as [|i]; [assumption || congruence|]).
      refine (mexecs_first10 binAt true l [] (emptySys 0) m _ X _ _); [intros j _; reflexivity|lia].
    + intros k. unfold commitGuard. fields. rewrite beq_refl, Ee, Es. reflexivity.
Qed.
Print Assumptions C69_restart_race_refuted.

(** A commit that takes more than four hours: the lock expires, a second commit
    starts, and both move the same bin.  A serial the second has moved is
    overwritten by the first, in cache and storage it is lost. *)
Theorem C69_slow_commit_refuted : exists m b e i j,
  mreach binAt false m /\ In (b, e) (d_inserted (m_db m)) /\ (d_now (m_db m) < binAt b)%Z /\
  ~ In e (d_sets (m_db m) b) /\ ~ In (asSerial e) (d_files (m_db m) b) /\
  i <> j /\ changing (m_procs m i) = true /\ changing (m_procs m j) = true.
Proof.
  destruct (mrun_obs binAt false 0
    ([BInsert bin0 entOld; BInsert bin0 entNew; BSave kA st1] ++
     begin 0 tok1 ++ owned 0 [ALoad kA; AScan; AList [bin0]; ATaskScan 0; ASee 0 entOld; ASee 0 entNew; ACovered 0; AMerge 0] ++
     [BTick (4 * nsHour); BExpireLock; BInsert bin0 entOld2] ++
     begin 1 tok2 ++ owned 1 [ALoad kA; AScan; AList [bin0]; ATaskScan 0; ASee 0 entOld; ASee 0 entNew; ASee 0 entOld2; ACovered 0;
       AMerge 0; AReplace 0; ARemove 0 2] ++ owned 0 [AReplace 0])
    (fun m => (memp (bin0, entOld2) (d_inserted (m_db m)), (d_now (m_db m) <? binAt bin0)%Z,
       memb entOld2 (d_sets (m_db m) bin0), memb (asSerial entOld2) (d_files (m_db m) bin0),
       changing (m_procs m 0%nat), changing (m_procs m 1%nat)))
    (true, true, false, false, true, true)) as (m & R & E); [vm_compute; reflexivity|].
  injection E as E1 E2 E3 E4 E5 E6. exists m, bin0, entOld2, 0%nat, 1%nat.
  split; [exists 0%Z; exact R|]. split; [apply memp_spec; exact E1|]. split; [apply Z.ltb_lt; exact E2|].
  split; [apply memb_false; exact E3|]. split; [apply memb_false; exact E4|]. split; [discriminate|]. split; assumption.
Qed.
Print Assumptions C69_slow_commit_refuted.

(** The release looks at the lock and deletes it in two steps: a process whose lock
    expires in between takes away the lock of the next one, and a third can start
    to commit besides it. *)
Theorem C69_release_refuted : exists m i j,
  mreach binAt false m /\ i <> j /\ changing (m_procs m i) = true /\ changing (m_procs m j) = true /\
  (d_now (m_db m) < m_until m)%Z /\ forall k c, m_procs m i = CRun c -> d_lock (m_db m) = Some k -> cm_tok c <> k.
Proof.
  destruct (mrun_obs binAt false 0
    (begin 0 tok1 ++ [BOwn 0 AAbort; BNext 0] ++ [BTick (4 * nsHour); BExpireLock] ++
     begin 1 tok2 ++ [BNext 0] ++ begin 2 tok3)
    (fun m => (m_procs m 1%nat, changing (m_procs m 2%nat), (d_now (m_db m) <? m_until m)%Z, d_lock (m_db m)))
    (CRun (mkCm tok2 0 (PLoad [])), true, true, Some tok3)) as (m & R & E); [vm_compute; reflexivity|].
  injection E as E1 E2 E3 E4. exists m, 1%nat, 2%nat.
  split; [exists 0%Z; exact R|]. split; [discriminate|]. split; [rewrite E1; reflexivity|]. split; [exact E2|].
  split; [apply Z.ltb_lt; exact E3|]. intros k c Hc Hk. rewrite E1 in Hc. injection Hc as <-. rewrite E4 in Hk. injection Hk as <-. discriminate.
Qed.
Print Assumptions C69_release_refuted.
