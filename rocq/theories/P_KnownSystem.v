(** * aggregate-known beside other processes: C70
    Statements about KnownSystem.v: the run of aggregate-known after its commit,
    while any number of processes insert, commit, die and start ct-fetch. *)
From Verif Require Import Base MerkleModel SerialModel SerialProofs TimeModel StoreModel
  CommitModel CommitProofs CommitProofs2 CommitExec P_Commit
  CommitSystem CommitSystemProofs CommitSystemProofs2 CommitSystemExec P_CommitSystem
  TimeProofs StoreProofs P_Store AggModel KnownModel P_Known FilterModel QueryModel P_Query P_EndToEnd KnownSystem KnownSystemProofs.

(** The log list that a run wrote and the serials it read promise no more than they
    have: an entry that a log state of the list claims, at or before the time up to
    which the list covers that log, is among the serials, if its issuer is in the
    program and its expiry hour has not begun when the run ends.  This holds even if
    the run takes longer than its lock lasts, as long as commits do not. *)
Theorem C70_complete : forall binDate enrolled hold m0 m logs out l b e,
  mreach binDate true m0 -> krun binDate enrolled true hold (m0, KCommitted) (m, KReading logs [] out) ->
  In l logs -> In (b, e) (l_claims l) -> isCovered (newCoverageCutoffMap (map l_log logs)) e = true ->
  enrolled b = true -> (d_now (m_db m) < binDate b)%Z ->
  exists ss, In (b, ss) out /\ In (asSerial e) ss.
Proof.
  intros binDate enrolled hold m0 m logs out l b e [now R0] R Il Ic V E A.
  destruct (kOK_run binDate enrolled hold m0 KCommitted m _ (good_run binDate now m0 R0) I R) as [_ K].
  destruct (K b e (ex_intro _ l (conj Il Ic)) V E A) as [_ [[]|K']]. exact K'.
Qed.
Print Assumptions C70_complete.

(** Whatever it reads are serials that were stored under this bin, and only bins of
    issuers in the program are read, whether or not locks expire under their
    holders. *)
Theorem C70_nothing_else : forall binDate enrolled prompt hold m0 m logs todo out b ss,
  mreach binDate prompt m0 -> krun binDate enrolled prompt hold (m0, KCommitted) (m, KReading logs todo out) -> In (b, ss) out ->
  enrolled b = true /\ forall x, In x ss -> exists e, In (b, e) (d_inserted (m_db m)) /\ asSerial e = x.
Proof.
  intros binDate enrolled prompt hold m0 m logs todo out b ss [now R0] R I.
  destruct (outOK_run binDate enrolled prompt hold now m0 _ m R0 R) as [_ [_ K]].
  rewrite Forall_forall in K. exact (K (b, ss) I).
Qed.
Print Assumptions C70_nothing_else.

(** While the run has the lock (it has finished its commit and has not released),
    everything it reads is of one moment: the log list is the coverage file at the
    end of its commit, each list of serials is the file of that moment, and no
    other process commits or restores. *)
Theorem C70_one_moment : forall binDate enrolled m0 i k m logs todo out,
  mreach binDate true m0 -> m_procs m0 i = Rel k false ->
  krun binDate enrolled true (Some i) (m0, KCommitted) (m, KReading logs todo out) ->
  d_cov (m_db m0) = Some logs /\ (forall b ss, In (b, ss) out -> ss = d_files (m_db m0) b) /\
  d_cov (m_db m) = d_cov (m_db m0) /\ d_files (m_db m) = d_files (m_db m0) /\ d_sepoch (m_db m) = d_sepoch (m_db m0) /\
  d_lock (m_db m) = Some k /\ forall j, changing (m_procs m j) = false.
Proof.
  intros binDate enrolled m0 i k m logs todo out [now R0] P R.
  destruct (sim_run binDate now m0 R0) as (X & _ & _).
  assert (P1 : CommitSystem.holds (m_procs m0 i) = Some k) by (rewrite P; reflexivity).
  assert (P2 : isRun (m_procs m0 i) = false) by (rewrite P; reflexivity).
  destruct (still_run binDate enrolled i k m0 m _ X P1 P2 R) as (X' & E1 & E2 & E3 & E4 & E5 & E6 & E7).
  assert (Hi : CommitSystem.holds (m_procs m i) = Some k) by (rewrite E1, P; reflexivity).
  split; [exact E6|]. split; [exact E7|]. split; [exact E3|]. split; [exact E2|]. split; [exact E4|].
  split; [apply (x_lock _ X' i k Hi)|]. intros j. destruct (changing (m_procs m j)) eqn:C; [|reflexivity]. exfalso.
  assert (N : j <> i). { intros ->. rewrite E1, P in C. discriminate C. }
  apply N. destruct (m_procs m j) eqn:Q; try discriminate C; (eapply (x_one _ X' j i); [rewrite Q; reflexivity|exact Hi]).
Qed.
Print Assumptions C70_one_moment.

(** And while it has the lock it reads every bin in the program that has a file and has
    not expired at the end of the run, to the millisecond; of the bins that had expired
    at its start it reads none. *)
Lemma reads_run binDate enrolled i k m0 m kk b : excl m0 -> CommitSystem.holds (m_procs m0 i) = Some k -> isRun (m_procs m0 i) = false ->
  krun binDate enrolled true (Some i) (m0, KCommitted) (m, kk) ->
  enrolled b = true -> d_files (m_db m0) b <> [] ->
  (d_now (m_db m0) <= d_now (m_db m))%Z /\
  match kk with
  | KListing _ must => In b must
  | KReading _ todo out => (d_now (m_db m) <= binDate b + nsHour - nsMilli)%Z -> In b todo \/ In (b, d_files (m_db m0) b) out
  | _ => True
  end.
Proof.
  intros X Hk Hr R E NE. remember (m0, KCommitted) as x eqn:Ex. remember (m, kk) as y eqn:Ey. revert m kk Ey.
  induction R as [x|x m1 n k1 w R IH S W|x m1 k1 k' R IH M]; intros m kk Ey.
  - subst x. injection Ey as <- <-. split; [lia|exact I].
  - injection Ey as <- <-. destruct (IH Ex m1 k1 eq_refl) as [T K]. pose proof (step_now _ _ _ _ _ S) as T'.
    split; [lia|]. destruct k1; try exact K. intros A. apply K. lia.
  - injection Ey as <- <-. destruct (IH Ex m1 k1 eq_refl) as [T K]. split; [exact T|]. subst x.
    destruct (still_run binDate enrolled i k m0 m1 _ X Hk Hr R) as (_ & _ & F & _).
    destruct M; try exact I.
    + apply H. rewrite F. exact NE.
    + intros _. left. apply filter_In. split; [|exact E]. apply H; [exact K|rewrite F; exact NE].
    + intros A. destruct (K A) as [K1|K1]; [|right; exact K1].
      destruct (in_split_cases _ _ _ _ K1) as [->|K2]; [lia|left; exact K2].
    + intros A. destruct (K A) as [K1|K1]; [|right; apply in_or_app; left; exact K1].
      destruct (in_split_cases _ _ _ _ K1) as [->|K2]; [|left; exact K2]. right. apply in_or_app. right. left. rewrite F. reflexivity.
Qed.

Lemma skips_run binDate enrolled pr hold m0 m kk b :
  krun binDate enrolled pr hold (m0, KCommitted) (m, kk) -> (binDate b + nsHour - nsMilli < d_now (m_db m0))%Z ->
  (d_now (m_db m0) <= d_now (m_db m))%Z /\ match kk with KReading _ _ out => forall ss, ~ In (b, ss) out | _ => True end.
Proof.
  intros R A. remember (m0, KCommitted) as x eqn:Ex. remember (m, kk) as y eqn:Ey. revert m kk Ey.
  induction R as [x|x m1 n k1 w R IH S W|x m1 k1 k' R IH M]; intros m kk Ey.
  - subst x. injection Ey as <- <-. split; [lia|exact I].
  - injection Ey as <- <-. destruct (IH Ex m1 k1 eq_refl) as [T K]. pose proof (step_now _ _ _ _ _ S) as T'. split; [lia|exact K].
  - injection Ey as <- <-. destruct (IH Ex m1 k1 eq_refl) as [T K]. split; [exact T|].
    destruct M; try exact I; try exact K.
    + intros ss [].
    + intros ss J. apply in_app_or in J. destruct J as [J|[J|[]]]; [exact (K ss J)|]. assert (b0 = b) as -> by congruence. lia.
Qed.

Theorem C70_reads_all : forall binDate enrolled m0 i k m logs out b,
  mreach binDate true m0 -> m_procs m0 i = Rel k false ->
  krun binDate enrolled true (Some i) (m0, KCommitted) (m, KReading logs [] out) ->
  (enrolled b = true -> d_files (m_db m0) b <> [] -> (d_now (m_db m) <= binDate b + nsHour - nsMilli)%Z ->
     In (b, d_files (m_db m0) b) out) /\
  ((binDate b + nsHour - nsMilli < d_now (m_db m0))%Z -> forall ss, ~ In (b, ss) out).
Proof.
  intros binDate enrolled m0 i k m logs out b [now R0] P R. destruct (sim_run binDate now m0 R0) as (X & _ & _). split.
  - intros E NE A. assert (P1 : CommitSystem.holds (m_procs m0 i) = Some k) by (rewrite P; reflexivity).
    assert (P2 : isRun (m_procs m0 i) = false) by (rewrite P; reflexivity).
    destruct (reads_run binDate enrolled i k m0 m _ b X P1 P2 R E NE) as [_ K].
    destruct (K A) as [[]|K']. exact K'.
  - intros A. apply (skips_run binDate enrolled true (Some i) m0 m _ b R A).
Qed.
Print Assumptions C70_reads_all.

(** ** With the rest of the pipeline: C51 for any number of processes *)
Section Verdict.
  Variables (sha256 lower : bytes -> bytes) (Cert : Type) (parseCRL : bytes -> option crl) (checkSig : Cert -> bytes -> bool).
  Variables (F : Type) (has : F -> bytes -> bool) (buildCascade : N -> N -> list bytes -> list bytes -> option bytes)
    (buildClubcard : list (bytes * list bytes * N) -> list (bytes * list (bytes * bool)) -> option bytes) (fromBytes : bytes -> res (option F)).
  Variables (contains : F -> bytes -> bytes -> list (bytes * N) -> filterStatus)
    (parseCert : bytes -> option cert) (verify : cert -> bytes -> bool) (sha : bytes -> bytes).
  Variable answers : F -> bytes -> list (bytes * N) -> Prop.
  Notation onCrl := (onCrl sha256 lower Cert parseCRL checkSig).

  (** [m] is the moment at which aggregate-known reads (C70_one_moment). *)
  Theorem C70_verdict : forall m cov lg notAfter entry bins names store inProgram l t0 sk
      js d r d' r' os au j ft st set data (qd : QueryModel.db F) c spki f,
    mreach keyDate true m -> d_cov (m_db m) = Some cov -> In lg cov ->
    In (binKey notAfter (sha spki), entry) (l_claims lg) ->
    isCovered (newCoverageCutoffMap (map l_log cov)) entry = true -> asSerial entry = ct_serial c ->
    (0 <= yearOf notAfter <= 9999)%Z -> (d_now (m_db m) < truncHour notAfter)%Z ->
    onDisk (m_db m) bins names store -> groupByIssuer names = Ok l -> knownRun store inProgram l t0 sk -> (k_now sk < truncHour notAfter)%Z ->
    libraryAnswers F has contains answers -> aggregateCrls sha256 lower Cert parseCRL checkSig js d r = (d', r', os, au) -> NoDup (map j_issuer js) ->
    In j js -> j_issuer j = issuerID (sha spki) -> length (sha spki) = 32%nat -> In (j_issuer j, AgWritten) os ->
    create F has buildCascade buildClubcard fromBytes ft st r' (k_files sk) set = Ok (Some data) ->
    inProgram (issuerID (sha spki)) = true ->
    fromBytes data = Ok (Some f) -> answers f (sha spki) (ct_scts c) -> In f (db_filters F qd) ->
    issuedBy F parseCert verify qd c spki -> ct_valid c = true ->
    (onCrl set j d' (ct_serial c) -> query F contains parseCert verify sha qd c = Revoked) /\
    (~ onCrl set j d' (ct_serial c) -> db_filters F qd = [f] -> query F contains parseCert verify sha qd c = Good).
  Proof using Type.
    intros m cov lg na en bins names store inP l t0 sk js d r d' r' os au j ft st set data qd c spki f
      RE CO IL IC IV AS Y NW OD G KR KN LA A NJ Ij Ej Ld W C IP Pf An If IB V.
    pose proof (C69_coverage_never_outruns_storage keyDate m cov lg (binKey na (sha spki)) en RE CO IL IC IV) as S.
    rewrite keyDate_bin in S by exact Y. specialize (S NW). rewrite AS in S.
    eapply C51_from_storage; eassumption.
  Qed.
End Verdict.
Print Assumptions C70_verdict.

(** ** Runs *)
Lemma mexecs_split binDate enrolled prompt now : forall l1 l2 ks m n,
  msteps binDate prompt (emptySys now) m -> covers (m_db m) ks -> first10 m ->
  mexecs binDate prompt ks (l1 ++ l2) m = Some n ->
  exists o, mexecs binDate prompt ks l1 m = Some o /\ msteps binDate prompt (emptySys now) o /\
    forall x k, krun binDate enrolled prompt None x (o, k) -> krun binDate enrolled prompt None x (n, k).
Proof.
  induction l1 as [|a l1 IH]; intros l2 ks m n R K F H.
  - cbn [app] in H. exists m. split; [reflexivity|]. split; [exact R|]. intros x k X. revert ks m R K F X H.
    induction l2 as [|a l2 IH2]; cbn [mexecs]; intros ks m R K F X H.
    + injection H as <-. exact X.
    + destruct (actor a <? 10)%nat eqn:T; [|discriminate H].
      destruct (mexec binDate prompt ks a m) as [o|] eqn:E; [|discriminate H].
      destruct (mexec_step _ _ ks a m o F (s_all2 _ (sane_run binDate prompt now m R)) K E) as [[w S] K'].
      apply (IH2 (keysOf ks a m) o); [eapply msteps_step; eassumption|exact K'|eapply first10_step; eassumption| |exact H].
      eapply krun_world; [exact X|exact S|discriminate].
  - cbn [app mexecs] in *. destruct (actor a <? 10)%nat eqn:T; [|discriminate H].
    destruct (mexec binDate prompt ks a m) as [o|] eqn:E; [|discriminate H].
    destruct (mexec_step _ _ ks a m o F (s_all2 _ (sane_run binDate prompt now m R)) K E) as [[w S] K'].
    apply (IH l2 (keysOf ks a m) o n); [eapply msteps_step; eassumption|exact K'|eapply first10_step; eassumption|exact H].
Qed.

Definition bin1 : bytes := B "serials::2030-01-01-11::issuer".
Definition binAt2 (b : bytes) : Z := (if beq b bin0 || beq b bin1 then 1000 * nsHour else 0)%Z.
Definition anyBin (b : bytes) : bool := true.
Definition st2 : lstate := mkLst log1 [(bin0, entOld); (bin1, entOld2)].

(** Two bins; process 0 commits and keeps the lock. *)
Definition twoBins : list mact :=
  [BInsert bin0 entOld; BInsert bin1 entOld2; BSave kA st2] ++ begin 0 tok1 ++
  owned 0 ([ALoad kA; AScan; AList [bin0; bin1]] ++ moveBin 0 [entOld] ++ moveBin 1 [entOld2] ++ [ACover; AExpired; ANext; AFinish]).
(** The run is stopped short of its release; its lock expires; a certificate for
    each bin is stored and process 1 commits. *)
Definition later : list mact :=
  [BDie 0; BTick (5 * nsHour); BExpireLock; BInsert bin0 entOld2; BInsert bin1 entOld] ++ begin 1 tok2 ++
  owned 1 ([ALoad kA; AScan; AList [bin0; bin1]] ++ moveBin 0 [entOld2] ++ moveBin 1 [entOld] ++ [ACover; AExpired; ANext; AFinish]) ++
  [BNext 1; BNext 1].

Lemma twoBins_run : exists m n,
  msteps binAt2 true (emptySys 0) m /\ m_procs m 0%nat = Rel tok1 false /\ d_cov (m_db m) = Some [st2] /\
  d_files (m_db m) bin0 = [[x01; x02]] /\ d_files (m_db m) bin1 = [[x01; x03]] /\ d_now (m_db m) = 0%Z /\ m_until m = (4 * nsHour)%Z /\
  (forall b, d_files (m_db m) b <> [] -> In b [bin0; bin1]) /\
  d_files (m_db n) bin0 = [[x01; x02]; [x01; x03]] /\ d_files (m_db n) bin1 = [[x01; x02]; [x01; x03]] /\ d_now (m_db n) = (5 * nsHour)%Z /\
  forall x k, krun binAt2 anyBin true None x (m, k) -> krun binAt2 anyBin true None x (n, k).
Proof.
  destruct (mexecs binAt2 true [] (twoBins ++ later) (emptySys 0)) as [n|] eqn:X.
  2:{ exfalso. revert X. vm_compute. discriminate. }
  destruct (mexecs_split binAt2 anyBin true 0 twoBins later [] (emptySys 0) n) as (m & Y & R & K); [apply msteps_refl| | |exact X|].
  { intros u Hu. cbn [emptySys m_db emptyDb d_logs] in Hu. congruence. }
  { intros i _. reflexivity. }
  assert (E : option_map (fun m => (m_procs m 0%nat, d_cov (m_db m), d_files (m_db m) bin0, d_files (m_db m) bin1, d_now (m_db m), m_until m, d_inserted (m_db m)))
      (mexecs binAt2 true [] twoBins (emptySys 0)) =
      Some (Rel tok1 false, Some [st2], [[x01; x02]], [[x01; x03]], 0%Z, (4 * nsHour)%Z, [(bin1, entOld2); (bin0, entOld)])) by (vm_compute; reflexivity).
  rewrite Y in E. cbn [option_map] in E.
  assert (E' : option_map (fun m => (d_files (m_db m) bin0, d_files (m_db m) bin1, d_now (m_db m)))
      (mexecs binAt2 true [] (twoBins ++ later) (emptySys 0)) =
      Some ([[x01; x02]; [x01; x03]], [[x01; x02]; [x01; x03]], (5 * nsHour)%Z)) by (vm_compute; reflexivity).
  rewrite X in E'. cbn [option_map] in E'.
  injection E as E1 E2 E3 E4 E5 E7 E6. injection E' as F1 F2 F3. exists m, n.
  split; [exact R|]. split; [exact E1|]. split; [exact E2|]. split; [exact E3|]. split; [exact E4|]. split; [exact E5|]. split; [exact E7|].
  split; [|split; [exact F1|split; [exact F2|split; [exact F3|exact K]]]].
  intros b N. destruct (d_files (m_db m) b) as [|x xs] eqn:D; [congruence|].
  destruct (C69_storage_invents_nothing binAt2 true m b x (ex_intro _ 0%Z R)) as (e & I & _); [rewrite D; left; reflexivity|].
  rewrite E6 in I. destruct I as [I|[I|[]]]; injection I as <- _; [right; left; reflexivity|left; reflexivity].
Qed.

(** The hypotheses of the theorems: a run that keeps its lock while ct-fetch stores
    another certificate and an hour passes. *)
Example C70_case : exists m0 m,
  mreach binAt2 true m0 /\ m_procs m0 0%nat = Rel tok1 false /\
  krun binAt2 anyBin true (Some 0%nat) (m0, KCommitted) (m, KReading [st2] [] [(bin1, [[x01; x03]]); (bin0, [[x01; x02]])]) /\
  d_now (m_db m) = nsHour /\ (d_now (m_db m) < binAt2 bin0)%Z /\ In (bin0, entNew) (d_inserted (m_db m)) /\
  In (bin0, entOld) (l_claims st2) /\ isCovered (newCoverageCutoffMap (map l_log [st2])) entOld = true.
Proof.
  destruct twoBins_run as (m & _ & R & E1 & E2 & E3 & E4 & E5 & E7 & E6 & _).
  set (m1 := withDb m (setInserted (setSets (m_db m) (upd (d_sets (m_db m)) bin0 (entNew :: d_sets (m_db m) bin0)))
                                          ((bin0, entNew) :: d_inserted (m_db m)))).
  set (m2 := withDb m1 (setNow (m_db m1) nsHour)).
  assert (F : d_files (m_db m2) = d_files (m_db m) /\ d_files (m_db m1) = d_files (m_db m)) by (split; reflexivity). destruct F as [F2 F1].
  assert (H0 : binAt2 bin0 = (1000 * nsHour)%Z) by reflexivity. assert (H1 : binAt2 bin1 = (1000 * nsHour)%Z) by reflexivity.
  exists m, m2. split; [exists 0%Z; exact R|]. split; [exact E1|]. split.
  { eapply (krun_own _ _ _ _ _ m2 (KReading [st2] ([] ++ [bin0]) [(bin1, [[x01; x03]])])).
    - eapply (krun_world _ _ _ _ _ m1 m2 _ None).
      + eapply (krun_own _ _ _ _ _ m1 (KReading [st2] ([bin0] ++ [bin1]) [])).
        * eapply (krun_world _ _ _ _ _ m m1 _ None); [|apply MInsert|discriminate].
          eapply krun_own; [eapply krun_own; [eapply krun_own; [apply krun_refl|]|]|].
          -- apply KLogs. exact E2.
          -- apply (KList _ _ _ _ [bin0; bin1]). exact E6.
          -- apply (KListed binAt2 anyBin (m_db m) [st2] [bin0; bin1] [bin0; bin1]). intros b I _. exact I.
        * rewrite <- E4, <- F1. apply (KRead _ _ _ _ [bin0] bin1 [] []). rewrite H1. change (d_now (m_db m1)) with (d_now (m_db m)). rewrite E5. discriminate.
      + apply MTick; [change (d_now (m_db m1)) with (d_now (m_db m)); rewrite E5; discriminate|].
        intros _ i k _ _. change (m_until m1) with (m_until m). rewrite E7. reflexivity.
      + discriminate.
    - rewrite <- E3, <- F2. apply (KRead _ _ _ _ [] bin0 [] [(bin1, _)]). rewrite H0. discriminate. }
  split; [reflexivity|]. split; [rewrite H0; reflexivity|]. split; [left; reflexivity|]. split; [left; reflexivity|]. vm_compute. reflexivity.
Qed.

(** A run that takes longer than its lock lasts mixes two commits: one of its lists
    is older than the storage at its end, another newer than its log list and its
    first list.  By C70_complete nothing that the log list promises is missing. *)
Theorem C70_slow_run_refuted : exists m0 m logs out b b',
  mreach binAt2 true m0 /\ m_procs m0 0%nat = Rel tok1 false /\
  krun binAt2 anyBin true None (m0, KCommitted) (m, KReading logs [] out) /\
  In (b, d_files (m_db m0) b) out /\ In (b', d_files (m_db m) b') out /\
  d_files (m_db m) b <> d_files (m_db m0) b /\ d_files (m_db m0) b' <> d_files (m_db m) b'.
Proof.
  destruct twoBins_run as (m & n & R & E1 & E2 & E3 & E4 & E5 & E7 & E6 & F1 & F2 & F3 & K).
  assert (H0 : binAt2 bin0 = (1000 * nsHour)%Z) by reflexivity. assert (H1 : binAt2 bin1 = (1000 * nsHour)%Z) by reflexivity.
  exists m, n, [st2], [(bin0, d_files (m_db m) bin0); (bin1, d_files (m_db n) bin1)], bin0, bin1.
  split; [exists 0%Z; exact R|]. split; [exact E1|]. split.
  { eapply (krun_own _ _ _ _ _ n (KReading [st2] ([] ++ [bin1]) [(bin0, d_files (m_db m) bin0)])).
    - apply K. eapply (krun_own _ _ _ _ _ m (KReading [st2] ([] ++ [bin0; bin1]) [])).
      + eapply krun_own; [eapply krun_own; [eapply krun_own; [apply krun_refl|]|]|].
        * apply KLogs. exact E2.
        * apply (KList _ _ _ _ [bin0; bin1]). exact E6.
        * apply (KListed binAt2 anyBin (m_db m) [st2] [bin0; bin1] [bin0; bin1]). intros b I _. exact I.
      + apply (KRead _ _ _ _ [] bin0 [bin1] []). rewrite H0, E5. discriminate.
    - apply (KRead _ _ _ _ [] bin1 [] [(bin0, _)]). rewrite H1, F3. discriminate. }
  split; [left; reflexivity|]. split; [right; left; reflexivity|]. split; [rewrite E3, F1; discriminate|rewrite E4, F2; discriminate].
Qed.
Print Assumptions C70_slow_run_refuted.
