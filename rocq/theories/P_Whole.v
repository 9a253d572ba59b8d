(** * C51 with all workers and processes *)
From Verif Require Import Base MerkleModel SerialModel SerialProofs TimeModel TimeProofs StoreModel StoreProofs CommitModel CommitProofs CommitExec
  P_Serial P_Commit P_Store AggModel AggProofs P_Agg KnownModel P_Known FilterModel FilterProofs P_Filter QueryModel P_Query
  CommitSystem CommitSystemProofs CommitSystemExec KnownSystem KnownSystemProofs P_CommitSystem P_EndToEnd P_KnownSystem AggSystem P_AggSystem.
From Coq Require Import Strings.Byte Permutation.

Section Whole.
  Variables (sha256 lower : bytes -> bytes) (Cert : Type) (parseCRL : bytes -> option crl) (checkSig : Cert -> bytes -> bool).
  Variables (F : Type) (has : F -> bytes -> bool) (buildCascade : N -> N -> list bytes -> list bytes -> option bytes)
    (buildClubcard : list (bytes * list bytes * N) -> list (bytes * list (bytes * bool)) -> option bytes) (fromBytes : bytes -> res (option F)).
  Variables (contains : F -> bytes -> bytes -> list (bytes * N) -> filterStatus)
    (parseCert : bytes -> option cert) (verify : cert -> bytes -> bool) (sha : bytes -> bytes).
  Variable answers : F -> bytes -> list (bytes * N) -> Prop.
  Variable allowedFetch : task Cert -> url -> fetchEnv -> Prop.
  Variable allowedProc : task Cert -> url -> procEnv -> Prop.
  Local Notation runs := (runs sha256 lower Cert parseCRL checkSig allowedFetch allowedProc).
  Local Notation onCrl := (onCrl sha256 lower Cert parseCRL checkSig).
  Local Notation keeps := (keeps sha256 lower Cert parseCRL checkSig).
  Local Notation create := (create F has buildCascade buildClubcard fromBytes).

  (** A CRL signed by the issuer, kept for one of its URLs, lists the serial with a
      selected reason. *)
  Definition listed (set : reasonSet) (t : task Cert) (d : disk) (s : bytes) : Prop :=
    exists u l code, In u (t_urls Cert t) /\ keeps t d u l /\ In (s, code) l /\ selected set (code mod 256).

  (** The builder looks revocation files up by name. *)
  Lemma create_lookup ft st r r' known set : (forall i, alookup i r = alookup i r') -> create ft st r known set = create ft st r' known set.
  Proof using Type.
    intros E. assert (P : filePairs r known = filePairs r' known) by (unfold filePairs; apply map_ext; intros k; rewrite E; reflexivity).
    unfold FilterModel.create, createCascade, createClubcard, cascadeIncludes, cascadeExcludes, clubcardApprox, clubcardExact, checkAll. rewrite !P. reflexivity.
  Qed.

  (** From the coverage at the moment at which aggregate-known reads, in a system of any
      number of processes, and from a run of the workers of aggregate-crls in any order, to
      the verdict: a certificate that is covered, of an issuer for which the run has
      written a file of revocations, is reported as its issuer's CRLs have it. *)
  Theorem C51_all_processes : forall m cov lg notAfter entry bins names store inProgram l t0 sk
      n ts d r s t file ft st set data (qd : QueryModel.db F) c spki f,
    mreach keyDate true m -> d_cov (m_db m) = Some cov -> In lg cov ->
    In (binKey notAfter (sha spki), entry) (l_claims lg) ->
    isCovered (newCoverageCutoffMap (map l_log cov)) entry = true -> asSerial entry = ct_serial c ->
    (0 <= yearOf notAfter <= 9999)%Z -> (d_now (m_db m) < truncHour notAfter)%Z ->
    onDisk (m_db m) bins names store -> groupByIssuer names = Ok l -> knownRun store inProgram l t0 sk -> (k_now sk < truncHour notAfter)%Z ->
    goodQueue Cert ts -> (0 < n)%nat -> runs (init Cert n ts d r) s -> s_phase Cert s = Ended 0 -> s_cancelled Cert s = false ->
    In t ts -> t_issuer Cert t = issuerID (sha spki) -> length (sha spki) = 32%nat ->
    alookup (t_issuer Cert t) r = None -> alookup (t_issuer Cert t) (s_rev Cert s) = Some file ->
    libraryAnswers F has contains answers ->
    create ft st (s_rev Cert s) (k_files sk) set = Ok (Some data) ->
    inProgram (issuerID (sha spki)) = true ->
    fromBytes data = Ok (Some f) -> answers f (sha spki) (ct_scts c) -> In f (db_filters F qd) ->
    issuedBy F parseCert verify qd c spki -> ct_valid c = true ->
    (listed set t (s_disk Cert s) (ct_serial c) -> query F contains parseCert verify sha qd c = Revoked) /\
    (~ listed set t (s_disk Cert s) (ct_serial c) -> db_filters F qd = [f] -> query F contains parseCert verify sha qd c = Good).
  Proof using Type.
    intros m cov lg na en bins names store inP l t0 sk n ts d r s t file ft st set data qd c spki f
      RE CO IL IC IV AS Y NW OD G KR KN GQ NP RU PH CA It Et Ld R0 R1 LA C IP Pf An If IB V.
    destruct (C68_one_after_the_other sha256 lower Cert parseCRL checkSig allowedFetch allowedProc n ts d r s GQ NP RU PH CA) as (js & d' & r' & os & au & TS & A & D & Rv & _ & OK & _).
    assert (NJ : NoDup (map j_issuer js)).
    { replace (map j_issuer js) with (map (t_issuer Cert) ts); [apply (proj1 GQ)|]. rewrite <- TS, map_map. reflexivity. }
    rewrite <- TS in It. apply in_map_iff in It. destruct It as [j [<- Ij]]. cbn [t_issuer queued] in *.
    assert (W : In (j_issuer j, AgWritten) os).
    { assert (DEC : forall a b : bytes * aggOutcome, {a = b} + {a <> b}) by (decide equality; [decide equality|apply bytes_eq_dec]).
      destruct (in_dec DEC (j_issuer j, AgWritten) os) as [I|N]; [exact I|]. exfalso.
      assert (X : alookup (j_issuer j) r' = alookup (j_issuer j) r).
      { apply (C29_otherwise_untouched sha256 lower Cert parseCRL checkSig js d r d' r' os au A NJ); [exact N|]. intros I. destruct (OK _ _ I); discriminate. }
      rewrite <- Rv, R1, R0 in X. discriminate X. }
    rewrite (create_lookup ft st _ r' (k_files sk) set Rv) in C.
    assert (ON : onCrl set j d' (ct_serial c) <-> listed set (queued Cert j) (s_disk Cert s) (ct_serial c)).
    { unfold P_EndToEnd.onCrl, listed, P_AggSystem.keeps, hasCrl. cbn [t_urls t_issuer t_cert queued]. split.
      - intros (ue & x & code & I & (g & cr & L & K) & H). exists (fst ue), x, code. split; [apply in_map; exact I|]. split; [|exact H]. exists g, cr. rewrite D. split; assumption.
      - intros (u & x & code & I & (g & cr & L & K) & H). apply in_map_iff in I. destruct I as [ue [<- I]]. exists ue, x, code. split; [exact I|]. split; [|exact H]. exists g, cr. rewrite <- D. split; assumption. }
    destruct (C70_verdict sha256 lower Cert parseCRL checkSig F has buildCascade buildClubcard fromBytes contains parseCert verify sha answers
      m cov lg na en bins names store inP l t0 sk js d r d' r' os au j ft st set data qd c spki f
      RE CO IL IC IV AS Y NW OD G KR KN LA A NJ Ij Et Ld W C IP Pf An If IB V) as [V1 V2].
    split; [intros L; apply V1, ON, L|intros N E; apply V2; [|exact E]; intros L; apply N, ON, L].
  Qed.
End Whole.
Print Assumptions C51_all_processes.

(** ** The hypotheses can be met *)

(** The certificates of P_EndToEnd.v, committed by process 0 of a system of several; then
    a worker of aggregate-crls fetches the CRL that lists "a". *)
Definition wTask : task byte := xTask (issuerID eDig) "K" [xI1].

Lemma wRun : exists s, xRuns (init byte 1 [wTask] [] []) s /\ s_phase byte s = Ended 0 /\ s_cancelled byte s = false /\
  alookup (issuerID eDig) (s_rev byte s) = Some (B "0061" ++ [nl]) /\
  s_disk byte s = [(crlPath xHash (fun s => s) (issuerID eDig) xI1, mkFile (B "C1aK") 10)].
Proof.
  unfold wTask. set (i := issuerID eDig). vm_compute in i. subst i. eexists. split.
  { tidy. fetchTask (@nil (fworker byte)) (@nil (fworker byte)) (xServe (B "C1aK")).
    eapply xRuns_cons; [eapply (StLeave _ _ _ _ _ _ _ _ [] []); reflexivity|]; tidy.
    eapply xRuns_cons; [eapply StFetched; [reflexivity|constructor; [reflexivity|constructor]|reflexivity]|]; tidy.
    aggTake (@nil (aworker byte)) (@nil (aworker byte)). aggCrl (@nil (aworker byte)) (@nil (aworker byte)). aggOpen (@nil (aworker byte)) (@nil (aworker byte)).
    match goal with |- xRuns (mkSt _ _ _ _ _ _ [ABusy _ (mkA _ ?t ?dn ?pes (AWrite ?c ?k))] _ _ _ _ _ _ _) _ =>
      eapply xRuns_cons; [eapply (StAgg _ _ _ _ _ _ _ _ [] []); [reflexivity|reflexivity|apply (AmWrite _ _ _ _ _ t dn pes c k (length c)); vm_compute; lia]|]; tidy;
      eapply xRuns_cons; [eapply (StAgg _ _ _ _ _ _ _ _ [] []); [reflexivity|reflexivity|apply AmWritten]|]; tidy;
      eapply xRuns_cons; [eapply (StALeave _ _ _ _ _ _ _ _ [] []); reflexivity|]; tidy end.
    eapply xRuns_cons; [eapply StSave; [reflexivity|constructor; [reflexivity|constructor]]|]; tidy.
    apply RunsRefl. }
  vm_compute. repeat split.
Qed.

Definition wRunCommit : list mact :=
  [BInsert eBin eA; BInsert eBin eB; BSave kA eLog] ++ begin 0 tok1 ++
  owned 0 ([ALoad kA; AScan; AList [eBin]] ++ moveBin 0 [eB; eA] ++ [ACover; AExpired; ANext; AFinish]).

Lemma wCommit : exists m, mreach keyDate true m /\
  d_cov (m_db m) = Some [eLog] /\ d_files (m_db m) eBin = [B "a"; B "b"] /\ d_inserted (m_db m) = [(eBin, eB); (eBin, eA)] /\ d_now (m_db m) = 0%Z.
Proof.
  assert (E : option_map (fun m => (d_cov (m_db m), d_files (m_db m) eBin, d_inserted (m_db m), d_now (m_db m))) (mexecs keyDate true [] wRunCommit (emptySys 0)) =
    Some (Some [eLog], [B "a"; B "b"], [(eBin, eB); (eBin, eA)], 0%Z)) by (vm_compute; reflexivity).
  destruct (mexecs keyDate true [] (wRunCommit ++ []) (emptySys 0)) as [n|] eqn:X.
  2:{ exfalso. rewrite app_nil_r in X. rewrite X in E. discriminate E. }
  destruct (mexecs_split keyDate (fun _ => true) true 0 wRunCommit [] [] (emptySys 0) n) as (m & Y & R & _); [apply msteps_refl| | |exact X|].
  { intros u Hu. cbn [emptySys m_db emptyDb d_logs] in Hu. congruence. }
  { intros i _. reflexivity. }
  rewrite Y in E. cbn [option_map] in E. injection E as E1 E2 E3 E4. exists m. split; [exists 0%Z; exact R|]. repeat (split; [assumption|]). assumption.
Qed.

Example C51_all_processes_example : eQuery (B "a") = Revoked /\ eQuery (B "b") = Good.
Proof.
  destruct wCommit as (m & R & E1 & E2 & E3 & E4). destruct eKnown as (sk & KR & KN & KF). destruct wRun as (s0 & RU & PH & CA & RV & DK).
  assert (OD : onDisk (m_db m) [(eNA, eDig)] [eBin] eStore).
  { constructor.
    - reflexivity.
    - intros n d [H|[]]. injection H as <- <-. split; [split; [discriminate|reflexivity]|]. split; [vm_compute; split; discriminate|reflexivity].
    - intros key N. destruct (d_files (m_db m) key) as [|x xs] eqn:X; [congruence|].
      destruct (C69_storage_invents_nothing keyDate true m key x R) as [e [I _]]; [rewrite X; left; reflexivity|].
      rewrite E3 in I. destruct I as [I|[I|[]]]; injection I as <- _; left; reflexivity.
    - intros n d [H|[]]. injection H as <- <-. unfold eStore. rewrite beq_refl. change (binKey eNA eDig) with eBin. rewrite E2. reflexivity.
    - intros key s I. destruct (C69_storage_invents_nothing keyDate true m key s R I) as [e [J <-]].
      rewrite E3 in J. destruct J as [J|[J|[]]]; injection J as _ <-; reflexivity. }
  assert (G : groupByIssuer [eBin] = Ok [(issuerID eDig, [mkExp (500000 * nsHour) (500000 * nsHour + nsHour - nsMilli) true])]) by (vm_compute; reflexivity).
  assert (LA : libraryAnswers (list bytes) toyHas eContains (fun _ _ scts => scts <> [])).
  { intros f i s scts H. unfold eContains. destruct scts; [congruence|reflexivity]. }
  assert (IB : forall s, issuedBy (list bytes) qParse qVerify eDb (qLeaf s (B "K") true [(B "log", 5%N)]) (B "K")).
  { intros s. exists [], (B "iK"), [], (mkCert (B "CA") (B "root") [] (B "K") true []). split; [vm_compute; reflexivity|]. split; [reflexivity|]. split; [reflexivity|]. split; [reflexivity|]. intros x i []. }
  assert (GQ : goodQueue byte [wTask]).
  { split; [constructor; [intros []|constructor]|]. intros t [<-|[]] X. vm_compute in X. repeat (destruct X as [X|X]; [discriminate X|]). destruct X. }
  assert (C : create (list bytes) toyHas toyCascade toyClubcard toyFromBytes Clubcard (mkStats 0 0 []) (s_rev byte s0) (k_files sk) RAll = Ok (Some (eDig ++ B "a"))).
  { rewrite KF. unfold create, createClubcard, cascadeExcludes, clubcardApprox, clubcardExact, checkAll, filePairs. cbn [map fst snd]. rewrite RV. vm_compute. reflexivity. }
  assert (H : forall entry s, In (eBin, entry) (l_claims eLog) -> isCovered (newCoverageCutoffMap (map l_log [eLog])) entry = true -> asSerial entry = s ->
    (listed xHash (fun s => s) byte xParse xSig RAll wTask (s_disk byte s0) s -> eQuery s = Revoked) /\
    (~ listed xHash (fun s => s) byte xParse xSig RAll wTask (s_disk byte s0) s -> db_filters _ eDb = [[eDig ++ B "a"]] -> eQuery s = Good)).
  { intros entry s I V Es.
    refine (C51_all_processes xHash (fun s => s) byte xParse xSig (list bytes) toyHas toyCascade toyClubcard toyFromBytes eContains qParse qVerify xHash
      (fun _ _ scts => scts <> []) xFree xFree m [eLog] eLog eNA entry [(eNA, eDig)] [eBin] eStore eIn _ (400000 * nsHour) sk
      1%nat [wTask] [] [] s0 wTask (B "0061" ++ [nl]) Clubcard (mkStats 0 0 []) RAll (eDig ++ B "a") eDb (qLeaf s (B "K") true [(B "log", 5%N)]) (B "K") [eDig ++ B "a"]
      R E1 (or_introl eq_refl) I V Es _ _ OD G KR _ GQ _ RU PH CA (or_introl eq_refl) eq_refl eq_refl eq_refl RV LA C _ _ _ (or_introl eq_refl) (IB s) eq_refl).
    - vm_compute; split; discriminate.
    - rewrite E4. reflexivity.
    - rewrite KN. reflexivity.
    - lia.
    - vm_compute. reflexivity.
    - vm_compute. reflexivity.
    - discriminate. }
  split.
  - apply (proj1 (H eA (B "a") (or_introl eq_refl) eq_refl eq_refl)).
    exists xI1, [(B "a", 0%N)], 0%N. split; [left; reflexivity|]. split; [|split; [left; reflexivity|exact I]].
    exists (mkFile (B "C1aK") 10), (mkCrl 49 (Some [mkEntry (B "a") []])). rewrite DK.
    split; [vm_compute; reflexivity|]. split; [vm_compute; reflexivity|]. split; [reflexivity|]. apply C30_entries_exact. vm_compute. reflexivity.
  - apply (proj2 (H eB (B "b") (or_intror (or_introl eq_refl)) eq_refl eq_refl)); [|reflexivity].
    intros (u & l & code & [<-|[]] & (f & c & L & P & _ & EA) & I & _).
    rewrite DK in L. vm_compute in L. injection L as <-. vm_compute in P. injection P as <-. apply (proj2 (C30_entries_exact _ _)) in EA. vm_compute in EA.
    injection EA as <-. destruct I as [I|[]]. discriminate I.
Qed.
