(** * From the logs and the CRLs to the verdict: C51 *)
From Verif Require Import Base MerkleModel SerialModel SerialProofs TimeModel TimeProofs StoreModel StoreProofs CommitModel CommitProofs CommitExec
  P_Serial P_Commit P_Store AggModel AggProofs P_Agg KnownModel P_Known FilterModel FilterProofs P_Filter QueryModel P_Query.
From Coq Require Import Strings.Byte.

(** The start of the expiry hour named in the key of a bin. *)
Definition keyDate (key : bytes) : Z :=
  match splitColons key with
  | [_; date; _] => match newExpDate date with Some e => ed_date e | None => 0%Z end
  | _ => 0%Z
  end.

Definition binKey (notAfter : Z) (digest : bytes) : bytes := serialKey (expID (newExpDateFromTime notAfter)) (issuerID digest).

(** The bins [bins] (a time in the expiry hour, an issuer digest) are those of the
    serial files in storage: [names] are the file names, [store] the contents, and
    the serials are those of the state [t]. *)
Record onDisk (t : CommitModel.db) (bins : list (Z * bytes)) (names : list bytes) (store : bytes -> option bytes) : Prop := {
  od_names : names = map (fun b => binKey (fst b) (snd b)) bins;
  od_bins : forall n d, In (n, d) bins -> (0 <= n < 2 ^ 63 * nsSecond)%Z /\ (0 <= yearOf n <= 9999)%Z /\ length d = 32%nat;
  od_all : forall key, d_files t key <> [] -> In key names;
  od_store : forall n d, In (n, d) bins ->
    store (serialFile (expID (newExpDateFromTime n)) (issuerID d)) =
      Some (writeSerialList (expUnix (newExpDateFromTime n)) (d_files t (binKey n d)));
  od_sizes : forall key s, In s (d_files t key) -> (N.of_nat (length s) < 32768)%N }.

(** ** The listing of the serial files *)

Lemma keyDate_bin n d : (0 <= yearOf n <= 9999)%Z -> keyDate (binKey n d) = truncHour n.
Proof.
  intros Y. unfold keyDate, binKey. rewrite splitColons_key; [|apply plain_noColon, plain_formatHour|apply issuerID_noColon].
  rewrite (newExpDate_hourID n Y). reflexivity.
Qed.

Lemma listing t bins names store l : onDisk t bins names store -> groupByIssuer names = Ok l ->
  NoDup (map fst l) /\ (forall i dates, In (i, dates) l -> dates <> []) /\
  (forall n d, In (n, d) bins -> exists dates e, In (issuerID d, dates) l /\ In e dates /\
     expID e = expID (newExpDateFromTime n) /\ ed_date e = truncHour n /\ ed_lastGood e = (truncHour n + nsHour - nsMilli)%Z) /\
  (forall i dates x, In (i, dates) l -> In x dates -> (0 <= expUnix x < 2 ^ 63)%Z).
Proof.
  intros [EN EB _ _ _] G.
  set (ps := map (fun b : Z * bytes => [B "serials"; expID (newExpDateFromTime (fst b)); issuerID (snd b)]) bins).
  assert (E : names = map joinColons ps).
  { rewrite EN. unfold ps. rewrite map_map. apply map_ext. intros b. unfold binKey. apply serialKey_join. }
  destruct (C25_grouping ps) as (m & G' & ND & A).
  { intros p Hp. unfold ps in Hp. apply in_map_iff in Hp. destruct Hp as ([n d] & <- & Hb). split; [reflexivity|].
    intros x [<-|[<-|[<-|[]]]]; [exact noColon_serials| |apply issuerID_noColon]. apply plain_noColon, plain_formatHour. }
  rewrite <- E, G in G'. injection G' as <-. split; [exact ND|]. split; [intros i dates I; apply (A i dates); exact I|].
  assert (DO : forall i x, In x (datesOf i ps) <-> exists n d, In (n, d) bins /\ i = issuerID d /\
     x = mkExp (truncHour n) (truncHour n + nsHour - nsMilli) true).
  { intros i x. unfold datesOf. rewrite in_flat_map. split.
    - intros (p & Hp & Hx). unfold ps in Hp. apply in_map_iff in Hp. destruct Hp as ([n d] & <- & Hb). cbn [fst snd entryDate] in Hx.
      destruct (beq_spec (issuerID d) i) as [<-|]; [|destruct Hx]. rewrite newExpDate_hourID in Hx by (apply (EB n d Hb)).
      destruct Hx as [<-|[]]. exists n, d. auto.
    - intros (n & d & Hb & -> & ->). exists [B "serials"; expID (newExpDateFromTime n); issuerID d].
      split; [unfold ps; apply in_map_iff; exists (n, d); auto|]. cbn [entryDate].
      rewrite beq_refl, newExpDate_hourID by (apply (EB n d Hb)). left; reflexivity. }
  split.
  - intros n d Hb. exists (datesOf (issuerID d) ps), (mkExp (truncHour n) (truncHour n + nsHour - nsMilli) true).
    assert (I : In (mkExp (truncHour n) (truncHour n + nsHour - nsMilli) true) (datesOf (issuerID d) ps)) by (apply DO; exists n, d; auto).
    split; [apply A; split; [reflexivity|intros Z; rewrite Z in I; destruct I]|]. split; [exact I|]. split; [reflexivity|]. split; reflexivity.
  - intros i dates x I Ix. apply A in I. destruct I as [-> _]. apply DO in Ix. destruct Ix as (n & d & Hb & _ & ->).
    destruct (EB n d Hb) as [[L H] _]. unfold expUnix. cbn [ed_date].
    assert (T : (0 <= truncHour n <= n)%Z).
    { unfold truncHour. assert (P : (0 < nsHour)%Z) by reflexivity. pose proof (Z.mod_pos_bound n nsHour P). pose proof (Z.mod_le n nsHour L P). lia. }
    assert (0 < nsSecond)%Z by reflexivity. split; [apply Z.div_pos; lia|apply Z.div_lt_upper_bound; lia].
Qed.

Section EndToEnd.
  (** aggregate-crls *)
  Variables (sha256 lower : bytes -> bytes) (Cert : Type) (parseCRL : bytes -> option crl) (checkSig : Cert -> bytes -> bool).
  (** the filter builder *)
  Variables (F : Type) (has : F -> bytes -> bool) (buildCascade : N -> N -> list bytes -> list bytes -> option bytes)
    (buildClubcard : list (bytes * list bytes * N) -> list (bytes * list (bytes * bool)) -> option bytes) (fromBytes : bytes -> res (option F)).
  (** the query tool *)
  Variables (contains : F -> bytes -> bytes -> list (bytes * N) -> filterStatus)
    (parseCert : bytes -> option cert) (verify : cert -> bytes -> bool) (sha : bytes -> bytes).
  (** The certificate is in the range of the filter: its issuer is enrolled and
      one of its timestamps is covered. *)
  Variable answers : F -> bytes -> list (bytes * N) -> Prop.

  (** What is assumed of the filter library: within its range it answers by the
      membership test that the builder checks. *)
  Definition libraryAnswers : Prop := forall f i s scts, answers f i scts ->
    contains f i s scts = (if has f (i ++ s) then FRevoked else FGood).

  (** Some CRL of the job lists the serial with a selected reason. *)
  Definition onCrl (set : reasonSet) (j : job Cert) (d : disk) (s : bytes) : Prop :=
    exists ue l code, In ue (j_urls j) /\ hasCrl sha256 lower Cert parseCRL checkSig j d (fst ue) l /\ In (s, code) l /\ selected set (code mod 256).

  (** A run of aggregate-known on [store] that ended well. *)
  Definition knownRun (store : bytes -> option bytes) (inProgram : bytes -> bool) (l : list (bytes * list expDate)) (t0 : Z) (s : kst) : Prop :=
    exists q threads f0, NoDup (map fst l) /\ (forall i dates, In (i, dates) l -> dates <> []) /\
      makeQueue inProgram l = Ok q /\ (0 < threads)%nat /\ ksteps store (kinit threads q f0 t0) s /\
      kended s /\ kok s = true /\ k_lost s = false.

  Lemma alookup_found {A} (k : bytes) (l : list (bytes * A)) v : alookup k l = Some v -> In (k, v) l.
  Proof using Type.
    induction l as [|[k' v'] l IH]; cbn [alookup]; [discriminate|]. destruct (beq_spec k k') as [->|N].
    - intros H. injection H as ->. left; reflexivity.
    - intros H. right. apply IH. exact H.
  Qed.

  Lemma hasCrl_unique j d u l l' : hasCrl sha256 lower Cert parseCRL checkSig j d u l -> hasCrl sha256 lower Cert parseCRL checkSig j d u l' -> l = l'.
  Proof using Type.
    intros [f [c [A [P [_ E]]]]] [f' [c' [A' [P' [_ E']]]]]. rewrite A in A'. injection A' as <-. rewrite P in P'. injection P' as <-.
    apply (proj2 (C30_entries_exact c l)) in E. apply (proj2 (C30_entries_exact c l')) in E'. congruence.
  Qed.

  (** The published filter: for a certificate known in storage, of an issuer in
      the program whose CRLs were all obtained, the answer is its being on one of
      these CRLs with a selected reason. *)
  Theorem C51_filter : forall store inProgram l t0 sk js d r d' r' os au j t st set data digest dates e ss s,
    knownRun store inProgram l t0 sk ->
    aggregateCrls sha256 lower Cert parseCRL checkSig js d r = (d', r', os, au) -> NoDup (map j_issuer js) ->
    In j js -> j_issuer j = issuerID digest -> length digest = 32%nat -> In (j_issuer j, AgWritten) os ->
    create F has buildCascade buildClubcard fromBytes t st r' (k_files sk) set = Ok (Some data) ->
    In (issuerID digest, dates) l -> inProgram (issuerID digest) = true -> (forall x, In x dates -> (0 <= expUnix x < 2 ^ 63)%Z) ->
    In e dates -> isExpiredAt e (k_now sk) = false -> readBin store (issuerID digest) e = Ok ss -> In s ss ->
    exists f, fromBytes data = Ok (Some f) /\ (has f (digest ++ s) = true <-> onCrl set j d' s).
  Proof using Type.
    intros store inP l t0 sk js d r d' r' os au j t st set data digest dates e ss s
      [q [th [f0 [ND [NE [MQ [TH [K [KE [KO KL]]]]]]]]]] A NJ Ij Ej Ld W C Il IP U Ie X R Is.
    destruct (C31_known_files store inP l q th f0 t0 sk ND NE MQ TH K KE KO KL) as [KF _].
    destruct (KF _ _ Il IP) as [kd [Lk H]].
    destruct (C31_read_by_the_builder store _ _ _ _ _ H U) as [kn [RK [_ Kc]]].
    destruct (Kc e Ie X) as [ss' [R' Kin]]. rewrite R in R'. injection R' as <-. specialize (Kin s Is).
    destruct (written_file sha256 lower Cert parseCRL checkSig js d r d' r' os au A NJ j Ij W) as [cs [Lr FC]].
    destruct (C38_written_filter_is_checked F has buildCascade buildClubcard fromBytes t st r' (k_files sk) set data C) as [f [Pf Q]].
    exists f. split; [exact Pf|].
    destruct (Q (issuerID digest) kd (alookup_found _ _ _ Lk)) as [i [rv [kn' [D [RR [RK' Qs]]]]]].
    rewrite (decode_issuer_ok digest Ld) in D. injection D as <-. rewrite RK in RK'. injection RK' as <-.
    destruct (Qs _ _ Kin) as [b [Hb Qb]]. rewrite hexDecode_encode in Hb. injection Hb as <-.
    rewrite <- Ej in RR. rewrite Lr in RR. cbn [readRevoked] in RR.
    destruct (C39_reads_what_was_written set (concat cs)) as [out [RO Ro]]. rewrite RO in RR. injection RR as <-.
    rewrite Qb, Ro. clear -FC. split.
    - intros [code [I S]]. apply in_concat in I. destruct I as [x [Ix I]].
      assert (G : exists ue, In ue (j_urls j) /\ hasCrl sha256 lower Cert parseCRL checkSig j d' (fst ue) x).
      { clear -FC Ix. induction FC as [|ue x0 us xs P FC IH]; [destruct Ix|]. destruct Ix as [->|Ix].
        - exists ue. split; [left; reflexivity|exact P].
        - destruct (IH Ix) as [ue0 [J P0]]. exists ue0. split; [right; exact J|exact P0]. }
      destruct G as [ue [J P]]. exists ue, x, code. auto.
    - intros [ue [x [code [J [P [I S]]]]]]. exists code. split; [|exact S].
      assert (G : exists y, In y cs /\ hasCrl sha256 lower Cert parseCRL checkSig j d' (fst ue) y).
      { clear -FC J. induction FC as [|ue0 y us ys P FC IH]; [destruct J|]. destruct J as [->|J].
        - exists y. split; [left; reflexivity|exact P].
        - destruct (IH J) as [y0 [I0 P0]]. exists y0. split; [right; exact I0|exact P0]. }
      destruct G as [y [Iy Py]]. rewrite (hasCrl_unique j d' (fst ue) x y P Py) in I. apply in_concat. exists y. auto.
  Qed.

  (** The verdict of the query tool on such a certificate, in a database with this
      filter: revoked if it is on a CRL; good if it is on none and this filter is
      the only one. *)
  Theorem C51_verdict : forall store inProgram l t0 sk js d r d' r' os au j t st set data dates e ss (qd : QueryModel.db F) c spki f,
    libraryAnswers -> knownRun store inProgram l t0 sk ->
    aggregateCrls sha256 lower Cert parseCRL checkSig js d r = (d', r', os, au) -> NoDup (map j_issuer js) ->
    In j js -> j_issuer j = issuerID (sha spki) -> length (sha spki) = 32%nat -> In (j_issuer j, AgWritten) os ->
    create F has buildCascade buildClubcard fromBytes t st r' (k_files sk) set = Ok (Some data) ->
    In (issuerID (sha spki), dates) l -> inProgram (issuerID (sha spki)) = true -> (forall x, In x dates -> (0 <= expUnix x < 2 ^ 63)%Z) ->
    In e dates -> isExpiredAt e (k_now sk) = false -> readBin store (issuerID (sha spki)) e = Ok ss -> In (ct_serial c) ss ->
    fromBytes data = Ok (Some f) -> answers f (sha spki) (ct_scts c) -> In f (db_filters F qd) ->
    issuedBy F parseCert verify qd c spki -> ct_valid c = true ->
    (onCrl set j d' (ct_serial c) -> query F contains parseCert verify sha qd c = Revoked) /\
    (~ onCrl set j d' (ct_serial c) -> db_filters F qd = [f] -> query F contains parseCert verify sha qd c = Good).
  Proof using Type.
    intros store inP l t0 sk js d r d' r' os au j t st set data dates e ss qd c spki f LA KR A NJ Ij Ej Ld W C Il IP U Ie X R Is Pf An If IB V.
    destruct (C51_filter store inP l t0 sk js d r d' r' os au j t st set data (sha spki) dates e ss (ct_serial c)
                KR A NJ Ij Ej Ld W C Il IP U Ie X R Is) as [f' [Pf' Q]]. rewrite Pf in Pf'. injection Pf' as <-.
    pose proof (LA f (sha spki) (ct_serial c) (ct_scts c) An) as L.
    destruct (C40_verdict F contains parseCert verify sha qd c) as [VR [VG _]]. split.
    - intros O. apply VR. exists spki. split; [exact IB|]. split; [exact V|]. apply Exists_exists. exists f. split; [exact If|].
      unfold P_Query.says. rewrite L. rewrite (proj2 Q O). reflexivity.
    - intros N E. apply VG. exists spki. split; [exact IB|]. split; [exact V|].
      destruct (has f (sha spki ++ ct_serial c)) eqn:H; [destruct (N (proj1 Q eq_refl))|].
      rewrite E. split.
      + intros Y. inversion Y as [g fs Y1|g fs Y1]; subst; [|inversion Y1]. unfold P_Query.says in Y1. congruence.
      + left. exact L.
  Qed.

  (** From a serial in storage to the verdict. *)
  Theorem C51_from_storage : forall t notAfter bins names store inProgram l t0 sk
      js d r d' r' os au j ft st set data (qd : QueryModel.db F) c spki f,
    In (ct_serial c) (d_files t (binKey notAfter (sha spki))) -> (0 <= yearOf notAfter <= 9999)%Z ->
    onDisk t bins names store -> groupByIssuer names = Ok l -> knownRun store inProgram l t0 sk -> (k_now sk < truncHour notAfter)%Z ->
    libraryAnswers -> aggregateCrls sha256 lower Cert parseCRL checkSig js d r = (d', r', os, au) -> NoDup (map j_issuer js) ->
    In j js -> j_issuer j = issuerID (sha spki) -> length (sha spki) = 32%nat -> In (j_issuer j, AgWritten) os ->
    create F has buildCascade buildClubcard fromBytes ft st r' (k_files sk) set = Ok (Some data) ->
    inProgram (issuerID (sha spki)) = true ->
    fromBytes data = Ok (Some f) -> answers f (sha spki) (ct_scts c) -> In f (db_filters F qd) ->
    issuedBy F parseCert verify qd c spki -> ct_valid c = true ->
    (onCrl set j d' (ct_serial c) -> query F contains parseCert verify sha qd c = Revoked) /\
    (~ onCrl set j d' (ct_serial c) -> db_filters F qd = [f] -> query F contains parseCert verify sha qd c = Good).
  Proof using Type.
    intros t na bins names store inP l t0 sk js d r d' r' os au j ft st set data qd c spki f
      S Y OD G KR KN LA A NJ Ij Ej Ld W C IP Pf An If IB V.
    destruct (listing t bins names store l OD G) as [_ [_ [LB LU]]].
    assert (IN : In (binKey na (sha spki)) names).
    { apply (od_all _ _ _ _ OD). intros E. rewrite E in S. destruct S. }
    rewrite (od_names _ _ _ _ OD) in IN. apply in_map_iff in IN. destruct IN as [[n dg] [EK Ib]]. cbn [fst snd] in EK.
    destruct (od_bins _ _ _ _ OD n dg Ib) as [_ [Yn Ln]].
    assert (BI : forall m, binID (expID (newExpDateFromTime m))) by (intros m; exists (truncHour m); left; reflexivity).
    destruct (C26_keys_injective _ _ _ _ (BI n) (BI na) Ln Ld (or_introl EK)) as [_ DG].
    destruct (LB n dg Ib) as (dates & e & Il & Ie & E1 & E2 & E3).
    assert (TH : truncHour n = truncHour na).
    { rewrite <- (keyDate_bin n dg Yn), <- (keyDate_bin na (sha spki) Y). f_equal. exact EK. }
    subst dg.
    eapply (C51_verdict store inP l t0 sk js d r d' r' os au j ft st set data dates e (d_files t (binKey n (sha spki))) qd c spki f); try eassumption.
    - intros x Ix. apply (LU _ _ x Il Ix).
    - unfold isExpiredAt. apply Z.ltb_ge. rewrite E3, TH. assert (P : (0 < nsHour - nsMilli)%Z) by reflexivity. lia.
    - unfold readBin. rewrite E1. rewrite (od_store _ _ _ _ OD n (sha spki) Ib).
      replace (expUnix e) with (expUnix (newExpDateFromTime n)) by (unfold expUnix; rewrite E2; reflexivity).
      apply C16_go_roundtrip. apply (od_sizes _ _ _ _ OD).
    - rewrite EK. exact S.
  Qed.

  (** From the coverage file to the verdict.  [t] is any state the installation
      can be in, with concurrent fetchers and commits that died (C18), without
      loss of the cache; [cov] its coverage file.  A certificate entry that the
      coverage file claims to cover, not yet in its expiry hour, whose issuer is
      in the program and has all its CRLs: the query tool reports it revoked when
      it is on one of the CRLs. *)
  Theorem C51_from_coverage : forall readOnly t cov lg notAfter entry bins names store inProgram l t0 sk
      js d r d' r' os au j ft st set data (qd : QueryModel.db F) c spki f,
    reachable keyDate readOnly true false t -> d_cov t = Some cov -> In lg cov ->
    In (binKey notAfter (sha spki), entry) (l_claims lg) ->
    isCovered (newCoverageCutoffMap (map l_log cov)) entry = true -> asSerial entry = ct_serial c ->
    (0 <= yearOf notAfter <= 9999)%Z -> (d_now t < truncHour notAfter)%Z ->
    onDisk t bins names store -> groupByIssuer names = Ok l -> knownRun store inProgram l t0 sk -> (k_now sk < truncHour notAfter)%Z ->
    libraryAnswers -> aggregateCrls sha256 lower Cert parseCRL checkSig js d r = (d', r', os, au) -> NoDup (map j_issuer js) ->
    In j js -> j_issuer j = issuerID (sha spki) -> length (sha spki) = 32%nat -> In (j_issuer j, AgWritten) os ->
    create F has buildCascade buildClubcard fromBytes ft st r' (k_files sk) set = Ok (Some data) ->
    inProgram (issuerID (sha spki)) = true ->
    fromBytes data = Ok (Some f) -> answers f (sha spki) (ct_scts c) -> In f (db_filters F qd) ->
    issuedBy F parseCert verify qd c spki -> ct_valid c = true ->
    (onCrl set j d' (ct_serial c) -> query F contains parseCert verify sha qd c = Revoked) /\
    (~ onCrl set j d' (ct_serial c) -> db_filters F qd = [f] -> query F contains parseCert verify sha qd c = Good).
  Proof using Type.
    intros ro t cov lg na en bins names store inP l t0 sk js d r d' r' os au j ft st set data qd c spki f
      RE CO IL IC IV AS Y NW OD G KR KN LA A NJ Ij Ej Ld W C IP Pf An If IB V.
    pose proof (C18_coverage_never_outruns_storage keyDate ro t cov lg (binKey na (sha spki)) en RE CO IL IC IV) as S.
    rewrite keyDate_bin in S by exact Y. specialize (S NW). rewrite AS in S. eapply C51_from_storage; eassumption.
  Qed.
End EndToEnd.
Print Assumptions C51_filter.
Print Assumptions C51_verdict.
Print Assumptions C51_from_storage.
Print Assumptions C51_from_coverage.

(** ** The hypotheses can be met *)

(** An issuer with key "K"; two of its certificates, serials "a" and "b", both
    expiring in hour 500000; one log that covers both.  "a" is on the CRL. *)
Definition eNA : Z := (500000 * nsHour + 17 * nsSecond)%Z.
Definition eDig : bytes := xHash (B "K").
Definition eBin : bytes := binKey eNA eDig.
Definition eA : bytes := newMember 5000 idL (B "a").
Definition eB : bytes := newMember 6000 idL (B "b").
Definition eLog : lstate := mkLst log1 [(eBin, eA); (eBin, eB)].
Definition eRun : list act :=
  [AInsert eBin eA; AInsert eBin eB; ASave kA eLog; AAcquire tok1; AStart tok1; ALoad kA; AScan; AList [eBin]] ++
  moveBin 0 [eB; eA] ++ [ACover; AExpired; ANext; AFinish; AUnlock].
Definition eStore (path : bytes) : option bytes :=
  if beq path (serialFile (expID (newExpDateFromTime eNA)) (issuerID eDig))
  then Some (writeSerialList (expUnix (newExpDateFromTime eNA)) [B "a"; B "b"]) else None.
Definition eIn (i : bytes) : bool := beq i (issuerID eDig).
Definition eJob : job byte := xJob (issuerID eDig) "K" [(xI1, xServe (B "C1aK"))].
Definition eContains (f : list bytes) (i s : bytes) (scts : list (bytes * N)) : filterStatus :=
  match scts with [] => FNotCovered | _ => if toyHas f (i ++ s) then FRevoked else FGood end.
Definition eDb : QueryModel.db (list bytes) := QueryModel.mkDb _ [[eDig ++ B "a"]] (fromEnrolled qParse (fun p => Some p) [B "iK"]).
Definition eQuery (s : bytes) : status :=
  query (list bytes) eContains qParse qVerify xHash eDb (qLeaf s (B "K") true [(B "log", 5%N)]).

Definition eDisk : disk := fst (fst (fst (xRun [eJob] [] []))).

Lemma eKnown : exists s,
  knownRun eStore eIn [(issuerID eDig, [mkExp (500000 * nsHour) (500000 * nsHour + nsHour - nsMilli) true])] (400000 * nsHour) s /\
  k_now s = (400000 * nsHour)%Z /\
  k_files s = [(issuerID eDig, writeSerialList (expUnix (newExpDateFromTime eNA)) [B "a"; B "b"])].
Proof.
  set (t := (400000 * nsHour)%Z). set (e := mkExp (500000 * nsHour) (500000 * nsHour + nsHour - nsMilli) true).
  set (u := mkUnit (issuerID eDig) [e]).
  eexists. split; [|split].
  - exists [u], 1%nat, []. split; [constructor; [intros []|constructor]|]. split; [intros i dates [H|[]]; injection H as <- <-; discriminate|].
    split; [vm_compute; reflexivity|]. split; [lia|]. split.
    + eapply KS_step; [eapply KS_step; [eapply KS_step; [eapply KS_step; [eapply KS_step; [apply KS_refl|]|]|]|]|].
      * apply (K_mkdir eStore [u] [] []).
      * apply (K_open eStore u [] [] []).
      * apply (K_bin eStore [] u [] e [] [] [B "a"; B "b"] [] []); vm_compute; reflexivity.
      * apply (K_finish eStore [] u [e] ([] ++ writeSerialList (expUnix e) [B "a"; B "b"]) [] [] false).
      * apply (K_closed eStore [] []).
    + split; [split; [reflexivity|repeat constructor]|]. split; reflexivity.
  - reflexivity.
  - vm_compute. reflexivity.
Qed.

Example C51_example : eQuery (B "a") = Revoked /\ eQuery (B "b") = Good.
Proof.
  destruct (run_obs keyDate true false 0 eRun
    (fun t => (d_cov t, d_files t eBin, d_inserted t, d_now t))
    (Some [eLog], [B "a"; B "b"], [(eBin, eB); (eBin, eA)], 0%Z)) as (t & R & E); [vm_compute; reflexivity|].
  injection E as E1 E2 E3 E4. destruct eKnown as (sk & KR & KN & KF).
  assert (OD : onDisk t [(eNA, eDig)] [eBin] eStore).
  { constructor.
    - reflexivity.
    - intros n d [H|[]]. injection H as <- <-. split; [split; [discriminate|reflexivity]|]. split; [vm_compute; split; discriminate|reflexivity].
    - intros key N. destruct (d_files t key) as [|x xs] eqn:X; [congruence|].
      destruct (C18_storage_invents_nothing keyDate false true false t key x R) as [e [I _]]; [rewrite X; left; reflexivity|].
      rewrite E3 in I. destruct I as [I|[I|[]]]; injection I as <- _; left; reflexivity.
    - intros n d [H|[]]. injection H as <- <-. unfold eStore. rewrite beq_refl. change (binKey eNA eDig) with eBin. rewrite E2. reflexivity.
    - intros key s I. destruct (C18_storage_invents_nothing keyDate false true false t key s R I) as [e [J <-]].
      rewrite E3 in J. destruct J as [J|[J|[]]]; injection J as _ <-; reflexivity. }
  assert (G : groupByIssuer [eBin] = Ok [(issuerID eDig, [mkExp (500000 * nsHour) (500000 * nsHour + nsHour - nsMilli) true])]) by (vm_compute; reflexivity).
  assert (LA : libraryAnswers (list bytes) toyHas eContains (fun _ _ scts => scts <> [])).
  { intros f i s scts H. unfold eContains. destruct scts; [congruence|reflexivity]. }
  assert (IB : forall s, issuedBy (list bytes) qParse qVerify eDb (qLeaf s (B "K") true [(B "log", 5%N)]) (B "K")).
  { intros s. exists [], (B "iK"), [], (mkCert (B "CA") (B "root") [] (B "K") true []). split; [vm_compute; reflexivity|]. split; [reflexivity|]. split; [reflexivity|]. split; [reflexivity|]. intros x i []. }
  assert (H : forall entry s, In (eBin, entry) (l_claims eLog) -> isCovered (newCoverageCutoffMap (map l_log [eLog])) entry = true -> asSerial entry = s ->
    (onCrl xHash (fun s => s) byte xParse xSig RAll eJob eDisk s -> eQuery s = Revoked) /\
    (~ onCrl xHash (fun s => s) byte xParse xSig RAll eJob eDisk s -> db_filters _ eDb = [[eDig ++ B "a"]] -> eQuery s = Good)).
  { intros entry s I V S.
    refine (C51_from_coverage xHash (fun s => s) byte xParse xSig (list bytes) toyHas toyCascade toyClubcard toyFromBytes eContains qParse qVerify xHash
      (fun _ _ scts => scts <> []) false t [eLog] eLog eNA entry [(eNA, eDig)] [eBin] eStore eIn _ (400000 * nsHour) sk
      [eJob] [] [] eDisk (snd (fst (fst (xRun [eJob] [] [])))) (snd (fst (xRun [eJob] [] []))) (snd (xRun [eJob] [] []))
      eJob Clubcard (mkStats 0 0 []) RAll (eDig ++ B "a") eDb (qLeaf s (B "K") true [(B "log", 5%N)]) (B "K") [eDig ++ B "a"]
      R E1 (or_introl eq_refl) I V S _ _ OD G KR _ LA _ _ (or_introl eq_refl) eq_refl eq_refl _ _ _ _ _ (or_introl eq_refl) (IB s) eq_refl).
    - vm_compute; split; discriminate.
    - rewrite E4. reflexivity.
    - rewrite KN. reflexivity.
    - unfold eDisk, xRun. destruct (aggregateCrls xHash (fun s0 => s0) byte xParse xSig [eJob] [] []) as [[[d' r'] os] au]. reflexivity.
    - constructor; [intros []|constructor].
    - vm_compute. left; reflexivity.
    - rewrite KF. vm_compute. reflexivity.
    - vm_compute. reflexivity.
    - vm_compute. reflexivity.
    - discriminate. }
  split.
  - apply (proj1 (H eA (B "a") (or_introl eq_refl) eq_refl eq_refl)).
    exists (xI1, xServe (B "C1aK")), [(B "a", 0%N)], 0%N. split; [left; reflexivity|].
    split; [|split; [left; reflexivity|exact I]].
    exists (mkFile (B "C1aK") 10), (mkCrl 49 (Some [mkEntry (B "a") []])).
    split; [vm_compute; reflexivity|]. split; [vm_compute; reflexivity|]. split; [reflexivity|]. apply C30_entries_exact. vm_compute. reflexivity.
  - apply (proj2 (H eB (B "b") (or_intror (or_introl eq_refl)) eq_refl eq_refl)); [|reflexivity].
    intros (ue & l & code & [<-|[]] & (f & c & L & P & _ & EA) & I & _).
    vm_compute in L. injection L as <-. vm_compute in P. injection P as <-. apply (proj2 (C30_entries_exact _ _)) in EA. vm_compute in EA.
    injection EA as <-. destruct I as [I|[]]. discriminate I.
Qed.
