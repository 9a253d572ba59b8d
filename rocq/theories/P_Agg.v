(** * Downloading and aggregating CRLs: C28 to C30, C53, C55, C56 *)
From Verif Require Import Base MerkleModel SerialModel SerialProofs P_SerialFile StoreModel AggModel AggProofs.
From Coq Require Import Strings.Byte.

(** ** C28 *)

(** A file that passes verification. *)
Definition verified (valid : bytes -> bool) (o : option file) : Prop :=
  exists f, o = Some f /\ valid (f_data f) = true.

(** Whatever the network and the file system do, and at whichever moment one
    looks (every intermediate state is in [trace]): the file at the final path
    is the previous one or one that passes verification.  Success is reported
    only for a verified file; a reported error means the file is unchanged; the
    temporary file is gone at the end unless it could not be removed. *)
Theorem C28_final_file_safe : forall valid n e s,
  let '(trace, s', ok, err, au) := downloadAndVerify valid n e s in
  (forall x, In x trace -> fs_final x = fs_final s \/ verified valid (fs_final x)) /\
  In s' trace /\
  (ok = true -> verified valid (fs_final s')) /\
  (err = true -> fs_final s' = fs_final s) /\
  (ok = false -> err = true /\ (verified valid (fs_final s') -> dv_finalReadErr e = true)) /\
  (dv_removeErr e = false -> fs_tmp s' = None).
Proof.
  intros valid n e s. pose proof (dv_spec valid n e s) as H.
  destruct (downloadAndVerify valid n e s) as [[[[trace s'] ok] err] au].
  destruct H as [H1 [H2 [H3 [H4 [H5 [H6 _]]]]]]. repeat (split; [assumption|]). assumption.
Qed.
Print Assumptions C28_final_file_safe.

(** Any number of downloads to the same path, each of them stopped anywhere. *)
Inductive history (valid : bytes -> bool) (s : fs) : fs -> Prop :=
| HRefl : history valid s s
| HStep : forall s1 n e trace s2 ok err au x,
    history valid s s1 -> downloadAndVerify valid n e s1 = (trace, s2, ok, err, au) -> In x trace ->
    history valid s x.

Theorem C28_history : forall valid s s', history valid s s' ->
  (fs_final s' = fs_final s \/ verified valid (fs_final s')) /\
  (verified valid (fs_final s) -> verified valid (fs_final s')).
Proof.
  intros valid s s' H. induction H as [|s1 n e trace s2 ok err au x H [IH1 IH2] E I]; [auto|].
  pose proof (C28_final_file_safe valid n e s1) as F. rewrite E in F. destruct F as [F _].
  destruct (F x I) as [F1|F1]; [rewrite F1; auto|auto].
Qed.
Print Assumptions C28_history.

(** The server gives a valid file: it gets installed, if no temporary file was
    left behind. *)
Theorem C28_honest_download : forall valid n e s env chunks lm,
  replaces env (fs_tmp s) -> dv_attempts e 0%nat = (false, env) -> de_get env = GResp 200 chunks false lm ->
  de_openErr env = false -> de_cancelled env = false ->
  dv_tmpReadErr e = false -> dv_renameErr e = false -> valid (concat chunks) = true ->
  exists trace s' f, downloadAndVerify valid n e s = (trace, s', true, false, []) /\
    fs_final s' = Some f /\ f_data f = concat chunks /\ fs_tmp s' = None.
Proof. exact dv_honest. Qed.
Print Assumptions C28_honest_download.

(** Whatever state a crash left, after one more run, however it ends, such a
    download succeeds. *)
Theorem C28_recovery : forall valid n e1 s1 n2 e env chunks lm,
  dv_removeErr e1 = false ->
  dv_attempts e 0%nat = (false, env) -> de_get env = GResp 200 chunks false lm ->
  de_openErr env = false -> de_cancelled env = false ->
  dv_tmpReadErr e = false -> dv_renameErr e = false -> valid (concat chunks) = true ->
  let '(_, s2, _, _, _) := downloadAndVerify valid n e1 s1 in
  exists trace s' f, downloadAndVerify valid n2 e s2 = (trace, s', true, false, []) /\
    fs_final s' = Some f /\ f_data f = concat chunks.
Proof.
  intros valid n e1 s1 n2 e env chunks lm R A1 A2 A3 A4 A5 A6 V.
  pose proof (C28_final_file_safe valid n e1 s1) as F.
  destruct (downloadAndVerify valid n e1 s1) as [[[[tr s2] ok] err] au].
  destruct F as [_ [_ [_ [_ [_ T]]]]].
  destruct (dv_honest valid n2 e s2 env chunks lm ltac:(rewrite (T R); apply replaces_none) A1 A2 A3 A4 A5 A6 V) as [t [s' [f [E [F [D _]]]]]].
  exists t, s', f. auto.
Qed.
Print Assumptions C28_recovery.

(** The server answers HEAD and GET with the given body. *)
Definition serve (body : list bytes) : dlEnv :=
  mkDl false (Some (mkHead (Some 10%Z) (Some (Z.of_nat (length (concat body)))) true))
    (GResp 200 body false (Some 10%Z)) false false false 50%Z.
Definition serveDv (body : list bytes) : dvEnv := mkDv (fun _ => (false, serve body)) false false false false.
Definition startsC (b : bytes) : bool := match b with c :: _ => Byte.eqb c "C" | [] => false end.

(** Good body installed; bad body refused and the old file kept; a leftover
    temporary file of the same size hides the good body once, then it works. *)
Example C28_example :
  let old := Some (mkFile (B "Cold") 3%Z) in
  (let '(_, s, ok, err, _) := downloadAndVerify startsC 3 (serveDv [B "Cn"; B "ew"]) (mkFS None old) in
   (ok, err, fs_final s) = (true, false, Some (mkFile (B "Cnew") 10%Z))) /\
  (let '(_, s, ok, err, au) := downloadAndVerify startsC 3 (serveDv [B "bad"]) (mkFS None old) in
   (ok, err, s, au) = (true, true, mkFS None old, [AuFailedVerifyUrl])) /\
  (let '(_, s, ok, err, _) := downloadAndVerify startsC 3 (serveDv [B "Cn"; B "ew"]) (mkFS (Some (mkFile (B "junk") 11%Z)) old) in
   (ok, err, s) = (true, true, mkFS None old)) /\
  (let '(_, s, ok, err, au) := downloadAndVerify startsC 3 (serveDv [B "bad"]) (mkFS None None) in
   (ok, err, s) = (false, true, mkFS None None)).
Proof. vm_compute. auto. Qed.

(** ** Entries of a CRL *)

(** The reason of an entry: 0 without a reason extension; with exactly one that
    decodes to a number from 0 to 255, that number; otherwise none. *)
Definition reasonIs (e : crlEntry) (r : N) : Prop :=
  let reasons := filter (fun x => fst x) (ce_exts e) in
  (reasons = [] /\ r = 0%N) \/
  (exists b v, reasons = [(b, Some v)] /\ (0 <= v <= 255)%Z /\ r = Z.to_N v).

(** The serials and reasons in a CRL, in order. *)
Definition entriesAre (c : crl) (l : list (bytes * N)) : Prop :=
  exists es, crl_entries c = Some es /\ Forall2 (fun e s => fst s = ce_serial e /\ reasonIs e (snd s)) es l.

Lemma reasonOf_reasonIs e r : (exists z, reasonOf e = Some z /\ r = Z.to_N z) <-> reasonIs e r.
Proof.
  unfold reasonOf, reasonIs. rewrite reasonLoop_spec.
  change (fun x : bool * option Z => fst x) with isReasonExt. cbv zeta.
  destruct (filter isReasonExt (ce_exts e)) as [|[b [v|]] [|y l]].
  - split; [intros [z [H1 H2]]; injection H1 as <-; left; auto|].
    intros [[_ ->]|[b [v [H _]]]]; [|discriminate]. exists 0%Z. auto.
  - destruct ((v <? 0) || (255 <? v))%Z eqn:E.
    + split; [intros [z [H _]]; discriminate|]. intros [[H _]|[b' [v' [H1 [H2 _]]]]]; [discriminate|].
      injection H1 as _ <-. lia.
    + split; [intros [z [H1 H2]]; injection H1 as <-; right; exists b, v; split; [reflexivity|split; [lia|exact H2]]|].
      intros [[H _]|[b' [v' [H1 [H2 H3]]]]]; [discriminate|]. injection H1 as _ <-. exists v. auto.
  - split; [intros [z [H _]]; discriminate|]. intros [[H _]|[b' [v' [H _]]]]; discriminate.
  - split; [intros [z [H _]]; discriminate|]. intros [[H _]|[b' [v' [H _]]]]; discriminate.
  - split; [intros [z [H _]]; discriminate|]. intros [[H _]|[b' [v' [H _]]]]; discriminate.
Qed.

Lemma serialAndReason_iff e s : serialAndReason e = Some s <-> fst s = ce_serial e /\ reasonIs e (snd s).
Proof.
  rewrite <- reasonOf_reasonIs. unfold serialAndReason. destruct s as [k n]. cbn [fst snd].
  destruct (reasonOf e) as [z|] eqn:E.
  - apply reasonOf_range in E. rewrite Z.mod_small by lia. split.
    + intros H. injection H as <- <-. split; [reflexivity|]. exists z. auto.
    + intros [-> [z' [H ->]]]. injection H as <-. reflexivity.
  - split; [discriminate|]. intros [_ [z [H _]]]. discriminate.
Qed.

Lemma allSerials_iff : forall es l, allSerials es = Some l <->
  Forall2 (fun e s => fst s = ce_serial e /\ reasonIs e (snd s)) es l.
Proof.
  induction es as [|e es IH]; intros l; cbn [allSerials].
  - split; [intros H; injection H as <-; constructor|]. intros H; inversion H; reflexivity.
  - split.
    + destruct (serialAndReason e) as [s|] eqn:S; [|discriminate]. destruct (allSerials es) as [r|] eqn:R; [|discriminate].
      intros H. injection H as <-. constructor; [apply serialAndReason_iff; exact S|]. apply IH. reflexivity.
    + intros H. inversion H as [|x s xs r S R E1 E2]; subst. apply serialAndReason_iff in S. rewrite S.
      apply (proj2 (IH r)) in R. rewrite R. reflexivity.
Qed.

(** ** C30 *)

(** A CRL is taken as a whole or not at all: processing succeeds exactly if
    every entry has a well-defined reason, and then gives them all in order. *)
Theorem C30_entries_exact : forall c l, processCRL c = Some l <-> entriesAre c l.
Proof.
  intros c l. unfold processCRL, entriesAre. destruct (crl_entries c) as [es|].
  - rewrite allSerials_iff. split; [intros H; exists es; auto|]. intros [es' [E H]]. injection E as <-. exact H.
  - split; [discriminate|]. intros [es [E _]]. discriminate.
Qed.
Print Assumptions C30_entries_exact.

Example C30_entries_example :
  let plain := mkEntry (B "a") [] in
  let coded := mkEntry (B "b") [(false, None); (true, Some 4%Z)] in
  let twice := mkEntry (B "c") [(true, Some 4%Z); (true, Some 4%Z)] in
  let large := mkEntry (B "d") [(true, Some 256%Z)] in
  processCRL (mkCrl 0 (Some [plain; coded])) = Some [(B "a", 0%N); (B "b", 4%N)] /\
  processCRL (mkCrl 0 (Some [plain; twice])) = None /\
  processCRL (mkCrl 0 (Some [large; plain])) = None.
Proof. vm_compute. auto. Qed.

(** Two CRLs for one URL: whatever happens while fetching, a path is returned
    only if the file there is a CRL whose signature verifies, and a stored CRL
    that verifies is never lost. *)
Theorem C30_path_holds_signed_crl :
  forall sha256 lower (Cert : Type) parseCRL checkSig (cert : Cert) issuer e u d,
  let '(d', p, au) := fetchOne sha256 lower Cert parseCRL checkSig cert issuer e u d in
  let path := crlPath sha256 lower issuer u in
  let signed d := exists f c, alookup path d = Some f /\ parseCRL (f_data f) = Some c /\ checkSig cert (f_data f) = true in
  (forall q, p = Some q -> q = path /\ signed d') /\
  (signed d -> signed d') /\
  (forall q, q <> path -> q <> tmpOf path -> alookup q d' = alookup q d).
Proof.
  intros sha256 lower Cert parseCRL checkSig cert issuer e u d.
  pose proof (fetchOne_good sha256 lower Cert parseCRL checkSig cert issuer e u d) as G.
  pose proof (fetchOne_keeps sha256 lower Cert parseCRL checkSig cert issuer e u d) as K.
  pose proof (fetchOne_frame sha256 lower Cert parseCRL checkSig cert issuer e u d) as F.
  destruct (fetchOne sha256 lower Cert parseCRL checkSig cert issuer e u d) as [[d' p] au]. cbn [fst] in *.
  cbv zeta. split; [|split].
  - intros q ->. destruct (G d' q au eq_refl) as [-> [f [L V]]]. split; [reflexivity|].
    apply crlValid_iff in V. destruct V as [c [V1 V2]]. exists f, c. auto.
  - intros [f [c [L [V1 V2]]]]. destruct K as [f' [L' V']].
    + exists f. split; [exact L|]. apply crlValid_iff. exists c. auto.
    + apply crlValid_iff in V'. destruct V' as [c' [W1 W2]]. exists f', c'. auto.
  - exact F.
Qed.
Print Assumptions C30_path_holds_signed_crl.

(** Instances for the examples: a "hash", a parser for texts "C<time><serials>",
    a signature that names the signer in the last byte. *)
Definition xHash (b : bytes) : bytes := firstn 32 (b ++ repeat "x"%byte 32).
Definition xParse (b : bytes) : option crl :=
  match b with
  | c :: t :: l =>
      if Byte.eqb c "C" then
        Some (mkCrl (Z.of_N (Byte.to_N t)) (Some (map (fun s => mkEntry [s] []) (removelast l))))
      else None
  | _ => None
  end.
Definition xSig (cert : byte) (b : bytes) : bool := Byte.eqb cert (last b "000"%byte).
Definition xUrl (n : bytes) : url := mkUrl (B "crl.test") n [] (B "http://crl.test/" ++ n).
Definition xServe (body : bytes) : fetchEnv := mkFetch false false (serveDv [body]) false 60%Z.

(** Replaying an older CRL with a valid signature replaces the newer one: the
    only check of thisUpdate in the source (verifyCRL, aggregate-crls.go:254-284)
    is not called by the program. *)
Theorem C30_older_crl_refuted : exists d d' f f' c c' au,
  let path := crlPath xHash (fun s => s) (B "I") (xUrl (B "a")) in
  fetchOne xHash (fun s => s) byte xParse xSig "K"%byte (B "I") (xServe (B "C1pK")) (xUrl (B "a")) d = (d', Some path, au) /\
  alookup path d = Some f /\ xParse (f_data f) = Some c /\ xSig "K" (f_data f) = true /\
  alookup path d' = Some f' /\ xParse (f_data f') = Some c' /\
  (crl_thisUpdate c' < crl_thisUpdate c)%Z /\
  (exists e, crl_entries c = Some e /\ In "q"%byte (flat_map ce_serial e)) /\
  (exists e, crl_entries c' = Some e /\ ~ In "q"%byte (flat_map ce_serial e)).
Proof.
  exists [(crlPath xHash (fun s => s) (B "I") (xUrl (B "a")), mkFile (B "C2pqK") 20%Z)].
  eexists _, _, _, _, _, _. vm_compute.
  split; [reflexivity|]. split; [reflexivity|]. split; [reflexivity|]. split; [reflexivity|].
  split; [reflexivity|]. split; [reflexivity|]. split; [reflexivity|].
  split; eexists; split; try reflexivity; vm_compute; [auto|].
  intros [H|[]]. discriminate.
Qed.
Print Assumptions C30_older_crl_refuted.

(** ** C29 *)

Section C29.
  Variables (sha256 lower : bytes -> bytes) (Cert : Type)
    (parseCRL : bytes -> option crl) (checkSig : Cert -> bytes -> bool).
  Local Notation aggregateCrls := (aggregateCrls sha256 lower Cert parseCRL checkSig).
  Local Notation crlPath := (crlPath sha256 lower).
  Local Notation job := (job Cert).

  (** The file kept for the URL is a CRL with a good signature and entries [l]. *)
  Definition hasCrl (j : job) (d : disk) (u : url) (l : list (bytes * N)) : Prop :=
    exists f c, alookup (crlPath (j_issuer j) u) d = Some f /\ parseCRL (f_data f) = Some c /\
      checkSig (j_cert j) (f_data f) = true /\ entriesAre c l.

  (** A revocation file with these entries: a line for each, the reason code and then the
      serial in hexadecimal ([spells], P_SerialFile.v). *)
  Definition readsAs (data : bytes) (l : list (bytes * N)) : Prop :=
    exists ts, data = flat_map (fun t => t ++ [nl]) ts /\
      Forall2 (fun s t => exists b, Byte.to_N b = (snd s mod 256)%N /\ spells (b :: fst s) t) l ts.

  Lemma revokedFile_reads l : readsAs (revokedFile l) l.
  Proof using Type.
    exists (map (fun s => hexEncode (byteOf (snd s) :: fst s)) l). split.
    - unfold revokedFile. induction l as [|[s c] l IH]; [reflexivity|]. cbn [flat_map map]. rewrite IH. reflexivity.
    - induction l as [|[s c] l IH]; cbn [map]; constructor; [|exact IH]. exists (byteOf c). cbn [fst snd].
      split; [apply to_N_byteOf|apply spells_decode, hexDecode_encode].
  Qed.

  Lemma run_split js d r d' r' os au : aggregateCrls js d r = (d', r', os, au) ->
    (os = [] /\ r' = r /\ exists au1, fetchJobs sha256 lower Cert parseCRL checkSig js d = (d', None, au1)) \/
    exists ls au1 au2, fetchJobs sha256 lower Cert parseCRL checkSig js d = (d', Some ls, au1) /\
      aggregateJobs Cert parseCRL checkSig ls d' r = (r', os, au2) /\ au = au1 ++ au2.
  Proof using Type.
    unfold AggModel.aggregateCrls. destruct (fetchJobs sha256 lower Cert parseCRL checkSig js d) as [[d1 [ls|]] au1] eqn:F.
    - destruct (aggregateJobs Cert parseCRL checkSig ls d1 r) as [[r1 os1] au2] eqn:A. intros H. injection H as <- <- <- <-. right.
      exists ls, au1, au2. auto.
    - intros H. injection H as <- <- <- _. left. split; [reflexivity|split; [reflexivity|]]. exists au1. reflexivity.
  Qed.

  Lemma jobCrls (j : job) d' (l : list (url * option bytes)) cs : map fst l = map fst (j_urls j) ->
    (forall u p, In (u, Some p) l -> p = crlPath (j_issuer j) u) ->
    Forall2 (contributes Cert parseCRL checkSig (j_cert j) d') (map snd l) cs ->
    Forall2 (fun ue l => hasCrl j d' (fst ue) l) (j_urls j) cs.
  Proof using Type.
    intros U Q C.
    assert (X : Forall2 (fun u l0 => hasCrl j d' u l0) (map fst (j_urls j)) cs).
    { rewrite <- U. clear -C Q. revert cs C Q. induction l as [|[u p] l IH]; intros cs C Q; inversion C as [|a b c0 d0 C1 C2 E1 E2]; subst; constructor.
      - destruct C1 as [path [f [c [E [L [V R]]]]]]. cbn [snd fst] in *. subst p.
        rewrite (Q u path (or_introl eq_refl)) in L. apply loadCRL_inv in V. destruct V as [V1 V2].
        exists f, c. split; [exact L|]. split; [exact V1|]. split; [exact V2|]. apply C30_entries_exact. exact R.
      - apply IH; [exact C2|]. intros u0 p0 I0. apply Q. right; exact I0. }
    clear -X. revert cs X. generalize (j_urls j) as us. induction us as [|x us IH]; intros cs X; inversion X; subst; constructor; auto.
  Qed.

  Lemma written_file : forall js d r d' r' os au,
    aggregateCrls js d r = (d', r', os, au) -> NoDup (map j_issuer js) ->
    forall j, In j js -> In (j_issuer j, AgWritten) os ->
    exists ls, alookup (j_issuer j) r' = Some (revokedFile (concat ls)) /\
      Forall2 (fun ue l => hasCrl j d' (fst ue) l) (j_urls j) ls.
  Proof using Type.
    intros js d r d' r' os au H ND j I O. apply run_split in H.
    destruct H as [[-> _]|[ls [au1 [au2 [F [A _]]]]]]; [destruct O|].
    destruct (fetchJobs_spec _ _ _ _ _ _ _ _ _ _ F) as [M P].
    assert (J : exists l, In (j, l) ls).
    { rewrite <- M in I. apply in_map_iff in I. destruct I as [[j0 l] [E I]]. cbn in E. subst j0. exists l; exact I. }
    destruct J as [l J]. destruct (P j l J) as [U Q].
    assert (N : NoDup (map (fun x => j_issuer (fst x)) ls)).
    { rewrite <- (map_map fst j_issuer). rewrite M. exact ND. }
    pose proof (aggregateJobs_spec _ _ _ _ _ _ _ _ _ A N j l AgWritten J O) as W. cbn [outcomeMeans] in W.
    destruct W as [cs [C L]]. exists cs. split; [exact L|]. apply (jobCrls j d' l cs U Q C).
  Qed.

  (** A revocation file is written for an issuer only if every one of its URLs
      has a CRL with a good signature, and it then holds exactly the entries of
      these CRLs. *)
  Theorem C29_written_is_complete : forall js d r d' r' os au,
    aggregateCrls js d r = (d', r', os, au) -> NoDup (map j_issuer js) ->
    forall j, In j js -> In (j_issuer j, AgWritten) os ->
    exists ls data, alookup (j_issuer j) r' = Some data /\ readsAs data (concat ls) /\
      Forall2 (fun ue l => hasCrl j d' (fst ue) l) (j_urls j) ls.
  Proof using Type.
    intros js d r d' r' os au H ND j I O. destruct (written_file js d r d' r' os au H ND j I O) as [ls [A F]].
    exists ls, (revokedFile (concat ls)). split; [exact A|]. split; [apply revokedFile_reads|exact F].
  Qed.

  Lemma aggregateJobs_absent : forall js d r r1 os au i,
    aggregateJobs Cert parseCRL checkSig js d r = (r1, os, au) -> ~ In i (map fst os) -> alookup i r1 = alookup i r.
  Proof using Type.
    induction js as [|[j l] js IH]; intros d r r1 os au i H N; cbn [AggModel.aggregateJobs] in H.
    - injection H as <- _ _. reflexivity.
    - pose proof (aggregateOne_frame Cert parseCRL checkSig (j_cert j) (j_partitioned j) (j_issuer j) d (withProc l (j_proc j)) (j_storeErr j) r i) as FR.
      destruct (aggregateOne _ _ _ _ _ _ _ _ _ _) as [[r2 o2] au2]. cbn [fst] in FR.
      assert (X : j_issuer j <> i -> alookup i r2 = alookup i r) by (intros; apply FR; congruence).
      destruct o2.
      1,2,3: destruct (aggregateJobs _ _ _ js d r2) as [[r3 os3] au3] eqn:E; injection H as <- <- _;
        rewrite (IH _ _ _ _ _ _ E) by (intros I; apply N; right; exact I);
        apply X; intros Y; apply N; left; exact Y.
      injection H as <- <- _. apply X. intros Y. apply N. left; exact Y.
  Qed.

  (** In every other case the file of the issuer is as it was before, unless the
      process died while writing it (the outcome is then a fatal error). *)
  Theorem C29_otherwise_untouched : forall js d r d' r' os au,
    aggregateCrls js d r = (d', r', os, au) -> NoDup (map j_issuer js) ->
    forall i, ~ In (i, AgWritten) os -> ~ In (i, AgFatal) os -> alookup i r' = alookup i r.
  Proof using Type.
    intros js d r d' r' os au H ND i N1 N2. apply run_split in H.
    destruct H as [[_ [-> _]]|[ls [au1 [au2 [F [A _]]]]]]; [reflexivity|].
    destruct (in_dec bytes_eq_dec i (map fst os)) as [I|I]; [|apply (aggregateJobs_absent _ _ _ _ _ _ _ A I)].
    apply in_map_iff in I. destruct I as [[i0 o] [E I]]. cbn in E. subst i0.
    pose proof (aggregateJobs_issuers _ _ _ _ _ _ _ _ _ A i o I) as J. apply in_map_iff in J. destruct J as [[j l] [E J]].
    cbn [fst] in E. subst i. destruct (fetchJobs_spec _ _ _ _ _ _ _ _ _ _ F) as [M _].
    assert (N : NoDup (map (fun x => j_issuer (fst x)) ls)).
    { rewrite <- (map_map fst j_issuer). rewrite M. exact ND. }
    pose proof (aggregateJobs_spec _ _ _ _ _ _ _ _ _ A N j l o J I) as W.
    destruct o; cbn [outcomeMeans] in W; [contradiction|apply W|apply W|contradiction].
  Qed.

  (** And then it is a beginning of the complete list. *)
  Theorem C29_fatal_is_prefix : forall js d r d' r' os au,
    aggregateCrls js d r = (d', r', os, au) -> NoDup (map j_issuer js) ->
    forall j, In j js -> In (j_issuer j, AgFatal) os ->
    exists ls data rest, alookup (j_issuer j) r' = Some data /\ readsAs (data ++ rest) (concat ls) /\
      Forall2 (fun ue l => hasCrl j d' (fst ue) l) (j_urls j) ls.
  Proof using Type.
    intros js d r d' r' os au H ND j I O. apply run_split in H.
    destruct H as [[-> _]|[ls [au1 [au2 [F [A _]]]]]]; [destruct O|].
    destruct (fetchJobs_spec _ _ _ _ _ _ _ _ _ _ F) as [M P].
    assert (J : exists l, In (j, l) ls).
    { rewrite <- M in I. apply in_map_iff in I. destruct I as [[j0 l] [E I]]. cbn in E. subst j0. exists l; exact I. }
    destruct J as [l J]. destruct (P j l J) as [U Q].
    assert (N : NoDup (map (fun x => j_issuer (fst x)) ls)).
    { rewrite <- (map_map fst j_issuer). rewrite M. exact ND. }
    pose proof (aggregateJobs_spec _ _ _ _ _ _ _ _ _ A N j l AgFatal J O) as W. cbn [outcomeMeans] in W.
    destruct W as [n [cs [_ [C L]]]].
    exists cs, (firstn n (revokedFile (concat cs))), (skipn n (revokedFile (concat cs))).
    split; [exact L|]. split; [rewrite firstn_skipn; apply revokedFile_reads|]. apply (jobCrls j d' l cs U Q C).
  Qed.

  (** A run in which all servers answer with acceptable CRLs and nothing fails
      locally writes the revocation files of all issuers. *)
  Theorem C29_honest_run : forall js blss d r, NoDup (map j_issuer js) ->
    Forall2 (honestJob sha256 lower Cert parseCRL checkSig d) js blss ->
    exists d' r' au, aggregateCrls js d r = (d', r', map (fun j => (j_issuer j, AgWritten)) js, au) /\
      Forall2 (fun j bls => exists data, alookup (j_issuer j) r' = Some data /\
                 readsAs data (flat_map snd bls)) js blss.
  Proof using Type.
    intros js blss d r ND F.
    destruct (fetchJobs_honest sha256 lower Cert parseCRL checkSig js blss d ND F) as [d1 [au [E HB]]].
    unfold AggModel.aggregateCrls. rewrite E. set (ls := map (fun j : job => (j, urlPaths sha256 lower (j_issuer j) (j_urls j))) js) in *.
    destruct (aggregateJobs Cert parseCRL checkSig ls d1 r) as [[r1 os] au2] eqn:A.
    assert (ML : map (fun x : job * list (url * option bytes) => j_issuer (fst x)) ls = map j_issuer js).
    { unfold ls. rewrite map_map. reflexivity. }
    assert (N : NoDup (map (fun x : job * list (url * option bytes) => j_issuer (fst x)) ls)) by (rewrite ML; exact ND).
    assert (HJ : forall j, In j js -> exists bls, honestJob sha256 lower Cert parseCRL checkSig d j bls /\
              Forall2 (holdsBody sha256 lower (j_issuer j) d1) (j_urls j) bls /\ In (j, bls) (combine js blss)).
    { clear -F HB. revert blss F HB. induction js as [|j js IH]; intros blss F HB j0 I; [destruct I|].
      inversion F as [|a b c0 e0 F1 F2 Q1 Q2]; subst. inversion HB as [|a' b' c1 e1 H1 H2 Q3 Q4]; subst.
      destruct I as [<-|I]; [exists b; cbn; auto|]. destruct (IH _ F2 H2 j0 I) as [bls [X1 [X2 X3]]]. exists bls. cbn; auto. }
    assert (SE : forall j l, In (j, l) ls -> j_storeErr j = None).
    { intros j l I. unfold ls in I. apply in_map_iff in I. destruct I as [j0 [Q I]]. injection Q as <- _.
      destruct (HJ j0 I) as [bls [HJ0 _]]. apply HJ0. }
    pose proof (aggregateJobs_all _ _ _ _ _ _ _ _ _ A SE) as MO. rewrite ML in MO.
    (* contributions of an honest job *)
    assert (CT : forall j bls, honestJob sha256 lower Cert parseCRL checkSig d j bls ->
              Forall2 (holdsBody sha256 lower (j_issuer j) d1) (j_urls j) bls ->
              Forall2 (contributes Cert parseCRL checkSig (j_cert j) d1) (map snd (urlPaths sha256 lower (j_issuer j) (j_urls j))) (map snd bls)).
    { intros j bls [_ [HU _]] HH. clear -HU HH. revert bls HU HH. generalize (j_urls j) as us.
      induction us as [|ue us IH]; intros bls HU HH; inversion HU as [|a b c0 e0 U1 U2 Q1 Q2]; subst; [constructor|].
      inversion HH as [|a' b' c1 e1 H1 H2 Q3 Q4]; subst. cbn [urlPaths map snd]. constructor; [|apply IH; assumption].
      destruct H1 as [f [L D]]. destruct U1 as [_ [_ [_ [_ [_ [_ [c [V1 [V2 V3]]]]]]]]].
      exists (crlPath (j_issuer j) (fst ue)), f, c. split; [reflexivity|]. split; [exact L|]. rewrite D.
      split; [apply loadCRL_ok; assumption|exact V3]. }
    assert (W : forall j o, In j js -> In (j_issuer j, o) os -> o = AgWritten).
    { intros j o I O. destruct (HJ j I) as [bls [HJ0 [HH _]]].
      assert (J : In (j, urlPaths sha256 lower (j_issuer j) (j_urls j)) ls).
      { unfold ls. apply (in_map (fun j => (j, urlPaths sha256 lower (j_issuer j) (j_urls j)))). exact I. }
      pose proof (aggregateJobs_spec _ _ _ _ _ _ _ _ _ A N _ _ o J O) as M.
      assert (PE : forall u p e, In (u, p, e) (withProc (urlPaths sha256 lower (j_issuer j) (j_urls j)) (j_proc j)) ->
                pe_cancelled e = false /\ pe_readErr e = false).
      { intros u p e X. apply withProc_in in X. destruct X as [_ [X| ->]]; [|auto].
        destruct HJ0 as [_ [_ [_ [_ [X0 _]]]]]. apply X0. exact X. }
      destruct o; [reflexivity| | |]; exfalso; cbn [outcomeMeans] in M.
      - destruct M as [_ [u [p [e [X [X1|X1]]]]]].
        + destruct (PE u p e X) as [_ X2]. congruence.
        + apply withProc_in in X. destruct X as [X _].
          pose proof (CT j bls HJ0 HH) as C. apply (in_map snd) in X. cbn [snd] in X. clear -C X X1.
          induction C as [|a b la lb C1 C IH]; [destruct X|]. destruct X as [->|X]; [apply (X1 _ C1)|apply IH; exact X].
      - destruct M as [_ [u [p [e [X X1]]]]]. destruct (PE u p e X) as [X2 _]. congruence.
      - destruct M as [n [ls' [M _]]]. destruct HJ0 as [_ [_ [_ [_ [_ HJ0]]]]]. congruence. }
    assert (OS : os = map (fun j => (j_issuer j, AgWritten)) js).
    { clear -MO W. revert os MO W. induction js as [|j js IH]; intros os MO W; destruct os as [|[i o] os]; try discriminate MO; [reflexivity|].
      cbn [map fst] in MO. injection MO as -> MO. cbn [map]. f_equal.
      - f_equal. apply (W j o); left; reflexivity.
      - apply IH; [exact MO|]. intros j0 o0 I0 O0. apply (W j0 o0); right; assumption. }
    subst os. exists d1, r1, (au ++ au2). split; [reflexivity|].
    assert (G : forall j bls, In (j, bls) (combine js blss) -> exists data, alookup (j_issuer j) r1 = Some data /\ readsAs data (flat_map snd bls)).
    { intros j bls I.
      assert (I1 : In j js) by (apply (in_combine_l _ _ _ _ I)).
      assert (HB1 : honestJob sha256 lower Cert parseCRL checkSig d j bls /\ Forall2 (holdsBody sha256 lower (j_issuer j) d1) (j_urls j) bls).
      { clear -F HB I. revert blss F HB I. induction js as [|j' js IH]; intros blss F HB I; [destruct I|].
        inversion F as [|a b c0 e0 F1 F2 Q1 Q2]; subst. inversion HB as [|a' b' c1 e1 H1 H2 Q3 Q4]; subst.
        destruct I as [I|I]; [injection I as <- <-; auto|]. apply (IH _ F2 H2 I). }
      destruct HB1 as [HJ0 HH].
      assert (J : In (j, urlPaths sha256 lower (j_issuer j) (j_urls j)) ls).
      { unfold ls. apply (in_map (fun j => (j, urlPaths sha256 lower (j_issuer j) (j_urls j)))). exact I1. }
      assert (O : In (j_issuer j, AgWritten) (map (fun j : job => (j_issuer j, AgWritten)) js)).
      { apply (in_map (fun j : job => (j_issuer j, AgWritten))). exact I1. }
      pose proof (aggregateJobs_spec _ _ _ _ _ _ _ _ _ A N _ _ AgWritten J O) as M. cbn [outcomeMeans] in M.
      destruct M as [cs [C L]]. exists (revokedFile (concat cs)). split; [exact L|].
      replace (flat_map snd bls) with (concat cs); [apply revokedFile_reads|].
      rewrite flat_map_concat_map. f_equal. pose proof (CT j bls HJ0 HH) as C2. clear -C C2.
      revert C C2. generalize (map snd bls) as bs. generalize (map snd (urlPaths sha256 lower (j_issuer j) (j_urls j))) as xs.
      intros xs bs C. revert bs. induction C as [|x y xs ys C1 C IH]; intros bs C2; inversion C2; subst; [reflexivity|].
      f_equal; [eapply contributes_fun; eassumption|]. apply IH. assumption. }
    clear -F G. revert blss F G. induction js as [|j js IH]; intros blss F G; inversion F; subst; constructor.
    - apply G. left; reflexivity.
    - apply IH; [assumption|]. intros j0 b0 I. apply G. right; exact I.
  Qed.

  (** ** C55: failures are audited *)

  (** If some CRL of an issuer made its list incomplete, the audit names the
      issuer and a URL of it, or a local fault hit one of its URLs. *)
  Theorem C55_incomplete_issuer_is_audited : forall js d r d' r' os au,
    aggregateCrls js d r = (d', r', os, au) ->
    forall i, In (i, AgIncomplete) os ->
    exists j, In j js /\ j_issuer j = i /\
      ((exists u e, In (u, e) (j_urls j) /\ localFault e = true) \/
       exists u a, In u (map fst (j_urls j)) /\ In (i, u, a) au /\ failure a = true).
  Proof using Type.
    intros js d r d' r' os au H i I. apply run_split in H.
    destruct H as [[-> _]|[ls [au1 [au2 [F [A ->]]]]]]; [destruct I|].
    assert (J : exists j l, In (j, l) ls /\ j_issuer j = i /\
              ((exists u, In (u, None) l) \/ exists u a, In u (map fst l) /\ In (i, u, a) au2 /\ failure a = true)).
    { clear F. revert r r' os au2 A I. induction ls as [|[j l] ls IH]; intros r r' os au2 A I; cbn [AggModel.aggregateJobs] in A.
      - injection A as _ <- _. destruct I.
      - destruct (aggregateOne _ _ _ _ _ _ _ _ _ _) as [[r2 o2] au3] eqn:G.
        assert (HD : o2 = AgIncomplete -> (exists u, In (u, None) l) \/ exists u a, In u (map fst l) /\ In (u, a) au3 /\ failure a = true).
        { intros ->. unfold AggModel.aggregateOne in G.
          destruct (processAll _ _ _ _ _ _ _ _ _ _) as [[[[|] s]|] au4] eqn:P; [|destruct (storeRevoked _ _ _ _) as [r5 o5] eqn:S|discriminate G].
          2:{ injection G as _ -> _. unfold storeRevoked in S. destruct (j_storeErr j); discriminate S. }
          injection G as _ <-.
          destruct (processAll_audits _ _ _ _ _ _ _ _ _ _ _ _ P eq_refl) as [X|[[u [e X]]|[u [a [X1 X2]]]]]; [discriminate| |].
          - left. exists u. apply withProc_in in X. apply X.
          - right. exists u, a. split; [|auto].
            assert (IN : forall ps f0 s0 res aus, processAll Cert parseCRL checkSig (j_cert j) (j_partitioned j)
                 (map (fun p : url * option bytes * procEnv => u_norm (fst (fst p))) (withProc l (j_proc j))) d' ps f0 s0 = (res, aus) ->
                 forall u a, In (u, a) aus -> In u (map (fun x => fst (fst x)) ps)).
            { clear. induction ps as [|[[u p] e] ps IH]; intros f0 s0 res aus E v a I; cbn [AggModel.processAll] in E.
              - injection E as _ <-. destruct I.
              - destruct (pe_cancelled e); [injection E as _ <-; destruct I|].
                assert (GG : forall f1 s1 a1, (let '(r0, au2) := processAll Cert parseCRL checkSig (j_cert j) (j_partitioned j)
                   (map (fun p : url * option bytes * procEnv => u_norm (fst (fst p))) (withProc l (j_proc j))) d' ps f1 s1 in
                   (r0, map (fun a : audit => (u, a)) a1 ++ au2)) = (res, aus) -> In v (map (fun x => fst (fst x)) ((u, p, e) :: ps))).
                { intros f1 s1 a1 E1. destruct (processAll _ _ _ _ _ _ _ ps f1 s1) as [r0 au2] eqn:P.
                  injection E1 as _ <-. apply in_app_or in I. destruct I as [I|I].
                  - apply in_map_iff in I. destruct I as [x [Q _]]. injection Q as <- _. left; reflexivity.
                  - right. apply (IH _ _ _ _ P v a I). }
                destruct p as [path|]; [|apply (GG _ _ _ E)].
                destruct (match alookup path d' with Some f => if pe_readErr e then None else loadCRL Cert parseCRL checkSig (j_cert j) (f_data f) | None => None end) as [c|];
                  [|apply (GG _ _ _ E)].
                destruct (processCRL c) as [[|x ll]|]; apply (GG _ _ _ E). }
            pose proof (IN _ _ _ _ _ P u a X1) as X3.
            rewrite <- (map_map fst fst) in X3. rewrite withProc_fst in X3. exact X3. }
        assert (TL : forall r3 os3 au4, aggregateJobs Cert parseCRL checkSig ls d' r2 = (r3, os3, au4) -> In (i, AgIncomplete) os3 ->
                 exists j0 l0, In (j0, l0) ((j, l) :: ls) /\ j_issuer j0 = i /\
                 ((exists u, In (u, None) l0) \/ exists u a, In u (map fst l0) /\ In (i, u, a) au4 /\ failure a = true)).
        { intros r3 os3 au4 E I0. destruct (IH _ _ _ _ E I0) as [j0 [l0 [I1 X]]]. exists j0, l0. split; [right; exact I1|exact X]. }
        destruct o2.
        4:{ injection A as _ <- _. destruct I as [I|[]]. discriminate I. }
        all: destruct (aggregateJobs Cert parseCRL checkSig ls d' r2) as [[r3 os3] au4] eqn:E; injection A as _ <- <-.
        1,3: destruct I as [I|I]; [discriminate I|]; destruct (TL _ _ _ eq_refl I) as [j0 [l0 [I1 [I2 [X|[u [a [X1 [X2 X3]]]]]]]]];
          exists j0, l0; (split; [exact I1|]); (split; [exact I2|]); [left; exact X|right; exists u, a; split; [exact X1|]; split; [apply in_or_app; right; exact X2|exact X3]].
        destruct I as [I|I].
        + injection I as <-. exists j, l. split; [left; reflexivity|]. split; [reflexivity|].
          destruct (HD eq_refl) as [X|[u [a [X1 [X2 X3]]]]]; [left; exact X|right]. exists u, a. split; [exact X1|].
          split; [|exact X3]. apply in_or_app; left. apply (in_map (fun a => (j_issuer j, fst a, snd a))) in X2. exact X2.
        + destruct (TL _ _ _ eq_refl I) as [j0 [l0 [I1 [I2 [X|[u [a [X1 [X2 X3]]]]]]]]];
            exists j0, l0; (split; [exact I1|]); (split; [exact I2|]); [left; exact X|right; exists u, a; split; [exact X1|]; split; [apply in_or_app; right; exact X2|exact X3]]. }
    destruct J as [j [l [J1 [J2 J3]]]].
    destruct (fetchJobs_spec _ _ _ _ _ _ _ _ _ _ F) as [M P]. destruct (P j l J1) as [U _].
    exists j. split; [rewrite <- M; apply (in_map fst) in J1; exact J1|]. split; [exact J2|].
    destruct J3 as [[u X]|[u [a [X1 [X2 X3]]]]].
    - assert (FJ : forall js d d' ls au1, fetchJobs sha256 lower Cert parseCRL checkSig js d = (d', Some ls, au1) ->
                In (j, l) ls -> (exists e, In (u, e) (j_urls j) /\ localFault e = true) \/ exists a, In (j_issuer j, u, a) au1 /\ failure a = true).
      { clear -X. induction js as [|j0 js IH]; intros d d' ls au1 F I; cbn [AggModel.fetchJobs] in F.
        - injection F as _ <- _. destruct I.
        - destruct (fetchAll _ _ _ _ _ _ _ _ _) as [[d1 [l1|]] au0] eqn:E; destruct (fetchJobs _ _ _ _ _ js d1) as [[d2 [ls2|]] au2] eqn:E2; try discriminate F.
          injection F as _ <- <-. destruct I as [I|I].
          + injection I as -> ->. destruct (fetchAll_audits _ _ _ _ _ _ _ _ _ _ _ _ E u X) as [L|[a [A1 A2]]]; [left; exact L|right].
            exists a. split; [|exact A2]. apply in_or_app; left. apply (in_map (fun a => (j_issuer j, fst a, snd a))) in A1. exact A1.
          + destruct (IH _ _ _ _ E2 I) as [L|[a [A1 A2]]]; [left; exact L|right]. exists a. split; [apply in_or_app; right; exact A1|exact A2]. }
      destruct (FJ _ _ _ _ _ F J1) as [[e L]|[a [A1 A2]]].
      + left. exists u, e. exact L.
      + right. exists u, a. split; [|split; [apply in_or_app; left; rewrite <- J2; exact A1|exact A2]].
        rewrite <- U. apply (in_map fst) in X. exact X.
    - right. exists u, a. split; [rewrite <- U; exact X1|]. split; [apply in_or_app; right; exact X2|exact X3].
  Qed.
End C29.
Print Assumptions C29_written_is_complete.
Print Assumptions C29_otherwise_untouched.
Print Assumptions C29_fatal_is_prefix.
Print Assumptions C29_honest_run.
Print Assumptions C55_incomplete_issuer_is_audited.

(** Two issuers: "I" with two CRLs, "J" with one; then a run in which one of
    I's servers fails. *)
Definition xJob (i : bytes) (cert : byte) (us : list (url * fetchEnv)) : job byte := mkJob i cert true us [] None.
Definition xFails : fetchEnv := mkFetch false false (mkDv (fun _ => (false, mkDl false None GErr false false false 50%Z)) false false false false) false 60%Z.
Definition xRun := aggregateCrls xHash (fun s => s) byte xParse xSig.
Definition xI1 := xUrl (B "i1.crl"). Definition xI2 := xUrl (B "i2.crl"). Definition xJ1 := xUrl (B "j1.crl").

Example C29_example :
  (let '(d, r, os, au) := xRun [xJob (B "I") "K" [(xI1, xServe (B "C1abK")); (xI2, xServe (B "C1cK"))]; xJob (B "J") "L" [(xJ1, xServe (B "C1L"))]] [] [] in
   os = [(B "I", AgWritten); (B "J", AgWritten)] /\
   alookup (B "I") r = Some (B "0061" ++ [nl] ++ B "0062" ++ [nl] ++ B "0063" ++ [nl]) /\ alookup (B "J") r = Some []) /\
  (let '(d, r, os, au) := xRun [xJob (B "I") "K" [(xI1, xServe (B "C1abK")); (xI2, xFails)]; xJob (B "J") "L" [(xJ1, xServe (B "C1L"))]] [] [] in
   os = [(B "I", AgIncomplete); (B "J", AgWritten)] /\ alookup (B "I") r = None /\
   In (B "I", xI2, AuFailedDownload) au).
Proof. vm_compute. repeat split; auto. Qed.

(** The process dies after seven bytes. *)
Example C29_fatal_example :
  let '(d, r, os, au) := xRun [mkJob (B "I") "K"%byte true [(xI1, xServe (B "C1abK")); (xI2, xServe (B "C1cK"))] [] (Some 7%nat)] [] [] in
  os = [(B "I", AgFatal)] /\ alookup (B "I") r = Some (B "0061" ++ [nl] ++ B "00").
Proof. vm_compute. auto. Qed.

Lemma xServe_honest u body l c : xParse body = Some c -> xSig "K" body = true -> processCRL c = Some l ->
  honestUrl byte xParse xSig "K"%byte (u, xServe body) (body, l).
Proof.
  intros H1 H2 H3. cbv beta zeta delta [honestUrl]. cbn [fst snd xServe fe_cancelled fe_mkdirErr fe_statErr fe_dv serveDv dv_tmpReadErr dv_renameErr].
  do 5 (split; [reflexivity|]). split; [|exists c; auto].
  exists (serve [body]), [body], (Some 10%Z). repeat (split; [reflexivity|]). cbn. apply app_nil_r.
Qed.

(** The hypotheses of [C29_honest_run] can be met. *)
Example C29_honest_example :
  Forall2 (honestJob xHash (fun s => s) byte xParse xSig [])
    [xJob (B "I") "K" [(xI1, xServe (B "C1abK")); (xI2, xServe (B "C1cK"))]]
    [[(B "C1abK", [(B "a", 0%N); (B "b", 0%N)]); (B "C1cK", [(B "c", 0%N)])]].
Proof.
  constructor; [|constructor]. unfold honestJob, xJob. cbn [j_issuer j_cert j_urls j_proc j_storeErr].
  split; [intros [H|[]]; discriminate|]. split.
  { constructor; [|constructor; [|constructor]]; (eapply xServe_honest; [vm_compute; reflexivity|reflexivity|vm_compute; reflexivity]). }
  split. { vm_compute. constructor; [intros [H|[]]; discriminate|]. constructor; [intros []|constructor]. }
  split; [intros; apply replaces_none|]. split; [intros pe []|reflexivity].
Qed.

(** A URL of the issuer that does not parse is dropped before anything is
    queued: the issuer is written though one of its CRLs was never looked at. *)
Theorem C29_dropped_url_refuted : exists parse texts t j d r os au,
  queueUrls parse texts = map fst (j_urls j) /\ In t texts /\ parse t = None /\
  xRun [j] [] [] = (d, r, os, au) /\ In (j_issuer j, AgWritten) os /\
  ~ exists a, In (j_issuer j, a) (map (fun x => (fst (fst x), snd x)) au) /\ failure a = true.
Proof.
  exists (fun t => if beq t (B "http://a") then Some xI1 else None), [B "http://a"; B "http://[b"], (B "http://[b"),
    (xJob (B "I") "K" [(xI1, xServe (B "C1abK"))]).
  eexists _, _, _, _. split; [reflexivity|]. split; [right; left; reflexivity|]. split; [reflexivity|].
  split; [vm_compute; reflexivity|]. split; [left; reflexivity|].
  vm_compute. intros [a [[H|[H|[]]] F]]; injection H as <-; discriminate.
Qed.
Print Assumptions C29_dropped_url_refuted.

(** Local faults are not audited: here the rename fails. *)
Theorem C55_local_fault_refuted : exists j d r au,
  xRun [j] [] [] = (d, r, [(j_issuer j, AgIncomplete)], au) /\ au = [].
Proof.
  exists (xJob (B "I") "K" [(xI1, mkFetch false false (mkDv (fun _ => (false, serve [B "C1abK"])) false true false false) false 60%Z)]).
  eexists _, _, _. split; [vm_compute; reflexivity|]. reflexivity.
Qed.
Print Assumptions C55_local_fault_refuted.

(** ** C53: local names of CRLs *)

(** The characters that names may have. *)
Definition nameChars : bytes := B "0123456789ABCDEFGHIJKLMNOPQRSTUVWXYZabcdefghijklmnopqrstuvwxyz~-.".

(** [t] is [s] without its other characters. *)
Inductive cleaned : bytes -> bytes -> Prop :=
| ClNil : cleaned [] []
| ClKeep : forall c s t, In c nameChars -> cleaned s t -> cleaned (c :: s) (c :: t)
| ClDrop : forall c s t, ~ In c nameChars -> cleaned s t -> cleaned (c :: s) t.

(** [t] is [s] without ".crl" at its end, if it is there. *)
Definition withoutCrl (s t : bytes) : Prop := s = t ++ B ".crl" \/ s = t /\ forall x, s <> x ++ B ".crl".

(** Host, last part of the path and, if there is one, query. *)
Definition urlText (u : url) : bytes :=
  match u_query u with
  | [] => u_host u ++ B "-" ++ u_base u
  | q => u_host u ++ B "-" ++ u_base u ++ B "-" ++ q
  end.

Lemma legal_chars c : legal c = true <-> In c nameChars.
Proof.
  assert (E : forall c, legal c = existsb (Byte.eqb c) nameChars) by (intros []; vm_compute; reflexivity).
  rewrite E, existsb_exists. split.
  - intros [x [I Q]]. apply Byte.byte_dec_bl in Q. subst; exact I.
  - intros I. exists c. split; [exact I|apply Byte.byte_dec_lb; reflexivity].
Qed.

Lemma cleaned_filter : forall s, cleaned s (filter legal s).
Proof.
  induction s as [|c s IH]; [constructor|]. cbn [filter]. destruct (legal c) eqn:L.
  - apply ClKeep; [apply legal_chars; exact L|exact IH].
  - apply ClDrop; [intros I; apply legal_chars in I; congruence|exact IH].
Qed.

Lemma withoutCrl_trim s : withoutCrl s (trimSuffix (B ".crl") s).
Proof.
  unfold withoutCrl, trimSuffix. set (x := B ".crl").
  destruct ((length x <=? length s)%nat && beq (skipn (length s - length x) s) x) eqn:C.
  - left. apply andb_prop in C. destruct C as [_ C]. apply beq_eq in C. rewrite <- C at 2. symmetry. apply firstn_skipn.
  - right. split; [reflexivity|]. intros y ->. rewrite app_length in C.
    replace (length y + length x - length x)%nat with (length y) in C by lia.
    rewrite skipn_app, skipn_all, Nat.sub_diag in C. cbn [skipn app] in C. rewrite beq_refl, andb_true_r in C.
    apply Nat.leb_gt in C. lia.
Qed.

Theorem C53_local_names : forall sha256 lower u,
  (exists text stem, cleaned (lower (urlText u)) text /\ withoutCrl text stem /\
     makeFilename sha256 lower u = stem ++ B "-" ++ hexEncode (firstn 8 (sha256 (u_norm u))) ++ B ".crl") /\
  (forall c, In c (makeFilename sha256 lower u) -> In c nameChars /\ c <> slash) /\
  (forall issuer issuer' u', tmpOf (crlPath sha256 lower issuer u) <> crlPath sha256 lower issuer' u') /\
  (forall issuer issuer' u', ~ In slash issuer -> ~ In slash issuer' ->
     crlPath sha256 lower issuer u = crlPath sha256 lower issuer' u' -> issuer = issuer') /\
  (forall u', (forall x, length (sha256 x) = 32%nat) -> makeFilename sha256 lower u = makeFilename sha256 lower u' ->
     firstn 8 (sha256 (u_norm u)) = firstn 8 (sha256 (u_norm u'))).
Proof.
  intros sha256 lower u. split; [|split; [|split; [|split]]].
  - exists (filter legal (lower (urlText u))), (trimSuffix (B ".crl") (filter legal (lower (urlText u)))).
    split; [apply cleaned_filter|]. split; [apply withoutCrl_trim|]. unfold makeFilename, urlText.
    destruct (u_query u); [reflexivity|]. rewrite <- !app_assoc. reflexivity.
  - intros c I. pose proof (makeFilename_legal sha256 lower u) as L. rewrite forallb_forall in L. specialize (L c I).
    split; [apply legal_chars; exact L|]. apply legal_not_slash; exact L.
  - intros issuer issuer' u'. apply tmp_not_path.
  - intros issuer issuer' u' N N' E. apply crlPath_cut in E; tauto.
  - intros u' L E. destruct (makeFilename_tail sha256 lower u) as [p1 E1]. destruct (makeFilename_tail sha256 lower u') as [p2 E2].
    rewrite E1, E2 in E. apply app_tail in E.
    + destruct E as [_ E]. apply app_inv_tail in E. apply hexEncode_inj in E. exact E.
    + rewrite !app_length, !hexEncode_length, !firstn_length, !L. reflexivity.
Qed.
Print Assumptions C53_local_names.

(** Only the hash tells these two URLs apart. *)
Example C53_example :
  let a := mkUrl (B "h") (B "x%.crl") [] (B "http://h/x%25.crl") in
  let b := mkUrl (B "h") (B "x:.crl") [] (B "https://h/x:.crl") in
  makeFilename xHash (fun s => s) a = B "h-x-687474703a2f2f68.crl" /\
  makeFilename xHash (fun s => s) b = B "h-x-68747470733a2f2f.crl".
Proof. vm_compute. auto. Qed.

(** ** C56: the issuing distribution point *)

(** The check succeeds exactly if the URL the CRL was fetched from is among the
    distribution points in the CRL and is a known URL of the issuer, and no
    other known URL of the issuer is among them. *)
Theorem C56_idp_exact : forall fetchUrl known idp,
  idpCheck fetchUrl known idp = true <->
  exists l, idp = Some l /\ In (Some fetchUrl) l /\ In fetchUrl known /\
    forall n, In (Some n) l -> In n known -> n = fetchUrl.
Proof.
  assert (K : forall n known, existsb (beq n) known = true <-> In n known).
  { intros n known. rewrite existsb_exists. split.
    - intros [x [I E]]. apply beq_eq in E. subst; exact I.
    - intros I. exists n. split; [exact I|apply beq_refl]. }
  assert (L : forall fetchUrl known l found, idpLoop fetchUrl known found l = true <->
    (found = true \/ In (Some fetchUrl) l /\ In fetchUrl known) /\
    forall n, In (Some n) l -> In n known -> n = fetchUrl).
  { intros fetchUrl known. induction l as [|[n|] l IH]; intros found; cbn [idpLoop].
    - split; [intros ->; split; [left; reflexivity|intros n []]|]. intros [[H|[[] _]] _]; exact H.
    - destruct (existsb (beq n) known) eqn:E.
      + apply K in E. destruct (beq_spec fetchUrl n) as [<-|N].
        * rewrite IH. split.
          -- intros [_ H]. split; [right; split; [left; reflexivity|exact E]|]. intros m [Q|I] J; [congruence|apply H; assumption].
          -- intros [_ H]. split; [left; reflexivity|]. intros m I J. apply H; [right; exact I|exact J].
        * split; [discriminate|]. intros [_ H]. exfalso. apply N. symmetry. apply H; [left; reflexivity|exact E].
      + rewrite IH. assert (NK : ~ In n known) by (intros X; apply K in X; congruence). split.
        * intros [H1 H2]. split; [destruct H1 as [H1|[H1 H3]]; [left; exact H1|right; split; [right; exact H1|exact H3]]|].
          intros m [Q|I] J; [injection Q as <-; contradiction|apply H2; assumption].
        * intros [H1 H2]. split; [destruct H1 as [H1|[[Q|H1] H3]]; [left; exact H1|injection Q as ->; contradiction|right; auto]|].
          intros m I J. apply H2; [right; exact I|exact J].
    - rewrite IH. split.
      + intros [H1 H2]. split; [destruct H1 as [H1|[H1 H3]]; [left; exact H1|right; split; [right; exact H1|exact H3]]|].
        intros m [Q|I] J; [discriminate|apply H2; assumption].
      + intros [H1 H2]. split; [destruct H1 as [H1|[[Q|H1] H3]]; [left; exact H1|discriminate|right; auto]|].
        intros m I J. apply H2; [right; exact I|exact J]. }
  intros fetchUrl known [l|]; cbn [idpCheck].
  - rewrite L. split.
    + intros [[H|[H1 H2]] H3]; [discriminate|]. exists l. auto.
    + intros [l' [E [H1 [H2 H3]]]]. injection E as <-. auto.
  - split; [discriminate|]. intros [l [E _]]. discriminate.
Qed.
Print Assumptions C56_idp_exact.

Example C56_example :
  idpCheck (B "u") [B "u"; B "v"] (Some [Some (B "w"); None; Some (B "u")]) = true /\
  idpCheck (B "u") [B "u"; B "v"] (Some [Some (B "u"); Some (B "v")]) = false /\
  idpCheck (B "u") [B "u"; B "v"] (Some [Some (B "w")]) = false.
Proof. vm_compute. auto. Qed.

(** The result is only audited: an issuer with partitioned CRLs is written even
    if the same partition was served for both of its URLs. *)
Theorem C56_only_audited_refuted : exists j d r os au,
  xRun [j] [] [] = (d, r, os, au) /\ j_partitioned j = true /\
  In (j_issuer j, xI2, AuWrongIDP) au /\ In (j_issuer j, AgWritten) os.
Proof.
  exists (mkJob (B "I") "K"%byte true [(xI1, xServe (B "C1abK")); (xI2, xServe (B "C1abK"))]
           [mkProc false false (Some [Some (u_norm xI1)]); mkProc false false (Some [Some (u_norm xI1)])] None).
  eexists _, _, _, _. split; [vm_compute; reflexivity|]. split; [reflexivity|]. split; vm_compute; auto.
Qed.
Print Assumptions C56_only_audited_refuted.
