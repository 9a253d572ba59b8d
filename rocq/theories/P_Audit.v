(** * The report of aggregate-crls: C72 *)
From Verif Require Import Base MerkleModel SerialModel SerialProofs StoreModel AggModel AggProofs P_Agg.
From Coq Require Import Strings.Byte.

(** Every entry is one line, ended by a newline. *)
Lemma revokedFile_newlines l : count_occ Byte.byte_eq_dec (revokedFile l) nl = length l.
Proof.
  assert (Z : forall s, count_occ Byte.byte_eq_dec (hexEncode s) nl = O) by (intros s; apply count_occ_not_In, (proj1 (hexEncode_clean s))).
  unfold revokedFile. induction l as [|s l IH]; [reflexivity|]. cbn [flat_map length]. unfold revokedLine at 1.
  rewrite !count_occ_app, !Z, IH. reflexivity.
Qed.

Section C72.
  Variables (sha256 lower : bytes -> bytes) (Cert : Type)
    (parseCRL : bytes -> option crl) (checkSig : Cert -> bytes -> bool).
  Local Notation aggregateCrls := (aggregateCrls sha256 lower Cert parseCRL checkSig).
  Local Notation fetchOne := (fetchOne sha256 lower Cert parseCRL checkSig).
  Local Notation fetchAll := (fetchAll sha256 lower Cert parseCRL checkSig).
  Local Notation fetchJobs := (fetchJobs sha256 lower Cert parseCRL checkSig).
  Local Notation processAll := (processAll Cert parseCRL checkSig).
  Local Notation aggregateJobs := (aggregateJobs Cert parseCRL checkSig).
  Local Notation loadCRL := (loadCRL Cert parseCRL checkSig).
  Local Notation crlValid := (crlValid Cert parseCRL checkSig).
  Local Notation crlPath := (crlPath sha256 lower).
  Local Notation hasCrl := (hasCrl sha256 lower Cert parseCRL checkSig).
  Local Notation job := (job Cert).

  (** ** What the kinds of entry mean *)

  (** The file kept for the URL is a CRL with a good signature. *)
  Definition signedCrl (j : job) (d : disk) (u : url) : Prop :=
    exists f c, alookup (crlPath (j_issuer j) u) d = Some f /\ parseCRL (f_data f) = Some c /\ checkSig (j_cert j) (f_data f) = true.

  (** The distribution points named in the CRL include the URL, which is known
      for the issuer, and none of the issuer's other URLs. *)
  Definition pointsHere (known : list bytes) (n : bytes) (idp : option (list (option bytes))) : Prop :=
    exists l, idp = Some l /\ In (Some n) l /\ In n known /\ forall m, In (Some m) l -> In m known -> m = n.

  Definition knownUrls (j : job) : list bytes := map (fun ue => u_norm (fst ue)) (j_urls j).

  Definition day : Z := 24 * 60 * 60 * 1000000000.

  (** The server gave a whole file, and it could be written. *)
  Definition wholeFile (env : dlEnv) : Prop :=
    exists chunks lm, de_get env = GResp 200 chunks false lm /\ de_openErr env = false /\ de_cancelled env = false.

  (** [d0], [d]: the CRL directory before and after the run. *)
  Definition truth (j : job) (d0 d : disk) (u : url) (a : audit) : Prop :=
    let path := crlPath (j_issuer j) u in
    match a with
    | AuValid n data =>
        exists f l, alookup path d = Some f /\ f_data f = data /\ hasCrl j d u l /\ l <> [] /\ n = N.of_nat (length l)
    | AuNoRevocations => hasCrl j d u []
    | AuFailedProcess => signedCrl j d u /\ forall l, ~ hasCrl j d u l
    | AuFailedVerifyPath => ~ signedCrl j d u \/ exists pe, In pe (j_proc j) /\ pe_readErr pe = true
    | AuWrongIDP =>
        j_partitioned j = true /\ signedCrl j d u /\
        exists pe, (In pe (j_proc j) \/ pe = mkProc false false None) /\ ~ pointsHere (knownUrls j) (u_norm u) (pe_idp pe)
    | AuOld =>
        signedCrl j d u /\
        exists e f, In (u, e) (j_urls j) /\ alookup path d = Some f /\ (14 * day < fe_now e - f_mtime f)%Z
    | AuFailedDownload =>
        alookup path d = alookup path d0 /\
        exists e, In (u, e) (j_urls j) /\ forall i, (i < 4)%nat ->
          fst (dv_attempts (fe_dv e) i) = false /\ ~ wholeFile (snd (dv_attempts (fe_dv e) i))
    | AuFailedVerifyUrl => alookup path d = alookup path d0
    end.

  (** ** Fetching *)

  Lemma download_whole e t : wholeFile e -> snd (download e t) = true.
  Proof using Type.
    intros [chunks [lm [G [O C]]]]. unfold download. destruct (determineAction (onDisk e t) (de_head e)) as [[act x] y].
    destruct act; [| |reflexivity]; rewrite G, O, C; cbn [N.eqb Pos.eqb];
      (destruct (copyChunks (de_now e) [] chunks) as [tr data]; destruct lm as [m|]; [destruct (de_chtimesErr e)|]; reflexivity).
  Qed.

  Lemma downloadLoop_failed : forall k i o t tr t', downloadLoop k i o t = (tr, t', false) ->
    forall m, (i <= m < i + k)%nat -> fst (o m) = false /\ ~ wholeFile (snd (o m)).
  Proof using Type.
    induction k as [|k IH]; intros i o t tr t' H m L; [lia|]. cbn [downloadLoop] in H.
    destruct (o i) as [c e] eqn:E. destruct c; [discriminate|].
    pose proof (download_whole e t) as W. destruct (download e t) as [[tr1 t1] ok]. cbn [snd] in W. destruct ok; [discriminate|].
    destruct (downloadLoop k (S i) o t1) as [[tr2 t2] r] eqn:D.
    assert (R : r = false) by congruence. subst r.
    destruct (Nat.eq_dec m i) as [->|N]; [|apply (IH _ _ _ _ _ D); lia].
    rewrite E. cbn [fst snd]. split; [reflexivity|]. intros X. specialize (W X). discriminate.
  Qed.

  (** What one fetch reports. *)
  Definition fetchTruth (issuer : bytes) (cert : Cert) (u : url) (e : fetchEnv) (d0 d1 : disk) (p : option bytes) (a : audit) : Prop :=
    let path := crlPath issuer u in
    match a with
    | AuOld => p = Some path /\ exists f, alookup path d1 = Some f /\ crlValid cert (f_data f) = true /\ (14 * day < fe_now e - f_mtime f)%Z
    | AuFailedDownload => alookup path d1 = alookup path d0 /\
        forall i, (i < 4)%nat -> fst (dv_attempts (fe_dv e) i) = false /\ ~ wholeFile (snd (dv_attempts (fe_dv e) i))
    | AuFailedVerifyUrl => alookup path d1 = alookup path d0
    | _ => False
    end.

  Lemma fetchOne_truth cert issuer e u d d1 p au : fetchOne cert issuer e u d = (d1, p, au) ->
    (forall a, In a au -> fetchTruth issuer cert u e d d1 p a) /\
    (forall f, p <> None -> alookup (crlPath issuer u) d1 = Some f -> (14 * day < fe_now e - f_mtime f)%Z -> In AuOld au).
  Proof using Type.
    intros H. pose proof (fun q => fetchOne_good sha256 lower Cert parseCRL checkSig cert issuer e u d d1 q au) as G.
    assert (G' : forall q, p = Some q -> q = crlPath issuer u /\ exists f, alookup q d1 = Some f /\ crlValid cert (f_data f) = true)
      by (intros q ->; apply (G q); exact H). clear G.
    unfold AggModel.fetchOne in H. destruct (fe_mkdirErr e).
    { injection H as <- <- <-. split; [intros a []|]. intros f N. congruence. }
    set (path := crlPath issuer u) in *.
    unfold downloadAndVerify in H. cbn [fs_tmp fs_final] in H.
    destruct (downloadFileSync 3 (dv_attempts (fe_dv e)) (alookup (tmpOf path) d)) as [[tr t] dlOk] eqn:DL.
    assert (KEEP : forall ft, (alookup path (put path (alookup path d) (put (tmpOf path) ft d))) = alookup path d).
    { intros ft. rewrite alookup_put, beq_refl. reflexivity. }
    assert (FB : forall au0, (au0 = [] \/ au0 = [AuFailedVerifyUrl] \/ au0 = [AuFailedDownload] /\ dlOk = false) ->
      (let '(_, s, ok, _, au1) :=
         (map (fun t0 : option file => mkFS t0 (alookup path d)) tr ++ [if dv_removeErr (fe_dv e) then mkFS t (alookup path d) else mkFS None (alookup path d)],
          if dv_removeErr (fe_dv e) then mkFS t (alookup path d) else mkFS None (alookup path d),
          isValid (crlValid cert) (dv_finalReadErr (fe_dv e)) (alookup path d), true, au0) in
       let d' := put path (fs_final s) (put (tmpOf path) (fs_tmp s) d) in
       if negb ok then (d', None, au1)
       else match fs_final s with
            | None => (d', None, au1)
            | Some f => if fe_statErr e then (d', None, au1)
               else (d', Some path, au1 ++ (if (allowableAge <? fe_now e - f_mtime f)%Z then [AuOld] else []))
            end) = (d1, p, au) ->
      (forall a, In a au -> fetchTruth issuer cert u e d d1 p a) /\
      (forall f, p <> None -> alookup path d1 = Some f -> (14 * day < fe_now e - f_mtime f)%Z -> In AuOld au)).
    { intros au0 A0 E.
      set (s := if dv_removeErr (fe_dv e) then mkFS t (alookup path d) else mkFS None (alookup path d)) in E.
      assert (FS : fs_final s = alookup path d) by (unfold s; destruct (dv_removeErr (fe_dv e)); reflexivity).
      cbv beta iota zeta in E. rewrite FS in E.
      assert (D1 : d1 = put path (alookup path d) (put (tmpOf path) (fs_tmp s) d)).
      { clear -E. destruct (negb (isValid _ _ _)) in E; [injection E; intros; symmetry; assumption|]. destruct (alookup path d) in E |- *; [|injection E; intros; symmetry; assumption]. destruct (fe_statErr e) in E; injection E; intros; symmetry; assumption. }
      assert (L : alookup path d1 = alookup path d) by (rewrite D1; apply KEEP).
      assert (T0 : forall a, In a au0 -> fetchTruth issuer cert u e d d1 p a).
      { intros a I. destruct A0 as [->|[->|[-> ->]]]; [destruct I| |]; destruct I as [<-|[]]; cbn [fetchTruth].
        - exact L.
        - split; [exact L|]. intros i LI. apply (downloadLoop_failed _ _ _ _ _ _ DL). lia. }
      destruct (isValid (crlValid cert) (dv_finalReadErr (fe_dv e)) (alookup path d)); cbn [negb] in E.
      2:{ assert (au0 = au) by (injection E; intros; assumption). assert (p = None) by (injection E; intros; symmetry; assumption). subst au0. split; [exact T0|]. intros f N. congruence. }
      destruct (alookup path d) as [f|] eqn:PF.
      2:{ assert (au0 = au) by (injection E; intros; assumption). assert (p = None) by (injection E; intros; symmetry; assumption). subst au0. split; [exact T0|]. intros f N. congruence. }
      destruct (fe_statErr e).
      { assert (au0 = au) by (injection E; intros; assumption). assert (p = None) by (injection E; intros; symmetry; assumption). subst au0. split; [exact T0|]. intros f0 N. congruence. }
      assert (AU : au = au0 ++ (if (allowableAge <? fe_now e - f_mtime f)%Z then [AuOld] else [])) by (injection E; intros; symmetry; assumption).
      assert (PP : p = Some path) by (injection E; intros; symmetry; assumption).
      destruct (G' path PP) as [_ [g [G1 G2]]].
      assert (g = f) by congruence. subst g.
      change allowableAge with (14 * day)%Z in AU. split.
      - intros a I. rewrite AU in I. apply in_app_or in I. destruct I as [I|I]; [apply T0; exact I|].
        destruct (14 * day <? fe_now e - f_mtime f)%Z eqn:C; [|destruct I]. destruct I as [<-|[]]. cbn [fetchTruth].
        split; [exact PP|]. exists f. split; [exact L|]. split; [exact G2|]. apply Z.ltb_lt; exact C.
      - intros f0 _ L0 C. assert (f0 = f) by congruence. subst f0. rewrite AU. apply in_or_app; right.
        apply Z.ltb_lt in C. rewrite C. left; reflexivity. }
    destruct dlOk; cbn [negb] in H; [|apply (FB [AuFailedDownload]); [auto|exact H]].
    destruct (isValid (crlValid cert) (dv_tmpReadErr (fe_dv e)) t) eqn:V; cbn [negb] in H; [|apply (FB [AuFailedVerifyUrl]); [auto|exact H]].
    destruct (dv_renameErr (fe_dv e)); [apply (FB []); [auto|exact H]|]. clear FB.
    assert (FS : fs_final (if dv_removeErr (fe_dv e) then mkFS None t else mkFS None (fs_final (mkFS None t))) = t)
      by (destruct (dv_removeErr (fe_dv e)); reflexivity).
    cbn [fs_final] in H, FS. cbv beta iota zeta in H. rewrite FS in H. destruct t as [f|].
    2:{ discriminate V. }
    destruct (fe_statErr e).
    { assert (au = []) by (injection H; intros; symmetry; assumption). assert (p = None) by (injection H; intros; symmetry; assumption). subst au. split; [intros a []|]. intros f0 N. congruence. }
    assert (AU : au = if (allowableAge <? fe_now e - f_mtime f)%Z then [AuOld] else []) by (injection H; intros; symmetry; assumption).
    assert (PP : p = Some path) by (injection H; intros; symmetry; assumption).
    destruct (G' path PP) as [_ [g [G1 G2]]].
    assert (g = f).
    { assert (D1 : d1 = aset path f (put (tmpOf path) (fs_tmp (if dv_removeErr (fe_dv e) then mkFS None (Some f) else mkFS None (Some f))) d)).
      { cbn [put] in H. injection H; intros; symmetry; assumption. }
      rewrite D1, alookup_aset_same in G1. congruence. }
    subst g. change allowableAge with (14 * day)%Z in AU. split.
    - intros a I. rewrite AU in I. destruct (14 * day <? fe_now e - f_mtime f)%Z eqn:C; [|destruct I].
      destruct I as [<-|[]]. cbn [fetchTruth]. split; [exact PP|]. exists f. split; [exact G1|]. split; [exact G2|]. apply Z.ltb_lt; exact C.
    - intros f0 _ L0 C. assert (f0 = f) by congruence. subst f0. rewrite AU. apply Z.ltb_lt in C. rewrite C. left; reflexivity.
  Qed.

  (** One fetch within the run: the states of the URL's path before and after it
      are those before and after the run. *)
  Definition fetched (issuer : bytes) (cert : Cert) (d0 d : disk) (u : url) (e : fetchEnv) (p : option bytes) (au : list audit) : Prop :=
    exists x y, fetchOne cert issuer e u x = (y, p, au) /\
      alookup (crlPath issuer u) x = alookup (crlPath issuer u) d0 /\ alookup (crlPath issuer u) y = alookup (crlPath issuer u) d.

  Lemma fetchAll_each cert issuer : ~ In slash issuer -> forall us d d' r au,
    NoDup (map (fun ue => makeFilename sha256 lower (fst ue)) us) ->
    fetchAll cert issuer us d = (d', r, au) ->
    (forall u a, In (u, a) au -> exists e p aus, In (u, e) us /\ fetched issuer cert d d' u e p aus /\ In a aus) /\
    (forall l, r = Some l -> forall u e, In (u, e) us -> exists p aus, fetched issuer cert d d' u e p aus /\ In (u, p) l /\
       forall a, In a aus -> In (u, a) au).
  Proof using Type.
    intros NS. induction us as [|[u e] us IH]; intros d d' r au ND H; cbn [AggModel.fetchAll] in H.
    { injection H as <- _ <-. split; [intros u a []|intros l _ u e []]. }
    cbn [map fst] in ND. apply NoDup_cons_iff in ND. destruct ND as [NI ND].
    destruct (fe_cancelled e).
    { injection H as <- <- <-. split; [intros v a []|discriminate]. }
    destruct (fetchOne cert issuer e u d) as [[d1 p] au1] eqn:F.
    destruct (fetchAll cert issuer us d1) as [[d2 r2] au2] eqn:E.
    assert (E1 : d2 = d') by congruence. subst d2.
    assert (E2 : r = match r2 with Some l => Some ((u, p) :: l) | None => None end) by congruence.
    assert (E3 : au = map (fun a => (u, a)) au1 ++ au2) by congruence.
    assert (NT : forall v e0, In (v, e0) us -> makeFilename sha256 lower u <> makeFilename sha256 lower v).
    { intros v e0 Iv X. apply NI. rewrite X. apply (in_map (fun ue : url * fetchEnv => makeFilename sha256 lower (fst ue)) us (v, e0)). exact Iv. }
    assert (A1 : alookup (crlPath issuer u) d1 = alookup (crlPath issuer u) d').
    { pose proof (fetchAll_frame sha256 lower Cert parseCRL checkSig cert issuer us d1 (crlPath issuer u)) as FR. rewrite E in FR. cbn [fst] in FR.
      symmetry. apply FR. intros [v [e0 [I0 [X|X]]]].
      - apply crlPath_cut in X; [|assumption|assumption]. apply (NT v e0 I0). apply X.
      - symmetry in X. apply (tmp_not_path _ _ _ _ _ _ X). }
    assert (A2 : forall v e0, In (v, e0) us -> alookup (crlPath issuer v) d1 = alookup (crlPath issuer v) d).
    { intros v e0 I0. pose proof (fetchOne_frame sha256 lower Cert parseCRL checkSig cert issuer e u d (crlPath issuer v)) as FR.
      rewrite F in FR. cbn [fst] in FR. apply FR.
      - intros X. apply crlPath_cut in X; [|assumption|assumption]. apply (NT v e0 I0). symmetry. apply X.
      - intros X. symmetry in X. apply (tmp_not_path _ _ _ _ _ _ X). }
    assert (HD : fetched issuer cert d d' u e p au1) by (exists d, d1; auto).
    assert (TL : forall v e0 p0 aus, In (v, e0) us -> fetched issuer cert d1 d' v e0 p0 aus -> fetched issuer cert d d' v e0 p0 aus).
    { intros v e0 p0 aus I0 [x [y [X1 [X2 X3]]]]. exists x, y. split; [exact X1|]. split; [|exact X3]. rewrite X2. apply (A2 v e0 I0). }
    destruct (IH _ _ _ _ ND E) as [I1 I2]. split.
    - intros v a I. rewrite E3 in I. apply in_app_or in I. destruct I as [I|I].
      + apply in_map_iff in I. destruct I as [a0 [Q I]]. injection Q as <- <-. exists e, p, au1. split; [left; reflexivity|]. auto.
      + destruct (I1 v a I) as [e0 [p0 [aus [J1 [J2 J3]]]]]. exists e0, p0, aus. split; [right; exact J1|]. split; [eapply TL; eassumption|exact J3].
    - intros l L v e0 I. rewrite E2 in L. destruct r2 as [l2|]; [|discriminate]. injection L as <-. destruct I as [I|I].
      + injection I as <- <-. exists p, au1. split; [exact HD|]. split; [left; reflexivity|]. intros a Ia. rewrite E3. apply in_or_app; left.
        apply (in_map (fun a => (u, a))); exact Ia.
      + destruct (I2 l2 eq_refl v e0 I) as [p0 [aus [J1 [J2 J3]]]]. exists p0, aus. split; [eapply TL; eassumption|]. split; [right; exact J2|].
        intros a Ia. rewrite E3. apply in_or_app; right. apply J3; exact Ia.
  Qed.

  (** The issuers and the local names of their URLs are distinct. *)
  Definition distinct (js : list job) : Prop :=
    NoDup (map j_issuer js) /\
    forall j, In j js -> ~ In slash (j_issuer j) /\ NoDup (map (fun ue => makeFilename sha256 lower (fst ue)) (j_urls j)).

  Lemma fetchJobs_each : forall js d d' r au, distinct js ->
    fetchJobs js d = (d', r, au) ->
    (forall i u a, In (i, u, a) au -> exists j e p aus, In j js /\ j_issuer j = i /\ In (u, e) (j_urls j) /\
       fetched i (j_cert j) d d' u e p aus /\ In a aus) /\
    (forall ls, r = Some ls -> forall j, In j js -> exists l, In (j, l) ls /\
       forall u e, In (u, e) (j_urls j) -> exists p aus, fetched (j_issuer j) (j_cert j) d d' u e p aus /\ In (u, p) l /\
         forall a, In a aus -> In (j_issuer j, u, a) au).
  Proof using Type.
    induction js as [|j js IH]; intros d d' r au [ND HN] H; cbn [AggModel.fetchJobs] in H.
    { injection H as <- <- <-. split; [intros i u a []|intros l _ j []]. }
    destruct (fetchAll (j_cert j) (j_issuer j) (j_urls j) d) as [[d1 r1] au1] eqn:F.
    destruct (fetchJobs js d1) as [[d2 r2] au2] eqn:E.
    assert (E1 : d2 = d') by congruence. subst d2.
    assert (E2 : r = match r1, r2 with Some l, Some ls => Some ((j, l) :: ls) | _, _ => None end) by congruence.
    assert (E3 : au = map (fun a => (j_issuer j, fst a, snd a)) au1 ++ au2) by congruence.
    cbn [map] in ND. apply NoDup_cons_iff in ND. destruct ND as [NI ND].
    destruct (HN j (or_introl eq_refl)) as [SL NF].
    assert (D' : distinct js) by (split; [exact ND|intros j0 I0; apply HN; right; exact I0]).
    assert (NE : forall j0, In j0 js -> j_issuer j0 <> j_issuer j).
    { intros j0 I0 X. apply NI. rewrite <- X. apply in_map; exact I0. }
    assert (A1 : forall u e, In (u, e) (j_urls j) -> alookup (crlPath (j_issuer j) u) d1 = alookup (crlPath (j_issuer j) u) d').
    { intros u e I. pose proof (fetchJobs_frame sha256 lower Cert parseCRL checkSig js d1 (crlPath (j_issuer j) u)) as FR.
      rewrite E in FR. cbn [fst] in FR. symmetry. apply FR. intros j0 I0.
      apply (touched_other sha256 lower parseCRL (j_issuer j) (j_urls j) (j_issuer j0) u e); try assumption.
      - apply HN; right; exact I0.
      - intros X. apply (NE j0 I0). symmetry; exact X. }
    assert (A2 : forall j0 u e, In j0 js -> In (u, e) (j_urls j0) -> alookup (crlPath (j_issuer j0) u) d1 = alookup (crlPath (j_issuer j0) u) d).
    { intros j0 u e I0 I. pose proof (fetchAll_frame sha256 lower Cert parseCRL checkSig (j_cert j) (j_issuer j) (j_urls j) d (crlPath (j_issuer j0) u)) as FR.
      rewrite F in FR. cbn [fst] in FR. apply FR.
      apply (touched_other sha256 lower parseCRL (j_issuer j0) (j_urls j0) (j_issuer j) u e); try assumption.
      - apply HN; right; exact I0.
      - apply (NE j0 I0). }
    destruct (fetchAll_each _ _ SL _ _ _ _ _ NF F) as [F1 F2]. destruct (IH _ _ _ _ D' E) as [I1 I2].
    assert (HD : forall u e p aus, In (u, e) (j_urls j) -> fetched (j_issuer j) (j_cert j) d d1 u e p aus -> fetched (j_issuer j) (j_cert j) d d' u e p aus).
    { intros u e p aus I [x [y [X1 [X2 X3]]]]. exists x, y. split; [exact X1|]. split; [exact X2|]. rewrite X3. apply (A1 u e I). }
    assert (TL : forall j0 u e p aus, In j0 js -> In (u, e) (j_urls j0) -> fetched (j_issuer j0) (j_cert j0) d1 d' u e p aus ->
              fetched (j_issuer j0) (j_cert j0) d d' u e p aus).
    { intros j0 u e p aus I0 I [x [y [X1 [X2 X3]]]]. exists x, y. split; [exact X1|]. split; [|exact X3]. rewrite X2. apply (A2 j0 u e I0 I). }
    split.
    - intros i u a I. rewrite E3 in I. apply in_app_or in I. destruct I as [I|I].
      + apply in_map_iff in I. destruct I as [[u0 a0] [Q I]]. cbn [fst snd] in Q. injection Q as <- <- <-.
        destruct (F1 u0 a0 I) as [e [p [aus [J1 [J2 J3]]]]]. exists j, e, p, aus. split; [left; reflexivity|]. split; [reflexivity|].
        split; [exact J1|]. split; [apply HD; assumption|exact J3].
      + destruct (I1 i u a I) as [j0 [e [p [aus [J1 [J2 [J3 [J4 J5]]]]]]]]. exists j0, e, p, aus. split; [right; exact J1|]. split; [exact J2|].
        split; [exact J3|]. split; [|exact J5]. subst i. apply TL; assumption.
    - intros ls L j0 I0. rewrite E2 in L. destruct r1 as [l1|]; [|discriminate]. destruct r2 as [ls2|]; [|discriminate]. injection L as <-.
      destruct I0 as [<-|I0].
      + exists l1. split; [left; reflexivity|]. intros u e I. destruct (F2 l1 eq_refl u e I) as [p [aus [J1 [J2 J3]]]].
        exists p, aus. split; [apply HD; assumption|]. split; [exact J2|]. intros a Ia. rewrite E3. apply in_or_app; left.
        apply (in_map (fun a => (j_issuer j, fst a, snd a)) _ _ (J3 a Ia)).
      + destruct (I2 ls2 eq_refl j0 I0) as [l [J0 J]]. exists l. split; [right; exact J0|]. intros u e I. destruct (J u e I) as [p [aus [J1 [J2 J3]]]].
        exists p, aus. split; [apply TL; assumption|]. split; [exact J2|]. intros a Ia. rewrite E3. apply in_or_app; right. apply J3; exact Ia.
  Qed.

  (** ** Processing *)

  (** What is reported for one CRL. *)
  Definition procAudit (cert : Cert) (part : bool) (known : list bytes) (d : disk) (u : url) (p : option bytes) (e : procEnv) : list audit :=
    match p with
    | None => []
    | Some path =>
        match alookup path d with
        | None => [AuFailedVerifyPath]
        | Some f =>
            match (if pe_readErr e then None else loadCRL cert (f_data f)) with
            | None => [AuFailedVerifyPath]
            | Some c =>
                (if part && negb (idpCheck (u_norm u) known (pe_idp e)) then [AuWrongIDP] else []) ++
                match processCRL c with
                | None => [AuFailedProcess]
                | Some [] => [AuNoRevocations]
                | Some l => [AuValid (N.of_nat (length l)) (f_data f)]
                end
            end
        end
    end.

  Lemma processAll_each cert part known d : forall ps failed serials r au,
    processAll cert part known d ps failed serials = (r, au) ->
    (forall u a, In (u, a) au -> exists p e, In (u, p, e) ps /\ In a (procAudit cert part known d u p e)) /\
    (r <> None -> au = flat_map (fun x => map (fun a => (fst (fst x), a)) (procAudit cert part known d (fst (fst x)) (snd (fst x)) (snd x))) ps).
  Proof using Type.
    induction ps as [|[[u p] e] ps IH]; intros failed serials r au H; cbn [AggModel.processAll] in H.
    { injection H as <- <-. split; [intros u a []|reflexivity]. }
    destruct (pe_cancelled e).
    { injection H as <- <-. split; [intros v a []|congruence]. }
    assert (K : forall f' s' a', (let '(r0, au2) := processAll cert part known d ps f' s' in (r0, map (fun a : audit => (u, a)) a' ++ au2)) = (r, au) ->
              a' = procAudit cert part known d u p e ->
              (forall v a, In (v, a) au -> exists p0 e0, In (v, p0, e0) ((u, p, e) :: ps) /\ In a (procAudit cert part known d v p0 e0)) /\
              (r <> None -> au = flat_map (fun x => map (fun a => (fst (fst x), a)) (procAudit cert part known d (fst (fst x)) (snd (fst x)) (snd x))) ((u, p, e) :: ps))).
    { intros f' s' a' E ->. destruct (processAll cert part known d ps f' s') as [r0 au2] eqn:P.
      assert (R0 : r0 = r) by congruence. subst r0. assert (AU : au = map (fun a : audit => (u, a)) (procAudit cert part known d u p e) ++ au2) by congruence.
      destruct (IH _ _ _ _ P) as [I1 I2]. split.
      - intros v a I. rewrite AU in I. apply in_app_or in I. destruct I as [I|I].
        + apply in_map_iff in I. destruct I as [a0 [Q I]]. injection Q as <- <-. exists p, e. split; [left; reflexivity|exact I].
        + destruct (I1 v a I) as [p0 [e0 [J1 J2]]]. exists p0, e0. split; [right; exact J1|exact J2].
      - intros N. rewrite AU, (I2 N). reflexivity. }
    unfold procAudit in K at 1. destruct p as [path|]; [|apply (K _ _ _ H eq_refl)].
    destruct (alookup path d) as [f|] eqn:L; [|apply (K _ _ _ H eq_refl)].
    destruct (if pe_readErr e then None else loadCRL cert (f_data f)) as [c|]; [|apply (K _ _ _ H eq_refl)].
    destruct (processCRL c) as [[|x l]|]; apply (K _ _ _ H eq_refl).
  Qed.

  Lemma procAudit_truth j d0 d u p e : (forall q, p = Some q -> q = crlPath (j_issuer j) u) ->
    (In e (j_proc j) \/ e = mkProc false false None) ->
    forall a, In a (procAudit (j_cert j) (j_partitioned j) (knownUrls j) d u p e) -> truth j d0 d u a.
  Proof using Type.
    intros HP HE a I. unfold procAudit in I. destruct p as [path|]; [|destruct I]. rewrite (HP path eq_refl) in I.
    destruct (alookup (crlPath (j_issuer j) u) d) as [f|] eqn:L.
    2:{ destruct I as [<-|[]]. left. intros [f [c [X _]]]. congruence. }
    destruct (pe_readErr e) eqn:RE.
    { destruct I as [<-|[]]. right. exists e. split; [|exact RE]. destruct HE as [HE| ->]; [exact HE|discriminate RE]. }
    destruct (loadCRL (j_cert j) (f_data f)) as [c|] eqn:LC.
    2:{ destruct I as [<-|[]]. left. intros [f' [c [X [Y Z]]]]. assert (f' = f) by congruence. subst f'.
        rewrite (loadCRL_ok _ _ _ _ _ _ Y Z) in LC. discriminate. }
    apply loadCRL_inv in LC. destruct LC as [V1 V2].
    assert (SG : signedCrl j d u) by (exists f, c; auto).
    assert (HC : forall l, processCRL c = Some l -> hasCrl j d u l).
    { intros l P. exists f, c. split; [exact L|]. split; [exact V1|]. split; [exact V2|]. apply C30_entries_exact; exact P. }
    apply in_app_or in I. destruct I as [I|I].
    - destruct (j_partitioned j && negb (idpCheck (u_norm u) (knownUrls j) (pe_idp e))) eqn:B; [|destruct I]. destruct I as [<-|[]].
      apply andb_prop in B. destruct B as [B1 B2]. cbn [truth]. split; [exact B1|]. split; [exact SG|]. exists e. split; [exact HE|].
      intros PH. apply C56_idp_exact in PH. rewrite PH in B2. discriminate.
    - destruct (processCRL c) as [[|x l]|] eqn:P; destruct I as [<-|[]]; cbn [truth].
      + apply HC; reflexivity.
      + exists f, (x :: l). split; [exact L|]. split; [reflexivity|]. split; [apply HC; reflexivity|]. split; [discriminate|reflexivity].
      + split; [exact SG|]. intros l [f' [c' [X [Y [Z W]]]]]. assert (f' = f) by congruence. subst f'. assert (c' = c) by congruence. subst c'.
        apply C30_entries_exact in W. congruence.
  Qed.

  Lemma aggregateJobs_each : forall ls d r r1 os au,
    aggregateJobs ls d r = (r1, os, au) ->
    (forall i u a, In (i, u, a) au -> exists j l p e, In (j, l) ls /\ j_issuer j = i /\ In (u, p, e) (withProc l (j_proc j)) /\
       In a (procAudit (j_cert j) (j_partitioned j) (map (fun x => u_norm (fst x)) l) d u p e)) /\
    (NoDup (map (fun x => j_issuer (fst x)) ls) -> forall j l, In (j, l) ls -> In (j_issuer j, AgWritten) os ->
       forall u p e, In (u, p, e) (withProc l (j_proc j)) -> pe_readErr e = false /\ p <> None /\
       forall a, In a (procAudit (j_cert j) (j_partitioned j) (map (fun x => u_norm (fst x)) l) d u p e) -> In (j_issuer j, u, a) au).
  Proof using Type.
    induction ls as [|[j l] ls IH]; intros d r r1 os au H; cbn [AggModel.aggregateJobs] in H.
    { injection H as _ <- <-. split; [intros i u a []|intros _ j l []]. }
    assert (KN : map (fun p : url * option bytes * procEnv => u_norm (fst (fst p))) (withProc l (j_proc j)) = map (fun x : url * option bytes => u_norm (fst x)) l).
    { rewrite <- (withProc_fst l (j_proc j)) at 2. rewrite map_map. reflexivity. }
    unfold AggModel.aggregateOne in H. rewrite KN in H.
    destruct (processAll (j_cert j) (j_partitioned j) (map (fun x => u_norm (fst x)) l) d (withProc l (j_proc j)) false []) as [res au0] eqn:P.
    destruct (processAll_each _ _ _ _ _ _ _ _ _ P) as [P1 P2].
    set (o := match res with None => AgCancelled | Some (true, _) => AgIncomplete
              | Some (false, s) => snd (storeRevoked (j_issuer j) (j_storeErr j) s r) end).
    assert (HH : exists r2 os2 au2, ((o = AgFatal /\ os2 = [] /\ au2 = []) \/ aggregateJobs ls d r2 = (r1, os2, au2)) /\
              os = (j_issuer j, o) :: os2 /\ au = map (fun a => (j_issuer j, fst a, snd a)) au0 ++ au2).
    { unfold o. destruct res as [[[|] s]|].
      - destruct (aggregateJobs ls d r) as [[r3 os3] au3] eqn:E. exists r, os3, au3. split; [right; congruence|]. split; congruence.
      - destruct (storeRevoked (j_issuer j) (j_storeErr j) s r) as [r2 o2] eqn:SR. cbn [snd].
        unfold storeRevoked in SR. destruct (j_storeErr j) as [n|].
        + assert (o2 = AgFatal) by congruence. subst o2. exists r2, [], []. split; [left; auto|]. rewrite app_nil_r. split; congruence.
        + assert (o2 = AgWritten) by congruence. subst o2. destruct (aggregateJobs ls d r2) as [[r3 os3] au3] eqn:E.
          exists r2, os3, au3. split; [right; congruence|]. split; congruence.
      - destruct (aggregateJobs ls d r) as [[r3 os3] au3] eqn:E. exists r, os3, au3. split; [right; congruence|]. split; congruence. }
    destruct HH as [r2 [os2 [au2 [HA [HO HU]]]]].
    assert (IH1 : forall i u a, In (i, u, a) au2 -> exists j l p e, In (j, l) ls /\ j_issuer j = i /\ In (u, p, e) (withProc l (j_proc j)) /\
       In a (procAudit (j_cert j) (j_partitioned j) (map (fun x => u_norm (fst x)) l) d u p e)).
    { destruct HA as [[_ [_ ->]]|HA]; [intros i u a []|]. apply (IH _ _ _ _ _ HA). }
    split.
    - intros i u a I. rewrite HU in I. apply in_app_or in I. destruct I as [I|I].
      + apply in_map_iff in I. destruct I as [[u0 a0] [Q I]]. cbn [fst snd] in Q. injection Q as <- <- <-.
        destruct (P1 u0 a0 I) as [p [e [J1 J2]]]. exists j, l, p, e. split; [left; reflexivity|]. auto.
      + destruct (IH1 i u a I) as [j0 [l0 [p [e [J0 J]]]]]. exists j0, l0, p, e. split; [right; exact J0|exact J].
    - intros ND j0 l0 I0 W u p e I. cbn [map fst] in ND. apply NoDup_cons_iff in ND. destruct ND as [NI ND].
      assert (OS2 : forall i o0, In (i, o0) os2 -> In i (map (fun x => j_issuer (fst x)) ls)).
      { destruct HA as [[_ [-> _]]|HA]; [intros i o0 []|]. apply (aggregateJobs_issuers _ _ _ _ _ _ _ _ _ HA). }
      rewrite HO in W. destruct I0 as [I0|I0].
      + injection I0 as <- <-. destruct W as [W|W]; [|exfalso; apply NI; apply (OS2 _ _ W)].
        assert (OW : o = AgWritten) by congruence. unfold o in OW.
        destruct res as [[[|] s]|]; [discriminate OW| |discriminate OW].
        assert (AE := P2 ltac:(discriminate)).
        assert (CI : pe_readErr e = false /\ p <> None).
        { clear -P I. revert P. generalize (map (fun x : url * option bytes => u_norm (fst x)) l) as known. intros known.
          assert (G : forall ps failed serials s0 au1, processAll (j_cert j) (j_partitioned j) known d ps failed serials = (Some (false, s0), au1) ->
                    failed = false /\ forall u p e, In (u, p, e) ps -> pe_readErr e = false /\ p <> None).
          { induction ps as [|[[u0 p0] e0] ps IHp]; intros failed serials s0 au1 H; cbn [AggModel.processAll] in H.
            - split; [congruence|intros ? ? ? []].
            - destruct (pe_cancelled e0); [discriminate|].
              assert (X : forall f' s' a', (let '(r0, au2) := processAll (j_cert j) (j_partitioned j) known d ps f' s' in
                        (r0, map (fun a : audit => (u0, a)) a' ++ au2)) = (Some (false, s0), au1) ->
                        f' = false /\ forall u p e, In (u, p, e) ps -> pe_readErr e = false /\ p <> None).
              { intros f' s' a' E. destruct (processAll (j_cert j) (j_partitioned j) known d ps f' s') as [r0 au2] eqn:E2.
                assert (r0 = Some (false, s0)) by congruence. subst r0. apply (IHp _ _ _ _ E2). }
              assert (Y : failed = false /\ (forall u p e, In (u, p, e) ps -> pe_readErr e = false /\ p <> None) /\ pe_readErr e0 = false /\ p0 <> None).
              { destruct p0 as [path|]; [|destruct (X _ _ _ H); discriminate].
                destruct (alookup path d) as [f|]; [|destruct (X _ _ _ H); discriminate].
                destruct (pe_readErr e0); [destruct (X _ _ _ H); discriminate|].
                destruct (loadCRL (j_cert j) (f_data f)) as [c|]; [|destruct (X _ _ _ H); discriminate].
                destruct (processCRL c) as [[|y ll]|]; destruct (X _ _ _ H) as [X1 X2]; try discriminate;
                  (split; [exact X1|split; [exact X2|split; [reflexivity|discriminate]]]). }
              destruct Y as [Y1 [Y2 Y3]]. split; [exact Y1|]. intros v q e' [Q|I']; [injection Q as _ <- <-; exact Y3|apply (Y2 _ _ _ I')]. }
          intros P. destruct (G _ _ _ _ _ P) as [_ G2]. apply (G2 _ _ _ I). }
        split; [apply CI|]. split; [apply CI|]. intros a Ia. rewrite HU. apply in_or_app; left.
        apply (in_map (fun a => (j_issuer j, fst a, snd a)) au0 (u, a)). rewrite AE. apply in_flat_map. exists (u, p, e). split; [exact I|].
        cbn [fst snd]. apply (in_map (fun a => (u, a))). exact Ia.
      + assert (NE : j_issuer j0 <> j_issuer j).
        { intros X. apply NI. rewrite <- X. apply (in_map (fun x : job * list (url * option bytes) => j_issuer (fst x)) ls (j0, l0)). exact I0. }
        destruct W as [W|W]; [exfalso; apply NE; congruence|].
        destruct HA as [[_ [X _]]|HA]; [rewrite X in W; destruct W|].
        destruct (IH _ _ _ _ _ HA) as [_ I2]. destruct (I2 ND j0 l0 I0 W u p e I) as [X1 [X2 X3]].
        split; [exact X1|]. split; [exact X2|]. intros a Ia. rewrite HU. apply in_or_app; right. apply X3; exact Ia.
  Qed.

  Lemma known_same (j : job) (l : list (url * option bytes)) : map fst l = map fst (j_urls j) ->
    map (fun x => u_norm (fst x)) l = knownUrls j.
  Proof using Type. intros E. unfold knownUrls. rewrite <- (map_map fst u_norm l), <- (map_map fst u_norm (j_urls j)), E. reflexivity. Qed.

  (** ** C72 *)

  (** Every entry of the report is about a URL of one of the issuers and says
      something true of the CRL directory that the run leaves. *)
  Theorem C72_entries_are_true : forall js d r d' r' os au,
    aggregateCrls js d r = (d', r', os, au) -> distinct js ->
    forall i u a, In (i, u, a) au ->
    exists j, In j js /\ j_issuer j = i /\ In u (map fst (j_urls j)) /\ truth j d d' u a.
  Proof using Type.
    intros js d r d' r' os au H D i u a I.
    assert (FE : forall res au1, fetchJobs js d = (d', res, au1) -> In (i, u, a) au1 ->
              exists j, In j js /\ j_issuer j = i /\ In u (map fst (j_urls j)) /\ truth j d d' u a).
    { intros res au1 F I1. destruct (fetchJobs_each _ _ _ _ _ D F) as [F1 _].
      destruct (F1 i u a I1) as [j [e [p [aus [J1 [J2 [J3 [[x [y [X1 [X2 X3]]]] J5]]]]]]]].
      exists j. split; [exact J1|]. split; [exact J2|]. split; [apply (in_map fst) in J3; exact J3|].
      destruct (fetchOne_truth _ _ _ _ _ _ _ _ X1) as [T _]. specialize (T a J5). rewrite <- J2 in *.
      destruct a; cbn [fetchTruth truth] in *; try contradiction.
      - rewrite X2, X3 in T. destruct T as [T1 T2]. split; [exact T1|]. exists e. split; [exact J3|exact T2].
      - rewrite X2, X3 in T. exact T.
      - destruct T as [_ [f [T1 [T2 T3]]]]. rewrite X3 in T1. split.
        + apply crlValid_iff in T2. destruct T2 as [c [V1 V2]]. exists f, c. auto.
        + exists e, f. auto. }
    unfold AggModel.aggregateCrls in H. destruct (fetchJobs js d) as [[d1 res] au1] eqn:F. destruct res as [ls|].
    - destruct (aggregateJobs ls d1 r) as [[r1 os1] au2] eqn:A.
      assert (d1 = d') by congruence. subst d1. assert (AU : au = au1 ++ au2) by congruence. rewrite AU in I.
      apply in_app_or in I. destruct I as [I|I]; [apply (FE _ _ eq_refl I)|].
      destruct (aggregateJobs_each _ _ _ _ _ _ A) as [A1 _].
      destruct (A1 i u a I) as [j [l [p [e [J1 [J2 [J3 J4]]]]]]].
      destruct (fetchJobs_spec _ _ _ _ _ _ _ _ _ _ F) as [M P]. destruct (P j l J1) as [U Q].
      rewrite (known_same j l U) in J4. apply withProc_in in J3. destruct J3 as [J3 JE].
      exists j. split; [rewrite <- M; apply (in_map fst) in J1; exact J1|]. split; [exact J2|].
      split; [rewrite <- U; apply (in_map fst) in J3; exact J3|].
      eapply procAudit_truth; [|exact JE|exact J4]. intros q ->. apply Q; exact J3.
    - assert (d1 = d') by congruence. subst d1. assert (AU : au = au1) by congruence. rewrite AU in I. apply (FE _ _ eq_refl I).
  Qed.

  Definition total (ns : list N) : N := fold_right N.add 0%N ns.

  Lemma withProc_nth : forall l ps k u p, nth_error l k = Some (u, p) ->
    In (u, p, nth k ps (mkProc false false None)) (withProc l ps).
  Proof using Type.
    induction l as [|x l IH]; intros ps k u p H; [destruct k; discriminate H|]. cbn [withProc]. destruct k as [|k]; cbn [nth_error] in H.
    - injection H as ->. left. destruct ps; reflexivity.
    - right. specialize (IH (tl ps) k u p H). destruct ps as [|y ps]; cbn [tl nth] in *; [destruct k; exact IH|exact IH].
  Qed.

  Lemma written_job js d r d' r' os au : aggregateCrls js d r = (d', r', os, au) -> distinct js ->
    forall j, In j js -> In (j_issuer j, AgWritten) os ->
    exists l, map fst l = map fst (j_urls j) /\
      (forall u p e, In (u, p, e) (withProc l (j_proc j)) -> p = Some (crlPath (j_issuer j) u) /\ pe_readErr e = false /\
         forall a, In a (procAudit (j_cert j) (j_partitioned j) (knownUrls j) d' u p e) -> In (j_issuer j, u, a) au) /\
      (forall u e, In (u, e) (j_urls j) -> exists p aus, fetched (j_issuer j) (j_cert j) d d' u e p aus /\ p <> None /\
         forall a, In a aus -> In (j_issuer j, u, a) au).
  Proof using Type.
    intros H D j I W. apply run_split in H. destruct H as [[-> _]|[ls [au1 [au2 [F [A ->]]]]]]; [destruct W|].
    destruct (fetchJobs_each _ _ _ _ _ D F) as [_ F2]. destruct (F2 ls eq_refl j I) as [l [J0 J]]. clear F2.
    destruct (fetchJobs_spec _ _ _ _ _ _ _ _ _ _ F) as [M P]. destruct (P j l J0) as [U Q].
    assert (N : NoDup (map (fun x => j_issuer (fst x)) ls)).
    { rewrite <- (map_map fst j_issuer). rewrite M. apply D. }
    destruct (aggregateJobs_each _ _ _ _ _ _ A) as [_ A2]. specialize (A2 N j l J0 W).
    exists l. split; [exact U|]. split.
    - intros u p e X. destruct (A2 u p e X) as [X1 [X2 X3]]. pose proof (withProc_in _ _ _ _ _ X) as [Y _].
      split; [destruct p as [q|]; [rewrite (Q u q Y); reflexivity|congruence]|]. split; [exact X1|].
      intros a Ia. rewrite (known_same j l U) in X3. apply in_or_app; right. apply X3; exact Ia.
    - intros u e X. destruct (J u e X) as [p [aus [Y1 [Y2 Y3]]]]. exists p, aus. split; [exact Y1|]. split.
      + apply (In_nth_error) in Y2. destruct Y2 as [k Y2]. apply (withProc_nth l (j_proc j)) in Y2. apply (A2 _ _ _ Y2).
      + intros a Ia. apply in_or_app; left. apply Y3; exact Ia.
  Qed.

  (** If the list of an issuer is written, the report has for each of its URLs
      either the number of its revocations, or that there are none, and these
      numbers add up to the lines of the list. *)
  Theorem C72_counts_add_up : forall js d r d' r' os au,
    aggregateCrls js d r = (d', r', os, au) -> distinct js ->
    forall j, In j js -> In (j_issuer j, AgWritten) os ->
    exists data ns, alookup (j_issuer j) r' = Some data /\
      N.of_nat (count_occ Byte.byte_eq_dec data nl) = total ns /\
      Forall2 (fun ue n => (n = 0%N /\ In (j_issuer j, fst ue, AuNoRevocations) au) \/
                           (0 < n)%N /\ exists crl, In (j_issuer j, fst ue, AuValid n crl) au) (j_urls j) ns.
  Proof using Type.
    intros js d r d' r' os au H D j I W.
    destruct (written_file sha256 lower Cert parseCRL checkSig js d r d' r' os au H (proj1 D) j I W) as [ls [L F]].
    destruct (written_job _ _ _ _ _ _ _ H D j I W) as [l [U [P _]]].
    exists (revokedFile (concat ls)), (map (fun l => N.of_nat (length l)) ls). split; [exact L|]. split.
    - rewrite revokedFile_newlines. clear.
      induction ls as [|a ls IH]; [reflexivity|]. cbn [concat map]. rewrite app_length. unfold total in *. cbn [fold_right]. rewrite <- IH, Nat2N.inj_add. reflexivity.
    - assert (E : forall u ls0, In u (map fst l) -> hasCrl j d' u ls0 ->
                (N.of_nat (length ls0) = 0%N /\ In (j_issuer j, u, AuNoRevocations) au) \/
                (0 < N.of_nat (length ls0))%N /\ exists crl, In (j_issuer j, u, AuValid (N.of_nat (length ls0)) crl) au).
      { intros u ls0 Iu [f [c [X1 [X2 [X3 X4]]]]].
        assert (Y : exists p e, In (u, p, e) (withProc l (j_proc j))).
        { apply in_map_iff in Iu. destruct Iu as [[u0 p0] [Q Iu]]. cbn [fst] in Q. subst u0. apply In_nth_error in Iu. destruct Iu as [k Iu].
          eexists _, _. apply (withProc_nth _ (j_proc j) _ _ _ Iu). }
        destruct Y as [p [e Y]]. destruct (P u p e Y) as [Y1 [Y2 Y3]].
        apply C30_entries_exact in X4.
        assert (PA : exists pre, procAudit (j_cert j) (j_partitioned j) (knownUrls j) d' u p e = pre ++
                  match ls0 with [] => [AuNoRevocations] | _ => [AuValid (N.of_nat (length ls0)) (f_data f)] end).
        { unfold procAudit. rewrite Y1, X1, Y2, (loadCRL_ok _ _ _ _ _ _ X2 X3), X4. eexists. destruct ls0; reflexivity. }
        destruct PA as [pre PA]. rewrite PA in Y3. destruct ls0 as [|x ls0].
        - left. split; [reflexivity|]. apply Y3. apply in_or_app; right; left; reflexivity.
        - right. split; [cbn [length]; lia|]. exists (f_data f). apply Y3. apply in_or_app; right; left; reflexivity. }
      rewrite U in E. clear -E F. revert F E. generalize (j_urls j) as us. intros us F. induction F as [|ue l0 us ls0 F1 F IH]; intros E; cbn [map]; constructor.
      + apply E; [left; reflexivity|exact F1].
      + apply IH. intros u ls1 Iu. apply E. right; exact Iu.
  Qed.

  (** Whatever the report says against an issuer whose list is written concerns
      the download only: no entry says that a kept CRL could not be read,
      verified or processed. *)
  Theorem C72_written_not_failed : forall js d r d' r' os au,
    aggregateCrls js d r = (d', r', os, au) -> distinct js ->
    forall j, In j js -> In (j_issuer j, AgWritten) os ->
    forall u, ~ In (j_issuer j, u, AuFailedVerifyPath) au /\ ~ In (j_issuer j, u, AuFailedProcess) au.
  Proof using Type.
    intros js d r d' r' os au H D j I W.
    assert (G : forall u a, In (j_issuer j, u, a) au -> a = AuFailedVerifyPath \/ a = AuFailedProcess -> False).
    { intros u a Ia HA. pose proof H as H0. apply run_split in H0. destruct H0 as [[-> _]|[ls [au1 [au2 [F [A ->]]]]]]; [destruct W|].
      destruct (written_job _ _ _ _ _ _ _ H D j I W) as [l0 [U0 [P0 _]]].
      destruct (written_file sha256 lower Cert parseCRL checkSig js d r d' r' os _ H (proj1 D) j I W) as [lss [_ HC]].
      apply in_app_or in Ia. destruct Ia as [Ia|Ia].
      - destruct (fetchJobs_each _ _ _ _ _ D F) as [F1 _].
        destruct (F1 _ u a Ia) as [j0 [e [p [aus [_ [_ [_ [[x [y [X1 _]]] J5]]]]]]]].
        destruct (fetchOne_truth _ _ _ _ _ _ _ _ X1) as [T _]. specialize (T a J5).
        destruct HA as [->| ->]; exact T.
      - destruct (aggregateJobs_each _ _ _ _ _ _ A) as [A1 A2].
        destruct (A1 _ u a Ia) as [j0 [l [p [e [J1 [J2 [J3 J4]]]]]]].
        destruct (fetchJobs_spec _ _ _ _ _ _ _ _ _ _ F) as [M P]. destruct (P j0 l J1) as [U Q].
        assert (N : NoDup (map (fun x => j_issuer (fst x)) ls)).
        { rewrite <- (map_map fst j_issuer). rewrite M. apply D. }
        assert (j0 = j).
        { assert (J0 : In j0 js) by (rewrite <- M; apply (in_map fst) in J1; exact J1). clear -D I J0 J2. destruct D as [ND _].
          induction js as [|k js IH]; [destruct I|]. cbn [map] in ND. apply NoDup_cons_iff in ND. destruct ND as [NI ND].
          destruct I as [->|I], J0 as [->|J0]; [reflexivity| | |apply IH; assumption]; exfalso; apply NI.
          - rewrite <- J2. apply in_map; exact J0.
          - rewrite J2. apply in_map; exact I. }
        subst j0. destruct (A2 N j l J1 W u p e J3) as [X1 [X2 _]].
        pose proof (withProc_in _ _ _ _ _ J3) as [Y _]. destruct p as [q|]; [|congruence]. rewrite (Q u q Y) in J4.
        assert (X : exists l0, hasCrl j d' u l0).
        { assert (Iu : In u (map fst (j_urls j))) by (rewrite <- U; apply (in_map fst) in Y; exact Y). clear -HC Iu.
          induction HC as [|ue l0 us ls0 F1 F IH]; [destruct Iu|]. cbn [map] in Iu. destruct Iu as [<-|Iu]; [exists l0; exact F1|apply IH; exact Iu]. }
        destruct X as [l1 [f [c [V1 [V2 [V3 V4]]]]]]. apply C30_entries_exact in V4.
        unfold procAudit in J4. rewrite V1, X1, (loadCRL_ok _ _ _ _ _ _ V2 V3), V4 in J4.
        apply in_app_or in J4. destruct J4 as [J4|J4].
        + destruct (_ && _); [|destruct J4]. destruct J4 as [<-|[]]. destruct HA; discriminate.
        + destruct l1; destruct J4 as [<-|[]]; destruct HA; discriminate. }
    intros u. split; intros X; apply (G u _ X); auto.
  Qed.

  (** A CRL of such an issuer that was last changed more than fourteen days ago
      is reported. *)
  Theorem C72_old_is_reported : forall js d r d' r' os au,
    aggregateCrls js d r = (d', r', os, au) -> distinct js ->
    forall j, In j js -> In (j_issuer j, AgWritten) os ->
    forall u e f, In (u, e) (j_urls j) -> alookup (crlPath (j_issuer j) u) d' = Some f ->
      (14 * day < fe_now e - f_mtime f)%Z -> In (j_issuer j, u, AuOld) au.
  Proof using Type.
    intros js d r d' r' os au H D j I W u e f Iu L C.
    destruct (written_job _ _ _ _ _ _ _ H D j I W) as [l [_ [_ P]]].
    destruct (P u e Iu) as [p [aus [[x [y [X1 [X2 X3]]]] [Y2 Y3]]]].
    apply Y3. destruct (fetchOne_truth _ _ _ _ _ _ _ _ X1) as [_ T]. apply (T f Y2); [|exact C]. rewrite X3. exact L.
  Qed.

  (** So is, for an issuer with partitioned CRLs, a CRL that does not name the
      URL it came from, or names another URL of the issuer. *)
  Theorem C72_wrong_point_is_reported : forall js d r d' r' os au,
    aggregateCrls js d r = (d', r', os, au) -> distinct js ->
    forall j, In j js -> In (j_issuer j, AgWritten) os -> j_partitioned j = true ->
    forall k u e, nth_error (j_urls j) k = Some (u, e) ->
      ~ pointsHere (knownUrls j) (u_norm u) (pe_idp (nth k (j_proc j) (mkProc false false None))) ->
      In (j_issuer j, u, AuWrongIDP) au.
  Proof using Type.
    intros js d r d' r' os au H D j I W PT k u e K NP.
    destruct (written_job _ _ _ _ _ _ _ H D j I W) as [l [U [P _]]].
    destruct (written_file sha256 lower Cert parseCRL checkSig js d r d' r' os _ H (proj1 D) j I W) as [lss [_ HC]].
    assert (KL : exists p, nth_error l k = Some (u, p)).
    { assert (X : nth_error (map fst l) k = Some u) by (rewrite U; apply (map_nth_error fst) in K; exact K).
      clear -X. revert k X. induction l as [|[v p] l IH]; intros [|k] X; cbn [map fst nth_error] in *; try discriminate.
      - injection X as ->. exists p; reflexivity.
      - apply IH; exact X. }
    destruct KL as [p KL]. apply (withProc_nth l (j_proc j)) in KL. destruct (P _ _ _ KL) as [Y1 [Y2 Y3]]. apply Y3.
    assert (X : exists l0, hasCrl j d' u l0).
    { assert (Iu : In u (map fst (j_urls j))) by (apply nth_error_In in K; apply (in_map fst) in K; exact K). clear -HC Iu.
      induction HC as [|ue l0 us ls0 F1 F IH]; [destruct Iu|]. cbn [map] in Iu. destruct Iu as [<-|Iu]; [exists l0; exact F1|apply IH; exact Iu]. }
    destruct X as [l1 [f [c [V1 [V2 [V3 V4]]]]]].
    unfold procAudit. rewrite Y1, V1, Y2, (loadCRL_ok _ _ _ _ _ _ V2 V3), PT. apply in_or_app; left. cbn [andb].
    destruct (idpCheck (u_norm u) (knownUrls j) (pe_idp (nth k (j_proc j) (mkProc false false None)))) eqn:C; [|left; reflexivity].
    exfalso. apply NP. apply C56_idp_exact. exact C.
  Qed.
End C72.
Print Assumptions C72_entries_are_true.
Print Assumptions C72_counts_add_up.
Print Assumptions C72_written_not_failed.
Print Assumptions C72_old_is_reported.
Print Assumptions C72_wrong_point_is_reported.

(** ** A run *)

(** "I" has three CRLs: one is fetched, fifteen days old and has two entries;
    one cannot be fetched, but an earlier run left a copy with one entry; one has
    no entries.  "J" has a CRL that no earlier run left and that cannot be
    fetched. *)
Definition xLate (e : fetchEnv) : fetchEnv := mkFetch false false (fe_dv e) false (15 * day).
Definition xI3 := xUrl (B "i3.crl").
Definition xJobs : list (job byte) :=
  [mkJob (B "I") "K"%byte true [(xI1, xLate (xServe (B "C1abK"))); (xI2, xFails); (xI3, xServe (B "C1K"))]
     [mkProc false false (Some [Some (u_norm xI1)]); mkProc false false (Some [Some (u_norm xI2); Some (u_norm xI3)]);
      mkProc false false (Some [None; Some (u_norm xI3); Some (B "http://else")])] None;
   xJob (B "J") "L" [(xJ1, xFails)]].
Definition xKept : disk := [(crlPath xHash (fun s => s) (B "I") xI2, mkFile (B "C0cK") 10%Z)].

(** The hypotheses of the theorems can be met. *)
Example C72_case : distinct xHash (fun s => s) byte xJobs /\
  let '(d, r, os, au) := xRun xJobs xKept [] in
  os = [(B "I", AgWritten); (B "J", AgIncomplete)] /\
  alookup (B "I") r = Some (B "0061" ++ [nl] ++ B "0062" ++ [nl] ++ B "0063" ++ [nl]) /\
  au = [(B "I", xI1, AuOld); (B "I", xI2, AuFailedDownload); (B "J", xJ1, AuFailedDownload);
        (B "I", xI1, AuValid 2 (B "C1abK")); (B "I", xI2, AuWrongIDP); (B "I", xI2, AuValid 1 (B "C0cK")); (B "I", xI3, AuNoRevocations)].
Proof.
  split; [|vm_compute; auto]. split.
  - vm_compute. constructor; [intros [X|[]]; discriminate|]. constructor; [intros []|constructor].
  - intros j [<-|[<-|[]]]; (split; [intros [X|[]]; discriminate|]); vm_compute.
    + constructor; [intros [X|[X|[]]]; discriminate|]. constructor; [intros [X|[]]; discriminate|]. constructor; [intros []|constructor].
    + constructor; [intros []|constructor].
Qed.

(** A failed download in the report does not mean that the list of the issuer is
    missing: it is written from the copy that an earlier run left. *)
Theorem C72_failure_means_missing_refuted : exists js d d' r' os au i u,
  distinct xHash (fun s => s) byte js /\ xRun js d [] = (d', r', os, au) /\
  In (i, u, AuFailedDownload) au /\ In (i, AgWritten) os /\ exists data, alookup i r' = Some data /\ data <> [].
Proof.
  exists xJobs, xKept. destruct C72_case as [D _]. eexists _, _, _, _, (B "I"), xI2. split; [exact D|].
  split; [vm_compute; reflexivity|]. split; [right; left; reflexivity|]. split; [left; reflexivity|].
  eexists. split; [reflexivity|]. discriminate.
Qed.
Print Assumptions C72_failure_means_missing_refuted.
