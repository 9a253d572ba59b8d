(** * Facts about the downloader and aggregate-crls *)
From Verif Require Import Base MerkleModel SerialModel SerialProofs StoreModel StoreProofs AggModel.
From Coq Require Import Strings.Byte.

(** ** Names *)

Lemma trimSuffix_legal suffix s : forallb legal s = true -> forallb legal (trimSuffix suffix s) = true.
Proof.
  intros H. unfold trimSuffix. destruct (_ && _); [|exact H].
  rewrite forallb_forall in *. intros c Hc. apply H.
  rewrite <- (firstn_skipn (length s - length suffix) s). apply in_or_app; left; exact Hc.
Qed.

Lemma filter_legal s : forallb legal (filter legal s) = true.
Proof. apply forallb_forall. intros c Hc. apply filter_In in Hc. apply Hc. Qed.

Lemma hexDigit_legal n : legal (hexDigit n) = true.
Proof.
  unfold hexDigit. set (l := B "0123456789abcdef"). assert (H : forallb legal l = true) by reflexivity.
  destruct (nth_in_or_default (N.to_nat n) l "0"%byte) as [I| ->]; [|reflexivity].
  rewrite forallb_forall in H. apply H; exact I.
Qed.

Lemma hexEncode_legal s : forallb legal (hexEncode s) = true.
Proof.
  induction s as [|b s IH]; [reflexivity|]. unfold hexEncode in *. cbn [flat_map].
  rewrite forallb_app, IH, andb_true_r. unfold hexByte. cbn [forallb]. rewrite !hexDigit_legal. reflexivity.
Qed.

Lemma makeFilename_legal sha256 lower u : forallb legal (makeFilename sha256 lower u) = true.
Proof.
  unfold makeFilename. rewrite !forallb_app, hexEncode_legal.
  rewrite trimSuffix_legal by apply filter_legal. reflexivity.
Qed.

Lemma makeFilename_tail sha256 lower u : exists pre,
  makeFilename sha256 lower u = pre ++ hexEncode (firstn 8 (sha256 (u_norm u))) ++ B ".crl".
Proof. unfold makeFilename. eexists. rewrite (app_assoc _ (B "-")). reflexivity. Qed.

Lemma app_tail {A} (x y x' y' : list A) : x ++ y = x' ++ y' -> length y = length y' -> x = x' /\ y = y'.
Proof.
  intros E L. apply app_cut; [exact E|]. apply (f_equal (@length A)) in E. rewrite !app_length in E. lia.
Qed.

Lemma hexEncode_inj s t : hexEncode s = hexEncode t -> s = t.
Proof. intros E. apply (f_equal hexDecode) in E. rewrite !hexDecode_encode in E. congruence. Qed.

Lemma legal_not_slash c : legal c = true -> c <> slash.
Proof. intros H ->. discriminate H. Qed.

(** ** The downloader *)

Lemma copyChunks_data now : forall chunks cur, snd (copyChunks now cur chunks) = cur ++ concat chunks.
Proof.
  induction chunks as [|c chunks IH]; intros cur; cbn [copyChunks].
  - cbn. rewrite app_nil_r. reflexivity.
  - specialize (IH (cur ++ c)). destruct (copyChunks now (cur ++ c) chunks) as [tr l]. cbn [snd] in *.
    rewrite IH. cbn [concat]. rewrite app_assoc. reflexivity.
Qed.

Lemma last_cons_def {A} : forall (l : list A) a d, last (a :: l) d = last l a.
Proof.
  induction l as [|b l IH]; intros a d; [reflexivity|].
  change (last (a :: b :: l) d) with (last (b :: l) d). rewrite !IH. reflexivity.
Qed.

Lemma copyChunks_last now : forall chunks cur f, f_data f = cur ->
  exists g, last (fst (copyChunks now cur chunks)) (Some f) = Some g /\ f_data g = cur ++ concat chunks.
Proof.
  induction chunks as [|c chunks IH]; intros cur f E; cbn [copyChunks].
  - exists f. cbn. rewrite app_nil_r. auto.
  - specialize (IH (cur ++ c) (mkFile (cur ++ c) now) eq_refl).
    destruct (copyChunks now (cur ++ c) chunks) as [tr l]. cbn [fst] in *. rewrite last_cons_def.
    destruct IH as [g [G1 G2]]. exists g. split; [exact G1|]. rewrite G2. cbn [concat]. rewrite app_assoc. reflexivity.
Qed.

(** ** One verified download *)

(** A file left at tmpPath by an earlier run does not look like what the server now has:
    it has another length or is older. *)
Definition replaces (env : dlEnv) (t : option file) : Prop := forall f h m,
  t = Some f -> de_statErr env = false -> de_head env = Some h -> hr_lastMod h = Some m -> (m <= f_mtime f)%Z ->
  hr_length h <> Some (Z.of_nat (length (f_data f))).

Lemma replaces_none env : replaces env None.
Proof. intros f h m E. discriminate E. Qed.

Lemma replaces_action env t : replaces env t -> fst (fst (determineAction (onDisk env t) (de_head env))) <> AUpToDate.
Proof.
  intros R. unfold onDisk. destruct t as [f|]; [|discriminate]. destruct (de_statErr env) eqn:SE; [discriminate|].
  cbn [determineAction]. destruct (de_head env) as [h|] eqn:H; [|discriminate]. destruct (hr_lastMod h) as [m|] eqn:M; [|discriminate].
  destruct (hr_length h) as [k|] eqn:K; [|discriminate]. destruct (Z.ltb_spec (f_mtime f) m) as [L|L]; [discriminate|].
  destruct (Z.eqb_spec k (Z.of_nat (length (f_data f)))) as [->|N]; [|destruct (_ && _); discriminate].
  destruct (R f h m eq_refl SE H M L). exact K.
Qed.

Section DV.
  Variable valid : bytes -> bool.

  Definition good (o : option file) : Prop := exists f, o = Some f /\ valid (f_data f) = true.

  Lemma isValid_good b o : isValid valid b o = true -> good o.
  Proof using Type.
    destruct o as [f|]; [|discriminate]. cbn [isValid]. intros H. apply andb_prop in H. exists f. split; [reflexivity|apply H].
  Qed.

  Lemma dv_spec n e s :
    let '(trace, s', ok, err, au) := downloadAndVerify valid n e s in
    (forall x, In x trace -> fs_final x = fs_final s \/ good (fs_final x)) /\
    In s' trace /\
    (ok = true -> good (fs_final s')) /\
    (err = true -> fs_final s' = fs_final s) /\
    (ok = false -> err = true /\ (good (fs_final s') -> dv_finalReadErr e = true)) /\
    (dv_removeErr e = false -> fs_tmp s' = None) /\
    (ok = false -> au = [] -> dv_renameErr e = true).
  Proof using Type.
    unfold downloadAndVerify.
    destruct (downloadFileSync n (dv_attempts e) (fs_tmp s)) as [[tr t] dlOk].
    set (trace := map (fun t0 => mkFS t0 (fs_final s)) tr).
    assert (T : forall x, In x trace -> fs_final x = fs_final s \/ good (fs_final x)).
    { intros x Hx. unfold trace in Hx. apply in_map_iff in Hx. destruct Hx as [t0 [<- _]]. left; reflexivity. }
    assert (F : forall (au : list audit), (au = [] -> dv_renameErr e = true) ->
      let ok := isValid valid (dv_finalReadErr e) (fs_final (mkFS t (fs_final s))) in
      let s' := if dv_removeErr e then mkFS t (fs_final s) else mkFS None (fs_final s) in
      (forall x, In x (trace ++ [s']) -> fs_final x = fs_final s \/ good (fs_final x)) /\ In s' (trace ++ [s']) /\
      (ok = true -> good (fs_final s')) /\ (true = true -> fs_final s' = fs_final s) /\
      (ok = false -> true = true /\ (good (fs_final s') -> dv_finalReadErr e = true)) /\
      (dv_removeErr e = false -> fs_tmp s' = None) /\ (ok = false -> au = [] -> dv_renameErr e = true)).
    { intros au AU ok s'. assert (FS : fs_final s' = fs_final s) by (unfold s'; destruct (dv_removeErr e); reflexivity).
      split. { intros x Hx. apply in_app_or in Hx. destruct Hx as [Hx|[<-|[]]]; [apply T; exact Hx|left; exact FS]. }
      split. { apply in_or_app; right; left; reflexivity. }
      split. { intros H. rewrite FS. apply (isValid_good _ _ H). }
      split. { intros _; exact FS. }
      split. { intros H. split; [reflexivity|]. rewrite FS. intros [f [E V]]. unfold ok in H. cbn [fs_final] in H. rewrite E in H.
               cbn [isValid] in H. rewrite V, andb_true_r in H. destruct (dv_finalReadErr e); [reflexivity|discriminate H]. }
      split. { unfold s'. intros ->. reflexivity. }
      intros _. exact AU. }
    cbv zeta. destruct dlOk; cbn [negb]; [|apply (F [AuFailedDownload]); discriminate].
    destruct (isValid valid (dv_tmpReadErr e) t) eqn:V; cbn [negb]; [|apply (F [AuFailedVerifyUrl]); discriminate].
    destruct (dv_renameErr e) eqn:RE; [apply (F []); reflexivity|].
    pose proof (isValid_good _ _ V) as G.
    set (s' := if dv_removeErr e then mkFS None t else mkFS None (fs_final (mkFS None t))).
    assert (FS : fs_final s' = t) by (unfold s'; destruct (dv_removeErr e); reflexivity).
    split. { intros x Hx. apply in_app_or in Hx. destruct Hx as [Hx|[<-|[<-|[]]]]; [apply T; exact Hx|right; exact G|right; rewrite FS; exact G]. }
    split. { apply in_or_app; right; right; left; reflexivity. }
    split. { intros _. rewrite FS; exact G. }
    split; [discriminate|]. split; [discriminate|]. split; [|discriminate].
    intros _. unfold s'. destruct (dv_removeErr e); reflexivity.
  Qed.

  (** A download that goes well. *)
  Lemma dv_honest n e s env chunks lm :
    replaces env (fs_tmp s) -> dv_attempts e 0%nat = (false, env) -> de_get env = GResp 200 chunks false lm ->
    de_openErr env = false -> de_cancelled env = false ->
    dv_tmpReadErr e = false -> dv_renameErr e = false -> valid (concat chunks) = true ->
    exists trace s' f, downloadAndVerify valid n e s = (trace, s', true, false, []) /\
      fs_final s' = Some f /\ f_data f = concat chunks /\ fs_tmp s' = None.
  Proof using Type.
    intros T A G O C R1 R2 V. unfold downloadAndVerify, downloadFileSync. cbn [downloadLoop]. rewrite A.
    unfold download at 1. pose proof (replaces_action env (fs_tmp s) T) as NU.
    destruct (determineAction (onDisk env (fs_tmp s)) (de_head env)) as [[act off] sz]. cbn [fst] in NU.
    assert (NM : forall A (x y : A), match act with AUpToDate => x | _ => y end = y) by (intros; destruct act; [reflexivity|reflexivity|congruence]).
    rewrite NM. rewrite G, O, C. cbn [N.eqb Pos.eqb].
    change (last [Some (mkFile [] (de_now env))] (fs_tmp s)) with (Some (mkFile [] (de_now env))).
    destruct (copyChunks_last (de_now env) chunks [] (mkFile [] (de_now env)) eq_refl) as [g [G1 G2]].
    destruct (copyChunks (de_now env) [] chunks) as [tr data]. cbn [fst] in G1. rewrite G1. cbn [app] in G2.
    assert (H : exists tr' g', f_data g' = concat chunks /\
      (match lm with
       | Some m => if de_chtimesErr env then ([Some (mkFile [] (de_now env))] ++ tr, Some g, true)
                   else ([Some (mkFile [] (de_now env))] ++ tr ++ [Some (mkFile (f_data g) m)], Some (mkFile (f_data g) m), true)
       | None => ([Some (mkFile [] (de_now env))] ++ tr, Some g, true)
       end) = (tr', Some g', true)).
    { destruct lm as [m|]; [destruct (de_chtimesErr env)|].
      - exists ([Some (mkFile [] (de_now env))] ++ tr), g. auto.
      - exists ([Some (mkFile [] (de_now env))] ++ tr ++ [Some (mkFile (f_data g) m)]), (mkFile (f_data g) m). auto.
      - exists ([Some (mkFile [] (de_now env))] ++ tr), g. auto. }
    destruct H as [tr' [g' [D E]]]. rewrite E. cbn [negb isValid]. rewrite R1, D, V, R2. cbn [negb andb].
    eexists _, _, g'. split; [reflexivity|]. destruct (dv_removeErr e); cbn; auto.
  Qed.
End DV.

(** ** CRL entries *)

Definition isReasonExt (x : bool * option Z) : bool := fst x.

Lemma reasonLoop_seen exts : forall c, reasonLoop true c exts =
  if existsb isReasonExt exts then None else if ((c <? 0) || (255 <? c))%Z then None else Some c.
Proof.
  induction exts as [|[r v] exts IH]; intros c; cbn [reasonLoop existsb isReasonExt fst]; [reflexivity|].
  destruct r; cbn [orb]; [reflexivity|]. apply IH.
Qed.

Lemma reasonLoop_spec exts : reasonLoop false 0 exts =
  match filter isReasonExt exts with
  | [] => Some 0%Z
  | [(_, Some c)] => if ((c <? 0) || (255 <? c))%Z then None else Some c
  | _ => None
  end.
Proof.
  induction exts as [|[r v] exts IH]; cbn [reasonLoop filter isReasonExt fst]; [reflexivity|].
  destruct r; [|exact IH].
  destruct v as [c|]; [|destruct (filter _ exts); reflexivity].
  rewrite reasonLoop_seen.
  destruct (filter isReasonExt exts) as [|x l] eqn:E.
  - replace (existsb isReasonExt exts) with false; [reflexivity|].
    symmetry. apply not_true_is_false. intros H. apply existsb_exists in H. destruct H as [x [H1 H2]].
    assert (I : In x (filter isReasonExt exts)) by (apply filter_In; auto). rewrite E in I. destruct I.
  - replace (existsb isReasonExt exts) with true; [reflexivity|].
    symmetry. apply existsb_exists. exists x. apply filter_In. rewrite E. left; reflexivity.
Qed.

Lemma reasonOf_range c r : reasonOf c = Some r -> (0 <= r <= 255)%Z.
Proof.
  unfold reasonOf. rewrite reasonLoop_spec. destruct (filter isReasonExt (ce_exts c)) as [|[b [v|]] [|y l]]; intros H; try discriminate H.
  - injection H as <-. lia.
  - destruct ((v <? 0) || (255 <? v))%Z eqn:E; [discriminate|]. injection H as <-. lia.
Qed.

Lemma allSerials_spec l : allSerials l =
  (if forallb (fun c => match reasonOf c with Some _ => true | None => false end) l
   then Some (map (fun c => (ce_serial c, match reasonOf c with Some r => Z.to_N r | None => 0%N end)) l) else None).
Proof.
  induction l as [|c l IH]; cbn [allSerials forallb map]; [reflexivity|]. unfold serialAndReason. rewrite IH.
  destruct (reasonOf c) as [r|] eqn:E; cbn [andb]; [|reflexivity].
  destruct (forallb _ l); [|reflexivity]. f_equal. f_equal. f_equal.
  apply reasonOf_range in E. rewrite Z.mod_small by lia. reflexivity.
Qed.

(** ** Revocation files *)

Lemma revokedFile_lines : forall l rest,
  splitLines [] (revokedFile l ++ rest) = map (fun s => hexEncode (byteOf (snd s) :: fst s)) l ++ splitLines [] rest.
Proof.
  induction l as [|s l IH]; intros rest; [reflexivity|].
  unfold revokedFile in *. cbn [flat_map map]. unfold revokedLine at 1.
  change (hexEncode [byteOf (snd s)]) with (hexByte (byteOf (snd s)) ++ []).
  rewrite app_nil_r. rewrite (app_assoc (hexByte _) (hexEncode _)).
  change (hexByte (byteOf (snd s)) ++ hexEncode (fst s)) with (hexEncode (byteOf (snd s) :: fst s)).
  rewrite <- !app_assoc. rewrite splitLines_line by (apply hex_no; reflexivity).
  rewrite <- app_comm_cons. f_equal. apply IH.
Qed.

Lemma revokedFile_read l :
  map hexDecode (splitLines [] (revokedFile l)) = map (fun s => Some (byteOf (snd s) :: fst s)) l.
Proof.
  rewrite <- (app_nil_r (revokedFile l)), revokedFile_lines. cbn [splitLines]. rewrite app_nil_r, map_map.
  apply map_ext. intros s. apply hexDecode_encode.
Qed.

(** ** The CRL directory *)

Lemma alookup_put p f d q : alookup q (put p f d) = if beq q p then f else alookup q d.
Proof.
  unfold put. destruct (beq_spec q p) as [->|N].
  - destruct f; [apply alookup_aset_same|apply alookup_aremove_same].
  - destruct f; [apply alookup_aset_other; exact N|apply alookup_aremove_other; exact N].
Qed.

Lemma tmpOf_neq p : tmpOf p <> p.
Proof. unfold tmpOf. intros E. apply (f_equal (@length byte)) in E. rewrite app_length in E. cbn in E. lia. Qed.

Section Agg.
  Variable sha256 : bytes -> bytes.
  Variable lower : bytes -> bytes.
  Variable Cert : Type.
  Variable parseCRL : bytes -> option crl.
  Variable checkSig : Cert -> bytes -> bool.

  Notation crlPath := (crlPath sha256 lower).
  Notation crlValid := (crlValid Cert parseCRL checkSig).
  Notation loadCRL := (loadCRL Cert parseCRL checkSig).
  Notation fetchOne := (fetchOne sha256 lower Cert parseCRL checkSig).
  Notation fetchAll := (fetchAll sha256 lower Cert parseCRL checkSig).
  Notation processAll := (processAll Cert parseCRL checkSig).
  Notation aggregateOne := (aggregateOne Cert parseCRL checkSig).
  Notation fetchJobs := (fetchJobs sha256 lower Cert parseCRL checkSig).
  Notation aggregateJobs := (aggregateJobs Cert parseCRL checkSig).
  Notation aggregateCrls := (aggregateCrls sha256 lower Cert parseCRL checkSig).
  Notation job := (job Cert).

  Lemma crlPath_cut i u i' u' : ~ In slash i -> ~ In slash i' -> crlPath i u = crlPath i' u' ->
    i = i' /\ makeFilename sha256 lower u = makeFilename sha256 lower u'.
  Proof using Type.
    unfold AggModel.crlPath. intros H H' E.
    assert (G : forall a b x y, ~ In slash a -> ~ In slash b -> a ++ slash :: x = b ++ slash :: y -> a = b /\ x = y).
    { induction a as [|c a IH]; intros b x y Ha Hb Eq; destruct b as [|c' b]; cbn [app] in Eq.
      - injection Eq as ->. auto.
      - injection Eq as <- _. exfalso. apply Hb. left; reflexivity.
      - injection Eq as -> _. exfalso. apply Ha. left; reflexivity.
      - injection Eq as -> Eq. destruct (IH b x y) as [-> ->]; auto.
        + intros I. apply Ha. right; exact I.
        + intros I. apply Hb. right; exact I. }
    apply (G i i' _ _ H H' E).
  Qed.

  Lemma tmp_not_path i u i' u' : tmpOf (crlPath i u) <> crlPath i' u'.
  Proof using Type.
    unfold AggModel.crlPath. unfold tmpOf. destruct (makeFilename_tail sha256 lower u') as [pre ->].
    intros E. apply (f_equal (@rev byte)) in E. rewrite !rev_app_distr in E. cbn in E. discriminate E.
  Qed.

  Lemma tmp_cut i u i' u' : ~ In slash i -> ~ In slash i' -> tmpOf (crlPath i u) = tmpOf (crlPath i' u') ->
    i = i' /\ makeFilename sha256 lower u = makeFilename sha256 lower u'.
  Proof using Type. unfold tmpOf. intros H H' E. apply app_inv_tail in E. apply crlPath_cut; assumption. Qed.

  Lemma fetchOne_frame cert issuer e u d q :
    q <> crlPath issuer u -> q <> tmpOf (crlPath issuer u) ->
    alookup q (fst (fst (fetchOne cert issuer e u d))) = alookup q d.
  Proof using Type.
    intros H1 H2. unfold AggModel.fetchOne. destruct (fe_mkdirErr e); [reflexivity|].
    destruct (downloadAndVerify _ _ _ _) as [[[[tr s] ok] err] au].
    assert (E : alookup q (put (crlPath issuer u) (fs_final s) (put (tmpOf (crlPath issuer u)) (fs_tmp s) d)) = alookup q d).
    { rewrite !alookup_put. replace (beq q (crlPath issuer u)) with false by (symmetry; apply beq_neq; exact H1).
      replace (beq q (tmpOf (crlPath issuer u))) with false by (symmetry; apply beq_neq; exact H2). reflexivity. }
    destruct (negb ok); [exact E|]. destruct (fs_final s) eqn:FS; [|exact E]. destruct (fe_statErr e); exact E.
  Qed.

  (** The path returned holds an accepted CRL. *)
  Lemma fetchOne_good cert issuer e u d d' p au :
    fetchOne cert issuer e u d = (d', Some p, au) ->
    p = crlPath issuer u /\ exists f, alookup p d' = Some f /\ crlValid cert (f_data f) = true.
  Proof using Type.
    unfold AggModel.fetchOne. destruct (fe_mkdirErr e); [discriminate|].
    pose proof (dv_spec (crlValid cert) 3 (fe_dv e) (mkFS (alookup (tmpOf (crlPath issuer u)) d) (alookup (crlPath issuer u) d))) as S.
    destruct (downloadAndVerify _ _ _ _) as [[[[tr s] ok] err] au0].
    destruct S as [_ [_ [S _]]]. destruct ok; cbn [negb]; [|discriminate].
    destruct (fs_final s) as [f|] eqn:FS; [|discriminate]. destruct (fe_statErr e); [discriminate|].
    intros H. injection H as <- <- _. split; [reflexivity|].
    destruct (S eq_refl) as [g [G1 G2]]. injection G1 as <-. exists f. split; [|exact G2].
    apply alookup_aset_same.
  Qed.

  (** Accepted files stay accepted. *)
  Lemma fetchOne_keeps cert issuer e u d :
    (exists f, alookup (crlPath issuer u) d = Some f /\ crlValid cert (f_data f) = true) ->
    exists f, alookup (crlPath issuer u) (fst (fst (fetchOne cert issuer e u d))) = Some f /\ crlValid cert (f_data f) = true.
  Proof using Type.
    intros [f0 [F0 V0]]. unfold AggModel.fetchOne. destruct (fe_mkdirErr e); [exists f0; auto|].
    pose proof (dv_spec (crlValid cert) 3 (fe_dv e) (mkFS (alookup (tmpOf (crlPath issuer u)) d) (alookup (crlPath issuer u) d))) as S.
    destruct (downloadAndVerify _ _ _ _) as [[[[tr s] ok] err] au0].
    destruct S as [S1 [S2 _]]. specialize (S1 s S2).
    assert (E : exists f, fs_final s = Some f /\ crlValid cert (f_data f) = true).
    { destruct S1 as [->|G]; [cbn [fs_final]; exists f0; auto|exact G]. }
    destruct E as [f [E V]]. exists f. split; [|exact V].
    assert (P : alookup (crlPath issuer u) (put (crlPath issuer u) (fs_final s) (put (tmpOf (crlPath issuer u)) (fs_tmp s) d)) = Some f)
      by (rewrite alookup_put, beq_refl; exact E).
    rewrite E in *. destruct (negb ok); [exact P|]. destruct (fe_statErr e); exact P.
  Qed.

  (** *** One issuer *)

  Lemma fetchAll_urls cert issuer : forall us d d' l au,
    fetchAll cert issuer us d = (d', Some l, au) -> map fst l = map fst us.
  Proof using Type.
    induction us as [|[u e] us IH]; intros d d' l au H; cbn [AggModel.fetchAll] in H.
    - injection H as _ <- _. reflexivity.
    - destruct (fe_cancelled e); [discriminate|].
      destruct (fetchOne cert issuer e u d) as [[d1 p] au1]. destruct (fetchAll cert issuer us d1) as [[d2 r] au2] eqn:E.
      destruct r as [l'|]; [|discriminate]. injection H as _ <- _. cbn [map fst]. f_equal. eapply IH; exact E.
  Qed.

  Lemma fetchAll_paths cert issuer : forall us d d' l au,
    fetchAll cert issuer us d = (d', Some l, au) -> forall u p, In (u, Some p) l -> p = crlPath issuer u.
  Proof using Type.
    induction us as [|[u e] us IH]; intros d d' l au H v p I; cbn [AggModel.fetchAll] in H.
    - injection H as _ <- _. destruct I.
    - destruct (fe_cancelled e); [discriminate|].
      destruct (fetchOne cert issuer e u d) as [[d1 q] au1] eqn:F. destruct (fetchAll cert issuer us d1) as [[d2 r] au2] eqn:E.
      destruct r as [l'|]; [|discriminate]. injection H as _ <- _. destruct I as [I|I].
      + injection I as -> ->. apply (fetchOne_good _ _ _ _ _ _ _ _ F).
      + eapply IH; [exact E|exact I].
  Qed.

  (** What one CRL contributes. *)
  Definition contributes (cert : Cert) (d : disk) (p : option bytes) (l : list (bytes * N)) : Prop :=
    exists path f c, p = Some path /\ alookup path d = Some f /\ loadCRL cert (f_data f) = Some c /\ processCRL c = Some l.

  Lemma processAll_spec cert part known d : forall ps failed serials r au,
    processAll cert part known d ps failed serials = (Some r, au) ->
    (fst r = false -> failed = false /\
      exists ls, Forall2 (contributes cert d) (map (fun x => snd (fst x)) ps) ls /\ snd r = serials ++ concat ls) /\
    (fst r = true -> failed = true \/
      exists u p e, In (u, p, e) ps /\ (pe_readErr e = true \/ forall l, ~ contributes cert d p l)).
  Proof using Type.
    induction ps as [|[[u p] e] ps IH]; intros failed serials r au H; cbn [AggModel.processAll] in H.
    - injection H as <- _. cbn [fst snd map]. split; [|auto]. intros ->. split; [reflexivity|]. exists [].
      split; [constructor|]. cbn. rewrite app_nil_r. reflexivity.
    - destruct (pe_cancelled e); [discriminate|].
      assert (IH' : forall f' s' a' , (let '(r0, au2) := processAll cert part known d ps f' s' in
                (r0, map (fun a : audit => (u, a)) a' ++ au2)) = (Some r, au) ->
                exists au2, processAll cert part known d ps f' s' = (Some r, au2)).
      { intros f' s' a' E. destruct (processAll cert part known d ps f' s') as [r0 au2]. injection E as -> _. eauto. }
      assert (BAD : (forall a', (let '(r0, au2) := processAll cert part known d ps true serials in
                (r0, map (fun a : audit => (u, a)) a' ++ au2)) = (Some r, au) ->
              (pe_readErr e = true \/ forall l, ~ contributes cert d p l) ->
              (fst r = false -> failed = false /\
                 exists ls, Forall2 (contributes cert d) (map (fun x => snd (fst x)) ((u, p, e) :: ps)) ls /\ snd r = serials ++ concat ls) /\
              (fst r = true -> failed = true \/
                exists u0 p0 e0, In (u0, p0, e0) ((u, p, e) :: ps) /\ (pe_readErr e0 = true \/ forall l, ~ contributes cert d p0 l)))).
      { intros a' E B. destruct (IH' _ _ _ E) as [au2 E2]. destruct (IH _ _ _ _ E2) as [I1 I2]. split.
        - intros F. destruct (I1 F). discriminate.
        - intros _. right. exists u, p, e. split; [left; reflexivity|exact B]. }
      assert (OKC : (forall a' l, (let '(r0, au2) := processAll cert part known d ps failed (serials ++ l) in
                (r0, map (fun a : audit => (u, a)) a' ++ au2)) = (Some r, au) ->
              contributes cert d p l ->
              (fst r = false -> failed = false /\
                 exists ls, Forall2 (contributes cert d) (map (fun x => snd (fst x)) ((u, p, e) :: ps)) ls /\ snd r = serials ++ concat ls) /\
              (fst r = true -> failed = true \/
                exists u0 p0 e0, In (u0, p0, e0) ((u, p, e) :: ps) /\ (pe_readErr e0 = true \/ forall l, ~ contributes cert d p0 l)))).
      { intros a' l E CO. destruct (IH' _ _ _ E) as [au2 E2]. destruct (IH _ _ _ _ E2) as [I1 I2]. split.
        - intros F. destruct (I1 F) as [-> [ls [F2 ES]]]. split; [reflexivity|]. exists (l :: ls). split.
          + cbn [map fst snd]. constructor; [exact CO|exact F2].
          + rewrite ES. cbn [concat]. rewrite app_assoc. reflexivity.
        - intros F. destruct (I2 F) as [?|[u0 [p0 [e0 [I B]]]]]; [left; assumption|].
          right. exists u0, p0, e0. split; [right; exact I|exact B]. }
      destruct p as [path|].
      2:{ apply (BAD _ H). right. intros l [q [f [c [E _]]]]. discriminate E. }
      destruct (alookup path d) as [f|] eqn:EF.
      2:{ apply (BAD _ H). right. intros l [q [f [c [E [E2 _]]]]]. injection E as <-. congruence. }
      destruct (pe_readErr e) eqn:RE; [apply (BAD _ H); left; reflexivity|].
      destruct (loadCRL cert (f_data f)) as [c|] eqn:LC.
      2:{ apply (BAD _ H). right. intros l [q [g [c [E [E2 [E3 _]]]]]]. injection E as <-. congruence. }
      destruct (processCRL c) as [[|x l]|] eqn:PC.
      + rewrite <- (app_nil_r serials) in H. apply (OKC _ [] H). exists path, f, c. auto.
      + apply (OKC _ (x :: l) H). exists path, f, c. auto.
      + apply (BAD _ H). right. intros l [q [g [c' [E [E2 [E3 E4]]]]]]. injection E as <-. congruence.
  Qed.

  Lemma withProc_fst : forall l ps, map fst (withProc l ps) = l.
  Proof using Type. induction l as [|x l IH]; intros ps; cbn [withProc map fst]; [reflexivity|]. f_equal. apply IH. Qed.

  (** *** All issuers *)

  Lemma aggregateOne_frame cert part issuer d ps se r i : i <> issuer ->
    alookup i (fst (fst (aggregateOne cert part issuer d ps se r))) = alookup i r.
  Proof using Type.
    intros N. unfold AggModel.aggregateOne. destruct (processAll _ _ _ _ _ _ _) as [[[[|] serials]|] au]; try reflexivity.
    unfold storeRevoked. destruct se; cbn [fst]; apply alookup_aset_other; exact N.
  Qed.

  (** What the outcome of an issuer says. *)
  Definition outcomeMeans (d : disk) (r r1 : revDir) (j : job) (l : list (url * option bytes)) (o : aggOutcome) : Prop :=
    match o with
    | AgWritten => exists ls, Forall2 (contributes (j_cert j) d) (map snd l) ls /\
        alookup (j_issuer j) r1 = Some (revokedFile (concat ls))
    | AgIncomplete => alookup (j_issuer j) r1 = alookup (j_issuer j) r /\
        exists u p e, In (u, p, e) (withProc l (j_proc j)) /\
          (pe_readErr e = true \/ forall x, ~ contributes (j_cert j) d p x)
    | AgCancelled => alookup (j_issuer j) r1 = alookup (j_issuer j) r /\
        exists u p e, In (u, p, e) (withProc l (j_proc j)) /\ pe_cancelled e = true
    | AgFatal => exists n ls, j_storeErr j = Some n /\ Forall2 (contributes (j_cert j) d) (map snd l) ls /\
        alookup (j_issuer j) r1 = Some (firstn n (revokedFile (concat ls)))
    end.

  Lemma processAll_cancel cert part known d : forall ps failed serials au,
    processAll cert part known d ps failed serials = (None, au) ->
    exists u p e, In (u, p, e) ps /\ pe_cancelled e = true.
  Proof using Type.
    induction ps as [|[[u p] e] ps IH]; intros failed serials au H; cbn [AggModel.processAll] in H; [discriminate|].
    destruct (pe_cancelled e) eqn:C; [exists u, p, e; split; [left; reflexivity|exact C]|].
    assert (K : exists f' s' a', processAll cert part known d ps f' s' = (None, a')).
    { assert (G : forall f' s' a', (let '(r0, au2) := processAll cert part known d ps f' s' in
                (r0, map (fun a : audit => (u, a)) a' ++ au2)) = (None, au) ->
                exists f' s' a', processAll cert part known d ps f' s' = (None, a')).
      { intros f' s' a' E. destruct (processAll cert part known d ps f' s') as [r0 au2] eqn:E2.
        injection E as -> _. exists f', s', au2. exact E2. }
      destruct p as [path|]; [|apply (G _ _ _ H)].
      destruct (match alookup path d with Some f => if pe_readErr e then None else loadCRL cert (f_data f) | None => None end) as [c|];
        [|apply (G _ _ _ H)].
      destruct (processCRL c) as [[|x l]|]; apply (G _ _ _ H). }
    destruct K as [f' [s' [a' K]]]. destruct (IH _ _ _ K) as [u0 [p0 [e0 [I C0]]]].
    exists u0, p0, e0. split; [right; exact I|exact C0].
  Qed.

  Lemma aggregateOne_spec j l d r r1 o au :
    aggregateOne (j_cert j) (j_partitioned j) (j_issuer j) d (withProc l (j_proc j)) (j_storeErr j) r = (r1, o, au) ->
    outcomeMeans d r r1 j l o.
  Proof using Type.
    unfold AggModel.aggregateOne. set (ps := withProc l (j_proc j)).
    set (known := map _ ps).
    destruct (processAll (j_cert j) (j_partitioned j) known d ps false []) as [[[failed serials]|] au0] eqn:P; intros H.
    - destruct (processAll_spec _ _ _ _ _ _ _ _ _ P) as [P1 P2]. cbn [fst snd] in *. destruct failed.
      + injection H as <- <- _. cbn [outcomeMeans]. split; [reflexivity|].
        destruct (P2 eq_refl) as [?|?]; [discriminate|assumption].
      + destruct (P1 eq_refl) as [_ [ls [F ES]]]. cbn [app] in ES. subst serials.
        assert (F' : Forall2 (contributes (j_cert j) d) (map snd l) ls).
        { replace (map snd l) with (map (fun x : url * option bytes * procEnv => snd (fst x)) ps); [exact F|].
          unfold ps. rewrite <- (withProc_fst l (j_proc j)) at 2. rewrite map_map. reflexivity. }
        unfold storeRevoked in H. destruct (j_storeErr j) as [n|] eqn:SE; injection H as <- <- _; cbn [outcomeMeans].
        * exists n, ls. split; [exact SE|]. split; [exact F'|apply alookup_aset_same].
        * exists ls. split; [exact F'|apply alookup_aset_same].
    - injection H as <- <- _. cbn [outcomeMeans]. split; [reflexivity|]. apply (processAll_cancel _ _ _ _ _ _ _ _ P).
  Qed.

  Lemma aggregateJobs_issuers : forall js d r r1 os au,
    aggregateJobs js d r = (r1, os, au) -> forall i o, In (i, o) os -> In i (map (fun x => j_issuer (fst x)) js).
  Proof using Type.
    induction js as [|[j l] js IH]; intros d r r1 os au H i o I; cbn [AggModel.aggregateJobs] in H.
    - injection H as _ <- _. destruct I.
    - destruct (aggregateOne _ _ _ _ _ _ _) as [[r2 o2] au2]. cbn [map fst].
      destruct o2.
      1,2,3: destruct (aggregateJobs js d r2) as [[r3 os3] au3] eqn:E; injection H as _ <- _; destruct I as [I|I];
          [injection I as <- _; left; reflexivity|right; eapply IH; [exact E|exact I]].
      injection H as _ <- _. destruct I as [I|[]]. injection I as <- _. left; reflexivity.
  Qed.

  Lemma aggregateJobs_other : forall js d r r1 os au,
    aggregateJobs js d r = (r1, os, au) -> forall i, ~ In i (map (fun x => j_issuer (fst x)) js) -> alookup i r1 = alookup i r.
  Proof using Type.
    induction js as [|[j l] js IH]; intros d r r1 os au H i N; cbn [AggModel.aggregateJobs] in H.
    - injection H as <- _ _. reflexivity.
    - cbn [map fst] in N.
      assert (N1 : i <> j_issuer j) by (intros ->; apply N; left; reflexivity).
      assert (N2 : ~ In i (map (fun x => j_issuer (fst x)) js)) by (intros X; apply N; right; exact X).
      pose proof (aggregateOne_frame (j_cert j) (j_partitioned j) (j_issuer j) d (withProc l (j_proc j)) (j_storeErr j) r i N1) as FR.
      destruct (aggregateOne _ _ _ _ _ _ _) as [[r2 o2] au2]. cbn [fst] in FR.
      destruct o2.
      1,2,3: destruct (aggregateJobs js d r2) as [[r3 os3] au3] eqn:E; injection H as <- _ _; rewrite (IH _ _ _ _ _ E _ N2); exact FR.
      injection H as <- _ _. exact FR.
  Qed.

  Lemma aggregateJobs_spec : forall js d r r1 os au,
    aggregateJobs js d r = (r1, os, au) -> NoDup (map (fun x => j_issuer (fst x)) js) ->
    forall j l o, In (j, l) js -> In (j_issuer j, o) os -> outcomeMeans d r r1 j l o.
  Proof using Type.
    induction js as [|[j0 l0] js IH]; intros d r r1 os au H ND j l o I IO; [destruct I|].
    cbn [AggModel.aggregateJobs] in H. cbn [map fst] in ND. apply NoDup_cons_iff in ND. destruct ND as [NI ND].
    destruct (aggregateOne (j_cert j0) _ _ _ _ _ _) as [[r2 o2] au2] eqn:A. pose proof (aggregateOne_spec _ _ _ _ _ _ _ A) as M.
    pose proof (fun i N => aggregateOne_frame (j_cert j0) (j_partitioned j0) (j_issuer j0) d (withProc l0 (j_proc j0)) (j_storeErr j0) r i N) as FR.
    rewrite A in FR. cbn [fst] in FR.
    assert (same : forall r3, alookup (j_issuer j0) r3 = alookup (j_issuer j0) r2 -> outcomeMeans d r r3 j0 l0 o2).
    { intros r3 E. destruct o2; cbn [outcomeMeans] in *.
      - destruct M as [ls [F X]]. exists ls. rewrite E. auto.
      - rewrite E. exact M.
      - rewrite E. exact M.
      - destruct M as [n [ls [SE [F X]]]]. exists n, ls. rewrite E. auto. }
    assert (later : forall os3 au3 r3, aggregateJobs js d r2 = (r3, os3, au3) -> In (j_issuer j, o) ((j_issuer j0, o2) :: os3) ->
              outcomeMeans d r r3 j l o).
    { intros os3 au3 r3 E IO3. destruct I as [I|I].
      - injection I as -> ->. destruct IO3 as [X|X].
        + injection X as <-. apply same. apply (aggregateJobs_other _ _ _ _ _ _ E). exact NI.
        + exfalso. apply NI. apply (aggregateJobs_issuers _ _ _ _ _ _ E _ _ X).
      - assert (NJ : j_issuer j <> j_issuer j0).
        { intros X. apply NI. rewrite <- X. apply (in_map (fun x => j_issuer (fst x)) js (j, l)). exact I. }
        destruct IO3 as [X|X]; [injection X as X _; congruence|].
        pose proof (IH _ _ _ _ _ E ND _ _ _ I X) as M3.
        destruct o; cbn [outcomeMeans] in *; try (rewrite (FR _ NJ) in M3); exact M3. }
    destruct o2.
    1,2,3: destruct (aggregateJobs js d r2) as [[r3 os3] au3] eqn:E; injection H as <- <- _; eapply later; [reflexivity|exact IO].
    injection H as <- <- _. destruct IO as [X|[]]. injection X as X1 X2. subst o. destruct I as [I|I].
    - injection I as -> ->. exact M.
    - exfalso. apply NI. rewrite X1. apply (in_map (fun x => j_issuer (fst x)) js (j, l)). exact I.
  Qed.

  Lemma fetchJobs_spec : forall js d d1 ls au,
    fetchJobs js d = (d1, Some ls, au) ->
    map fst ls = js /\
    forall j l, In (j, l) ls -> map fst l = map fst (j_urls j) /\ forall u p, In (u, Some p) l -> p = crlPath (j_issuer j) u.
  Proof using Type.
    induction js as [|j js IH]; intros d d1 ls au H; cbn [AggModel.fetchJobs] in H.
    - injection H as _ <- _. split; [reflexivity|]. intros ? ? [].
    - destruct (fetchAll _ _ _ _) as [[d2 r] au2] eqn:F. destruct (fetchJobs js d2) as [[d3 rs] au3] eqn:E.
      destruct r as [l|]; [|discriminate]. destruct rs as [ls'|]; [|discriminate]. injection H as _ <- _.
      destruct (IH _ _ _ _ E) as [I1 I2]. split; [cbn [map fst]; f_equal; exact I1|].
      intros j' l' [X|X].
      + injection X as <- <-. split; [eapply fetchAll_urls; exact F|eapply fetchAll_paths; exact F].
      + apply I2; exact X.
  Qed.

  (** *** A run in which nothing goes wrong *)

  (** The server answers the first request with [body], an acceptable CRL with
      entries [l], and nothing fails locally. *)
  Definition honestUrl (cert : Cert) (ue : url * fetchEnv) (bl : bytes * list (bytes * N)) : Prop :=
    let e := snd ue in let body := fst bl in
    fe_cancelled e = false /\ fe_mkdirErr e = false /\ fe_statErr e = false /\
    dv_tmpReadErr (fe_dv e) = false /\ dv_renameErr (fe_dv e) = false /\
    (exists env chunks lm, dv_attempts (fe_dv e) 0%nat = (false, env) /\ de_get env = GResp 200 chunks false lm /\
      de_openErr env = false /\ de_cancelled env = false /\ concat chunks = body) /\
    exists c, parseCRL body = Some c /\ checkSig cert body = true /\ processCRL c = Some (snd bl).

  Lemma loadCRL_ok cert data c : parseCRL data = Some c -> checkSig cert data = true -> loadCRL cert data = Some c.
  Proof using Type. intros H1 H2. unfold AggModel.loadCRL. rewrite H1, H2. reflexivity. Qed.

  Lemma loadCRL_inv cert data c : loadCRL cert data = Some c -> parseCRL data = Some c /\ checkSig cert data = true.
  Proof using Type.
    unfold AggModel.loadCRL. destruct (parseCRL data); [|discriminate]. destruct (checkSig cert data); [|discriminate].
    intros H; injection H as <-. auto.
  Qed.

  Lemma crlValid_iff cert data : crlValid cert data = true <-> exists c, parseCRL data = Some c /\ checkSig cert data = true.
  Proof using Type.
    unfold AggModel.crlValid. destruct (loadCRL cert data) as [c|] eqn:E.
    - split; [|reflexivity]. intros _. exists c. apply loadCRL_inv; exact E.
    - split; [discriminate|]. intros [c [H1 H2]]. rewrite (loadCRL_ok _ _ _ H1 H2) in E. discriminate.
  Qed.

  Lemma fetchOne_honest cert issuer e u d bl : honestUrl cert (u, e) bl ->
    replaces (snd (dv_attempts (fe_dv e) 0%nat)) (alookup (tmpOf (crlPath issuer u)) d) ->
    exists d' au f, fetchOne cert issuer e u d = (d', Some (crlPath issuer u), au) /\
      alookup (crlPath issuer u) d' = Some f /\ f_data f = fst bl /\ alookup (tmpOf (crlPath issuer u)) d' = None.
  Proof using Type.
    intros [H1 [H2 [H3 [H4 [H5 [[env [chunks [lm [A1 [A2 [A3 [A4 A5]]]]]]] [c [C1 [C2 C3]]]]]]]]] T.
    cbn [fst snd] in *. rewrite A1 in T. cbn [snd] in T. unfold AggModel.fetchOne. rewrite H2.
    destruct (dv_honest (crlValid cert) 3 (fe_dv e) (mkFS (alookup (tmpOf (crlPath issuer u)) d) (alookup (crlPath issuer u) d))
                env chunks lm T A1 A2 A3 A4 H4 H5) as [tr [s' [f [E [F [D TM]]]]]].
    { rewrite A5. apply crlValid_iff. exists c. auto. }
    rewrite E. cbn [negb]. rewrite F, H3. eexists _, _, f. split; [reflexivity|].
    split; [apply alookup_aset_same|]. split; [rewrite D; exact A5|].
    unfold put at 1. rewrite alookup_aset_other by apply tmpOf_neq. rewrite alookup_put, beq_refl. exact TM.
  Qed.

  Definition urlPaths (issuer : bytes) (us : list (url * fetchEnv)) : list (url * option bytes) :=
    map (fun ue => (fst ue, Some (crlPath issuer (fst ue)))) us.

  (** Paths touched while fetching for an issuer. *)
  Definition touched (issuer : bytes) (us : list (url * fetchEnv)) (q : bytes) : Prop :=
    exists u e, In (u, e) us /\ (q = crlPath issuer u \/ q = tmpOf (crlPath issuer u)).

  Lemma fetchAll_frame cert issuer : forall us d q, ~ touched issuer us q ->
    alookup q (fst (fst (fetchAll cert issuer us d))) = alookup q d.
  Proof using Type.
    induction us as [|[u e] us IH]; intros d q N; cbn [AggModel.fetchAll]; [reflexivity|].
    destruct (fe_cancelled e); [reflexivity|].
    assert (N1 : q <> crlPath issuer u) by (intros ->; apply N; exists u, e; split; [left; reflexivity|auto]).
    assert (N2 : q <> tmpOf (crlPath issuer u)) by (intros ->; apply N; exists u, e; split; [left; reflexivity|auto]).
    pose proof (fetchOne_frame cert issuer e u d q N1 N2) as F.
    destruct (fetchOne cert issuer e u d) as [[d1 p] au]. cbn [fst] in F.
    assert (N3 : ~ touched issuer us q).
    { intros [u0 [e0 [I H]]]. apply N. exists u0, e0. split; [right; exact I|exact H]. }
    specialize (IH d1 q N3). destruct (fetchAll cert issuer us d1) as [[d2 r] au2]. cbn [fst] in *. congruence.
  Qed.

  Definition holdsBody (issuer : bytes) (d : disk) (ue : url * fetchEnv) (bl : bytes * list (bytes * N)) : Prop :=
    exists f, alookup (crlPath issuer (fst ue)) d = Some f /\ f_data f = fst bl.

  Lemma fetchAll_honest cert issuer : ~ In slash issuer -> forall us bls d,
    Forall2 (honestUrl cert) us bls ->
    NoDup (map (fun ue => makeFilename sha256 lower (fst ue)) us) ->
    (forall u e, In (u, e) us -> replaces (snd (dv_attempts (fe_dv e) 0%nat)) (alookup (tmpOf (crlPath issuer u)) d)) ->
    exists d' au, fetchAll cert issuer us d = (d', Some (urlPaths issuer us), au) /\
      Forall2 (holdsBody issuer d') us bls.
  Proof using Type.
    intros NS. induction us as [|[u e] us IH]; intros bls d F ND T.
    - inversion F; subst. cbn [AggModel.fetchAll]. eexists _, _. split; [reflexivity|constructor].
    - inversion F as [|x y xs ys HO F' E1 E2]; subst. cbn [map fst] in ND. apply NoDup_cons_iff in ND. destruct ND as [NI ND].
      destruct (fetchOne_honest cert issuer e u d y HO (T u e (or_introl eq_refl))) as [d1 [au [f [E [L [D TM]]]]]].
      cbn [AggModel.fetchAll]. destruct HO as [C _]. cbn [snd] in C. rewrite C, E.
      assert (NT : forall v, In v (map fst us) -> makeFilename sha256 lower u <> makeFilename sha256 lower v).
      { intros v Iv X. apply NI. rewrite X. apply in_map_iff in Iv. destruct Iv as [[v' e'] [<- Iv]].
        apply (in_map (fun ue : url * fetchEnv => makeFilename sha256 lower (fst ue)) us (v', e')). exact Iv. }
      assert (T1 : forall u0 e0, In (u0, e0) us -> replaces (snd (dv_attempts (fe_dv e0) 0%nat)) (alookup (tmpOf (crlPath issuer u0)) d1)).
      { intros u0 e0 I0.
        assert (FR : alookup (tmpOf (crlPath issuer u0)) (fst (fst (fetchOne cert issuer e u d))) = alookup (tmpOf (crlPath issuer u0)) d).
        { apply fetchOne_frame; [apply tmp_not_path|]. intros X. apply tmp_cut in X; [|assumption|assumption].
          apply (NT u0 (in_map fst _ _ I0)). symmetry; apply X. }
        rewrite E in FR. cbn [fst] in FR. rewrite FR. apply (T u0 e0). right; exact I0. }
      destruct (IH ys d1 F' ND T1) as [d2 [au2 [E2 H2]]]. rewrite E2. eexists _, _. split; [reflexivity|].
      constructor; [|exact H2]. exists f. split; [|exact D]. cbn [fst].
      pose proof (fetchAll_frame cert issuer us d1 (crlPath issuer u)) as FR. rewrite E2 in FR. cbn [fst] in FR.
      rewrite FR; [exact L|]. intros [v [e0 [I0 [X|X]]]].
      + apply crlPath_cut in X; [|assumption|assumption]. apply (NT v (in_map fst _ _ I0)). apply X.
      + symmetry in X. apply (tmp_not_path _ _ _ _ X).
  Qed.

  (** Everything goes well for this issuer; [bls] are the bodies and entries. *)
  Definition honestJob (d : disk) (j : job) (bls : list (bytes * list (bytes * N))) : Prop :=
    ~ In slash (j_issuer j) /\
    Forall2 (honestUrl (j_cert j)) (j_urls j) bls /\
    NoDup (map (fun ue => makeFilename sha256 lower (fst ue)) (j_urls j)) /\
    (forall u e, In (u, e) (j_urls j) -> replaces (snd (dv_attempts (fe_dv e) 0%nat)) (alookup (tmpOf (crlPath (j_issuer j) u)) d)) /\
    (forall pe, In pe (j_proc j) -> pe_cancelled pe = false /\ pe_readErr pe = false) /\
    j_storeErr j = None.

  Lemma touched_other i (us : list (url * fetchEnv)) i' u e : ~ In slash i -> ~ In slash i' -> i <> i' -> In (u, e) us ->
    forall us', ~ touched i' us' (crlPath i u) /\ ~ touched i' us' (tmpOf (crlPath i u)).
  Proof using sha256 lower parseCRL.
    intros N N' NE _ us'. split; intros [v [e0 [_ [X|X]]]].
    - apply crlPath_cut in X; tauto.
    - symmetry in X. apply (tmp_not_path _ _ _ _ X).
    - apply (tmp_not_path _ _ _ _ X).
    - apply tmp_cut in X; tauto.
  Qed.

  Lemma fetchJobs_frame : forall js d q, (forall j, In j js -> ~ touched (j_issuer j) (j_urls j) q) ->
    alookup q (fst (fst (fetchJobs js d))) = alookup q d.
  Proof using Type.
    induction js as [|j js IH]; intros d q N; cbn [AggModel.fetchJobs]; [reflexivity|].
    pose proof (fetchAll_frame (j_cert j) (j_issuer j) (j_urls j) d q (N j (or_introl eq_refl))) as F.
    destruct (fetchAll _ _ _ _) as [[d1 r] au]. cbn [fst] in F.
    specialize (IH d1 q (fun j' I => N j' (or_intror I))).
    destruct (fetchJobs js d1) as [[d2 rs] au2]. cbn [fst] in *. congruence.
  Qed.

  Lemma fetchJobs_honest : forall js blss d, NoDup (map j_issuer js) ->
    Forall2 (honestJob d) js blss ->
    exists d1 au, fetchJobs js d = (d1, Some (map (fun j => (j, urlPaths (j_issuer j) (j_urls j))) js), au) /\
      Forall2 (fun j bls => Forall2 (holdsBody (j_issuer j) d1) (j_urls j) bls) js blss.
  Proof using Type.
    induction js as [|j js IH]; intros blss d ND F.
    - inversion F; subst. cbn [AggModel.fetchJobs map]. eexists _, _. split; [reflexivity|constructor].
    - inversion F as [|x y xs ys HO F' E1 E2]; subst. cbn [map] in ND. apply NoDup_cons_iff in ND. destruct ND as [NI ND].
      destruct HO as [S [H1 [H2 [H3 [H4 H5]]]]].
      destruct (fetchAll_honest (j_cert j) (j_issuer j) S (j_urls j) y d H1 H2 H3) as [d1 [au [E HB]]].
      assert (F1 : Forall2 (honestJob d1) js ys).
      { clear -F' NI E S. revert ys F' NI. induction js as [|j' js IHj]; intros ys F' NI; inversion F' as [|a b l1 l2 HJ FF Q1 Q2]; subst; constructor.
        - destruct HJ as [S' [G1 [G2 [G3 [G4 G5]]]]]. repeat (split; [assumption|]). split; [|split; assumption].
          intros u e I. specialize (G3 u e I). revert G3.
          pose proof (fetchAll_frame (j_cert j) (j_issuer j) (j_urls j) d (tmpOf (crlPath (j_issuer j') u))) as FR.
          rewrite E in FR. cbn [fst] in FR. rewrite FR; [auto|].
          apply (touched_other (j_issuer j') (j_urls j') (j_issuer j) u e); try assumption.
          intros X. apply NI. rewrite <- X. left; reflexivity.
        - apply IHj; [exact FF|]. intros X. apply NI. right; exact X. }
      destruct (IH ys d1 ND F1) as [d2 [au2 [E2 H6]]].
      cbn [AggModel.fetchJobs]. rewrite E, E2. eexists _, _. split; [reflexivity|]. constructor; [|exact H6].
      assert (FR : forall u e, In (u, e) (j_urls j) -> alookup (crlPath (j_issuer j) u) d2 = alookup (crlPath (j_issuer j) u) d1).
      { intros u e I. pose proof (fetchJobs_frame js d1 (crlPath (j_issuer j) u)) as FR. rewrite E2 in FR. cbn [fst] in FR. apply FR.
        intros j' I'. assert (S' : ~ In slash (j_issuer j')).
        { clear -F' I'. revert ys F' I'. induction js as [|a js IHj]; intros ys F' I'; [destruct I'|].
          inversion F' as [|a' b l1 l2 HJ FF Q1 Q2]; subst. destruct I' as [<-|I']; [apply HJ|]. eapply IHj; [exact FF|exact I']. }
        apply (touched_other (j_issuer j) (j_urls j) (j_issuer j') u e); try assumption.
        intros X. apply NI. rewrite X. apply in_map. exact I'. }
      clear -HB FR. revert HB FR. generalize (j_urls j) as us. intros us HB. induction HB as [|[u e] b us bs HB0 HB IH]; intros FR; constructor.
      + destruct HB0 as [f [L D]]. exists f. cbn [fst] in *. rewrite (FR u e (or_introl eq_refl)). auto.
      + apply IH. intros u0 e0 I0. apply (FR u0 e0). right; exact I0.
  Qed.

  Lemma aggregateJobs_all : forall js d r r1 os au,
    aggregateJobs js d r = (r1, os, au) -> (forall j l, In (j, l) js -> j_storeErr j = None) ->
    map fst os = map (fun x => j_issuer (fst x)) js.
  Proof using Type.
    induction js as [|[j l] js IH]; intros d r r1 os au H N; cbn [AggModel.aggregateJobs] in H.
    - injection H as _ <- _. reflexivity.
    - destruct (aggregateOne _ _ _ _ _ _ _) as [[r2 o2] au2] eqn:A. pose proof (aggregateOne_spec _ _ _ _ _ _ _ A) as M.
      destruct o2.
      1,2,3: destruct (aggregateJobs js d r2) as [[r3 os3] au3] eqn:E; injection H as _ <- _; cbn [map fst]; f_equal;
        apply (IH _ _ _ _ _ E); intros j' l' I; apply (N j' l'); right; exact I.
      exfalso. cbn [outcomeMeans] in M. destruct M as [n [ls [M _]]]. rewrite (N j l (or_introl eq_refl)) in M. discriminate.
  Qed.

  Lemma contributes_fun cert d p l l' : contributes cert d p l -> contributes cert d p l' -> l = l'.
  Proof using Type. intros [q [f [c [E1 [E2 [E3 E4]]]]]] [q' [f' [c' [F1 [F2 [F3 F4]]]]]]. congruence. Qed.

  Lemma withProc_in : forall l ps u p e, In (u, p, e) (withProc l ps) ->
    In (u, p) l /\ (In e ps \/ e = mkProc false false None).
  Proof using Type.
    induction l as [|x l IH]; intros ps u p e I; cbn [withProc] in I; [destruct I|].
    destruct I as [I|I].
    - injection I as -> <-. split; [left; reflexivity|]. destruct ps; [right; reflexivity|left; left; reflexivity].
    - destruct (IH _ _ _ _ I) as [I1 I2]. split; [right; exact I1|].
      destruct I2 as [I2|I2]; [left|right; exact I2]. destruct ps; [destruct I2|right; exact I2].
  Qed.

  (** *** Audit *)

  Definition failure (a : audit) : bool :=
    match a with AuFailedDownload | AuFailedVerifyUrl | AuFailedVerifyPath | AuFailedProcess => true | _ => false end.

  (** A local fault that the code does not report to the auditor. *)
  Definition localFault (e : fetchEnv) : bool := fe_mkdirErr e || dv_renameErr (fe_dv e) || fe_statErr e.

  Lemma dv_audits valid n e s :
    let '(_, _, ok, _, au) := downloadAndVerify valid n e s in
    ok = false -> dv_renameErr e = true \/ exists a, In a au /\ failure a = true.
  Proof using Type.
    unfold downloadAndVerify. destruct (downloadFileSync n (dv_attempts e) (fs_tmp s)) as [[tr t] dlOk].
    cbv zeta. destruct dlOk; cbn [negb].
    - destruct (isValid valid (dv_tmpReadErr e) t); cbn [negb].
      + destruct (dv_renameErr e); [left; reflexivity|discriminate].
      + intros _. right. exists AuFailedVerifyUrl. split; [left; reflexivity|reflexivity].
    - intros _. right. exists AuFailedDownload. split; [left; reflexivity|reflexivity].
  Qed.

  Lemma fetchOne_audits cert issuer e u d d' au : fetchOne cert issuer e u d = (d', None, au) ->
    localFault e = true \/ exists a, In a au /\ failure a = true.
  Proof using Type.
    unfold AggModel.fetchOne, localFault. destruct (fe_mkdirErr e); [left; reflexivity|].
    set (s := mkFS _ _).
    pose proof (dv_audits (crlValid cert) 3 (fe_dv e) s) as A. pose proof (dv_spec (crlValid cert) 3 (fe_dv e) s) as S.
    destruct (downloadAndVerify _ _ _ _) as [[[[tr s'] ok] err] au0]. destruct S as [_ [_ [S _]]].
    destruct ok; cbn [negb].
    - destruct (S eq_refl) as [f [F _]]. rewrite F. destruct (fe_statErr e); [left|discriminate].
      rewrite orb_true_r. reflexivity.
    - intros H. injection H as _ <-. destruct (A eq_refl) as [R|R]; [left|right; exact R]. rewrite R. reflexivity.
  Qed.

  Lemma fetchAll_audits cert issuer : forall us d d' l au,
    fetchAll cert issuer us d = (d', Some l, au) -> forall u, In (u, None) l ->
    (exists e, In (u, e) us /\ localFault e = true) \/ exists a, In (u, a) au /\ failure a = true.
  Proof using Type.
    induction us as [|[u e] us IH]; intros d d' l au H v I; cbn [AggModel.fetchAll] in H.
    - injection H as _ <- _. destruct I.
    - destruct (fe_cancelled e); [discriminate|].
      destruct (fetchOne cert issuer e u d) as [[d1 q] au1] eqn:F. destruct (fetchAll cert issuer us d1) as [[d2 r] au2] eqn:E.
      destruct r as [l'|]; [|discriminate]. injection H as _ <- <-. destruct I as [I|I].
      + injection I as -> ->. destruct (fetchOne_audits _ _ _ _ _ _ _ F) as [L|[a [A1 A2]]].
        * left. exists e. split; [left; reflexivity|exact L].
        * right. exists a. split; [|exact A2]. apply in_or_app; left. apply (in_map (fun a => (v, a))). exact A1.
      + destruct (IH _ _ _ _ E _ I) as [[e0 [I0 L]]|[a [A1 A2]]].
        * left. exists e0. split; [right; exact I0|exact L].
        * right. exists a. split; [apply in_or_app; right; exact A1|exact A2].
  Qed.

  Lemma processAll_audits cert part known d : forall ps failed serials r au,
    processAll cert part known d ps failed serials = (Some r, au) -> fst r = true ->
    failed = true \/ (exists u e, In (u, None, e) ps) \/ exists u a, In (u, a) au /\ failure a = true.
  Proof using Type.
    induction ps as [|[[u p] e] ps IH]; intros failed serials r au H F; cbn [AggModel.processAll] in H.
    - injection H as <- _. left; exact F.
    - destruct (pe_cancelled e); [discriminate|].
      assert (G : forall f' s' a', (let '(r0, au2) := processAll cert part known d ps f' s' in
                (r0, map (fun a : audit => (u, a)) a' ++ au2)) = (Some r, au) ->
                (f' = failed \/ p = None \/ exists a, In a a' /\ failure a = true) ->
                failed = true \/ (exists u0 e0, In (u0, None, e0) ((u, p, e) :: ps)) \/ exists u0 a, In (u0, a) au /\ failure a = true).
      { intros f' s' a' E B. destruct (processAll cert part known d ps f' s') as [r0 au2] eqn:P. injection E as -> <-.
        destruct B as [->|[->|[a [A1 A2]]]].
        - destruct (IH _ _ _ _ P F) as [X|[[u0 [e0 X]]|[u0 [a [X1 X2]]]]]; [left; exact X| |].
          + right; left. exists u0, e0. right; exact X.
          + right; right. exists u0, a. split; [apply in_or_app; right; exact X1|exact X2].
        - right; left. exists u, e. left; reflexivity.
        - right; right. exists u, a. split; [|exact A2]. apply in_or_app; left. apply (in_map (fun a => (u, a))). exact A1. }
      destruct p as [path|]; [|apply (G _ _ _ H); right; left; reflexivity].
      destruct (match alookup path d with Some f => if pe_readErr e then None else loadCRL cert (f_data f) | None => None end) as [c|].
      2:{ apply (G _ _ _ H). right; right. exists AuFailedVerifyPath. split; [left; reflexivity|reflexivity]. }
      destruct (processCRL c) as [[|x l]|]; [apply (G _ _ _ H); left; reflexivity|apply (G _ _ _ H); left; reflexivity|].
      apply (G _ _ _ H). right; right. exists AuFailedProcess. split; [apply in_or_app; right; left; reflexivity|reflexivity].
  Qed.
End Agg.
