(** * Property C74: what of a stored entry is covered by the Merkle proof.

    Model: LeafModel.v (the bytes of an answer), CtFetchModel.v (one job), CtSystem.v (the
    process). *)
From Verif Require Import Base MerkleModel MerkleSpec MerkleProofs MerkleProofs2 MerkleProofs3
  SerialModel SerialProofs CtFetchModel CtFetchProofs CtFetchSafety CtFetchJobs CtFetchTiled CtSystem CtFetchEnd
  P_Merkle P_CtFetch LeafModel.

(** ** The format, after RFC 6962 *)

(** A number in [k] bytes, most significant first. *)
Fixpoint be (k : nat) (n : N) : bytes :=
  match k with O => [] | S k' => be k' (n / 256) ++ [byteOf n] end.
Definition fits (k : nat) (lo : N) (x : bytes) : Prop := (lo <= N.of_nat (length x) < 256 ^ N.of_nat k)%N.
Definition withLen (k : nat) (x : bytes) : bytes := be k (N.of_nat (length x)) ++ x.

(** [leaf] is the Merkle tree leaf of an entry of time [ts] and contents [k]. *)
Inductive says : bytes -> N -> leafKind -> Prop :=
| says_cert v ts c x : (ts < two64)%N -> fits 3 1 c -> fits 2 0 x ->
    says (v :: x00 :: be 8 ts ++ be 2 0 ++ withLen 3 c ++ withLen 2 x) ts (LX509 c)
| says_pre v ts kh t x : (ts < two64)%N -> length kh = 32%nat -> fits 3 1 t -> fits 2 0 x ->
    says (v :: x00 :: be 8 ts ++ be 2 1 ++ kh ++ withLen 3 t ++ withLen 2 x) ts (LPre kh t).

Definition isChain (b : bytes) (l : list bytes) : Prop :=
  Forall (fits 3 1) l /\ fits 3 0 (flat_map (withLen 3) l) /\ b = withLen 3 (flat_map (withLen 3) l).
(** The extra data that go with a leaf: the chain, after the precertificate if the leaf
    is one. *)
Inductive extraFor : leafKind -> bytes -> bytes -> list bytes -> Prop :=
| extra_cert c b l : isChain b l -> extraFor (LX509 c) b c l
| extra_pre kh t p b l : fits 3 1 p -> isChain b l -> extraFor (LPre kh t) (withLen 3 p ++ b) p l.

(** ** The reader and the format agree *)
Lemma rev_be k : forall n, rev (be k n) = putLE k n.
Proof. induction k as [|k IH]; intros n; cbn [be putLE]; [reflexivity|]. rewrite rev_app_distr. cbn [rev app]. rewrite IH. reflexivity. Qed.
Lemma be_length k n : length (be k n) = k.
Proof. rewrite <- rev_length, rev_be. apply putLE_length. Qed.
Lemma getBE_be k n : (n < 256 ^ N.of_nat k)%N -> getBE (be k n) = n.
Proof. intros H. unfold getBE. rewrite rev_be, getLE_putLE. apply N.mod_small. exact H. Qed.
Lemma putLE_getLE l : putLE (length l) (getLE l) = l.
Proof.
  induction l as [|b l IH]; cbn [length putLE getLE]; [reflexivity|].
  pose proof (to_N_lt b).
  replace ((Byte.to_N b + 256 * getLE l) / 256)%N with (getLE l).
  2:{ apply (N.div_unique _ _ _ (Byte.to_N b)); lia. }
  rewrite IH. f_equal. apply to_N_inj. rewrite to_N_byteOf.
  symmetry. apply (N.mod_unique _ _ (getLE l)); lia.
Qed.
Lemma getLE_lt l : (getLE l < 256 ^ N.of_nat (length l))%N.
Proof.
  induction l as [|b l IH]; cbn [length getLE]; [reflexivity|].
  rewrite Nat2N.inj_succ, N.pow_succ_r'. pose proof (to_N_lt b). lia.
Qed.
Lemma be_getBE b : be (length b) (getBE b) = b.
Proof.
  rewrite <- (rev_involutive (be _ _)), rev_be. unfold getBE.
  rewrite <- (rev_length b), putLE_getLE. apply rev_involutive.
Qed.
Lemma getBE_lt b : (getBE b < 256 ^ N.of_nat (length b))%N.
Proof. unfold getBE. rewrite <- (rev_length b). apply getLE_lt. Qed.

Lemma takeB_iff n b x r : takeB n b = Some (x, r) <-> b = x ++ r /\ length x = n.
Proof.
  unfold takeB. split.
  - destruct (Nat.ltb_spec (length b) n) as [L|L]; [discriminate|]. intros E. injection E as <- <-.
    rewrite firstn_skipn, firstn_length. split; [reflexivity|lia].
  - intros [-> E]. rewrite app_length. destruct (Nat.ltb_spec (length x + length r) n) as [L|L]; [lia|].
    rewrite firstn_app_exact, skipn_app_exact by exact E. reflexivity.
Qed.
Lemma getU_iff k b n r : getU k b = Some (n, r) <-> b = be k n ++ r /\ (n < 256 ^ N.of_nat k)%N.
Proof.
  unfold getU. split.
  - destruct (takeB k b) as [[x r']|] eqn:E; [|discriminate]. intros H. injection H as <- <-.
    apply takeB_iff in E. destruct E as [-> <-]. rewrite be_getBE. split; [reflexivity|apply getBE_lt].
  - intros [-> H]. assert (E : takeB k (be k n ++ r) = Some (be k n, r)) by (apply takeB_iff; split; [reflexivity|apply be_length]).
    rewrite E, getBE_be by exact H. reflexivity.
Qed.
Lemma opaque_iff k lo b x r : opaque k lo b = Some (x, r) <-> b = withLen k x ++ r /\ fits k lo x.
Proof.
  unfold opaque, withLen, fits. split.
  - destruct (getU k b) as [[n r']|] eqn:E; [|discriminate]. apply getU_iff in E. destruct E as [-> E].
    destruct (N.ltb_spec n lo) as [L|L]; [discriminate|]. intros H. apply takeB_iff in H. destruct H as [-> H].
    rewrite H, N2Nat.id, app_assoc. split; [reflexivity|lia].
  - intros [-> [L H]].
    assert (E : getU k ((be k (N.of_nat (length x)) ++ x) ++ r) = Some (N.of_nat (length x), x ++ r))
      by (apply getU_iff; rewrite app_assoc; split; [reflexivity|exact H]).
    rewrite E. destruct (N.ltb_spec (N.of_nat (length x)) lo) as [L'|L']; [lia|].
    apply takeB_iff. rewrite Nat2N.id. split; reflexivity.
Qed.

Lemma decodeLeaf_iff b ts k : (exists x, decodeLeaf b = Some (mkLeaf ts k x)) <-> says b ts k.
Proof.
  split.
  - intros [x H]. unfold decodeLeaf in H.
    destruct (getU 1 b) as [[v b1]|] eqn:E1; [|discriminate]. apply getU_iff in E1. destruct E1 as [-> L1].
    destruct (getU 1 b1) as [[ty b2]|] eqn:E2; [|discriminate]. apply getU_iff in E2. destruct E2 as [-> L2].
    destruct ty; [|discriminate].
    destruct (getU 8 b2) as [[t b3]|] eqn:E3; [|discriminate]. apply getU_iff in E3. destruct E3 as [-> L3].
    destruct (getU 2 b3) as [[et b4]|] eqn:E4; [|discriminate]. apply getU_iff in E4. destruct E4 as [-> L4].
    assert (Z : be 1 0 = [x00]) by reflexivity. rewrite Z. clear Z.
    assert (V : exists v0, be 1 v = [v0]) by (cbn [be app]; eauto). destruct V as [v0 ->].
    destruct et as [|[q|q|]]; try discriminate.
    + destruct (opaque 3 1 b4) as [[c b5]|] eqn:E5; [|discriminate]. apply opaque_iff in E5. destruct E5 as [-> L5].
      destruct (opaque 2 0 b5) as [[y b6]|] eqn:E6; [|discriminate]. apply opaque_iff in E6. destruct E6 as [-> L6].
      destruct b6; [|discriminate]. injection H as -> <- ->. rewrite app_nil_r. cbn [app]. constructor; assumption.
    + destruct (takeB 32 b4) as [[kh b5]|] eqn:E5; [|discriminate]. apply takeB_iff in E5. destruct E5 as [-> L5].
      destruct (opaque 3 1 b5) as [[c b6]|] eqn:E6; [|discriminate]. apply opaque_iff in E6. destruct E6 as [-> L6].
      destruct (opaque 2 0 b6) as [[y b7]|] eqn:E7; [|discriminate]. apply opaque_iff in E7. destruct E7 as [-> L7].
      destruct b7; [|discriminate]. injection H as -> <- ->. rewrite app_nil_r. cbn [app]. constructor; assumption.
  - assert (G1 : forall v b', exists n, getU 1 (v :: b') = Some (n, b')).
    { intros v b'. exists (getBE [v]). apply getU_iff. split; [|apply (getBE_lt [v])].
      change (v :: b') with ([v] ++ b'). f_equal. symmetry. apply (be_getBE [v]). }
    assert (G0 : forall b', getU 1 (x00 :: b') = Some (0%N, b')).
    { intros b'. apply getU_iff. split; reflexivity. }
    intros [v t c x T F1 F2|v t kh c x T F0 F1 F2]; exists x; unfold decodeLeaf.
    + destruct (G1 v (x00 :: be 8 t ++ be 2 0 ++ withLen 3 c ++ withLen 2 x)) as [n ->]. rewrite G0.
      assert (E : forall r, getU 8 (be 8 t ++ r) = Some (t, r)) by (intros r; apply getU_iff; split; [reflexivity|exact T]). rewrite E. clear E.
      assert (E : forall r, getU 2 (be 2 0 ++ r) = Some (0%N, r)) by (intros r; apply getU_iff; split; reflexivity). rewrite E. clear E.
      assert (E : forall r, opaque 3 1 (withLen 3 c ++ r) = Some (c, r)) by (intros r; apply opaque_iff; split; [reflexivity|exact F1]). rewrite E. clear E.
      assert (E : opaque 2 0 (withLen 2 x) = Some (x, [])) by (apply opaque_iff; rewrite app_nil_r; split; [reflexivity|exact F2]). rewrite E.
      reflexivity.
    + destruct (G1 v (x00 :: be 8 t ++ be 2 1 ++ kh ++ withLen 3 c ++ withLen 2 x)) as [n ->]. rewrite G0.
      assert (E : forall r, getU 8 (be 8 t ++ r) = Some (t, r)) by (intros r; apply getU_iff; split; [reflexivity|exact T]). rewrite E. clear E.
      assert (E : forall r, getU 2 (be 2 1 ++ r) = Some (1%N, r)) by (intros r; apply getU_iff; split; reflexivity). rewrite E. clear E.
      assert (E : forall r, takeB 32 (kh ++ r) = Some (kh, r)) by (intros r; apply takeB_iff; split; [reflexivity|exact F0]). rewrite E. clear E.
      assert (E : forall r, opaque 3 1 (withLen 3 c ++ r) = Some (c, r)) by (intros r; apply opaque_iff; split; [reflexivity|exact F1]). rewrite E. clear E.
      assert (E : opaque 2 0 (withLen 2 x) = Some (x, [])) by (apply opaque_iff; rewrite app_nil_r; split; [reflexivity|exact F2]). rewrite E.
      reflexivity.
Qed.

Lemma withLen_length k x : length (withLen k x) = (k + length x)%nat.
Proof. unfold withLen. rewrite app_length, be_length. reflexivity. Qed.

(** With fuel for every byte the reader of certificate lists never runs out. *)
Lemma certs_encoded f : forall b l, (length b <= f)%nat ->
  (certs f b = Some l <-> Forall (fits 3 1) l /\ b = flat_map (withLen 3) l).
Proof.
  induction f as [|f IH]; intros b l Hf.
  - destruct b; [|cbn in Hf; lia]. cbn [certs]. split.
    + intros E. injection E as <-. split; [constructor|reflexivity].
    + intros [_ E]. destruct l as [|c l]; [reflexivity|]. cbn [flat_map] in E.
      apply (f_equal (@length byte)) in E. rewrite app_length, withLen_length in E. cbn [length] in E. lia.
  - destruct b as [|x b].
    + cbn [certs]. split.
      * intros E. injection E as <-. split; [constructor|reflexivity].
      * intros [_ E]. destruct l as [|c l]; [reflexivity|]. cbn [flat_map] in E.
        apply (f_equal (@length byte)) in E. rewrite app_length, withLen_length in E. cbn [length] in E. lia.
    + cbn [certs]. split.
      * destruct (opaque 3 1 (x :: b)) as [[c r]|] eqn:E1; [|discriminate]. apply opaque_iff in E1. destruct E1 as [E1 F1].
        destruct (certs f r) as [l'|] eqn:E2; [|discriminate]. intros E. injection E as <-.
        assert (Lr : (length r <= f)%nat).
        { apply (f_equal (@length byte)) in E1. rewrite app_length, withLen_length in E1. cbn [length] in E1, Hf. lia. }
        apply (IH _ _ Lr) in E2. destruct E2 as [F2 ->]. split; [constructor; assumption|exact E1].
      * intros [F E]. destruct l as [|c l]; [discriminate|]. cbn [flat_map] in E. inversion F as [|? ? F1 F2]; subst.
        assert (O : opaque 3 1 (x :: b) = Some (c, flat_map (withLen 3) l)) by (apply opaque_iff; split; [exact E|exact F1]).
        rewrite O.
        assert (Lr : (length (flat_map (withLen 3) l) <= f)%nat).
        { apply (f_equal (@length byte)) in E. rewrite app_length, withLen_length in E. cbn [length] in E, Hf. lia. }
        assert (C : certs f (flat_map (withLen 3) l) = Some l) by (apply (IH _ _ Lr); split; [exact F2|reflexivity]).
        rewrite C. reflexivity.
Qed.
Lemma chainOf_iff b l : chainOf b = Some l <-> isChain b l.
Proof.
  unfold chainOf, isChain. split.
  - destruct (opaque 3 0 b) as [[i [|]]|] eqn:E; try discriminate. apply opaque_iff in E. destruct E as [-> F].
    intros C. apply certs_encoded in C; [|lia]. destruct C as [C ->]. rewrite app_nil_r. auto.
  - intros [F1 [F2 ->]].
    assert (O : opaque 3 0 (withLen 3 (flat_map (withLen 3) l)) = Some (flat_map (withLen 3) l, []))
      by (apply opaque_iff; rewrite app_nil_r; split; [reflexivity|exact F2]).
    rewrite O. apply certs_encoded; [lia|]. split; [exact F1|reflexivity].
Qed.

(** The decoder accepts exactly the entries of the RFC's format and gives their
    contents: the time is that of the leaf, the certificate is the one in the leaf, or
    for a precertificate the one in the extra data, and the chain is in the extra data. *)
Theorem C74_decoding : forall leaf extra ts pre cert chain,
  rawLogEntry leaf extra = Some (mkRaw ts pre cert chain) <->
  exists k, says leaf ts k /\ extraFor k extra cert chain /\ (pre = true <-> exists kh t, k = LPre kh t).
Proof.
  intros leaf extra ts pre cert chain. unfold rawLogEntry. split.
  - destruct (decodeLeaf leaf) as [[t k x]|] eqn:D; [|discriminate]. cbn [lf_kind lf_ts].
    assert (S : says leaf t k) by (apply decodeLeaf_iff; eauto).
    destruct k as [c|kh tb].
    + destruct (chainOf extra) as [l|] eqn:C; [|discriminate]. apply chainOf_iff in C. intros E.
      injection E as -> <- -> ->. exists (LX509 cert). split; [exact S|]. split; [constructor; exact C|].
      split; [discriminate|intros [? [? ?]]; discriminate].
    + destruct (opaque 3 1 extra) as [[p r]|] eqn:O; [|discriminate]. apply opaque_iff in O. destruct O as [-> F].
      destruct (chainOf r) as [l|] eqn:C; [|discriminate]. apply chainOf_iff in C. intros E.
      injection E as -> <- -> ->. exists (LPre kh tb). split; [exact S|]. split; [constructor; assumption|].
      split; [eauto|reflexivity].
  - intros [k [S [X P]]]. apply decodeLeaf_iff in S. destruct S as [x ->]. cbn [lf_kind lf_ts].
    destruct X as [c b l C|kh t p b l F C].
    + apply chainOf_iff in C. rewrite C. destruct pre; [|reflexivity].
      destruct P as [P _]. destruct (P eq_refl) as [? [? ?]]; discriminate.
    + assert (O : opaque 3 1 (withLen 3 p ++ b) = Some (p, b)) by (apply opaque_iff; split; [reflexivity|exact F]).
      rewrite O. apply chainOf_iff in C. rewrite C. destruct pre; [reflexivity|].
      destruct P as [_ P]. discriminate P. eauto.
Qed.
Print Assumptions C74_decoding.

Lemma says_fun leaf ts k ts' k' : says leaf ts k -> says leaf ts' k' -> ts' = ts /\ k' = k.
Proof.
  intros A A'. apply decodeLeaf_iff in A. apply decodeLeaf_iff in A'.
  destruct A as [x E], A' as [x' E']. rewrite E in E'. injection E' as <- <- <-. auto.
Qed.

(** ** From the wire to the database *)
Section Wire.
  Context {Cert : Type}.
  Variable parse : bytes -> option (Cert * Z * bool).

  (** The issuer by the chain: its first certificate, or the second if the first one
      only signs precertificates. *)
  Inductive issuedBy : list bytes -> Cert -> Prop :=
  | by_first i rest c na : parse i = Some (c, na, false) -> issuedBy (i :: rest) c
  | by_second p i rest x nx c na q : parse p = Some (x, nx, true) -> parse i = Some (c, na, q) -> issuedBy (p :: i :: rest) c.

  (** The job received leaf [leaf] with extra data that hold [cert] and [chain], and read
      the clock as [now]. *)
  Definition answered (e : jobEnv Cert) (leaf : bytes) (k : leafKind) (cert : bytes) (chain : list bytes) (now : Z) : Prop :=
    exists extra cancelled, In (received parse leaf extra now cancelled) (allEntries (je_resps Cert e)) /\
      extraFor k extra cert chain.

  Lemma fromWire_In e r : fromWire parse e -> In r (allEntries (je_resps Cert e)) ->
    exists leaf extra now c, r = received parse leaf extra now c.
  Proof using Type.
    unfold fromWire. induction (je_resps Cert e) as [|[c| |es] rs IH]; cbn [allEntries]; intros F I; [destruct I| | |];
      inversion F as [|? ? F1 F2]; subst; auto.
    apply in_app_iff in I. destruct I as [I|I]; [|auto]. rewrite Forall_forall in F1. exact (F1 _ I).
  Qed.

  Lemma received_parsed leaf extra now c ts c' cert chain :
    re_parsed Cert (received parse leaf extra now c) = Some (ts, c', Some cert, chain) ->
    exists k d l x na p, says leaf ts k /\ extraFor k extra d l /\ parse d = Some (x, na, p) /\
      cert = mkPC x (na <? now)%Z p /\ chain = map (parseAt parse now) l.
  Proof using Type.
    unfold received. cbn [re_parsed]. destruct (rawLogEntry leaf extra) as [[t pr d l]|] eqn:E; [|discriminate].
    cbn [rw_ts rw_cert rw_chain]. apply C74_decoding in E. destruct E as [k [S [X _]]].
    unfold parseAt at 1. destruct (parse d) as [[[x na] p]|] eqn:P; [|discriminate].
    intros E. injection E as <- <- <- <-. exists k, d, l, x, na, p. auto.
  Qed.

  Lemma issuerOf_issuedBy now l iss : issuerOf (map (parseAt parse now) l) iss -> issuedBy l iss.
  Proof using Type.
    intros [i0 [rest [E D]]]. destruct l as [|a l]; [discriminate|]. cbn [map] in E.
    assert (E1 : parseAt parse now a = Some i0) by congruence.
    assert (E2 : map (parseAt parse now) l = rest) by congruence. clear E.
    unfold parseAt in E1. destruct (parse a) as [[[x na] p]|] eqn:P; [|discriminate]. injection E1 as <-.
    cbn [pc_preIssuer pc_cert] in D. destruct D as [[-> ->]|[-> [i1 [rest' [R ->]]]]]; [exact (by_first a l x na P)|].
    destruct l as [|b l]; [subst; discriminate|]. cbn [map] in E2.
    assert (E3 : parseAt parse now b = Some i1) by congruence. unfold parseAt in E3.
    destruct (parse b) as [[[y nb] q]|] eqn:Q; [|discriminate]. injection E3 as <-. cbn [pc_cert].
    exact (by_second a b l x na y nb q P Q).
  Qed.

  (** An event of a job, traced back to the bytes. *)
  Lemma event_wire le e i ts leaf o : fromWire parse e ->
    fromEntry le (allEntries (je_resps Cert e)) (EEntry i ts leaf o) ->
    exists k d l now x na p, says leaf ts k /\ answered e leaf k d l now /\ parse d = Some (x, na, p) /\
      match o with
      | SQueued c iss => c = x /\ issuedBy l iss
      | SSkipExpired => le = false /\ (na < now)%Z
      | SSkipNoChain => l = []
      | SFatal => False
      end.
  Proof using Type.
    intros W [r [c [cert [chain [I [L [P H]]]]]]].
    destruct (fromWire_In e r W I) as [leaf' [extra [now [c' ->]]]]. cbn [received re_leaf] in L. subst leaf'.
    destruct (received_parsed _ _ _ _ _ _ _ _ P) as [k [d [l [x [na [p [S [X [Pd [-> ->]]]]]]]]]].
    exists k, d, l, now, x, na, p. split; [exact S|]. split; [exists extra, c'; auto|]. split; [exact Pd|].
    destruct o as [c1 iss| | |]; cbn [handled pc_cert pc_expired] in H.
    - destruct H as [-> H]. split; [reflexivity|]. eapply issuerOf_issuedBy. exact H.
    - destruct H as [H ->]. split; [reflexivity|lia].
    - destruct l; [reflexivity|discriminate].
    - exact H.
  Qed.
End Wire.

(** Position [i] was downloaded with leaf [leaf] by the job, in a range whose RFC 6962
    hash is the one in the consistency proof. *)
Definition verifiedLeaf (sha256 : bytes -> bytes) {Cert} (J : N) (s0 : logState) (e : jobEnv Cert)
    (pre : list (event Cert)) (i : N) (leaf : bytes) : Prop :=
  exists h fl proof sts st a seg b,
    je_head Cert e = Some h /\ jobRange J (chooseTask J (je_recent Cert e) (Some h) s0) h s0 = Ok fl /\
    je_proof Cert e = Some proof /\
    consistencyProofToSubtrees proof (fst (proofSizes fl)) (snd (proofSizes fl)) = Ok sts /\ In st sts /\
    (st_first st <= i <= st_last st)%N /\ pre = a ++ seg ++ b /\
    entriesFrom (st_first st) seg /\ N.of_nat (length seg) = (st_last st - st_first st + 1)%N /\
    MTH sha256 (leavesOf seg) (st_root st) /\
    nth_error (leavesOf seg) (N.to_nat (i - st_first st)) = Some leaf.

(** At every moment, for every position in the saved range of an RFC 6962 log: its leaf
    was verified, and what is in the database for it has the time of the verified leaf
    and the certificate of the verified leaf, or, for a precertificate, the one the log
    sent beside it; the issuer is the one the log sent beside it.  Nothing is there if
    that certificate had expired and such are not wanted, or if the log sent no chain. *)
Theorem C74_saved_range :
  forall (sha256 : bytes -> bytes) (Cert : Type) (parse : bytes -> option (Cert * Z * bool)) J tiled s lg st i,
    (0 < J < two63)%N -> tiled lg = false ->
    reachable J (Wall sha256 J tiled (fun _ e => fromWire parse e)) s ->
    alookup lg (saved s) = Some st -> claims st i -> i <> 0%N ->
    exists s0 e pre leaf ts k cert chain now c notAfter signer,
      emittedBy sha256 J s lg s0 e pre /\ verifiedLeaf sha256 J s0 e pre i leaf /\
      says leaf ts k /\ answered parse e leaf k cert chain now /\ (forall der, k = LX509 der -> cert = der) /\
      parse cert = Some (c, notAfter, signer) /\
      ((exists iss, issuedBy parse chain iss /\ In (mkItem lg c iss ts) (db s)) \/
       (je_logExpired Cert e = false /\ (notAfter < now)%Z) \/
       chain = []).
Proof.
  intros sha Cert parse J tiled s lg st i HJ T R L C Nz.
  destruct (end_to_end sha J tiled _ HJ s lg st i R L C)
    as [[Z _]|[[_ [s0 [e [tr [pre [sp [post [sts [Hh [[[_ W] [o Rn]] [E [_ [P [V [_ Inc]]]]]]]]]]]]]]]|[T' _]]]; [contradiction| |congruence].
  destruct P as [h [fl [proof [A1 [A2 [A3 A4]]]]]].
  destruct V as [a [seg [b [sb [C1 [D [E1 [F [G M]]]]]]]]].
  destruct (entriesFrom_In sha _ _ F i) as [ts [leaf [out [I [O Nt]]]]]; [lia|].
  assert (Ip : In (EEntry i ts leaf out) pre) by (rewrite C1; rewrite !in_app_iff; auto).
  pose proof (run_from sha _ _ _ _ _ Rn) as Fr. rewrite Forall_forall in Fr.
  assert (It : In (EEntry i ts leaf out) tr) by (rewrite E; apply in_app_iff; left; exact Ip).
  destruct (event_wire parse _ _ _ _ _ _ W (Fr _ It))
    as [k [d [l [now [x [na [p [Sy [An [Pd H]]]]]]]]]].
  exists s0, e, pre, leaf, ts, k, d, l, now, x, na, p.
  split; [exists sp, post, o; split; [exact Hh|rewrite <- E; exact Rn]|].
  split; [exists h, fl, proof, sts, sb, a, seg, b; auto 14|].
  split; [exact Sy|]. split; [exact An|]. split.
  { intros der ->. destruct An as [extra [cc [_ X]]]. inversion X. reflexivity. }
  split; [exact Pd|].
  destruct out as [c iss| | |]; [left|right; left; exact H|right; right; exact H|destruct H].
  destruct H as [-> H]. exists iss. split; [exact H|]. apply Inc. eapply itemsOf_In. exact Ip.
Qed.
Print Assumptions C74_saved_range.

(** So if the log's own entry at a verified position is a certificate, the job stored
    that certificate with its own time, or skipped it; unless there is a collision of
    SHA-256. *)
Theorem C74_logs_own_certificate :
  forall (sha256 : bytes -> bytes) (Cert : Type) (parse : bytes -> option (Cert * Z * bool)) J s0 (e : jobEnv Cert)
         tr out pre post i (D : list bytes) h f l p ts der,
    (forall x, length (sha256 x) = 32%nat) -> (N.of_nat (length D) < two64)%N ->
    je_head Cert e = Some h -> jobRange J (chooseTask J (je_recent Cert e) (Some h) s0) h s0 = Ok (f, l) ->
    (l < N.of_nat (length D))%N -> je_proof Cert e = Some p ->
    PROOF sha256 (N.to_nat (if (f =? 0)%N then 3 else f)%N) (firstn (N.to_nat (l + 1)) D) p ->
    run sha256 Cert J s0 e = (tr, out) -> tr = pre ++ post -> fromWire parse e ->
    downloadedAndVerified sha256 J s0 e pre i -> says (nth (N.to_nat i) D []) ts (LX509 der) ->
    (exists o c notAfter signer, In (EEntry i ts (nth (N.to_nat i) D []) o) pre /\ parse der = Some (c, notAfter, signer) /\
       match o with
       | SQueued c' _ => c' = c
       | SSkipExpired => je_logExpired Cert e = false /\ exists now, (notAfter < now)%Z
       | SSkipNoChain => exists now, answered parse e (nth (N.to_nat i) D []) (LX509 der) der [] now
       | SFatal => False
       end) \/
    (exists a seg b f' l' x y, pre = a ++ seg ++ b /\ (f' <= i <= l')%N /\
       hashed sha256 (leavesOf seg) x /\ hashed sha256 (entries D f' l') y /\
       x <> y /\ sha256 x = sha256 y).
Proof.
  intros sha Cert parse J s0 e tr out pre post i D h f l p ts der HL HD Hh Hj Hl Hp HP R E W DV S.
  destruct (C06_entries_are_the_logs_own sha Cert J s0 e pre i D h f l p HL HD Hh Hj Hl Hp HP DV) as [[t [o I]]|X]; [left|right; exact X].
  pose proof (run_from sha _ _ _ _ _ R) as Fr. rewrite Forall_forall in Fr.
  assert (It : In (EEntry i t (nth (N.to_nat i) D []) o) tr) by (rewrite E; apply in_app_iff; left; exact I).
  destruct (event_wire parse _ _ _ _ _ _ W (Fr _ It)) as [k [d [ch [now [x [na [pp [Sy [An [Pd H]]]]]]]]]].
  destruct (says_fun _ _ _ _ _ S Sy) as [-> ->].
  assert (Ed : d = der) by (destruct An as [extra [cc [_ X]]]; inversion X; reflexivity). subst d.
  exists o, x, na, pp. split; [exact I|]. split; [exact Pd|].
  destruct o as [c iss| | |]; [exact (proj1 H)|destruct H as [H1 H2]; split; [exact H1|exists now; exact H2]|subst ch; exists now; exact An|exact H].
Qed.
Print Assumptions C74_logs_own_certificate.

(** ** What the proof does not cover *)

(** A log of five entries; entry 2 is a precertificate. *)
Definition certLeaf (ts : N) (der : bytes) : bytes := x00 :: x00 :: be 8 ts ++ be 2 0 ++ withLen 3 der ++ withLen 2 [].
Definition preLeaf (ts : N) (kh tbs : bytes) : bytes := x00 :: x00 :: be 8 ts ++ be 2 1 ++ kh ++ withLen 3 tbs ++ withLen 2 [].
Definition chainBytes (l : list bytes) : bytes := withLen 3 (flat_map (withLen 3) l).
Definition wireLog : list bytes :=
  [certLeaf 10 (B "root"); certLeaf 11 (B "a"); preLeaf 12 (repeat x07 32) (B "to be signed"); certLeaf 13 (B "c"); certLeaf 14 (B "d")].
Definition leafAt (n : nat) : bytes := nth n wireLog [].
Definition wireParse (der : bytes) : option (bytes * Z * bool) := Some (der, 1000%Z, false).
(** The first job with JobSize 4: entries 1 to 4, with the given extra data. *)
Definition wireJob (x1 x2 x3 x4 : bytes) : jobEnv bytes :=
  let r n x := received wireParse (leafAt n) x 5 false in
  mkEnv (Some (mkSTH 5 100)) false 7
        (Some [lh (leafAt 1); ph (lh (leafAt 2)) (lh (leafAt 3)); lh (leafAt 4)])
        [REntries [r 1%nat x1]; REntries [r 2%nat x2; r 3%nat x3]; REntries [r 4%nat x4]] [] false.
Definition pres (p : bytes) (l : list bytes) : bytes := withLen 3 p ++ chainBytes l.
Definition goodJob : jobEnv bytes :=
  wireJob (chainBytes [B "CA"]) (pres (B "b") [B "CA"]) (chainBytes [B "CA"]) (chainBytes [B "CA"]).

Lemma wireJob_fromWire x1 x2 x3 x4 : fromWire wireParse (wireJob x1 x2 x3 x4).
Proof.
  unfold fromWire, wireJob. cbn [je_resps].
  assert (G : forall n x, exists leaf extra now c, received wireParse (leafAt n) x 5 false = received wireParse leaf extra now c).
  { intros n x. exists (leafAt n), x, 5%Z, false. reflexivity. }
  repeat constructor; apply G.
Qed.

Definition points (tr : list (event bytes)) : list logState :=
  flat_map (fun e => match e with EState s => [s] | _ => [] end) tr.
(** The two jobs saw the same tree head, the same proof and the same leaves, both were
    successful and saved the same states, some of which claim position [i]. *)
Definition sameProof (e e' : jobEnv bytes) (tr tr' : list (event bytes)) (i : N) : Prop :=
  fromWire wireParse e /\ fromWire wireParse e' /\
  je_head bytes e = je_head bytes e' /\ je_proof bytes e = je_proof bytes e' /\
  map (re_leaf bytes) (allEntries (je_resps bytes e)) = map (re_leaf bytes) (allEntries (je_resps bytes e')) /\
  run toyHash bytes 4 freshState e = (tr, OOk) /\ run toyHash bytes 4 freshState e' = (tr', OOk) /\
  points tr = points tr' /\ exists st, In st (points tr) /\ claims st i.

Definition traceOf (e : jobEnv bytes) : list (event bytes) := fst (run toyHash bytes 4 freshState e).
Ltac sameJobs :=
  split; [apply wireJob_fromWire|]; split; [apply wireJob_fromWire|];
  split; [reflexivity|]; split; [reflexivity|]; split; [vm_compute; reflexivity|];
  split; [vm_compute; reflexivity|]; split; [vm_compute; reflexivity|]; split; [vm_compute; reflexivity|];
  exists (mkLS 1 4 11 14 (Some 7%N)); split; [vm_compute; auto|split; [discriminate|split; vm_compute; discriminate]].

(** The issuer is not covered: the same entry, verified with the same proof, is stored
    under whatever issuer the log sends beside it. *)
Theorem C74_issuer_refuted : exists e e' tr tr' leaf c iss iss', sameProof e e' tr tr' 3 /\
  In (EEntry 3 13 leaf (SQueued c iss)) tr /\ In (EEntry 3 13 leaf (SQueued c iss')) tr' /\ iss <> iss'.
Proof.
  set (e' := wireJob (chainBytes [B "CA"]) (pres (B "b") [B "CA"]) (chainBytes [B "other"]) (chainBytes [B "CA"])).
  exists goodJob, e', (traceOf goodJob), (traceOf e'), (leafAt 3), (B "c"), (B "CA"), (B "other"). split; [sameJobs|].
  split; [vm_compute; auto 8|]. split; [vm_compute; auto 8|discriminate].
Qed.
Print Assumptions C74_issuer_refuted.

(** Nor is the certificate stored for a precertificate: it is not compared with the
    signed part and the key hash in the leaf. *)
Theorem C74_precertificate_refuted : exists e e' tr tr' leaf c c' iss, sameProof e e' tr tr' 2 /\
  In (EEntry 2 12 leaf (SQueued c iss)) tr /\ In (EEntry 2 12 leaf (SQueued c' iss)) tr' /\ c <> c'.
Proof.
  set (e' := wireJob (chainBytes [B "CA"]) (pres (B "x") [B "CA"]) (chainBytes [B "CA"]) (chainBytes [B "CA"])).
  exists goodJob, e', (traceOf goodJob), (traceOf e'), (leafAt 2), (B "b"), (B "x"), (B "CA"). split; [sameJobs|].
  split; [vm_compute; auto 8|]. split; [vm_compute; auto 8|discriminate].
Qed.
Print Assumptions C74_precertificate_refuted.

(** Nor is it that anything is stored: an entry sent without a chain is taken for a
    root certificate and dropped, and its position is recorded as done. *)
Theorem C74_dropped_refuted : exists e e' tr tr', sameProof e e' tr tr' 3 /\
  length (itemsOf (B "log") tr) = 4%nat /\ itemsOf (B "log") tr' = [].
Proof.
  set (e' := wireJob (chainBytes []) (pres (B "b") []) (chainBytes []) (chainBytes [])).
  exists goodJob, e', (traceOf goodJob), (traceOf e'). split; [sameJobs|]. split; vm_compute; reflexivity.
Qed.
Print Assumptions C74_dropped_refuted.

(** The hypotheses of the theorems are met by the process that runs the good job. *)
Example C74_example : exists s st,
  reachable 4 (Wall toyHash 4 isTiled (fun _ e => fromWire wireParse e)) s /\
  alookup (B "log") (saved s) = Some st /\ claims st 2 /\ claims st 3 /\ isTiled (B "log") = false /\
  In (mkItem (B "log") (B "c") (B "CA") 13) (itemsOf (B "log") (traceOf goodJob)) /\
  says (leafAt 3) 13 (LX509 (B "c")) /\ says (leafAt 2) 12 (LPre (repeat x07 32) (B "to be signed")).
Proof.
  set (tr := traceOf goodJob).
  assert (X : In (mkItem (B "log") (B "c") (B "CA") 13) (itemsOf (B "log") tr)) by (vm_compute; auto 8).
  destruct (job_completes_initial 4 (Wall toyHash 4 isTiled (fun _ e => fromWire wireParse e)) (B "log") (inl goodJob) tr) as [s [R [L I]]].
  { split; [reflexivity|]. split; [split; [split; [vm_compute; discriminate|repeat constructor]|apply wireJob_fromWire]|].
    exists OOk. vm_compute. reflexivity. }
  exists s. eexists. split; [exact R|]. split; [rewrite L; vm_compute; reflexivity|].
  split; [split; [discriminate|split; vm_compute; discriminate]|].
  split; [split; [discriminate|split; vm_compute; discriminate]|]. split; [reflexivity|]. split; [|split].
  - exact X.
  - change (leafAt 3) with (certLeaf 13 (B "c")). unfold certLeaf.
    apply says_cert; [reflexivity|split; [vm_compute; discriminate|reflexivity]|split; [vm_compute; discriminate|reflexivity]].
  - change (leafAt 2) with (preLeaf 12 (repeat x07 32) (B "to be signed")). unfold preLeaf.
    apply says_pre; [reflexivity|reflexivity|split; [vm_compute; discriminate|reflexivity]|split; [vm_compute; discriminate|reflexivity]].
Qed.
