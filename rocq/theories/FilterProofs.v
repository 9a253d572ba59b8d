(** * Lemmas on the filter builder *)
From Verif Require Import Base MerkleModel SerialModel SerialProofs Base64 StoreModel StoreProofs AggModel IssuersModel P_Issuers FilterModel.
From Coq Require Import Strings.Byte Sorting.Permutation.

Lemma bind_ok {A B} (x : res A) (f : A -> res B) b : bind x f = Ok b <-> exists a, x = Ok a /\ f a = Ok b.
Proof. destruct x; cbn [bind]; split; try discriminate; try (intros [a' [E H]]; try discriminate E; injection E as <-; exact H). intros H; exists a; auto. Qed.

Lemma orPanic_ok {A} (x : option A) a : orPanic x = Ok a <-> x = Some a.
Proof. destruct x; cbn [orPanic]; split; congruence. Qed.

Lemma mapRes_ok {A B} (f : A -> res B) : forall l r, mapRes f l = Ok r <-> Forall2 (fun a b => f a = Ok b) l r.
Proof.
  induction l as [|a l IH]; intros r; cbn [mapRes].
  - split; [intros H; injection H as <-; constructor|]. intros H; inversion H; reflexivity.
  - rewrite bind_ok. split.
    + intros [b [E H]]. apply bind_ok in H. destruct H as [r' [E' H]]. injection H as <-. constructor; [exact E|apply IH; exact E'].
    + intros H. inversion H as [|x y l' r' E F]; subst. exists y. split; [exact E|]. apply bind_ok. exists r'. split; [apply IH; exact F|reflexivity].
Qed.

Lemma mapRes_map {A B} (f : A -> res B) (g : A -> B) l : (forall a, In a l -> f a = Ok (g a)) -> mapRes f l = Ok (map g l).
Proof.
  induction l as [|a l IH]; intros H; [reflexivity|]. cbn [mapRes map]. rewrite H by (left; reflexivity). cbn [bind].
  rewrite IH by (intros x I; apply H; right; exact I). reflexivity.
Qed.

Lemma mapRes_comp {A B C} (f : B -> res C) (h : A -> B) l : mapRes f (map h l) = mapRes (fun a => f (h a)) l.
Proof. induction l as [|a l IH]; [reflexivity|]. cbn [map mapRes]. rewrite IH. reflexivity. Qed.

Lemma memb_in s l : memb s l = true <-> In s l.
Proof.
  unfold memb. rewrite existsb_exists. split; [intros [x [I E]]; apply beq_eq in E; subst; exact I|]. intros I; exists s; split; [exact I|apply beq_refl].
Qed.
Lemma memb_not s l : memb s l = false <-> ~ In s l.
Proof. rewrite <- not_true_iff_false, memb_in. reflexivity. Qed.

Lemma toMap_from (l : list (bytes * reason)) : forall m s r, alookup s (fold_left (fun m e => aset (fst e) (snd e) m) l m) = Some r ->
  In (s, r) l \/ alookup s m = Some r.
Proof.
  induction l as [|[k v] l IH]; intros m s r H; cbn [fold_left fst snd] in H; [auto|]. apply IH in H. destruct H as [H|H]; [left; right; exact H|].
  destruct (beq_spec s k) as [->|N]; [rewrite alookup_aset_same in H; injection H as ->; left; left; reflexivity|].
  rewrite alookup_aset_other in H by exact N. auto.
Qed.
Lemma toMap_none (l : list (bytes * reason)) : forall m s, alookup s (fold_left (fun m (e : bytes * reason) => aset (fst e) (snd e) m) l m) = None <->
  alookup s m = None /\ ~ In s (map fst l).
Proof.
  induction l as [|[k v] l IH]; intros m s; cbn [fold_left fst snd map In]; [tauto|]. rewrite IH.
  destruct (beq_spec s k) as [->|N]; [rewrite alookup_aset_same|rewrite alookup_aset_other by exact N].
  - split; [intros [H _]; discriminate H|intros [_ H]; exfalso; apply H; left; reflexivity].
  - split; intros [H1 H2]; (split; [exact H1|]); [intros [E|E]; [congruence|tauto]|tauto].
Qed.
Lemma toMap_some l s r : alookup s (toMap l) = Some r -> In (s, r) l.
Proof. intros H. apply toMap_from in H. destruct H as [H|H]; [exact H|discriminate H]. Qed.
Lemma toMap_is l s : (exists r, alookup s (toMap l) = Some r) <-> In s (map fst l).
Proof.
  split.
  - intros [r H]. apply toMap_some in H. apply (in_map fst) in H. exact H.
  - intros I. destruct (alookup s (toMap l)) as [r|] eqn:E; [exists r; reflexivity|]. unfold toMap in E. apply toMap_none in E. tauto.
Qed.

Lemma hexEncode_inj a b : hexEncode a = hexEncode b -> a = b.
Proof. intros H. assert (E : hexDecode (hexEncode a) = hexDecode (hexEncode b)) by (rewrite H; reflexivity). rewrite !hexDecode_encode in E. congruence. Qed.

(** ** Files written by the Go programs *)

(** The directories written by aggregate-known and aggregate-crls, for issuers
    given by the digests of their keys. *)
Definition knownSrc := list (bytes * list (Z * list bytes)).
Definition revokedSrc := list (bytes * list (bytes * N)).
Definition goKnown (ks : knownSrc) : dir :=
  map (fun k => (issuerID (fst k), flat_map (fun p => writeSerialList (fst p) (snd p)) (snd k))) ks.
Definition goRevoked (rs : revokedSrc) : dir := map (fun r => (issuerID (fst r), revokedFile (snd r))) rs.

Definition goodKnown (ks : knownSrc) : Prop :=
  NoDup (map fst ks) /\
  (forall d bins, In (d, bins) ks -> length d = 32%nat /\ forall u ss, In (u, ss) bins -> (0 <= u < 2 ^ 63)%Z).
Definition goodRevoked (rs : revokedSrc) : Prop := NoDup (map fst rs).

Definition knownLines (bins : list (Z * list bytes)) : list (N * bytes) :=
  flat_map (fun p => map (fun s => (Z.to_N (fst p), s)) (snd p)) bins.
Definition hexLine (e : N * bytes) : N * bytes := (fst e, hexEncode (snd e)).

Lemma read_known ks d bins : goodKnown ks -> In (d, bins) ks ->
  rustReadKnown (flat_map (fun p => writeSerialList (fst p) (snd p)) bins) = Ok (map hexLine (knownLines bins)).
Proof.
  intros G I. unfold rustReadKnown. rewrite rustKnown_lists by (intros u ss J; apply (proj2 G d bins I) in J; exact J).
  f_equal. unfold knownLines. clear. induction bins as [|[u ss] bins IH]; [reflexivity|]. cbn [flat_map fst snd]. rewrite map_app, <- IH. f_equal.
  rewrite map_map. reflexivity.
Qed.

Lemma decode_issuer_spec s d : decodeIssuer s = Ok d <->
  length d = 32%nat /\ (s = b64encode urlAlphabet d \/ s ++ [pad] = b64encode urlAlphabet d).
Proof.
  assert (LE : length d = 32%nat -> length (b64encode urlAlphabet d) = 44%nat) by (intros L; rewrite b64encode_length, L; reflexivity).
  unfold decodeIssuer. split.
  - intros H. apply bind_ok in H. destruct H as [d' [_ H]]. destruct (Nat.eqb_spec (length d') 32) as [L|]; [|discriminate H].
    destruct (beq _ _) eqn:E; [|discriminate H]. cbn [andb] in H. assert (X : d' = d) by congruence. subst d'. split; [exact L|].
    apply beq_eq in E. destruct (_ =? 3)%nat; [right|left]; exact E.
  - intros [L H]. specialize (LE L).
    assert (E : (if (length s mod 4 =? 3)%nat then s ++ [pad] else s) = b64encode urlAlphabet d).
    { destruct H as [H|H].
      - rewrite H, LE. reflexivity.
      - assert (LS : length s = 43%nat) by (rewrite <- H, app_length in LE; cbn [length] in LE; lia). rewrite LS. exact H. }
    cbv zeta. rewrite E, b64decode_encode by apply url_good. cbn [orPanic bind]. rewrite L, (proj2 (beq_eq _ _) eq_refl). reflexivity.
Qed.
Lemma decode_issuer_ok d : length d = 32%nat -> decodeIssuer (issuerID d) = Ok d.
Proof. intros L. apply decode_issuer_spec. split; [exact L|left; reflexivity]. Qed.

Lemma issuerID_inj a b : issuerID a = issuerID b -> a = b.
Proof. apply b64encode_inj. apply url_good. Qed.

Lemma radix_hexByte b : fromStrRadix16 (hexByte b) = Some (Byte.to_N b).
Proof. destruct b; reflexivity. Qed.

Definition sel (set : reasonSet) (e : bytes * N) : bool := negb (skipReason set (reasonOfCode (snd e mod 256))).
Definition revItem (e : bytes * N) : bytes * reason := (hexEncode (fst e), reasonOfCode (snd e mod 256)).

Lemma read_revoked set l : rustReadRevoked set (revokedFile l) = Ok (map revItem (filter (sel set) l)).
Proof.
  unfold rustReadRevoked, revokedFile. induction l as [|[s c] l IH]; [reflexivity|]. cbn [flat_map].
  change (revokedLine (s, c)) with (hexEncode [byteOf c] ++ hexEncode s ++ [nl]).
  replace ((hexEncode [byteOf c] ++ hexEncode s ++ [nl]) ++ flat_map revokedLine l) with (hexEncode (byteOf c :: s) ++ [nl] ++ flat_map revokedLine l)
    by (unfold hexEncode; cbn [flat_map]; rewrite app_nil_r, <- !app_assoc; reflexivity).
  rewrite rustLines_line, dropCR_id by apply hexEncode_clean. cbn [rustRevoked].
  replace (length (hexEncode (byteOf c :: s)) <? 2)%nat with false by (symmetry; apply Nat.ltb_ge; rewrite hexEncode_length; cbn [length]; lia).
  assert (E : hexEncode (byteOf c :: s) = hexByte (byteOf c) ++ hexEncode s) by reflexivity.
  assert (L : length (hexByte (byteOf c)) = 2%nat) by reflexivity.
  rewrite E, (firstn_app_exact _ _ 2 L), (skipn_app_exact _ _ 2 L). unfold decodeReason. rewrite radix_hexByte. cbn [orPanic bind].
  rewrite IH. cbn [bind]. rewrite to_N_byteOf.
  cbn [filter]. change (sel set (s, c)) with (negb (skipReason set (reasonOfCode (c mod 256)))). destruct (skipReason set (reasonOfCode (c mod 256))); reflexivity.
Qed.

Lemma lookup_revoked rs d : goodRevoked rs ->
  (forall l, In (d, l) rs -> alookup (issuerID d) (goRevoked rs) = Some (revokedFile l)) /\
  (forall x, alookup (issuerID d) (goRevoked rs) = Some x -> exists l, In (d, l) rs /\ x = revokedFile l).
Proof.
  unfold goodRevoked, goRevoked. intros G. split.
  - intros l. induction rs as [|[k v] rs IH]; intros I; [destruct I|]. cbn [map fst snd alookup]. cbn [map fst] in G. apply NoDup_cons_iff in G. destruct G as [N G].
    destruct (beq_spec (issuerID d) (issuerID k)) as [E|E].
    + apply issuerID_inj in E. subst k. destruct I as [I|I]; [injection I as ->; reflexivity|]. exfalso. apply N. apply (in_map fst) in I. exact I.
    + destruct I as [I|I]; [congruence|]. apply IH; assumption.
  - intros x. induction rs as [|[k v] rs IH]; intros I; [discriminate I|]. cbn [map fst snd alookup] in I. cbn [map fst] in G. apply NoDup_cons_iff in G. destruct G as [N G].
    destruct (beq_spec (issuerID d) (issuerID k)) as [E|E].
    + apply issuerID_inj in E. subst k. injection I as <-. exists v. split; [left; reflexivity|reflexivity].
    + destruct (IH G I) as [l [J ->]]. exists l. split; [right; exact J|reflexivity].
Qed.

(** What the builder reads for an issuer's revocations. *)
Fixpoint revOf (rs : revokedSrc) (d : bytes) : option (list (bytes * N)) :=
  match rs with [] => None | (k, l) :: rs' => if beq d k then Some l else revOf rs' d end.

Lemma revOf_lookup rs d : alookup (issuerID d) (goRevoked rs) = match revOf rs d with Some l => Some (revokedFile l) | None => None end.
Proof.
  induction rs as [|[k l] rs IH]; [reflexivity|]. unfold goRevoked in *. cbn [map fst snd alookup revOf].
  destruct (beq_spec (issuerID d) (issuerID k)) as [E|E]; destruct (beq_spec d k) as [E'|E']; try reflexivity.
  - exfalso. apply E'. apply issuerID_inj. exact E.
  - exfalso. apply E. subst; reflexivity.
  - exact IH.
Qed.
Lemma revOf_in rs d l : goodRevoked rs -> (revOf rs d = Some l <-> In (d, l) rs).
Proof.
  unfold goodRevoked. induction rs as [|[k v] rs IH]; intros G; cbn [revOf In]; [split; [discriminate|tauto]|].
  cbn [map fst] in G. apply NoDup_cons_iff in G. destruct G as [N G]. destruct (beq_spec d k) as [->|NE].
  - split; [intros H; injection H as ->; left; reflexivity|]. intros [H|H]; [congruence|]. exfalso. apply N. apply (in_map fst) in H. exact H.
  - rewrite IH by exact G. split; [auto|]. intros [H|H]; [congruence|exact H].
Qed.

Definition revList (set : reasonSet) (rs : revokedSrc) (d : bytes) : list (bytes * reason) :=
  match revOf rs d with Some l => map revItem (filter (sel set) l) | None => [] end.

Lemma read_go_revoked set rs d : readRevoked set (alookup (issuerID d) (goRevoked rs)) = Ok (revList set rs d).
Proof. rewrite revOf_lookup. unfold revList. destruct (revOf rs d) as [l|]; [|reflexivity]. cbn [readRevoked]. apply read_revoked. Qed.

Lemma filePairs_go rs ks : filePairs (goRevoked rs) (goKnown ks) =
  map (fun k => (issuerID (fst k), alookup (issuerID (fst k)) (goRevoked rs), flat_map (fun p => writeSerialList (fst p) (snd p)) (snd k))) ks.
Proof. unfold filePairs, goKnown. rewrite map_map. reflexivity. Qed.

Lemma in_knownLines bins u s : In (u, s) (knownLines bins) -> exists v ss, In (v, ss) bins /\ In s ss.
Proof.
  unfold knownLines. intros I. apply in_flat_map in I. destruct I as [[v ss] [I J]]. apply in_map_iff in J. destruct J as [x [E J]].
  injection E as _ <-. exists v, ss. auto.
Qed.
Lemma knownLines_in bins v ss s : In (v, ss) bins -> In s ss -> exists u, In (u, s) (knownLines bins).
Proof. intros I J. exists (Z.to_N v). unfold knownLines. apply in_flat_map. exists (v, ss). split; [exact I|]. apply in_map_iff. exists s. auto. Qed.
