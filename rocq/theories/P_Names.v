(** * Names of keys, files and addresses: C25, C26, C27 and C52 in terms of their texts *)
From Coq Require Import ZArith.
From Verif Require Import Base MerkleModel SerialModel SerialProofs Base64 Base64Spec TimeModel StoreModel StoreProofs P_Store IdentityModel P_Identity.
From Coq Require Import Strings.Byte.

(** ** Specification *)
Definition two : bytes := B "::".
Definition inside (p s : bytes) : Prop := exists x y, s = x ++ p ++ y.
(** The parts of a text between double colons, each cut at the first one. *)
Inductive parts : bytes -> list bytes -> Prop :=
| PaLast s : ~ inside two s -> parts s [s]
| PaCut a r ps : ~ inside two (a ++ B ":") -> parts r ps -> parts (a ++ two ++ r) (a :: ps).

(** ** Proofs *)
Lemma app_len_inj {A} (a b c d : list A) : a ++ b = c ++ d -> length a = length c -> a = c /\ b = d.
Proof.
  revert c. induction a as [|x a IH]; intros [|y c] E L; try discriminate L; [split; [reflexivity|exact E]|].
  cbn [app] in E. injection E as -> E. injection L as L. destruct (IH c E L) as [-> ->]. split; reflexivity.
Qed.
Lemma split_parts : forall n acc s, (length s <= n)%nat ->
  (forall x y, rev acc ++ s = x ++ two ++ y -> (length acc <= length x)%nat) -> parts (rev acc ++ s) (split2c acc s).
Proof.
  induction n as [|n IH]; intros acc s Ln I.
  { destruct s; [|cbn in Ln; lia]. cbn [split2c]. rewrite app_nil_r in *. apply PaLast. intros (x & y & E). pose proof (I x y E) as L.
    apply (f_equal (@length _)) in E. rewrite rev_length, !app_length in E. cbn [length two B] in E. cbn in E. lia. }
  destruct s as [|c s]; [apply (IH acc []); [cbn; lia|exact I]|]. cbn [split2c]. cbn [length] in Ln.
  assert (GO : (c <> colon \/ exists d s', s = d :: s' /\ d <> colon) -> parts (rev acc ++ c :: s) (split2c (c :: acc) s)).
  { intros N. replace (rev acc ++ c :: s) with (rev (c :: acc) ++ s) by (cbn [rev]; rewrite <- app_assoc; reflexivity).
    apply IH; [lia|]. cbn [rev]. rewrite <- app_assoc. cbn [app]. intros x y E. pose proof (I x y E) as L. cbn [length].
    destruct (Nat.eq_dec (length x) (length acc)) as [Q|]; [|lia]. exfalso.
    apply app_len_inj in E; [|rewrite rev_length; symmetry; exact Q]. destruct E as [_ E].
    change (c :: s = colon :: colon :: y) in E. destruct N as [N|(d & s' & -> & N)]; [|]; congruence. }
  destruct (byte_eqb_spec c colon) as [->|N]; [|apply GO; left; exact N].
  destruct s as [|d s].
  { cbn [rev]. apply PaLast. intros (x & y & E). pose proof (I x y E) as L.
    apply (f_equal (@length _)) in E. rewrite !app_length, rev_length in E. cbn in E. lia. }
  destruct (byte_eqb_spec d colon) as [->|N]; [|apply GO; right; exists d, s; auto].
  change (colon :: colon :: s) with (two ++ s). apply PaCut.
  - intros (x & y & E). assert (E2 : rev acc ++ colon :: colon :: s = x ++ two ++ (y ++ colon :: s)).
    { change (rev acc ++ [colon] = x ++ two ++ y) in E. transitivity ((rev acc ++ [colon]) ++ colon :: s); [rewrite <- app_assoc; reflexivity|].
      rewrite E, <- !app_assoc. reflexivity. }
    pose proof (I _ _ E2) as L. apply (f_equal (@length _)) in E. rewrite !app_length, rev_length in E. cbn in E. lia.
  - apply (IH [] s); [cbn in Ln; lia|]. intros x y _. cbn. lia.
Qed.
Lemma parts_same s ps : parts s ps -> forall qs, parts s qs -> ps = qs.
Proof.
  assert (G : forall a b r t, a ++ two ++ r = b ++ two ++ t -> ~ inside two (b ++ B ":") -> (length b <= length a)%nat).
  { intros a b r t E N. destruct (le_lt_dec (length b) (length a)) as [L|L]; [exact L|]. exfalso. apply N.
    exists a, (firstn (length b - length a - 1) r).
    apply (f_equal (firstn (length b + 1))) in E. rewrite !app_assoc in E. rewrite <- !app_assoc in E.
    rewrite (firstn_app (length b + 1) b) in E. rewrite (firstn_all2 b) in E by lia.
    replace (length b + 1 - length b)%nat with 1%nat in E by lia. change (firstn 1 (two ++ t)) with (B ":") in E. rewrite <- E.
    rewrite firstn_app, (firstn_all2 a) by lia. rewrite firstn_app, (firstn_all2 two) by (cbn; lia). f_equal. f_equal. f_equal. cbn. lia. }
  induction 1 as [s N|a r ps N P IH]; intros qs Q.
  - inversion Q as [s' N' E1 E2|a' r' qs' N' P' E1 E2]; subst; [reflexivity|]. exfalso. apply N. exists a', r'. reflexivity.
  - inversion Q as [s' N' E1 E2|a' r' qs' N' P' E1 E2]; subst.
    + exfalso. apply N'. exists a, r. reflexivity.
    + assert (L : length a' = length a).
      { pose proof (G _ _ _ _ E1 N). pose proof (G _ _ _ _ (eq_sym E1) N'). lia. }
      destruct (app_len_inj _ _ _ _ E1 L) as [-> E]. assert (r' = r) by congruence. subst r'.
      f_equal. apply IH. exact P'.
Qed.
Lemma splitColons_parts s ps : splitColons s = ps <-> parts s ps.
Proof.
  assert (P : parts s (splitColons s)) by (apply (split_parts (length s) [] s); [lia|intros; cbn; lia]).
  split; [intros <-; exact P|]. intros Q. apply (parts_same _ _ P _ Q).
Qed.

Lemma trim_eq u v : trimSlashes u = trimSlashes v <-> upToSlashes u v.
Proof.
  split.
  - intros E. destruct (trim_some u) as [i Ei]. destruct (trim_some v) as [j Ej]. exists (trimSlashes u), i, j.
    split; [exact Ei|]. rewrite E. exact Ej.
  - intros (b & i & j & -> & ->). rewrite !trim_repeat. reflexivity.
Qed.

(** ** Theorems *)
(** The name of an issuer is the base64url text of its digest, and these are the characters of
    base64url: capital and small letters, digits, minus, underscore. *)
Theorem C26_issuer_names : forall d, b64Text urlAlphabet d (issuerID d) /\
  forall c i, Base64Spec.digit urlAlphabet c i <-> ((i < 26 /\ Byte.to_N c = 65 + i) \/ (26 <= i < 52 /\ Byte.to_N c = 71 + i) \/
    (52 <= i < 62 /\ Byte.to_N c + 4 = i) \/ (i = 62 /\ c = "-"%byte) \/ (i = 63 /\ c = "_"%byte))%N.
Proof.
  intros d. split; [apply b64encode_text; exact url_good|]. intros c i. split.
  - intros [L H]. assert (K : forall n, (n < 64)%nat -> forall c, nth_error urlAlphabet n = Some c ->
      ((N.of_nat n < 26 /\ Byte.to_N c = 65 + N.of_nat n) \/ (26 <= N.of_nat n < 52 /\ Byte.to_N c = 71 + N.of_nat n) \/
      (52 <= N.of_nat n < 62 /\ Byte.to_N c + 4 = N.of_nat n) \/ (N.of_nat n = 62 /\ c = "-"%byte) \/ (N.of_nat n = 63 /\ c = "_"%byte))%N).
    { clear. intros n Hn c E. do 64 (destruct n as [|n]; [vm_compute in E; injection E as <-; vm_compute; intuition congruence|]). lia. }
    specialize (K (N.to_nat i) ltac:(lia) c H). rewrite N2Nat.id in K. exact K.
  - assert (K : forall b, match Base64.indexOf urlAlphabet b with
        | Some k => (k < 26 /\ Byte.to_N b = 65 + k) \/ (26 <= k < 52 /\ Byte.to_N b = 71 + k) \/ (52 <= k < 62 /\ Byte.to_N b + 4 = k) \/ (k = 62 /\ b = "-"%byte) \/ (k = 63 /\ b = "_"%byte)
        | None => ~ (65 <= Byte.to_N b <= 90 \/ 97 <= Byte.to_N b <= 122 \/ 48 <= Byte.to_N b <= 57 \/ b = "-"%byte \/ b = "_"%byte) end%N).
    { intros b. destruct b; vm_compute; intuition congruence. }
    intros H. apply (indexOf_digit _ url_good). specialize (K c). destruct (Base64.indexOf urlAlphabet c) as [k|].
    + f_equal. assert (X : c = "-"%byte -> Byte.to_N c = 45%N) by (intros ->; reflexivity). assert (Y : c = "_"%byte -> Byte.to_N c = 95%N) by (intros ->; reflexivity).
      destruct K as [K|[K|[K|[[K K2]|[K K2]]]]]; destruct H as [H|[H|[H|[[H H2]|[H H2]]]]];
        repeat match goal with E : c = "-"%byte |- _ => apply X in E | E : c = "_"%byte |- _ => apply Y in E end; lia.
    + exfalso. apply K. destruct H as [H|[H|[H|[H|H]]]]; [left; lia|right; left; lia|right; right; left; lia|tauto|tauto].
Qed.
Print Assumptions C26_issuer_names.

(** The characters of PEM texts and log ids: plus and slash instead. *)
Theorem C78_characters : forall c i, Base64Spec.digit stdAlphabet c i <-> ((i < 26 /\ Byte.to_N c = 65 + i) \/ (26 <= i < 52 /\ Byte.to_N c = 71 + i) \/
    (52 <= i < 62 /\ Byte.to_N c + 4 = i) \/ (i = 62 /\ c = "+"%byte) \/ (i = 63 /\ c = "/"%byte))%N.
Proof.
  intros c i. split.
  - intros [L H]. assert (K : forall n, (n < 64)%nat -> forall c, nth_error stdAlphabet n = Some c ->
      ((N.of_nat n < 26 /\ Byte.to_N c = 65 + N.of_nat n) \/ (26 <= N.of_nat n < 52 /\ Byte.to_N c = 71 + N.of_nat n) \/
      (52 <= N.of_nat n < 62 /\ Byte.to_N c + 4 = N.of_nat n) \/ (N.of_nat n = 62 /\ c = "+"%byte) \/ (N.of_nat n = 63 /\ c = "/"%byte))%N).
    { clear. intros n Hn c E. do 64 (destruct n as [|n]; [vm_compute in E; injection E as <-; vm_compute; intuition congruence|]). lia. }
    specialize (K (N.to_nat i) ltac:(lia) c H). rewrite N2Nat.id in K. exact K.
  - assert (K : forall b, match Base64.indexOf stdAlphabet b with
        | Some k => (k < 26 /\ Byte.to_N b = 65 + k) \/ (26 <= k < 52 /\ Byte.to_N b = 71 + k) \/ (52 <= k < 62 /\ Byte.to_N b + 4 = k) \/ (k = 62 /\ b = "+"%byte) \/ (k = 63 /\ b = "/"%byte)
        | None => ~ (65 <= Byte.to_N b <= 90 \/ 97 <= Byte.to_N b <= 122 \/ 48 <= Byte.to_N b <= 57 \/ b = "+"%byte \/ b = "/"%byte) end%N).
    { intros b. destruct b; vm_compute; intuition congruence. }
    intros H. apply (indexOf_digit _ std_good). specialize (K c). destruct (Base64.indexOf stdAlphabet c) as [k|].
    + f_equal. assert (X : c = "+"%byte -> Byte.to_N c = 43%N) by (intros ->; reflexivity). assert (Y : c = "/"%byte -> Byte.to_N c = 47%N) by (intros ->; reflexivity).
      destruct K as [K|[K|[K|[[K K2]|[K K2]]]]]; destruct H as [H|[H|[H|[[H H2]|[H H2]]]]];
        repeat match goal with E : c = "+"%byte |- _ => apply X in E | E : c = "/"%byte |- _ => apply Y in E end; lia.
    + exfalso. apply K. destruct H as [H|[H|[H|[H|H]]]]; [left; lia|right; left; lia|right; right; left; lia|tauto|tauto].
Qed.
Print Assumptions C78_characters.

(** The key of a bin has three parts: the word, the bin, the issuer. *)
Theorem C26_key_parts : forall e d, binID e -> parts (serialKey e (issuerID d)) [B "serials"; e; issuerID d].
Proof. intros e d H. apply splitColons_parts, C26_key_parses, H. Qed.
Print Assumptions C26_key_parts.

(** Saving the state of a log changes what is read at the same address, up to slashes at the
    end, and nowhere else. *)
Theorem C27_one_address : forall m l u,
  (upToSlashes u (lg_url l) -> loadLogState (storeLogState m l) u = Some l) /\
  (~ upToSlashes u (lg_url l) -> loadLogState (storeLogState m l) u = loadLogState m u).
Proof.
  intros m l u. rewrite C27_save_load. destruct (beq_spec (trimSlashes u) (trimSlashes (lg_url l))) as [E|N].
  - split; [reflexivity|]. intros X. contradiction X. apply trim_eq. exact E.
  - split; [|reflexivity]. intros X. apply trim_eq in X. contradiction.
Qed.
Print Assumptions C27_one_address.

(** Of all files, exactly those below an issuer are removed whose name has three parts, the second
    of which is a bin that is over. *)
Theorem C52_removed_by_name : forall now t name f,
  hasFile (removeExpired now t) name f <->
  hasFile t name f /\
  ~ (begins (B "issuer::") name /\ exists a d c e, parts f [a; d; c] /\ newExpDate d = Some e /\ (ed_lastGood e < now)%Z).
Proof.
  intros now t name f. rewrite C52_removes_exactly_expired. split; intros [H N]; (split; [exact H|]); intros [Bg (a & d & c & e & P & R)];
    apply N; (split; [exact Bg|]); exists a, d, c, e; (split; [apply splitColons_parts; exact P|exact R]).
Qed.
Print Assumptions C52_removed_by_name.

(** Names with three colons in a row, and with too many parts *)
Example names_example : parts (B "a:::b") [B "a"; B ":b"] /\ parts (B "serials::2024-02-29-23::A") [B "serials"; B "2024-02-29-23"; B "A"] /\
  parts (B "a::b::c::d") [B "a"; B "b"; B "c"; B "d"] /\ upToSlashes (B "ct.example/a//") (B "ct.example/a") /\ ~ upToSlashes (B "ct.example/a") (B "ct.example/b").
Proof.
  split; [apply splitColons_parts; vm_compute; reflexivity|]. split; [apply splitColons_parts; vm_compute; reflexivity|].
  split; [apply splitColons_parts; vm_compute; reflexivity|].
  split; [apply trim_eq; vm_compute; reflexivity|]. intros H. apply trim_eq in H. vm_compute in H. discriminate H.
Qed.
