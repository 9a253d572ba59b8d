(** * C16, continued: which files the storage reader accepts, and torn files *)
From Verif Require Import Base MerkleModel SerialModel SerialProofs TextProofs.
From Coq Require Import Strings.Byte.

(** ** Specification *)

(** [c] is the hexadecimal digit of [n], in either case. *)
Definition digitIs (c : byte) (n : nat) : Prop :=
  nth_error (B "0123456789abcdef") n = Some c \/ nth_error (B "0123456789ABCDEF") n = Some c.

(** [t] is the serial [s] in hexadecimal, in any mixture of cases. *)
Inductive spells : bytes -> bytes -> Prop :=
| SpNil : spells [] []
| SpCons b s x y a c t : digitIs a x -> digitIs c y -> Byte.to_N b = N.of_nat (16 * x + y) -> spells s t ->
    spells (b :: s) (a :: c :: t).

(** A text of the lines [ls]; a line ends with LF or CRLF, the last one may also
    end with the text (and then be followed by a lone CR). *)
Inductive textOf : list bytes -> bytes -> Prop :=
| ToNil : textOf [] []
| ToLast l e : e = [] \/ e = [cr] -> l ++ e <> [] -> textOf [l] (l ++ e)
| ToLine l e ls t : e = [nl] \/ e = [cr; nl] -> textOf ls t -> textOf (l :: ls) (l ++ e ++ t).

(** ** Proofs *)

Lemma digitIs_hexVal c n : digitIs c n <-> hexVal c = Some (N.of_nat n).
Proof.
  split.
  - intros H. assert (L : (n < 16)%nat).
    { destruct H as [H|H]; (assert (X : nth_error (B "0123456789abcdef") n <> None \/ nth_error (B "0123456789ABCDEF") n <> None) by (rewrite H; (left; discriminate) || (right; discriminate)));
        destruct X as [X|X]; apply nth_error_Some in X; exact X. }
    do 16 (destruct n as [|n]; [destruct H as [H|H]; vm_compute in H; injection H as <-; reflexivity|]). lia.
  - intros H. unfold digitIs. rewrite <- (Nnat.Nat2N.id n). revert H. generalize (N.of_nat n) as m. intros m H.
    destruct c; vm_compute in H; try discriminate H; injection H as <-; vm_compute; auto.
Qed.

Lemma hexVal_bound c x : hexVal c = Some x -> (x < 16)%N.
Proof. destruct c; vm_compute; intros H; try discriminate H; injection H as <-; reflexivity. Qed.

Lemma spells_decode : forall s t, spells s t <-> hexDecode t = Some s.
Proof.
  intros s t. split.
  - induction 1 as [|b s x y a c t A C E _ IH]; [reflexivity|]. cbn [hexDecode].
    apply (proj1 (digitIs_hexVal _ _)) in A. apply (proj1 (digitIs_hexVal _ _)) in C. rewrite A, C, IH. f_equal. f_equal.
    rewrite <- (byteOf_to_N b). f_equal. lia.
  - revert s. assert (G : forall n t s, (length t <= n)%nat -> hexDecode t = Some s -> spells s t); [|intros s; apply (G _ t s (le_n _))].
    induction n as [|n IH]; intros u s L H.
    { destruct u; [|cbn in L; lia]. cbn in H. injection H as <-. constructor. }
    destruct u as [|a [|c u]]; cbn [hexDecode] in H; [injection H as <-; constructor|discriminate H|].
    destruct (hexVal a) as [x|] eqn:A; [|discriminate H]. destruct (hexVal c) as [y|] eqn:C; [|discriminate H].
    destruct (hexDecode u) as [r|] eqn:R; [|discriminate H].
    assert (E : s = byteOf (16 * x + y) :: r) by congruence. clear H. subst s.
    pose proof (hexVal_bound _ _ A). pose proof (hexVal_bound _ _ C).
    apply SpCons with (x := N.to_nat x) (y := N.to_nat y).
    + apply digitIs_hexVal. rewrite Nnat.N2Nat.id. exact A.
    + apply digitIs_hexVal. rewrite Nnat.N2Nat.id. exact C.
    + rewrite to_N_byteOf. rewrite N.mod_small by lia. rewrite Nnat.Nat2N.inj_add, Nnat.Nat2N.inj_mul, !Nnat.N2Nat.id. lia.
    + apply IH; [cbn in L; lia|exact R].
Qed.

Lemma spells_clean s t : spells s t -> clean t.
Proof.
  induction 1 as [|b s x y a c t A C _ _ [I1 I2]]; [split; intros []|].
  apply (proj1 (digitIs_hexVal _ _)) in A. apply (proj1 (digitIs_hexVal _ _)) in C.
  split; intros [X|[X|X]]; subst; try discriminate A; try discriminate C; [apply I1|apply I2]; exact X.
Qed.

Lemma dropCR_cr l : dropCR (l ++ [cr]) = l.
Proof. unfold dropCR. rewrite rev_app_distr. cbn [rev app]. replace (Byte.eqb cr cr) with true by reflexivity. apply rev_involutive. Qed.

(** The raw lines of a text. *)
Lemma textOf_lines ls t : textOf ls t -> Forall clean ls ->
  map dropCR (splitLines [] t) = ls.
Proof.
  induction 1 as [|l e E NE|l e ls t E T IH]; intros C; [reflexivity| |].
  - inversion C as [|? ? [C1 C2] _]; subst. rewrite splitLines_head.
    + cbn [rev app]. destruct (l ++ e) as [|x y] eqn:Q; [congruence|]. rewrite <- Q. cbn [map]. f_equal.
      destruct E as [-> | ->]; [rewrite app_nil_r; apply dropCR_id; exact C2|apply dropCR_cr].
    + intros I. apply in_app_or in I. destruct I as [I|I]; [exact (C1 I)|]. destruct E as [-> | ->]; [destruct I|]. destruct I as [I|[]]. discriminate I.
  - inversion C as [|? ? [C1 C2] C3]; subst. destruct E as [-> | ->].
    + rewrite splitLines_line by exact C1. cbn [map]. f_equal; [apply dropCR_id; exact C2|apply IH; exact C3].
    + replace (l ++ [cr; nl] ++ t) with ((l ++ [cr]) ++ [nl] ++ t) by (rewrite <- app_assoc; reflexivity).
      rewrite splitLines_line; [cbn [map]; f_equal; [apply dropCR_cr|apply IH; exact C3]|].
      intros I. apply in_app_or in I. destruct I as [I|[I|[]]]; [exact (C1 I)|discriminate I].
Qed.

Lemma dropCR_split l : exists e, l = dropCR l ++ e /\ (e = [] \/ e = [cr]).
Proof.
  unfold dropCR. destruct (rev l) as [|c r] eqn:E; [exists []; rewrite app_nil_r; auto|].
  destruct (byte_eqb_spec c cr) as [->|N]; [|exists []; rewrite app_nil_r; auto].
  exists [cr]. split; [|auto]. rewrite <- (rev_involutive l), E. reflexivity.
Qed.

Lemma lines_textOf t : textOf (map dropCR (splitLines [] t)) t.
Proof.
  assert (G : forall n t, (length t <= n)%nat -> textOf (map dropCR (splitLines [] t)) t); [|apply (G _ t (le_n _))].
  clear t. induction n as [|n IH]; intros t L.
  { destruct t; [|cbn in L; lia]. constructor. }
  destruct (in_dec Byte.byte_eq_dec nl t) as [I|I].
  - destruct (splitLines_cons t I) as (l & rest & -> & N & ->). cbn [map].
    destruct (dropCR_split l) as [e [E D]].
    assert (Q : l ++ nl :: rest = dropCR l ++ (e ++ [nl]) ++ rest).
    { transitivity ((dropCR l ++ e) ++ nl :: rest); [f_equal; exact E|]. rewrite <- !app_assoc. reflexivity. }
    rewrite Q.
    apply ToLine; [destruct D as [-> | ->]; auto|]. apply IH. rewrite app_length in L. cbn in L. lia.
  - rewrite splitLines_head by exact I. cbn [rev app]. destruct t as [|c t]; [constructor|].
    set (l := c :: t) in *. cbn [map]. destruct (dropCR_split l) as [e [E D]]. rewrite E at 2. apply ToLast; [exact D|]. rewrite <- E. discriminate.
Qed.

Lemma tooLong_parts ls : Forall (fun l => tooLong l = false) ls \/ Exists (fun l => tooLong l = true) ls.
Proof.
  induction ls as [|l ls [IH|IH]]; [left; constructor| |right; right; exact IH].
  destruct (tooLong l) eqn:E; [right; left; exact E|left; constructor; [exact E|exact IH]].
Qed.

Lemma goSerials_iff ls : forall ss, goSerials ls = Ok ss <->
  Forall (fun l => tooLong l = false) ls /\ Forall2 spells ss (map dropCR ls).
Proof.
  induction ls as [|l ls IH]; intros ss; cbn [goSerials map].
  - split; [intros [= <-]; split; constructor|]. intros [_ F]. inversion F. reflexivity.
  - split.
    + destruct (tooLong l) eqn:T; [discriminate|]. destruct (hexDecode (dropCR l)) as [s|] eqn:H; [|discriminate].
      destruct (goSerials ls) as [r| |] eqn:G; try discriminate. intros [= <-]. destruct (proj1 (IH r) eq_refl) as [F1 F2].
      split; constructor; auto. apply spells_decode. exact H.
    + intros [F1 F2]. inversion F1 as [|? ? T F3]; subst. inversion F2 as [|s ? ss' ? S F4]; subst. rewrite T.
      apply (proj1 (spells_decode _ _)) in S. rewrite S. rewrite (proj2 (IH ss') (conj F3 F4)). reflexivity.
Qed.

(** ** C16 *)

(** No line, with a CR it may end with, is longer than the scanner's buffer. *)
Definition shortLines (t : bytes) : Prop :=
  forall a l b, t = a ++ l ++ b -> ~ In nl l -> (N.of_nat (length l) < 65536)%N.

Lemma shortLines_app a b : shortLines (a ++ nl :: b) -> shortLines b.
Proof.
  intros H x l y E N. apply (H (a ++ nl :: x) l y); [rewrite E, <- app_assoc; reflexivity|exact N].
Qed.

Lemma shortLines_iff t : shortLines t <-> Forall (fun l => tooLong l = false) (splitLines [] t).
Proof.
  assert (G : forall n t, (length t <= n)%nat -> (shortLines t <-> Forall (fun l => tooLong l = false) (splitLines [] t))); [|apply (G _ t (le_n _))].
  clear t. induction n as [|n IH]; intros t L.
  { destruct t; [|cbn in L; lia]. split; [constructor|]. intros _ a l b E _. destruct a; [|discriminate E]. destruct l; [reflexivity|discriminate E]. }
  unfold tooLong, maxToken in *.
  destruct (in_dec Byte.byte_eq_dec nl t) as [I|I].
  - destruct (splitLines_cons t I) as (h & rest & -> & N & ->).
    assert (L' : (length rest <= n)%nat) by (rewrite app_length in L; cbn in L; lia). split.
    + intros S. constructor; [apply N.leb_gt; apply (S [] h (nl :: rest) eq_refl N)|]. apply (IH rest L'). apply shortLines_app in S. exact S.
    + intros F. inversion F as [|? ? F1 F2]; subst. apply N.leb_gt in F1. apply (IH rest L') in F2. intros a l b E NL.
      destruct (le_lt_dec (length (a ++ l)) (length h)) as [LE|LT].
      * rewrite app_length in LE. lia.
      * assert (X : (length h < length a)%nat).
        { destruct (le_lt_dec (length a) (length h)) as [LE|X]; [|exact X]. exfalso. apply NL.
          assert (Q : nth_error (h ++ nl :: rest) (length h) = Some nl) by (rewrite nth_error_app2, Nat.sub_diag by lia; reflexivity).
          rewrite E in Q. rewrite nth_error_app2 in Q by lia. rewrite app_length in LT. rewrite nth_error_app1 in Q by lia. apply nth_error_In in Q. exact Q. }
        assert (Q : exists a', a = h ++ nl :: a').
        { assert (FN : firstn (length h + 1) (h ++ nl :: rest) = h ++ [nl]).
          { rewrite firstn_app. replace (length h + 1 - length h)%nat with 1%nat by lia. rewrite firstn_all2 by lia. reflexivity. }
          rewrite E, firstn_app in FN. replace (length h + 1 - length a)%nat with 0%nat in FN by lia. cbn [firstn] in FN. rewrite app_nil_r in FN.
          exists (skipn (length h + 1) a). rewrite <- (firstn_skipn (length h + 1) a) at 1. rewrite FN, <- app_assoc. reflexivity. }
        destruct Q as [a' ->]. apply (F2 a' l b); [|exact NL]. rewrite <- !app_assoc in E. cbn [app] in E. apply app_inv_head in E. injection E as E. exact E.
  - rewrite splitLines_head by exact I. cbn [rev app]. split.
    + intros S. destruct t as [|c t]; constructor; [|constructor]. apply N.leb_gt. apply (S [] (c :: t) []); [rewrite app_nil_r; reflexivity|exact I].
    + intros F a l b E _. assert (X : (length l <= length t)%nat) by (rewrite E, !app_length; lia). destruct t as [|c t]; [cbn in X; lia|].
      inversion F as [|? ? F1 _]; subst. apply N.leb_gt in F1. lia.
Qed.

(** The files that the storage reader accepts for a bin, and what it reads: an
    empty file, or the line of the bin and then one serial on every line, in
    either case, with either line end, the last end optional.  Nothing else.  With no
    file there are no serials, and that is no failure. *)
Theorem C16_reads_exactly : forall unix file ss,
  readSerials unix file = Ok ss <->
  ((file = None \/ file = Some []) /\ ss = []) \/
  (exists data, file = Some data /\ shortLines data /\ exists ts, textOf (expiryLine unix :: ts) data /\ Forall2 spells ss ts).
Proof.
  intros u file ss. destruct file as [data|].
  2:{ split; [intros H; injection H as <-; left; auto|]. intros [[_ ->]|[data [E _]]]; [reflexivity|discriminate E]. }
  assert (X : readSerials u (Some data) = Ok ss <-> (data = [] /\ ss = []) \/ (shortLines data /\ exists ts, textOf (expiryLine u :: ts) data /\ Forall2 spells ss ts)).
  2:{ rewrite X. split.
      - intros [[-> ->]|H]; [left; auto|right; exists data; split; [reflexivity|exact H]].
      - intros [[[E|E] ->]|[d [E H]]]; [discriminate E|injection E as ->; left; auto|injection E as <-; right; exact H]. }
  cbn [readSerials]. unfold goReadFile. split.
  - intros H. pose proof (lines_textOf data) as T. destruct (splitLines [] data) as [|l ls] eqn:S.
    + left. injection H as <-. inversion T; subst; auto.
    + right. destruct (tooLong l) eqn:TL; [discriminate H|]. destruct (beq (dropCR l) (expiryLine u)) eqn:E; [|discriminate H].
      destruct (beq_spec (dropCR l) (expiryLine u)) as [E1|]; [clear E; rename E1 into E|discriminate E]. apply (proj1 (goSerials_iff _ _)) in H. destruct H as [F1 F2]. split.
      * apply shortLines_iff. rewrite S. constructor; assumption.
      * exists (map dropCR ls). cbn [map] in T. rewrite E in T. auto.
  - intros [[-> ->]|[SL [ts [T F]]]]; [reflexivity|].
    apply shortLines_iff in SL. assert (C : Forall clean ts).
    { clear -F. induction F as [|s t ss ts S _ IH]; constructor; [apply (spells_clean _ _ S)|exact IH]. }
    apply textOf_lines in T; [|constructor; [apply expiryLine_clean|exact C]].
    destruct (splitLines [] data) as [|l ls]; [discriminate T|]. cbn [map] in T. injection T as T1 T2. inversion SL as [|? ? SL1 SL2]; subst.
    rewrite SL1, T1, beq_refl. apply goSerials_iff. auto.
Qed.
Print Assumptions C16_reads_exactly.

(** *** Torn files *)

Lemma decode_prefix : forall s k p, hexDecode (firstn k (hexEncode s)) = Some p -> exists q, s = p ++ q.
Proof.
  induction s as [|b s IH]; intros k p H.
  { replace (firstn k (hexEncode [])) with (@nil byte) in H by (destruct k; reflexivity). injection H as <-. exists []. reflexivity. }
  destruct k as [|[|k]]; [injection H as <-; exists (b :: s); reflexivity|discriminate H|].
  change (hexEncode (b :: s)) with (hexByte b ++ hexEncode s) in H.
  assert (E : firstn (S (S k)) (hexByte b ++ hexEncode s) = hexByte b ++ firstn k (hexEncode s)) by reflexivity.
  rewrite E, hexByte_decode in H. destruct (hexDecode (firstn k (hexEncode s))) as [r|] eqn:D; [|discriminate H].
  assert (p = b :: r) by congruence. subst p. destruct (IH k r D) as [q ->]. exists q. reflexivity.
Qed.

Lemma torn_serials : forall ss k l, goSerials (splitLines [] (firstn k (flat_map (fun s => hexEncode s ++ [nl]) ss))) = Ok l ->
  exists n, l = firstn n ss \/ exists s p q, nth_error ss n = Some s /\ s = p ++ q /\ p <> [] /\ l = firstn n ss ++ [p].
Proof.
  induction ss as [|s ss IH]; intros k l H.
  { cbn [flat_map] in H. rewrite firstn_nil in H. injection H as <-. exists 0%nat. left; reflexivity. }
  cbn [flat_map] in H. destruct (le_lt_dec (2 * length s + 1) k) as [LE|LT].
  - assert (L : length (hexEncode s ++ [nl]) = (2 * length s + 1)%nat) by (rewrite app_length, hexEncode_length; reflexivity).
    rewrite firstn_app, firstn_all2 in H by lia. rewrite <- app_assoc in H. rewrite splitLines_line in H by apply hexEncode_clean.
    cbn [goSerials] in H. destruct (tooLong (hexEncode s)); [discriminate H|]. rewrite dropCR_id in H by apply hexEncode_clean.
    rewrite hexDecode_encode in H. destruct (goSerials _) as [r| |] eqn:G; try discriminate H. injection H as <-.
    destruct (IH _ _ G) as [n [->|[x [p [q [N [X [P ->]]]]]]]]; exists (S n); [left; reflexivity|right]. exists x, p, q. auto.
  - assert (E : firstn k ((hexEncode s ++ [nl]) ++ flat_map (fun s => hexEncode s ++ [nl]) ss) = firstn k (hexEncode s)).
    { rewrite <- app_assoc, firstn_app, hexEncode_length. replace (k - 2 * length s)%nat with 0%nat by lia. apply app_nil_r. }
    rewrite E in H. assert (C : clean (firstn k (hexEncode s))).
    { destruct (hexEncode_clean s) as [C1 C2]. split; intros I; [apply C1|apply C2]; rewrite <- (firstn_skipn k (hexEncode s)); apply in_or_app; left; exact I. }
    rewrite splitLines_head in H by apply C. cbn [rev app] in H. destruct (firstn k (hexEncode s)) as [|c t] eqn:F.
    + injection H as <-. exists 0%nat. left; reflexivity.
    + cbn [goSerials] in H. destruct (tooLong (c :: t)); [discriminate H|]. rewrite dropCR_id in H by apply C. rewrite <- F in H.
      destruct (hexDecode (firstn k (hexEncode s))) as [p|] eqn:D; [|discriminate H]. injection H as <-. destruct (decode_prefix _ _ _ D) as [q Q].
      exists 0%nat. right. exists s, p, q. split; [reflexivity|]. split; [exact Q|]. split; [|reflexivity].
      intros ->. rewrite F in D. destruct t as [|c' t]; [discriminate D|]. cbn [hexDecode] in D. destruct (hexVal c), (hexVal c'), (hexDecode t); discriminate D.
Qed.

(** Of a file whose writing was broken off, the reader accepts at most the first
    serials and the beginning of one more. *)
Theorem C16_torn : forall unix ss k l,
  readSerials unix (Some (firstn k (writeSerialList unix ss))) = Ok l ->
  exists n, l = firstn n ss \/
    exists s p q, nth_error ss n = Some s /\ s = p ++ q /\ p <> [] /\ l = firstn n ss ++ [p].
Proof.
  intros u ss k l H. cbn [readSerials] in H. unfold goReadFile, writeSerialList in H.
  destruct (le_lt_dec 18 k) as [LE|LT].
  - rewrite app_assoc in H. assert (L : length (expiryLine u ++ [nl]) = 18%nat) by (rewrite app_length, expiryLine_length; reflexivity).
    rewrite firstn_app, firstn_all2 in H by lia. rewrite <- app_assoc in H. rewrite splitLines_line in H by apply expiryLine_clean.
    destruct (tooLong (expiryLine u)); [discriminate H|]. destruct (beq _ _); [|discriminate H]. apply torn_serials in H. exact H.
  - assert (E : firstn k (expiryLine u ++ [nl] ++ flat_map (fun s => hexEncode s ++ [nl]) ss) = firstn k (expiryLine u)).
    { rewrite firstn_app, expiryLine_length. replace (k - 17)%nat with 0%nat by lia. apply app_nil_r. }
    rewrite E in H. destruct (expiryLine_clean u) as [C1 C2].
    assert (C : forall c, In c (firstn k (expiryLine u)) -> In c (expiryLine u))
      by (intros c I; rewrite <- (firstn_skipn k (expiryLine u)); apply in_or_app; left; exact I).
    rewrite splitLines_head in H by (intros I; apply C1, C, I). cbn [rev app] in H. exists 0%nat. left.
    destruct (firstn k (expiryLine u)); [injection H as <-; reflexivity|]. destruct (tooLong _); [discriminate H|]. destruct (beq _ _); [|discriminate H].
    injection H as <-. reflexivity.
Qed.
Print Assumptions C16_torn.

(** And this happens: a serial is lost and one is read that nobody has issued,
    without an error; or the process panics. *)
Theorem C16_torn_refuted : exists unix ss k l j,
  readSerials unix (Some (firstn k (writeSerialList unix ss))) = Ok l /\
  (exists s, In s l /\ ~ In s ss) /\ (exists s, In s ss /\ ~ In s l) /\
  readSerials unix (Some (firstn j (writeSerialList unix ss))) = Panic.
Proof.
  exists 1700000000%Z, [[x01; x02]; [x0a; x0b]], 25%nat, [[x01; x02]; [x0a]], 24%nat.
  split; [vm_compute; reflexivity|]. split; [exists [x0a]|split; [exists [x0a; x0b]|vm_compute; reflexivity]]; (split; [right; left; reflexivity|]); intros [X|[X|[]]]; discriminate X.
Qed.
Print Assumptions C16_torn_refuted.

(** A file in capitals, with CRLF and without a last line end. *)
Example C16_spelling_case :
  readSerials 1700000000 (Some (B "@000000006553f100" ++ [cr; nl] ++ B "0A0b" ++ [nl] ++ B "FFfe")) = Ok [[x0a; x0b]; [xff; xfe]].
Proof. vm_compute. reflexivity. Qed.

(** ** The reader of the filter builder *)

(** *** Specification *)

(** The lines of a text as the filter builder takes them: each ends with LF or CRLF;
    what follows the last LF, if anything, is a line as it stands. *)
Inductive linesOf : list bytes -> bytes -> Prop :=
| LoNil : linesOf [] []
| LoLast l : l <> [] -> ~ In nl l -> linesOf [l] l
| LoLine l ls t : ~ In nl l -> (forall l', l <> l' ++ [cr]) -> linesOf ls t -> linesOf (l :: ls) (l ++ [nl] ++ t)
| LoCrLine l ls t : ~ In nl l -> linesOf ls t -> linesOf (l :: ls) (l ++ [cr; nl] ++ t).
(** A date: hexadecimal digits, perhaps after a plus sign, for a number of 64 bits. *)
Inductive hexNumber : bytes -> N -> Prop :=
| HnOne c n : digitIs c n -> hexNumber [c] (N.of_nat n)
| HnMore t m c n : hexNumber t m -> digitIs c n -> hexNumber (t ++ [c]) (16 * m + N.of_nat n).
Definition dateText (t : bytes) (n : N) : Prop :=
  (hexNumber t n \/ exists t', t = "+"%byte :: t' /\ hexNumber t' n) /\ (n < 2 ^ 64)%N.
(** A line with an at sign sets the date, every other line is a serial with the date
    in force. *)
Inductive dated : N -> list bytes -> list (N * bytes) -> Prop :=
| DaNil d : dated d [] []
| DaDate d t n ls out : dateText t n -> dated n ls out -> dated d (("@"%byte :: t) :: ls) out
| DaSerial d l ls out : (forall t, l <> "@"%byte :: t) -> dated d ls out -> dated d (l :: ls) ((d, l) :: out).

(** *** Proofs *)

Lemma linesOf_lines data : linesOf (rustLines [] data) data.
Proof.
  assert (G : forall n t, (length t <= n)%nat -> linesOf (rustLines [] t) t); [|apply (G _ data (le_n _))].
  induction n as [|n IH]; intros t L; [destruct t; [constructor|cbn in L; lia]|].
  destruct (in_dec Byte.byte_eq_dec nl t) as [I|I].
  - destruct (splitLines_cons t I) as (h & rest & -> & N & _). change (h ++ nl :: rest) with (h ++ [nl] ++ rest). rewrite rustLines_line by exact N.
    assert (L' : (length rest <= n)%nat) by (rewrite app_length in L; cbn in L; lia).
    destruct (rev h) as [|c r] eqn:R; [|destruct (byte_eqb_spec c cr) as [->|NC]].
    + assert (h = []) by (rewrite <- (rev_involutive h), R; reflexivity). subst h. apply LoLine; [exact N|intros l' E; destruct l'; discriminate E|]. apply IH. exact L'.
    + assert (E : h = rev r ++ [cr]) by (rewrite <- (rev_involutive h), R; reflexivity). subst h. rewrite dropCR_cr, <- app_assoc. apply LoCrLine; [intros J; apply N; apply in_or_app; left; exact J|]. apply IH. exact L'.
    + assert (NE : forall l', h <> l' ++ [cr]) by (intros l' ->; rewrite rev_app_distr in R; injection R as <- _; apply NC; reflexivity).
      assert (D : dropCR h = h) by (unfold dropCR; rewrite R; destruct (byte_eqb_spec c cr); [contradiction|reflexivity]).
      rewrite D. apply LoLine; [exact N|exact NE|]. apply IH. exact L'.
  - rewrite rustLines_last by exact I. cbn [rev app]. destruct t as [|c t]; [constructor|]. apply LoLast; [discriminate|exact I].
Qed.
Lemma lines_linesOf ls data : linesOf ls data -> rustLines [] data = ls.
Proof.
  induction 1 as [|l NE N|l ls t N NE _ IH|l ls t N _ IH]; [reflexivity| | |].
  - rewrite rustLines_last by exact N. cbn [rev app]. destruct l; [contradiction NE; reflexivity|reflexivity].
  - rewrite rustLines_line, IH by exact N. f_equal. unfold dropCR. destruct (rev l) as [|c r] eqn:R; [reflexivity|]. destruct (byte_eqb_spec c cr) as [->|NC]; [|reflexivity].
    exfalso. apply (NE (rev r)). rewrite <- (rev_involutive l), R. reflexivity.
  - change (l ++ [cr; nl] ++ t) with (l ++ [cr] ++ [nl] ++ t). rewrite app_assoc, rustLines_line, IH.
    + rewrite dropCR_cr. reflexivity.
    + intros J. apply in_app_iff in J. destruct J as [J|[J|[]]]; [exact (N J)|discriminate J].
Qed.

Lemma hexNum_number : forall t n, t <> [] -> (hexNum 0 t = Some n <-> hexNumber t n /\ (n < 2 ^ 64)%N).
Proof.
  change (2 ^ 64)%N with two64. induction t as [|c t IH] using rev_ind; intros n NE; [contradiction NE; reflexivity|]. clear NE.
  rewrite hexNum_app. destruct t as [|b t'].
  - cbn [hexNum]. cbn [app]. destruct (hexVal c) as [d|] eqn:V; [|split; [discriminate|]].
    + pose proof (hexVal_bound _ _ V) as LB. replace (16 * 0 + d)%N with d by lia. replace (d <? two64)%N with true by (unfold two64; symmetry; apply N.ltb_lt; lia).
      split; [intros [= <-]; split; [|unfold two64; lia]; rewrite <- (Nnat.N2Nat.id d); apply HnOne; apply digitIs_hexVal; rewrite Nnat.N2Nat.id; exact V|].
      intros [H _]. remember [c] as u eqn:EU. destruct H as [c' m D|t m c' m' H D]; [|exfalso; destruct t as [|z t]; [inversion H as [|t0 ? ? ? ? ? E]; destruct t0; discriminate E|injection EU as _ EU; destruct t; discriminate EU]].
      injection EU as ->. apply (proj1 (digitIs_hexVal _ _)) in D. congruence.
    + intros [H _]. remember [c] as u eqn:EU. destruct H as [c' m D|t m c' m' H D]; [|exfalso; destruct t as [|z t]; [inversion H as [|t0 ? ? ? ? ? E]; destruct t0; discriminate E|injection EU as _ EU; destruct t; discriminate EU]].
      injection EU as ->. apply (proj1 (digitIs_hexVal _ _)) in D. congruence.
  - assert (IH' : forall n, hexNum 0 (b :: t') = Some n <-> hexNumber (b :: t') n /\ (n < two64)%N) by (intros m; apply IH; discriminate). clear IH. remember (b :: t') as t eqn:ET. split.
    + destruct (hexNum 0 t) as [m|] eqn:HM; [|discriminate]. cbn [hexNum]. destruct (hexVal c) as [d|] eqn:V; [|discriminate]. destruct (N.ltb_spec (16 * m + d) two64) as [LT|]; [|discriminate]. intros [= <-].
      split; [|exact LT]. rewrite <- (Nnat.N2Nat.id d). apply HnMore; [apply (IH' m); reflexivity|]. apply digitIs_hexVal. rewrite Nnat.N2Nat.id. exact V.
    + intros [H LT]. remember (t ++ [c]) as u eqn:EU. destruct H as [c' m D|t0 m c' m' H D].
      * exfalso. rewrite ET in EU. injection EU as _ EU. destruct t'; discriminate EU.
      * apply app_inj_tail in EU. destruct EU as [-> ->]. rewrite (proj2 (IH' m)) by (split; [exact H|lia]). cbn [hexNum]. apply (proj1 (digitIs_hexVal _ _)) in D. rewrite D.
        replace (16 * m + N.of_nat m' <? two64)%N with true by (symmetry; apply N.ltb_lt; exact LT). reflexivity.
Qed.
Lemma hexNumber_head t n : hexNumber t n -> exists c t', t = c :: t' /\ c <> "+"%byte.
Proof.
  induction 1 as [c n D|t m c n _ [c' [t' [-> NP]]] _]; [|exists c', (t' ++ [c]); split; [reflexivity|exact NP]].
  exists c, []. split; [reflexivity|]. intros ->. apply (proj1 (digitIs_hexVal _ _)) in D. discriminate D.
Qed.
Lemma radix_date t n : fromStrRadix16 t = Some n <-> dateText t n.
Proof.
  unfold fromStrRadix16, dateText. destruct t as [|c t].
  - split; [discriminate|]. intros [[H|[t' [E _]]] _]; [apply hexNumber_head in H; destruct H as [? [? [E _]]]; discriminate E|discriminate E].
  - destruct (byte_eqb_spec c "+"%byte) as [->|NP].
    + destruct t as [|a t].
      * split; [discriminate|]. intros [[H|[t' [E H]]] _]; apply hexNumber_head in H; destruct H as [x [y [E' NE]]]; [injection E' as <- _; contradiction NE; reflexivity|subst t'; discriminate E].
      * split.
        -- intros H. apply hexNum_number in H; [|discriminate]. destruct H as [H L]. split; [right; exists (a :: t); auto|exact L].
        -- intros [[H|[t' [E H]]] L]; [exfalso; apply hexNumber_head in H; destruct H as [x [y [E NE]]]; injection E as <- _; apply NE; reflexivity|]. injection E as <-. apply hexNum_number; [discriminate|]. auto.
    + split.
      * intros H. apply hexNum_number in H; [|discriminate]. destruct H as [H L]. auto.
      * intros [[H|[t' [E H]]] L]; [apply hexNum_number; [discriminate|]; auto|]. injection E as -> _. contradiction NP; reflexivity.
Qed.

Lemma rustKnown_dated : forall ls d out, rustKnown d ls = Ok out <-> dated d ls out.
Proof.
  induction ls as [|l ls IH]; intros d out; cbn [rustKnown].
  - split; [intros [= <-]; constructor|]. intros H. inversion H. reflexivity.
  - assert (S : (forall t, l <> "@"%byte :: t) -> (match rustKnown d ls with Ok r => Ok ((d, l) :: r) | Err => Err | Panic => Panic end = Ok out <-> dated d (l :: ls) out)).
    { intros NA. split.
      - destruct (rustKnown d ls) as [r| |] eqn:E; try discriminate. intros [= <-]. apply DaSerial; [exact NA|]. apply IH. exact E.
      - intros H. inversion H as [|d0 t n ls0 out0 DT H0 E1 E2 E3|d0 l0 ls0 out0 NA0 H0]; subst; [contradiction (NA t); reflexivity|]. apply IH in H0. rewrite H0. reflexivity. }
    destruct l as [|c t]; [apply S; intros t; discriminate|]. destruct (byte_eqb_spec c "@"%byte) as [->|NA]; [|apply S; intros t' E; injection E as E _; exact (NA E)].
    split.
    + destruct (fromStrRadix16 t) as [n|] eqn:R; [|discriminate]. intros H. apply DaDate with (n := n); [apply radix_date; exact R|apply IH; exact H].
    + intros H. inversion H as [|d0 t0 n ls0 out0 DT H0 E1 E2 E3|d0 l0 ls0 out0 NA0 H0]; subst; [|contradiction (NA0 t); reflexivity]. apply radix_date in DT. rewrite DT. apply IH. exact H0.
Qed.

(** The files that the filter builder accepts as lists of known certificates, and what
    it reads: lines of either ending, each a date or, as it stands, a serial.  Any
    other file makes it panic. *)
Theorem C16_rust_reads_exactly : forall data out,
  (rustReadKnown data = Ok out <-> exists ls, linesOf ls data /\ dated 0 ls out) /\
  (rustReadKnown data = Panic <-> ~ exists ls o, linesOf ls data /\ dated 0 ls o).
Proof.
  intros data out. unfold rustReadKnown.
  assert (X : forall o, rustKnown 0 (rustLines [] data) = Ok o <-> exists ls, linesOf ls data /\ dated 0 ls o).
  { intros o. rewrite rustKnown_dated. split.
    - intros H. exists (rustLines [] data). split; [apply linesOf_lines|exact H].
    - intros [ls [L H]]. rewrite (lines_linesOf _ _ L). exact H. }
  assert (NE : forall ls d, rustKnown d ls <> Err).
  { clear. induction ls as [|l ls IH]; intros d; cbn [rustKnown]; [discriminate|]. specialize (IH d) as IHd. destruct l as [|c t]; [destruct (rustKnown d ls); [discriminate|contradiction IHd; reflexivity|discriminate]|].
    destruct (Byte.eqb c "@"); [|destruct (rustKnown d ls); [discriminate|contradiction IHd; reflexivity|discriminate]]. destruct (fromStrRadix16 t); [apply IH|discriminate]. }
  split; [apply X|]. split.
  - intros P [ls [o H]]. assert (Y : rustKnown 0 (rustLines [] data) = Ok o) by (apply X; exists ls; exact H). congruence.
  - intros N. destruct (rustKnown 0 (rustLines [] data)) as [o| |] eqn:E; [|contradiction (NE _ _ E)|reflexivity].
    exfalso. apply N. destruct (proj1 (X o) eq_refl) as [ls H]. exists ls, o. exact H.
Qed.
Print Assumptions C16_rust_reads_exactly.
Example C16_rust_case :
  rustReadKnown (B "@+6553f100" ++ [cr; nl] ++ B "0A" ++ [cr; nl] ++ [nl] ++ B "zz" ++ [cr]) = Ok [(1700000000%N, B "0A"); (1700000000%N, []); (1700000000%N, B "zz" ++ [cr])] /\
  rustReadKnown (B "0A" ++ [nl] ++ B "@") = Panic /\ rustReadKnown (B "@+") = Panic /\ rustReadKnown (B "@10000000000000000") = Panic /\ rustReadKnown (B "@000000000000000000001" ++ [nl] ++ B "0A") = Ok [(1%N, B "0A")].
Proof. vm_compute. auto 6. Qed.

(** *** Torn files, read by the filter builder *)

(** What the builder reads of the lists of an issuer written in full. *)
Definition inFull (l : list (Z * list bytes)) : list (N * bytes) :=
  flat_map (fun p => map (fun s => (Z.to_N (fst p), hexEncode s)) (snd p)) l.
(** The first entries of a list, and perhaps one more of which digits at the end are
    missing. *)
Definition tornOff (full out : list (N * bytes)) : Prop :=
  exists n, out = firstn n full \/
    exists u t j, nth_error full n = Some (u, t) /\ (0 < j)%nat /\ out = firstn n full ++ [(u, firstn j t)].

Lemma tornOff_app a full out : tornOff full out -> tornOff (a ++ full) (a ++ out).
Proof.
  intros [n H]. exists (length a + n)%nat. rewrite firstn_app, firstn_all2 by lia. replace (length a + n - length a)%nat with n by lia.
  destruct H as [->|[u [t [j [N [J ->]]]]]]; [left; reflexivity|right]. exists u, t, j. split; [|split; [exact J|rewrite app_assoc; reflexivity]].
  rewrite nth_error_app2 by lia. replace (length a + n - length a)%nat with n by lia. exact N.
Qed.
Lemma clean_firstn k l : clean l -> clean (firstn k l).
Proof. intros [C1 C2]. split; intros I; [apply C1|apply C2]; rewrite <- (firstn_skipn k l); apply in_or_app; left; exact I. Qed.

Lemma rust_torn_serials d R full : (forall k out, rustKnown d (rustLines [] (firstn k R)) = Ok out -> tornOff full out) ->
  forall ss k out, rustKnown d (rustLines [] (firstn k (flat_map (fun s => hexEncode s ++ [nl]) ss ++ R))) = Ok out ->
  tornOff (map (fun s => (d, hexEncode s)) ss ++ full) out.
Proof.
  intros HR. induction ss as [|s ss IH]; intros k out H; [apply (HR k); exact H|]. cbn [flat_map map app] in *. rewrite <- !app_assoc in H.
  destruct (le_lt_dec (length (hexEncode s) + 1) k) as [LE|LT].
  - rewrite app_assoc, firstn_app in H. rewrite firstn_all2 in H by (rewrite app_length; cbn [length]; lia). rewrite <- app_assoc, rustLines_line, dropCR_id in H by apply hexEncode_clean.
    cbn [rustKnown] in H. destruct (rustKnown d _) as [r| |] eqn:E.
    + assert (X : out = (d, hexEncode s) :: r).
      { destruct (hexEncode s) as [|c t] eqn:EH; [congruence|]. destruct (byte_eqb_spec c "@"%byte) as [->|_]; [|congruence].
        exfalso. apply (hex_no "@"%byte s); [reflexivity|]. rewrite EH. left; reflexivity. }
      subst out. apply (tornOff_app [(d, hexEncode s)]). apply (IH _ _ E).
    + exfalso. destruct (hexEncode s) as [|c t] eqn:EH; [discriminate H|]. destruct (byte_eqb_spec c "@"%byte) as [->|_]; [|discriminate H].
      apply (hex_no "@"%byte s); [reflexivity|]. rewrite EH. left; reflexivity.
    + exfalso. destruct (hexEncode s) as [|c t] eqn:EH; [discriminate H|]. destruct (byte_eqb_spec c "@"%byte) as [->|_]; [|discriminate H].
      apply (hex_no "@"%byte s); [reflexivity|]. rewrite EH. left; reflexivity.
  - rewrite firstn_app in H. replace (k - length (hexEncode s))%nat with 0%nat in H by lia. cbn [firstn] in H. rewrite app_nil_r in H.
    rewrite rustLines_last in H by apply (clean_firstn k _ (hexEncode_clean s)). cbn [rev app] in H. exists 0%nat. destruct (firstn k (hexEncode s)) as [|c t] eqn:F; [left; injection H as <-; reflexivity|].
    right. exists d, (hexEncode s), k. split; [reflexivity|]. split; [destruct k; [discriminate F|lia]|]. cbn [rustKnown] in H. rewrite F.
    destruct (byte_eqb_spec c "@"%byte) as [->|_]; [|injection H as <-; reflexivity].
    exfalso. apply (hex_no "@"%byte s); [reflexivity|]. rewrite <- (firstn_skipn k (hexEncode s)), F. left; reflexivity.
Qed.

(** Of lists whose writing was broken off, the builder panics or reads the first
    entries, each with its date, and at most one entry more, with digits missing. *)
Theorem C16_rust_torn : forall (l : list (Z * list bytes)) k out, (forall u ss, In (u, ss) l -> (0 <= u < 2 ^ 63)%Z) ->
  rustReadKnown (firstn k (flat_map (fun p => writeSerialList (fst p) (snd p)) l)) = Ok out -> tornOff (inFull l) out.
Proof.
  intros l k out U H. unfold rustReadKnown in H. revert H. generalize 0%N as d. revert k out. induction l as [|[u ss] l IH]; intros k out d H.
  { cbn [flat_map] in H. rewrite firstn_nil in H. injection H as <-. exists 0%nat. left. reflexivity. }
  assert (R : (0 <= u < 2 ^ 63)%Z) by (apply (U u ss); left; reflexivity). cbn [flat_map fst snd] in H. unfold writeSerialList in H. rewrite <- !app_assoc in H.
  change (inFull ((u, ss) :: l)) with (map (fun s => (Z.to_N u, hexEncode s)) ss ++ inFull l).
  destruct (le_lt_dec 18 k) as [LE|LT].
  - rewrite app_assoc, firstn_app in H. rewrite firstn_all2 in H by (rewrite app_length, expiryLine_length; cbn [length]; lia). rewrite <- app_assoc, rustLines_line, dropCR_id in H by apply expiryLine_clean.
    rewrite rustKnown_expiry in H by exact R. apply rust_torn_serials with (full := inFull l) in H; [exact H|]. intros k' o' H'. apply (IH (fun u ss I => U u ss (or_intror I)) k' o' _ H').
  - rewrite firstn_app, expiryLine_length in H. replace (k - 17)%nat with 0%nat in H by lia. cbn [firstn] in H. rewrite app_nil_r in H.
    rewrite rustLines_last in H by apply (clean_firstn k _ (expiryLine_clean u)). cbn [rev app] in H. exists 0%nat. left. destruct k as [|k]; [cbn [firstn] in H; injection H as <-; reflexivity|].
    unfold expiryLine in H. change (B "@") with ["@"%byte] in H. cbn [app firstn rustKnown] in H. replace (Byte.eqb "@" "@") with true in H by reflexivity.
    destruct (fromStrRadix16 (firstn k (fmt016x u))); [injection H as <-; reflexivity|discriminate H].
Qed.
Print Assumptions C16_rust_torn.
(** And this happens, even in the middle of a byte, without an error. *)
Theorem C16_rust_torn_refuted : exists l k out, (forall u ss, In (u, ss) l -> (0 <= u < 2 ^ 63)%Z) /\
  rustReadKnown (firstn k (flat_map (fun p => writeSerialList (fst p) (snd p)) l)) = Ok out /\
  (exists u t, In (u, t) out /\ hexDecode t = None) /\ (exists e, In e (inFull l) /\ ~ In e out).
Proof.
  exists [(1700000000%Z, [[x01; x02]; [x0a; x0b]])], 24%nat, [(1700000000%N, B "0102"); (1700000000%N, B "0")].
  split; [intros u ss [E|[]]; injection E as <- _; lia|]. split; [vm_compute; reflexivity|]. split.
  - exists 1700000000%N, (B "0"). split; [right; left; reflexivity|reflexivity].
  - exists (1700000000%N, B "0a0b"). split; [right; left; vm_compute; reflexivity|]. intros [X|[X|[]]]; discriminate X.
Qed.
Print Assumptions C16_rust_torn_refuted.
