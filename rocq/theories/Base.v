(** * Common vocabulary: bytes, 64-bit words, lookup tables.

    Shared by every model file.  Nothing here models a particular function of
    /repo; it fixes how Go/Rust/Python values are represented:
    - a Go [[]byte] or [string], a Rust [&[u8]] / [Vec<u8>]  is a [bytes];
    - a Go [uint64] is an [N]; wherever the code adds, subtracts or multiplies
      and the result could leave the range, the model applies [w64]. *)
From Coq Require Export List Arith NArith ZArith Lia Bool.
From Coq Require Export Init.Byte.
From Coq Require Import Strings.Byte Strings.String.
From Coq Require Export ZifyBool ZifyNat ZifyN.
Export ListNotations.
Export String.StringSyntax.

Ltac Zify.zify_post_hook ::= Z.div_mod_to_equations.

Definition bytes := list byte.

(** String literals as byte strings. *)
Definition B (s : string) : bytes := list_byte_of_string s.
Arguments B s%string.

(** Equality test on byte strings (Go [==] on strings, [bytes.Compare(..)==0]). *)
Fixpoint beq (x y : bytes) : bool :=
  match x, y with
  | [], [] => true
  | a :: x', b :: y' => Byte.eqb a b && beq x' y'
  | _, _ => false
  end.

Lemma byte_eqb_spec a b : reflect (a = b) (Byte.eqb a b).
Proof.
  destruct (Byte.eqb a b) eqn:E; constructor.
  - apply Byte.byte_dec_bl; exact E.
  - intros ->. rewrite Byte.byte_dec_lb in E by reflexivity. discriminate.
Qed.

Lemma beq_spec x y : reflect (x = y) (beq x y).
Proof.
  revert y; induction x as [|a x IH]; destruct y as [|b y]; cbn [beq];
    try (constructor; (reflexivity || discriminate)).
  destruct (byte_eqb_spec a b) as [->|N]; cbn [andb].
  - destruct (IH y) as [->|N]; constructor; congruence.
  - constructor; congruence.
Qed.

Lemma beq_refl x : beq x x = true.
Proof. destruct (beq_spec x x); congruence. Qed.

Lemma beq_eq x y : beq x y = true <-> x = y.
Proof. destruct (beq_spec x y); split; congruence. Qed.

Lemma beq_neq x y : beq x y = false <-> x <> y.
Proof. destruct (beq_spec x y); split; congruence. Qed.

Lemma bytes_eq_dec (x y : bytes) : {x = y} + {x <> y}.
Proof. destruct (beq x y) eqn:E; [left; apply beq_eq; exact E|right; apply beq_neq; exact E]. Defined.

(** ** 64-bit words *)
Definition two64 : N := 18446744073709551616%N.
Definition w64 (x : N) : N := (x mod two64)%N.
(** Go subtraction on uint64: wraps. *)
Definition sub64 (x y : N) : N := w64 (x + two64 - w64 y).
Definition add64 (x y : N) : N := w64 (x + y).
Definition mul64 (x y : N) : N := w64 (x * y).

Lemma two64_pos : (0 < two64)%N. Proof. reflexivity. Qed.

Lemma w64_small x : (x < two64)%N -> w64 x = x.
Proof. intros H; unfold w64; apply N.mod_small; exact H. Qed.

Lemma w64_lt x : (w64 x < two64)%N.
Proof. unfold w64; apply N.mod_lt; discriminate. Qed.

Lemma sub64_small x y : (y <= x)%N -> (x < two64)%N -> sub64 x y = (x - y)%N.
Proof.
  intros H1 H2; unfold sub64.
  rewrite (w64_small y) by lia.
  replace (x + two64 - y)%N with (x - y + 1 * two64)%N by lia.
  unfold w64; rewrite N.mod_add by discriminate.
  apply N.mod_small; lia.
Qed.

Lemma add64_small x y : (x + y < two64)%N -> add64 x y = (x + y)%N.
Proof. intros H; unfold add64; apply w64_small; exact H. Qed.

(** ** Association lists keyed by byte strings (Go maps with string keys).
    The order of the list plays no role in any statement. *)
Section Assoc.
  Context {V : Type}.
  Fixpoint alookup (k : bytes) (m : list (bytes * V)) : option V :=
    match m with
    | [] => None
    | (k', v) :: m' => if beq k k' then Some v else alookup k m'
    end.
  Fixpoint aremove (k : bytes) (m : list (bytes * V)) : list (bytes * V) :=
    match m with
    | [] => []
    | (k', v) :: m' => if beq k k' then aremove k m' else (k', v) :: aremove k m'
    end.
  Definition aset (k : bytes) (v : V) (m : list (bytes * V)) : list (bytes * V) :=
    (k, v) :: aremove k m.

  Lemma alookup_aremove_same k m : alookup k (aremove k m) = None.
  Proof.
    induction m as [|[k' v] m IH]; cbn [alookup aremove]; [reflexivity|].
    destruct (beq k k') eqn:E; [exact IH|]. cbn [alookup]. rewrite E. exact IH.
  Qed.
  Lemma alookup_aremove_other k k' m : k <> k' -> alookup k (aremove k' m) = alookup k m.
  Proof.
    intros N; induction m as [|[j v] m IH]; cbn [alookup aremove]; [reflexivity|].
    destruct (beq_spec k' j) as [->|N1].
    - destruct (beq_spec k j); [congruence|exact IH].
    - cbn [alookup]. destruct (beq k j); [reflexivity|exact IH].
  Qed.
  Lemma alookup_aset_same k v m : alookup k (aset k v m) = Some v.
  Proof. cbn [alookup aset]. rewrite beq_refl. reflexivity. Qed.
  Lemma alookup_aset_other k k' v m : k <> k' -> alookup k (aset k' v m) = alookup k m.
  Proof.
    intros N; unfold aset; cbn [alookup].
    destruct (beq_spec k k'); [congruence|]. apply alookup_aremove_other; exact N.
  Qed.
End Assoc.
