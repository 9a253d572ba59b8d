(** * Specification: RFC 6962 section 2.1, written from the RFC.

    Nothing here refers to the model.  [n], [k], [m] are the letters used in the
    RFC; lists are the RFC's ordered inputs D[n]. *)
From Verif Require Import Base.

Section Spec.
  Variable sha256 : bytes -> bytes.

  (** RFC 6962, 2.1:  MTH({}) = SHA-256(), MTH({d(0)}) = SHA-256(0x00 || d(0)),
      and for n > 1, with k the largest power of two smaller than n,
      MTH(D[n]) = SHA-256(0x01 || MTH(D[0:k]) || MTH(D[k:n])). *)
  Inductive MTH : list bytes -> bytes -> Prop :=
  | MTH_empty : MTH [] (sha256 [])
  | MTH_leaf d : MTH [d] (sha256 (x00 :: d))
  | MTH_node D k j hl hr :
      k = (2 ^ j)%nat -> (k < length D)%nat -> (length D <= 2 * k)%nat ->
      MTH (firstn k D) hl -> MTH (skipn k D) hr ->
      MTH D (sha256 (x01 :: hl ++ hr)).

  (** RFC 6962, 2.1.2:
      SUBPROOF(m, D[m], true) = {}
      SUBPROOF(m, D[m], false) = {MTH(D[m])}
      for m < n: if m <= k,  SUBPROOF(m, D[n], b) = SUBPROOF(m, D[0:k], b) : MTH(D[k:n])
                 if m > k,   SUBPROOF(m, D[n], b) = SUBPROOF(m - k, D[k:n], false) : MTH(D[0:k]) *)
  Inductive SUBPROOF : nat -> list bytes -> bool -> list bytes -> Prop :=
  | SP_true D : SUBPROOF (length D) D true []
  | SP_false D h : MTH D h -> SUBPROOF (length D) D false [h]
  | SP_left m D b k j p h :
      (m < length D)%nat ->
      k = (2 ^ j)%nat -> (k < length D)%nat -> (length D <= 2 * k)%nat ->
      (m <= k)%nat ->
      SUBPROOF m (firstn k D) b p -> MTH (skipn k D) h ->
      SUBPROOF m D b (p ++ [h])
  | SP_right m D b k j p h :
      (m < length D)%nat ->
      k = (2 ^ j)%nat -> (k < length D)%nat -> (length D <= 2 * k)%nat ->
      (k < m)%nat ->
      SUBPROOF (m - k) (skipn k D) false p -> MTH (firstn k D) h ->
      SUBPROOF m D b (p ++ [h]).

  (** PROOF(m, D[n]) = SUBPROOF(m, D[n], true), for 0 < m < n. *)
  Definition PROOF (m : nat) (D : list bytes) (p : list bytes) : Prop :=
    (0 < m < length D)%nat /\ SUBPROOF m D true p.
End Spec.

(** The entries with indexes first..last of a log D. *)
Definition entries (D : list bytes) (first last : N) : list bytes :=
  firstn (N.to_nat (last - first + 1)) (skipn (N.to_nat first) D).

(** A list of index ranges covers [first,last] exactly once, in increasing order. *)
Fixpoint tiles (rs : list (N * N)) (first last : N) : Prop :=
  match rs with
  | [] => False
  | [(a, b)] => a = first /\ b = last /\ (a <= b)%N
  | (a, b) :: rs' => a = first /\ (a <= b)%N /\ (b < last)%N /\ tiles rs' (b + 1)%N last
  end.

(** The byte strings that SHA-256 is applied to when MTH(D) is computed. *)
Inductive hashed (sha256 : bytes -> bytes) : list bytes -> bytes -> Prop :=
| hashed_empty : hashed sha256 [] []
| hashed_leaf d : hashed sha256 [d] (x00 :: d)
| hashed_node D k j hl hr :
    k = (2 ^ j)%nat -> (k < length D)%nat -> (length D <= 2 * k)%nat ->
    MTH sha256 (firstn k D) hl -> MTH sha256 (skipn k D) hr ->
    hashed sha256 D (x01 :: hl ++ hr)
| hashed_left D k j x :
    k = (2 ^ j)%nat -> (k < length D)%nat -> (length D <= 2 * k)%nat ->
    hashed sha256 (firstn k D) x -> hashed sha256 D x
| hashed_right D k j x :
    k = (2 ^ j)%nat -> (k < length D)%nat -> (length D <= 2 * k)%nat ->
    hashed sha256 (skipn k D) x -> hashed sha256 D x.
