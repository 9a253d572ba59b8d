(** * Model of the Merkle tree code of ct-fetch
    /repo/go/cmd/ct-fetch/rfc6962.go lines 42-201.

    SHA-256 is a section variable [sha256].  Go errors are the constructor
    [Err], Go run-time panics (index out of range) the constructor [Panic]. *)
From Verif Require Import Base.

Inductive res (A : Type) : Type :=
| Ok (a : A)
| Err
| Panic.
Arguments Ok {A} a.
Arguments Err {A}.
Arguments Panic {A}.

(** rfc6962.go:42-46  [CtLogSubtree]. *)
Record subtree := mkSubtree { st_root : bytes; st_first : N; st_last : N }.

(** rfc6962.go:48-50  [Size] : [Last - First + 1] on uint64. *)
Definition st_size (r : subtree) : N := add64 (sub64 (st_last r) (st_first r)) 1.

(** math/bits.Len64 (number of significant bits); [Len64 0 = 0]. *)
Definition len64 (x : N) : N := N.size x.

(** rfc6962.go:52-59  [Midpoint]. *)
Definition midpoint (r : subtree) : N :=
  let size := st_size r in
  let prevPow2 := if (1 <? size)%N then N.shiftl 1 (len64 (size - 1) - 1) else 0%N in
  add64 (st_first r) prevPow2.

(** math/bits.TrailingZeros64; 64 for 0. *)
Fixpoint pos_ctz (p : positive) : nat :=
  match p with xO q => S (pos_ctz q) | _ => O end.
Definition ctz64 (x : N) : nat :=
  match x with N0 => 64%nat | Npos p => pos_ctz p end.

Section Hash.
  Variable sha256 : bytes -> bytes.

  (** rfc6962.go:61-67 *)
  Definition leafHash (leaf : bytes) : bytes := sha256 (x00 :: leaf).
  (** rfc6962.go:69-76 *)
  Definition pairHash (left right : bytes) : bytes := sha256 (x01 :: left ++ right).

  (** rfc6962.go:78-82  [CtLogSubtreeVerifier].  [v_stack] is hashStack with the
      top of the stack (the last slice element) first. *)
  Record verifier := mkVerifier {
    v_subtree : subtree;
    v_stack : list bytes;
    v_num : N }.

  Definition newVerifier (s : subtree) : verifier := mkVerifier s [] 0.

  (** rfc6962.go:106-113  the pop-pair loop.  Indexing [hashStack[n-1]] with
      fewer than two elements panics. *)
  Fixpoint popPairs (iter : nat) (stack : list bytes) : res (list bytes) :=
    match iter with
    | O => Ok stack
    | S iter' =>
        match stack with
        | R :: L :: rest => popPairs iter' (pairHash L R :: rest)
        | _ => Panic
        end
    end.

  (** rfc6962.go:84-114  [Consume].  The slice allocation at lines 85-88 resets
      the stack when no leaf was consumed. *)
  Definition consume (v : verifier) (leaf : bytes) : res verifier :=
    let stack0 := if (v_num v =? 0)%N then [] else v_stack v in
    let stack1 := leafHash leaf :: stack0 in
    let num := add64 (v_num v) 1 in
    let iter := if (st_size (v_subtree v) <=? num)%N
                then (length stack1 - 1)%nat
                else ctz64 num in
    match popPairs iter stack1 with
    | Ok s => Ok (mkVerifier (v_subtree v) s num)
    | Err => Err
    | Panic => Panic
    end.

  (** Calling [Consume] on each leaf in turn, as downloadCTRangeToChannel does
      (rfc6962.go:653-684). *)
  Fixpoint consumeAll (v : verifier) (leaves : list bytes) : res verifier :=
    match leaves with
    | [] => Ok v
    | l :: ls =>
        match consume v l with
        | Ok v' => consumeAll v' ls
        | Err => Err
        | Panic => Panic
        end
    end.

  (** rfc6962.go:116-127  [CheckClaim]; [hashStack[0]] (the bottom) panics when
      the stack is empty. *)
  Definition checkClaim (v : verifier) : res unit :=
    if negb (N.of_nat (length (st_root (v_subtree v))) =? 32)%N then Err
    else if negb (v_num v =? st_size (v_subtree v))%N then Err
    else match rev (v_stack v) with
         | [] => Panic
         | bottom :: _ => if beq (st_root (v_subtree v)) bottom then Ok tt else Err
         end.

  (** What one verification amounts to: feed all leaves, then check. *)
  Definition verifyLeaves (s : subtree) (leaves : list bytes) : res unit :=
    match consumeAll (newVerifier s) leaves with
    | Ok v => checkClaim v
    | Err => Err
    | Panic => Panic
    end.
End Hash.

(** rfc6962.go:163-172  the walk from the root towards leaf [target].
    [terms] is accumulated most recent first (so it is already in the reversed
    order of lines 192-194).  Result: accumulated ranges and final cursor.
    [fuel] bounds the number of iterations; [None] when exhausted. *)
Fixpoint walk (fuel : nat) (target : N) (first last : N) (terms : list (N * N))
  : option (list (N * N) * (N * N)) :=
  if (first =? last)%N || (last =? target)%N then Some (terms, (first, last))
  else
    match fuel with
    | O => None
    | S fuel' =>
        let mid := midpoint (mkSubtree [] first last) in
        if (target <? mid)%N
        then walk fuel' target first (sub64 mid 1) ((mid, last) :: terms)
        else walk fuel' target mid last ((first, sub64 mid 1) :: terms)
    end.

Definition walkFuel : nat := 130.

(** rfc6962.go:156-184 and 191-194: the index ranges of the proof terms, in
    RFC 6962 order.  [None] only if the walk would not terminate. *)
Definition proofRanges (oldSize newSize : N) : option (list (N * N)) :=
  match walk walkFuel (sub64 oldSize 1) 0 (sub64 newSize 1) [] with
  | None => None
  | Some (terms, cursor) =>
      Some (if negb (N.land oldSize (sub64 oldSize 1) =? 0)%N
            then cursor :: terms else terms)
  end.

(** rfc6962.go:129-201 [consistencyProofToSubtrees].  Non-termination is mapped
    to [Panic] (proved impossible). *)
Definition consistencyProofToSubtrees (proof : list bytes) (oldSize newSize : N)
  : res (list subtree) :=
  if (newSize <=? oldSize)%N then Err
  else match proofRanges oldSize newSize with
       | None => Panic
       | Some ranges =>
           if negb (Nat.eqb (length ranges) (length proof)) then Err
           else Ok (map (fun rp => mkSubtree (snd rp) (fst (fst rp)) (snd (fst rp)))
                        (combine ranges proof))
       end.
