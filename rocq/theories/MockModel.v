(** * The in-memory stand-in for the cache
    /repo/go/storage/mockcache.go, MockRemoteCache: the sets of strings and their
    expiry.  (The log states, the lock and the epoch in it are in MetaModel.v; [Duplicate] is left
    out, it is 0 unless a test sets it.)

    Every operation takes the mutex, so an execution is a sequence of operations, each
    with the time at which it looks at the clock. *)
From Verif Require Import Base SerialModel CtFetchModel.

(** mockcache.go:18-25; a time is a number of nanoseconds. *)
Record mock := mkMock { mk_data : list (bytes * list bytes); mk_exp : list (bytes * Z) }.
Definition mockEmpty : mock := mkMock [] [].

(** [ec.Data[key]], nil if there is none. *)
Definition setOf (s : mock) (k : bytes) : list bytes := match alookup k (mk_data s) with Some l => l | None => [] end.

(** mockcache.go:35-44 *)
Definition timedOut (now : Z) (s : mock) (k : bytes) : bool :=
  match alookup k (mk_exp s) with Some t => (t <? now)%Z | None => false end.
Definition cleanup (now : Z) (s : mock) : mock :=
  mkMock (filter (fun e => negb (timedOut now s (fst e))) (mk_data s))
         (filter (fun e => negb (timedOut now s (fst e))) (mk_exp s)).

(** mockcache.go:49-58 (and 84-91, 127-134): the position found by sort.Search, and
    whether the entry is there. *)
Definition position (entry : bytes) (l : list bytes) : nat :=
  sortSearch (length l) (fun i => match bcmp entry (nth i l []) with Gt => false | _ => true end).
Definition foundAt (entry : bytes) (l : list bytes) : bool :=
  let idx := position entry l in
  (idx <? length l)%nat && match bcmp entry (nth idx l []) with Eq => true | _ => false end.

(** mockcache.go:46-71 *)
Definition mInsert (k entry : bytes) (s : mock) : bool * mock :=
  let l := setOf s k in
  if foundAt entry l then (false, s)
  else (true, mkMock (aset k (insertAt (position entry l) entry l) (mk_data s)) (mk_exp s)).

(** mockcache.go:73-81; the expiry of an item is not looked at *)
Definition mInsertMany (items : list (bytes * bytes * Z)) (s : mock) : mock :=
  fold_left (fun s it => snd (mInsert (fst (fst it)) (snd (fst it)) s)) items s.

(** [l[idx] = x] *)
Fixpoint setNth (idx : nat) (x : bytes) (l : list bytes) : list bytes :=
  match l, idx with
  | [], _ => []
  | _ :: l', O => x :: l'
  | y :: l', S i => y :: setNth i x l'
  end.

(** mockcache.go:83-108 *)
Definition mRemove1 (k : bytes) (s : mock) (entry : bytes) : mock :=
  let l := setOf s k in
  if foundAt entry l then
    if (length l =? 1)%nat then mkMock (aremove k (mk_data s)) (mk_exp s)
    else mkMock (aset k (firstn (length l - 1) (setNth (position entry l) (nth (length l - 1) l []) l)) (mk_data s)) (mk_exp s)
  else s.

Inductive mop :=
| MInsert (k v : bytes) | MInsertMany (items : list (bytes * bytes * Z)) | MRemove (k : bytes) (vs : list bytes)
| MContains (k v : bytes) | MList (k : bytes) | MCard (k : bytes) | MExists (k : bytes) | MExpire (k : bytes) (t : Z).
Inductive mans := MUnit | MBool (b : bool) | MNum (n : nat) | MSet (l : list bytes).

Definition mstep (now : Z) (o : mop) (s : mock) : mans * mock :=
  match o with
  | MInsert k v => let (b, s') := mInsert k v s in (MBool b, s')
  | MInsertMany items => (MUnit, mInsertMany items s)
  | MRemove k vs => (MUnit, cleanup now (fold_left (mRemove1 k) vs s))                        (* 110-121 *)
  | MContains k v => let s' := cleanup now s in (MBool (foundAt v (setOf s' k)), s')           (* 123-143 *)
  | MList k => let s' := cleanup now s in (MSet (setOf s' k), s')                              (* 145-150; SetToChan 152-163 sends the same *)
  | MCard k => (MNum (length (setOf s k)), s)                                                  (* 165-169 *)
  | MExists k => let s' := cleanup now s in
      (MBool match alookup k (mk_data s') with Some _ => true | None => false end, s')         (* 171-177 *)
  | MExpire k t => (MUnit, mkMock (mk_data s) (aset k t (mk_exp s)))                           (* 179-184 *)
  end.

Definition mruns (h : list (Z * mop)) (s : mock) : mock := fold_left (fun s e => snd (mstep (fst e) (snd e) s)) h s.
