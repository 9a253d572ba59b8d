(** * Commands that the Redis client sends more than once
    /repo/go/storage/rediscache.go lines 38-46 (MaxRetries, timeouts), 74-101, 102-117,
    227-247, 274-323.

    The client library repeats a command, or a whole pipeline, when the connection breaks
    or no answer comes in time (defaultProcess and defaultProcessPipeline of
    github.com/go-redis/redis, IsRetryableError).  The server may have carried out the
    command all the same.  The other models take each command to happen at most once.

    Simplified: the waiting times between attempts are not modelled (the attempts happen at
    any times), neither is the number of attempts bounded by 11; SET, SADD and the others
    are modelled as far as the code uses them. *)
From Verif Require Import Base EpochModel.
From Coq Require Import Strings.Byte.
Local Open Scope Z_scope.

(** ** The server *)
Inductive value := VStr (b : bytes) | VSet (l : list bytes).
(** A key with its value and the time after which it is gone. *)
Definition store := list (bytes * (value * option Z)).
(** keyIsExpired of Redis: a key is gone when the clock is past its time. *)
Definition live (now : Z) (k : bytes) (s : store) : option (value * option Z) :=
  match alookup k s with
  | Some (v, Some t) => if now <=? t then Some (v, Some t) else None
  | x => x
  end.
Definition mem (x : bytes) (l : list bytes) : bool := existsb (beq x) l.

Inductive cmd :=
| SAdd (k v : bytes)                 (* rediscache.go:75, 88 *)
| ExpireAt (k : bytes) (t : Z)       (* 92 *)
| SRem (k : bytes) (vs : list bytes) (* 111 *)
| SIsMember (k v : bytes)            (* 120 *)
| Get (k : bytes)                    (* 237, 299, 310 *)
| Put (k v : bytes)                  (* 233, 350: SET without expiry *)
| SetNX (k v : bytes) (ttl : Z)      (* 284 *)
| Incr (k : bytes)                   (* 321 *)
| Del (k : bytes).                   (* 294, 337 *)
Inductive reply := ROk | RNil | RStr (b : bytes) | RBool (b : bool) | RError.

Definition exec (now : Z) (c : cmd) (s : store) : reply * store :=
  match c with
  | SAdd k v =>
      match live now k s with
      | None => (RBool true, aset k (VSet [v], None) s)
      | Some (VSet l, e) => if mem v l then (RBool false, s) else (RBool true, aset k (VSet (v :: l), e) s)
      | Some (VStr _, _) => (RError, s)
      end
  | ExpireAt k t =>
      match live now k s with
      | None => (RBool false, s)
      | Some (v, _) => (RBool true, if t <=? now then aremove k s else aset k (v, Some t) s)
      end
  | SRem k vs =>
      match live now k s with
      | None => (ROk, s)
      | Some (VSet l, e) =>
          match filter (fun x => negb (mem x vs)) l with
          | [] => (ROk, aremove k s)
          | l' => (ROk, aset k (VSet l', e) s)
          end
      | Some (VStr _, _) => (RError, s)
      end
  | SIsMember k v =>
      match live now k s with
      | None => (RBool false, s)
      | Some (VSet l, _) => (RBool (mem v l), s)
      | Some (VStr _, _) => (RError, s)
      end
  | Get k =>
      match live now k s with
      | None => (RNil, s)
      | Some (VStr b, _) => (RStr b, s)
      | Some (VSet _, _) => (RError, s)
      end
  | Put k v => (ROk, aset k (VStr v, None) s)
  | SetNX k v ttl =>
      match live now k s with
      | None => (RBool true, aset k (VStr v, Some (now + ttl)) s)
      | Some _ => (RBool false, s)
      end
  | Incr k =>
      match live now k s with
      | None => match incr None with Some b => (ROk, aset k (VStr b, None) s) | None => (RError, s) end
      | Some (VStr b, e) => match incr (Some b) with Some b' => (ROk, aset k (VStr b', e) s) | None => (RError, s) end
      | Some (VSet _, _) => (RError, s)
      end
  | Del k => (ROk, aremove k s)
  end.
Fixpoint execs (h : list (Z * cmd)) (s : store) : store :=
  match h with
  | [] => s
  | (now, c) :: h' => execs h' (snd (exec now c s))
  end.

(** ** The client *)

(** One attempt: what other clients do before it, its time, and whether the command
    reaches the server. *)
Record attempt := mkAttempt { at_others : list (Z * cmd); at_now : Z; at_done : bool }.
(** All but the last attempt bring no answer; [answered]: whether the last one does.
    Result: the answer, or None for an error. *)
Fixpoint deliver (c : cmd) (l : list attempt) (answered : bool) (s : store) : option reply * store :=
  match l with
  | [] => (None, s)
  | a :: l' =>
      let s1 := execs (at_others a) s in
      match l' with
      | [] => if at_done a then let (r, s2) := exec (at_now a) c s1 in (if answered then Some r else None, s2) else (None, s1)
      | _ => deliver c l' answered (if at_done a then snd (exec (at_now a) c s1) else s1)
      end
  end.

(** A pipeline: a broken attempt carries out a beginning of it.  rediscache.go:85-101 *)
Definition pipeline (items : list (bytes * bytes * Z)) : list cmd :=
  flat_map (fun i => [SAdd (fst (fst i)) (snd (fst i)); ExpireAt (fst (fst i)) (snd i)]) items.
(** What the server carries out while a pipeline is sent: commands marked [true] are the
    client's own, those of others come in between. *)
Definition own (h : list (bool * (Z * cmd))) : list cmd := map (fun e => snd (snd e)) (filter fst h).
Definition carried (h : list (bool * (Z * cmd))) : list (Z * cmd) := map snd h.
(** The attempts that broke, and the one that was answered in full. *)
Definition sent (l : list cmd) (failed : list (list (bool * (Z * cmd)))) (last : list (bool * (Z * cmd))) : Prop :=
  (forall h, In h failed -> exists n, own h = firstn n l) /\ own last = l.

(** ** What rediscache.go makes of it *)
Definition lockKey : bytes := B "lock::commit".
Definition epochKey : bytes := B "epoch".
(** four hours, in seconds: rediscache.go:30 *)
Definition lockTime : Z := 14400.

(** rediscache.go:274-289: the token handed out, if any; an error is no token either. *)
Definition acquire (token : bytes) (l : list attempt) (answered : bool) (s : store) : option bytes * store :=
  let (r, s') := deliver (SetNX lockKey token lockTime) l answered s in
  (match r with Some (RBool true) => Some token | _ => None end, s').
(** rediscache.go:298-307; an error is no. *)
Definition hasLock (now : Z) (token : bytes) (s : store) : bool :=
  match fst (exec now (Get lockKey) s) with RStr b => beq b token | _ => false end.
(** rediscache.go:291-296: [now] is the time of the first look, [l] the attempts to delete. *)
Definition release (token : bytes) (now : Z) (l : list attempt) (s : store) : store :=
  if hasLock now token s then snd (deliver (Del lockKey) l true s) else s.
(** rediscache.go:320-322: whether it reports success. *)
Definition nextEpoch (l : list attempt) (answered : bool) (s : store) : bool * store :=
  let (r, s') := deliver (Incr epochKey) l answered s in
  (match r with Some ROk => true | _ => false end, s').
(** What [GetEpoch] reads, as text. *)
Definition epochText (now : Z) (s : store) : option bytes :=
  match live now epochKey s with Some (VStr b, _) => Some b | _ => None end.
