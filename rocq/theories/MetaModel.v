(** * Log states, lock and epoch in both caches
    /repo/go/storage/rediscache.go lines 179-354 and the stand-in for it in
    /repo/go/storage/mockcache.go lines 204-318.

    One client at a time: an operation of the Redis cache, which is several commands, is
    not interrupted, and each command is carried out once and answered (RetryModel is
    about the rest).  Each operation has the time, in seconds, at which it happens.  Texts
    of log states are read as what was written (C77). *)
From Verif Require Import Base MerkleModel SerialModel PublishModel StoreModel EpochModel RetryModel.
Local Open Scope Z_scope.

Inductive op :=
| StoreLog (l : ctLog)
| LoadLog (url : bytes)
| AllLogs
| MigrateLog (host path : bytes)
| Acquire (token : bytes)                              (* with the random token that it makes *)
| Release (token : bytes)
| Has (token : bytes)
| Epoch
| Next
| RestoreAll (e : N) (l : list ctLog) (token : bytes). (* with the token for the lock *)
Inductive ans :=
| ADone (ok : bool)                 (* nothing or an error *)
| ALog (l : option ctLog)           (* a state or an error *)
| ALogs (l : option (list ctLog))   (* states in any order, or an error *)
| AYes (b : bool)
| ANum (n : option N).

(** ** Redis *)
Record redis := mkRedis { r_keys : store; r_logs : logStore }.
Definition redisEmpty : redis := mkRedis [] [].
Definition once (now : Z) : list attempt := [mkAttempt [] now true].

(** rediscache.go:249-272 *)
Fixpoint allOf (m : logStore) : option (list ctLog) :=
  match m with
  | [] => Some []
  | (_, None) :: _ => None
  | (_, Some l) :: m' => match allOf m' with Some ls => Some (l :: ls) | None => None end
  end.

Definition rstep (now : Z) (o : op) (s : redis) : ans * redis :=
  match o with
  | StoreLog l => (ADone true, mkRedis (r_keys s) (storeLogState (r_logs s) l))                    (* 227-234 *)
  | LoadLog u => (ALog (loadLogState (r_logs s) u), s)                                             (* 236-247 *)
  | AllLogs => (ALogs (allOf (r_logs s)), s)
  | MigrateLog host path =>                                                                        (* 183-225 *)
      match migrate (r_logs s) host path with
      | Ok m => (ADone true, mkRedis (r_keys s) m)
      | _ => (ADone false, s)
      end
  | Acquire token =>                                                                               (* 274-289 *)
      let (r, keys) := acquire token (once now) true (r_keys s) in
      (AYes match r with Some _ => true | None => false end, mkRedis keys (r_logs s))
  | Release token => (ADone true, mkRedis (release token now (once now) (r_keys s)) (r_logs s))    (* 291-296 *)
  | Has token => (AYes (hasLock now token (r_keys s)), s)                                          (* 298-307 *)
  | Epoch => (ANum (cacheEpoch (epochText now (r_keys s))), s)                                     (* 309-318 *)
  | Next => let (b, keys) := nextEpoch (once now) true (r_keys s) in (ADone b, mkRedis keys (r_logs s)) (* 320-322 *)
  | RestoreAll e l token =>                                                                        (* 324-354 *)
      match acquire token (once now) true (r_keys s) with
      | (None, keys) => (ADone false, mkRedis keys (r_logs s))
      | (Some t, keys) =>
          let keys' := snd (exec now (Put epochKey (decText e)) keys) in
          (ADone true, mkRedis (release t now (once now) keys') (fold_left storeLogState l []))
      end
  end.

(** ** The stand-in *)
Record mock := mkMock { m_logs : list (bytes * ctLog); m_lock : option bytes; m_epoch : N }.
Definition mockEmpty : mock := mkMock [] None 0.
(** mockcache.go:204-214 *)
Definition mStore (m : list (bytes * ctLog)) (l : ctLog) : list (bytes * ctLog) := aset (B "log::" ++ lg_url l) l m.
Definition mHas (s : mock) (token : bytes) : bool := match m_lock s with Some t => beq t token | None => false end.
Definition mstep (o : op) (s : mock) : ans * mock :=
  match o with
  | StoreLog l => (ADone true, mkMock (mStore (m_logs s) l) (m_lock s) (m_epoch s))
  | LoadLog u => (ALog (alookup (B "log::" ++ u) (m_logs s)), s)                                   (* 216-232 *)
  | AllLogs => (ALogs (Some (map snd (m_logs s))), s)                                              (* 234-248 *)
  | MigrateLog _ _ => (ADone true, s)                                                              (* 250-254 *)
  | Acquire token =>                                                                               (* 256-269 *)
      match m_lock s with
      | None => (AYes true, mkMock (m_logs s) (Some token) (m_epoch s))
      | Some _ => (AYes false, s)
      end
  | Release token => (ADone true, if mHas s token then mkMock (m_logs s) None (m_epoch s) else s)  (* 271-278 *)
  | Has token => (AYes (mHas s token), s)                                                          (* 280-284 *)
  | Epoch => (ANum (Some (m_epoch s)), s)                                                          (* 286-290 *)
  | Next => (ADone true, mkMock (m_logs s) (m_lock s) ((m_epoch s + 1) mod 2 ^ 64)%N)              (* 292-297 *)
  | RestoreAll e l _ => (ADone true, mkMock (fold_left mStore l []) (m_lock s) e)                  (* 299-318 *)
  end.

(** The answers to a history of operations. *)
Fixpoint ranswers (h : list (Z * op)) (s : redis) : list ans :=
  match h with
  | [] => []
  | (now, o) :: h' => let (a, s') := rstep now o s in a :: ranswers h' s'
  end.
Fixpoint manswers (h : list (Z * op)) (s : mock) : list ans :=
  match h with
  | [] => []
  | (_, o) :: h' => let (a, s') := mstep o s in a :: manswers h' s'
  end.
