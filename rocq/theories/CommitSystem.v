(** * Model of several processes that commit, or check the cache, at once
    /repo/go/cmd/commit/commit.go lines 23-60, /repo/go/storage/certdatabase.go
    lines 88-114 and 526-573, /repo/go/storage/rediscache.go lines 274-356,
    /repo/go/cmd/ct-fetch/ct-fetch.go lines 450-455.

    CommitModel.v has at most one commit at any time and a start of ct-fetch that
    checks and restores in one step.  Here any number of processes take the commit
    lock, commit, release the lock, start ct-fetch; every access to the cache or to
    storage is a step of its own, the lock expires, and a process may die between
    any two steps.  The steps inside a commit are those of CommitModel.v.

    Simplifications, beyond those of CommitModel.v:
    - the cache is not lost (C22 is about that);
    - tokens are 16 random bytes; two processes are taken never to draw the same;
    - the clock of the machine and that of Redis agree. *)
From Verif Require Import Base MerkleModel SerialModel TimeModel StoreModel CommitModel.

(** One process.  In a commit ([C…]), in the check at the start of ct-fetch
    ([E…]), in the restoration that the check calls ([R…]). *)
Inductive proc :=
| Out
(** commit.go:44 returned the token. *)
| CHave (k : bytes)
(** certdatabase.go:553-559 passed. *)
| CLocked (k : bytes)
(** certdatabase.go:561 returned the storage epoch. *)
| CStored (k : bytes) (se : N)
(** certdatabase.go:575-637. *)
| CRun (c : cm)
(** The deferred release, rediscache.go:291, before and after the lock is looked
    at; [go]: ct-fetch goes on when it is done. *)
| Rel (k : bytes) (go : bool)
| RelSure (k : bytes) (go : bool)
(** certdatabase.go:89 returned the storage epoch. *)
| EStored (se : N)
(** certdatabase.go:99: the epochs are out of step. *)
| EBehind (se : N)
(** certdatabase.go:107 returned the log states of the coverage file. *)
| ELogs (se : N) (ls : list lstate)
(** rediscache.go:331-341: the lock is held, the keys [todo] are to be deleted. *)
| RKeys (k : bytes) (se : N) (ls : list lstate)
| RDel (k : bytes) (se : N) (ls : list lstate) (todo : list bytes)
(** rediscache.go:343-348: the states [todo] are to be written. *)
| RPut (k : bytes) (se : N) (todo : list lstate)
(** ct-fetch.go:455: the check returned no error. *)
| Ready.

(** The token of a process that acts, or is about to act, as holder of the lock. *)
Definition holds (p : proc) : option bytes :=
  match p with
  | CHave k | CLocked k | CStored k _ | Rel k _ | RelSure k _ | RKeys k _ _ | RDel k _ _ _ | RPut k _ _ => Some k
  | CRun c => Some (cm_tok c)
  | Out | EStored _ | EBehind _ | ELogs _ _ | Ready => None
  end.

(** [m_db]: cache and storage ([d_commit] is not used, it stays [None]);
    [m_until]: when the lock expires; [m_used]: the tokens drawn so far. *)
Record sys := mkSys { m_db : db; m_procs : nat -> proc; m_until : Z; m_used : list bytes }.

Definition pset (f : nat -> proc) (i : nat) (p : proc) : nat -> proc := fun j => if (j =? i)%nat then p else f j.

(** Scans in progress owe nothing for a bin that vanished (CommitModel.v). *)
Definition forgetProc (b : bytes) (p : proc) : proc := match p with CRun c => CRun (forget b c) | _ => p end.

Definition withDb (m : sys) (s : db) : sys := mkSys s (m_procs m) (m_until m) (m_used m).
Definition withProc (m : sys) (i : nat) (p : proc) : sys := mkSys (m_db m) (pset (m_procs m) i p) (m_until m) (m_used m).
Definition withBoth (m : sys) (s : db) (i : nat) (p : proc) : sys := mkSys s (pset (m_procs m) i p) (m_until m) (m_used m).
(** rediscache.go:284, 30: SETNX with an expiry of four hours. *)
Definition lockFor (m : sys) (i : nat) (k : bytes) (p : proc) : sys :=
  mkSys (setLock (m_db m) (Some k)) (pset (m_procs m) i p) (d_now (m_db m) + 4 * nsHour)%Z (k :: m_used m).

Section System.
  Variable binDate : bytes -> Z.
  (** [true]: whoever acts as holder of the lock is done, or dead, before the lock
      expires. *)
  Variable prompt : bool.

  (** The process that moves, or [None] for the rest of the world. *)
  Inductive mstep : option nat -> sys -> sys -> Prop :=
  (** The rest of the world: ct-fetch stores certificates and log states (C08),
      migrates log states, time passes, Redis drops expired sets and the expired
      lock. *)
  | MInsert m b e :
      mstep None m (withDb m (setInserted (setSets (m_db m) (upd (d_sets (m_db m)) b (e :: d_sets (m_db m) b)))
                                          ((b, e) :: d_inserted (m_db m))))
  | MSaveLog m u l : (forall x, In x (l_claims l) -> In x (d_inserted (m_db m))) ->
      mstep None m (withDb m (setLogs (m_db m) (upd (d_logs (m_db m)) u (Some l))))
  | MDelLog m u : mstep None m (withDb m (setLogs (m_db m) (upd (d_logs (m_db m)) u None)))
  | MTick m t : (d_now (m_db m) <= t)%Z ->
      (prompt = true -> forall i k, holds (m_procs m i) = Some k -> d_lock (m_db m) = Some k -> (t < m_until m)%Z) ->
      mstep None m (withDb m (setNow (m_db m) t))
  | MEvict m b : (binDate b <= d_now (m_db m))%Z ->
      mstep None m (mkSys (setSets (m_db m) (upd (d_sets (m_db m)) b [])) (fun i => forgetProc b (m_procs m i))
                          (m_until m) (m_used m))
  | MExpireLock m : (m_until m <= d_now (m_db m))%Z ->
      mstep None m (withDb m (setLock (m_db m) None))
  (** A process dies or is stopped; the lock stays. *)
  | MDie m i : mstep (Some i) m (withProc m i Out)
  (** commit.go:44, rediscache.go:274-289. *)
  | MAcquire m i k : m_procs m i = Out -> d_lock (m_db m) = None -> ~ In k (m_used m) ->
      mstep (Some i) m (lockFor m i k (CHave k))
  (** certdatabase.go:553-559; commit.go opens the storage for writing (line 40). *)
  | MHasLock m i k : m_procs m i = CHave k ->
      mstep (Some i) m (withProc m i (match d_lock (m_db m) with
                                      | Some k' => if beq k' k then CLocked k else Rel k false
                                      | None => Rel k false
                                      end))
  (** certdatabase.go:561. *)
  | MStorageEpoch m i k : m_procs m i = CLocked k ->
      mstep (Some i) m (withProc m i (CStored k (d_sepoch (m_db m))))
  (** certdatabase.go:566-573. *)
  | MStart m i k se : m_procs m i = CStored k se ->
      mstep (Some i) m (withProc m i (if inStep (d_epoch (m_db m)) se
                                      then CRun (mkCm k (d_epoch (m_db m)) (PLoad [])) else Rel k false))
  (** certdatabase.go:575-637: a step of CommitModel.v; when it was the last, or an
      error, the lock is released. *)
  | MOwn m i c t : m_procs m i = CRun c ->
      own binDate false true (cm_tok c) (setCommit (m_db m) (Some c)) t ->
      mstep (Some i) m (withBoth m (setCommit t None) i
                          (match d_commit t with Some c' => CRun c' | None => Rel (cm_tok c) false end))
  (** rediscache.go:292: GET, and 294: DEL. *)
  | MRelease m i k go : m_procs m i = Rel k go ->
      mstep (Some i) m (withProc m i (match d_lock (m_db m) with
                                      | Some k' => if beq k' k then RelSure k go else if go then Ready else Out
                                      | None => if go then Ready else Out
                                      end))
  (** Either of the two fails, which is ignored. *)
  | MKept m i k go : m_procs m i = Rel k go \/ m_procs m i = RelSure k go ->
      mstep (Some i) m (withProc m i (if go then Ready else Out))
  | MUnlock m i k go : m_procs m i = RelSure k go ->
      mstep (Some i) m (withBoth m (setLock (m_db m) None) i (if go then Ready else Out))
  (** ct-fetch starts: certdatabase.go:89, 94-101, 107. *)
  | MCheck m i : m_procs m i = Out ->
      mstep (Some i) m (withProc m i (EStored (d_sepoch (m_db m))))
  | MCompare m i se : m_procs m i = EStored se ->
      mstep (Some i) m (withProc m i (if inStep (d_epoch (m_db m)) se then Ready else EBehind se))
  | MCoverage m i se : m_procs m i = EBehind se ->
      mstep (Some i) m (withProc m i (match d_cov (m_db m) with Some ls => ELogs se ls | None => Out end))
  (** rediscache.go:325-329; without the lock ct-fetch ends with an error. *)
  | MTake m i k se ls : m_procs m i = ELogs se ls -> d_lock (m_db m) = None -> ~ In k (m_used m) ->
      mstep (Some i) m (lockFor m i k (RKeys k se ls))
  | MTaken m i se ls : m_procs m i = ELogs se ls -> d_lock (m_db m) <> None ->
      mstep (Some i) m (withProc m i Out)
  (** rediscache.go:331: KEYS. *)
  | MKeys m i k se ls todo : m_procs m i = RKeys k se ls ->
      (forall u, In u todo <-> d_logs (m_db m) u <> None) ->
      mstep (Some i) m (withProc m i (RDel k se ls todo))
  (** rediscache.go:336-341. *)
  | MDelete m i k se ls u todo : m_procs m i = RDel k se ls (u :: todo) ->
      mstep (Some i) m (withBoth m (setLogs (m_db m) (upd (d_logs (m_db m)) u None)) i (RDel k se ls todo))
  | MDeleted m i k se ls : m_procs m i = RDel k se ls [] ->
      mstep (Some i) m (withProc m i (RPut k se ls))
  (** rediscache.go:343-348, 227-234. *)
  | MPut m i k se l ls : m_procs m i = RPut k se (l :: ls) ->
      mstep (Some i) m (withBoth m (setLogs (m_db m) (upd (d_logs (m_db m)) (logKey (lg_url (l_log l))) (Some l))) i
                          (RPut k se ls))
  (** rediscache.go:350. *)
  | MSetEpoch m i k se : m_procs m i = RPut k se [] ->
      mstep (Some i) m (withBoth m (setEpoch (m_db m) (se + 1)%N) i (Rel k true))
  (** An error from the cache or from storage: a restoration gives the lock back. *)
  | MFail m i k : holds (m_procs m i) = Some k -> mstep (Some i) m (withProc m i (Rel k false))
  (** ct-fetch ends. *)
  | MEnd m i : m_procs m i = Ready -> mstep (Some i) m (withProc m i Out).

  Inductive msteps : sys -> sys -> Prop :=
  | msteps_refl m : msteps m m
  | msteps_step m n o w : msteps m n -> mstep w n o -> msteps m o.

  (** Runs in which, of all processes, only [i] moves. *)
  Inductive alone (i : nat) : sys -> sys -> Prop :=
  | alone_refl m : alone i m m
  | alone_step m n o w : alone i m n -> w = None \/ w = Some i -> mstep w n o -> alone i m o.

  (** Runs of [i] and nothing else, in which it is nowhere outside a commit or a
      check. *)
  Inductive within (i : nat) : sys -> sys -> Prop :=
  | within_refl m : within i m m
  | within_step m n o : within i m n -> m_procs n i <> Out -> mstep (Some i) n o -> within i m o.
End System.

(** An installation before its first run. *)
Definition emptySys (now : Z) : sys := mkSys (emptyDb now) (fun _ => Out) 0 [].
