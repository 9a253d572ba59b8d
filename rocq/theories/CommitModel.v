(** * Model of a commit: moving serials from the cache to storage
    /repo/go/storage/certdatabase.go lines 211-254 and 401-637,
    /repo/go/storage/rediscache.go lines 83-177 and 227-272.

    A small-step model: a commit is a sequence of separate accesses to the cache
    (Redis) and to files, and between any two of them other processes may insert
    certificates, save log states, let time pass, and the committing process may
    die.  The goroutines of a commit, one per expiry bin, interleave freely.

    Simplifications, all stated here once:
    - a bin (issuer and expiry hour) is named by its cache key; that key, file and
      accessor identify the same pair is C26;
    - a serial file is the list of serials it holds; that writing and reading
      agree is C16, and the rename of a temporary file is one step;
    - Redis set and key scans return every element present from start to end of
      the scan, possibly more that were present for a part of it;
    - the commit lock is a cell that holds a token; it is assumed not to expire
      while a commit runs (four hours; Commit checks it only at its start); several
      processes and the expiry of the lock are in CommitSystem.v;
    - an error anywhere in a commit ends it, like a crash ([SAbort]); failed
      removals from the cache, which the code only logs, are steps not taken. *)
From Verif Require Import Base MerkleModel SerialModel TimeModel.

(** A saved log state together with what it stands for: the certificate entries
    of the log's range, each with its bin.  The second component is ghost state:
    no step looks at it. *)
Record lstate := mkLst { l_log : ctLog; l_claims : list (bytes * bytes) }.

(** State of the goroutine for one bin, certdatabase.go:401-462. *)
Inductive tstate :=
| TNew
(** lines 402, 664-683: reading the set; entries present at the start, entries
    returned so far. *)
| TScan (must seen : list bytes)
(** lines 407-424 done: the covered entries. *)
| TRead (covered : list bytes)
(** lines 426-447 done: the merged list is in the temporary file. *)
| TWrite (covered out : list bytes)
(** lines 454-459: removal from the cache, batch by batch. *)
| TRemove (todo : list bytes)
| TDone.

(** Where a commit is, certdatabase.go:526-637. *)
Inductive phase :=
(** line 575: reading log states. *)
| PLoad (acc : list lstate)
(** line 465: listing the bins; [must] were present at the start of the scan. *)
| PScan (acc : list lstate) (must : list bytes)
(** lines 472-502. *)
| PMove (acc : list lstate) (tasks : list (bytes * tstate))
(** line 601. *)
| PExpire
(** line 624. *)
| PEpoch
(** line 630. *)
| PFinish.

(** A running commit: the token it was called with, the cache epoch it read, and
    where it is. *)
Record cm := mkCm { cm_tok : bytes; cm_epoch : N; cm_phase : phase }.

Record db := mkDb {
  d_sets : bytes -> list bytes;        (* cache: serial sets by key *)
  d_logs : bytes -> option lstate;     (* cache: log states by log key *)
  d_epoch : N;                         (* cache: epoch *)
  d_lock : option bytes;               (* cache: commit lock *)
  d_files : bytes -> list bytes;       (* storage: serial files by key *)
  d_cov : option (list lstate);        (* storage: coverage file *)
  d_sepoch : N;                        (* storage: epoch file, 0 if missing *)
  d_now : Z;
  d_commit : option cm;
  d_inserted : list (bytes * bytes)    (* ghost: everything ever inserted *)
}.

Definition upd {V} (f : bytes -> V) (k : bytes) (v : V) : bytes -> V :=
  fun x => if beq x k then v else f x.

(** certdatabase.go:571 and 99: the epochs are in step. *)
Definition inStep (cacheEpoch storageEpoch : N) : bool :=
  (cacheEpoch =? storageEpoch + 1)%N || ((cacheEpoch =? 0)%N && (storageEpoch =? 0)%N).

Definition cutoffs (acc : list lstate) : list (bytes * N) := newCoverageCutoffMap (map l_log acc).

(** Replacing the state of the [i]-th goroutine. *)
Fixpoint setTask (i : nat) (t : tstate) (l : list (bytes * tstate)) : list (bytes * tstate) :=
  match l, i with
  | [], _ => []
  | (b, _) :: l', O => (b, t) :: l'
  | p :: l', S i' => p :: setTask i' t l'
  end.

(** When a bin vanishes from the cache, scans in progress owe nothing for it. *)
Definition forgetTask (b : bytes) (p : bytes * tstate) : bytes * tstate :=
  match snd p with
  | TScan must seen => if beq (fst p) b then (fst p, TScan [] seen) else p
  | _ => p
  end.
Definition forget (b : bytes) (c : cm) : cm :=
  match cm_phase c with
  | PScan acc must => mkCm (cm_tok c) (cm_epoch c) (PScan acc (filter (fun x => negb (beq x b)) must))
  | PMove acc tasks => mkCm (cm_tok c) (cm_epoch c) (PMove acc (map (forgetTask b) tasks))
  | _ => c
  end.

Definition isDone (p : bytes * tstate) : bool := match snd p with TDone => true | _ => false end.

(** The state with other cache sets, log states, files, coverage or commit. *)
Definition setSets (s : db) v :=
  mkDb v (d_logs s) (d_epoch s) (d_lock s) (d_files s) (d_cov s) (d_sepoch s) (d_now s) (d_commit s) (d_inserted s).
Definition setLogs (s : db) v :=
  mkDb (d_sets s) v (d_epoch s) (d_lock s) (d_files s) (d_cov s) (d_sepoch s) (d_now s) (d_commit s) (d_inserted s).
Definition setEpoch (s : db) v :=
  mkDb (d_sets s) (d_logs s) v (d_lock s) (d_files s) (d_cov s) (d_sepoch s) (d_now s) (d_commit s) (d_inserted s).
Definition setLock (s : db) v :=
  mkDb (d_sets s) (d_logs s) (d_epoch s) v (d_files s) (d_cov s) (d_sepoch s) (d_now s) (d_commit s) (d_inserted s).
Definition setFiles (s : db) v :=
  mkDb (d_sets s) (d_logs s) (d_epoch s) (d_lock s) v (d_cov s) (d_sepoch s) (d_now s) (d_commit s) (d_inserted s).
Definition setCov (s : db) v :=
  mkDb (d_sets s) (d_logs s) (d_epoch s) (d_lock s) (d_files s) v (d_sepoch s) (d_now s) (d_commit s) (d_inserted s).
Definition setSEpoch (s : db) v :=
  mkDb (d_sets s) (d_logs s) (d_epoch s) (d_lock s) (d_files s) (d_cov s) v (d_now s) (d_commit s) (d_inserted s).
Definition setNow (s : db) v :=
  mkDb (d_sets s) (d_logs s) (d_epoch s) (d_lock s) (d_files s) (d_cov s) (d_sepoch s) v (d_commit s) (d_inserted s).
Definition setCommit (s : db) v :=
  mkDb (d_sets s) (d_logs s) (d_epoch s) (d_lock s) (d_files s) (d_cov s) (d_sepoch s) (d_now s) v (d_inserted s).
Definition setInserted (s : db) v :=
  mkDb (d_sets s) (d_logs s) (d_epoch s) (d_lock s) (d_files s) (d_cov s) (d_sepoch s) (d_now s) (d_commit s) v.
Definition setPhase (s : db) (k : bytes) (e : N) (p : phase) : db := setCommit s (Some (mkCm k e p)).

Section Commit.
  (** Expiry hour of a bin (start of the hour, [ExpireTime] of types.go:488). *)
  Variable binDate : bytes -> Z.
  (** certdatabase.go:66: storage opened read-only. *)
  Variable readOnly : bool.
  (** [true]: the key listing returns no key twice. *)
  Variable uniq : bool.
  (** [true]: the cache may lose everything. *)
  Variable lossy : bool.

  (** ** Other processes, and time *)
  Inductive ext : db -> db -> Prop :=
  (** rediscache.go:83-101: SAdd of one member. *)
  | XInsert s b e :
      ext s (setInserted (setSets s (upd (d_sets s) b (e :: d_sets s b))) ((b, e) :: d_inserted s))
  (** rediscache.go:227-234: ct-fetch saves a log state, all of whose
      certificates it has stored before (C08). *)
  | XSaveLog s k l :
      (forall x, In x (l_claims l) -> In x (d_inserted s)) ->
      ext s (setLogs s (upd (d_logs s) k (Some l)))
  (** rediscache.go:336-341 (restore) and 206, 219 (migration). *)
  | XDelLog s k : ext s (setLogs s (upd (d_logs s) k None))
  | XTick s t : (d_now s <= t)%Z -> ext s (setNow s t)
  (** rediscache.go:90 ExpireAt: Redis drops the set from that time on. *)
  | XEvict s b : (binDate b <= d_now s)%Z ->
      ext s (setCommit (setSets s (upd (d_sets s) b [])) (option_map (forget b) (d_commit s)))
  (** rediscache.go:274-289: SETNX. *)
  | XAcquire s k : d_lock s = None -> ext s (setLock s (Some k))
  (** rediscache.go:291-296, called by the holder when its commit is over; and
      expiry of the lock, assumed not to happen during a commit. *)
  | XUnlock s : d_commit s = None -> ext s (setLock s None)
  (** certdatabase.go:88-114, rediscache.go:350: ct-fetch starts, finds the epochs
      out of step, gets the lock and resets the cache epoch (the log states it
      deletes and writes before that are [XDelLog] and [XSaveLog] steps); here in one
      step, taken apart in CommitSystem.v. *)
  | XRestore s :
      d_commit s = None -> d_lock s = None -> inStep (d_epoch s) (d_sepoch s) = false ->
      ext s (setEpoch s (d_sepoch s + 1)%N)
  (** The cache is lost. *)
  | XLoss s : lossy = true ->
      ext s (setSets (setLogs (setEpoch (setLock s None) 0) (fun _ => None)) (fun _ => []))
  (** After a loss: ct-fetch restores a log state from the coverage file. *)
  | XRestoreLog s k l ls : lossy = true -> d_cov s = Some ls -> In l ls ->
      ext s (setLogs s (upd (d_logs s) k (Some l)))
  (** After a loss: ct-fetch continues from a log state in the cache, adding
      certificates it has stored since (C06, C08). *)
  | XContinueLog s k l l' : lossy = true -> d_logs s k = Some l ->
      (forall x, In x (l_claims l') -> In x (l_claims l) \/ In x (d_inserted s)) ->
      ext s (setLogs s (upd (d_logs s) k (Some l'))).

  (** ** The process that called Commit with token [k] *)
  Inductive own (k : bytes) : db -> db -> Prop :=
  (** The process dies, or returns an error. *)
  | SAbort s e p : d_commit s = Some (mkCm k e p) -> own k s (setCommit s None)
  (** certdatabase.go:549-573: the guards. *)
  | SStart s : d_commit s = None -> readOnly = false -> d_lock s = Some k ->
      inStep (d_epoch s) (d_sepoch s) = true ->
      own k s (setPhase s k (d_epoch s) (PLoad []))
  (** rediscache.go:259-269: one log state is read. *)
  | SLoad s e acc u l : d_commit s = Some (mkCm k e (PLoad acc)) -> d_logs s u = Some l ->
      own k s (setPhase s k e (PLoad (acc ++ [l])))
  (** certdatabase.go:465: the listing of bins starts; [must] are the keys present. *)
  | SScanStart s e acc must : d_commit s = Some (mkCm k e (PLoad acc)) ->
      (forall b, d_sets s b <> [] -> In b must) ->
      own k s (setPhase s k e (PScan acc must))
  (** The listing ends. *)
  | SScanEnd s e acc must bins : d_commit s = Some (mkCm k e (PScan acc must)) ->
      (forall b, In b must -> In b bins) ->
      (uniq = true -> NoDup bins) ->
      own k s (setPhase s k e (PMove acc (map (fun b => (b, TNew)) bins)))
  (** certdatabase.go:402: a goroutine starts reading its set. *)
  | STaskScan s e acc tasks i b : d_commit s = Some (mkCm k e (PMove acc tasks)) ->
      nth_error tasks i = Some (b, TNew) ->
      own k s (setPhase s k e (PMove acc (setTask i (TScan (d_sets s b) []) tasks)))
  (** Redis returns one more element. *)
  | STaskSee s e acc tasks i b must seen x : d_commit s = Some (mkCm k e (PMove acc tasks)) ->
      nth_error tasks i = Some (b, TScan must seen) -> In x (d_sets s b) ->
      own k s (setPhase s k e (PMove acc (setTask i (TScan must (x :: seen)) tasks)))
  (** certdatabase.go:403-424: the scan is complete; nothing to do for an empty
      set, otherwise the covered entries are kept. *)
  | STaskCovered s e acc tasks i b must seen : d_commit s = Some (mkCm k e (PMove acc tasks)) ->
      nth_error tasks i = Some (b, TScan must seen) ->
      (forall x, In x must -> In x seen) ->
      own k s (setPhase s k e (PMove acc (setTask i
        (match seen with
         | [] => TDone
         | _ => TRead (filter (isCovered (cutoffs acc)) seen)
         end) tasks)))
  (** certdatabase.go:426-447: the stored list is read, merged, written to a
      temporary file. *)
  | STaskMerge s e acc tasks i b covered : d_commit s = Some (mkCm k e (PMove acc tasks)) ->
      nth_error tasks i = Some (b, TRead covered) ->
      own k s (setPhase s k e (PMove acc (setTask i
        (TWrite covered (dedup (d_files s b ++ map asSerial covered))) tasks)))
  (** certdatabase.go:449: the file is replaced. *)
  | STaskReplace s e acc tasks i b covered out : d_commit s = Some (mkCm k e (PMove acc tasks)) ->
      nth_error tasks i = Some (b, TWrite covered out) ->
      own k s (setPhase (setFiles s (upd (d_files s) b out)) k e
                 (PMove acc (setTask i (TRemove covered) tasks)))
  (** rediscache.go:103-117: one batch [gone] of entries is removed. *)
  | STaskRemove s e acc tasks i b gone todo : d_commit s = Some (mkCm k e (PMove acc tasks)) ->
      nth_error tasks i = Some (b, TRemove (gone ++ todo)) ->
      own k s (setPhase (setSets s (upd (d_sets s) b
                   (filter (fun x => negb (existsb (beq x) gone)) (d_sets s b)))) k e
                 (PMove acc (setTask i (TRemove todo) tasks)))
  (** certdatabase.go:457-461: a failed removal is only logged. *)
  | STaskDone s e acc tasks i b todo : d_commit s = Some (mkCm k e (PMove acc tasks)) ->
      nth_error tasks i = Some (b, TRemove todo) ->
      own k s (setPhase s k e (PMove acc (setTask i TDone tasks)))
  (** certdatabase.go:596: all bins done, the coverage file is replaced. *)
  | SCover s e acc tasks : d_commit s = Some (mkCm k e (PMove acc tasks)) ->
      forallb isDone tasks = true ->
      own k s (setPhase (setCov s (Some acc)) k e PExpire)
  (** certdatabase.go:239-241: one file of an expired bin is removed. *)
  | SExpire s e b : d_commit s = Some (mkCm k e PExpire) ->
      (binDate b + nsHour - nsMilli < d_now s)%Z ->
      own k s (setFiles s (upd (d_files s) b []))
  (** certdatabase.go:609-622. *)
  | SExpired s e : d_commit s = Some (mkCm k e PExpire) ->
      own k s (setPhase s k e PEpoch)
  (** certdatabase.go:624: INCR. *)
  | SNextEpoch s e : d_commit s = Some (mkCm k e PEpoch) ->
      own k s (setPhase (setEpoch s (d_epoch s + 1)%N) k e PFinish)
  (** certdatabase.go:630: the epoch file is replaced; the commit returns. *)
  | SFinish s e : d_commit s = Some (mkCm k e PFinish) ->
      own k s (setCommit (setSEpoch s e) None).

  Inductive step : db -> db -> Prop :=
  | step_ext s t : ext s t -> step s t
  | step_own k s t : own k s t -> step s t.

  Inductive steps : db -> db -> Prop :=
  | steps_refl s : steps s s
  | steps_step s t u : steps s t -> step t u -> steps s u.

  (** Runs of one committing process, nothing else happening. *)
  Inductive owns (k : bytes) : db -> db -> Prop :=
  | owns_refl s : owns k s s
  | owns_step s t u : owns k s t -> own k t u -> owns k s u.
End Commit.

(** certdatabase.go:549-573: what Commit answers before it changes anything; the
    step [SStart] is taken exactly when it accepts. *)
Inductive refusal := RefReadOnly | RefNoLock | RefEpochs.
Definition commitGuard (readOnly : bool) (token : bytes) (s : db) : N + refusal :=
  if readOnly then inr RefReadOnly
  else if negb (match d_lock s with Some k => beq k token | None => false end) then inr RefNoLock
  else if negb (d_epoch s =? d_sepoch s + 1)%N && negb ((d_epoch s =? 0)%N && (d_sepoch s =? 0)%N)
  then inr RefEpochs
  else inl (d_epoch s).

(** An installation before its first run. *)
Definition emptyDb (now : Z) : db :=
  mkDb (fun _ => []) (fun _ => None) 0 None (fun _ => []) None 0 now None [].
