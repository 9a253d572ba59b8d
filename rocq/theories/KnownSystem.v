(** * Model of aggregate-known beside other processes
    /repo/go/cmd/aggregate-known/aggregate-known.go lines 173-262 and 47-115.

    aggregate-known takes the commit lock, commits, and keeps the lock while it
    reads the coverage file, lists the serial files and reads them; the lock is
    given back by a deferred call at its end.  Its commit is that of a process of
    CommitSystem.v, which stays before the release (phase [Rel]) until everything is
    read.  KnownModel.v has what the workers write; here is what they read, and
    when, while other processes act.

    Simplifications: which file each list goes to, and the order of the dates of one
    issuer, are left to KnownModel.v; the workers read the listed bins in any
    order, each bin in one step (the file is opened once and replaced by renaming);
    a bin that has no file is one without serials. *)
From Verif Require Import Base MerkleModel SerialModel TimeModel StoreModel CommitModel CommitSystem.

(** Where the run is after its commit. *)
Inductive kn :=
(** line 183: Commit returned no error. *)
| KCommitted
(** lines 186-203: the log list is written. *)
| KLogged (logs : list lstate)
(** certdatabase.go:168-209: the listing has started, [must] had files then. *)
| KListing (logs : list lstate) (must : list bytes)
(** lines 47-115, 239-257: the bins [todo] are to be read, [out] is written. *)
| KReading (logs : list lstate) (todo : list bytes) (out : list (bytes * list bytes))
(** The run ends with an error, or by a signal. *)
| KFailed.

Section Known.
  Variable binDate : bytes -> Z.
  (** lines 222-225: the issuer of the bin is in the program. *)
  Variable enrolled : bytes -> bool.

  (** What the run does while the installation is in state [s]. *)
  Inductive kmove (s : db) : kn -> kn -> Prop :=
  | KLogs logs : d_cov s = Some logs -> kmove s KCommitted (KLogged logs)
  | KList logs must : (forall b, d_files s b <> [] -> In b must) -> kmove s (KLogged logs) (KListing logs must)
  (** A file that was there all the time is listed. *)
  | KListed logs must bins : (forall b, In b must -> d_files s b <> [] -> In b bins) ->
      kmove s (KListing logs must) (KReading logs (filter enrolled bins) [])
  (** lines 82-87 *)
  | KSkip logs a b c out : (binDate b + nsHour - nsMilli < d_now s)%Z ->
      kmove s (KReading logs (a ++ b :: c) out) (KReading logs (a ++ c) out)
  (** lines 90-103 *)
  | KRead logs a b c out : (d_now s <= binDate b + nsHour - nsMilli)%Z ->
      kmove s (KReading logs (a ++ b :: c) out) (KReading logs (a ++ c) (out ++ [(b, d_files s b)]))
  | KFail k : kmove s k KFailed.

  (** Runs beside other processes.  [hold = Some i]: process [i] is the one that
      committed, it does not move, so that it has not released the lock.
      [hold = None]: anything goes, the lock may be lost. *)
  Inductive krun (prompt : bool) (hold : option nat) : sys * kn -> sys * kn -> Prop :=
  | krun_refl x : krun prompt hold x x
  | krun_world x m n k w : krun prompt hold x (m, k) -> mstep binDate prompt w m n ->
      (forall i, hold = Some i -> w <> Some i) -> krun prompt hold x (n, k)
  | krun_own x m k k' : krun prompt hold x (m, k) -> kmove (m_db m) k k' -> krun prompt hold x (m, k').
End Known.
