(** * Enrolment of logs in ct-fetch, and the life of its goroutines (/repo/go/cmd/ct-fetch/ct-fetch.go) *)
From Verif Require Import Base.

(** types.go:109-117 (CTLogMetadata), without the fields that play no role here (description, key, mmd) *)
Record logrec := mkLog { lId : bytes; lEnrolled : bool; lUrl : bytes; lTiled : bool }.

(** A source of log records: an element of the local setting (ct-fetch.go:471-483), a list fetched from Remote Settings, a fetch that fails in any way (ct-fetch.go:336-376). *)
Inductive source := Local (r : logrec) | Fetched (l : list logrec) | FetchFailed.
(** The records gone through in one critical section.  A local record that is not enrolled is skipped (ct-fetch.go:479); [Enroll] (ct-fetch.go:313-322) treats the others as ct-fetch.go:381-397 does. *)
Definition batch (x : source) : list logrec :=
  match x with
  | Local r => if lEnrolled r then [r] else []
  | Fetched l => l
  | FetchFailed => []
  end.

(** ct-fetch.go:381-397, one iteration: the new metadata, and the log to send on NewChan *)
Inductive change := Kept | Dropped | Added.
Definition oneRecord (meta : list (bytes * logrec)) (r : logrec) : list (bytes * logrec) * change :=
  match alookup (lId r) meta with
  | Some _ => if negb (lEnrolled r) then (aremove (lId r) meta, Dropped) else (meta, Kept)
  | None => if lEnrolled r then (aset (lId r) r meta, Added) else (meta, Kept)
  end.

(** The goroutine of one log: started by the loop of ct-fetch.go:464-468 but not yet run; in Migrate; before the enrolment check; in a job; returned. *)
Inductive phase := Spawned | Migrating | Checking | Working | Gone.
(** The main goroutine: in enrolledLogs.Wait; in DownloaderWaitGroup.Wait; past close(entryChan); exited; the process has panicked. *)
Inductive mainPhase := WaitEnrolled | WaitDownloads | Closed | Exited | Panicked.
(** What happened, for the statements only. *)
Inductive event := Enrolled (id : bytes) | Unenrolled (id : bytes) | Started (id : bytes) | JobBegun (id : bytes) | JobEnded (id : bytes) (ok : bool) | WaitOver.

Record state := mkState {
  script : list source;                  (* what is still to come *)
  current : list logrec;                 (* rest of the critical section in progress *)
  offered : option logrec;               (* blocked in NewChan <- ctLog, holding the mutex *)
  metadata : list (bytes * logrec);
  finalized : bool;
  workers : list (logrec * phase);
  main : mainPhase;
  cancelled : bool;
  trace : list event                     (* newest first *)
}.
Definition start (l : list source) : state := mkState l [] None [] false [] WaitEnrolled false [].

(** The mutex is held while a batch is gone through. *)
Definition unlocked (s : state) : bool := match current s, offered s with [], None => true | _, _ => false end.
(** DownloaderWaitGroup: Add(1) is the first thing the goroutine does, Done the last (ct-fetch.go:95-96). *)
Definition registered (p : phase) : bool := match p with Migrating | Checking | Working => true | _ => false end.
Definition counter (s : state) : nat := length (filter (fun w => registered (snd w)) (workers s)).
Fixpoint setNth {A} (i : nat) (x : A) (l : list A) : list A :=
  match l, i with
  | [], _ => []
  | _ :: l', O => x :: l'
  | y :: l', S i' => y :: setNth i' x l'
  end.

Inductive choice :=
  | Next                                 (* the enrolling goroutine goes on to the next source, or finishes *)
  | Stop                                 (* it leaves its loop because of a signal *)
  | Process                              (* it goes through one record *)
  | Receive                              (* the loop of ct-fetch.go:464-468 receives and starts a goroutine *)
  | Register (i : nat)                   (* goroutine i runs, Add(1) *)
  | Migrated (i : nat) (ok : bool)       (* Migrate returns *)
  | Check (i : nat)                      (* IsEnrolled *)
  | Finish (i : nat) (ok : bool)         (* the job returns *)
  | SendEntry (i : nat)                  (* the job sends on entryChan *)
  | Cancel                               (* a signal *)
  | Main.                                (* the main goroutine *)

Section Step.
  Variable runForever : bool.

  Definition setWorker (i : nat) (r : logrec) (p : phase) (ev : list event) (s : state) : state :=
    mkState (script s) (current s) (offered s) (metadata s) (finalized s) (setNth i (r, p) (workers s)) (main s) (cancelled s) (ev ++ trace s).

  (** One step of one goroutine; [None] if it cannot take it.  Network, database and clock only decide which steps happen and how jobs end. *)
  Definition step (c : choice) (s : state) : option state :=
    match main s with
    | Exited | Panicked => None
    | _ =>
    match c with
    | Next =>
        (* ct-fetch.go:402-424 and 470-500: between two critical sections *)
        if unlocked s && negb (finalized s) then
          match script s with
          | x :: rest => Some (mkState rest (batch x) None (metadata s) false (workers s) (main s) (cancelled s) (trace s))
          | [] => Some (mkState [] [] None (metadata s) true (workers s) (main s) (cancelled s) (trace s))
          end
        else None
    | Stop =>
        if unlocked s && negb (finalized s) && cancelled s
        then Some (mkState (script s) [] None (metadata s) true (workers s) (main s) (cancelled s) (trace s)) else None
    | Process =>
        match current s, offered s with
        | r :: rest, None =>
            let (meta, ch) := oneRecord (metadata s) r in
            Some (mkState (script s) rest (match ch with Added => Some r | _ => None end) meta (finalized s) (workers s) (main s) (cancelled s)
                    (match ch with Added => [Enrolled (lId r)] | Dropped => [Unenrolled (lId r)] | Kept => [] end ++ trace s))
        | _, _ => None
        end
    | Receive =>
        match offered s with
        | Some r => Some (mkState (script s) (current s) None (metadata s) (finalized s) (workers s ++ [(r, Spawned)]) (main s) (cancelled s) (Started (lId r) :: trace s))
        | None => None
        end
    | Register i =>
        match nth_error (workers s) i with
        | Some (r, Spawned) => Some (setWorker i r Migrating [] s)
        | _ => None
        end
    | Migrated i ok =>
        (* ct-fetch.go:98-100 *)
        match nth_error (workers s) i with
        | Some (r, Migrating) => Some (setWorker i r (if ok then Checking else Gone) [] s)
        | _ => None
        end
    | Check i =>
        (* ct-fetch.go:109-112 *)
        match nth_error (workers s) i with
        | Some (r, Checking) =>
            if unlocked s then
              match alookup (lId r) (metadata s) with
              | Some _ => Some (setWorker i r Working [JobBegun (lId r)] s)
              | None => Some (setWorker i r Gone [] s)
              end
            else None
        | _ => None
        end
    | Finish i ok =>
        (* ct-fetch.go:114-167: an error ends the goroutine, so does the first job unless ct-fetch runs forever, and a signal *)
        match nth_error (workers s) i with
        | Some (r, Working) => Some (setWorker i r (if ok && runForever && negb (cancelled s) then Checking else Gone) [JobEnded (lId r) ok] s)
        | _ => None
        end
    | SendEntry i =>
        (* sending on a closed channel panics; before that it changes nothing here *)
        match nth_error (workers s) i, main s with
        | Some (r, Working), Closed => Some (mkState (script s) (current s) (offered s) (metadata s) (finalized s) (workers s) Panicked (cancelled s) (trace s))
        | _, _ => None
        end
    | Cancel => if cancelled s then None else Some (mkState (script s) (current s) (offered s) (metadata s) (finalized s) (workers s) (main s) true (trace s))
    | Main =>
        (* ct-fetch.go:543-554, 183-196; waiting for the database goroutine, which ends once the channel is closed, is left out *)
        let go m ev := Some (mkState (script s) (current s) (offered s) (metadata s) (finalized s) (workers s) m (cancelled s) (ev ++ trace s)) in
        match main s with
        | WaitEnrolled => if finalized s then go WaitDownloads [] else None
        | WaitDownloads => if (counter s =? 0)%nat then go Closed [WaitOver] else None
        | Closed => go Exited []
        | _ => None
        end
    end
    end.
  Fixpoint run (cs : list choice) (s : state) : option state :=
    match cs with
    | [] => Some s
    | c :: cs' => match step c s with Some s' => run cs' s' | None => None end
    end.
End Step.
