(** * Model of the health report of ct-fetch
    /repo/go/cmd/ct-fetch/ct-fetch.go lines 74, 84, 131-181 (the time of the last
    update), 217-269 (insertCTWorker, as far as it touches the ticker), 505-535 (the
    handler of /health).

    Simplifications: times are nanoseconds of one monotonic clock; the ticker of the
    Go runtime fires on time; a duration of more than 292 years, at which time.Since
    stops growing, does not occur; of the answer only the status is modelled. *)
From Verif Require Import Base.

(** What happens in the process, in the order of the mutex of lastUpdateTime. *)
Inductive hevent :=
(** A job of a download loop returns, with an error or without (lines 131-155). *)
| HJob (ok : bool)
(** The insert worker takes a message off the queue (line 229). *)
| HTake
(** The insert worker could not store, and has waited for the ticker (lines 254-267). *)
| HRetry.

(** [h_last]: lastUpdateTime, [None] for the zero time; [h_seen]: when the insert
    worker last received from the ticker, at first when it was made. *)
Record health := mkHealth { h_last : option Z; h_seen : Z }.

Section Ticker.
  (** Lines 221-223: when the ticker was made, and its period of 15 to 30 seconds. *)
  Variables start period : Z.

  Definition ticksAt (t : Z) : Z := (t - start) / period.
  (** The channel of a ticker holds one tick: it has one if the ticker fired since the
      last receipt. *)
  Definition tickWaiting (s : health) (t : Z) : bool := (ticksAt (h_seen s) <? ticksAt t)%Z.

  (** Lines 155, 170-175 (RegisterUpdate), 230-235, 263-266. *)
  Definition hstep (e : Z * hevent) (s : health) : health :=
    let t := fst e in
    match snd e with
    | HJob true => mkHealth (Some t) (h_seen s)
    | HJob false => s
    | HTake => if tickWaiting s t then mkHealth (Some t) t else s
    | HRetry => mkHealth (h_last s) t
    end.

  (** The process after the events [h], oldest first. *)
  Definition hrun (h : list (Z * hevent)) : health := fold_left (fun s e => hstep e s) h (mkHealth None start).

  (** Which sequences of events there are: time does not go back, and the insert
      worker waits for a tick. *)
  Fixpoint hpossible (s : health) (now : Z) (h : list (Z * hevent)) : Prop :=
    match h with
    | [] => True
    | e :: h' => (now <= fst e)%Z /\ (snd e = HRetry -> tickWaiting s (fst e) = true) /\ hpossible (hstep e s) (fst e) h'
    end.
End Ticker.

(** An int64 after an operation that may overflow. *)
Definition int64 (x : Z) : Z := let m := (x mod 2 ^ 64)%Z in if (m <? 2 ^ 63)%Z then m else (m - 2 ^ 64)%Z.

(** Line 520; pollingDelay is an unsigned 64-bit number of seconds. *)
Definition evaluationTime (pollingDelay : N) : Z := int64 (int64 (2 * int64 (Z.of_N pollingDelay)) * 1000000000)%Z.

(** Lines 507-534: the status of an answer given at [now]. *)
Definition healthStatus (pollingDelay : N) (now : Z) (s : health) : N :=
  match h_last s with
  | None => 503%N
  | Some t => if (evaluationTime pollingDelay <? now - t)%Z then 500%N else 200%N
  end.
