(** * Model of waiting for the commit lock
    /repo/go/cmd/aggregate-known/aggregate-known.go lines 126-136, waitForCommitLock, on
    top of the Redis client and server of RetryModel.

    Times are in seconds.  A try begins with a look at the clock; asking for the lock may
    take several attempts of the client library, and other clients act in between.  Not
    modelled: that the random token cannot be made (then nothing is sent either). *)
From Verif Require Import Base RetryModel.
Local Open Scope Z_scope.

(** One turn of the loop: the time of line 128, the token made by line 129 (a new one each
    time), the attempts of the client library and whether the last one brought an answer. *)
Record try := mkTry { tr_look : Z; tr_token : bytes; tr_sent : list attempt; tr_answered : bool }.
(** How it ends: with a token, with the error of line 135, or not yet. *)
Inductive waited := Got (token : bytes) | TimedOut | Waiting.
(** 15*time.Minute, line 128 *)
Definition waitTime : Z := 900.

(** lines 126-136; the second of line 133 is a hypothesis on the times of the tries *)
Fixpoint waitLock (start : Z) (tries : list try) (s : store) : waited * store :=
  match tries with
  | [] => (Waiting, s)
  | x :: tries' =>
      if tr_look x - start <? waitTime then
        let (r, s') := acquire (tr_token x) (tr_sent x) (tr_answered x) s in
        match r with
        | Some k => (Got k, s')
        | None => waitLock start tries' s'
        end
      else (TimedOut, s)
  end.
