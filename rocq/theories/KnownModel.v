(** * Model of aggregate-known
    /repo/go/cmd/aggregate-known/aggregate-known.go lines 35-263.

    The workers are a transition system; every interleaving of them with each
    other, with a signal and with the clock is a sequence of [kstep].  Storage
    does not change during the run (the program holds the commit lock, C70).  Not
    modelled: telemetry, log messages, flags; the commit itself is in CommitModel,
    the log list file (lines 186-203) in KnownSystem. *)
From Verif Require Import Base MerkleModel SerialModel TimeModel StoreModel.

(** aggregate-known.go:35-39 [knownWorkUnit], without the subject (log only). *)
Record unit_ := mkUnit { ku_issuer : bytes; ku_dates : list expDate }.

(** aggregate-known.go:208-238: the queue.  The capacity is the number of expiry
    dates of the issuers in the program; a send that finds the channel full ends
    the run with an error. *)
Definition capacity (inProgram : bytes -> bool) (l : list (bytes * list expDate)) : nat :=
  list_sum (map (fun x => if inProgram (fst x) then length (snd x) else 0%nat) l).
Fixpoint fill (inProgram : bytes -> bool) (cap : nat) (q : list unit_) (l : list (bytes * list expDate)) : res (list unit_) :=
  match l with
  | [] => Ok q
  | (i, dates) :: l' =>
      if inProgram i then
        if (length q <? cap)%nat then fill inProgram cap (q ++ [mkUnit i dates]) l' else Err
      else fill inProgram cap q l'
  end.
Definition makeQueue (inProgram : bytes -> bool) (l : list (bytes * list expDate)) : res (list unit_) :=
  fill inProgram (capacity inProgram l) [] l.

(** Where a worker is in aggregate-known.go:47-115. *)
Inductive wstate :=
| WStart                                                       (* before MkdirAll, line 50 *)
| WIdle                                                        (* at the receive, line 57 *)
| WWork (u : unit_) (done todo : list expDate) (buf : bytes)   (* at line 74; [buf] was written so far *)
| WDone.

(** [k_lost]: some deferred Flush (line 69) failed; the code does not look. *)
Record kst := mkK {
  k_queue : list unit_; k_workers : list wstate; k_cancelled : bool; k_crashed : bool;
  k_files : list (bytes * bytes); k_lost : bool; k_now : Z }.

Section Known.
  (** The content of a file of the storage, by path. *)
  Variable store : bytes -> option bytes.

  (** certdatabase.go:365-399 for an issuer and date. *)
  Definition readBin (i : bytes) (d : expDate) : res (list bytes) :=
    readSerials (expUnix d) (store (serialFile (expID d) i)).

  (** Workers before, the worker that moves, workers after. *)
  Definition setW (s : kst) (ws : list wstate) : kst :=
    mkK (k_queue s) ws (k_cancelled s) (k_crashed s) (k_files s) (k_lost s) (k_now s).

  Inductive kstep : kst -> kst -> Prop :=
  (* lines 50-55 *)
  | K_mkdir q a b c f l t :
      kstep (mkK q (a ++ WStart :: b) c false f l t) (mkK q (a ++ WIdle :: b) c false f l t)
  | K_mkdirErr q a b c f l t :
      kstep (mkK q (a ++ WStart :: b) c false f l t) (mkK q (a ++ WDone :: b) true false f l t)
  (* lines 57-61: the file is created or truncated *)
  | K_open u q a b c f l t :
      kstep (mkK (u :: q) (a ++ WIdle :: b) c false f l t)
            (mkK q (a ++ WWork u [] (ku_dates u) [] :: b) c false (aset (ku_issuer u) [] f) l t)
  | K_openErr u q a b c f l t :
      kstep (mkK (u :: q) (a ++ WIdle :: b) c false f l t) (mkK q (a ++ WDone :: b) true false f l t)
  (* the channel is closed and empty *)
  | K_closed a b c f l t :
      kstep (mkK [] (a ++ WIdle :: b) c false f l t) (mkK [] (a ++ WDone :: b) c false f l t)
  (* lines 75-79; what was written so far, or less, reaches the file *)
  | K_quit q u dn d td buf n a b f l t :
      kstep (mkK q (a ++ WWork u dn (d :: td) buf :: b) true false f l t)
            (mkK q (a ++ WDone :: b) true false (aset (ku_issuer u) (firstn n buf) f) l t)
  (* lines 82-87 *)
  | K_expired q u dn d td buf a b f l t :
      isExpiredAt d t = true ->
      kstep (mkK q (a ++ WWork u dn (d :: td) buf :: b) false false f l t)
            (mkK q (a ++ WWork u (dn ++ [d]) td buf :: b) false false f l t)
  (* lines 90-103 *)
  | K_bin q u dn d td buf ss a b f l t :
      isExpiredAt d t = false -> readBin (ku_issuer u) d = Ok ss ->
      kstep (mkK q (a ++ WWork u dn (d :: td) buf :: b) false false f l t)
            (mkK q (a ++ WWork u (dn ++ [d]) td (buf ++ writeSerialList (expUnix d) ss) :: b) false false f l t)
  (* a read that fails (whatever the reason), or a write: lines 91-95, 99-103 *)
  | K_binErr q u dn d td buf n a b f l t :
      kstep (mkK q (a ++ WWork u dn (d :: td) buf :: b) false false f l t)
            (mkK q (a ++ WDone :: b) true false (aset (ku_issuer u) (firstn n buf) f) l t)
  (* NewSerialFromHex panics *)
  | K_panic q u dn d td buf a b f l t :
      isExpiredAt d t = false -> readBin (ku_issuer u) d = Panic ->
      kstep (mkK q (a ++ WWork u dn (d :: td) buf :: b) false false f l t)
            (mkK q (a ++ WWork u dn (d :: td) buf :: b) false true f l t)
  (* lines 105-113: all dates done, Flush and Close, then look at the context *)
  | K_finish q u dn buf a b (c : bool) f l t :
      kstep (mkK q (a ++ WWork u dn [] buf :: b) c false f l t)
            (mkK q (a ++ (if c then WDone else WIdle) :: b) c false (aset (ku_issuer u) buf f) l t)
  | K_finishLost q u dn buf n a b (c : bool) f l t :
      kstep (mkK q (a ++ WWork u dn [] buf :: b) c false f l t)
            (mkK q (a ++ (if c then WDone else WIdle) :: b) c false (aset (ku_issuer u) (firstn n buf) f) true t)
  (* lines 146-151 *)
  | K_signal q ws c f l t : kstep (mkK q ws c false f l t) (mkK q ws true false f l t)
  | K_tick q ws c f l t t' : (t <= t')%Z -> kstep (mkK q ws c false f l t) (mkK q ws c false f l t').

  Inductive ksteps (s : kst) : kst -> Prop :=
  | KS_refl : ksteps s s
  | KS_step s1 s2 : ksteps s s1 -> kstep s1 s2 -> ksteps s s2.

  (** aggregate-known.go:206-262.  [l] is what GetIssuerAndDatesFromStorage
      returns, in any order.  [kreturn s r]: the run ends, [r] tells whether the
      error is nil. *)
  Definition kinit (threads : nat) (q : list unit_) (files : list (bytes * bytes)) (now : Z) : kst :=
    mkK q (repeat WStart threads) false false files false now.
  Definition kended (s : kst) : Prop := k_crashed s = false /\ Forall (fun w => w = WDone) (k_workers s).
  Definition kok (s : kst) : bool := negb (k_cancelled s).
End Known.
