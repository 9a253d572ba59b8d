(** * Signing off on a collection
    /repo/containers/scripts/crlite-signoff-tool.py, /repo/containers/scripts/crlite-signoff.sh
    and the review request of /repo/moz_kinto_publisher/main.py (lines 213-238).

    One collection of the Remote Settings server, with any number of processes that
    ask for a review of it or sign off on it, and with people and publishers that
    change it at the same time.  An execution is a list of [action]s in any order:
    the requests of different processes interleave freely.

    The server is not code of /repo.  What is assumed of it is the Kinto protocol:
    a change of the records sets the status to "work-in-progress"; every change of
    the collection object gives it a larger last_modified (a change of the records
    of a collection that is in work already need not); a PATCH with "If-Match" (what
    kinto_http sends when it is given [original=]) is refused unless the collection
    still has the last_modified that was read; "to-sign" makes the server sign the
    records that are there and sets the status to "signed".  In particular the model
    of the server accepts "to-sign" in every status. *)
From Verif Require Import Base.

Definition sWip : bytes := B "work-in-progress".
Definition sToReview : bytes := B "to-review".
Definition sToSign : bytes := B "to-sign".
Definition sSigned : bytes := B "signed".

Section Signoff.
  (** The records of the collection, all together. *)
  Variable R : Type.

  (** What happened to the collection, latest first in [g_log].  [Signed (Some i)] is
      the work of process [i], [Signed None] that of a person. *)
  Inductive event := Changed (r : R) | Review (r : R) | Signed (by_ : option nat) (r : R) | Other (st : bytes).

  (** The collection: records, "status", "last_modified". *)
  Record coll := mkColl { c_recs : R; c_status : option bytes; c_ver : N }.

  (** A change of the records by anybody. *)
  Definition changeRecs (r : R) (d : N) (c : coll) : coll :=
    mkColl r (Some sWip)
      match c_status c with
      | Some st => if beq st sWip then c_ver c + d else c_ver c + 1 + d
      | None => c_ver c + 1 + d
      end%N.

  (** PATCH of the status. *)
  Definition setStatus (st : bytes) (d : N) (c : coll) : coll :=
    mkColl (c_recs c) (Some (if beq st sToSign then sSigned else st)) (c_ver c + 1 + d)%N.
  Definition statusEvent (who : option nat) (st : bytes) (r : R) : event :=
    if beq st sToReview then Review r else if beq st sToSign then Signed who r else Other st.

  (** A process: request_review_of_collection (main.py:213-238) or sign_collection
      (crlite-signoff-tool.py:37-63).  The two differ in the status that they look for
      and the status that they ask for. *)
  Inductive kind := KReview | KSign.
  Definition looksFor (k : kind) : bytes := match k with KReview => sWip | KSign => sToReview end.
  Definition asksFor (k : kind) : bytes := match k with KReview => sToReview | KSign => sToSign end.

  (** Where it is: not started; it has read the collection at last_modified [v], found
      the status it looked for, and may send the PATCH [tries] more times after the
      next (kinto_http's retry=5); or it has ended with an exit status. *)
  Inductive phase := Start | Got (v : N) (tries : nat) | Done (code : N).

  (** What can go wrong with the first request (get_collection; sending it again has no
      effect on the server, so it is one step): nothing; no answer or an error; an answer
      without "data". *)
  Inductive getFault := GOk | GFail | GMalformed.
  (** ... and with the PATCH: nothing; the answer is a server error although (or as) the
      request was (not) applied; the connection breaks. *)
  Inductive patchFault := POk | PError (applied : bool) | PBroken (applied : bool).

  (** crlite-signoff-tool.py:38-55 and main.py:214-231. *)
  Definition afterGet (k : kind) (c : coll) (f : getFault) : phase :=
    match f with
    | GFail => Done 1                                   (* KintoException or a traceback: exit status 1 *)
    | GMalformed => Done 1                              (* "Malformed response from Kinto" *)
    | GOk =>
        match c_status c with
        | None => Done 1                                (* "Malformed response from Kinto" *)
        | Some st => if beq st (looksFor k) then Got (c_ver c) 5 else Done 0
        end
    end.

  (** crlite-signoff-tool.py:56-63 and main.py:232-238: patch_collection(original=...,
      changes=BasicPatch(...)).  Gives the new phase and whether the PATCH was applied. *)
  Definition patchStep (v : N) (tries : nat) (c : coll) (f : patchFault) : phase * bool :=
    let ok := (v =? c_ver c)%N in
    match f with
    | POk => (if ok then Done 0 else Done 1, ok)
    | PError a => (match tries with S n => Got v n | O => Done 1 end, a && ok)
    | PBroken a => (Done 1, a && ok)
    end.

  Record state := mkState { g_coll : coll; g_procs : nat -> phase; g_log : list event }.

  Inductive action :=
  | AChange (r : R) (d : N)                 (* somebody changes the records *)
  | APerson (st : bytes) (d : N)            (* a person sets the status, in the web interface *)
  | AGet (i : nat) (f : getFault)           (* process i reads the collection *)
  | APatch (i : nat) (f : patchFault) (d : N). (* process i sends its PATCH *)

  Variable kinds : nat -> kind.

  Definition setProc (g : nat -> phase) (i : nat) (p : phase) : nat -> phase :=
    fun j => if Nat.eqb j i then p else g j.

  Definition step (a : action) (s : state) : state :=
    match a with
    | AChange r d => mkState (changeRecs r d (g_coll s)) (g_procs s) (Changed r :: g_log s)
    | APerson st d =>
        mkState (setStatus st d (g_coll s)) (g_procs s) (statusEvent None st (c_recs (g_coll s)) :: g_log s)
    | AGet i f =>
        match g_procs s i with
        | Start => mkState (g_coll s) (setProc (g_procs s) i (afterGet (kinds i) (g_coll s) f)) (g_log s)
        | _ => s
        end
    | APatch i f d =>
        match g_procs s i with
        | Got v n =>
            let (p, applied) := patchStep v n (g_coll s) f in
            if applied then
              mkState (setStatus (asksFor (kinds i)) d (g_coll s)) (setProc (g_procs s) i p)
                      (statusEvent (Some i) (asksFor (kinds i)) (c_recs (g_coll s)) :: g_log s)
            else mkState (g_coll s) (setProc (g_procs s) i p) (g_log s)
        | _ => s
        end
    end.

  Definition runs (l : list action) (s : state) : state := fold_left (fun s a => step a s) l s.

  (** Before the first process starts: any collection.  If it is up for review, that is
      the last thing that happened to it. *)
  Definition init (c : coll) : state :=
    mkState c (fun _ => Start)
      match c_status c with Some st => if beq st sToReview then [Review (c_recs c)] else [] | None => [] end.
End Signoff.

Arguments mkColl {R}. Arguments c_recs {R}. Arguments c_status {R}. Arguments c_ver {R}.
Arguments Changed {R}. Arguments Review {R}. Arguments Signed {R}. Arguments Other {R}.
Arguments mkState {R}. Arguments g_coll {R}. Arguments g_procs {R}. Arguments g_log {R}.
Arguments AChange {R}. Arguments APerson {R}. Arguments AGet {R}. Arguments APatch {R}.
Arguments step {R}. Arguments runs {R}. Arguments init {R}. Arguments afterGet {R}. Arguments patchStep {R}.
Arguments changeRecs {R}. Arguments setStatus {R}. Arguments statusEvent {R}.

(** The collections that the tool can be told to sign off on. *)
Inductive target := TIntermediates | TRevocations.

(** crlite-signoff-tool.py:66-112, the command line: the first argument, "--noop", and
    the environment variable KINTO_NOOP (line 31: [bool] of the string, so any value
    but the empty one counts).  [inl code]: the tool ends without a request. *)
Definition toolStart (arg : bytes) (noopFlag : bool) (noopEnv : option bytes) : N + target :=
  let noop := orb noopFlag match noopEnv with Some (_ :: _) => true | _ => false end in
  match (if beq arg (B "cert-revocations") then Some TRevocations
         else if beq arg (B "intermediates") then Some TIntermediates else None) with
  | None => inl 1%N
  | Some t => if noop then inl 0%N else inr t
  end.

(** crlite-signoff.sh: the arguments with which the tool is run one after the other,
    and how the exit status comes about: [Some n], or [None] for "that of the last
    run of the tool".  [size] is what [stat] prints for crlite_db/crlite.filter; if it
    prints nothing, the variable is empty, which counts as 0 in [(( ))].  The script
    does not stop on errors.  Simplification: max_filter_size is a number, and both
    numbers fit in bash's 64 bits. *)
Definition signoffScript (bucket : bytes) (size : option N) (max : N) : list bytes * option N :=
  if orb (beq bucket (B "crlite-filters-prod"))
         (orb (beq bucket (B "crlite-filters-stage")) (beq bucket (B "crlite-filters-dev"))) then
    let filterSize := match size with Some n => n | None => 0%N end in
    if (max <? filterSize)%N then ([B "intermediates"], Some 1%N)
    else ([B "intermediates"; B "cert-revocations"], None)
  else ([], Some 1%N).
