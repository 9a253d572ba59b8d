(** * A client of a Remote Settings collection
    /repo/moz_kinto_publisher/main.py: class PublisherClient (lines 181-238) and the
    calls of kinto_http.Client used by the script.

    One collection is modelled at a time: its records, its review status, and the
    reviews asked for.  A run of the script is a [prog]: the calls it makes, and
    what it does with each answer.  Any call may fail, with or without effect on
    the server, and the process may die at any call; [run] takes a script of such
    faults.  Simplifications: each call is atomic (the retries inside kinto_http
    are part of the call); nobody else writes to the collection during a run; the
    server lists records in some fixed order that is a function of the records. *)
From Verif Require Import Base.

(** Exceptions, as far as the script distinguishes them. *)
Inductive exn := EKinto | EConsistency | EOther.
(** A Python value or exception. *)
Inductive py (A : Type) := Val (a : A) | Exc (e : exn).
Arguments Val {A} a. Arguments Exc {A} e.
Definition pbind {A B} (x : py A) (f : A -> py B) : py B := match x with Val a => f a | Exc e => Exc e end.

Section Remote.
  (** The attributes of a record, apart from its id and its attachment. *)
  Variable D : Type.
  Record record := mkRecord { r_id : bytes; r_data : D; r_att : option (bytes * bytes) (* file name, contents *) }.

  Record server := mkServer {
    sv_recs : list record;
    sv_wip : bool;                          (* status is "work-in-progress"; set by the server on every change *)
    sv_reviews : list (list record)         (* what was there when a review was asked for, latest first *)
  }.

  Inductive call :=
  | CGet | CCreate (d : D) | CAttach (id name data : bytes) | CUpdate (id : bytes) (d : D) (a : option (bytes * bytes)) | CDelete (id : bytes)
  | CStatus | CReview.
  Inductive reply := RRecs (l : list record) | RId (id : bytes) | RDone | RWip (b : bool) | RExc (e : exn).

  (** The id given to a new record (a UUID), and the order of a listing. *)
  Variable fresh : list record -> bytes.
  Variable listing : list record -> list record.

  Definition hasId (id : bytes) (r : record) : bool := beq id (r_id r).
  Definition change (s : server) (l : list record) : server := mkServer l true (sv_reviews s).

  Definition exec (c : call) (s : server) : reply * server :=
    match c with
    | CGet => (RRecs (listing (sv_recs s)), s)
    | CCreate d => let id := fresh (sv_recs s) in (RId id, change s (mkRecord id d None :: sv_recs s))
    | CAttach id name data =>
        if existsb (hasId id) (sv_recs s) then
          (RDone, change s (map (fun r => if hasId id r then mkRecord (r_id r) (r_data r) (Some (name, data)) else r) (sv_recs s)))
        else (RExc EKinto, s)
    | CUpdate id d a =>
        if existsb (hasId id) (sv_recs s) then
          (RDone, change s (map (fun r => if hasId id r then mkRecord (r_id r) d a else r) (sv_recs s)))
        else (RDone, change s (mkRecord id d a :: sv_recs s))
    | CDelete id =>
        if existsb (hasId id) (sv_recs s) then (RDone, change s (filter (fun r => negb (hasId id r)) (sv_recs s)))
        else (RExc EKinto, s)
    | CStatus => (RWip (sv_wip s), s)
    | CReview => (RDone, mkServer (sv_recs s) false (sv_recs s :: sv_reviews s))
    end.

  Inductive prog (A : Type) :=
  | Ret (a : A)
  | Raise (e : exn)
  | Call (c : call) (k : reply -> prog A).
  Arguments Ret {A} a. Arguments Raise {A} e. Arguments Call {A} c k.

  Fixpoint seq {A B} (p : prog A) (f : A -> prog B) : prog B :=
    match p with
    | Ret a => f a
    | Raise e => Raise e
    | Call c k => Call c (fun r => seq (k r) f)
    end.
  (** [try: p  except KintoException: h] *)
  Fixpoint catchKinto {A} (p : prog A) (h : prog A) : prog A :=
    match p with
    | Ret a => Ret a
    | Raise EKinto => h
    | Raise e => Raise e
    | Call c k => Call c (fun r => catchKinto (k r) h)
    end.
  Definition ofPy {A} (x : py A) : prog A := match x with Val a => Ret a | Exc e => Raise e end.

  (** The calls, with exceptions passed on.  A reply of another kind cannot occur. *)
  Definition getRecords : prog (list record) := Call CGet (fun r => match r with RRecs l => Ret l | RExc e => Raise e | _ => Raise EOther end).
  Definition createRecord (d : D) : prog bytes := Call (CCreate d) (fun r => match r with RId i => Ret i | RExc e => Raise e | _ => Raise EOther end).
  Definition unitCall (c : call) : prog unit := Call c (fun r => match r with RDone => Ret tt | RExc e => Raise e | _ => Raise EOther end).

  (** main.py:213-238 *)
  Definition requestReview : prog unit :=
    Call CStatus (fun r => match r with RWip true => unitCall CReview | RWip false => Ret tt | RExc e => Raise e | _ => Raise EOther end).

  (** What happens to one call: [b] tells whether the server carried it out. *)
  Inductive fault := FOk | FKinto (b : bool) | FOther (b : bool) | FDie (b : bool).
  Inductive outcome (A : Type) := Done (a : A) | Raised (e : exn) | Died.
  Arguments Done {A} a. Arguments Raised {A} e. Arguments Died {A}.

  Definition effect (b : bool) (c : call) (s : server) : server := if b then snd (exec c s) else s.

  Fixpoint run {A} (p : prog A) (s : server) (fs : list fault) : outcome A * server :=
    match p with
    | Ret a => (Done a, s)
    | Raise e => (Raised e, s)
    | Call c k =>
        match fs with
        | [] => run (k (fst (exec c s))) (snd (exec c s)) []
        | FOk :: fs' => run (k (fst (exec c s))) (snd (exec c s)) fs'
        | FKinto b :: fs' => run (k (RExc EKinto)) (effect b c s) fs'
        | FOther b :: fs' => run (k (RExc EOther)) (effect b c s) fs'
        | FDie b :: _ => (Died, effect b c s)
        end
    end.

  (** ** Reasoning about runs
      [wp ok p Q s]: whatever faults among [ok] happen, a run of [p] from [s] ends
      in an outcome and a state that satisfy [Q]. *)
  Fixpoint wp {A} (ok : fault -> Prop) (p : prog A) (Q : outcome A -> server -> Prop) (s : server) : Prop :=
    match p with
    | Ret a => Q (Done a) s
    | Raise e => Q (Raised e) s
    | Call c k =>
        wp ok (k (fst (exec c s))) Q (snd (exec c s)) /\
        (forall b, ok (FKinto b) -> wp ok (k (RExc EKinto)) Q (effect b c s)) /\
        (forall b, ok (FOther b) -> wp ok (k (RExc EOther)) Q (effect b c s)) /\
        (forall b, ok (FDie b) -> Q Died (effect b c s))
    end.

  Lemma wp_run {A} ok (p : prog A) Q : forall s fs, wp ok p Q s -> Forall ok fs -> Q (fst (run p s fs)) (snd (run p s fs)).
  Proof.
    induction p as [a|e|c k IH]; intros s fs W F; cbn [run wp] in *; [exact W|exact W|].
    destruct W as [W1 [W2 [W3 W4]]]. destruct fs as [|[|b|b|b] fs]; try (apply Forall_cons_iff in F; destruct F as [O F]); [| | | |].
    - apply IH; [exact W1|constructor].
    - apply IH; assumption.
    - apply IH; [apply W2; exact O|exact F].
    - apply IH; [apply W3; exact O|exact F].
    - apply W4. exact O.
  Qed.

  Lemma wp_mono {A} ok (p : prog A) (Q Q' : outcome A -> server -> Prop) : (forall o s, Q o s -> Q' o s) -> forall s, wp ok p Q s -> wp ok p Q' s.
  Proof.
    intros M. induction p as [a|e|c k IH]; intros s W; cbn [wp] in *; [auto|auto|].
    destruct W as [W1 [W2 [W3 W4]]]. repeat split; auto.
  Qed.

  Lemma wp_seq {A B} ok (p : prog A) (f : A -> prog B) Q : forall s,
    wp ok p (fun o s' => match o with Done a => wp ok (f a) Q s' | Raised e => Q (Raised e) s' | Died => Q Died s' end) s -> wp ok (seq p f) Q s.
  Proof.
    induction p as [a|e|c k IH]; intros s W; cbn [wp seq] in *; [exact W|exact W|].
    destruct W as [W1 [W2 [W3 W4]]]. repeat split; auto.
  Qed.

  Lemma wp_catch {A} ok (p h : prog A) Q : forall s,
    wp ok p (fun o s' => match o with Raised EKinto => wp ok h Q s' | _ => Q o s' end) s -> wp ok (catchKinto p h) Q s.
  Proof.
    induction p as [a|e|c k IH]; intros s W; cbn [wp catchKinto] in *; [exact W| |].
    - destruct e; exact W.
    - destruct W as [W1 [W2 [W3 W4]]]. repeat split; auto.
  Qed.
End Remote.

Arguments mkRecord {D}. Arguments r_id {D}. Arguments r_data {D}. Arguments r_att {D}.
Arguments mkServer {D}. Arguments sv_recs {D}. Arguments sv_wip {D}. Arguments sv_reviews {D}.
Arguments CGet {D}. Arguments CCreate {D}. Arguments CAttach {D}. Arguments CUpdate {D}. Arguments CDelete {D}. Arguments CStatus {D}. Arguments CReview {D}.
Arguments RRecs {D}. Arguments RId {D}. Arguments RDone {D}. Arguments RWip {D}. Arguments RExc {D}.
Arguments hasId {D}. Arguments change {D}. Arguments exec {D}. Arguments effect {D}.
Arguments Ret {D A}. Arguments Raise {D A}. Arguments Call {D A}. Arguments seq {D A B}. Arguments catchKinto {D A}. Arguments ofPy {D A}.
Arguments getRecords {D}. Arguments createRecord {D}. Arguments unitCall {D}. Arguments requestReview {D}.
Arguments Done {A}. Arguments Raised {A}. Arguments Died {A}.
Arguments run {D} fresh listing {A}. Arguments wp {D} fresh listing {A}.
