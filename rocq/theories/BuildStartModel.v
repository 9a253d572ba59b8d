(** * The start of the filter builder: its checks and its output directory
    /repo/rust-create-cascade/src/main.rs, main (lines 710-785, and 819-932 as far as
    files are written).

    The contents of the filters are the business of FilterModel.v.  Here: whether the
    builder starts at all, and what becomes of the files in the output directory.
    The output directory is the list of its entries; "delta" is an entry too (its
    contents are the files in it).  Simplifications: the output directory does not
    overlap with the inputs; [exists()] does not fail. *)
From Verif Require Import Base.

(** The entries of the output directory that the builder makes (main.rs:732-738). *)
Definition nFilter : bytes := B "filter".
Definition nStash : bytes := B "filter.stash".
Definition nRevset : bytes := B "revset.bin".
Definition nDelta : bytes := B "delta".
Definition nDeltaFilter : bytes := B "filter.delta".
Definition nReasons : bytes := B "reason_codes.csv".

Section Builder.
  (** The contents of an entry, and those of an empty directory. *)
  Variable C : Type.
  Variable empty : C.
  Definition entries := list (bytes * C).

  Definition get (n : bytes) (d : entries) : option C := option_map snd (find (fun e => beq n (fst e)) d).
  Definition has (n : bytes) (d : entries) : bool := existsb (fun e => beq n (fst e)) d.
  Definition put (n : bytes) (c : C) (d : entries) : entries := (n, c) :: filter (fun e => negb (beq n (fst e))) d.

  Record args := mkArgs { a_clobber : bool; a_clubcard : bool }.
  (** What is there before: the inputs, the output directory. *)
  Record disk := mkDisk { d_known : bool; d_revoked : bool; d_ctlogs : bool; d_out : option entries }.
  (** What the file system refuses: removing the output directory ([Some keep]: it fails,
      and these entries are left), making it, making "delta". *)
  Record trouble := mkTrouble { t_remove : option (bytes -> bool); t_mkOut : bool; t_mkDelta : bool }.

  (** main.rs:740-752 *)
  Definition inputsMissing (a : args) (d : disk) : bool :=
    orb (negb (d_known d)) (orb (negb (d_revoked d)) (andb (a_clubcard a) (negb (d_ctlogs d)))).

  (** main.rs:754-774; the flag is [err] *)
  Definition clobberStep (a : args) (t : trouble) (o : option entries) : bool * option entries :=
    if a_clobber a then
      match o with
      | None => (false, None)
      | Some e => match t_remove t with None => (false, None) | Some keep => (true, Some (filter (fun x => keep (fst x)) e)) end
      end
    else
      (match o with
       | None => false
       | Some e => existsb (fun n => has n e) [nFilter; nStash; nRevset; nDelta; nDeltaFilter]
       end, o).

  (** main.rs:775-778 *)
  Definition mkOutStep (t : trouble) (o : option entries) : bool * option entries :=
    match o with Some e => (false, Some e) | None => if t_mkOut t then (true, None) else (false, Some []) end.
  (** main.rs:779-782; create_dir_all makes the directories above as well *)
  Definition mkDeltaStep (t : trouble) (o : option entries) : bool * option entries :=
    let e := match o with Some e => e | None => [] end in
    if has nDelta e then (false, o)
    else if t_mkDelta t then (true, o) else (false, Some (put nDelta empty e)).

  (** main.rs:740-785: [true] if the builder goes on, and the output directory then. *)
  Definition start (a : args) (t : trouble) (d : disk) : bool * option entries :=
    let (err1, o1) := clobberStep a t (d_out d) in
    let (err2, o2) := mkOutStep t o1 in
    let (err3, o3) := mkDeltaStep t o2 in
    (negb (orb (inputsMissing a d) (orb err1 (orb err2 err3))), o3).

  (** main.rs:819-932: the files are written one after the other, with what FilterModel.v
      computes, and the builder may panic in between. *)
  Record made := mkMade { m_reasons : C; m_filter : C; m_delta : C; m_revset : C; m_stash : C; m_deltaFilter : C }.
  Definition writes (m : made) : list (bytes * C) :=
    [(nReasons, m_reasons m); (nFilter, m_filter m); (nDelta, m_delta m); (nRevset, m_revset m);
     (nStash, m_stash m); (nDeltaFilter, m_deltaFilter m)].
  Definition write (l : list (bytes * C)) (e : entries) : entries := fold_left (fun e w => put (fst w) (snd w) e) l e.

  (** A run of the builder: the exit status and the output directory.  [panic]: it panics
      after that many files. *)
  Definition builder (a : args) (t : trouble) (d : disk) (m : made) (panic : option nat) : N * option entries :=
    match start a t d with
    | (false, o) => (0%N, o)                          (* main.rs:783-785: return *)
    | (true, o) =>
        let e := match o with Some e => e | None => [] end in
        match panic with
        | None => (0%N, Some (write (writes m) e))
        | Some n => (101%N, Some (write (firstn n (writes m)) e))
        end
    end.
End Builder.

Arguments mkDisk {C}. Arguments d_known {C}. Arguments d_revoked {C}. Arguments d_ctlogs {C}. Arguments d_out {C}.
Arguments mkMade {C}. Arguments get {C}. Arguments has {C}. Arguments put {C}. Arguments writes {C}. Arguments write {C}.
Arguments builder {C}. Arguments start {C}.
Arguments inputsMissing {C}. Arguments clobberStep {C}. Arguments mkOutStep {C}. Arguments mkDeltaStep {C}.
