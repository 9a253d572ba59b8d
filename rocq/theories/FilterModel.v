(** * Model of the filter builder
    /repo/rust-create-cascade/src/main.rs, cascade_helper.rs, clubcard_helper.rs
    and the way /repo/workflow/2-generate_mlbf and 3-upload_mlbf_to_storage chain
    the runs.

    A directory is a list of names and contents, in the order in which read_dir
    lists it.  The contents do not change during a run (crlite-generate.sh:34-37
    makes the directories read-only).  [Panic] stands for every panic ([expect],
    [unwrap], [assert], slice errors).  Not modelled: file system faults (a
    directory entry that cannot be read is skipped by the code), text that is not
    UTF-8, floating point statistics, statsd, log messages. *)
From Verif Require Import Base MerkleModel SerialModel Base64 StoreModel IssuersModel.
From Coq Require Import Strings.Byte.

Definition bind {A B} (x : res A) (f : A -> res B) : res B :=
  match x with Ok a => f a | Err => Err | Panic => Panic end.
Fixpoint mapRes {A B} (f : A -> res B) (l : list A) : res (list B) :=
  match l with
  | [] => Ok []
  | a :: l' => bind (f a) (fun b => bind (mapRes f l') (fun r => Ok (b :: r)))
  end.
Definition orPanic {A} (x : option A) : res A := match x with Some a => Ok a | None => Panic end.

(** ** Reasons *)

(** main.rs:80-93 *)
Inductive reason :=
| Unspecified | KeyCompromise | CACompromise | AffiliationChanged | Superseded
| CessationOfOperation | CertificateHold | RemoveFromCRL | PrivilegeWithdrawn | AACompromise.

(** main.rs:68-78, [reason as u8] *)
Definition reasonCode (r : reason) : N :=
  match r with
  | Unspecified => 0 | KeyCompromise => 1 | CACompromise => 2 | AffiliationChanged => 3 | Superseded => 4
  | CessationOfOperation => 5 | CertificateHold => 6 | RemoveFromCRL => 8 | PrivilegeWithdrawn => 9 | AACompromise => 10
  end.

(** main.rs:95-114 *)
Definition reasonOfCode (n : N) : reason :=
  match n with
  | 0 => Unspecified | 1 => KeyCompromise | 2 => CACompromise | 3 => AffiliationChanged | 4 => Superseded
  | 5 => CessationOfOperation | 6 => CertificateHold | 8 => RemoveFromCRL | 9 => PrivilegeWithdrawn | 10 => AACompromise
  | _ => Unspecified
  end%N.

(** main.rs:116-120; two digits, so u8 cannot overflow *)
Definition decodeReason (h : bytes) : res reason :=
  bind (orPanic (fromStrRadix16 h)) (fun n => Ok (reasonOfCode n)).

(** main.rs:168-173 *)
Inductive reasonSet := RAll | RSpecified | RPriority.

(** main.rs:195-204 *)
Definition skipReason (s : reasonSet) (r : reason) : bool :=
  match s with
  | RAll => false
  | RSpecified => match r with Unspecified => true | _ => false end
  | RPriority => match r with KeyCompromise | CessationOfOperation | PrivilegeWithdrawn => false | _ => true end
  end.

(** ** Input files *)

(** main.rs:207-220 [RevokedSerialAndReasonIterator], all items: each serial still
    in hex.  Slicing a line of fewer than two bytes panics. *)
Fixpoint rustRevoked (set : reasonSet) (ls : list bytes) : res (list (bytes * reason)) :=
  match ls with
  | [] => Ok []
  | line :: ls' =>
      if (length line <? 2)%nat then Panic
      else bind (decodeReason (firstn 2 line)) (fun r =>
           bind (rustRevoked set ls') (fun rest =>
           Ok (if skipReason set r then rest else (skipn 2 line, r) :: rest)))
  end.
Definition rustReadRevoked (set : reasonSet) (data : bytes) : res (list (bytes * reason)) :=
  rustRevoked set (rustLines [] data).
(** [None]: no file; [RevokedSerialAndReasonIterator::empty] or [unwrap_or_default]. *)
Definition readRevoked (set : reasonSet) (data : option bytes) : res (list (bytes * reason)) :=
  match data with Some d => rustReadRevoked set d | None => Ok [] end.

(** main.rs:262-267, with decode_config of base64 0.13 where it gives 32 bytes: the padding may
    be missing, and the bits left over must be zero (here: the text is the one written). *)
Definition decodeIssuer (s : bytes) : res bytes :=
  let p := if (length s mod 4 =? 3)%nat then s ++ [pad] else s in
  bind (orPanic (b64decode urlAlphabet p)) (fun d =>
    if (length d =? 32)%nat && beq p (b64encode urlAlphabet d) then Ok d else Panic).
(** main.rs:269-271 *)
Definition decodeSerial (s : bytes) : res bytes := orPanic (hexDecode s).
(** main.rs:278-282 *)
Definition crliteKey (issuer serial : bytes) : bytes := issuer ++ serial.

Definition dir := list (bytes * bytes).
(** main.rs:292-314 *)
Definition filePairs (revoked known : dir) : list (bytes * option bytes * bytes) :=
  map (fun k => (fst k, alookup (fst k) revoked, snd k)) known.

(** HashSet::contains on a collected iterator *)
Definition memb (s : bytes) (l : list bytes) : bool := existsb (beq s) l.
(** HashMap::from_iter: the last entry of a key wins *)
Definition toMap (l : list (bytes * reason)) : list (bytes * reason) :=
  fold_left (fun m e => aset (fst e) (snd e) m) l [].

(** ** Counting *)

(** main.rs:332-350 without the size estimates.  The histogram is represented by
    the list of the reasons added to it.  The usize sums cannot overflow: they
    count lines of files. *)
Record stats := mkStats { st_revoked : N; st_ok : N; st_reasons : list reason }.
Definition zeroStats : stats := mkStats 0 0 [].
Definition mergeStats (a b : stats) : stats :=
  mkStats (st_revoked a + st_revoked b) (st_ok a + st_ok b) (st_reasons a ++ st_reasons b).

(** main.rs:380-389; [seen] is known_revoked_serial_set *)
Fixpoint countLoop (rev : list (bytes * reason)) (known : list (N * bytes)) (seen : list bytes) (ok : N) (rs : list reason) : stats :=
  match known with
  | [] => mkStats (N.of_nat (length seen)) ok rs
  | (_, s) :: known' =>
      match alookup s rev with
      | Some r => countLoop rev known' (setAdd seen s) ok (rs ++ [r])
      | None => countLoop rev known' seen (ok + 1) rs
      end
  end.
(** main.rs:367-409 *)
Definition count (rev : list (bytes * reason)) (known : list (N * bytes)) : stats := countLoop (toMap rev) known [] 0 [].

(** main.rs:413-461 *)
Definition countAll (revoked known : dir) (set : reasonSet) : res stats :=
  bind (mapRes (fun p => let '(_, r, k) := p in
                bind (readRevoked set r) (fun rv => bind (rustReadKnown k) (fun kn => Ok (count rv kn))))
          (filePairs revoked known))
    (fun l => Ok (fold_left mergeStats l zeroStats)).

(** ** Keys given to a filter *)

(** cascade_helper.rs:31-41, clubcard_helper.rs:27-39: the revoked set loses each
    serial once it has been included. *)
Fixpoint includeLoop (issuer : bytes) (set : list bytes) (known : list (N * bytes)) : res (list bytes) :=
  match known with
  | [] => Ok []
  | (_, s) :: known' =>
      if memb s set then
        bind (decodeSerial s) (fun b =>
        bind (includeLoop issuer (filter (fun x => negb (beq s x)) set) known') (fun r => Ok (crliteKey issuer b :: r)))
      else includeLoop issuer set known'
  end.

(** main.rs:487-501: only pairs with a revoked file *)
Definition cascadeIncludes (revoked known : dir) (set : reasonSet) : res (list bytes) :=
  bind (mapRes (fun p => let '(name, r, k) := p in
                match r with
                | None => Ok []
                | Some d => bind (decodeIssuer name) (fun i => bind (rustReadRevoked set d) (fun rv =>
                            bind (rustReadKnown k) (fun kn => includeLoop i (map fst rv) kn)))
                end) (filePairs revoked known))
    (fun l => Ok (concat l)).

(** cascade_helper.rs:47-65 with main.rs:505-526 *)
Definition cascadeExcludes (revoked known : dir) (set : reasonSet) : res (list bytes) :=
  bind (mapRes (fun p => let '(name, r, k) := p in
                bind (decodeIssuer name) (fun i => bind (readRevoked set r) (fun rv => bind (rustReadKnown k) (fun kn =>
                mapRes (fun s => bind (decodeSerial s) (fun b => Ok (crliteKey i b)))
                       (filter (fun s => negb (memb s (map fst rv))) (map snd kn))))))
          (filePairs revoked known))
    (fun l => Ok (concat l)).

(** clubcard_helper.rs:21-42, 61-84: for each issuer the revoked keys and the
    universe size *)
Definition clubcardApprox (revoked known : dir) (set : reasonSet) : res (list (bytes * list bytes * N)) :=
  mapRes (fun p => let '(name, r, k) := p in
          bind (decodeIssuer name) (fun i => bind (readRevoked set r) (fun rv => bind (rustReadKnown k) (fun kn =>
          bind (includeLoop i (map fst rv) kn) (fun ks => Ok (i, ks, N.of_nat (length kn)))))))
    (filePairs revoked known).

(** clubcard_helper.rs:86-109: every known key with its label *)
Definition clubcardExact (revoked known : dir) (set : reasonSet) : res (list (bytes * list (bytes * bool))) :=
  mapRes (fun p => let '(name, r, k) := p in
          bind (decodeIssuer name) (fun i => bind (readRevoked set r) (fun rv => bind (rustReadKnown k) (fun kn =>
          bind (mapRes (fun s => bind (decodeSerial s) (fun b => Ok (crliteKey i b, memb s (map fst rv)))) (map snd kn))
            (fun l => Ok (i, l))))))
    (filePairs revoked known).

(** ** Checking and writing a filter *)

Section Create.
  Variable F : Type.                     (* Cascade or CRLiteClubcard *)
  Variable has : F -> bytes -> bool.     (* Cascade::has, Clubcard::unchecked_contains *)

  (** cascade_helper.rs:89-94, clubcard_helper.rs:131-139 *)
  Fixpoint checkLoop (f : F) (issuer : bytes) (revs : list bytes) (known : list (N * bytes)) : res unit :=
    match known with
    | [] => Ok tt
    | (_, s) :: known' =>
        bind (decodeSerial s) (fun b =>
        if Bool.eqb (has f (crliteKey issuer b)) (memb s revs) then checkLoop f issuer revs known' else Panic)
    end.
  (** main.rs:540-556 *)
  Definition checkAll (f : F) (revoked known : dir) (set : reasonSet) : res unit :=
    bind (mapRes (fun p => let '(name, r, k) := p in
                  bind (decodeIssuer name) (fun i => bind (readRevoked set r) (fun rv => bind (rustReadKnown k) (fun kn =>
                  checkLoop f i (map fst rv) kn))))
            (filePairs revoked known))
      (fun _ => Ok tt).

  (** CascadeBuilder: capacities, included and excluded keys; the result is the
      serialized filter, [None] any panic of the library. *)
  Variable buildCascade : N -> N -> list bytes -> list bytes -> option bytes.
  (** ClubcardBuilder, for some coverage *)
  Variable buildClubcard : list (bytes * list bytes * N) -> list (bytes * list (bytes * bool)) -> option bytes.
  (** from_bytes: a panic ([expect] on the error), or perhaps no filter *)
  Variable fromBytes : bytes -> res (option F).

  (** cascade_helper.rs:100-154: the bytes written to the output file, [None] if
      none is written. *)
  Definition createCascade (st : stats) (revoked known : dir) (set : reasonSet) : res (option bytes) :=
    bind (cascadeIncludes revoked known set) (fun ins =>
    bind (cascadeExcludes revoked known set) (fun exs =>
    bind (orPanic (buildCascade (st_revoked st) (st_ok st) ins exs)) (fun data =>
    bind (fromBytes data) (fun o =>
    match o with
    | None => Ok None
    | Some f => bind (checkAll f revoked known set) (fun _ => Ok (Some data))
    end)))).

  (** clubcard_helper.rs:143-184; [None] of [fromBytes] is an error there *)
  Definition createClubcard (revoked known : dir) (set : reasonSet) : res (option bytes) :=
    bind (clubcardApprox revoked known set) (fun ap =>
    bind (clubcardExact revoked known set) (fun ex =>
    bind (orPanic (buildClubcard ap ex)) (fun data =>
    bind (fromBytes data) (fun o =>
    match o with
    | None => Panic
    | Some f => bind (checkAll f revoked known set) (fun _ => Ok (Some data))
    end)))).

  Inductive filterType := Cascade | Clubcard.
  Definition create (t : filterType) (st : stats) (revoked known : dir) (set : reasonSet) : res (option bytes) :=
    match t with Cascade => createCascade st revoked known set | Clubcard => createClubcard revoked known set end.

  (** ** Revoked set, delta and stash *)

  (** main.rs:606-614 for one issuer: the delta lines and the keys *)
  Fixpoint deltaLoop (prev : list bytes) (issuer : bytes) (m : list (bytes * reason)) (known : list (N * bytes))
    : res (bytes * list bytes) :=
    match known with
    | [] => Ok ([], [])
    | (_, s) :: known' =>
        match alookup s m with
        | None => deltaLoop prev issuer m known'
        | Some r =>
            bind (decodeSerial s) (fun b =>
            let key := crliteKey issuer b in
            bind (deltaLoop prev issuer m known') (fun rest =>
            Ok ((if memb key prev then [] else hexEncode [byteOf (reasonCode r)] ++ s ++ [nl]) ++ fst rest, key :: snd rest)))
        end
    end.

  (** main.rs:576-625: the new revoked set and the delta directory.  [prev] is
      empty if the previous revoked set cannot be loaded (lines 585-594). *)
  Definition writeRevsetAndDelta (prev : list bytes) (revoked known : dir) (set : reasonSet) : res (list bytes * dir) :=
    bind (mapRes (fun p => let '(name, r, k) := p in
                  match r with
                  | None => Ok ([], [])
                  | Some d => bind (decodeIssuer name) (fun i => bind (rustReadRevoked set d) (fun rv =>
                              bind (rustReadKnown k) (fun kn =>
                              bind (deltaLoop prev i (toMap rv) kn) (fun x => Ok ([(name, fst x)], snd x)))))
                  end) (filePairs revoked known))
      (fun l => Ok (fold_left setAdd (flat_map snd l) [], flat_map fst l)).

  (** main.rs:641-677.  [order] lists a HashSet, here a list without repetition. *)
  Definition distinct (l : list bytes) : list bytes := fold_left setAdd l [].
  Definition stashEntry (issuer : bytes) (serials : list bytes) : bytes :=
    putLE 4 (N.of_nat (length serials)) ++ [byteOf (N.of_nat (length issuer))] ++ issuer ++
    flat_map (fun s => byteOf (N.of_nat (length s)) :: s) serials.
  Definition writeStash (order : list bytes -> list bytes) (delta : dir) (set : reasonSet) : res bytes :=
    bind (mapRes (fun e => bind (decodeIssuer (fst e)) (fun i => bind (rustReadRevoked set (snd e)) (fun rv =>
                  let ss := order (distinct (map fst rv)) in
                  match ss with
                  | [] => Ok []
                  | _ => bind (mapRes decodeSerial ss) (fun bs => Ok (stashEntry i bs))
                  end))) delta)
      (fun l => Ok (concat l)).

  (** ** main *)

  Record outputs := mkOut {
    o_filter : option bytes; o_revset : list bytes; o_delta : dir; o_stash : bytes; o_deltaFilter : option bytes }.

  (** main.rs:819-932, after the checks at lines 740-785 (which return without an
      error status and write nothing). *)
  Definition buildRun (order : list bytes -> list bytes) (t : filterType) (set dset : reasonSet) (prev : list bytes) (revoked known : dir)
    : res outputs :=
    bind (countAll revoked known set) (fun st =>
    bind (create t st revoked known set) (fun f =>
    bind (writeRevsetAndDelta prev revoked known dset) (fun rd =>
    bind (writeStash order (snd rd) dset) (fun stash =>
    bind (countAll (snd rd) known dset) (fun dst =>
    bind (create t dst (snd rd) known dset) (fun df =>
    Ok (mkOut f (fst rd) (snd rd) stash df))))))).
End Create.
