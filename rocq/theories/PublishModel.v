(** * Model of run identifiers and of the publication of filters
    /repo/workflow/__init__.py lines 12 and 59-73, /repo/workflow/0-allocate_identifier
    lines 23-33, /repo/moz_kinto_publisher/main.py lines 38-164 and 693-1075.

    Texts are ASCII.  [int()] is modelled on digits; any other text is an error
    (Python also takes signs, spaces and underscores).  Not modelled: log output,
    local directories, the fields of a record that nothing reads (coverage,
    enrolledIssuers, filter_expression). *)
From Verif Require Import Base MerkleModel TimeModel IssuersModel FilterModel QueryModel RemoteModel.
From Coq Require Import Strings.Byte.

(** ** Texts and sorting *)

(** int(s) *)
Definition pyInt (s : bytes) : option N := match s with [] => None | _ => decFrom 0 s end.

(** sorted(l, key=...): stable.  [lt] compares keys. *)
Section Sort.
  Context {A : Type}.
  Variable lt : A -> A -> bool.
  Fixpoint insertBy (x : A) (l : list A) : list A :=
    match l with
    | [] => [x]
    | y :: l' => if lt y x then y :: insertBy x l' else x :: l
    end.
  Fixpoint sortBy (l : list A) : list A :=
    match l with
    | [] => []
    | x :: l' => insertBy x (sortBy l')
    end.
End Sort.

(** ** Run identifiers *)

Fixpoint takeDigits (s : bytes) : bytes :=
  match s with
  | c :: s' => if isDigit c then c :: takeDigits s' else []
  | [] => []
  end.
(** workflow/__init__.py:12 and 71-72: re.compile(r"(\d{8}-\d+)/?").match(x).group(1);
    the pattern is matched at the start only, the digits greedily *)
Definition identifierOf (x : bytes) : option bytes :=
  match skipn 8 x with
  | c :: s =>
      if ((length (firstn 8 x) =? 8)%nat && forallb isDigit (firstn 8 x) && Byte.eqb c "-")%bool then
        match takeDigits s with
        | [] => None
        | ds => Some (firstn 8 x ++ "-"%byte :: ds)
        end
      else None
  | [] => None
  end.
(** Decimal digits of a number. *)
Fixpoint natDigits (fuel : nat) (n : N) : bytes :=
  match fuel with
  | O => []
  | S f => (if (n <? 10)%N then [] else natDigits f (n / 10)) ++ [digit (Z.of_N (n mod 10))]
  end.
Definition decText (n : N) : bytes := natDigits (S (N.to_nat (N.log2 n))) n.
(** f"{n:06d}" *)
Definition pad6 (n : N) : bytes := let s := decText n in repeat "0"%byte (6 - length s) ++ s.
(** workflow/__init__.py:59-66; [None]: an exception *)
Definition normalize (s : bytes) : option bytes :=
  match splitOn "-"%byte s with
  | d :: i :: _ => match pyInt i with Some n => Some (d ++ pad6 n) | None => None end
  | _ => None
  end.
Fixpoint filterSome {A B} (f : A -> option B) (l : list A) : list B :=
  match l with
  | [] => []
  | x :: l' => match f x with Some y => y :: filterSome f l' | None => filterSome f l' end
  end.
(** workflow/__init__.py:69-73.  Identifiers have the form that [normalize] needs. *)
Definition keyLtb (a b : bytes) : bool :=
  match normalize a, normalize b with
  | Some x, Some y => bytesLtb x y
  | _, _ => false
  end.
Definition getRunIdentifiers (dirs : list bytes) : list bytes := sortBy keyLtb (filterSome identifierOf dirs).

Fixpoint lastOf {A} (l : list A) : option A :=
  match l with
  | [] => None
  | [x] => Some x
  | _ :: l' => lastOf l'
  end.
(** int of both parts of a run identifier: main.py:946 and 948 *)
Definition runParts (r : bytes) : option (N * N) :=
  match splitOn "-"%byte r with
  | [d; i] => match pyInt d, pyInt i with Some x, Some y => Some (x, y) | _, _ => None end
  | _ => None
  end.
(** 0-allocate_identifier:23-33; [today] is the date as YYYYMMDD *)
Definition allocate (today : bytes) (dirs : list bytes) : py bytes :=
  match lastOf (getRunIdentifiers dirs) with
  | None => Val (today ++ "-"%byte :: decText 0)
  | Some r =>
      match splitOn "-"%byte r with
      | [d; i] =>
          if beq d today then
            match pyInt i with Some n => Val (today ++ "-"%byte :: decText (n + 1)) | None => Exc EOther end
          else Val (today ++ "-"%byte :: decText 0)
      | _ => Exc EOther
      end
  end.

(** ** The bucket of runs, as the publisher sees it: main.py:107-164 *)

Record bucket := mkBucket {
  b_ids : list bytes;                          (* run_identifiers, sorted *)
  b_ready : bytes -> bool;                     (* {run}/completed exists *)
  b_valid : bytes -> bytes -> bool;            (* run, channel directory *)
  b_time : bytes -> option Z;                  (* {run}/timestamp, in seconds since 1970 *)
  b_filter : bytes -> bytes -> option bytes;   (* run, channel directory: contents of the full filter *)
  b_delta : bytes -> bytes -> option bytes
}.

(** main.py:42-53 *)
Record channel := mkChannel { c_slug : bytes; c_dir : bytes; c_deltaName : bytes; c_days : Z; c_enabled : bool }.
(** main.py:55-92 *)
Definition channels : list channel :=
  [mkChannel (B "experimental+deltas") (B "clubcard-all") (B "filter.delta") 20 false;
   mkChannel (B "default") (B "clubcard-all") (B "filter.delta") 45 true;
   mkChannel (B "compat") (B "clubcard-priority") (B "filter.delta") 45 true].

(** ** Records *)

(** The attributes of a filter record; a record made by hand may lack some. *)
Record attrs := mkAttrs { a_name : option bytes (* details.name *); a_inc : option bool; a_parent : option bytes; a_channel : option bytes; a_time : Z (* effectiveTimestamp *) }.
Definition frec := record attrs.

(** x.get("channel", CHANNEL_DEFAULT) == channel.slug *)
Definition inChannel (ch : channel) (r : frec) : bool :=
  beq (match a_channel (r_data r) with Some c => c | None => B "default" end) (c_slug ch).

(** main.py:872-882, one record: the number of steps to a full filter.  [k] is
    len(existing_records) minus the height so far; the dictionary of records by id
    keeps the last of equal ids. *)
Definition byId (rs : list frec) (id : bytes) : option frec := find (fun r => beq id (r_id r)) (rev rs).
Fixpoint climb (rs : list frec) (k : nat) (ptr : bytes) : py nat :=
  match byId rs ptr with
  | None => Exc EOther
  | Some r =>
      match a_inc (r_data r) with
      | Some true =>
          match a_parent (r_data r) with
          | None => Exc EOther
          | Some p =>
              match byId rs p with
              | None => Exc EConsistency
              | Some _ => match k with O => Exc EConsistency | S k' => pbind (climb rs k' p) (fun h => Val (S h)) end
              end
          end
      | Some false => Val 0
      | None => Exc EOther
      end
  end.
Fixpoint heights (rs l : list frec) (m : nat) : py nat :=
  match l with
  | [] => Val m
  | r :: l' => pbind (climb rs (length rs) (r_id r)) (fun h => heights rs l' (Nat.max h m))
  end.
(** main.py:856-860 *)
Definition wellFormed (r : frec) : bool :=
  match a_inc (r_data r), r_att r with
  | Some inc, Some _ => negb inc || match a_parent (r_data r) with Some _ => true | None => false end
  | _, _ => false
  end.
Definition isFull (r : frec) : bool := match a_inc (r_data r) with Some b => negb b | None => false end.
(** main.py:844-888 *)
Definition verifyRecords (ch : channel) (records : list frec) : py unit :=
  let rs := filter (inChannel ch) records in
  match rs with
  | [] => Val tt
  | _ =>
      if negb (forallb wellFormed rs) then Exc EConsistency
      else if negb (length (filter isFull rs) =? 1)%nat then Exc EConsistency
      else pbind (heights rs rs 0) (fun m => if (m =? length rs - 1)%nat then Val tt else Exc EConsistency)
  end.

(** [int(y) for y in x.split("-")] as a sort key: main.py:903 *)
Definition runLtb (a b : bytes) : bool :=
  match runParts a, runParts b with
  | Some (d, i), Some (d', i') => ((d <? d') || ((d =? d') && (i <? i')))%N
  | _, _ => false
  end.
Fixpoint inOrder (ts : list Z) : bool :=
  match ts with
  | x :: ((y :: _) as ts') => negb (y <? x)%Z && inOrder ts'
  | _ => true
  end.
Fixpoint allSome {A} (l : list (option A)) : option (list A) :=
  match l with
  | [] => Some []
  | x :: l' => match x, allSome l' with Some a, Some r => Some (a :: r) | _, _ => None end
  end.
(** main.py:891-907; returns the list, which the code sorts in place *)
Definition verifyRuns (b : bucket) (ch : channel) (ids : list bytes) : py (list bytes) :=
  if negb (forallb (b_ready b) ids) then Exc EConsistency
  else if negb (forallb (fun r => b_valid b r (c_dir ch)) ids) then Exc EConsistency
  else
    let sorted := sortBy runLtb ids in
    match allSome (map (b_time b) sorted) with
    | None => Exc EOther
    | Some ts => if inOrder ts then Val sorted else Exc EConsistency
    end.

Record tasks := mkTasks { t_clear : bool; t_upload : list bytes }.
(** record["attachment"]["filename"].rsplit("-", 1)[0]: main.py:937-940 *)
Definition runOfName (name : bytes) : bytes := match rcut "-"%byte name with Some (a, _) => a | None => name end.
Definition runOfRecord (r : frec) : option bytes := option_map (fun a => runOfName (fst a)) (r_att r).
(** min() of a list of texts *)
Definition minText (l : list bytes) : option bytes :=
  match l with
  | [] => None
  | x :: l' => Some (fold_left (fun m y => if bytesLtb y m then y else m) l' x)
  end.
(** main.py:910-978 *)
Definition notAfter (cut : N * N) (p : N * N) : bool := ((fst p <? fst cut) || ((fst p =? fst cut) && (snd p <=? snd cut)))%N.
Definition determine (b : bucket) (ch : channel) (records : list frec) : py tasks :=
  match lastOf (b_ids b) with
  | None => Exc EOther
  | Some new =>
      let dflt := mkTasks true [new] in
      match records with
      | [] => Val dflt
      | _ =>
          match verifyRecords ch records with
          | Exc EConsistency => Val dflt
          | Exc e => Exc e
          | Val _ =>
              match allSome (map runOfRecord records) with
              | None => Exc EOther
              | Some runs =>
                  match option_map runParts (lastOf runs), allSome (map runParts (b_ids b)) with
                  | Some (Some cut), Some _ =>
                      let old r := match runParts r with Some p => notAfter cut p | None => false end in
                      let olds := filter old (b_ids b) in
                      let news := filter (fun r => negb (old r)) (b_ids b) in
                      if negb (forallb (fun r => memb r olds) runs) then Val dflt
                      else
                        match verifyRuns b ch news with
                        | Exc EConsistency => Val dflt
                        | Exc e => Exc e
                        | Val sorted =>
                            match option_map (b_time b) (minText runs), b_time b new with
                            | Some (Some t0), Some t1 => if (c_days ch * 86400 <=? t1 - t0)%Z then Val dflt else Val (mkTasks false sorted)
                            | _, _ => Exc EOther
                            end
                        end
                  | _, _ => Exc EOther
                  end
              end
          end
      end
  end.

(** ** Publication *)

(** timestamp.isoformat(timespec="seconds") of a UTC time, years 0 to 9999 *)
Definition isoTime (t : Z) : bytes :=
  formatDay (t * nsSecond) ++ B "T" ++ decFixed 2 (t mod 86400 / 3600) ++ B ":" ++ decFixed 2 (t mod 3600 / 60) ++ B ":" ++ decFixed 2 (t mod 60) ++ B "+00:00".
Definition fullName (t : Z) : bytes := isoTime t ++ B "Z-full".
Definition diffName (t : Z) : bytes := isoTime t ++ B "Z-diff".

(** main.py:693-709 and 712-728; the filter is lazy, so a record without the
    attribute raises only when its turn comes *)
Fixpoint deleteThose (inc : bool) (l : list frec) : prog attrs unit :=
  match l with
  | [] => Ret tt
  | r :: l' =>
      match a_inc (r_data r) with
      | None => Raise EOther
      | Some b => if Bool.eqb b inc then seq (unitCall (CDelete (r_id r))) (fun _ => deleteThose inc l') else deleteThose inc l'
      end
  end.
Definition clearRecords (inc noop : bool) (ch : channel) : prog attrs unit :=
  if noop then Ret tt else seq getRecords (fun l => deleteThose inc (filter (inChannel ch) l)).
(** main.py:731-783; [name] is details.name *)
Definition publishRecord (noop : bool) (a : attrs) (name fileName data : bytes) : prog attrs bytes :=
  if noop then Ret name
  else seq (createRecord a) (fun id =>
    seq (catchKinto (unitCall (CAttach id fileName data)) (seq (unitCall (CDelete id)) (fun _ => Raise EKinto)))
        (fun _ => Ret id)).
(** main.py:786-809 *)
Definition fullFile (ch : channel) (r : bytes) : bytes := r ++ "-"%byte :: c_slug ch ++ B ".filter".
Definition deltaFile (ch : channel) (r : bytes) : bytes := r ++ "-"%byte :: c_slug ch ++ "."%byte :: c_deltaName ch.
Definition publishFull (noop : bool) (ch : channel) (r : bytes) (t : Z) (data : bytes) : prog attrs bytes :=
  publishRecord noop (mkAttrs (Some (fullName t)) (Some false) None (Some (c_slug ch)) (t * 1000)) (fullName t) (fullFile ch r) data.
(** main.py:812-836 *)
Definition publishDelta (noop : bool) (ch : channel) (r : bytes) (t : Z) (previous data : bytes) : prog attrs bytes :=
  publishRecord noop (mkAttrs (Some (diffName t)) (Some true) (Some previous) (Some (c_slug ch)) (t * 1000)) (diffName t) (deltaFile ch r) data.
(** main.py:1048-1068 *)
Fixpoint publishDeltas (noop : bool) (b : bucket) (ch : channel) (previous : bytes) (runs : list bytes) : prog attrs unit :=
  match runs with
  | [] => Ret tt
  | r :: runs' =>
      match b_delta b r (c_dir ch), b_time b r with
      | Some data, Some t => seq (publishDelta noop ch r t previous data) (fun id => publishDeltas noop b ch id runs')
      | _, _ => Raise EOther
      end
  end.
Fixpoint withNames (l : list frec) : option (list (bytes * frec)) :=
  match l with
  | [] => Some []
  | r :: l' => match a_name (r_data r), withNames l' with Some n, Some m => Some ((n, r) :: m) | _, _ => None end
  end.
(** sorted(existing_records, key=lambda x: x["details"]["name"]): main.py:993 *)
Definition sortRecords (l : list frec) : py (list frec) :=
  match withNames l with
  | Some m => Val (map snd (sortBy (fun x y => bytesLtb (fst x) (fst y)) m))
  | None => Exc EOther
  end.
(** main.py:981-1075.  The wait of lines 998-1002 is the test whether the latest
    run is ready.  Returns the run of a new full filter. *)
Definition publishCrlite (noop : bool) (b : bucket) (ch : channel) : prog attrs (option bytes) :=
  seq getRecords (fun all =>
  seq (ofPy (sortRecords (filter (inChannel ch) all))) (fun existing =>
  match lastOf (b_ids b) with
  | None => Ret None
  | Some new =>
      if b_ready b new then
        seq (ofPy (determine b ch existing)) (fun t =>
        match lastOf (t_upload t) with
        | None => Ret None
        | Some final =>
            match b_filter b final (c_dir ch) with
            | None => Raise EOther
            | Some data =>
                if t_clear t then
                  seq (clearRecords false noop ch) (fun _ =>
                  seq (clearRecords true noop ch) (fun _ =>
                  match b_time b final with
                  | None => Raise EOther
                  | Some ts =>
                      seq (publishFull noop ch final ts data) (fun _ =>
                      seq (if noop then Ret tt else requestReview) (fun _ => Ret (Some final)))
                  end))
                else
                  match lastOf existing with
                  | None => Raise EOther
                  | Some prev =>
                      seq (publishDeltas noop b ch (r_id prev) (t_upload t)) (fun _ =>
                      seq (if noop then Ret tt else requestReview) (fun _ => Ret None))
                  end
            end
        end)
      else Ret None
  end)).

(** main.py:1314-1327: the enabled channels are published, the records of the
    others deleted *)
Fixpoint publishEnabled (noop : bool) (b : channel -> bucket) (l : list channel) : prog attrs unit :=
  match l with
  | [] => Ret tt
  | ch :: l' => if c_enabled ch then seq (publishCrlite noop (b ch) ch) (fun _ => publishEnabled noop b l') else publishEnabled noop b l'
  end.
Fixpoint clearDisabled (noop : bool) (l : list channel) : prog attrs unit :=
  match l with
  | [] => Ret tt
  | ch :: l' =>
      if c_enabled ch then clearDisabled noop l'
      else seq (clearRecords false noop ch) (fun _ => seq (clearRecords true noop ch) (fun _ => clearDisabled noop l'))
  end.
Definition publishAll (noop : bool) (b : channel -> bucket) (l : list channel) : prog attrs unit :=
  seq (publishEnabled noop b l) (fun _ => clearDisabled noop l).
