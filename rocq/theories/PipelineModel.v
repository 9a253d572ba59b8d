(** * Model of one run of the pipeline
    /repo/containers/scripts/crlite-generate.sh, /repo/workflow/0-allocate_identifier,
    1-upload_data_to_storage, 2-generate_mlbf, 3-upload_mlbf_to_storage,
    /repo/rust-create-cascade/src/main.rs lines 734-785, and the reading of the
    bucket by /repo/moz_kinto_publisher/main.py lines 107-164.

    A run is a [gprog]: the calls it makes to the bucket and to the directory of
    runs, and what it does with each answer.  Any call may fail, with or without
    effect, and the process may die at any call.  The retries of a call are part of
    the call (uploading a file twice is uploading it once).  The two aggregation
    programs (KnownModel, AggModel) and tar are represented by what they leave in
    the directory of the run, or by failure.  The script runs with bash -e: a
    command that fails ends it.  Not modelled: symbolic links to files that are
    inputs, --noop, statistics, log output. *)
From Verif Require Import Base MerkleModel SerialModel IssuersModel FilterModel RemoteModel PublishModel.
From Coq Require Import Strings.Byte.

(** ** Names, directories, the bucket *)

(** The name of an object or file, by components (the text has "/" between them). *)
Definition path := list bytes.
Fixpoint peq (a b : path) : bool :=
  match a, b with
  | [], [] => true
  | x :: a', y :: b' => beq x y && peq a' b'
  | _, _ => false
  end.
Inductive entry := Plain (c : bytes) | Link.
Definition folder := list (bytes * entry).
(** A directory as os.walk gives it: every folder below it with its path, top down. *)
Definition tree := list (path * folder).
(** The objects of a bucket. *)
Definition objects := list (path * bytes).
Fixpoint plookup {A} (p : path) (l : list (path * A)) : option A :=
  match l with [] => None | (q, c) :: l' => if peq p q then Some c else plookup p l' end.
Definition pput (p : path) (c : bytes) (o : objects) : objects := (p, c) :: filter (fun e => negb (peq p (fst e))) o.
Definition present {A} (x : option A) : bool := match x with Some _ => true | None => false end.

(** workflow/__init__.py:33-56: the prefixes up to the first "/", each once *)
Definition topOf (e : path * bytes) : list bytes := match fst e with x :: _ :: _ => [x] | _ => [] end.
Definition dirsOf (o : objects) : list bytes := map (fun x => x ++ B "/") (nodup bytes_eq_dec (flat_map topOf o)).

Definition plainOf (f : folder) : list (bytes * bytes) :=
  flat_map (fun e => match snd e with Plain c => [(fst e, c)] | Link => [] end) f.
Definition fileIn (name : bytes) (f : folder) : option bytes := alookup name (plainOf f).

(** ** Revoked sets as files *)

(** main.rs:618: bincode 1.3 of a HashSet<Vec<u8>>, in the order of iteration *)
Definition enRevset (l : list bytes) : bytes :=
  putLE 8 (N.of_nat (length l)) ++ flat_map (fun k => putLE 8 (N.of_nat (length k)) ++ k) l.
(** Every item takes eight bytes at least, so the length of the text is enough fuel. *)
Fixpoint deItems (fuel : nat) (count : N) (b : bytes) : option (list bytes) :=
  if (count =? 0)%N then Some []
  else
    match fuel with
    | O => None
    | S f =>
        if (length b <? 8)%nat then None
        else
          let n := getLE (firstn 8 b) in
          let rest := skipn 8 b in
          if (N.of_nat (length rest) <? n)%N then None
          else option_map (cons (firstn (N.to_nat n) rest)) (deItems f (count - 1) (skipn (N.to_nat n) rest))
    end.
(** main.rs:585-594: bincode::deserialize, which ignores what follows *)
Definition deRevset (b : bytes) : option (list bytes) :=
  if (length b <? 8)%nat then None else deItems (length b) (getLE (firstn 8 b)) (skipn 8 b).
(** main.rs:585-594; [None]: the file was not given or cannot be read *)
Definition prevSet (file : option bytes) : list bytes :=
  match file with
  | None => []
  | Some b => match deRevset b with Some l => l | None => [] end
  end.

(** ** Calls *)

Inductive gprog :=
| GEnd (ok : bool)                                  (* exit status 0 or not *)
| GList (k : list bytes -> gprog)                   (* the directories of the bucket *)
| GGet (p : path) (k : option bytes -> gprog)       (* download; the caller catches exceptions *)
| GPut (p : path) (c : bytes) (k : gprog)           (* upload *)
| GMkdir (r : bytes) (k : gprog).                   (* the directory of a run *)

(** [did]: the call took effect all the same *)
Inductive gfault := Works | Fails (did : bool) | Dies (did : bool).
(** The bucket, and the names in the directory of runs (--path). *)
Record pst := mkP { p_objs : objects; p_local : list bytes }.

Definition put (p : path) (c : bytes) (did : bool) (s : pst) : pst := if did then mkP (pput p c (p_objs s)) (p_local s) else s.
Definition made (r : bytes) (did : bool) (s : pst) : pst := if did && negb (memb r (p_local s)) then mkP (p_objs s) (r :: p_local s) else s.

Inductive status := Running (p : gprog) | Ended (ok : bool) | Dead.
(** One call. *)
Definition gstep (p : gprog) (s : pst) (f : gfault) : status * pst :=
  match p with
  | GEnd ok => (Ended ok, s)
  | GList k => match f with Works => (Running (k (dirsOf (p_objs s))), s) | Fails _ => (Ended false, s) | Dies _ => (Dead, s) end
  | GGet p k => match f with Works => (Running (k (plookup p (p_objs s))), s) | Fails _ => (Running (k None), s) | Dies _ => (Dead, s) end
  | GPut p c k => match f with Works => (Running k, put p c true s) | Fails d => (Ended false, put p c d s) | Dies d => (Dead, put p c d s) end
  | GMkdir r k =>
      match f with
      | Works => if memb r (p_local s) then (Ended false, s) else (Running k, made r true s)
      | Fails d => (Ended false, made r d s)
      | Dies d => (Dead, made r d s)
      end
  end.
Fixpoint putAll (l : list (path * bytes)) (k : gprog) : gprog :=
  match l with [] => k | (p, c) :: l' => GPut p c (putAll l' k) end.

(** ** The script *)

Section Generate.
  Variables (F : Type) (has : F -> bytes -> bool) (buildCascade : N -> N -> list bytes -> list bytes -> option bytes).
  (** The clubcard library; the coverage in it is made from ct-logs.json. *)
  Variable buildClubcard : bytes -> list (bytes * list bytes * N) -> list (bytes * list (bytes * bool)) -> option bytes.
  Variable fromBytes : bytes -> res (option F).
  Variable order : list bytes -> list bytes.          (* iteration of a HashSet *)
  Variable listdir : folder -> folder.                (* the order in which os.walk lists files *)
  Variable reasons : reasonSet -> dir -> dir -> bytes. (* reason_codes.csv *)
  Variable marker : bytes.                            (* the text with the time of completion *)

  (** What is given to a run from outside. *)
  Record world := mkWorld {
    w_today : bytes;
    w_tree : option tree;    (* the directory of the run after aggregation; None: one of these commands failed *)
    w_upload : bool;         (* DoNotUpload is not set *)
    w_outAll : bool;         (* the output directory of the builder can be made *)
    w_outPriority : bool }.

  (** main.rs:727-732 and 834-932 *)
  Definition outTree (set : reasonSet) (revoked known : dir) (o : outputs) : tree :=
    [([], (B "reason_codes.csv", Plain (reasons set revoked known)) ::
          match o_filter o with Some d => [(B "filter", Plain d)] | None => [] end ++
          [(B "revset.bin", Plain (enRevset (order (o_revset o)))); (B "filter.stash", Plain (o_stash o))] ++
          match o_deltaFilter o with Some d => [(B "filter.delta", Plain d)] | None => [] end);
     ([B "delta"], map (fun e => (fst e, Plain (snd e))) (o_delta o))].
  (** 2-generate_mlbf:49-111 with --filter-type clubcard, and main.rs:734-785: if an
      input is missing or the output directory cannot be made, the builder ends with
      status 0; in the first case the empty directories are left. *)
  Definition buildDir (set : reasonSet) (out : bool) (prev : option bytes) (t : tree) : res tree :=
    if negb out then Ok []
    else
      match plookup [B "known"] t, plookup [B "revoked"] t, match plookup [] t with Some f => fileIn (B "ct-logs.json") f | None => None end with
      | Some kn, Some rv, Some ct =>
          bind (buildRun F has buildCascade (buildClubcard ct) fromBytes order Clubcard set set (prevSet prev) (plainOf rv) (plainOf kn))
            (fun o => Ok (outTree set (plainOf rv) (plainOf kn) o))
      | _, _, _ => Ok [([], []); ([B "delta"], [])]
      end.

  (** 1-upload_data_to_storage:30-49, 3-upload_mlbf_to_storage:30-49 *)
  Definition filePuts (remote : path) (f : folder) : list (path * bytes) := map (fun e => (remote ++ [fst e], snd e)) (plainOf (listdir f)).
  (** 1-upload_data_to_storage:63-66, 3-upload_mlbf_to_storage:81-84 *)
  Definition treePuts (remote : path) (t : tree) : list (path * bytes) := flat_map (fun d => filePuts (remote ++ fst d) (snd d)) t.
  (** 3-upload_mlbf_to_storage:73-79 *)
  Definition allPuts (id : bytes) (t : tree) : list (path * bytes) :=
    flat_map (fun d => filePuts ([id; B "clubcard-all"] ++ fst d) (snd d) ++ filePuts (B "latest" :: fst d) (snd d)) t.
  (** 3-upload_mlbf_to_storage:52-92 *)
  Definition hasFilter (t : tree) : bool := match plookup [] t with Some f => present (alookup (B "filter") f) | None => false end.
  Definition upload3 (id : bytes) (a p : tree) : gprog :=
    if hasFilter a then
      putAll (allPuts id a ++ treePuts [id; B "clubcard-priority"] p ++ [([id; B "completed"], marker)]) (GEnd true)
    else GEnd false.

  Definition latestRevset : path := [B "latest"; B "revset.bin"].
  (** crlite-generate.sh *)
  Definition generate (w : world) : gprog :=
    GList (fun dirs =>
    match allocate (w_today w) dirs with
    | Exc _ => GEnd false
    | Val id =>
        GMkdir id
          match w_tree w with
          | None => GEnd false
          | Some t =>
              putAll (if w_upload w then treePuts [id] t else [])
                (GGet latestRevset (fun p1 =>
                 match buildDir RAll (w_outAll w) p1 t with
                 | Ok a =>
                     GGet latestRevset (fun p2 =>
                     match buildDir RPriority (w_outPriority w) p2 t with
                     | Ok p => if w_upload w then upload3 id a p else GEnd true
                     | _ => GEnd false
                     end)
                 | _ => GEnd false
                 end))
          end
    end).
End Generate.

(** ** The bucket as the publisher reads it *)

Section Read.
  (** datetime.fromisoformat of the contents of a timestamp file, as seconds *)
  Variable parseTime : bytes -> option Z.

  (** main.py:107-164 *)
  Definition bucketOf (o : objects) : bucket :=
    mkBucket (getRunIdentifiers (dirsOf o))
      (fun r => present (plookup [r; B "completed"] o))
      (fun r d => present (plookup [r; d; B "filter"] o) && present (plookup [r; d; B "filter.delta"] o) && present (plookup [r; B "ct-logs.json"] o))
      (fun r => match plookup [r; B "timestamp"] o with Some c => parseTime c | None => None end)
      (fun r d => plookup [r; d; B "filter"] o)
      (fun r d => plookup [r; d; B "filter.delta"] o).
End Read.
