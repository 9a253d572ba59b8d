(** * Model of keys, listings, batches, log states and the commit lock
    /repo/go/storage/types.go, rediscache.go, certdatabase.go. *)
From Verif Require Import Base MerkleModel SerialModel TimeModel Base64.

(** ** Keys and files *)

Definition colon : byte := ":"%byte.
Definition slash : byte := "/"%byte.

(** types.go:219-225 and 247-251 for an issuer built from a certificate; [digest]
    is the SHA-256 digest of the public key. *)
Definition issuerID (digest : bytes) : bytes := b64encode urlAlphabet digest.

(** storage/types.go:41-48: the cache key of a bin. *)
Definition serialKey (expID issuer : bytes) : bytes := B "serials::" ++ expID ++ B "::" ++ issuer.

(** certdatabase.go:336: the key of a cached accessor. *)
Definition accessorID (expID issuer : bytes) : bytes := issuer ++ expID.

(** certdatabase.go:294-305, relative to the storage directory.  [filepath.Join]
    also simplifies "." and ".." and doubled slashes; the components here contain
    none when issuer and expiry contain no slash. *)
Definition issuerDirName (issuer : bytes) : bytes := B "issuer::" ++ issuer.
Definition serialFile (expID issuer : bytes) : bytes :=
  B "serials/" ++ issuerDirName issuer ++ B "/" ++ serialKey expID issuer.

(** strings.Split(s, "::"); [acc] is the reversed current part. *)
Fixpoint split2c (acc : bytes) (s : bytes) : list bytes :=
  match s with
  | [] => [rev acc]
  | c :: s' =>
      if Byte.eqb c colon then
        match s' with
        | d :: s'' => if Byte.eqb d colon then rev acc :: split2c [] s'' else split2c (c :: acc) s'
        | [] => [rev (c :: acc)]
        end
      else split2c (c :: acc) s'
  end.
Definition splitColons (s : bytes) : list bytes := split2c [] s.

(** certdatabase.go:116-152.  The Go map is an association list; the order in
    which a Go map is listed is unspecified, so only statements independent of it
    are made about the result. *)
Fixpoint groupLoop (m : list (bytes * list expDate)) (entries : list bytes) : res (list (bytes * list expDate)) :=
  match entries with
  | [] => Ok m
  | entry :: rest =>
      match splitColons entry with
      | [_; date; issuer] =>
          match newExpDate date with
          | None => groupLoop m rest
          | Some e =>
              let old := match alookup issuer m with Some l => l | None => [] end in
              groupLoop (aset issuer (old ++ [e]) m) rest
          end
      | _ => Err
      end
  end.
Definition groupByIssuer (entries : list bytes) : res (list (bytes * list expDate)) := groupLoop [] entries.

(** A directory below [serials]: name, whether it is a directory, its files. *)
Definition tree := list (bytes * bool * list bytes).

Fixpoint hasPrefix (p s : bytes) : bool :=
  match p, s with
  | [], _ => true
  | x :: p', y :: s' => Byte.eqb x y && hasPrefix p' s'
  | _, _ => false
  end.

(** certdatabase.go:185-205: the names handed to the grouping. *)
Definition listStorage (t : tree) : list bytes :=
  flat_map (fun d => let '(name, isDir, files) := d in
    if isDir && hasPrefix (B "issuer::") name then filter (hasPrefix (B "serials::")) files else []) t.

(** certdatabase.go:229-241: is this file removed at time [now]? *)
Definition removable (now : Z) (name : bytes) : bool :=
  match splitColons name with
  | [_; date; _] => match newExpDate date with Some e => isExpiredAt e now | None => false end
  | _ => false
  end.

(** certdatabase.go:211-254, all file operations succeeding. *)
Definition removeExpired (now : Z) (t : tree) : tree :=
  flat_map (fun d => let '(name, isDir, files) := d in
    if isDir && hasPrefix (B "issuer::") name then
      let files' := filter (fun f => negb (removable now f)) files in
      match files' with [] => [] | _ => [(name, isDir, files')] end
    else [d]) t.

(** ** Batches *)

(** Go slice expression [l[lo:hi]]; [None] is a run-time panic. *)
Definition slice {A} (l : list A) (lo hi : nat) : option (list A) :=
  if (lo <=? hi)%nat && (hi <=? length l)%nat then Some (firstn (hi - lo) (skipn lo l)) else None.

Inductive outcome := Done | Failed | Panicked | NoFuel.

(** rediscache.go:103-117.  [fails i] says whether the i-th SREM command fails;
    the set is the content of the key.  The batch size is a parameter (1024 in
    the code).  Returns the set, the batches sent and how the call ended. *)
Fixpoint removeLoop (fuel : nat) (batchSize start : nat) (fails : nat -> bool) (i : nat)
    (entries : list bytes) (set : list bytes) (sent : list (list bytes)) : list bytes * list (list bytes) * outcome :=
  match fuel with
  | O => (set, sent, NoFuel)
  | S fuel' =>
      if (start <? length entries)%nat then
        let batchEnd := if (length entries <? start + batchSize)%nat then length entries else (start + batchSize)%nat in
        match slice entries start batchEnd with
        | None => (set, sent, Panicked)
        | Some batch =>
            if fails i then (set, sent, Failed)
            else removeLoop fuel' batchSize (start + batchSize) fails (S i) entries
                   (filter (fun x => negb (existsb (beq x) batch)) set) (sent ++ [batch])
        end
      else (set, sent, Done)
  end.
Definition setRemove (batchSize : nat) (fails : nat -> bool) (entries set : list bytes) :=
  removeLoop (S (length entries)) batchSize 0 fails 0 entries set [].

(** certdatabase.go:479-501: the bins each round of goroutines handles; note that
    [batchSize] is changed in the loop and used in its increment.  [fails] says
    whether some goroutine of the round returned an error. *)
Fixpoint moveLoop {A} (fuel : nat) (batchSize start : nat) (fails : list A -> bool) (bins : list A)
    (rounds : list (list A)) : list (list A) * outcome :=
  match fuel with
  | O => (rounds, NoFuel)
  | S fuel' =>
      if (start <? length bins)%nat then
        let batchSize' := if (length bins <? start + batchSize)%nat then (length bins - start)%nat else batchSize in
        match slice bins start (start + batchSize') with
        | None => (rounds, Panicked)
        | Some batch =>
            if fails batch then (rounds ++ [batch], Failed)
            else moveLoop fuel' batchSize' (start + batchSize') fails bins (rounds ++ [batch])
        end
      else (rounds, Done)
  end.
Definition moveRounds {A} (batchSize : nat) (fails : list A -> bool) (bins : list A) :=
  moveLoop (S (length bins)) batchSize 0 fails bins [].

(** rediscache.go:83-101: a pipeline of SADD and EXPIREAT commands, all
    succeeding.  The cache maps keys to a set and an expiry time. *)
Definition cacheSets := list (bytes * (list bytes * Z)).
Definition insertOne (c : cacheSets) (item : bytes * bytes * Z) : cacheSets :=
  let '(key, value, expiry) := item in
  let old := match alookup key c with Some (l, _) => l | None => [] end in
  aset key (if existsb (beq value) old then old else value :: old, expiry) c.
Definition setInsertMany (c : cacheSets) (items : list (bytes * bytes * Z)) : cacheSets :=
  fold_left insertOne items c.

(** ** Log states *)

(** strings.TrimRight(s, "/"). *)
Fixpoint dropSlashes (s : bytes) : bytes :=
  match s with c :: s' => if Byte.eqb c slash then dropSlashes s' else s | [] => [] end.
Definition trimSlashes (s : bytes) : bytes := rev (dropSlashes (rev s)).

(** rediscache.go:179-181. *)
Definition logKey (shortUrl : bytes) : bytes := B "log::" ++ trimSlashes shortUrl.

(** The log states in the cache: a key and what its JSON text decodes to
    ([None]: malformed).  That the text decodes to what was encoded is C77 (JsonModel.v). *)
Definition logStore := list (bytes * option ctLog).

(** rediscache.go:227-234. *)
Definition storeLogState (m : logStore) (l : ctLog) : logStore := aset (logKey (lg_url l)) (Some l) m.

(** rediscache.go:236-247; [None] for a missing key or malformed text. *)
Definition loadLogState (m : logStore) (shortUrl : bytes) : option ctLog :=
  match alookup (logKey shortUrl) m with Some (Some l) => Some l | _ => None end.

(** certdatabase.go:265, rediscache.go:189: host and path of the log's URL. *)
Definition shortURL (host path : bytes) : bytes := host ++ trimSlashes path.

(** certdatabase.go:264-276 [GetLogState]. *)
Definition freshLog (url : bytes) : ctLog := mkLog None 0 url 0 0 0 0.
Definition getLogState (m : logStore) (host path : bytes) : ctLog :=
  match loadLogState m (shortURL host path) with
  | Some l => l
  | None => freshLog (shortURL host path)
  end.

(** rediscache.go:183-225 [Migrate], the commands succeeding. *)
Definition migrate (m : logStore) (host path : bytes) : res logStore :=
  let newKey := logKey (shortURL host path) in
  let oldKey := newKey ++ [slash] in
  match alookup oldKey m with
  | None => Ok m
  | Some oldData =>
      match alookup newKey m with
      | Some _ => Ok (aremove oldKey m)
      | None =>
          match oldData with
          | None => Err
          | Some l => Ok (aremove oldKey (storeLogState m l))
          end
      end
  end.

(** ** The commit lock, rediscache.go:274-307, one Redis command per step *)

(** The lock, and the releases that have checked the lock (line 292) but not yet
    deleted it (line 294). *)
Record lockState := mkLock { lk : option bytes; pend : list bytes }.

Inductive lockOp :=
| LAcquire (k : bytes)     (* line 284: SETNX *)
| LHas (k : bytes)         (* line 299: GET *)
| LCheck (k : bytes)       (* line 292 *)
| LDel (k : bytes)         (* line 294, after LCheck k *)
| LRelease (k : bytes)     (* lines 292-294 with nothing in between *)
| LExpire.                 (* line 30: four hours have passed *)

Definition holds (s : lockState) (k : bytes) : bool :=
  match lk s with Some k' => beq k' k | None => false end.

Fixpoint remove1 (k : bytes) (l : list bytes) : list bytes :=
  match l with [] => [] | x :: l' => if beq x k then l' else x :: remove1 k l' end.

(** New state and the answer given to the caller. *)
Definition lockStep (s : lockState) (o : lockOp) : lockState * bool :=
  match o with
  | LAcquire k => match lk s with None => (mkLock (Some k) (pend s), true) | Some _ => (s, false) end
  | LHas k => (s, holds s k)
  | LCheck k => if holds s k then (mkLock (lk s) (k :: pend s), true) else (s, false)
  | LDel k => if existsb (beq k) (pend s) then (mkLock None (remove1 k (pend s)), true) else (s, false)
  | LRelease k => if holds s k then (mkLock None (pend s), true) else (s, false)
  | LExpire => (mkLock None (pend s), true)
  end.

Fixpoint lockRun (s : lockState) (ops : list lockOp) : lockState * list bool :=
  match ops with
  | [] => (s, [])
  | o :: ops' =>
      let '(s', b) := lockStep s o in
      let '(s'', bs) := lockRun s' ops' in (s'', b :: bs)
  end.
