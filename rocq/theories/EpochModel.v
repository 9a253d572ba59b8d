(** * The epoch numbers of cache and storage as text
    /repo/go/storage/certdatabase.go lines 88-114, 507-524, 561-573 and 606-637,
    /repo/go/storage/rediscache.go lines 309-323 and 325-358.

    [CommitModel] has the two epochs as numbers.  Here they are what they are in the
    code: a file with a line of digits, and a Redis string.  Simplified: the lock of
    Restore is granted and the log states, which CommitModel and C22 are about, are left
    out; reading the file and Redis does not fail (a failure is an error at once). *)
From Verif Require Import Base SerialModel QueryModel PublishModel.
From Coq Require Import Strings.Byte.
Local Open Scope N_scope.

(** strconv.ParseUint(s, 10, 64) *)
Definition parseU64 (s : bytes) : option N :=
  match s with
  | [] => None
  | _ => match decFrom 0 s with Some n => if n <? 2 ^ 64 then Some n else None | None => None end
  end.

(** certdatabase.go:507-524 [getStorageEpoch]; [None] as argument: no such file *)
Definition storageEpoch (file : option bytes) : option N :=
  match file with
  | None => Some 0
  | Some data =>
      match splitLines [] data with
      | l :: _ => if tooLong l then None else parseU64 (dropCR l)
      | [] => Some 0
      end
  end.
(** rediscache.go:309-318 [GetEpoch] *)
Definition cacheEpoch (v : option bytes) : option N :=
  match v with None => Some 0 | Some s => parseU64 s end.

(** rediscache.go:320-322 [NextEpoch]: INCR of Redis (string2ll and incrDecrCommand of its
    source) takes a signed 64-bit number without superfluous characters; [None]: an error *)
Definition redisInt (s : bytes) : option Z :=
  match s with
  | [] => None
  | c :: r =>
      let '(neg, ds) := if Byte.eqb c "-" then (true, r) else (false, s) in
      match ds with
      | [] => None
      | d :: _ =>
          if Byte.eqb d "0" then if neg then None else match ds with [_] => Some 0%Z | _ => None end
          else match decFrom 0 ds with
               | Some n => if neg then if (Z.of_N n <=? 2 ^ 63)%Z then Some (- Z.of_N n)%Z else None
                           else if (Z.of_N n <? 2 ^ 63)%Z then Some (Z.of_N n) else None
               | None => None
               end
      end
  end.
Definition intText (z : Z) : bytes := if (z <? 0)%Z then B "-" ++ decText (Z.to_N (- z)) else decText (Z.to_N z).
Definition incr (v : option bytes) : option bytes :=
  match match v with None => Some 0%Z | Some s => redisInt s end with
  | Some z => if (z =? 2 ^ 63 - 1)%Z then None else Some (intText (z + 1))
  | None => None
  end.

(** certdatabase.go:571 and 99, in the arithmetic of uint64 *)
Definition together (cache storage : N) : bool := (cache =? (storage + 1) mod 2 ^ 64) || ((cache =? 0) && (storage =? 0)).

(** The epoch file and the Redis value *)
Record epochs := mkEp { e_file : option bytes; e_cache : option bytes }.

(** certdatabase.go:561-573: may a commit go on, and with which cache epoch *)
Definition admitted (s : epochs) : option N :=
  match storageEpoch (e_file s), cacheEpoch (e_cache s) with
  | Some st, Some c => if together c st then Some c else None
  | _, _ => None
  end.

(** What can go wrong at the end of a commit.  [f_flush]: how many bytes of the line reach the
    temporary file; the error of Flush at line 622 is not looked at. *)
Record faults := mkFaults {
  f_temp : bool;            (* the temporary file cannot be made, or the write fails *)
  f_flush : option nat;
  f_next : option bool;     (* NextEpoch returns an error; whether Redis did it all the same *)
  f_replace : option bool   (* the replacement returns an error; whether it took place *)
}.
(** certdatabase.go:606-637: the end of a commit that read the cache epoch [e], and whether it
    returns without an error *)
Definition finish (e : N) (f : faults) (s : epochs) : epochs * bool :=
  if f_temp f then (s, true)
  else
    let line := decText e ++ [nl] in
    let tmp := match f_flush f with None => line | Some k => firstn k line end in
    let bumped := match incr (e_cache s) with Some v => mkEp (e_file s) (Some v) | None => s end in
    match f_next f, incr (e_cache s) with
    | Some true, _ => (bumped, true)
    | Some false, _ => (s, true)
    | None, None => (s, true)
    | None, Some _ =>
        match f_replace f with
        | None => (mkEp (Some tmp) (e_cache bumped), true)
        | Some true => (mkEp (Some tmp) (e_cache bumped), false)
        | Some false => (bumped, false)
        end
    end.

(** certdatabase.go:88-114 [EnsureCacheIsConsistent] with rediscache.go:350-354; [None]: an error *)
Definition ensure (s : epochs) : option epochs :=
  match storageEpoch (e_file s), cacheEpoch (e_cache s) with
  | Some st, Some c => if together c st then Some s else Some (mkEp (e_file s) (Some (decText ((st + 1) mod 2 ^ 64))))
  | _, _ => None
  end.
