(** * Model of the query tool
    /repo/rust-query-crlite/src/main.rs

    Oracles: parsing of certificates and PEM, signature verification, SHA-256, the
    filter library (its [contains], its reader), the bincode coding of the
    intermediates, the network.  [Err] is any error value.  Not modelled: log
    output, file times, argument parsing, text that is not UTF-8. *)
From Verif Require Import Base MerkleModel SerialModel IssuersModel FilterModel.
From Coq Require Import Strings.Byte.

(** ** Text *)

(** str::split at one character; never empty.  [acc] is the reversed current part. *)
Fixpoint splitAt (c : byte) (acc : bytes) (s : bytes) : list bytes :=
  match s with
  | [] => [rev acc]
  | x :: s' => if Byte.eqb x c then rev acc :: splitAt c [] s' else splitAt c (x :: acc) s'
  end.
Definition splitOn (c : byte) (s : bytes) : list bytes := splitAt c [] s.

(** str::rsplit_once and friends: cut at the last occurrence of a character. *)
Fixpoint rcut (c : byte) (s : bytes) : option (bytes * bytes) :=
  match s with
  | [] => None
  | x :: s' =>
      match rcut c s' with
      | Some (a, b) => Some (x :: a, b)
      | None => if Byte.eqb x c then Some ([], s') else None
      end
  end.

(** Path::extension of a file name: what follows the last dot, unless that dot is
    the first character. *)
Definition extension (name : bytes) : option bytes :=
  match rcut "."%byte name with
  | Some ([], _) | None => None
  | Some (_, e) => Some e
  end.
Definition isFilterName (name : bytes) : bool :=
  match extension name with
  | Some e => beq e (B "delta") || beq e (B "filter")
  | None => false
  end.

Definition isDigit (c : byte) : bool := ((48 <=? Byte.to_N c) && (Byte.to_N c <=? 57))%N.
Fixpoint decFrom (acc : N) (s : bytes) : option N :=
  match s with
  | [] => Some acc
  | c :: s' => if isDigit c then decFrom (10 * acc + (Byte.to_N c - 48)) s' else None
  end.
(** FromStr for u16 and u32 ([max] is the greatest value): a plus sign, then at
    least one digit. *)
Definition parseUint (max : N) (s : bytes) : option N :=
  let ds := match s with c :: s' => if Byte.eqb c "+" then s' else s | [] => [] end in
  match ds with
  | [] => None
  | _ => match decFrom 0 ds with Some n => if (n <=? max)%N then Some n else None | None => None end
  end.

(** ** Verdicts *)

Inductive filterStatus := FGood | FNotCovered | FNotEnrolled | FRevoked.      (* CRLiteStatus of the library *)
(** main.rs:56-63 *)
Inductive status := Expired | Good | NotCovered | NotEnrolled | Revoked.

(** The fields of a certificate that are used. *)
Record cert := mkCert {
  ct_subject : bytes; ct_issuer : bytes; ct_serial : bytes; ct_spki : bytes;
  ct_valid : bool;                       (* the current time is inside the validity period *)
  ct_scts : list (bytes * N) }.          (* main.rs:231-243 *)

Section Query.
  Variable F : Type.
  Variable contains : F -> bytes -> bytes -> list (bytes * N) -> filterStatus.
  Variable parseCert : bytes -> option cert.
  Variable pemParse : bytes -> option bytes.
  Variable verify : cert -> bytes -> bool.      (* the certificate's signature under a key *)
  Variable sha : bytes -> bytes.
  Variable fromBytes : bytes -> option F.

  (** main.rs:267-284 *)
  Definition has (f : F) (issuer serial : bytes) (ts : list (bytes * N)) : status :=
    match contains f issuer serial ts with
    | FGood => Good
    | FNotCovered => NotCovered
    | FNotEnrolled => NotEnrolled
    | FRevoked => Revoked
    end.

  Definition intermediates := list (bytes * list bytes).

  (** main.rs:407-435 [from_enrolled_json]; each record by its pem field *)
  Definition addIntermediate (m : intermediates) (pem : bytes) : intermediates :=
    match pemParse pem with
    | None => m
    | Some der =>
        match parseCert der with
        | None => m
        | Some c => aset (ct_subject c) ((match alookup (ct_subject c) m with Some l => l | None => [] end) ++ [der]) m
        end
    end.
  Definition fromEnrolled (pems : list bytes) : intermediates := fold_left addIntermediate pems [].

  (** main.rs:448-462 [lookup_issuer_spki] *)
  Fixpoint firstIssuer (c : cert) (ders : list bytes) : option bytes :=
    match ders with
    | [] => None
    | d :: ders' =>
        match parseCert d with
        | Some i => if verify c (ct_spki i) then Some (ct_spki i) else firstIssuer c ders'
        | None => firstIssuer c ders'
        end
    end.
  Definition lookupSpki (m : intermediates) (c : cert) : option bytes :=
    match alookup (ct_issuer c) m with Some ders => firstIssuer c ders | None => None end.

  (** main.rs:373-397 *)
  Fixpoint queryLoop (filters : list F) (issuer : bytes) (c : cert) (maybeGood covered : bool) : status :=
    match filters with
    | [] => if maybeGood then Good else if covered then NotEnrolled else NotCovered
    | f :: filters' =>
        match has f issuer (ct_serial c) (ct_scts c) with
        | Revoked => Revoked
        | Good => queryLoop filters' issuer c true covered
        | NotEnrolled => queryLoop filters' issuer c maybeGood true
        | _ => queryLoop filters' issuer c maybeGood covered
        end
    end.

  Record db := mkDb { db_filters : list F; db_ints : intermediates }.

  (** main.rs:351-398 *)
  Definition query (d : db) (c : cert) : status :=
    match lookupSpki (db_ints d) c with
    | None => NotEnrolled
    | Some spki => if ct_valid c then queryLoop (db_filters d) (sha spki) c false false else Expired
    end.

  (** main.rs:293-319 [CRLiteDB::load]: the filters.  [sorted] is the order by name
      (line 319). *)
  Variable sorted : list (bytes * F) -> list (bytes * F).
  Definition loadFilters (fs : dir) : res (list F) :=
    bind (mapRes (fun e => match fromBytes (snd e) with Some f => Ok (fst e, f) | None => Err end)
            (filter (fun e => isFilterName (fst e)) fs))
      (fun l => Ok (map snd (sorted l))).

  (** ** Commands *)

  Inductive cmdResult := SomeRevoked | NoneRevoked.
  Definition resultOf (found : bool) : cmdResult := if found then SomeRevoked else NoneRevoked.
  (** main.rs:771-778 *)
  Definition exitCode (r : res cmdResult) : N := match r with Ok NoneRevoked => 0 | _ => 1 end%N.
  Definition isRevoked (s : status) : bool := match s with Revoked => true | _ => false end.

  (** main.rs:587-595 *)
  Definition queryBytes (d : db) (input : bytes) : res status :=
    let der := match pemParse input with Some x => x | None => input end in
    match parseCert der with Some c => Ok (query d c) | None => Err end.

  (** main.rs:597-629; [None]: the file does not exist or cannot be read *)
  Fixpoint certsLoop (d : db) (files : list (option bytes)) (found : bool) : bool :=
    match files with
    | [] => found
    | None :: files' => certsLoop d files' found
    | Some input :: files' =>
        match queryBytes d input with
        | Ok s => certsLoop d files' (if isRevoked s then true else found)
        | _ => certsLoop d files' found
        end
    end.
  Definition queryCerts (d : db) (files : list (option bytes)) : res cmdResult := Ok (resultOf (certsLoop d files false)).

  (** main.rs:631-651; [None]: the download failed *)
  Definition queryCrtsh (d : db) (reply : option bytes) : res cmdResult :=
    match reply with
    | None => Err
    | Some b => bind (queryBytes d b) (fun s => Ok (resultOf (isRevoked s)))
    end.

  (** The network of a TLS query: the addresses of a host and port, and the leaf
      certificate obtained in the first and second attempt at an address ([None]:
      any error). *)
  Variable addrs : bytes -> N -> option (list N).
  Variable leaf : bytes -> N -> bool -> option bytes.

  (** main.rs:546-585 *)
  Definition queryAddr (d : db) (host : bytes) (a : N) (second : bool) : res cmdResult :=
    match leaf host a second with
    | None => Err
    | Some der => match parseCert der with Some c => Ok (resultOf (isRevoked (query d c))) | None => Err end
    end.
  (** main.rs:529-544 *)
  Fixpoint addrLoop (d : db) (host : bytes) (l : list N) : res cmdResult :=
    match l with
    | [] => Err
    | a :: l' =>
        match queryAddr d host a false with
        | Ok r => Ok r
        | _ => match queryAddr d host a true with Ok r => Ok r | _ => addrLoop d host l' end
        end
    end.
  (** main.rs:517-544 *)
  Definition hostPort (s : bytes) : bytes * bytes := match rcut ":"%byte s with Some p => p | None => (s, B "443") end.
  Definition queryHost (d : db) (s : bytes) : res cmdResult :=
    let '(host, port) := hostPort s in
    match parseUint 65535 port with
    | None => Err
    | Some p => match addrs host p with None => Err | Some l => addrLoop d host l end
    end.
  (** main.rs:495-515 *)
  Fixpoint hostsLoop (d : db) (hosts : list bytes) (found : bool) : res cmdResult :=
    match hosts with
    | [] => Ok (resultOf found)
    | h :: hosts' => bind (queryHost d h) (fun r => hostsLoop d hosts' (match r with SomeRevoked => true | _ => found end))
    end.
  Definition queryHosts (d : db) (hosts : list bytes) : res cmdResult := hostsLoop d hosts false.

  (** main.rs:480-493; [None]: the download failed *)
  Definition hostLines (text : bytes) : list bytes :=
    filter (fun l => match l with [] => false | c :: _ => negb (Byte.eqb c "#") end)
      (map (fun l => trim isSpace (dropCR l)) (splitLines [] text)).
  Definition signoff (d : db) (text : option bytes) : res cmdResult :=
    match text with None => Err | Some t => queryHosts d (hostLines t) end.

  (** ** Updating the database *)

  Inductive channel := ChDefault | ChCompat.
  Definition channelEqb (a b : channel) : bool := match a, b with ChDefault, ChDefault | ChCompat, ChCompat => true | _, _ => false end.
  (** main.rs:85-96 *)
  Record revRecord := mkRec { rc_hash : bytes; rc_filename : bytes; rc_location : bytes; rc_incremental : bool; rc_channel : option channel }.
  Definition ofChannel (ch : channel) (r : revRecord) : bool :=
    channelEqb (match rc_channel r with Some c => c | None => ChDefault end) ch.

  (** A fault in a write leaves some contents. *)
  Inductive writeResult := WOk | WFail (left : option bytes).
  Variable removes : bytes -> bool.                          (* remove_file succeeds *)
  Variable fetch : bytes -> option bytes.                    (* download by location *)
  Variable readable : bytes -> bool.                         (* an existing file can be read *)
  Variable writes : bytes -> bytes -> writeResult.

  (** main.rs:183-196 *)
  Definition sweep (fs : dir) (expected : list bytes) : dir :=
    filter (fun e => negb (isFilterName (fst e) && negb (memb (fst e) expected) && removes (fst e))) fs.

  (** main.rs:198-226.  Simplified: the path is the file name, [db_dir.join] of a
      name with a separator is not modelled. *)
  Fixpoint fetchLoop (fs : dir) (filters : list revRecord) : res unit * dir :=
    match filters with
    | [] => (Ok tt, fs)
    | r :: filters' =>
        match hexDecode (rc_hash r) with
        | None => (Err, fs)
        | Some expected =>
            let download :=
              match fetch (rc_location r) with
              | None => (Err, fs)
              | Some b =>
                  if beq expected (sha b) then
                    match writes (rc_filename r) b with
                    | WOk => fetchLoop (aset (rc_filename r) b fs) filters'
                    | WFail (Some x) => (Err, aset (rc_filename r) x fs)
                    | WFail None => (Err, fs)
                    end
                  else (Err, fs)
              end in
            match alookup (rc_filename r) fs with
            | None => download
            | Some cur =>
                if readable (rc_filename r) then
                  (if beq expected (sha cur) then fetchLoop fs filters' else download)
                else (Err, fs)
            end
        end
    end.

  (** main.rs:150-229; [records]: [None] if they cannot be fetched and read *)
  Definition updateDb (fs : dir) (ch : channel) (records : option (list revRecord)) : res unit * dir :=
    match records with
    | None => (Err, fs)
    | Some rs =>
        let filters := filter (ofChannel ch) rs in
        if (length (filter (fun r => negb (rc_incremental r)) filters) =? 1)%nat then
          fetchLoop (sweep fs (map rc_filename filters)) filters
        else (Err, fs)
    end.

  (** main.rs:105-115 *)
  Definition extractRunId (name : bytes) : option (bytes * N) :=
    match splitOn "-"%byte name with
    | date :: rev :: _ =>
        match parseUint 4294967295 rev with
        | Some n => if ((length date =? 8)%nat && forallb isDigit date)%bool then Some (date, n) else None
        | None => None
        end
    | _ => None
    end.
  (** Ord for (String, u32): the string first, bytewise *)
  Fixpoint bytesLtb (a b : bytes) : bool :=
    match a, b with
    | [], [] => false
    | [], _ :: _ => true
    | _ :: _, [] => false
    | x :: a', y :: b' => if (Byte.to_N x <? Byte.to_N y)%N then true else if (Byte.to_N y <? Byte.to_N x)%N then false else bytesLtb a' b'
    end.
  Definition runLeb (a b : bytes * N) : bool :=
    bytesLtb (fst a) (fst b) || (beq (fst a) (fst b) && (snd a <=? snd b)%N).
  (** main.rs:120-130; [Ord::max] keeps the second of equal arguments, which does
      not matter here *)
  Fixpoint latestRun (best : option (bytes * N)) (fs : dir) : option (bytes * N) :=
    match fs with
    | [] => best
    | e :: fs' =>
        latestRun (match extractRunId (fst e) with
                   | None => best
                   | Some id => Some (match best with None => id | Some cur => if runLeb cur id then id else cur end)
                   end) fs'
    end.
  (** main.rs:117-148: the new contents of crlite.intermediates.  [enrolledJson] is
      the list of pem fields published for a run. *)
  Variable enrolledJson : bytes -> N -> option (list bytes).
  Definition updateIntermediates (fs : dir) : res intermediates :=
    match latestRun None fs with
    | None => Err
    | Some (date, n) => match enrolledJson date n with None => Err | Some pems => Ok (fromEnrolled pems) end
    end.
End Query.
