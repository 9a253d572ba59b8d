(** * Model of the issuer table
    /repo/go/rootprogram/issuers.go and /repo/go/types.go lines 309-322.

    Certificates, PEM, URL parsing, chain building and the JSON coding are
    oracles.  A Go map is an association list; where the code iterates over a map
    the order is an oracle too.  Not modelled: the mutex, log messages, test
    helpers.  [Load] (lines 69-90) is in LoadModel.v. *)
From Verif Require Import Base MerkleModel SerialModel StoreModel.
From Coq Require Import Strings.Byte.

(** ** decodeCrls *)

Definition isSpace (c : byte) : bool :=
  match Byte.to_N c with 9 | 10 | 11 | 12 | 13 | 32 => true | _ => false end%N.
Definition quote : byte := """"%byte.
Definition isQuote (c : byte) : bool := Byte.eqb c quote.
Definition isBracket (c : byte) : bool := Byte.eqb c "[" || Byte.eqb c "]".
Definition comma : byte := ","%byte.

Fixpoint dropWhile (p : byte -> bool) (s : bytes) : bytes :=
  match s with [] => [] | c :: s' => if p c then dropWhile p s' else s end.
(** strings.Trim with the cutset [p]; strings.TrimSpace is [trim isSpace] (white
    space outside ASCII is not modelled). *)
Definition trim (p : byte -> bool) (s : bytes) : bytes := rev (dropWhile p (rev (dropWhile p s))).

(** strings.Split(s, ","); [acc] is the reversed current part. *)
Fixpoint splitComma (acc : bytes) (s : bytes) : list bytes :=
  match s with
  | [] => [rev acc]
  | c :: s' => if Byte.eqb c comma then rev acc :: splitComma [] s' else splitComma (c :: acc) s'
  end.

Section Decode.
  (** url.Parse followed by Scheme and String(). *)
  Variable parseUrl : bytes -> option (bytes * bytes).

  Definition keepUrl (s : bytes) : list bytes :=
    match parseUrl s with
    | None => []
    | Some (scheme, str) => if beq scheme (B "http") || beq scheme (B "https") then [str] else []
    end.

  (** issuers.go:410-451; the returned error is always nil. *)
  Definition decodeCrls (full part : bytes) : list bytes * bool :=
    let full := trim isQuote (trim isSpace full) in
    let crls := match full with [] => [] | _ => keepUrl full end in
    let parts := map (fun s => trim isQuote (trim isSpace s)) (splitComma [] (trim isBracket (trim isSpace part))) in
    let parts := filter (fun s => negb (beq s [])) parts in
    (crls ++ flat_map keepUrl parts, match parts with [] => false | _ => true end).
End Decode.

(** ** CRL maps *)

Definition crlMap := list (bytes * list bytes).
Definition setAdd (s : list bytes) (x : bytes) : list bytes := if existsb (beq x) s then s else s ++ [x].
Definition crlsOf (m : crlMap) (i : bytes) : list bytes := match alookup i m with Some l => l | None => [] end.

(** types.go:311-322 [IssuerCrlMap.Merge], for an iteration order [other]. *)
Definition mergeOne (self : crlMap) (e : bytes * list bytes) : crlMap :=
  aset (fst e) (fold_left setAdd (snd e) (crlsOf self (fst e))) self.
Definition mergeCrls (self other : crlMap) : crlMap := fold_left mergeOne other self.

(** ** The table *)

Section Issuers.
  Variable Cert : Type.
  Variable sha256 : bytes -> bytes.
  Variable spki : Cert -> bytes.          (* RawSubjectPublicKeyInfo *)
  Variable rawSubject : Cert -> bytes.
  Variable subject : Cert -> bytes.       (* Subject.String() *)
  Variable toPEM : Cert -> bytes.         (* CertificateToPEM, lines 251-257: see PemModel.v *)
  Variable ofPEM : bytes -> option Cert.  (* PEMToCertificate, lines 259-275: see PemModel.v *)

  (** types.NewIssuer(cert).ID() *)
  Definition idOf (c : Cert) : bytes := issuerID (sha256 (spki c)).

  (** issuers.go:31-40: a certificate stands for its issuerCert record, whose
      other fields are computed from it. *)
  Record idata := mkData { id_certs : list Cert; id_part : bool }.
  Record moz := mkMoz { m_issuers : list (bytes * idata); m_crls : crlMap }.
  Definition emptyMoz : moz := mkMoz [] [].

  (** issuers.go:453-483 [InsertIssuer]. *)
  Definition insertIssuer (m : moz) (c : Cert) (crls : list bytes) (part : bool) : moz :=
    let i := idOf c in
    mkMoz (aset i (match alookup i (m_issuers m) with
                   | Some v => mkData (id_certs v ++ [c]) (id_part v)
                   | None => mkData [c] part
                   end) (m_issuers m))
          (aset i (fold_left setAdd crls (crlsOf (m_crls m) i)) (m_crls m)).

  (** issuers.go:372-408. *)
  Definition inProgram (m : moz) (i : bytes) : bool := match alookup i (m_issuers m) with Some _ => true | None => false end.
  Definition certFor (m : moz) (i : bytes) : option Cert :=
    match alookup i (m_issuers m) with Some v => hd_error (id_certs v) | None => None end.
  Definition partFor (m : moz) (i : bytes) : option bool :=
    match alookup i (m_issuers m) with Some v => Some (id_part v) | None => None end.

  (** issuers.go:42-48. *)
  Record enrolled := mkEnr { en_unique : bytes; en_key : bytes; en_subject : bytes; en_pem : bytes; en_part : bool }.

  (** issuers.go:313-328: the records written, for an iteration order [l] of the
      map. *)
  Definition toEnrolled (part : bool) (c : Cert) : enrolled :=
    mkEnr (issuerID (sha256 (rawSubject c ++ spki c))) (issuerID (sha256 (spki c))) (subject c) (toPEM c) part.
  Definition saveList (l : list (bytes * idata)) : list enrolled :=
    flat_map (fun e => map (toEnrolled (id_part (snd e))) (id_certs (snd e))) l.

  (** issuers.go:361-367: a certificate that does not parse ends the loading with
      an error, the earlier ones stay inserted. *)
  Fixpoint loadList (m : moz) (l : list enrolled) : moz * bool :=
    match l with
    | [] => (m, true)
    | e :: l' =>
        match ofPEM (en_pem e) with
        | None => (m, false)
        | Some c => loadList (insertIssuer m c [] (en_part e)) l'
        end
    end.

  Variable encode : list enrolled -> bytes.           (* json.Encoder *)
  Variable decode : bytes -> option (list enrolled).  (* json.Unmarshal *)

  (** issuers.go:308-347 [SaveIssuersList] without errors: the content of the file. *)
  Definition saveIssuers (order : list (bytes * idata)) : bytes := encode (saveList order).

  (** issuers.go:349-370 [LoadEnrolledIssuers]; [None]: the file cannot be read. *)
  Definition loadEnrolled (m : moz) (file : option bytes) : moz * bool :=
    match file with
    | None => (m, false)
    | Some data => match decode data with None => (m, false) | Some l => loadList m l end
    end.

  (** ** LoadFromDisk *)

  Variable rawOfPEM : bytes -> option bytes.     (* PEMToZcryptoCertificate, then Raw *)
  Variable ctParse : bytes -> option Cert.       (* ZcryptoToCtCertificate of the certificate with these bytes *)
  Variable chains : list bytes -> list bytes -> bytes -> bool.  (* Verify with roots and intermediates *)
  Variable upper : bytes -> bytes.
  Variable parseUrl : bytes -> option (bytes * bytes).

  Definition fpOf (raw : bytes) : bytes := upper (hexEncode (sha256 raw)).

  (** issuers.go:110-113 *)
  Fixpoint columnMap (i : nat) (m : list (bytes * nat)) (cols : list bytes) : list (bytes * nat) :=
    match cols with [] => m | c :: cols' => columnMap (S i) (aset c i m) cols' end.

  Definition colPem := B "X.509_Certificate_PEM".
  Definition colType := B "RecordType.Name".
  Definition colRevoked := B "Revocation_Status__c".
  Definition colFull := B "Full_CRL_Issued_By_This_CA".
  Definition colPart := B "JSON_Array_of_Partitioned_CRLs".

  (** row[columnMap[name]]; [None] is a panic.  (A missing name gives column 0 in
      Go; the required columns are checked before.) *)
  Definition field (cm : list (bytes * nat)) (name : bytes) (row : list bytes) : option bytes :=
    match alookup name cm with Some k => nth_error row k | None => nth_error row 0 end.

  (** The maps and pools built by the loop at lines 152-200. *)
  Record scan := mkScan { sc_roots : list bytes; sc_inters : list bytes;
    sc_certs : list (bytes * bytes); sc_crls : list (bytes * list bytes); sc_part : list (bytes * bool) }.

  Definition scanRow (cm : list (bytes * nat)) (s : scan) (row : list bytes) : res scan :=
    if (length row <? length cm)%nat then Ok s
    else
      match field cm colPem row, field cm colType row, field cm colRevoked row, field cm colFull row, field cm colPart row with
      | Some pem, Some ty, Some rv, Some full, Some part =>
          match rawOfPEM pem with
          | None => Ok s
          | Some raw =>
              let fp := fpOf raw in
              if negb (beq rv (B "Not Revoked")) && negb (beq rv []) then Ok s
              else if beq ty (B "Root Certificate") then
                Ok (mkScan (sc_roots s ++ [raw]) (sc_inters s) (sc_certs s) (sc_crls s) (sc_part s))
              else if beq ty (B "Intermediate Certificate") then
                match alookup fp (sc_certs s) with
                | Some _ => Ok s
                | None =>
                    let '(crls, p) := decodeCrls parseUrl full part in
                    Ok (mkScan (sc_roots s) (sc_inters s ++ [raw]) (aset fp raw (sc_certs s))
                          (aset fp crls (sc_crls s)) (aset fp p (sc_part s)))
                end
              else Ok s
          end
      | _, _, _, _, _ => Panic
      end.
  Fixpoint scanRows (cm : list (bytes * nat)) (s : scan) (rows : list (list bytes)) : res scan :=
    match rows with
    | [] => Ok s
    | r :: rows' => match scanRow cm s r with Ok s' => scanRows cm s' rows' | Err => Err | Panic => Panic end
    end.

  (** issuers.go:212-226, for an iteration order [l] of the map of certificates. *)
  Definition insertOne (s : scan) (m : moz) (e : bytes * bytes) : moz :=
    if chains (sc_roots s) (sc_inters s) (snd e) then
      match ctParse (snd e) with
      | None => m
      | Some c => insertIssuer m c (crlsOf (sc_crls s) (fst e)) (match alookup (fst e) (sc_part s) with Some b => b | None => false end)
      end
    else m.

  (** issuers.go:92-227 [LoadFromDisk]: [header] and [rows] as read by the CSV
      reader of CsvModel.v ([None] if that fails); [order] lists the map of certificates. *)
  Definition loadFromDisk (order : list (bytes * bytes) -> list (bytes * bytes))
      (header : option (list bytes)) (rows : option (list (list bytes))) : res moz :=
    match header with
    | None => Err
    | Some cols =>
        let cm := columnMap 0 [] cols in
        if forallb (fun n => match alookup n cm with Some _ => true | None => false end)
             [colPem; colType; colRevoked; colFull; colPart] then
          match rows with
          | None => Err
          | Some rows =>
              match scanRows cm (mkScan [] [] [] [] []) rows with
              | Ok s => Ok (fold_left (insertOne s) (order (sc_certs s)) emptyMoz)
              | Err => Err
              | Panic => Panic
              end
          end
        else Err
    end.
End Issuers.

Arguments mkData {Cert}. Arguments id_certs {Cert}. Arguments id_part {Cert}.
Arguments mkMoz {Cert}. Arguments m_issuers {Cert}. Arguments m_crls {Cert}. Arguments emptyMoz {Cert}.
