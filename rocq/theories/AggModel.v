(** * Model of the downloader and of aggregate-crls
    /repo/go/downloader/downloader.go, verifying-downloader.go,
    /repo/go/cmd/aggregate-crls/aggregate-crls.go, /repo/go/types.go lines 356-402.

    The network, the file system's failures, the clock, the CRL parser and the
    signature check are oracle arguments.  Not modelled: tracing and log
    messages, the text of errors (only whether there is one), the contents of
    audit records beyond their kind, URL, number of revocations and checksum. *)
From Verif Require Import Base MerkleModel SerialModel.
From Coq Require Import Strings.Byte.
Local Open Scope Z_scope.

(** ** Files *)

Record file := mkFile { f_data : bytes; f_mtime : Z }.

(** ** downloader.go *)

(** What the answer to a HEAD request says (lines 55-61, 78): Last-Modified and
    Content-Length if they parse, whether Accept-Ranges is "bytes". *)
Record headResp := mkHead { hr_lastMod : option Z; hr_length : option Z; hr_ranges : bool }.

Inductive action := ACreate | AResume | AUpToDate.

(** downloader.go:38-88 [determineAction]; [local] is the result of
    GetSizeAndDateOfFile (lines 24-36), [head] that of the HEAD request. *)
Definition determineAction (local : option (Z * Z)) (head : option headResp) : action * Z * Z :=
  match local with
  | None => (ACreate, 0, 0)
  | Some (szOnDisk, localDate) =>
      match head with
      | None => (ACreate, szOnDisk, 0)
      | Some h =>
          match hr_lastMod h, hr_length h with
          | Some lastMod, Some szOnServer =>
              if localDate <? lastMod then (ACreate, szOnDisk, szOnServer)
              else if szOnServer =? szOnDisk then (AUpToDate, szOnDisk, szOnServer)
              else if (szOnDisk <? szOnServer) && hr_ranges h then (AResume, szOnDisk, szOnServer)
              else (ACreate, szOnDisk, szOnServer)
          | _, _ => (ACreate, szOnDisk, 0)
          end
      end
  end.

(** downloader.go:104-107: the names of the headers added to the GET request (the
    values are not modelled). *)
Definition requestHeaders (act : action) : list bytes :=
  B "X-Automated-Tool" :: match act with AResume => [B "Content-Range"] | _ => [] end.

(** The GET request (lines 99-113 and 142): an error, or a status, the chunks of
    the body that arrived and were written, whether the copy then failed, and
    the Last-Modified time if it parses (lines 157-168). *)
Inductive getResp :=
| GErr
| GResp (status : N) (chunks : list bytes) (copyErr : bool) (lastMod : option Z).

(** Everything one attempt sees. *)
Record dlEnv := mkDl {
  de_statErr : bool;         (* the local file cannot be opened or examined *)
  de_head : option headResp;
  de_get : getResp;
  de_openErr : bool;         (* os.OpenFile fails, line 129 *)
  de_cancelled : bool;       (* ctx.Err() at line 135 *)
  de_chtimesErr : bool;      (* line 170 *)
  de_now : Z }.

(** io.Copy (line 142): the contents after each chunk. *)
Fixpoint copyChunks (now : Z) (cur : bytes) (chunks : list bytes) : list (option file) * bytes :=
  match chunks with
  | [] => ([], cur)
  | c :: chunks' =>
      let '(tr, last) := copyChunks now (cur ++ c) chunks' in
      (Some (mkFile (cur ++ c) now) :: tr, last)
  end.

(** downloader.go:24-36 [GetSizeAndDateOfFile]. *)
Definition onDisk (e : dlEnv) (t : option file) : option (Z * Z) :=
  match t with
  | Some f => if de_statErr e then None else Some (Z.of_nat (length (f_data f)), f_mtime f)
  | None => None
  end.

(** downloader.go:90-174 [download], for the file [t] at the target path.
    Result: the successive contents of the path, the last content, success. *)
Definition download (e : dlEnv) (t : option file) : list (option file) * option file * bool :=
  let '(act, _, _) := determineAction (onDisk e t) (de_head e) in
  match act with
  | AUpToDate => ([], t, true)
  | _ =>
      match de_get e with
      | GErr => ([], t, false)
      | GResp status chunks copyErr lastMod =>
          let opened :=
            if (status =? 206)%N then
              match t with
              | Some f => if de_openErr e then None else Some (f_data f, [])
              | None => None
              end
            else if (status =? 200)%N then
              if de_openErr e then None else Some ([], [Some (mkFile [] (de_now e))])
            else None in
          match opened with
          | None => ([], t, false)
          | Some (start, tr0) =>
              let t0 := last tr0 t in
              if de_cancelled e then (tr0, t0, false)
              else
                let '(tr, data) := copyChunks (de_now e) start chunks in
                let t1 := last tr t0 in
                if copyErr then (tr0 ++ tr, t1, false)
                else
                  match lastMod with
                  | Some m =>
                      if de_chtimesErr e then (tr0 ++ tr, t1, true)
                      else
                        let t2 := match t1 with Some f => Some (mkFile (f_data f) m) | None => None end in
                        (tr0 ++ tr ++ [t2], t2, true)
                  | None => (tr0 ++ tr, t1, true)
                  end
          end
      end
  end.

(** downloader.go:176-197 [DownloadFileSync]: [k] attempts left; [o i] says
    whether the context is done before attempt [i] and what the attempt sees. *)
Fixpoint downloadLoop (k i : nat) (o : nat -> bool * dlEnv) (t : option file)
  : list (option file) * option file * bool :=
  match k with
  | O => ([], t, false)
  | S k' =>
      let '(cancelled, e) := o i in
      if cancelled then ([], t, true)
      else
        let '(tr, t', ok) := download e t in
        if ok then (tr, t', true)
        else
          let '(tr2, t2, r) := downloadLoop k' (S i) o t' in
          (tr ++ tr2, t2, r)
  end.
Definition downloadFileSync (maxRetries : nat) := downloadLoop (S maxRetries) 0.

(** ** verifying-downloader.go *)

(** The file at finalPath and the one at tmpPath = finalPath + ".tmp". *)
Record fs := mkFS { fs_tmp : option file; fs_final : option file }.

(** What is reported to the auditor (crl-auditor.go), by kind.  [AuValid] carries
    the number of revocations and the bytes whose SHA-256 sum is reported; ages,
    error texts and DNS results are left out. *)
Inductive audit :=
| AuFailedDownload | AuFailedVerifyUrl | AuFailedVerifyPath | AuOld
| AuWrongIDP | AuFailedProcess | AuNoRevocations | AuValid (n : N) (data : bytes).

Record dvEnv := mkDv {
  dv_attempts : nat -> bool * dlEnv;
  dv_tmpReadErr : bool;      (* reading tmpPath fails, line 59 *)
  dv_renameErr : bool;       (* line 66 *)
  dv_finalReadErr : bool;    (* reading finalPath fails, line 38 *)
  dv_removeErr : bool }.     (* line 31 *)

Section Verify.
  (** verifyFunc.IsValid as a function of the content. *)
  Variable valid : bytes -> bool.

  Definition isValid (readErr : bool) (f : option file) : bool :=
    match f with Some f => negb readErr && valid (f_data f) | None => false end.

  (** verifying-downloader.go:22-75.  Result: the successive states of the two
      files, the last state, the returned boolean, whether the returned error is
      not nil, and what was reported to the auditor. *)
  Definition downloadAndVerify (maxRetries : nat) (e : dvEnv) (s : fs)
    : list fs * fs * bool * bool * list audit :=
    let '(tr, t, dlOk) := downloadFileSync maxRetries (dv_attempts e) (fs_tmp s) in
    let trace := map (fun t => mkFS t (fs_final s)) tr in
    let s1 := mkFS t (fs_final s) in
    let removed (s' : fs) := if dv_removeErr e then s' else mkFS None (fs_final s') in
    let fallback (au : list audit) :=
      let ok := isValid (dv_finalReadErr e) (fs_final s1) in
      (trace ++ [removed s1], removed s1, ok, true, au) in
    if negb dlOk then fallback [AuFailedDownload]
    else if negb (isValid (dv_tmpReadErr e) t) then fallback [AuFailedVerifyUrl]
    else if dv_renameErr e then fallback []
    else
      let s2 := mkFS None t in
      (trace ++ [s2; removed s2], removed s2, true, false, []).
End Verify.

(** ** CRLs *)

(** types.go:356-361: serial and extensions; for each extension whether it is
    the reason code and what [asn1.Unmarshal] makes of its value. *)
Record crlEntry := mkEntry { ce_serial : bytes; ce_exts : list (bool * option Z) }.

(** types.go:363-384 [Reason]; [None] is an error. *)
Fixpoint reasonLoop (seen : bool) (code : Z) (exts : list (bool * option Z)) : option Z :=
  match exts with
  | [] => if (code <? 0) || (255 <? code) then None else Some code
  | (isReason, v) :: exts' =>
      if isReason then
        if seen then None
        else match v with None => None | Some c => reasonLoop true c exts' end
      else reasonLoop seen code exts'
  end.
Definition reasonOf (c : crlEntry) : option Z := reasonLoop false 0 (ce_exts c).

(** types.go:386-396 [SerialAndReason]. *)
Definition serialAndReason (c : crlEntry) : option (bytes * N) :=
  match reasonOf c with None => None | Some r => Some (ce_serial c, Z.to_N (r mod 256)) end.

(** A parsed CRL: thisUpdate, and the entries if the raw list decodes. *)
Record crl := mkCrl { crl_thisUpdate : Z; crl_entries : option (list crlEntry) }.

(** aggregate-crls.go:286-302 [processCRL]. *)
Fixpoint allSerials (l : list crlEntry) : option (list (bytes * N)) :=
  match l with
  | [] => Some []
  | c :: l' =>
      match serialAndReason c, allSerials l' with
      | Some s, Some r => Some (s :: r)
      | _, _ => None
      end
  end.
Definition processCRL (c : crl) : option (list (bytes * N)) :=
  match crl_entries c with None => None | Some l => allSerials l end.

(** aggregate-crls.go:476-494: one line per entry. *)
Definition revokedLine (s : bytes * N) : bytes := hexEncode [byteOf (snd s)] ++ hexEncode (fst s) ++ [nl].
Definition revokedFile (l : list (bytes * N)) : bytes := flat_map revokedLine l.

(** ** URLs and local names *)

(** The parts of a parsed URL that are used: Hostname(), path.Base(Path),
    RawQuery, and normalizedUrlString (aggregate-crls.go:51-58). *)
Record url := mkUrl { u_host : bytes; u_base : bytes; u_query : bytes; u_norm : bytes }.

(** aggregate-crls.go:46: what the pattern [[^[:alnum:]\~\-\.]] does not match. *)
Definition legal (c : byte) : bool :=
  let n := Byte.to_N c in
  ((48 <=? n) && (n <=? 57) || (65 <=? n) && (n <=? 90) || (97 <=? n) && (n <=? 122)
   || (n =? 126) || (n =? 45) || (n =? 46))%N.

(** strings.TrimSuffix. *)
Definition trimSuffix (suffix s : bytes) : bytes :=
  if (length suffix <=? length s)%nat && beq (skipn (length s - length suffix) s) suffix
  then firstn (length s - length suffix) s else s.

Section Aggregate.
  Variable sha256 : bytes -> bytes.
  Variable lower : bytes -> bytes.          (* strings.ToLower *)

  (** aggregate-crls.go:67-80 [makeFilenameFromUrl]. *)
  Definition makeFilename (u : url) : bytes :=
    let name := u_host u ++ B "-" ++ u_base u in
    let name := match u_query u with [] => name | q => name ++ B "-" ++ q end in
    let name := filter legal (lower name) in
    trimSuffix (B ".crl") name ++ B "-" ++ hexEncode (firstn 8 (sha256 (u_norm u))) ++ B ".crl".

  (** aggregate-crls.go:101, relative to the CRL directory. *)
  Definition crlPath (issuer : bytes) (u : url) : bytes := issuer ++ B "/" ++ makeFilename u.
  Definition tmpOf (p : bytes) : bytes := p ++ B ".tmp".

  Variable Cert : Type.
  Variable parseCRL : bytes -> option crl.        (* x509.ParseCRL *)
  Variable checkSig : Cert -> bytes -> bool.      (* CheckCRLSignature, for the CRL with these bytes *)

  (** aggregate-crls.go:181-203 [loadAndCheckSignatureOfCRL] after reading. *)
  Definition loadCRL (cert : Cert) (data : bytes) : option crl :=
    match parseCRL data with
    | None => None
    | Some c => if checkSig cert data then Some c else None
    end.
  Definition crlValid (cert : Cert) (data : bytes) : bool :=
    match loadCRL cert data with Some _ => true | None => false end.

  (** The CRL directory. *)
  Definition disk := list (bytes * file).
  Definition put (p : bytes) (f : option file) (d : disk) : disk :=
    match f with Some f => aset p f d | None => aremove p d end.

  (** What fetching one URL sees besides the downloader's environment. *)
  Record fetchEnv := mkFetch {
    fe_cancelled : bool;        (* ctx.Done() at line 155 *)
    fe_mkdirErr : bool;         (* line 94 *)
    fe_dv : dvEnv;
    fe_statErr : bool;          (* line 124 *)
    fe_now : Z }.

  Definition allowableAge : Z := 336 * 3600 * 1000000000.

  (** aggregate-crls.go:91-142 [crlFetchWorkerProcessOne]: three retries. *)
  Definition fetchOne (cert : Cert) (issuer : bytes) (e : fetchEnv) (u : url) (d : disk)
    : disk * option bytes * list audit :=
    if fe_mkdirErr e then (d, None, [])
    else
      let p := crlPath issuer u in
      let '(_, s, ok, _, au) :=
        downloadAndVerify (crlValid cert) 3 (fe_dv e) (mkFS (alookup (tmpOf p) d) (alookup p d)) in
      let d' := put p (fs_final s) (put (tmpOf p) (fs_tmp s) d) in
      if negb ok then (d', None, au)
      else match fs_final s with
           | None => (d', None, au)
           | Some f =>
               if fe_statErr e then (d', None, au)
               else (d', Some p, au ++ (if allowableAge <? fe_now e - f_mtime f then [AuOld] else []))
           end.

  (** aggregate-crls.go:151-166: the URLs of one issuer; [None] if cancelled. *)
  Fixpoint fetchAll (cert : Cert) (issuer : bytes) (us : list (url * fetchEnv)) (d : disk)
    : disk * option (list (url * option bytes)) * list (url * audit) :=
    match us with
    | [] => (d, Some [], [])
    | (u, e) :: us' =>
        if fe_cancelled e then (d, None, [])
        else
          let '(d1, p, au) := fetchOne cert issuer e u d in
          let '(d2, r, au2) := fetchAll cert issuer us' d1 in
          (d2, match r with Some l => Some ((u, p) :: l) | None => None end,
           map (fun a => (u, a)) au ++ au2)
    end.

  (** aggregate-crls.go:205-252 [loadAndCheckIssuingDistributionPointOfCRL].
      [idp] holds the normalised URIs of the extension ([None]: a text that does
      not parse), or is [None] if the CRL cannot be read or parsed again.
      [known] holds the normalised URLs of the issuer.  True: (true, nil). *)
  Fixpoint idpLoop (fetchUrl : bytes) (known : list bytes) (found : bool) (idp : list (option bytes)) : bool :=
    match idp with
    | [] => found
    | None :: idp' => idpLoop fetchUrl known found idp'
    | Some n :: idp' =>
        if existsb (beq n) known then
          if beq fetchUrl n then idpLoop fetchUrl known true idp' else false
        else idpLoop fetchUrl known found idp'
    end.
  Definition idpCheck (fetchUrl : bytes) (known : list bytes) (idp : option (list (option bytes))) : bool :=
    match idp with None => false | Some l => idpLoop fetchUrl known false l end.

  (** What processing one CRL sees: cancelled at line 334; the file cannot be
      read (line 344); the issuing distribution points read at line 358. *)
  Record procEnv := mkProc { pe_cancelled : bool; pe_readErr : bool; pe_idp : option (list (option bytes)) }.

  (** aggregate-crls.go:332-386: the loop over the CRLs of an issuer.  [None] if
      cancelled; otherwise [anyCrlFailed] and the collected entries. *)
  Fixpoint processAll (cert : Cert) (partitioned : bool) (known : list bytes) (d : disk)
      (ps : list (url * option bytes * procEnv)) (failed : bool) (serials : list (bytes * N))
    : option (bool * list (bytes * N)) * list (url * audit) :=
    match ps with
    | [] => (Some (failed, serials), [])
    | (u, p, e) :: ps' =>
        if pe_cancelled e then (None, [])
        else
          let go (failed : bool) (serials : list (bytes * N)) (au : list audit) :=
            let '(r, au2) := processAll cert partitioned known d ps' failed serials in
            (r, map (fun a => (u, a)) au ++ au2) in
          match p with
          | None => go true serials []
          | Some path =>
              let loaded := match alookup path d with
                            | Some f => if pe_readErr e then None else loadCRL cert (f_data f)
                            | None => None
                            end in
              match loaded with
              | None => go true serials [AuFailedVerifyPath]
              | Some c =>
                  let idp := if partitioned && negb (idpCheck (u_norm u) known (pe_idp e)) then [AuWrongIDP] else [] in
                  match processCRL c with
                  | None => go true serials (idp ++ [AuFailedProcess])
                  | Some [] => go failed serials (idp ++ [AuNoRevocations])
                  | Some l => go failed (serials ++ l) (idp ++ [AuValid (N.of_nat (length l)) (match alookup path d with Some f => f_data f | None => [] end)])
                  end
              end
          end
    end.

  (** The directory of revocation files. *)
  Definition revDir := list (bytes * bytes).

  Inductive aggOutcome :=
  | AgWritten       (* the file was written *)
  | AgIncomplete    (* some CRL failed: nothing is written *)
  | AgCancelled
  | AgFatal.        (* StoreRevokedCertificateList failed: the process exits *)

  (** StoreRevokedCertificateList, aggregate-crls.go:456-496: [None] succeeds;
      [Some n] fails (or is cancelled) after the file was opened, with the first
      [n] bytes on disk.  Errors of the deferred Flush are not noticed by the
      code; they are outside this model. *)
  Definition storeRevoked (issuer : bytes) (storeErr : option nat) (l : list (bytes * N)) (r : revDir)
    : revDir * aggOutcome :=
    match storeErr with
    | None => (aset issuer (revokedFile l) r, AgWritten)
    | Some n => (aset issuer (firstn n (revokedFile l)) r, AgFatal)
    end.

  (** aggregate-crls.go:308-398: one issuer. *)
  Definition aggregateOne (cert : Cert) (partitioned : bool) (issuer : bytes) (d : disk)
      (ps : list (url * option bytes * procEnv)) (storeErr : option nat) (r : revDir)
    : revDir * aggOutcome * list (url * audit) :=
    let '(res, au) := processAll cert partitioned (map (fun p => u_norm (fst (fst p))) ps) d ps false [] in
    match res with
    | None => (r, AgCancelled, au)
    | Some (true, _) => (r, AgIncomplete, au)
    | Some (false, serials) =>
        let '(r', o) := storeRevoked issuer storeErr serials r in (r', o, au)
    end.

  (** ** The whole run *)

  (** An issuer as queued by downloadCRLs (aggregate-crls.go:404-426): identifier,
      certificate (GetCertificateForIssuer), whether it uses partitioned CRLs,
      its URLs with what fetching each of them sees, and what processing each
      of them sees. *)
  Record job := mkJob {
    j_issuer : bytes; j_cert : Cert; j_partitioned : bool;
    j_urls : list (url * fetchEnv);
    j_proc : list procEnv;
    j_storeErr : option nat }.

  (** aggregate-crls.go:406-425: texts that do not parse are dropped; an issuer
      without URLs is not queued. *)
  Definition queueUrls (parse : bytes -> option url) (texts : list bytes) : list url :=
    flat_map (fun t => match parse t with Some u => [u] | None => [] end) texts.

  (** downloadCRLs: the workers run concurrently on the files of different
      issuers (different directories); they are run one after the other here
      (interleaved: AggSystem.v).
      [None]: the run was cancelled and main returns (line 560). *)
  Fixpoint fetchJobs (js : list job) (d : disk)
    : disk * option (list (job * list (url * option bytes))) * list (bytes * url * audit) :=
    match js with
    | [] => (d, Some [], [])
    | j :: js' =>
        let '(d1, r, au) := fetchAll (j_cert j) (j_issuer j) (j_urls j) d in
        let '(d2, rs, au2) := fetchJobs js' d1 in
        (d2, match r, rs with Some l, Some ls => Some ((j, l) :: ls) | _, _ => None end,
         map (fun a => (j_issuer j, fst a, snd a)) au ++ au2)
    end.

  (** Pair the paths of an issuer with what processing sees. *)
  Fixpoint withProc (l : list (url * option bytes)) (ps : list procEnv) : list (url * option bytes * procEnv) :=
    match l with
    | [] => []
    | x :: l' => (x, hd (mkProc false false None) ps) :: withProc l' (tl ps)
    end.

  (** aggregateCRLs: again one after the other; a fatal error ends the process. *)
  Fixpoint aggregateJobs (js : list (job * list (url * option bytes))) (d : disk) (r : revDir)
    : revDir * list (bytes * aggOutcome) * list (bytes * url * audit) :=
    match js with
    | [] => (r, [], [])
    | (j, l) :: js' =>
        let '(r1, o, au) := aggregateOne (j_cert j) (j_partitioned j) (j_issuer j) d
                              (withProc l (j_proc j)) (j_storeErr j) r in
        let au' := map (fun a => (j_issuer j, fst a, snd a)) au in
        match o with
        | AgFatal => (r1, [(j_issuer j, o)], au')
        | _ =>
            let '(r2, os, au2) := aggregateJobs js' d r1 in
            (r2, (j_issuer j, o) :: os, au' ++ au2)
        end
    end.

  (** aggregate-crls.go:558-564. *)
  Definition aggregateCrls (js : list job) (d : disk) (r : revDir)
    : disk * revDir * list (bytes * aggOutcome) * list (bytes * url * audit) :=
    let '(d1, fetched, au) := fetchJobs js d in
    match fetched with
    | None => (d1, r, [], au)
    | Some l =>
        let '(r1, os, au2) := aggregateJobs l d1 r in
        (d1, r1, os, au ++ au2)
    end.
End Aggregate.

Arguments mkJob {Cert}. Arguments j_issuer {Cert}. Arguments j_cert {Cert}.
Arguments j_partitioned {Cert}. Arguments j_urls {Cert}. Arguments j_proc {Cert}. Arguments j_storeErr {Cert}.
