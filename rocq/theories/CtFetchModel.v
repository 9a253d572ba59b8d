(** * Model of the ct-fetch log workers
    /repo/go/cmd/ct-fetch/rfc6962.go lines 215-688,
    /repo/go/cmd/ct-fetch/tiled.go lines 83-370,
    /repo/go/cmd/ct-fetch/ct-fetch.go lines 60-66.

    What a worker does is returned as a trace of events, in order.  The network,
    the clock, the certificate parser and cancellation are oracle arguments. *)
From Verif Require Import Base MerkleModel.

(** go/types.go:130-146 [CTLogState]: the fields the workers touch.
    [LastUpdateTime] is [None] for Go's zero time. *)
Record logState := mkLS {
  ls_minEntry : N; ls_maxEntry : N;
  ls_minTs : N; ls_maxTs : N;
  ls_lastUpdate : option N }.

(** go/storage/certdatabase.go:264-276: state of a log with nothing in the cache. *)
Definition freshState : logState := mkLS 0 0 0 0 None.

(** ct-fetch.go:271-280 [LogWorkerTask]. *)
Inductive task := TInit | TBackfill | TUpdate | TForceUpdate | TSleep | TRetryGetSTH.

(** A tree head: size and timestamp. *)
Record sth := mkSTH { sth_size : N; sth_ts : N }.

(** rfc6962.go:251-283: task choice.  [head = None] is a failed GetSTH;
    [recent] is the value of [time.Since(LastUpdateTime) < 10*time.Minute]. *)
Definition chooseTask (batchSize : N) (recent : bool) (head : option sth) (s : logState) : task :=
  match head with
  | None => TRetryGetSTH
  | Some h =>
      if (sth_size h <=? 3)%N then TSleep
      else match ls_lastUpdate s with
      | None => TInit
      | Some _ =>
          if (add64 (ls_maxEntry s) batchSize <? sth_size h)%N then TUpdate
          else if (0 <? ls_minEntry s)%N then TBackfill
          else if recent then TSleep
          else if (ls_maxEntry s <? sub64 (sth_size h) 1)%N then TUpdate
          else TSleep
      end
  end.

(** rfc6962.go:321-346 and 371-373: the job range for Init, Update, Backfill.
    [MinEntry % JobSize] panics for JobSize 0. *)
Definition jobRange (jobSize : N) (w : task) (h : sth) (s : logState) : res (N * N) :=
  let clip (fl : N * N) :=
    let '(f, l) := fl in
    (f, if (sub64 (sth_size h) 1 <? l)%N then sub64 (sth_size h) 1 else l) in
  match w with
  | TInit =>
      let first := if (sth_size h <? jobSize)%N then 0%N else sub64 (sth_size h) jobSize in
      Ok (clip (first, sub64 (sth_size h) 1))
  | TUpdate => Ok (clip (add64 (ls_maxEntry s) 1, add64 (ls_maxEntry s) jobSize))
  | TBackfill =>
      if (jobSize =? 0)%N then Panic
      else
        let m := (ls_minEntry s mod jobSize)%N in
        let first := if negb (m =? 0)%N then sub64 (ls_minEntry s) m
                     else sub64 (ls_minEntry s) jobSize in
        Ok (clip (first, sub64 (ls_minEntry s) 1))
  | _ => Err
  end.

(** Go's [sort.Search]: binary search for the least i in [0,n) with f i = true. *)
Fixpoint searchLoop (fuel : nat) (f : nat -> bool) (i j : nat) : nat :=
  match fuel with
  | O => i
  | S fuel' =>
      if (i <? j)%nat then
        let h := ((i + j) / 2)%nat in
        if f h then searchLoop fuel' f i h else searchLoop fuel' f (h + 1) j
      else i
  end.
Definition sortSearch (n : nat) (f : nat -> bool) : nat := searchLoop (S n) f 0 n.

(** rfc6962.go:433-439, 449-455: insert at the position found. *)
Definition insertAt {A} (pos : nat) (x : A) (l : list A) : list A :=
  firstn pos l ++ x :: skipn pos l.

(** rfc6962.go:421-457: select the subtrees inside the job range and order them. *)
Definition dummySubtree : subtree := mkSubtree [] 0 0.
Fixpoint orderVerifiers (w : task) (firstIndex lastIndex : N) (sts : list subtree)
    (acc : list subtree) : list subtree :=
  match sts with
  | [] => acc
  | s :: sts' =>
      if negb ((firstIndex <=? st_first s)%N && (st_last s <=? lastIndex)%N)
      then orderVerifiers w firstIndex lastIndex sts' acc
      else
        let pos := sortSearch (length acc) (fun i =>
          match w with
          | TBackfill => (st_last (nth i acc dummySubtree) <? st_last s)%N
          | _ => (st_first s <? st_first (nth i acc dummySubtree))%N
          end) in
        orderVerifiers w firstIndex lastIndex sts' (insertAt pos s acc)
  end.

(** rfc6962.go:491-543 [updateState] up to the channel send.  [None] models the
    returned errors ("Missing entries", ...). [now] is time.Now(). *)
Definition updateState (w : task) (sub : option (N * N)) (minTs maxTs now : N) (s : logState)
  : option logState :=
  let finish (s' : logState) :=
    Some (mkLS (ls_minEntry s') (ls_maxEntry s')
               (N.min (ls_minTs s') minTs) (N.max (ls_maxTs s') maxTs) (Some now)) in
  match w, sub with
  | TInit, Some (f, l) =>
      match ls_lastUpdate s with
      | None => finish (mkLS f l minTs maxTs None)
      | Some _ => if (ls_maxEntry s =? sub64 f 1)%N
                  then finish (mkLS (ls_minEntry s) l (ls_minTs s) (ls_maxTs s) (ls_lastUpdate s))
                  else None
      end
  | TUpdate, Some (f, l) =>
      if (ls_maxEntry s =? sub64 f 1)%N
      then finish (mkLS (ls_minEntry s) l (ls_minTs s) (ls_maxTs s) (ls_lastUpdate s))
      else None
  | TBackfill, Some (f, l) =>
      if (ls_minEntry s =? add64 l 1)%N
      then finish (mkLS f (ls_maxEntry s) (ls_minTs s) (ls_maxTs s) (ls_lastUpdate s))
      else None
  | TSleep, None => finish s
  | _, _ => None
  end.

Section Worker.
  Variable sha256 : bytes -> bytes.
  (** Identity of a parsed certificate (what storeLogEntry sends on). *)
  Variable Cert : Type.

  (** What [types.ParseCertificate] returns for a certificate and the facts
      storeLogEntry looks at. *)
  Record parsedCert := mkPC {
    pc_cert : Cert;
    pc_expired : bool;     (* cert.NotAfter().Before(time.Now()) *)
    pc_preIssuer : bool    (* cert.IsPreIssuer() *) }.

  Inductive storeOutcome :=
  | SQueued (cert issuer : Cert)   (* sent to entryChan *)
  | SSkipExpired                   (* expired and LogExpiredEntries is off *)
  | SSkipNoChain                   (* self-signed root: empty chain *)
  | SFatal                         (* error return, or cancelled while sending *).

  (** rfc6962.go:545-617 [storeLogEntry].  [None] is a fatal parsing error.
      [cancelled]: ctx.Done() fired instead of the channel send. *)
  Definition storeLogEntry (logExpired cancelled : bool)
      (cert : option parsedCert) (chain : list (option parsedCert)) : storeOutcome :=
    match cert with
    | None => SFatal
    | Some c =>
        if pc_expired c && negb logExpired then SSkipExpired
        else match chain with
        | [] => SSkipNoChain
        | None :: _ => SFatal
        | Some i0 :: rest =>
            let send (iss : Cert) := if cancelled then SFatal else SQueued (pc_cert c) iss in
            if pc_preIssuer i0 then
              match rest with
              | [] => SFatal
              | None :: _ => SFatal
              | Some i1 :: _ => send (pc_cert i1)
              end
            else send (pc_cert i0)
        end
    end.

  (** One element of [resp.Entries].  [re_parsed = None]: RawLogEntryFromLeaf
      failed (rfc6962.go:654-666). *)
  Record rawEntry := mkRE {
    re_leaf : bytes;                                   (* entry.LeafInput *)
    re_parsed : option (N * bool * option parsedCert * list (option parsedCert))
      (* timestamp, cancelled while sending, certificate, chain *) }.

  (** One answer of [GetRawEntries] (rfc6962.go:630-651). *)
  Inductive resp :=
  | R429 (cancelled : bool)      (* "Too Many Requests"; cancelled while waiting *)
  | RErr                         (* any other error *)
  | REntries (es : list rawEntry).

  (** What happens, in order.  [EEntry i ts leaf o]: the leaf at position [i] was
      processed with outcome [o] (for [SQueued] the certificate was sent to the
      channel; for a skip nothing was sent) and fed to the verifier.
      [EState s]: a save point with log state [s] was sent to the channel. *)
  Inductive event :=
  | EEntry (i ts : N) (leaf : bytes) (o : storeOutcome)
  | EState (s : logState).

  Inductive dlResult :=
  | DDone (v : verifier) (minTs maxTs : N)
  | DErr
  | DPanic
  | DHang.    (* oracle exhausted: the process stops here *)

  Definition minTsUpd (m ts : N) : N := if (m =? 0)%N || (ts <? m)%N then ts else m.
  Definition maxTsUpd (m ts : N) : N := if (m =? 0)%N || (m <? ts)%N then ts else m.

  (** rfc6962.go:653-684: loop over the entries of one response.
      Position of a leaf: First plus the number of leaves consumed before. *)
  Fixpoint handleEntries (logExpired : bool) (es : list rawEntry) (index : N)
      (v : verifier) (minTs maxTs : N)
    : list event * option (res (N * verifier * N * N)) :=
    match es with
    | [] => ([], Some (Ok (index, v, minTs, maxTs)))
    | e :: es' =>
        match re_parsed e with
        | None => handleEntries logExpired es' (add64 index 1) v minTs maxTs
        | Some (ts, cancelled, cert, chain) =>
            match storeLogEntry logExpired cancelled cert chain with
            | SFatal => ([], Some Err)
            | o =>
                match consume sha256 v (re_leaf e) with
                | Ok v' =>
                    let '(tr, r) := handleEntries logExpired es' (add64 index 1) v'
                                      (minTsUpd minTs ts) (maxTsUpd maxTs ts) in
                    (EEntry (st_first (v_subtree v) + v_num v) ts (re_leaf e) o :: tr, r)
                | _ => ([], Some Panic)
                end
            end
        end
    end.

  (** rfc6962.go:619-688 [downloadCTRangeToChannel].  Returns the events, the
      result and the unused answers. *)
  Fixpoint download (logExpired : bool) (resps : list resp) (index : N)
      (v : verifier) (minTs maxTs : N)
    : list event * dlResult * list resp :=
    if (st_last (v_subtree v) <? index)%N then ([], DDone v minTs maxTs, resps)
    else match resps with
    | [] => ([], DHang, [])
    | R429 true :: rs => ([], DErr, rs)
    | R429 false :: rs => download logExpired rs index v minTs maxTs
    | RErr :: rs => ([], DErr, rs)
    | REntries es :: rs =>
        match handleEntries logExpired es index v minTs maxTs with
        | (tr, Some (Ok (index', v', mn, mx))) =>
            let '(tr', r, rs') := download logExpired rs index' v' mn mx in
            (tr ++ tr', r, rs')
        | (tr, Some Err) => (tr, DErr, rs)
        | (tr, _) => (tr, DPanic, rs)
        end
    end.

  Inductive outcome := OOk | OErr | OPanic | OHang.

  (** rfc6962.go:459-484: the loop over verifiers.  [cancels]: for each subtree,
      whether the save-point send is cancelled, and whether the loop stops. *)
  Fixpoint runVerifiers (w : task) (logExpired : bool) (now : N) (vs : list subtree)
      (s : logState) (resps : list resp) (cancels : list (bool * bool))
    : list event * outcome :=
    match vs with
    | [] => ([], OOk)
    | st :: vs' =>
        let '(tr, r, resps') := download logExpired resps (st_first st) (newVerifier st) 0 0 in
        match r with
        | DErr => (tr, OOk)
        | DPanic => (tr, OPanic)
        | DHang => (tr, OHang)
        | DDone v mn mx =>
            match checkClaim v with
            | Err => (tr, OErr)
            | Panic => (tr, OPanic)
            | Ok _ =>
                match updateState w (Some (st_first st, st_last st)) mn mx now s with
                | None => (tr, OErr)
                | Some s' =>
                    let '(c1, c2) := hd (false, false) cancels in
                    if c1 then (tr, OErr)
                    else if c2 then (tr ++ [EState s'], OOk)
                    else let '(tr', o) := runVerifiers w logExpired now vs' s' resps' (tl cancels) in
                         (tr ++ EState s' :: tr', o)
                end
            end
        end
    end.

  (** Everything a job observes from outside. *)
  Record jobEnv := mkEnv {
    je_head : option sth;             (* GetSTH *)
    je_recent : bool;                 (* updated less than 10 minutes ago *)
    je_now : N;                       (* time.Now() in updateState *)
    je_proof : option (list bytes);   (* GetSTHConsistency *)
    je_resps : list resp;             (* GetRawEntries *)
    je_cancels : list (bool * bool);
    je_logExpired : bool }.

  (** rfc6962.go:394-403: the arguments of GetSTHConsistency. *)
  Definition proofSizes (fl : N * N) : N * N :=
    ((if (fst fl =? 0)%N then 3%N else fst fl), add64 (snd fl) 1).

  (** rfc6962.go:318-489 [Run] of a worker made by NewLogWorker for state [s]. *)
  Definition run (jobSize : N) (s : logState) (e : jobEnv) : list event * outcome :=
    let w := chooseTask jobSize (je_recent e) (je_head e) s in
    match je_head e with
    | None => ([], OOk)
    | Some h =>
        match w with
        | TRetryGetSTH | TForceUpdate => ([], OOk)
        | TSleep =>
            if (ls_maxEntry s =? sub64 (sth_size h) 1)%N then
              (* rfc6962.go:358: minTimestamp argument is LogState.MinEntry *)
              match updateState TSleep None (ls_minEntry s) (sth_ts h) (je_now e) s with
              | None => ([], OErr)
              | Some s' => if fst (hd (false, false) (je_cancels e)) then ([], OErr)
                           else ([EState s'], OOk)
              end
            else ([], OOk)
        | _ =>
            match jobRange jobSize w h s with
            | Ok fl =>
                let '(oldSize, newSize) := proofSizes fl in
                match je_proof e with
                | None => ([], OOk)
                | Some proof =>
                    match consistencyProofToSubtrees proof oldSize newSize with
                    | Ok sts =>
                        let vs := orderVerifiers w (fst fl) (snd fl) sts [] in
                        let '(tr, o) := runVerifiers w (je_logExpired e) (je_now e) vs s
                                          (je_resps e) (je_cancels e) in
                        (* rfc6962.go:486 indexes verifiers[0] *)
                        (tr, match vs, o with [], OOk => OPanic | _, _ => o end)
                    | Err => ([], OErr)
                    | Panic => ([], OPanic)
                    end
                end
            | Err => ([], OErr)
            | Panic => ([], OPanic)
            end
        end
    end.

  (** ** Tiled logs (tiled.go) *)

  (** tiled.go:83-105: task choice. *)
  Definition chooseTaskTiled (batchSize : N) (recent : bool) (head : option sth) (s : logState) : task :=
    match head with
    | None => TRetryGetSTH
    | Some h =>
        if (add64 (ls_maxEntry s) batchSize <? sth_size h)%N then TUpdate
        else if recent then TSleep
        else if (add64 (ls_maxEntry s) 1 <? sth_size h)%N then TForceUpdate
        else TSleep
    end.

  (** tiled.go:354-370 [updateState] up to the send. *)
  Definition updateStateTiled (maxEntry minTs maxTs now : N) (s : logState) : logState :=
    mkLS 0 (N.max (ls_maxEntry s) maxEntry)
         (N.min (ls_minTs s) minTs) (N.max (ls_maxTs s) maxTs) (Some now).

  (** What storeLogEntry (tiled.go:177-246) returns for an entry. *)
  Inductive tiledStore :=
  | TSOk (o : storeOutcome)   (* (true, nil) *)
  | TSRetry                   (* (false, nil): network error fetching an issuer *)
  | TSFatal                   (* (false, err) *).

  (** tiled.go:127-152 [GetCertificate] and 177-246 [storeLogEntry]: the issuer
      look-up either answers a certificate, a network error or a parse error. *)
  Inductive issuerFetch := IFCert (c : parsedCert) | IFNetErr | IFFatal.

  Definition storeLogEntryTiled (logExpired cancelled : bool)
      (cert : option parsedCert) (chain : list issuerFetch) : tiledStore :=
    match cert with
    | None => TSFatal
    | Some c =>
        if pc_expired c && negb logExpired then TSOk SSkipExpired
        else match chain with
        | [] => TSOk SSkipNoChain
        | IFNetErr :: _ => TSRetry
        | IFFatal :: _ => TSFatal
        | IFCert i0 :: rest =>
            let send (iss : Cert) := if cancelled then TSFatal else TSOk (SQueued (pc_cert c) iss) in
            if pc_preIssuer i0 then
              match rest with
              | [] => TSFatal
              | IFNetErr :: _ => TSRetry
              | IFFatal :: _ => TSFatal
              | IFCert i1 :: _ => send (pc_cert i1)
              end
            else send (pc_cert i0)
        end
    end.

  (** One entry yielded by [Client.Entries]: timestamp, leaf, and the arguments
      of storeLogEntry; plus whether a save-point send after it is cancelled.
      The library yields consecutive indexes starting at its argument and has
      already checked the entries against the checkpoint (trusted). *)
  Record tiledEntry := mkTE {
    te_ts : N; te_leaf : bytes; te_cancelled : bool;
    te_cert : option parsedCert; te_chain : list issuerFetch;
    te_saveCancelled : bool }.

  (** tiled.go:294-327 [readLogEntries].  [es] are the entries the iterator
      yields in this call.  Result: events, captured variables, and
      [Some true]/[Some false] for keepGoing, [None] for a fatal error. *)
  Fixpoint readLogEntries (logExpired : bool) (batchSize now : N) (es : list tiledEntry)
      (endCancelled clientErr : bool) (s : logState) (maxEntry minTs maxTs : N)
    : list event * (logState * N * N * N) * res bool :=
    match es with
    | [] =>
        let s' := updateStateTiled maxEntry minTs maxTs now s in
        if endCancelled then ([], (s', maxEntry, minTs, maxTs), Err)
        else ([EState s'], (s', maxEntry, minTs, maxTs), Ok (negb clientErr))
    | e :: es' =>
        match storeLogEntryTiled logExpired (te_cancelled e) (te_cert e) (te_chain e) with
        | TSRetry => ([], (s, maxEntry, minTs, maxTs), Ok false)
        | TSFatal => ([], (s, maxEntry, minTs, maxTs), Err)
        | TSOk o =>
            let i := add64 maxEntry 1 in
            let mn := N.min minTs (te_ts e) in
            let mx := N.max maxTs (te_ts e) in
            let ev := EEntry i (te_ts e) (te_leaf e) o in
            if (batchSize =? 0)%N then ([ev], (s, i, mn, mx), Panic)
            else if (i mod batchSize =? 0)%N then
              let s' := updateStateTiled i mn mx now s in
              if te_saveCancelled e then ([ev], (s', i, mn, mx), Err)
              else
                let '(tr, vars, r) := readLogEntries logExpired batchSize now es' endCancelled clientErr s' i mn mx in
                (ev :: EState s' :: tr, vars, r)
            else
              let '(tr, vars, r) := readLogEntries logExpired batchSize now es' endCancelled clientErr s i mn mx in
              (ev :: tr, vars, r)
        end
    end.

  Record tiledEnv := mkTEnv {
    tj_head : option sth;
    tj_recent : bool;
    tj_now : N;
    tj_logExpired : bool;
    tj_first : list tiledEntry * bool * bool;    (* first readLogEntries: entries, cancelled, client error *)
    tj_second : list tiledEntry * bool * bool;   (* second, for ForceUpdate *)
    tj_sleepCancelled : bool }.

  (** tiled.go:248-352 [Run] of a worker made by NewTiledLogWorker for state [s]. *)
  Definition runTiled (batchSize : N) (s : logState) (e : tiledEnv) : list event * outcome :=
    match tj_head e with
    | None => ([], OOk)
    | Some h =>
        match chooseTaskTiled batchSize (tj_recent e) (tj_head e) s with
        | TSleep =>
            if (add64 (ls_maxEntry s) 1 =? sth_size h)%N then
              if tj_sleepCancelled e then ([], OErr)
              else ([EState (updateStateTiled (ls_maxEntry s) (ls_minTs s) (sth_ts h) (tj_now e) s)], OOk)
            else ([], OOk)
        | TUpdate =>
            let '(es, c, ce) := tj_first e in
            let '(tr, _, r) := readLogEntries (tj_logExpired e) batchSize (tj_now e) es c ce s
                                 (ls_maxEntry s) (ls_minTs s) (ls_maxTs s) in
            (tr, match r with Ok _ => OOk | Err => OErr | Panic => OPanic end)
        | TForceUpdate =>
            let '(es, c, ce) := tj_first e in
            let '(tr, (s1, mE, mn, mx), r) := readLogEntries (tj_logExpired e) batchSize (tj_now e) es c ce s
                                 (ls_maxEntry s) (ls_minTs s) (ls_maxTs s) in
            match r with
            | Ok true =>
                let '(es2, c2, ce2) := tj_second e in
                let '(tr2, _, r2) := readLogEntries (tj_logExpired e) batchSize (tj_now e) es2 c2 ce2 s1 mE mn mx in
                (tr ++ tr2, match r2 with Ok _ => OOk | Err => OErr | Panic => OPanic end)
            | Ok false => (tr, OOk)
            | Err => (tr, OErr)
            | Panic => (tr, OPanic)
            end
        | _ => ([], OErr)
        end
    end.
End Worker.

Arguments mkPC {Cert}. Arguments mkRE {Cert}. Arguments R429 {Cert}. Arguments RErr {Cert}.
Arguments REntries {Cert}. Arguments EEntry {Cert}. Arguments EState {Cert}.
Arguments SQueued {Cert}. Arguments SSkipExpired {Cert}. Arguments SSkipNoChain {Cert}.
Arguments SFatal {Cert}. Arguments mkEnv {Cert}. Arguments TSOk {Cert}. Arguments TSRetry {Cert}.
Arguments TSFatal {Cert}. Arguments IFCert {Cert}. Arguments IFNetErr {Cert}. Arguments IFFatal {Cert}.
Arguments mkTE {Cert}. Arguments mkTEnv {Cert}.
