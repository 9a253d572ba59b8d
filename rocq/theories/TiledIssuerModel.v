(** * The issuers of a tiled log
    /repo/go/cmd/ct-fetch/tiled.go:121-152 [GetCertificate] with its cache, 177-246
    [storeLogEntry] and 248-352 [Run] on top of it, and ct-fetch.go:102-167: the cache
    lives as long as the loop over the jobs of one log.

    CtFetchModel.v has the same worker with the outcome of each look-up given;
    P_TiledIssuer.v shows that the two agree. *)
From Verif Require Import Base MerkleModel CtFetchModel SerialModel LeafModel.

Section Issuers.
  Context {Cert : Type}.
  (** types.go:36-97 ParseCertificate, NotAfter, IsPreIssuer: any function of the bytes *)
  Variable parse : bytes -> option (Cert * Z * bool).

  (** The cache (the key is the fingerprint in hexadecimal), the answers still to come
      for requests to [issuer/...] ([None]: any network error; none are left: errors from
      then on), and the requests made so far with their answers, the newest first. *)
  Record world := mkWorld {
    w_map : list (bytes * (Cert * Z * bool));
    w_net : list (option bytes);
    w_reqs : list (bytes * option bytes) }.

  Inductive fetched := FCert (c : Cert * Z * bool) | FNet | FFatal.

  (** tiled.go:127-152 *)
  Definition getCertificate (fp : bytes) (w : world) : fetched * world :=
    match alookup (hexEncode fp) (w_map w) with
    | Some c => (FCert c, w)
    | None =>
        let ans := hd None (w_net w) in
        let w' := mkWorld (w_map w) (tl (w_net w)) ((hexEncode fp, ans) :: w_reqs w) in
        match ans with
        | None => (FNet, w')
        | Some der =>
            match parse der with
            | None => (FFatal, w')
            | Some c => (FCert c, mkWorld (aset (hexEncode fp) c (w_map w')) (w_net w') (w_reqs w'))
            end
        end
    end.

  (** sunlight.LogEntry: time, Merkle leaf, the certificate or precertificate and the
      fingerprints of the chain; and what the world does meanwhile: the clock, and
      whether the sends to the channel are cancelled. *)
  Record wireEntry := mkWE {
    we_ts : N; we_leaf : bytes; we_der : bytes; we_fps : list bytes;
    we_now : Z; we_cancelled : bool; we_saveCancelled : bool }.

  (** tiled.go:177-246; the first look-up of a certificate signed through a
      precertificate signer is followed by a second one *)
  Definition storeW (logExpired : bool) (e : wireEntry) (w : world) : tiledStore Cert * world :=
    match parse (we_der e) with
    | None => (TSFatal, w)
    | Some (c, notAfter, _) =>
        if (notAfter <? we_now e)%Z && negb logExpired then (TSOk SSkipExpired, w)
        else match we_fps e with
        | [] => (TSOk SSkipNoChain, w)
        | fp0 :: rest =>
            let send (iss : Cert) := if we_cancelled e then TSFatal else TSOk (SQueued c iss) in
            match getCertificate fp0 w with
            | (FNet, w1) => (TSRetry, w1)
            | (FFatal, w1) => (TSFatal, w1)
            | (FCert (i0, _, signer), w1) =>
                if signer then
                  match rest with
                  | [] => (TSFatal, w1)
                  | fp1 :: _ =>
                      match getCertificate fp1 w1 with
                      | (FNet, w2) => (TSRetry, w2)
                      | (FFatal, w2) => (TSFatal, w2)
                      | (FCert (i1, _, _), w2) => (send i1, w2)
                      end
                  end
                else (send i0, w1)
            end
        end
    end.

  (** tiled.go:294-327 *)
  Fixpoint readW (logExpired : bool) (batchSize now : N) (es : list wireEntry)
      (endCancelled clientErr : bool) (s : logState) (maxEntry minTs maxTs : N) (w : world)
    : list (event Cert) * (logState * N * N * N) * res bool * world :=
    match es with
    | [] =>
        let s' := updateStateTiled maxEntry minTs maxTs now s in
        if endCancelled then ([], (s', maxEntry, minTs, maxTs), Err, w)
        else ([EState s'], (s', maxEntry, minTs, maxTs), Ok (negb clientErr), w)
    | e :: es' =>
        match storeW logExpired e w with
        | (TSRetry, w1) => ([], (s, maxEntry, minTs, maxTs), Ok false, w1)
        | (TSFatal, w1) => ([], (s, maxEntry, minTs, maxTs), Err, w1)
        | (TSOk o, w1) =>
            let i := add64 maxEntry 1 in
            let mn := N.min minTs (we_ts e) in
            let mx := N.max maxTs (we_ts e) in
            let ev := EEntry i (we_ts e) (we_leaf e) o in
            if (batchSize =? 0)%N then ([ev], (s, i, mn, mx), Panic, w1)
            else if (i mod batchSize =? 0)%N then
              let s' := updateStateTiled i mn mx now s in
              if we_saveCancelled e then ([ev], (s', i, mn, mx), Err, w1)
              else
                let '(tr, vars, r, w2) := readW logExpired batchSize now es' endCancelled clientErr s' i mn mx w1 in
                (ev :: EState s' :: tr, vars, r, w2)
            else
              let '(tr, vars, r, w2) := readW logExpired batchSize now es' endCancelled clientErr s i mn mx w1 in
              (ev :: tr, vars, r, w2)
        end
    end.

  (** What a job sees besides the issuers. *)
  Record wireEnv := mkWEnv {
    wj_head : option sth; wj_recent : bool; wj_now : N; wj_logExpired : bool;
    wj_first : list wireEntry * bool * bool;
    wj_second : list wireEntry * bool * bool;
    wj_sleepCancelled : bool }.

  (** tiled.go:248-352 *)
  Definition runW (batchSize : N) (s : logState) (e : wireEnv) (w : world) : list (event Cert) * outcome * world :=
    match wj_head e with
    | None => ([], OOk, w)
    | Some h =>
        match chooseTaskTiled batchSize (wj_recent e) (wj_head e) s with
        | TSleep =>
            if (add64 (ls_maxEntry s) 1 =? sth_size h)%N then
              if wj_sleepCancelled e then ([], OErr, w)
              else ([EState (updateStateTiled (ls_maxEntry s) (ls_minTs s) (sth_ts h) (wj_now e) s)], OOk, w)
            else ([], OOk, w)
        | TUpdate =>
            let '(es, c, ce) := wj_first e in
            let '(tr, _, r, w1) := readW (wj_logExpired e) batchSize (wj_now e) es c ce s
                                     (ls_maxEntry s) (ls_minTs s) (ls_maxTs s) w in
            (tr, match r with Ok _ => OOk | Err => OErr | Panic => OPanic end, w1)
        | TForceUpdate =>
            let '(es, c, ce) := wj_first e in
            let '(tr, (s1, mE, mn, mx), r, w1) := readW (wj_logExpired e) batchSize (wj_now e) es c ce s
                                     (ls_maxEntry s) (ls_minTs s) (ls_maxTs s) w in
            match r with
            | Ok true =>
                let '(es2, c2, ce2) := wj_second e in
                let '(tr2, _, r2, w2) := readW (wj_logExpired e) batchSize (wj_now e) es2 c2 ce2 s1 mE mn mx w1 in
                (tr ++ tr2, match r2 with Ok _ => OOk | Err => OErr | Panic => OPanic end, w2)
            | Ok false => (tr, OOk, w1)
            | Err => (tr, OErr, w1)
            | Panic => (tr, OPanic, w1)
            end
        | _ => ([], OErr, w)
        end
    end.

  (** ct-fetch.go:107-167: the jobs of one log, each with the state found in the
      database at its start; an error ends the loop. *)
  Fixpoint jobsW (batchSize : N) (js : list (logState * wireEnv)) (w : world) : list (event Cert) * world :=
    match js with
    | [] => ([], w)
    | (s, e) :: js' =>
        let '(tr, o, w1) := runW batchSize s e w in
        match o with
        | OOk => let (tr', w2) := jobsW batchSize js' w1 in (tr ++ tr', w2)
        | _ => (tr, w1)
        end
    end.
End Issuers.
Arguments mkWorld {Cert}. Arguments w_map {Cert}. Arguments w_net {Cert}. Arguments w_reqs {Cert}.
Arguments FCert {Cert}. Arguments FNet {Cert}. Arguments FFatal {Cert}.
