(** * The workers of aggregate-crls, as a transition system
    /repo/go/cmd/aggregate-crls/aggregate-crls.go lines 91-171, 304-437, 456-496 and
    541-590.

    [AggModel.aggregateCrls] runs the issuers one after the other.  Here any
    number of workers take them from the queue and work at the same time; a
    signal can arrive and the process can die at any moment.  One step of a
    fetch worker is one change of the files of a URL (the download goes to a
    temporary file piece by piece, the temporary file is renamed or removed);
    one step of an aggregation worker is one CRL, or one piece of a revocation
    file.

    Simplified: what a download sees is chosen when it begins ([AggModel]
    oracles); certificates are always found (lines 104, 312); the queue is
    filled before the workers start, as in the code (lines 404-427). *)
From Verif Require Import Base MerkleModel SerialModel AggModel.
From Coq Require Import Strings.Byte.

Section System.
  Variable sha256 : bytes -> bytes.
  Variable lower : bytes -> bytes.
  Variable Cert : Type.
  Variable parseCRL : bytes -> option crl.
  Variable checkSig : Cert -> bytes -> bool.

  (** An entry of the queue (types.IssuerCrlUrls), with what is looked up for the
      issuer: its certificate and whether its CRLs are partitioned. *)
  Record task := mkTask {
    t_issuer : bytes; t_cert : Cert; t_partitioned : bool; t_urls : list url }.

  (** What the environment may do: fetching this URL, processing its CRL. *)
  Variable allowedFetch : task -> url -> fetchEnv -> Prop.
  Variable allowedProc : task -> url -> procEnv -> Prop.

  Notation crlPath := (crlPath sha256 lower).
  Notation crlValid := (crlValid Cert parseCRL checkSig).
  Notation processAll := (processAll Cert parseCRL checkSig).

  (** The two files of a URL. *)
  Definition putFs (p : bytes) (s : fs) (d : disk) : disk :=
    put p (fs_final s) (put (tmpOf p) (fs_tmp s) d).

  (** aggregate-crls.go:91-142 [crlFetchWorkerProcessOne]: the successive states
      of the two files, the path returned, and the audit entries. *)
  Definition fetchPlan (t : task) (e : fetchEnv) (u : url) (d : disk) : list fs * option bytes * list audit :=
    if fe_mkdirErr e then ([], None, [])
    else
      let p := crlPath (t_issuer t) u in
      let '(tr, s, ok, _, au) :=
        downloadAndVerify (crlValid (t_cert t)) 3 (fe_dv e) (mkFS (alookup (tmpOf p) d) (alookup p d)) in
      if negb ok then (tr, None, au)
      else match fs_final s with
           | None => (tr, None, au)
           | Some f =>
               if fe_statErr e then (tr, None, au)
               else (tr, Some p, au ++ (if (allowableAge <? fe_now e - f_mtime f)%Z then [AuOld] else []))
           end.

  (** The download a worker is in the middle of: what it will return and the
      states of the files still to come. *)
  Record current := mkCur {
    c_url : url; c_env : fetchEnv; c_path : option bytes; c_audit : list audit; c_todo : list fs }.

  (** An issuer in the hands of a fetch worker (lines 147-166).  The environments
      in [fi_done] are a record for the proofs: nothing reads them. *)
  Record fitem := mkF {
    fi_task : task; fi_done : list (url * fetchEnv * option bytes);
    fi_cur : option current; fi_rest : list url }.

  Inductive fworker := FIdle | FBusy (i : fitem) | FGone.

  (** An issuer in the hands of an aggregation worker (lines 308-397);
      [ai_penvs] is a record for the proofs. *)
  Inductive aphase :=
  | AProc (failed : bool) (serials : list (bytes * N)) (rest : list (url * option bytes))
  | AWrite (content : bytes) (n : nat)      (* the first [n] bytes are in the file *)
  | ADone (o : aggOutcome).
  Record aitem := mkA {
    ai_task : task; ai_done : list (url * fetchEnv * option bytes);
    ai_penvs : list procEnv; ai_phase : aphase }.

  Inductive aworker := AIdle | ABusy (i : aitem) | AGone.

  Inductive phase := Fetching | Aggregating | Ended (code : nat).

  Record st := mkSt {
    s_phase : phase; s_cancelled : bool;
    s_queue : list task; s_fetch : list fworker;       (* crlChan, crlFetchWorker *)
    s_results : list fitem; s_agg : list aworker;      (* resultChan, aggregateCRLWorker *)
    s_lost : list fitem; s_given : list aitem; s_out : list aitem;
      (* records for the proofs: given up when cancelled (twice), finished *)
    s_disk : disk; s_rev : revDir; s_saved : bool;     (* s_saved: SaveIssuersList done *)
    s_audit : list (bytes * url * audit) }.

  (** The result for a URL as the aggregation gets it. *)
  Definition urlPath (x : url * fetchEnv * option bytes) : url * option bytes := (fst (fst x), snd x).

  Definition setFetch (s : st) (q : list task) (ws : list fworker) (rs lost : list fitem) (d : disk)
      (au : list (bytes * url * audit)) : st :=
    mkSt (s_phase s) (s_cancelled s) q ws rs (s_agg s) lost (s_given s) (s_out s) d (s_rev s) (s_saved s) (s_audit s ++ au).
  Definition setAgg (s : st) (rs : list fitem) (ws : list aworker) (given out : list aitem) (r : revDir)
      (au : list (bytes * url * audit)) : st :=
    mkSt (s_phase s) (s_cancelled s) (s_queue s) (s_fetch s) rs ws (s_lost s) given out (s_disk s) r (s_saved s) (s_audit s ++ au).
  Definition setPhase (s : st) (p : phase) (ws : list aworker) (saved : bool) : st :=
    mkSt p (s_cancelled s) (s_queue s) (s_fetch s) (s_results s) ws (s_lost s) (s_given s) (s_out s) (s_disk s) (s_rev s)
      saved (s_audit s).

  Definition audited (t : task) (u : url) (au : list audit) : list (bytes * url * audit) :=
    map (fun a => (t_issuer t, u, a)) au.

  (** [fetchMove s i w' sent lost d au]: what a fetch worker holding [i] can do: it
      becomes [w'], sends [sent], gives up [lost], leaves the disk [d] and adds
      [au] to the audit. *)
  Inductive fetchMove (s : st) : fitem -> fworker -> list fitem -> list fitem -> disk -> list (bytes * url * audit) -> Prop :=
  (** lines 154-158 *)
  | FmCancelled t done u rest : s_cancelled s = true ->
      fetchMove s (mkF t done None (u :: rest)) FGone [] [mkF t done None (u :: rest)] (s_disk s) []
  (** line 160 begins *)
  | FmStart t done u rest e tr p au : s_cancelled s = false -> fe_cancelled e = false -> allowedFetch t u e ->
      fetchPlan t e u (s_disk s) = (tr, p, au) ->
      fetchMove s (mkF t done None (u :: rest)) (FBusy (mkF t done (Some (mkCur u e p au tr)) rest)) [] [] (s_disk s) []
  (** the files of the URL change *)
  | FmFile t done u e p au x tr rest :
      fetchMove s (mkF t done (Some (mkCur u e p au (x :: tr))) rest)
        (FBusy (mkF t done (Some (mkCur u e p au tr)) rest)) [] [] (putFs (crlPath (t_issuer t) u) x (s_disk s)) []
  (** line 160 ends, line 165 *)
  | FmNext t done u e p au rest :
      fetchMove s (mkF t done (Some (mkCur u e p au [])) rest)
        (FBusy (mkF t (done ++ [(u, e, p)]) None rest)) [] [] (s_disk s) (audited t u au)
  (** lines 173-177 *)
  | FmSend t done :
      fetchMove s (mkF t done None []) FIdle [mkF t done None []] [] (s_disk s) [].

  (** What an aggregation worker holding an issuer can do, without ending the process. *)
  Inductive aggMove (s : st) : aitem -> aworker -> list aitem -> list aitem -> revDir -> list (bytes * url * audit) -> Prop :=
  (** lines 333-335 *)
  | AmCancelled t done pes f l x rest : s_cancelled s = true ->
      aggMove s (mkA t done pes (AProc f l (x :: rest))) AGone [mkA t done pes (AProc f l (x :: rest))] [] (s_rev s) []
  (** lines 336-386 *)
  | AmCrl t done pes f l u p rest pe f' l' au : s_cancelled s = false -> pe_cancelled pe = false -> allowedProc t u pe ->
      processAll (t_cert t) (t_partitioned t) (map (fun x => u_norm (fst (fst x))) done) (s_disk s) [(u, p, pe)] f l
        = (Some (f', l'), au) ->
      aggMove s (mkA t done pes (AProc f l ((u, p) :: rest))) (ABusy (mkA t done (pes ++ [pe]) (AProc f' l' rest)))
        [] [] (s_rev s) (map (fun a => (t_issuer t, fst a, snd a)) au)
  (** lines 395-397 *)
  | AmSkip t done pes l :
      aggMove s (mkA t done pes (AProc true l [])) AIdle [] [mkA t done pes (ADone AgIncomplete)] (s_rev s) []
  (** lines 459-472: the file is created or emptied *)
  | AmOpen t done pes l :
      aggMove s (mkA t done pes (AProc false l [])) (ABusy (mkA t done pes (AWrite (revokedFile l) 0))) [] []
        (aset (t_issuer t) [] (s_rev s)) []
  (** lines 476-494: buffered, so pieces of any length reach the file *)
  | AmWrite t done pes c n m : (n < m <= length c)%nat ->
      aggMove s (mkA t done pes (AWrite c n)) (ABusy (mkA t done pes (AWrite c m))) [] []
        (aset (t_issuer t) (firstn m c) (s_rev s)) []
  | AmWritten t done pes c :
      aggMove s (mkA t done pes (AWrite c (length c))) AIdle [] [mkA t done pes (ADone AgWritten)] (s_rev s) [].

  (** Opening or writing a revocation file fails, or is cancelled (lines 459-494):
      glog.Fatalf at line 389 ends the process. *)
  Inductive aggFatal : aitem -> Prop :=
  | AfOpen t done pes l : aggFatal (mkA t done pes (AProc false l []))
  | AfWrite t done pes c n : aggFatal (mkA t done pes (AWrite c n)).

  Inductive step : st -> st -> Prop :=
  (** lines 541-546 *)
  | StSignal s : (s_phase s = Fetching \/ s_phase s = Aggregating) -> s_cancelled s = false ->
      step s (mkSt (s_phase s) true (s_queue s) (s_fetch s) (s_results s) (s_agg s) (s_lost s) (s_given s) (s_out s)
                (s_disk s) (s_rev s) (s_saved s) (s_audit s))
  (** line 147: the next issuer, or the end of the queue *)
  | StTake s w1 w2 t q : s_phase s = Fetching -> s_fetch s = w1 ++ FIdle :: w2 -> s_queue s = t :: q ->
      step s (setFetch s q (w1 ++ FBusy (mkF t [] None (t_urls t)) :: w2) (s_results s) (s_lost s) (s_disk s) [])
  | StLeave s w1 w2 : s_phase s = Fetching -> s_fetch s = w1 ++ FIdle :: w2 -> s_queue s = [] ->
      step s (setFetch s [] (w1 ++ FGone :: w2) (s_results s) (s_lost s) (s_disk s) [])
  | StFetch s w1 w2 i w' sent lost d au : s_phase s = Fetching -> s_fetch s = w1 ++ FBusy i :: w2 ->
      fetchMove s i w' sent lost d au ->
      step s (setFetch s (s_queue s) (w1 ++ w' :: w2) (s_results s ++ sent) (s_lost s ++ lost) d au)
  (** lines 432, 558-564 *)
  | StFetched s : s_phase s = Fetching -> Forall (fun w => w = FGone) (s_fetch s) -> s_cancelled s = false ->
      step s (setPhase s Aggregating (map (fun _ => AIdle) (s_fetch s)) (s_saved s))
  | StStopped s : s_phase s = Fetching -> Forall (fun w => w = FGone) (s_fetch s) -> s_cancelled s = true ->
      step s (setPhase s (Ended 0) [] (s_saved s))
  (** line 308 *)
  | StATake s w1 w2 t done rs : s_phase s = Aggregating -> s_agg s = w1 ++ AIdle :: w2 ->
      s_results s = mkF t done None [] :: rs ->
      step s (setAgg s rs (w1 ++ ABusy (mkA t done [] (AProc false [] (map urlPath done))) :: w2) (s_given s) (s_out s) (s_rev s) [])
  | StALeave s w1 w2 : s_phase s = Aggregating -> s_agg s = w1 ++ AIdle :: w2 -> s_results s = [] ->
      step s (setAgg s [] (w1 ++ AGone :: w2) (s_given s) (s_out s) (s_rev s) [])
  | StAgg s w1 w2 i w' given out r au : s_phase s = Aggregating -> s_agg s = w1 ++ ABusy i :: w2 ->
      aggMove s i w' given out r au ->
      step s (setAgg s (s_results s) (w1 ++ w' :: w2) (s_given s ++ given) (s_out s ++ out) r au)
  | StFatal s w1 w2 i : s_phase s = Aggregating -> s_agg s = w1 ++ ABusy i :: w2 -> aggFatal i ->
      step s (setPhase s (Ended 255) (s_agg s) (s_saved s))
  (** lines 565-567 *)
  | StSave s : s_phase s = Aggregating -> Forall (fun w => w = AGone) (s_agg s) ->
      step s (setPhase s (Ended 0) (s_agg s) true)
  | StSaveErr s : s_phase s = Aggregating -> Forall (fun w => w = AGone) (s_agg s) ->
      step s (setPhase s (Ended 255) (s_agg s) (s_saved s)).

  Inductive runs : st -> st -> Prop :=
  | RunsRefl s : runs s s
  | RunsStep s1 s2 s3 : runs s1 s2 -> step s2 s3 -> runs s1 s3.

  (** lines 404-431 with NumThreads = [n]. *)
  Definition init (n : nat) (ts : list task) (d : disk) (r : revDir) : st :=
    mkSt Fetching false ts (repeat FIdle n) [] [] [] [] [] d r false [].
End System.
