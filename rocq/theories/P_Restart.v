(** * C88: aggregate-crls after a run that was killed
    Statements about AggSystem.v.  A run can be killed in any state; the disk and the
    revocation files are then anything at all, which is what the theorems start from. *)
From Verif Require Import Base MerkleModel SerialModel P_SerialFile AggModel AggProofs P_Agg AggSystem AggSysProofs P_AggSystem.
From Coq Require Import Strings.Byte Permutation.

Section Restart.
  Variables (sha256 lower : bytes -> bytes) (Cert : Type) (parseCRL : bytes -> option crl) (checkSig : Cert -> bytes -> bool).
  Local Notation crlPath := (crlPath sha256 lower).
  Local Notation fetchOne := (fetchOne sha256 lower Cert parseCRL checkSig).
  Local Notation fetchAll := (fetchAll sha256 lower Cert parseCRL checkSig).
  Local Notation fetchJobs := (fetchJobs sha256 lower Cert parseCRL checkSig).
  Local Notation runs := (runs sha256 lower Cert parseCRL checkSig).

  (** Directories can be made and files removed.  Nothing is said about the servers.
      (A download is begun only if nobody has cancelled the run.) *)
  Definition cleans (e : fetchEnv) : Prop := fe_cancelled e = false /\ fe_mkdirErr e = false /\ dv_removeErr (fe_dv e) = false.

  Lemma fetchOne_clears cert issuer e u d : cleans e -> alookup (tmpOf (crlPath issuer u)) (fst (fst (fetchOne cert issuer e u d))) = None.
  Proof using Type.
    intros (_ & M & R). unfold AggModel.fetchOne. rewrite M. set (p := crlPath issuer u).
    pose proof (C28_final_file_safe (crlValid Cert parseCRL checkSig cert) 3 (fe_dv e) (mkFS (alookup (tmpOf p) d) (alookup p d))) as S0.
    destruct (downloadAndVerify _ _ _ _) as [[[[tr s] ok] err] au]. destruct S0 as (_ & _ & _ & _ & _ & T). specialize (T R).
    assert (E : alookup (tmpOf p) (put p (fs_final s) (put (tmpOf p) (fs_tmp s) d)) = None).
    { rewrite alookup_put. replace (beq (tmpOf p) p) with false by (symmetry; apply beq_neq; apply tmpOf_neq). rewrite alookup_put, beq_refl. exact T. }
    destruct (negb ok); [exact E|]. destruct (fs_final s); [destruct (fe_statErr e)|]; exact E.
  Qed.

  Lemma fetchAll_clears cert issuer : forall us d, (forall u e, In (u, e) us -> cleans e) ->
    forall u e, In (u, e) us -> alookup (tmpOf (crlPath issuer u)) (fst (fst (fetchAll cert issuer us d))) = None.
  Proof using Type.
    induction us as [|[v ev] us IH]; intros d C u e I; [destruct I|]. cbn [AggModel.fetchAll].
    pose proof (C v ev (or_introl eq_refl)) as CV. rewrite (proj1 CV).
    pose proof (fetchOne_clears cert issuer ev v d CV) as T. destruct (fetchOne cert issuer ev v d) as [[d1 p] au]. cbn [fst] in T.
    assert (C' : forall u e, In (u, e) us -> cleans e) by (intros u0 e0 I0; apply (C u0 e0); right; exact I0).
    specialize (IH d1 C'). pose proof (fetchAll_frame sha256 lower Cert parseCRL checkSig cert issuer us d1 (tmpOf (crlPath issuer u))) as FR.
    destruct (fetchAll cert issuer us d1) as [[d2 r] au2]. cbn [fst] in *.
    destruct (in_dec bytes_eq_dec (tmpOf (crlPath issuer u)) (map (fun ue => tmpOf (crlPath issuer (fst ue))) us)) as [J|J].
    - apply in_map_iff in J. destruct J as [[w ew] [E J]]. cbn [fst] in E. rewrite <- E. apply (IH w ew J).
    - destruct I as [I|I]; [injection I as <- <-|].
      + rewrite FR; [exact T|]. intros [w [ew [J' [X|X]]]]; [apply (tmp_not_path _ _ _ _ _ _ X)|].
        apply J. rewrite X. apply (in_map (fun ue : url * fetchEnv => tmpOf (crlPath issuer (fst ue))) us (w, ew) J').
      + apply (IH u e I).
  Qed.

  Lemma fetchJobs_clears : forall js d, (forall j u e, In j js -> In (u, e) (j_urls j) -> cleans e) ->
    forall j u e, In j js -> In (u, e) (j_urls j) -> alookup (tmpOf (crlPath (j_issuer j) u)) (fst (fst (fetchJobs js d))) = None.
  Proof using Type.
    induction js as [|k js IH]; intros d C j u e I U; [destruct I|]. cbn [AggModel.fetchJobs].
    pose proof (fetchAll_clears (j_cert k) (j_issuer k) (j_urls k) d (fun u e => C k u e (or_introl eq_refl))) as T.
    destruct (fetchAll (j_cert k) (j_issuer k) (j_urls k) d) as [[d1 r] au]. cbn [fst] in T.
    specialize (IH d1 (fun j u e I => C j u e (or_intror I))).
    pose proof (fetchJobs_frame sha256 lower Cert parseCRL checkSig js d1 (tmpOf (crlPath (j_issuer j) u))) as FR.
    destruct (fetchJobs js d1) as [[d2 rs] au2]. cbn [fst] in *.
    destruct (in_dec bytes_eq_dec (tmpOf (crlPath (j_issuer j) u)) (flat_map (fun j' => map (fun ue => tmpOf (crlPath (j_issuer j') (fst ue))) (j_urls j')) js)) as [J|J].
    - apply in_flat_map in J. destruct J as [j' [J1 J2]]. apply in_map_iff in J2. destruct J2 as [[w ew] [E J2]]. cbn [fst] in E. rewrite <- E. apply (IH j' w ew J1 J2).
    - destruct I as [->|I]; [|apply (IH j u e I U)]. rewrite FR; [apply (T u e U)|].
      intros j' J' [w [ew [J2 [X|X]]]]; [apply (tmp_not_path _ _ _ _ _ _ X)|].
      apply J. apply in_flat_map. exists j'. split; [exact J'|]. rewrite X. apply (in_map (fun ue : url * fetchEnv => tmpOf (crlPath (j_issuer j') (fst ue))) (j_urls j') (w, ew) J2).
  Qed.

  (** A run that comes to its end has removed every temporary file of its URLs, whoever
      left them and whatever the servers answered. *)
  Theorem C88_cleared : forall allowedProc n ts d r s, goodQueue Cert ts -> (0 < n)%nat ->
    runs (fun _ _ => cleans) allowedProc (init Cert n ts d r) s -> s_phase Cert s = Ended 0 -> s_cancelled Cert s = false ->
    forall t u, In t ts -> In u (t_urls Cert t) -> alookup (tmpOf (crlPath (t_issuer Cert t) u)) (s_disk Cert s) = None.
  Proof using Type.
    intros AP n ts d r s G N R P C t u It Iu.
    destruct (C68_one_after_the_other sha256 lower Cert parseCRL checkSig _ AP n ts d r s G N R P C) as (js & d' & r' & os & au & TS & A & D & _ & _ & _ & J).
    rewrite D. rewrite <- TS in It. apply in_map_iff in It. destruct It as [j [<- Ij]]. cbn [t_urls t_issuer queued] in *.
    apply in_map_iff in Iu. destruct Iu as [[u' e] [<- Iu]]. cbn [fst].
    pose proof (fetchJobs_clears js d (fun j u e Ij => proj1 (proj2 (J j Ij)) u e) j u' e Ij Iu) as T.
    unfold aggregateCrls in A. destruct (fetchJobs js d) as [[d1 fetched] au1]. cbn [fst] in T.
    assert (E : d' = d1). { destruct fetched as [l|]; [destruct (aggregateJobs _ _ _ _ _ _) as [[r1 os1] au2]|]; congruence. }
    rewrite E. exact T.
  Qed.

  (** Whatever earlier runs left behind: after one run that comes to its end, the next one
      in which the servers answer properly writes exactly what they have. *)
  Theorem C88_two_runs : forall allowedProc body n1 n2 ts d r r2 s1 s2, goodQueue Cert ts -> (0 < n1)%nat -> (0 < n2)%nat ->
    (forall t, In t ts -> NoDup (map (makeFilename sha256 lower) (t_urls Cert t))) ->
    runs (fun _ _ => cleans) allowedProc (init Cert n1 ts d r) s1 -> s_phase Cert s1 = Ended 0 -> s_cancelled Cert s1 = false ->
    runs (honestServers parseCRL checkSig body) honestReads (init Cert n2 ts (s_disk Cert s1) r2) s2 -> s_phase Cert s2 = Ended 0 -> s_cancelled Cert s2 = false ->
    forall t, In t ts -> exists data, alookup (t_issuer Cert t) (s_rev Cert s2) = Some data /\
      readsAs data (flat_map (fun u => snd (body t u)) (t_urls Cert t)).
  Proof using Type.
    intros AP body n1 n2 ts d r r2 s1 s2 G N1 N2 W R1 P1 C1 R2 P2 C2 t It.
    pose proof (C88_cleared AP n1 ts d r s1 G N1 R1 P1 C1) as CL.
    destruct (C68_one_after_the_other sha256 lower Cert parseCRL checkSig _ _ n2 ts _ r2 s2 G N2 R2 P2 C2) as (js & d' & r' & os & au & TS & A & D & Rv & _ & _ & J).
    set (bls := fun j : job Cert => map (fun ue => body (queued Cert j) (fst ue)) (j_urls j)).
    assert (ND : NoDup (map j_issuer js)).
    { replace (map j_issuer js) with (map (t_issuer Cert) ts); [apply (proj1 G)|]. rewrite <- TS, map_map. reflexivity. }
    destruct (C29_honest_run sha256 lower Cert parseCRL checkSig js (map bls js) (s_disk Cert s1) r2 ND) as (d3 & r3 & au3 & A3 & F).
    { assert (H : forall j, In j js -> honestJob sha256 lower Cert parseCRL checkSig (s_disk Cert s1) j (bls j)).
      { intros j Hj. destruct (J j Hj) as [J1 [J2 J3]].
        assert (Tj : In (queued Cert j) ts) by (rewrite <- TS; apply in_map; exact Hj).
        pose proof (W _ Tj) as W1. cbn [t_urls queued] in W1. unfold honestJob. split; [apply (proj2 G _ Tj)|].
        split.
        { unfold bls. assert (J2' : forall ue, In ue (j_urls j) -> honestUrl Cert parseCRL checkSig (j_cert j) ue (body (queued Cert j) (fst ue)))
            by (intros [u e] I; apply (J2 u e I)).
          clear -J2'. induction (j_urls j) as [|x l IH]; constructor; [apply J2'; left; reflexivity|]. apply IH. intros; apply J2'; right; assumption. }
        split; [rewrite map_map in W1; exact W1|].
        split; [intros u e I|split; [|exact J1]].
        { pose proof (CL (queued Cert j) u Tj (in_map fst (j_urls j) (u, e) I)) as X. cbn [t_issuer queued] in X. rewrite X. apply replaces_none. }
        intros pe I. destruct (J3 pe I) as [X1 [u [_ X2]]]. split; [exact X1|exact X2]. }
      clear -H. induction js as [|j js IH]; cbn [map]; constructor; [apply H; left; reflexivity|]. apply IH. intros; apply H; right; assumption. }
    rewrite A in A3. assert (E : r3 = r') by congruence. subst r3.
    rewrite <- TS in It. apply in_map_iff in It. destruct It as [j [<- Hj]].
    assert (X : exists data, alookup (j_issuer j) r' = Some data /\ readsAs data (flat_map snd (bls j))).
    { clear -F Hj. induction js as [|j0 js IH]; [destruct Hj|]. cbn [map] in F. inversion F as [|a b c e F1 F2 E1 E2]; subst. destruct Hj as [->|Hj]; [exact F1|apply IH; assumption]. }
    destruct X as [data [X1 X2]]. exists data. cbn [t_issuer queued t_urls]. rewrite Rv. split; [exact X1|].
    replace (flat_map (fun u => snd (body (queued Cert j) u)) (map fst (j_urls j))) with (flat_map snd (bls j)); [exact X2|].
    unfold bls. rewrite !flat_map_concat_map, !map_map. reflexivity.
  Qed.
End Restart.
Print Assumptions C88_cleared.
Print Assumptions C88_two_runs.

(** ** Concrete runs *)

Definition qTask : task byte := xTask (B "I") "K" [xI1].
Definition qPath : bytes := crlPath xHash (fun s => s) (B "I") xI1.
(** The server had "C1aK" and has "C1bK" now. *)
Definition qBody (t : task byte) (u : url) : bytes * list (bytes * N) := (B "C1bK", [(B "b", 0%N)]).
Definition qEnv : fetchEnv :=
  mkFetch false false (mkDv (fun _ => (false, mkDl false (Some (mkHead (Some 20%Z) (Some 4%Z) true)) (GResp 200 [B "C1bK"] false (Some 20%Z)) false false false 60%Z)) false false false false) false 70%Z.
Definition qDown : fetchEnv :=
  mkFetch false false (mkDv (fun _ => (false, mkDl false None GErr false false false 60%Z)) false false false false) false 70%Z.

Lemma qHonest : honestServers xParse xSig qBody qTask xI1 qEnv.
Proof.
  unfold honestServers, honestUrl, qTask, xTask. cbn [fst snd qEnv qBody fe_cancelled fe_mkdirErr fe_statErr fe_dv dv_tmpReadErr dv_renameErr t_cert].
  do 5 (split; [reflexivity|]). split.
  - exists (mkDl false (Some (mkHead (Some 20%Z) (Some 4%Z) true)) (GResp 200 [B "C1bK"] false (Some 20%Z)) false false false 60%Z), [B "C1bK"], (Some 20%Z).
    repeat (split; [reflexivity|]). reflexivity.
  - exists (mkCrl 49 (Some [mkEntry (B "b") []])). split; [vm_compute; reflexivity|]. split; [vm_compute; reflexivity|]. vm_compute. reflexivity.
Qed.

Lemma runs_cons aF aP s1 s2 s3 : step xHash (fun s => s) byte xParse xSig aF aP s1 s2 ->
  runs xHash (fun s => s) byte xParse xSig aF aP s2 s3 -> runs xHash (fun s => s) byte xParse xSig aF aP s1 s3.
Proof. intros ST R. eapply runs_trans; [|exact R]. eapply RunsStep; [apply RunsRefl|exact ST]. Qed.

Ltac nFetch e H :=
  eapply runs_cons; [eapply (StTake _ _ _ _ _ _ _ _ [] []); reflexivity|]; tidy;
  eapply runs_cons; [eapply (StFetch _ _ _ _ _ _ _ _ [] []); [reflexivity|reflexivity|]; eapply (FmStart _ _ _ _ _ _ _ _ _ _ _ e); [reflexivity|reflexivity|exact H|plan]|]; tidy;
  repeat (eapply runs_cons; [eapply (StFetch _ _ _ _ _ _ _ _ [] []); [reflexivity|reflexivity|apply FmFile]|]; tidy);
  eapply runs_cons; [eapply (StFetch _ _ _ _ _ _ _ _ [] []); [reflexivity|reflexivity|apply FmNext]|]; tidy;
  eapply runs_cons; [eapply (StFetch _ _ _ _ _ _ _ _ [] []); [reflexivity|reflexivity|apply FmSend]|]; tidy;
  eapply runs_cons; [eapply (StLeave _ _ _ _ _ _ _ _ [] []); reflexivity|]; tidy;
  eapply runs_cons; [eapply StFetched; [reflexivity|constructor; [reflexivity|constructor]|reflexivity]|]; tidy;
  eapply runs_cons; [eapply (StATake _ _ _ _ _ _ _ _ [] []); reflexivity|]; tidy;
  eapply runs_cons; [eapply (StAgg _ _ _ _ _ _ _ _ [] []); [reflexivity|reflexivity|];
    eapply (AmCrl _ _ _ _ _ _ _ _ _ _ _ _ _ (mkProc false false None)); [reflexivity|reflexivity|first [exact I|reflexivity]|plan]|]; tidy.
Ltac nWrite :=
  eapply runs_cons; [eapply (StAgg _ _ _ _ _ _ _ _ [] []); [reflexivity|reflexivity|apply AmOpen]|]; tidy;
  match goal with |- runs _ _ _ _ _ _ _ (mkSt _ _ _ _ _ _ [ABusy _ (mkA _ ?t ?dn ?pes (AWrite ?c ?k))] _ _ _ _ _ _ _) _ =>
    eapply runs_cons; [eapply (StAgg _ _ _ _ _ _ _ _ [] []); [reflexivity|reflexivity|apply (AmWrite _ _ _ _ _ t dn pes c k (length c)); vm_compute; lia]|]; tidy;
    eapply runs_cons; [eapply (StAgg _ _ _ _ _ _ _ _ [] []); [reflexivity|reflexivity|apply AmWritten]|]; tidy end.
Ltac nSkip := eapply runs_cons; [eapply (StAgg _ _ _ _ _ _ _ _ [] []); [reflexivity|reflexivity|apply AmSkip]|]; tidy.
Ltac nEnd :=
  eapply runs_cons; [eapply (StALeave _ _ _ _ _ _ _ _ [] []); reflexivity|]; tidy;
  eapply runs_cons; [eapply StSave; [reflexivity|constructor; [reflexivity|constructor]]|]; tidy;
  apply RunsRefl.

(** A run that is killed when the CRL has been fetched and not yet checked. *)
Definition qLeft : disk := [(tmpOf qPath, mkFile (B "C1aK") 50)].
Lemma qKilled : exists k, xRuns (init byte 1 [qTask] [] []) k /\ s_phase byte k = Fetching /\ s_disk byte k = qLeft.
Proof.
  unfold qTask. eexists. split.
  { tidy. eapply xRuns_cons; [eapply (StTake _ _ _ _ _ _ _ _ [] []); reflexivity|]; tidy.
    fetchStart (@nil (fworker byte)) (@nil (fworker byte)) (xServe (B "C1aK")).
    do 2 (eapply xRuns_cons; [eapply (StFetch _ _ _ _ _ _ _ _ [] []); [reflexivity|reflexivity|apply FmFile]|]; tidy).
    apply RunsRefl. }
  vm_compute. split; reflexivity.
Qed.

(** One run is not enough: what a killed run left is taken for what the server has now,
    which has the same length and an earlier date than the file left. *)
Theorem C88_one_run_refuted : exists k s,
  xRuns (init byte 1 [qTask] [] []) k /\
  runs xHash (fun s => s) byte xParse xSig (honestServers xParse xSig qBody) honestReads (init byte 1 [qTask] (s_disk byte k) []) s /\
  s_phase byte s = Ended 0 /\ s_cancelled byte s = false /\
  exists data, alookup (t_issuer byte qTask) (s_rev byte s) = Some data /\
    ~ readsAs data (flat_map (fun u => snd (qBody qTask u)) (t_urls byte qTask)).
Proof.
  destruct qKilled as (k & K1 & _ & K2). exists k. eexists. split; [exact K1|]. rewrite K2. split.
  { unfold qLeft. set (p := tmpOf qPath). vm_compute in p. subst p. pose proof qHonest as QH. unfold qTask, xTask in *. tidy. nFetch qEnv QH. nWrite. nEnd. }
  split; [reflexivity|]. split; [reflexivity|]. exists (B "0061" ++ [nl]). split; [vm_compute; reflexivity|].
  intros [ts [E X]]. set (l := flat_map _ _) in X. vm_compute in l. subst l. inversion X as [|a t l0 ts0 [b [Hb Sp]] X0 E1 E2]. subst. inversion X0. subst.
  cbn [flat_map] in E. rewrite app_nil_r in E. change (B "0061" ++ [nl] = t ++ [nl]) in E. apply app_inj_tail in E. destruct E as [<- _].
  apply spells_decode in Sp. vm_compute in Sp. discriminate Sp.
Qed.
Print Assumptions C88_one_run_refuted.

(** The killed run, then one during which the server cannot be reached, then one that is
    answered: the hypotheses of [C88_two_runs] can be met. *)
Example C88_example : exists k s1 s2,
  xRuns (init byte 1 [qTask] [] []) k /\ s_disk byte k = [(tmpOf qPath, mkFile (B "C1aK") 50)] /\
  runs xHash (fun s => s) byte xParse xSig (fun _ _ => cleans) xFree (init byte 1 [qTask] (s_disk byte k) []) s1 /\ s_phase byte s1 = Ended 0 /\ s_cancelled byte s1 = false /\
  runs xHash (fun s => s) byte xParse xSig (honestServers xParse xSig qBody) honestReads (init byte 1 [qTask] (s_disk byte s1) []) s2 /\ s_phase byte s2 = Ended 0 /\ s_cancelled byte s2 = false /\
  goodQueue byte [qTask] /\ (forall t, In t [qTask] -> NoDup (map (makeFilename xHash (fun s => s)) (t_urls byte t))) /\
  alookup (B "I") (s_rev byte s2) = Some (B "0062" ++ [nl]).
Proof.
  destruct qKilled as (k & K1 & _ & K2). exists k. rewrite K2.
  assert (S1 : exists s1, runs xHash (fun s => s) byte xParse xSig (fun _ _ => cleans) xFree (init byte 1 [qTask] qLeft []) s1 /\ s_phase byte s1 = Ended 0 /\ s_cancelled byte s1 = false /\ s_disk byte s1 = []).
  { eexists. split.
    { assert (QD : cleans qDown) by (repeat split). unfold qLeft. set (p := tmpOf qPath). vm_compute in p. subst p. unfold qTask, xTask in *. tidy. nFetch qDown QD. nSkip. nEnd. }
    vm_compute. repeat split. }
  destruct S1 as (s1 & R1 & P1 & C1 & D1). exists s1. rewrite D1. eexists.
  split; [exact K1|]. split; [reflexivity|]. split; [exact R1|]. split; [exact P1|]. split; [exact C1|]. split.
  { pose proof qHonest as QH. unfold qTask, xTask in *. tidy. nFetch qEnv QH. nWrite. nEnd. }
  split; [reflexivity|]. split; [reflexivity|]. split.
  { split; [constructor; [intros []|constructor]|]. intros t [<-|[]] [X|[]]; discriminate X. }
  split; [intros t [<-|[]]; constructor; [intros []|constructor]|]. vm_compute. reflexivity.
Qed.
