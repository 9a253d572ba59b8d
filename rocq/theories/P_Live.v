(** * Property C10: repeated jobs cover the whole of an honest RFC 6962 log.

    Model: CtFetchModel.v ([run]: one job).  [honestEnv]: what a job observes when
    the log behaves (CtFetchLive.v). *)
From Verif Require Import Base MerkleModel MerkleSpec MerkleProofs MerkleProofs2 MerkleProofs3
  CtFetchModel CtFetchProofs CtFetchSafety CtFetchJobs P_Merkle CtFetchLive.

(** [jobsFrom P J k s s']: [k] jobs one after the other lead from saved state [s] to
    saved state [s']; each job observes something allowed by [P] and starts from what
    the one before it saved. *)
Inductive jobsFrom (sha256 : bytes -> bytes) {Cert : Type} (P : logState -> jobEnv Cert -> Prop) (J : N)
  : nat -> logState -> logState -> Prop :=
| jf_none s : jobsFrom sha256 P J 0 s s
| jf_job k s e tr o s' : P s e -> run sha256 Cert J s e = (tr, o) ->
    jobsFrom sha256 P J k (savedAfter s tr) s' -> jobsFrom sha256 P J (S k) s s'.

Definition covers (s : logState) (n : N) : Prop :=
  ls_lastUpdate s <> None /\ ls_minEntry s = 0%N /\ ls_maxEntry s = (n - 1)%N.

(** Number of jobs of size [J] needed for [x] entries. *)
Definition jobsFor (J x : N) : N := ((x + J - 1) / J)%N.

Lemma jobsFor_0 J : (0 < J)%N -> jobsFor J 0 = 0%N.
Proof. intros H. apply N.div_small. lia. Qed.
Lemma jobsFor_le J x : (0 < J)%N -> (0 < x)%N -> (x <= J)%N -> jobsFor J x = 1%N.
Proof. intros H1 H2 H3. unfold jobsFor. symmetry. apply (N.div_unique _ _ _ (x - 1)); lia. Qed.
Lemma jobsFor_add J x : (0 < J)%N -> jobsFor J (x + J) = (jobsFor J x + 1)%N.
Proof.
  intros H. unfold jobsFor. replace (x + J + J - 1)%N with (x + J - 1 + 1 * J)%N by lia.
  rewrite N.div_add by lia. reflexivity.
Qed.
Lemma jobsFor_down J a : (0 < J)%N -> (0 < a)%N -> jobsFor J a = (jobsFor J ((a - 1) / J * J) + 1)%N.
Proof.
  intros H Ha. rewrite <- jobsFor_add by exact H. unfold jobsFor.
  pose proof (N.div_mod (a - 1) J ltac:(lia)) as D. pose proof (N.mod_lt (a - 1) J ltac:(lia)) as M.
  revert D M. generalize ((a - 1) / J)%N ((a - 1) mod J)%N. intros q m D M.
  rewrite <- (N.div_unique (a + J - 1) J (q + 1) m) by nia.
  apply (N.div_unique _ _ _ (J - 1)); nia.
Qed.
Lemma jobsFor_pos J x : (0 < J)%N -> (0 < x)%N -> (0 < jobsFor J x)%N.
Proof.
  intros H Hx. unfold jobsFor. apply N.div_str_pos. lia.
Qed.

(** ** From a state reached before *)

(** Jobs still needed: forwards to the end of the log, then backwards to entry 0. *)
Definition needed (J n : N) (s : logState) : N :=
  (jobsFor J (n - 1 - ls_maxEntry s) + jobsFor J (ls_minEntry s))%N.

Lemma needed_covers J n s : (0 < J)%N -> ls_lastUpdate s <> None -> (ls_maxEntry s < n)%N ->
  (needed J n s = 0%N <-> covers s n).
Proof.
  intros HJ Lu Hm. unfold needed, covers. split.
  - intros H. split; [exact Lu|].
    destruct (N.eq_dec (ls_minEntry s) 0) as [E|E]; [|pose proof (jobsFor_pos J (ls_minEntry s)); lia].
    destruct (N.eq_dec (n - 1 - ls_maxEntry s) 0) as [E'|E']; [|pose proof (jobsFor_pos J (n - 1 - ls_maxEntry s)); lia].
    lia.
  - intros [_ [-> ->]]. replace (n - 1 - (n - 1))%N with 0%N by lia. rewrite jobsFor_0 by exact HJ. reflexivity.
Qed.

(** Every honest job that is not put off for being too recent needs one less. *)
Lemma one_job sha256 (Cert : Type) (L : list (rawEntry Cert)) le J n s e tr o :
  (forall x, length (sha256 x) = 32%nat) ->
  (4 <= J < two63)%N -> (4 <= n <= two63)%N ->
  honestEnv sha256 Cert L le J n s e -> (ls_maxEntry s = (n - 1)%N \/ je_recent Cert e = false) ->
  ls_lastUpdate s <> None -> wfState s -> (ls_maxEntry s < n)%N -> (ls_minEntry s = 0 \/ 4 <= ls_minEntry s)%N ->
  run sha256 Cert J s e = (tr, o) ->
  o = OOk /\ let s' := savedAfter s tr in
  ls_lastUpdate s' <> None /\ wfState s' /\ (ls_maxEntry s <= ls_maxEntry s' < n)%N /\
  (ls_minEntry s' = 0 \/ 4 <= ls_minEntry s')%N /\ needed J n s' = (needed J n s - 1)%N.
Proof.
  intros H32 HJ Hn HE Hr Lu W Hm Hs R.
  destruct (honest_progress sha256 Cert L le H32 J n s e ltac:(lia) Hn HE W (fun _ => Hm)) as [tr' [R' P]].
  { intros _ _. destruct Hs; [auto|right; right; lia]. }
  rewrite R in R'. injection R' as <- ->. split; [reflexivity|]. cbn zeta.
  destruct P as [P0 P]. set (s' := savedAfter s tr) in *. clearbody s'.
  unfold wfState in *. destruct (ls_lastUpdate s) as [u|]; [|congruence].
  destruct (ls_lastUpdate s') as [u'|]; [|congruence]. split; [discriminate|].
  unfold needed.
  destruct (N.ltb_spec (ls_maxEntry s + J) n) as [H|H].
  - destruct P as [-> ->]. split; [lia|]. split; [lia|]. split; [lia|].
    replace (n - 1 - ls_maxEntry s)%N with ((n - 1 - (ls_maxEntry s + J)) + J)%N by lia.
    rewrite jobsFor_add by lia. lia.
  - destruct (N.ltb_spec 0 (ls_minEntry s)) as [Hb|Hb].
    + destruct P as [-> ->].
      assert (Hle : ((ls_minEntry s - 1) / J * J <= ls_minEntry s - 1)%N)
        by (rewrite N.mul_comm; apply N.mul_div_le; lia).
      split; [lia|]. split; [lia|]. split.
      { destruct ((ls_minEntry s - 1) / J)%N as [|q]; [left; reflexivity|right; nia]. }
      rewrite (jobsFor_down J (ls_minEntry s)) by lia. lia.
    + destruct P as [-> P]. assert (Z : ls_minEntry s = 0%N) by lia. rewrite Z.
      destruct Hr as [Hr|Hr]; rewrite ?Hr in P.
      * assert (E : ls_maxEntry s' = (n - 1)%N) by (rewrite P; destruct (je_recent Cert e); lia).
        rewrite E, Hr. replace (n - 1 - (n - 1))%N with 0%N by lia. rewrite jobsFor_0 by lia. lia.
      * rewrite P. split; [lia|]. split; [lia|]. split; [auto|].
        replace (n - 1 - (n - 1))%N with 0%N by lia. rewrite jobsFor_0 by lia.
        destruct (N.eq_dec (n - 1 - ls_maxEntry s) 0) as [E|E]; [rewrite E, jobsFor_0 by lia; lia|].
        rewrite (jobsFor_le J (n - 1 - ls_maxEntry s)) by lia. lia.
Qed.

(** From any saved range that starts at 0 or after 3, the log is covered exactly
    when enough jobs have been run.  JobSize is at least 4. *)
Theorem C10_resumed_backfill_completes :
  forall (sha256 : bytes -> bytes) (Cert : Type) (L : list (rawEntry Cert)) le J k s s',
    (forall x, length (sha256 x) = 32%nat) ->
    let n := N.of_nat (length L) in
    (4 <= J < two63)%N -> (4 <= n <= two63)%N ->
    ls_lastUpdate s <> None -> (ls_minEntry s <= ls_maxEntry s < n)%N ->
    (ls_minEntry s = 0 \/ 4 <= ls_minEntry s)%N ->
    jobsFrom sha256 (fun s e => honestEnv sha256 Cert L le J n s e /\ je_recent Cert e = false) J k s s' ->
    (covers s' n <-> (jobsFor J (n - 1 - ls_maxEntry s) + jobsFor J (ls_minEntry s) <= N.of_nat k)%N).
Proof.
  intros sha Cert L le J k s s' H32 n HJ Hn Lu Hr Hs Jf.
  assert (W : wfState s) by (unfold wfState; destruct (ls_lastUpdate s); [lia|congruence]).
  fold (needed J n s). assert (Hm : (ls_maxEntry s < n)%N) by lia. clear Hr.
  revert Lu W Hm Hs. induction Jf as [s|k s e tr o s' [HE Rc] R Jf IH]; intros Lu W Hm Hs.
  - rewrite <- (needed_covers J n s) by (auto; lia). change (N.of_nat 0) with 0%N. lia.
  - destruct (one_job sha Cert L le J n s e tr o H32 HJ Hn HE (or_intror Rc) Lu W Hm Hs R) as [_ [A1 [A2 [A3 [A4 A5]]]]].
    cbn zeta in A3. pose proof (IH A1 A2 (proj2 A3) A4) as X. rewrite A5 in X. rewrite X. clear. generalize (needed J n s). intros q. lia.
Qed.
Print Assumptions C10_resumed_backfill_completes.

(** ** From nothing *)
Theorem C10_backfill_completes :
  forall (sha256 : bytes -> bytes) (Cert : Type) (L : list (rawEntry Cert)) le J k s',
    (forall x, length (sha256 x) = 32%nat) ->
    let n := N.of_nat (length L) in
    (4 <= J < two63)%N -> (4 <= n <= two63)%N -> (n <= J \/ J + 4 <= n)%N ->
    jobsFrom sha256 (honestEnv sha256 Cert L le J n) J k freshState s' ->
    (covers s' n <-> (1 + jobsFor J (n - J) <= N.of_nat k)%N).
Proof.
  intros sha Cert L le J k s' H32 n HJ Hn Hc Jf.
  inversion Jf as [s|k' s e tr o s'' HE R Jf']; subst.
  { split; [intros [X _]; elim X; reflexivity|change (N.of_nat 0) with 0%N; lia]. }
  destruct (honest_progress sha Cert L le H32 J n freshState e ltac:(lia) Hn HE ltac:(split; reflexivity)
              ltac:(intros X; elim X; reflexivity) ltac:(intros X; elim X; reflexivity)) as [tr' [R' P]].
  rewrite R in R'. injection R' as <- ->. destruct P as [P0 P]. cbn [ls_lastUpdate freshState] in P. destruct P as [P1 P2].
  set (s1 := savedAfter freshState tr) in *. clearbody s1. clear Jf R HE.
  assert (W : wfState s1) by (unfold wfState; destruct (ls_lastUpdate s1); [lia|congruence]).
  assert (Hs : (ls_minEntry s1 = 0 \/ 4 <= ls_minEntry s1)%N) by lia.
  assert (Nd : needed J n s1 = jobsFor J (n - J)).
  { unfold needed. rewrite P1, P2. replace (n - 1 - (n - 1))%N with 0%N by lia. rewrite jobsFor_0 by lia. lia. }
  assert (G : covers s' n <-> (needed J n s1 <= N.of_nat k')%N); [|rewrite G, Nd; lia].
  clear Nd P1. revert P0 P2 W Hs. induction Jf' as [s|k s e' tr' o' s' HE R Jf IH]; intros Lu Hm W Hs.
  - rewrite <- (needed_covers J n s) by (auto; lia). change (N.of_nat 0) with 0%N. lia.
  - destruct (one_job sha Cert L le J n s e' tr' o' H32 HJ Hn HE (or_introl Hm) Lu W ltac:(lia) Hs R) as [_ [A1 [A2 [A3 [A4 A5]]]]].
    rewrite (IH A1 ltac:(lia) A2 A4), A5. lia.
Qed.
Print Assumptions C10_backfill_completes.

(** Honest jobs exist: from every state, for every log of storable entries. *)
Theorem C10_honest_jobs_exist :
  forall (sha256 : bytes -> bytes) (Cert : Type) (L : list (rawEntry Cert)) le J n s recent,
    (0 < J < two63)%N -> (0 < n <= two63)%N -> (n <= N.of_nat (length L) < two64)%N ->
    Forall (storable Cert le) L ->
    exists e, honestEnv sha256 Cert L le J n s e /\ je_recent Cert e = recent.
Proof.
  intros sha Cert L le J n s recent HJ Hn HL GL.
  assert (Two : (two64 = two63 + two63)%N) by reflexivity.
  set (h := mkSTH n 1). set (w := chooseTask J recent (Some h) s).
  destruct (jobRange J w h s) as [[f l]| |] eqn:Er.
  2,3: exists (mkEnv (Some h) recent 0%N None [] [] le); split; [|reflexivity];
       (split; [exact HL|]; split; [exists 1%N; reflexivity|]; split; [reflexivity|]; split; [constructor|];
        split; [exact GL|]; intros h' f l Eh; cbn [je_head je_recent] in *; injection Eh as <-; fold w; rewrite Er; discriminate).
  set (old := (if (f =? 0)%N then 3 else f)%N).
  assert (Pr : exists p, (old < l + 1)%N -> (l < n)%N ->
             PROOF sha (N.to_nat old) (firstn (N.to_nat (l + 1)) (leaves Cert L)) p).
  { destruct (N.ltb_spec old (l + 1)); [|exists []; intros; lia].
    destruct (N.ltb_spec l n); [|exists []; intros; lia].
    destruct (C04_proof_exists sha (N.to_nat old) (firstn (N.to_nat (l + 1)) (leaves Cert L))) as [p Hp].
    - unfold leaves. rewrite firstn_length, map_length.
      assert (0 < old)%N by (unfold old; destruct (N.eqb_spec f 0); lia). lia.
    - exists p. auto. }
  destruct Pr as [p Hp].
  assert (Rs : forall vs : list subtree, (forall st, In st vs -> (st_first st <= st_last st)%N) ->
             exists rs, served Cert L vs rs).
  { induction vs as [|st vs IH]; intros Hv; [exists []; exact I|].
    destruct IH as [rs Hrs]; [intros; apply Hv; right; assumption|].
    specialize (Hv st ltac:(left; reflexivity)).
    exists (REntries (slice Cert L (st_first st) (N.to_nat (st_last st - st_first st + 1))) :: rs).
    exists rs. split; [|exact Hrs]. apply an_some; [lia|lia|lia|]. apply an_done. lia. }
  destruct (consistencyProofToSubtrees p (fst (proofSizes (f, l))) (snd (proofSizes (f, l)))) as [sts| |] eqn:Ec.
  - destruct (Rs (orderVerifiers w f l sts [])) as [rs Hrs].
    { intros st Hst. pose proof (jobRange_last J w h s (f, l) ltac:(cbn; lia) ltac:(cbn; lia) Er) as Hl. cbn [snd] in Hl.
      destruct (job_verifiers_ok w p f l sts Hl Ec) as [_ [_ B]]. apply B. exact Hst. }
    exists (mkEnv (Some h) recent 0%N (Some p) rs [] le). split; [|reflexivity].
    split; [exact HL|]. split; [exists 1%N; reflexivity|]. split; [reflexivity|]. split; [constructor|]. split; [exact GL|].
    intros h' f' l' Eh. cbn [je_head je_recent je_proof je_resps] in *. injection Eh as <-. fold w. rewrite Er.
    intros X. injection X as <- <-. split; [eauto|]. fold old. split; [intros; exists p; auto|].
    intros sts' [h' [fl [p' [Eh [Er' [Ep Ec']]]]]]. cbn [je_head je_recent je_proof] in *.
    injection Eh as <-. fold w in Er'. rewrite Er in Er'. injection Er' as <-. injection Ep as <-.
    rewrite Ec in Ec'. injection Ec' as <-. exact Hrs.
  - exists (mkEnv (Some h) recent 0%N (Some p) [] [] le). split; [|reflexivity].
    split; [exact HL|]. split; [exists 1%N; reflexivity|]. split; [reflexivity|]. split; [constructor|]. split; [exact GL|].
    intros h' f' l' Eh. cbn [je_head je_recent je_proof je_resps] in *. injection Eh as <-. fold w. rewrite Er.
    intros X. injection X as <- <-. split; [eauto|]. fold old. split; [intros; exists p; auto|].
    intros sts' [h' [fl [p' [Eh [Er' [Ep Ec']]]]]]. cbn [je_head je_recent je_proof] in *.
    injection Eh as <-. fold w in Er'. rewrite Er in Er'. injection Er' as <-. injection Ep as <-. congruence.
  - exists (mkEnv (Some h) recent 0%N (Some p) [] [] le). split; [|reflexivity].
    split; [exact HL|]. split; [exists 1%N; reflexivity|]. split; [reflexivity|]. split; [constructor|]. split; [exact GL|].
    intros h' f' l' Eh. cbn [je_head je_recent je_proof je_resps] in *. injection Eh as <-. fold w. rewrite Er.
    intros X. injection X as <- <-. split; [eauto|]. fold old. split; [intros; exists p; auto|].
    intros sts' [h' [fl [p' [Eh [Er' [Ep Ec']]]]]]. cbn [je_head je_recent je_proof] in *.
    injection Eh as <-. fold w in Er'. rewrite Er in Er'. injection Er' as <-. injection Ep as <-. congruence.
Qed.
Print Assumptions C10_honest_jobs_exist.

(** Any number of them one after the other. *)
Lemma honest_chain sha256 (Cert : Type) (L : list (rawEntry Cert)) le J :
  let n := N.of_nat (length L) in
  (0 < J < two63)%N -> (0 < n <= two63)%N -> Forall (storable Cert le) L ->
  forall k s, exists s', jobsFrom sha256 (honestEnv sha256 Cert L le J n) J k s s'.
Proof.
  intros n HJ Hn GL. assert (Two : (two64 = two63 + two63)%N) by reflexivity.
  induction k as [|k IH]; intros s; [exists s; constructor|].
  destruct (C10_honest_jobs_exist sha256 Cert L le J n s true HJ Hn ltac:(unfold n in *; lia) GL) as [e [HE _]].
  destruct (run sha256 Cert J s e) as [tr o] eqn:R.
  destruct (IH (savedAfter s tr)) as [s' Hs']. exists s'. eapply jf_job; eassumption.
Qed.

(** The example log: fifteen entries, JobSize 4.  Jobs: [11,14], then backwards
    [8,10], [4,7], [0,3]. *)
Definition liveLog : list (rawEntry bytes) :=
  map (fun i => mkRE [x00; i] (Some (7%N, false, Some (mkPC [i] false false), [Some (mkPC (B "issuer") false false)])))
      [x00; x01; x02; x03; x04; x05; x06; x07; x08; x09; x0a; x0b; x0c; x0d; x0e].
Lemma liveLog_storable : Forall (storable bytes false) liveLog.
Proof.
  unfold liveLog. repeat (constructor; [do 4 eexists; split; [reflexivity|discriminate]|]). constructor.
Qed.
Example C10_example :
  exists s3 s4, jobsFrom toyHash (honestEnv toyHash bytes liveLog false 4 15) 4 3 freshState s3 /\ ~ covers s3 15 /\
    jobsFrom toyHash (honestEnv toyHash bytes liveLog false 4 15) 4 4 freshState s4 /\ covers s4 15.
Proof.
  destruct (honest_chain toyHash bytes liveLog false 4 ltac:(split; reflexivity) ltac:(split; [reflexivity|discriminate])
              liveLog_storable 3 freshState) as [s3 J3].
  destruct (honest_chain toyHash bytes liveLog false 4 ltac:(split; reflexivity) ltac:(split; [reflexivity|discriminate])
              liveLog_storable 4 freshState) as [s4 J4].
  exists s3, s4. split; [exact J3|]. split; [|split; [exact J4|]].
  - intros C. eapply (C10_backfill_completes toyHash bytes liveLog false 4 3 s3 toyHash_len) in J3;
      [|split; [discriminate|reflexivity]|split; discriminate|right; discriminate].
    apply (proj1 J3) in C. vm_compute in C. apply C. reflexivity.
  - eapply (C10_backfill_completes toyHash bytes liveLog false 4 4 s4 toyHash_len) in J4;
      [|split; [discriminate|reflexivity]|split; discriminate|right; discriminate].
    apply (proj2 J4). vm_compute. discriminate.
Qed.
(** A resumed start: [4,9] saved earlier, one job forwards and one backwards. *)
Example C10_resumed_example :
  let s := mkLS 4 9 1 1 (Some 1%N) in
  ls_lastUpdate s <> None /\ (ls_minEntry s <= ls_maxEntry s < 15)%N /\ (4 <= ls_minEntry s)%N /\
  (jobsFor 4 (15 - 1 - ls_maxEntry s) + jobsFor 4 (ls_minEntry s) = 3)%N.
Proof. split; [discriminate|]. vm_compute. repeat split; discriminate. Qed.

(** ** Where it fails *)

(** MinEntry and "was updated" after the verifiers ran, for any environment. *)
Lemma runVerifiers_minEntry sha256 (Cert : Type) w le now vs : w = TUpdate \/ w = TBackfill ->
  forall s rs cs tr o, runVerifiers sha256 Cert w le now vs s rs cs = (tr, o) -> ls_lastUpdate s <> None ->
  ls_lastUpdate (savedAfter s tr) <> None /\
  (ls_minEntry (savedAfter s tr) = ls_minEntry s \/
   (w = TBackfill /\ exists st, In st vs /\ ls_minEntry (savedAfter s tr) = st_first st)).
Proof.
  intros Hw. induction vs as [|st vs IH]; intros s rs cs tr o R Lu; cbn [runVerifiers] in R.
  - injection R as <- <-. auto.
  - destruct (download sha256 Cert le rs (st_first st) (newVerifier st) 0 0) as [[tr1 r] rs'] eqn:Ed.
    pose proof (fun s => download_noState sha256 Cert le rs _ _ _ _ _ _ _ s Ed) as NS.
    destruct r as [v mn mx| | |]; try (injection R as <- <-; rewrite NS; auto).
    destruct (checkClaim v); try (injection R as <- <-; rewrite NS; auto).
    destruct (updateState w (Some (st_first st, st_last st)) mn mx now s) as [s1|] eqn:Eu;
      [|injection R as <- <-; rewrite NS; auto].
    assert (U : ls_lastUpdate s1 <> None /\ (ls_minEntry s1 = ls_minEntry s \/ (w = TBackfill /\ ls_minEntry s1 = st_first st))).
    { unfold updateState in Eu. destruct Hw as [->| ->].
      - destruct (ls_maxEntry s =? sub64 (st_first st) 1)%N; [|discriminate]. injection Eu as <-. split; [discriminate|auto].
      - destruct (ls_minEntry s =? add64 (st_last st) 1)%N; [|discriminate]. injection Eu as <-. split; [discriminate|auto]. }
    destruct U as [U1 U2].
    assert (Fin : ls_lastUpdate s1 <> None /\ (ls_minEntry s1 = ls_minEntry s \/
        (w = TBackfill /\ exists st', In st' (st :: vs) /\ ls_minEntry s1 = st_first st'))).
    { split; [exact U1|]. destruct U2 as [U2|[-> U2]]; [auto|]. right. split; [reflexivity|]. exists st. split; [left; reflexivity|exact U2]. }
    destruct (hd (false, false) cs) as [[|] [|]]; try (injection R as <- <-; rewrite ?savedAfter_app, ?NS; cbn [savedAfter]; auto).
    destruct (runVerifiers sha256 Cert w le now vs s1 rs' (tl cs)) as [tr2 o2] eqn:E2.
    injection R as <- <-. rewrite savedAfter_app, NS. cbn [savedAfter].
    destruct (IH _ _ _ _ _ E2 U1) as [I1 I2]. split; [exact I1|].
    destruct I2 as [I2|[-> [st' [I3 I4]]]].
    + rewrite I2. exact (proj2 Fin).
    + right. split; [reflexivity|]. exists st'. split; [right; exact I3|exact I4].
Qed.

(** One job, whatever the log does. *)
Lemma run_minEntry sha256 (Cert : Type) J s (e : jobEnv Cert) tr o :
  (0 < J)%N -> headOk (je_head Cert e) -> ls_lastUpdate s <> None -> (ls_minEntry s < two64)%N ->
  run sha256 Cert J s e = (tr, o) ->
  ls_lastUpdate (savedAfter s tr) <> None /\
  (ls_minEntry (savedAfter s tr) = ls_minEntry s \/
   exists h f l, je_head Cert e = Some h /\ chooseTask J (je_recent Cert e) (Some h) s = TBackfill /\
     jobRange J TBackfill h s = Ok (f, l) /\ (f <= l < two63)%N /\ (f = 0%N -> (3 <= l)%N) /\
     (f <= ls_minEntry (savedAfter s tr) <= l)%N).
Proof.
  intros HJ HH Lu Hb R. assert (Two : (two64 = two63 + two63)%N) by reflexivity.
  unfold run in R. destruct (je_head Cert e) as [h|] eqn:Eh; [|injection R as <- <-; auto].
  cbn [headOk] in HH.
  destruct (chooseTask J (je_recent Cert e) (Some h) s) eqn:Ew; try (injection R as <- <-; auto).
  - apply chooseTask_cases in Ew. destruct Ew. congruence.
  - (* backfill *)
    pose proof (chooseTask_cases _ _ _ _ _ Ew) as [_ [Hsz _]].
    destruct (jobRange J TBackfill h s) as [[f l]| |] eqn:Er; try (injection R as <- <-; auto).
    pose proof (jobRange_last J TBackfill h s (f, l) HH ltac:(lia) Er) as Hl. cbn [snd] in Hl.
    destruct (proofSizes (f, l)) as [old new] eqn:Ps.
    destruct (je_proof Cert e) as [p|]; [|injection R as <- <-; auto].
    destruct (consistencyProofToSubtrees p old new) as [sts| |] eqn:Ec; try (injection R as <- <-; auto).
    assert (Ec' : consistencyProofToSubtrees p (fst (proofSizes (f, l))) (snd (proofSizes (f, l))) = Ok sts)
      by (rewrite Ps; exact Ec).
    destruct (job_verifiers_ok TBackfill p f l sts Hl Ec') as [Hfl [Ne Bd]].
    pose proof (consistency_lt _ _ _ _ Ec') as Lt. unfold proofSizes in Lt. cbn [fst snd] in Lt.
    rewrite add64_small in Lt by lia.
    cbn [fst snd] in R.
    destruct (runVerifiers sha256 Cert TBackfill (je_logExpired Cert e) (je_now Cert e)
      (orderVerifiers TBackfill f l sts []) s (je_resps Cert e) (je_cancels Cert e)) as [tr1 o1] eqn:E1.
    injection R as <- _.
    destruct (runVerifiers_minEntry sha256 Cert TBackfill _ _ _ (or_intror eq_refl) _ _ _ _ _ E1 Lu) as [R1 R2].
    split; [exact R1|]. destruct R2 as [R2|[_ [st [R2 R3]]]]; [auto|]. right.
    exists h, f, l. split; [reflexivity|]. split; [exact Ew|]. split; [exact Er|]. split; [lia|].
    split; [intros ->; cbn in Lt; lia|]. destruct (Bd st R2) as [_ [B1 [B2 B3]]]. lia.
  - (* update *)
    destruct (jobRange J TUpdate h s) as [fl| |] eqn:Er; try (injection R as <- <-; auto).
    destruct (proofSizes fl) as [old new] eqn:Ps.
    destruct (je_proof Cert e) as [p|]; [|injection R as <- <-; auto].
    destruct (consistencyProofToSubtrees p old new) as [sts| |] eqn:Ec; try (injection R as <- <-; auto).
    destruct (runVerifiers sha256 Cert TUpdate (je_logExpired Cert e) (je_now Cert e)
      (orderVerifiers TUpdate (fst fl) (snd fl) sts []) s (je_resps Cert e) (je_cancels Cert e)) as [tr1 o1] eqn:E1.
    injection R as <- _.
    destruct (runVerifiers_minEntry sha256 Cert TUpdate _ _ _ (or_introl eq_refl) _ _ _ _ _ E1 Lu) as [R1 R2].
    split; [exact R1|]. destruct R2 as [R2|[R2 _]]; [auto|discriminate].
  - (* sleep *)
    destruct (ls_maxEntry s =? sub64 (sth_size h) 1)%N; [|injection R as <- <-; auto].
    destruct (updateState TSleep None (ls_minEntry s) (sth_ts h) (je_now Cert e) s) as [s1|] eqn:Eu; [|injection R as <- <-; auto].
    destruct (fst (hd (false, false) (je_cancels Cert e))); injection R as <- <-; [auto|].
    cbn [updateState] in Eu. injection Eu as <-. cbn. split; [discriminate|auto].
Qed.

(** With JobSize below 4, or once the saved range starts at 1, 2 or 3, entry 0 is
    never reached again: whatever the log answers, however many jobs are run, after
    whatever growth of the log. *)
Theorem C10_small_range_never_completes_refuted :
  forall (sha256 : bytes -> bytes) (Cert : Type) J k s s',
    (0 < J < two63)%N -> ls_lastUpdate s <> None -> (0 < ls_minEntry s < two63)%N ->
    (J <= 3 \/ ls_minEntry s <= 3)%N ->
    jobsFrom sha256 (fun _ (e : jobEnv Cert) => headOk (je_head Cert e)) J k s s' ->
    (0 < ls_minEntry s')%N.
Proof.
  intros sha Cert J k s s' HJ Lu Hm Hc Jf. assert (Two : (two64 = two63 + two63)%N) by reflexivity.
  revert Lu Hm Hc. induction Jf as [s|k s e tr o s' HE R Jf IH]; intros Lu Hm Hc; [lia|].
  destruct (run_minEntry sha Cert J s e tr o ltac:(lia) HE Lu ltac:(lia) R)
    as [R1 [R2|[h [f [l [Eh [Ew [Er [Hl [H0 Hin]]]]]]]]]].
  - apply IH; [exact R1| |]; rewrite R2; assumption.
  - assert (Hf : (f <> 0 /\ J < ls_minEntry s)%N \/ (f = 0 /\ l < ls_minEntry s)%N).
    { pose proof (chooseTask_cases _ _ _ _ _ Ew) as [_ [Hsz _]].
      rewrite Eh in HE. cbn [headOk] in HE.
      unfold jobRange in Er. destruct (N.eqb_spec J 0); [lia|].
      rewrite (sub64_small (sth_size h) 1), (sub64_small (ls_minEntry s) 1) in Er by lia.
      pose proof (N.mod_le (ls_minEntry s) J ltac:(lia)) as Ml.
      pose proof (N.mod_lt (ls_minEntry s) J ltac:(lia)) as Mt.
      pose proof (N.div_mod (ls_minEntry s) J ltac:(lia)) as D.
      assert (Hll : (l <= ls_minEntry s - 1)%N).
      { apply Ok_inj in Er. apply pair_equal_spec in Er. destruct Er as [_ Er].
        destruct (N.ltb_spec (sth_size h - 1) (ls_minEntry s - 1)); lia. }
      assert (Hff : f = (if negb (ls_minEntry s mod J =? 0) then ls_minEntry s - ls_minEntry s mod J else ls_minEntry s - J)%N).
      { apply Ok_inj in Er. apply pair_equal_spec in Er. destruct Er as [<- _].
        destruct (N.eqb_spec (ls_minEntry s mod J) 0) as [E0|E0]; cbn [negb].
        - apply sub64_small; [|lia]. destruct (ls_minEntry s / J)%N; nia.
        - apply sub64_small; lia. }
      destruct (N.eq_dec f 0) as [Ef|Ef]; [right; lia|left]. split; [exact Ef|].
      destruct (N.eqb_spec (ls_minEntry s mod J) 0) as [E0|E0]; cbn [negb] in Hff; [lia|].
      destruct (ls_minEntry s / J)%N as [|q]; [lia|]. nia. }
    destruct Hf as [[Hf1 Hf2]|[-> Hf2]]; [|specialize (H0 eq_refl)].
    + apply IH; [exact R1|lia|]. destruct Hc; [auto|lia].
    + destruct Hc as [Hc|Hc]; [|lia].
      exfalso. (* JobSize <= 3 and a job [0,l] with l >= 3 *)
      unfold jobRange in Er. destruct (N.eqb_spec J 0); [lia|].
      apply Ok_inj in Er. apply pair_equal_spec in Er. destruct Er as [Er _].
      pose proof (N.mod_lt (ls_minEntry s) J ltac:(lia)) as Mt.
      pose proof (N.mod_le (ls_minEntry s) J ltac:(lia)) as Ml.
      destruct (N.eqb_spec (ls_minEntry s mod J) 0) as [E0|E0]; cbn [negb] in Er.
      * pose proof (N.div_mod (ls_minEntry s) J ltac:(lia)) as D.
        rewrite sub64_small in Er; [lia| |lia]. destruct (ls_minEntry s / J)%N; nia.
      * rewrite sub64_small in Er by lia. lia.
Qed.
Print Assumptions C10_small_range_never_completes_refuted.

(** So an honest log first contacted with n entries, J < n < J + 4, is never covered. *)
Theorem C10_unlucky_size_refuted :
  forall (sha256 : bytes -> bytes) (Cert : Type) (L : list (rawEntry Cert)) le J k s',
    (forall x, length (sha256 x) = 32%nat) ->
    let n := N.of_nat (length L) in
    (0 < J < two63)%N -> (4 <= n <= two63)%N -> (J < n)%N -> (J <= 3 \/ n < J + 4)%N ->
    jobsFrom sha256 (honestEnv sha256 Cert L le J n) J k freshState s' -> ~ covers s' n.
Proof.
  intros sha Cert L le J k s' H32 n HJ Hn HJn Hc Jf [C0 [C1 C2]].
  inversion Jf as [s|k' s e tr o s'' HE R Jf']; subst; [elim C0; reflexivity|].
  destruct (honest_progress sha Cert L le H32 J n freshState e HJ Hn HE ltac:(split; reflexivity)
              ltac:(intros X; elim X; reflexivity) ltac:(intros X; elim X; reflexivity)) as [tr' [R' [P0 [P1 P2]]]].
  rewrite R in R'. injection R' as <- ->.
  assert (G : jobsFrom sha (fun _ (e : jobEnv Cert) => headOk (je_head Cert e)) J k' (savedAfter freshState tr) s').
  { revert Jf'. generalize (savedAfter freshState tr). intros s0 Jf'. clear - Jf' Hn. induction Jf' as [s|k s e tr o s' HE R Jf IH]; [constructor|].
    eapply jf_job; [|exact R|exact IH]. destruct HE as [_ [[ts ->] _]]. cbn. lia. }
  apply C10_small_range_never_completes_refuted in G; try assumption; lia.
Qed.
Print Assumptions C10_unlucky_size_refuted.
(** With the default JobSize 4096 (config.go: BatchSize), 4098 entries at first contact. *)
Example C10_unlucky_size_example : (4096 < 4098 < 4096 + 4)%N /\
  exists s', jobsFrom toyHash (honestEnv toyHash bytes liveLog false 13 15) 13 50 freshState s'.
Proof.
  split; [split; reflexivity|].
  apply (honest_chain toyHash bytes liveLog false 13 ltac:(split; reflexivity) ltac:(split; [reflexivity|discriminate])
              liveLog_storable 50 freshState).
Qed.

(** If the log has always grown past MaxEntry + JobSize by the time of the next job,
    no backfill is ever done: MinEntry stays where it is. *)
Theorem C10_fast_log_starves_backfill_refuted :
  forall (sha256 : bytes -> bytes) (Cert : Type) J k s s',
    (0 < J)%N -> ls_lastUpdate s <> None -> (ls_minEntry s < two64)%N ->
    jobsFrom sha256 (fun s (e : jobEnv Cert) => exists h, je_head Cert e = Some h /\
        (ls_maxEntry s + J < sth_size h <= two63)%N) J k s s' ->
    ls_minEntry s' = ls_minEntry s.
Proof.
  intros sha Cert J k s s' HJ Lu Hm Jf. assert (Two : (two64 = two63 + two63)%N) by reflexivity.
  revert Lu Hm. induction Jf as [s|k s e tr o s' [h [Eh HE]] R Jf IH]; intros Lu Hm; [reflexivity|].
  destruct (run_minEntry sha Cert J s e tr o HJ ltac:(rewrite Eh; cbn; lia) Lu Hm R)
    as [R1 [R2|[h' [f [l [Eh' [Ew _]]]]]]].
  - rewrite (IH R1 ltac:(rewrite R2; exact Hm)). exact R2.
  - exfalso. rewrite Eh in Eh'. injection Eh' as <-. unfold chooseTask in Ew.
    destruct (sth_size h <=? 3)%N; [discriminate|]. destruct (ls_lastUpdate s); [|discriminate].
    rewrite add64_small in Ew by lia.
    destruct (N.ltb_spec (ls_maxEntry s + J) (sth_size h)); [discriminate|lia].
Qed.
Print Assumptions C10_fast_log_starves_backfill_refuted.
(** Range [8,9] saved, JobSize 2, the log grows by three entries between jobs: an
    honest job moves on to [8,11]. *)
Example C10_starved_example :
  exists e s', honestEnv toyHash bytes liveLog false 2 13 (mkLS 8 9 7 7 (Some 1%N)) e /\
    jobsFrom toyHash (fun s (e : jobEnv bytes) => exists h, je_head bytes e = Some h /\
        (ls_maxEntry s + 2 < sth_size h <= two63)%N) 2 1 (mkLS 8 9 7 7 (Some 1%N)) s' /\
    ls_maxEntry s' = 11%N.
Proof.
  destruct (C10_honest_jobs_exist toyHash bytes liveLog false 2 13 (mkLS 8 9 7 7 (Some 1%N)) false
              ltac:(split; reflexivity) ltac:(split; [reflexivity|discriminate]) ltac:(split; [discriminate|reflexivity])
              liveLog_storable) as [e [HE _]].
  destruct (honest_progress toyHash bytes liveLog false toyHash_len 2 13 (mkLS 8 9 7 7 (Some 1%N)) e
              ltac:(split; reflexivity) ltac:(split; discriminate) HE ltac:(split; [discriminate|reflexivity])
              ltac:(reflexivity) ltac:(discriminate)) as [tr [R [_ [_ P]]]].
  exists e, (savedAfter (mkLS 8 9 7 7 (Some 1%N)) tr). split; [exact HE|]. split; [|exact P].
  eapply jf_job; [|exact R|constructor]. destruct HE as [_ [[ts E] _]]. exists (mkSTH 13 ts).
  split; [exact E|]. split; [reflexivity|discriminate].
Qed.

(** ** A log that grows meanwhile *)

(** [jobsAt L ns s s']: one job after the other, none put off for being too recent; the
    log, whose entries are the first of [L], has the sizes [ns] at the times of the jobs. *)
Inductive jobsAt (sha256 : bytes -> bytes) {Cert : Type} (L : list (rawEntry Cert)) (le : bool) (J : N)
  : list N -> logState -> logState -> Prop :=
| ja_none s : jobsAt sha256 L le J [] s s
| ja_job n ns s e tr o s' : honestEnv sha256 Cert L le J n s e -> je_recent Cert e = false ->
    run sha256 Cert J s e = (tr, o) -> jobsAt sha256 L le J ns (savedAfter s tr) s' -> jobsAt sha256 L le J (n :: ns) s s'.

(** Sizes from [n] on, each at most [g] above the one before. *)
Fixpoint grows (g n : N) (ns : list N) : Prop :=
  match ns with
  | [] => True
  | m :: ns' => (n <= m <= n + g)%N /\ grows g m ns'
  end.

Lemma one_growing_job sha256 (Cert : Type) (L : list (rawEntry Cert)) le J n s e tr o :
  (forall x, length (sha256 x) = 32%nat) ->
  (4 <= J < two63)%N -> (4 <= n <= two63)%N ->
  honestEnv sha256 Cert L le J n s e -> je_recent Cert e = false ->
  ls_lastUpdate s <> None -> wfState s -> (ls_maxEntry s < n)%N -> (ls_minEntry s = 0 \/ 4 <= ls_minEntry s)%N ->
  run sha256 Cert J s e = (tr, o) ->
  let s' := savedAfter s tr in
  ls_lastUpdate s' <> None /\ wfState s' /\ (ls_maxEntry s' < n)%N /\ (ls_minEntry s' = 0 \/ 4 <= ls_minEntry s')%N /\
  (((ls_maxEntry s + J < n)%N /\ ls_minEntry s' = ls_minEntry s /\ ls_maxEntry s' = (ls_maxEntry s + J)%N) \/
   ((n <= ls_maxEntry s + J)%N /\ (0 < ls_minEntry s)%N /\ (jobsFor J (ls_minEntry s') + 1 = jobsFor J (ls_minEntry s))%N /\ ls_maxEntry s' = ls_maxEntry s) \/
   ((n <= ls_maxEntry s + J)%N /\ ls_minEntry s = 0%N /\ ls_minEntry s' = 0%N /\ ls_maxEntry s' = (n - 1)%N)).
Proof.
  intros H32 HJ Hn HE Hr Lu W Hm Hs R.
  destruct (one_job sha256 Cert L le J n s e tr o H32 HJ Hn HE (or_intror Hr) Lu W Hm Hs R) as [_ [A1 [A2 [A3 [A4 _]]]]].
  cbn zeta in *. split; [exact A1|]. split; [exact A2|]. split; [exact (proj2 A3)|]. split; [exact A4|].
  destruct (honest_progress sha256 Cert L le H32 J n s e ltac:(lia) Hn HE W (fun _ => Hm)) as [tr' [R' P]].
  { intros _ _. destruct Hs; [auto|right; right; lia]. }
  rewrite R in R'. injection R' as <- ->. destruct P as [_ P]. destruct (ls_lastUpdate s) as [u|]; [|congruence].
  destruct (N.ltb_spec (ls_maxEntry s + J) n) as [H|H].
  - left. destruct P. auto.
  - destruct (N.ltb_spec 0 (ls_minEntry s)) as [Hb|Hb].
    + right; left. destruct P as [P1 P2]. rewrite P1. split; [exact H|]. split; [exact Hb|]. split; [|exact P2].
      rewrite (jobsFor_down J (ls_minEntry s)) by lia. reflexivity.
    + right; right. rewrite Hr in P. destruct P as [P1 P2]. split; [exact H|]. split; [lia|]. auto.
Qed.

Lemma jobsFor_mono J x y : (0 < J)%N -> (x <= y)%N -> (jobsFor J x <= jobsFor J y)%N.
Proof. intros HJ H. unfold jobsFor. apply N.div_le_mono; lia. Qed.
Lemma jobsFor_step J x y : (0 < J)%N -> (0 < x)%N -> (y + J <= x \/ y = 0)%N -> (jobsFor J y + 1 <= jobsFor J x)%N.
Proof.
  intros HJ Hx [H| ->].
  - rewrite <- jobsFor_add by exact HJ. apply jobsFor_mono; assumption.
  - rewrite jobsFor_0 by exact HJ. pose proof (jobsFor_pos J x HJ Hx). lia.
Qed.

Lemma grows_ge g : forall ns n, grows g n ns -> Forall (fun m => n <= m)%N ns.
Proof.
  induction ns as [|m ns IH]; intros n H; [constructor|]. destruct H as [H1 H2]. constructor; [lia|].
  eapply Forall_impl; [|exact (IH _ H2)]. cbn. intros a. lia.
Qed.

(** However fast the log grows, an entry that is there at the first of the jobs is
    downloaded after so many jobs as are needed for the entries up to it and for the
    backfill, the latter only because backfill goes before small updates. *)
Theorem C10_growing_log_catches_up :
  forall (sha256 : bytes -> bytes) (Cert : Type) (L : list (rawEntry Cert)) le J g n0 ns s s' i,
    (forall x, length (sha256 x) = 32%nat) -> (4 <= J < two63)%N -> (4 <= n0 <= two63)%N -> Forall (fun n => n <= two63)%N ns ->
    grows g n0 ns -> (i < n0)%N ->
    ls_lastUpdate s <> None -> (ls_minEntry s <= ls_maxEntry s < n0)%N -> (ls_minEntry s = 0 \/ 4 <= ls_minEntry s)%N ->
    jobsAt sha256 L le J ns s s' ->
    (jobsFor J (i - ls_maxEntry s) + jobsFor J (ls_minEntry s) <= N.of_nat (length ns))%N ->
    (i <= ls_maxEntry s')%N.
Proof.
  intros sha Cert L le J g n0 ns s s' i H32 HJ H4 H63 Gr Hi Lu Hr Hs Jf.
  assert (Two : (two64 = two63 + two63)%N) by reflexivity.
  assert (W : wfState s) by (unfold wfState; destruct (ls_lastUpdate s); [lia|congruence]).
  assert (Hm : (ls_maxEntry s < n0)%N) by lia. clear Hr.
  intros K0. assert (K : (i <= ls_maxEntry s)%N \/ (jobsFor J (i - ls_maxEntry s) + jobsFor J (ls_minEntry s) <= N.of_nat (length ns))%N) by auto.
  clear K0. revert n0 H4 Gr Hi Lu W Hm Hs H63 K.
  induction Jf as [s|n ns s e tr o s' HE Rc R Jf IH]; intros n0 H4 Gr Hi Lu W Hm Hs H63 K.
  - destruct K as [K|K]; [exact K|]. cbn [length] in K. destruct (N.le_gt_cases i (ls_maxEntry s)) as [H|H]; [exact H|].
    pose proof (jobsFor_pos J (i - ls_maxEntry s)). lia.
  - destruct Gr as [Gn Gr]. inversion H63 as [|? ? Hn63 H63']; subst.
    destruct (one_growing_job sha Cert L le J n s e tr o H32 HJ ltac:(lia) HE Rc Lu W ltac:(lia) Hs R) as [A1 [A2 [A3 [A4 A5]]]].
    cbn zeta in *. refine (IH n ltac:(lia) Gr ltac:(lia) A1 A2 A3 A4 H63' _).
    destruct (N.le_gt_cases i (ls_maxEntry s)) as [Hd|Hd].
    { left. destruct A5 as [[_ [_ B2]]|[[_ [_ [_ B2]]]|[_ [_ [_ B2]]]]]; rewrite B2; lia. }
    destruct K as [K|K]; [lia|]. right. cbn [length] in K. rewrite Nat2N.inj_succ in K.
    destruct A5 as [[_ [B1 B2]]|[[_ [B0 [B1 B2]]]|[_ [B0 [B1 B2]]]]].
    + rewrite B1, B2. pose proof (jobsFor_step J (i - ls_maxEntry s) (i - (ls_maxEntry s + J)) ltac:(lia) ltac:(lia) ltac:(lia)). lia.
    + rewrite B2. lia.
    + rewrite B1, B2. pose proof (jobsFor_step J (i - ls_maxEntry s) (i - (n - 1)) ltac:(lia) ltac:(lia) ltac:(right; lia)). rewrite jobsFor_0 by lia. lia.
Qed.
Print Assumptions C10_growing_log_catches_up.

(** A log that grows by at most [g] < JobSize entries from job to job is completed
    backwards as well: it takes [k] jobs with [k] * (JobSize - [g]) at least the entries
    missing in front and JobSize for each job of the backfill.  (With [g] = JobSize it
    may never be: see C10_fast_log_starves_backfill_refuted.) *)
Theorem C10_growing_log_backfill_completes :
  forall (sha256 : bytes -> bytes) (Cert : Type) (L : list (rawEntry Cert)) le J g n0 ns s s',
    (forall x, length (sha256 x) = 32%nat) -> (4 <= J < two63)%N -> (4 <= n0 <= two63)%N -> Forall (fun n => n <= two63)%N ns ->
    grows g n0 ns -> (g < J)%N ->
    ls_lastUpdate s <> None -> (ls_minEntry s <= ls_maxEntry s < n0)%N -> (ls_minEntry s = 0 \/ 4 <= ls_minEntry s)%N ->
    jobsAt sha256 L le J ns s s' ->
    ((n0 - 1 - ls_maxEntry s) + J * jobsFor J (ls_minEntry s) <= N.of_nat (length ns) * (J - g))%N ->
    ls_minEntry s' = 0%N.
Proof.
  intros sha Cert L le J g n0 ns s s' H32 HJ H4 H63 Gr Hg Lu Hr Hs Jf.
  assert (Two : (two64 = two63 + two63)%N) by reflexivity.
  assert (W : wfState s) by (unfold wfState; destruct (ls_lastUpdate s); [lia|congruence]).
  assert (Hm : (ls_maxEntry s < n0)%N) by lia. clear Hr. intros K.
  assert (K' : ls_minEntry s = 0%N \/ ((n0 - 1 - ls_maxEntry s) + J * jobsFor J (ls_minEntry s) <= N.of_nat (length ns) * (J - g))%N) by auto.
  clear K. revert n0 H4 Gr Lu W Hm Hs H63 K'.
  induction Jf as [s|n ns s e tr o s' HE Rc R Jf IH]; intros n0 H4 Gr Lu W Hm Hs H63 K.
  - destruct K as [K|K]; [exact K|]. cbn [length] in K.
    destruct (N.eq_dec (ls_minEntry s) 0) as [H|H]; [exact H|].
    pose proof (jobsFor_pos J (ls_minEntry s) ltac:(lia) ltac:(lia)). change (N.of_nat 0) with 0%N in K. nia.
  - destruct Gr as [Gn Gr]. inversion H63 as [|? ? Hn63 H63']; subst.
    destruct (one_growing_job sha Cert L le J n s e tr o H32 HJ ltac:(lia) HE Rc Lu W ltac:(lia) Hs R) as [A1 [A2 [A3 [A4 A5]]]].
    cbn zeta in *. refine (IH n ltac:(lia) Gr A1 A2 A3 A4 H63' _).
    destruct K as [K|K].
    { left. destruct A5 as [[_ [B1 _]]|[[_ [B0 _]]|[_ [_ [B1 _]]]]]; lia. }
    cbn [length] in K. rewrite Nat2N.inj_succ, N.mul_succ_l in K.
    destruct A5 as [[B0 [B1 B2]]|[[_ [B0 [B1 B2]]]|[_ [_ [B1 _]]]]]; [| |left; exact B1].
    + right. rewrite B1, B2. revert K B0 Gn Hg Hm. generalize (N.of_nat (length ns) * (J - g))%N (J * jobsFor J (ls_minEntry s))%N.
      clear. intros a b. lia.
    + right. rewrite B2. rewrite <- B1, N.mul_add_distr_l, N.mul_1_r in K. revert K Gn Hg Hm.
      generalize (N.of_nat (length ns) * (J - g))%N (J * jobsFor J (ls_minEntry (savedAfter s tr)))%N. clear. intros a b. lia.
Qed.
Print Assumptions C10_growing_log_backfill_completes.

(** Such jobs exist for all sizes. *)
Lemma jobsAt_exist sha256 (Cert : Type) (L : list (rawEntry Cert)) le J :
  (0 < J < two63)%N -> (N.of_nat (length L) < two64)%N -> Forall (storable Cert le) L ->
  forall ns, Forall (fun n => 0 < n <= two63 /\ n <= N.of_nat (length L))%N ns -> forall s, exists s', jobsAt sha256 L le J ns s s'.
Proof.
  intros HJ HL GL ns H. induction H as [|n ns [H1 H2] _ IH]; intros s; [exists s; constructor|].
  destruct (C10_honest_jobs_exist sha256 Cert L le J n s false HJ H1 ltac:(split; assumption) GL) as [e [HE Hr]].
  destruct (run sha256 Cert J s e) as [tr o] eqn:R.
  destruct (IH (savedAfter s tr)) as [s' Hs']. exists s'. eapply ja_job; eassumption.
Qed.
(** [4,6] is saved and the log has 9, 11 and 13 entries at three jobs of size 4: after
    them the range goes from 0 to 8 or more. *)
Example C10_growing_example :
  let s := mkLS 4 6 7 7 (Some 1%N) in
  (exists s', jobsAt toyHash liveLog false 4 [9; 11; 13]%N s s') /\
  forall s', jobsAt toyHash liveLog false 4 [9; 11; 13]%N s s' -> ls_minEntry s' = 0%N /\ (8 <= ls_maxEntry s')%N.
Proof.
  assert (G : grows 2 9 [9; 11; 13]%N) by (cbn; repeat split; lia).
  assert (B : Forall (fun n => n <= two63)%N [9; 11; 13]%N) by (repeat constructor; discriminate).
  split.
  - apply jobsAt_exist; [split; reflexivity|reflexivity|exact liveLog_storable|].
    repeat constructor; discriminate.
  - intros s' H. split.
    + refine (C10_growing_log_backfill_completes toyHash bytes liveLog false 4 2 9 _ _ _ toyHash_len _ _ B G _ _ _ _ H _);
        first [reflexivity|discriminate|vm_compute; discriminate|split; [discriminate|first [reflexivity|discriminate]]|right; discriminate].
    + refine (C10_growing_log_catches_up toyHash bytes liveLog false 4 2 9 _ _ _ 8 toyHash_len _ _ B G _ _ _ _ H _);
        first [reflexivity|discriminate|vm_compute; discriminate|split; [discriminate|first [reflexivity|discriminate]]|right; discriminate].
Qed.
