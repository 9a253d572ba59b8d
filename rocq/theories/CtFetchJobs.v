(** * Whole jobs: ranges, soundness of [run] and [runTiled] *)
From Verif Require Import Base MerkleModel MerkleSpec MerkleProofs MerkleProofs2 MerkleProofs3
  CtFetchModel CtFetchProofs CtFetchSafety.

(** ** Job ranges (C05) *)
Lemma chooseTask_cases J recent h s w :
  chooseTask J recent (Some h) s = w ->
  match w with
  | TInit => ls_lastUpdate s = None /\ (3 < sth_size h)%N
  | TUpdate => ls_lastUpdate s <> None /\ (3 < sth_size h)%N /\
       ((add64 (ls_maxEntry s) J < sth_size h)%N \/ (ls_maxEntry s < sub64 (sth_size h) 1)%N)
  | TBackfill => ls_lastUpdate s <> None /\ (3 < sth_size h)%N /\ (0 < ls_minEntry s)%N
  | TSleep => True
  | _ => False
  end.
Proof.
  unfold chooseTask. intros <-.
  destruct (N.leb_spec (sth_size h) 3); [exact I|].
  destruct (ls_lastUpdate s) as [u|]; [|split; [reflexivity|lia]].
  destruct (N.ltb_spec (add64 (ls_maxEntry s) J) (sth_size h)); [split; [discriminate|auto]|].
  destruct (N.ltb_spec 0 (ls_minEntry s)); [split; [discriminate|auto]|].
  destruct recent; [exact I|].
  destruct (N.ltb_spec (ls_maxEntry s) (sub64 (sth_size h) 1)); [split; [discriminate|auto]|exact I].
Qed.

Lemma jobRange_bounds J recent h s w :
  (0 < J < two63)%N -> (sth_size h <= two63)%N -> wfState s ->
  chooseTask J recent (Some h) s = w -> w = TInit \/ w = TUpdate \/ w = TBackfill ->
  (w = TBackfill -> (ls_minEntry s <= sth_size h)%N) ->
  exists f l, jobRange J w h s = Ok (f, l) /\ (f <= l)%N /\ (l < sth_size h)%N /\ (l - f + 1 <= J)%N /\
    match w with
    | TInit => l = (sth_size h - 1)%N /\ (f = 0%N \/ (l - f + 1 = J)%N)
    | TUpdate => f = (ls_maxEntry s + 1)%N /\ (l = (sth_size h - 1)%N \/ (l - f + 1 = J)%N)
    | _ => (l + 1 = ls_minEntry s)%N /\ (f mod J = 0)%N
    end.
Proof.
  intros HJ HS W C Hw HB. apply chooseTask_cases in C.
  unfold wfState in W.
  assert (Two : (two64 = two63 + two63)%N) by reflexivity.
  destruct Hw as [->|[->| ->]]; cbn [jobRange].
  - destruct C as [_ C]. rewrite (sub64_small (sth_size h) 1) by lia.
    destruct (N.ltb_spec (sth_size h) J).
    + exists 0%N, (sth_size h - 1)%N. destruct (N.ltb_spec (sth_size h - 1) (sth_size h - 1)); [lia|].
      split; [reflexivity|]. lia.
    + exists (sth_size h - J)%N, (sth_size h - 1)%N. rewrite sub64_small by lia.
      destruct (N.ltb_spec (sth_size h - 1) (sth_size h - 1)); [lia|].
      split; [reflexivity|]. lia.
  - destruct C as [C0 [C1 C2]]. destruct (ls_lastUpdate s); [|congruence].
    rewrite sub64_small in * by lia. rewrite add64_small in C2 by lia.
    rewrite !add64_small by lia.
    destruct (N.ltb_spec (sth_size h - 1) (ls_maxEntry s + J)).
    + exists (ls_maxEntry s + 1)%N, (sth_size h - 1)%N. split; [reflexivity|]. lia.
    + exists (ls_maxEntry s + 1)%N, (ls_maxEntry s + J)%N. split; [reflexivity|]. lia.
  - destruct C as [C0 [C1 C2]]. destruct (ls_lastUpdate s); [|congruence].
    specialize (HB eq_refl).
    destruct (N.eqb_spec J 0); [lia|].
    rewrite (sub64_small (ls_minEntry s) 1) by lia. rewrite (sub64_small (sth_size h) 1) by lia.
    destruct (N.ltb_spec (sth_size h - 1) (ls_minEntry s - 1)); [lia|].
    pose proof (N.div_mod (ls_minEntry s) J ltac:(lia)) as DM.
    pose proof (N.mod_lt (ls_minEntry s) J ltac:(lia)) as ML.
    set (m := (ls_minEntry s mod J)%N) in *. set (q := (ls_minEntry s / J)%N) in *.
    destruct (N.eqb_spec m 0) as [E|E]; cbn [negb].
    + assert (Hq : (1 <= q)%N) by (destruct (N.eq_dec q 0) as [Z|Z]; [rewrite Z in DM; lia|lia]).
      assert (HJm : (J <= ls_minEntry s)%N) by nia.
      rewrite sub64_small by lia.
      exists (ls_minEntry s - J)%N, (ls_minEntry s - 1)%N.
      split; [reflexivity|]. split; [lia|]. split; [lia|]. split; [lia|]. split; [lia|].
      replace (ls_minEntry s - J)%N with ((q - 1) * J)%N by nia. apply N.mod_mul. lia.
    + assert (HJm : (m <= ls_minEntry s)%N) by nia.
      rewrite sub64_small by lia.
      exists (ls_minEntry s - m)%N, (ls_minEntry s - 1)%N.
      split; [reflexivity|]. split; [lia|]. split; [lia|]. split; [lia|]. split; [lia|].
      replace (ls_minEntry s - m)%N with (q * J)%N by nia. apply N.mod_mul. lia.
Qed.

(** The last index of a job is below the tree size even for a shrunk log. *)
Lemma jobRange_last J w h s fl : (sth_size h <= two63)%N -> (0 < sth_size h)%N ->
  jobRange J w h s = Ok fl -> (snd fl < two63)%N.
Proof.
  intros HS HP R. assert (Two : (two64 = two63 + two63)%N) by reflexivity.
  unfold jobRange in R. rewrite (sub64_small (sth_size h) 1) in R by lia.
  destruct w; try discriminate R.
  - apply Ok_inj in R. subst fl. cbn [snd].
    match goal with |- context[if ?b then _ else _] => destruct b eqn:E end; lia.
  - destruct (J =? 0)%N; [discriminate|]. apply Ok_inj in R. subst fl. cbn [snd].
    match goal with |- context[if ?b then _ else _] => destruct b eqn:E end; lia.
  - apply Ok_inj in R. subst fl. cbn [snd].
    match goal with |- context[if ?b then _ else _] => destruct b eqn:E end; lia.
Qed.

Lemma consistency_lt p old new sts : consistencyProofToSubtrees p old new = Ok sts -> (old < new)%N.
Proof.
  unfold consistencyProofToSubtrees. destruct (N.leb_spec new old); [discriminate|auto].
Qed.

(** The verifiers of a job: taken from the proof, well formed. *)
Lemma job_verifiers_ok w p f l sts :
  (l < two63)%N ->
  consistencyProofToSubtrees p (fst (proofSizes (f, l))) (snd (proofSizes (f, l))) = Ok sts ->
  (f <= l)%N /\ orderVerifiers w f l sts [] <> [] /\
  forall st, In st (orderVerifiers w f l sts []) ->
    In st sts /\ (f <= st_first st)%N /\ (st_first st <= st_last st)%N /\ (st_last st <= l)%N.
Proof.
  intros Hl HS. assert (Two : (two64 = two63 + two63)%N) by reflexivity.
  pose proof (consistency_lt _ _ _ _ HS) as Lt. unfold proofSizes in Lt. cbn [fst snd] in Lt.
  rewrite add64_small in Lt by lia.
  assert (Fl : (f <= l)%N /\ (f = 0%N -> (3 <= l)%N)) by (destruct (N.eqb_spec f 0); lia).
  destruct Fl as [Fl F0]. split; [exact Fl|].
  pose proof (jobs_tile w p f l sts Fl ltac:(lia) F0 HS) as T.
  pose proof (tiles_bounds _ _ _ T) as Bd. rewrite Forall_forall in Bd.
  split.
  { intros E. rewrite E in T. destruct w; exact T. }
  intros st Hin.
  assert (Ir : In (range st) (match w with TBackfill => rev (map range (orderVerifiers w f l sts []))
                 | _ => map range (orderVerifiers w f l sts []) end)).
  { destruct w; try (apply in_map; exact Hin). apply -> in_rev. apply in_map; exact Hin. }
  specialize (Bd _ Ir). unfold range in Bd. cbn [fst snd] in Bd.
  split; [|lia].
  destruct (orderVerifiers_spec w f l sts [] ltac:(constructor)) as [_ P].
  apply Permutation.Permutation_in with (1 := P) in Hin. rewrite app_nil_r in Hin.
  apply filter_In in Hin. tauto.
Qed.

Section Run.
  Variable sha256 : bytes -> bytes.
  Context {Cert : Type}.
  Notation event := (event Cert).

  (** The subtrees of the consistency proof used by a job. *)
  Definition proofTerms (J : N) (s : logState) (e : jobEnv Cert) (sts : list subtree) : Prop :=
    exists h fl proof, je_head Cert e = Some h /\
      jobRange J (chooseTask J (je_recent Cert e) (Some h) s) h s = Ok fl /\
      je_proof Cert e = Some proof /\
      consistencyProofToSubtrees proof (fst (proofSizes fl)) (snd (proofSizes fl)) = Ok sts.

  Definition headOk (h : option sth) : Prop :=
    match h with Some x => (sth_size x <= two63)%N | None => True end.

  Lemma run_sound J s e tr o :
    (0 < J < two63)%N -> headOk (je_head Cert e) -> Forall respOk (je_resps Cert e) -> wfState s ->
    run sha256 Cert J s e = (tr, o) ->
    (exists sts, proofTerms J s e sts /\ soundTrace sha256 sts s tr) \/
    tr = [] \/
    (exists s' h, tr = [EState s'] /\ je_head Cert e = Some h /\
       ls_maxEntry s = sub64 (sth_size h) 1 /\
       ls_minEntry s' = ls_minEntry s /\ ls_maxEntry s' = ls_maxEntry s /\
       ls_maxTs s' = N.max (ls_maxTs s) (sth_ts h) /\ ls_lastUpdate s' <> None /\
       (ls_lastUpdate s = None -> (sth_size h <= 3)%N)).
  Proof.
    intros HJ HH HR W R. unfold run in R.
    destruct (je_head Cert e) as [h|] eqn:Eh; [|injection R as <- <-; auto].
    cbn [headOk] in HH.
    pose proof (chooseTask_cases J (je_recent Cert e) h s _ eq_refl) as C.
    assert (G : forall w, (w = TInit \/ w = TUpdate \/ w = TBackfill) -> (3 < sth_size h)%N ->
      (ls_lastUpdate s = None -> w = TInit) -> chooseTask J (je_recent Cert e) (Some h) s = w ->
      (match jobRange J w h s with
       | Ok fl =>
                let '(oldSize, newSize) := proofSizes fl in
                match je_proof Cert e with
                | None => ([], OOk)
                | Some proof =>
                    match consistencyProofToSubtrees proof oldSize newSize with
                    | Ok sts =>
                        let vs := orderVerifiers w (fst fl) (snd fl) sts [] in
                        let '(tr, o) := runVerifiers sha256 Cert w (je_logExpired Cert e) (je_now Cert e) vs s
                                          (je_resps Cert e) (je_cancels Cert e) in
                        (tr, match vs, o with [], OOk => OPanic | _, _ => o end)
                    | Err => ([], OErr)
                    | Panic => ([], OPanic)
                    end
                end
       | Err => ([], OErr)
       | Panic => ([], OPanic)
       end) = (tr, o) ->
      (exists sts, proofTerms J s e sts /\ soundTrace sha256 sts s tr) \/ tr = []).
    { intros w _ Hs Hw Hc Rw.
      destruct (jobRange J w h s) as [[f l]| |] eqn:Ej; try (injection Rw as <- <-; auto; fail).
      pose proof (jobRange_last J w h s (f, l) HH ltac:(lia) Ej) as Hl. cbn [snd] in Hl.
      destruct (proofSizes (f, l)) as [old new] eqn:Ep.
      destruct (je_proof Cert e) as [proof|] eqn:Epr; [|injection Rw as <- <-; auto].
      destruct (consistencyProofToSubtrees proof old new) as [sts| |] eqn:Ec;
        try (injection Rw as <- <-; auto; fail).
      cbv zeta in Rw. cbn [fst snd] in Rw.
      destruct (job_verifiers_ok w proof f l sts Hl) as [_ [_ Hv]]; [rewrite Ep; exact Ec|].
      destruct (runVerifiers sha256 Cert w (je_logExpired Cert e) (je_now Cert e) (orderVerifiers w f l sts []) s
                 (je_resps Cert e) (je_cancels Cert e)) as [tr1 o1] eqn:Er.
      assert (tr1 = tr) as -> by congruence.
      left. exists sts. split; [exists h, (f, l), proof; rewrite Hc, Ep; auto|].
      eapply runVerifiers_sound; [|exact HR|exact W|exact Hw|exact Er].
      intros st Hin. destruct (Hv st Hin) as [V1 [V2 [V3 V4]]]. split; [exact V1|]. lia. }
    destruct (chooseTask J (je_recent Cert e) (Some h) s) eqn:Ew; try (injection R as <- <-; auto; fail).
    - destruct (G TInit) as [X|X]; auto. tauto.
    - destruct (G TBackfill) as [X|X]; auto; try tauto. 
    - destruct (G TUpdate) as [X|X]; auto; tauto.
    - (* Sleep *)
      destruct (N.eqb_spec (ls_maxEntry s) (sub64 (sth_size h) 1)) as [Em|]; [|injection R as <- <-; auto].
      cbn [updateState] in R.
      destruct (fst (hd (false, false) (je_cancels Cert e))); [injection R as <- <-; auto|].
      injection R as <- <-. right; right. eexists _, h. split; [reflexivity|].
      cbn [ls_minEntry ls_maxEntry ls_maxTs ls_lastUpdate]. repeat split; auto; try discriminate.
      intros Eu. unfold chooseTask in Ew. rewrite Eu in Ew.
      destruct (N.leb_spec (sth_size h) 3); [assumption|discriminate].
  Qed.

  (** [Run] never panics (JobSize positive), whatever the log answers. *)
  Lemma handleEntries_no_panic le es : forall index v mn mx tr r P,
    handleEntries sha256 Cert le es index v mn mx = (tr, r) ->
    (1 <= st_size (v_subtree v))%N -> (N.of_nat (length P) + N.of_nat (length es) < two64)%N ->
    vinv sha256 (v_subtree v) P v ->
    r <> Some Panic /\ r <> None /\
    forall i' v' mn' mx', r = Some (Ok (i', v', mn', mx')) ->
      v_subtree v' = v_subtree v /\
      exists P', vinv sha256 (v_subtree v) P' v' /\ (length P' <= length P + length es)%nat.
  Proof.
    induction es as [|e es IH]; intros index v mn mx tr r P H Hs Hb Hv; cbn [handleEntries length] in H.
    - injection H as <- <-. split; [discriminate|]. split; [discriminate|].
      intros i' v' mn' mx' X. injection X as <- <- <- <-. split; [reflexivity|]. exists P. split; [exact Hv|lia].
    - cbn [length] in Hb. destruct (re_parsed Cert e) as [[[[ts c] cert] chain]|].
      2:{ destruct (IH _ _ _ _ _ _ P H Hs ltac:(lia) Hv) as [A [A' C]]. split; [exact A|]. split; [exact A'|].
          intros i' v' mn' mx' X. destruct (C _ _ _ _ X) as [C1 [P' [C2 C3]]].
          split; [exact C1|]. exists P'. split; [exact C2|]. cbn [length]. lia. }
      destruct (storeLogEntry Cert le c cert chain) as [c1 c2| | |] eqn:Eo.
      4:{ injection H as <- <-. split; [discriminate|]. split; [discriminate|]. intros; discriminate. }
      all: destruct (consume_inv sha256 (v_subtree v) P v (re_leaf Cert e)) as [v1 [E1 V1]]; [exact Hs|lia|exact Hv|].
      all: rewrite E1 in H.
      all: assert (Q : v_subtree v1 = v_subtree v) by (destruct V1 as [V1 _]; exact V1).
      all: destruct (handleEntries sha256 Cert le es (add64 index 1) v1 (minTsUpd mn ts) (maxTsUpd mx ts)) as [tr' r'] eqn:Eh.
      all: injection H as <- <-.
      all: destruct (IH _ _ _ _ _ _ (P ++ [re_leaf Cert e]) Eh) as [A [A' C]];
        [rewrite Q; exact Hs|rewrite app_length; cbn [length]; lia|rewrite Q; exact V1|].
      all: split; [exact A|]; split; [exact A'|].
      all: intros i' v' mn' mx' X; destruct (C _ _ _ _ X) as [C1 [P' [C2 C3]]].
      all: rewrite Q in C1, C2; split; [exact C1|]; exists P'; split; [exact C2|].
      all: rewrite app_length in C3; cbn [length] in *; lia.
  Qed.

  Fixpoint totalEntries (rs : list (resp Cert)) : nat :=
    match rs with
    | [] => 0
    | REntries es :: rs' => length es + totalEntries rs'
    | _ :: rs' => totalEntries rs'
    end.

  Lemma download_no_panic le resps : forall index v mn mx tr r rs' P,
    download sha256 Cert le resps index v mn mx = (tr, r, rs') ->
    (1 <= st_size (v_subtree v))%N -> (N.of_nat (length P) + N.of_nat (totalEntries resps) < two64)%N ->
    vinv sha256 (v_subtree v) P v ->
    r <> DPanic /\ (totalEntries rs' <= totalEntries resps)%nat /\
    forall v' mn' mx', r = DDone v' mn' mx' ->
      v_subtree v' = v_subtree v /\ exists P', vinv sha256 (v_subtree v) P' v' /\
        (N.of_nat (length P') < two64)%N.
  Proof.
    induction resps as [|rp resps IH]; intros index v mn mx tr r rs' P H Hs Hb Hv; cbn [download] in H.
    - destruct (st_last (v_subtree v) <? index)%N; injection H as <- <- <-;
        (split; [discriminate|]; split; [lia|]; intros v' mn' mx' X).
      + injection X as <- <- <-. split; [reflexivity|]. exists P. cbn in Hb. split; [exact Hv|lia].
      + discriminate X.
    - destruct (st_last (v_subtree v) <? index)%N.
      { injection H as <- <- <-. split; [discriminate|]. split; [lia|].
        intros v' mn' mx' X. injection X as <- <- <-. split; [reflexivity|]. exists P. split; [exact Hv|lia]. }
      destruct rp as [[|]| |es]; cbn [totalEntries] in *.
      + injection H as <- <- <-. split; [discriminate|]. split; [lia|]. discriminate.
      + eapply IH; eassumption.
      + injection H as <- <- <-. split; [discriminate|]. split; [lia|]. discriminate.
      + destruct (handleEntries sha256 Cert le es index v mn mx) as [tr1 r1] eqn:Eh.
        destruct (handleEntries_no_panic _ _ _ _ _ _ _ _ P Eh Hs ltac:(lia) Hv) as [A1 [A2 A3]].
        destruct r1 as [[[[[i' v1] mn1] mx1]| |]|]; try congruence.
        2:{ injection H as <- <- <-. split; [discriminate|]. split; [lia|]. discriminate. }
        destruct (A3 _ _ _ _ eq_refl) as [Q [P' [V1 L1]]].
        destruct (download sha256 Cert le resps i' v1 mn1 mx1) as [[tr2 r2] rs2] eqn:Ed.
        injection H as <- <- <-.
        destruct (IH _ _ _ _ _ _ _ P' Ed) as [B1 [B2 B3]];
          [rewrite Q; exact Hs|lia|rewrite Q; exact V1|].
        split; [exact B1|]. split; [lia|].
        intros v' mn' mx' X. destruct (B3 _ _ _ X) as [C1 C2]. rewrite Q in C1, C2. auto.
  Qed.

  Lemma checkClaim_no_panic s P v : vinv sha256 s P v -> (1 <= st_size s)%N -> checkClaim v <> Panic.
  Proof.
    intros [V1 [V2 V3]] Hs. unfold checkClaim. rewrite V1, V2.
    destruct (negb (N.of_nat (length (st_root s)) =? 32)%N); [discriminate|].
    destruct (N.eqb_spec (N.of_nat (length P)) (st_size s)) as [E|E]; cbn [negb]; [|discriminate].
    destruct P as [|p P]; [cbn in E; lia|].
    destruct (N.ltb_spec (N.of_nat (length (p :: P))) (st_size s)); [lia|].
    destruct V3 as [h [-> _]]. cbn [rev app]. destruct (beq (st_root s) h); discriminate.
  Qed.

  Lemma runVerifiers_no_panic w le now vs : forall s resps cancels tr o,
    (forall st, In st vs -> (st_first st <= st_last st)%N /\ (st_last st < two63)%N) ->
    (N.of_nat (totalEntries resps) < two64)%N ->
    runVerifiers sha256 Cert w le now vs s resps cancels = (tr, o) -> o <> OPanic.
  Proof.
    induction vs as [|st vs IH]; intros s resps cancels tr o Hv Hb R; cbn [runVerifiers] in R.
    - injection R as <- <-. discriminate.
    - destruct (Hv st (or_introl eq_refl)) as [L1 L2].
      assert (Two : (two64 = two63 + two63)%N) by reflexivity.
      assert (Hs : st_size st = (st_last st - st_first st + 1)%N) by (apply st_size_val; unfold two63, two64 in *; lia).
      destruct (download sha256 Cert le resps (st_first st) (newVerifier st) 0 0) as [[tr1 r] resps'] eqn:Ed.
      destruct (download_no_panic _ _ _ _ _ _ _ _ _ [] Ed) as [A1 [A2 A3]];
        [cbn [newVerifier v_subtree]; lia|cbn; lia|apply newVerifier_inv|].
      destruct r as [v mn mx| | |]; try congruence; try (injection R as <- <-; discriminate).
      destruct (A3 _ _ _ eq_refl) as [Q [P' [V' _]]]. cbn [newVerifier v_subtree] in V'.
      pose proof (checkClaim_no_panic _ _ _ V' ltac:(lia)) as CP.
      destruct (checkClaim v) as [[]| |]; try congruence; try (injection R as <- <-; discriminate).
      destruct (updateState w (Some (st_first st, st_last st)) mn mx now s) as [s'|]; [|injection R as <- <-; discriminate].
      destruct (hd (false, false) cancels) as [[] c2]; [injection R as <- <-; discriminate|].
      destruct c2; [injection R as <- <-; discriminate|].
      destruct (runVerifiers sha256 Cert w le now vs s' resps' (tl cancels)) as [tr' o'] eqn:Er.
      injection R as <- <-. eapply IH; [|..|exact Er]; [intros; apply Hv; right; assumption|lia].
  Qed.

  Lemma consistency_no_panic p old new : (0 < old)%N -> (new < two64)%N ->
    consistencyProofToSubtrees p old new <> Panic.
  Proof.
    intros H1 H2. unfold consistencyProofToSubtrees, proofRanges.
    destruct (N.leb_spec new old); [discriminate|].
    rewrite !sub64_small by lia.
    destruct (walk_top (old - 1) (new - 1)) as [rs [c [E _]]]; [lia|lia|].
    rewrite E. repeat match goal with |- context[if ?b then _ else _] => destruct b end; discriminate.
  Qed.

  Lemma run_no_panic J s e tr o :
    (0 < J < two63)%N -> headOk (je_head Cert e) ->
    (N.of_nat (totalEntries (je_resps Cert e)) < two64)%N -> wfState s ->
    run sha256 Cert J s e = (tr, o) -> o <> OPanic.
  Proof.
    intros HJ HH HR W R. unfold run in R.
    destruct (je_head Cert e) as [h|] eqn:Eh; [|injection R as <- <-; discriminate].
    cbn [headOk] in HH. assert (Two : (two64 = two63 + two63)%N) by reflexivity.
    pose proof (chooseTask_cases J (je_recent Cert e) h s _ eq_refl) as C.
    assert (G : forall w, (3 < sth_size h)%N -> jobRange J w h s <> Panic ->
      (match jobRange J w h s with
       | Ok fl =>
                let '(oldSize, newSize) := proofSizes fl in
                match je_proof Cert e with
                | None => ([], OOk)
                | Some proof =>
                    match consistencyProofToSubtrees proof oldSize newSize with
                    | Ok sts =>
                        let vs := orderVerifiers w (fst fl) (snd fl) sts [] in
                        let '(tr, o) := runVerifiers sha256 Cert w (je_logExpired Cert e) (je_now Cert e) vs s
                                          (je_resps Cert e) (je_cancels Cert e) in
                        (tr, match vs, o with [], OOk => OPanic | _, _ => o end)
                    | Err => ([], OErr)
                    | Panic => ([], OPanic)
                    end
                end
       | Err => ([], OErr)
       | Panic => ([], OPanic)
       end) = (tr, o) -> o <> OPanic).
    { intros w Hs Np Rw.
      destruct (jobRange J w h s) as [[f l]| |] eqn:Ej; try congruence; try (injection Rw as <- <-; discriminate).
      pose proof (jobRange_last J w h s (f, l) HH ltac:(lia) Ej) as Hl. cbn [snd] in Hl.
      destruct (proofSizes (f, l)) as [old new] eqn:Ep.
      destruct (je_proof Cert e) as [proof|] eqn:Epr; [|injection Rw as <- <-; discriminate].
      assert (NP : consistencyProofToSubtrees proof old new <> Panic).
      { unfold proofSizes in Ep. cbn [fst snd] in Ep. injection Ep as <- <-.
        rewrite add64_small by lia. apply consistency_no_panic; [destruct (N.eqb_spec f 0); lia|lia]. }
      destruct (consistencyProofToSubtrees proof old new) as [sts| |] eqn:Ec;
        try congruence; try (injection Rw as <- <-; discriminate).
      cbv zeta in Rw. cbn [fst snd] in Rw.
      destruct (job_verifiers_ok w proof f l sts Hl) as [_ [Nv Hv]]; [rewrite Ep; exact Ec|].
      destruct (runVerifiers sha256 Cert w (je_logExpired Cert e) (je_now Cert e) (orderVerifiers w f l sts []) s
                 (je_resps Cert e) (je_cancels Cert e)) as [tr1 o1] eqn:Er.
      apply runVerifiers_no_panic in Er; [|intros st Hin; destruct (Hv st Hin) as [V1 [V2 [V3 V4]]]; lia|exact HR].
      destruct (orderVerifiers w f l sts []); [congruence|]. congruence. }
    assert (NJ : forall w, jobRange J w h s <> Panic).
    { intros w. unfold jobRange. destruct w; try discriminate.
      destruct (N.eqb_spec J 0); [lia|]. discriminate. }
    destruct (chooseTask J (je_recent Cert e) (Some h) s) eqn:Ew; try (injection R as <- <-; discriminate).
    - apply (G TInit); auto. tauto.
    - apply (G TBackfill); auto; tauto.
    - apply (G TUpdate); auto; tauto.
    - destruct (N.eqb_spec (ls_maxEntry s) (sub64 (sth_size h) 1)); [|injection R as <- <-; discriminate].
      cbn [updateState] in R.
      destruct (fst (hd (false, false) (je_cancels Cert e))); injection R as <- <-; discriminate.
  Qed.
End Run.
