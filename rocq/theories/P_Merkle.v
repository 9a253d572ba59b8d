(** * Properties C01-C04: Merkle verification in ct-fetch.

    Specification: MerkleSpec.v (RFC 6962 tree hash and consistency proofs).
    Model: MerkleModel.v, CtFetchModel.v. *)
From Verif Require Import Base MerkleModel MerkleSpec MerkleProofs MerkleProofs2 MerkleProofs3
  CtFetchModel CtFetchProofs.

(** A concrete 32-byte "hash" used in the examples only. *)
Definition toyHash (x : bytes) : bytes := firstn 32 (rev x ++ repeat x00 32).
Lemma toyHash_len x : length (toyHash x) = 32%nat.
Proof. unfold toyHash. rewrite firstn_length, app_length, repeat_length. lia. Qed.

(** ** C01 *)

(** Feeding [leaves] one at a time to a verifier for the range [first,last] with
    claimed root [root] and then checking the claim succeeds exactly when the
    number of leaves is right and their RFC 6962 tree hash is the claimed root
    (a claimed root that is not 32 bytes long is always refused). *)
Theorem C01_verifier_exact :
  forall (sha256 : bytes -> bytes) root first last (leaves : list bytes),
    (forall x, length (sha256 x) = 32%nat) ->
    (first <= last)%N -> (last < two64 - 1)%N -> (N.of_nat (length leaves) < two64)%N ->
    (verifyLeaves sha256 (mkSubtree root first last) leaves = Ok tt <->
     N.of_nat (length leaves) = (last - first + 1)%N /\ MTH sha256 leaves root).
Proof.
  intros sha root f l leaves HL H1 H2 H3. rewrite verify_iff by assumption.
  split; [tauto|]. intros [A M]. repeat split; auto.
  inversion M; subst; apply HL.
Qed.
Print Assumptions C01_verifier_exact.

(** The same for hash functions of any output length, and the verifier never
    panics: every other outcome is a reported error. *)
Theorem C01_verifier_exact_any_hash :
  forall (sha256 : bytes -> bytes) root first last (leaves : list bytes),
    (first <= last)%N -> (last < two64 - 1)%N -> (N.of_nat (length leaves) < two64)%N ->
    (verifyLeaves sha256 (mkSubtree root first last) leaves = Ok tt <->
     length root = 32%nat /\
     N.of_nat (length leaves) = (last - first + 1)%N /\ MTH sha256 leaves root).
Proof. exact verify_iff. Qed.
Print Assumptions C01_verifier_exact_any_hash.

Theorem C01_verifier_never_panics :
  forall (sha256 : bytes -> bytes) root first last (leaves : list bytes),
    (first <= last)%N -> (last < two64 - 1)%N -> (N.of_nat (length leaves) < two64)%N ->
    verifyLeaves sha256 (mkSubtree root first last) leaves <> Panic.
Proof. exact verify_no_panic. Qed.
Print Assumptions C01_verifier_never_panics.

(** A five-leaf subtree at [10,14] that verifies, and the same leaves with two
    swapped, one missing, one extra, that do not. *)
Definition ex_leaves : list bytes := [B "a"; B "b"; B "c"; B "d"; B "e"].
Definition ex_root : bytes :=
  let h := leafHash toyHash in let p := pairHash toyHash in
  p (p (p (h (B "a")) (h (B "b"))) (p (h (B "c")) (h (B "d")))) (h (B "e")).
Example C01_example :
  verifyLeaves toyHash (mkSubtree ex_root 10 14) ex_leaves = Ok tt /\
  verifyLeaves toyHash (mkSubtree ex_root 10 14) [B "a"; B "b"; B "c"; B "e"; B "d"] = Err /\
  verifyLeaves toyHash (mkSubtree ex_root 10 14) [B "a"; B "b"; B "c"; B "d"] = Err /\
  verifyLeaves toyHash (mkSubtree ex_root 10 14) (ex_leaves ++ [B "f"]) = Err /\
  MTH toyHash ex_leaves ex_root.
Proof.
  assert (V : verifyLeaves toyHash (mkSubtree ex_root 10 14) ex_leaves = Ok tt) by (vm_compute; reflexivity).
  split; [exact V|].
  split; [vm_compute; reflexivity|]. split; [vm_compute; reflexivity|].
  split; [vm_compute; reflexivity|].
  apply (C01_verifier_exact toyHash ex_root 10 14 ex_leaves toyHash_len); [lia|reflexivity|reflexivity|exact V].
Qed.

(** ** C02 *)
Theorem C02_binding :
  forall (sha256 : bytes -> bytes) root first last (l1 l2 : list bytes),
    (forall x, length (sha256 x) = 32%nat) ->
    (first <= last)%N -> (last < two64 - 1)%N ->
    (N.of_nat (length l1) < two64)%N -> (N.of_nat (length l2) < two64)%N ->
    verifyLeaves sha256 (mkSubtree root first last) l1 = Ok tt ->
    verifyLeaves sha256 (mkSubtree root first last) l2 = Ok tt ->
    l1 = l2 \/
    exists x y, hashed sha256 l1 x /\ hashed sha256 l2 y /\ x <> y /\ sha256 x = sha256 y.
Proof.
  intros sha root f l l1 l2 HL H1 H2 B1 B2 V1 V2.
  destruct (list_eq_dec bytes_eq_dec l1 l2) as [E|N]; [left; exact E|right].
  eapply verify_binding; eassumption.
Qed.
Print Assumptions C02_binding.

(** The toy hash has collisions: two different verified downloads exist, so the
    second alternative is needed. *)
Example C02_example : exists root l1 l2,
  verifyLeaves toyHash (mkSubtree root 0 1) l1 = Ok tt /\
  verifyLeaves toyHash (mkSubtree root 0 1) l2 = Ok tt /\ l1 <> l2.
Proof.
  exists (pairHash toyHash (leafHash toyHash (B "x")) (leafHash toyHash (B "y"))).
  exists [B "x"; B "y"], [B "z"; B "y"].
  split; [vm_compute; reflexivity|]. split; [vm_compute; reflexivity|]. discriminate.
Qed.

(** ** C03 *)

(** [orderVerifiers] is the list of subtrees the job verifies, in the order it
    verifies them; [p] is whatever proof the log answered. *)
Theorem C03_job_covered_exactly_once :
  forall (w : task) (p : list bytes) first last sts,
    (first <= last)%N -> (last < two64 - 1)%N -> (first = 0%N -> (3 <= last)%N) ->
    consistencyProofToSubtrees p (if (first =? 0)%N then 3 else first)%N (last + 1)%N = Ok sts ->
    let vs := orderVerifiers w first last sts [] in
    tiles (map (fun s => (st_first s, st_last s))
               (match w with TBackfill => rev vs | _ => vs end)) first last.
Proof.
  intros w p f l sts H1 H2 H3 HS vs.
  pose proof (jobs_tile w p f l sts H1 H2 H3) as J. unfold proofSizes in J. cbn [fst snd] in J.
  rewrite add64_small in J by (unfold two64 in *; lia). specialize (J HS).
  destruct w; try exact J. rewrite map_rev. exact J.
Qed.
Print Assumptions C03_job_covered_exactly_once.

(** What [tiles] gives: every index of the job is in exactly one of the ranges. *)
Lemma tiles_once rs : forall a b, tiles rs a b -> forall i, (a <= i <= b)%N ->
  exists! k, exists r, nth_error rs k = Some r /\ (fst r <= i <= snd r)%N.
Proof.
  induction rs as [|[x y] rs IH]; intros a b T i Hi; [contradiction|].
  assert (Lo : forall r k, nth_error rs k = Some r -> (y < fst r)%N).
  { destruct rs as [|q rs]; [intros r [|k]; discriminate|]. destruct q as [q1 q2].
    assert (T' : tiles ((q1, q2) :: rs) (y + 1) b) by (destruct T as [_ [_ [_ T]]]; exact T). clear T; rename T' into T.
    intros r k E. apply nth_error_In in E. pose proof (tiles_bounds _ _ _ T) as Bd.
    rewrite Forall_forall in Bd. specialize (Bd _ E). lia. }
  destruct (N.le_gt_cases i y) as [Le|Gt].
  - assert (x = a). { destruct rs as [|[q1 q2] rs]; cbn [tiles] in T; tauto. }
    subst x. exists 0%nat. split.
    + exists (a, y). cbn. split; [reflexivity|lia].
    + intros [|k] [r [E Hr]]; [reflexivity|]. cbn in E. specialize (Lo _ _ E). lia.
  - destruct rs as [|[q1 q2] rs].
    { cbn [tiles] in T. lia. }
    destruct T as [Ta [Tb [Tc T]]].
    destruct (IH _ _ T i ltac:(lia)) as [k [[r [E Hr]] U]].
    exists (S k). split.
    + exists r. split; [exact E|exact Hr].
    + intros [|k'] [r' [E' Hr']]; cbn in E'.
      * injection E' as <-. cbn in Hr'. lia.
      * f_equal. apply U. exists r'. auto.
Qed.

Theorem C03_every_index_in_exactly_one_verifier :
  forall (w : task) (p : list bytes) first last sts i,
    (first <= last)%N -> (last < two64 - 1)%N -> (first = 0%N -> (3 <= last)%N) ->
    consistencyProofToSubtrees p (if (first =? 0)%N then 3 else first)%N (last + 1)%N = Ok sts ->
    (first <= i <= last)%N ->
    exists! k, exists s, nth_error (orderVerifiers w first last sts []) k = Some s /\
                         (st_first s <= i <= st_last s)%N.
Proof.
  intros w p f l sts i H1 H2 H3 HS Hi.
  pose proof (C03_job_covered_exactly_once w p f l sts H1 H2 H3 HS) as T. cbv zeta in T.
  set (vs := orderVerifiers w f l sts []) in *.
  assert (G : exists! k, exists s, nth_error (match w with TBackfill => rev vs | _ => vs end) k = Some s /\
                         (st_first s <= i <= st_last s)%N).
  { destruct (tiles_once _ _ _ T i Hi) as [k [[r [E Hr]] U]].
    exists k. split.
    - rewrite nth_error_map in E. destruct (nth_error _ k) as [s|]; [|discriminate].
      injection E as <-. exists s. auto.
    - intros k' [s [E' Hs]]. apply U. exists (st_first s, st_last s).
      rewrite nth_error_map, E'. auto. }
  destruct w; try exact G.
  destruct G as [k [[s [E Hs]] U]].
  assert (Hk : (k < length vs)%nat).
  { rewrite <- (rev_length vs). apply nth_error_Some. congruence. }
  assert (Rv : forall k, (k < length vs)%nat -> nth_error vs (length vs - S k) = nth_error (rev vs) k).
  { intros q Hq. destruct (nth_error vs (length vs - S q)) as [z|] eqn:Ez.
    - pose proof (nth_error_nth vs _ z Ez) as Nz.
      symmetry. rewrite <- Nz. rewrite <- rev_nth by exact Hq.
      apply nth_error_nth'. rewrite rev_length. exact Hq.
    - apply nth_error_None in Ez. lia. }
  exists (length vs - S k)%nat. split.
  - exists s. rewrite Rv by exact Hk. auto.
  - intros k' [s' [E' Hs']].
    assert (Hk' : (k' < length vs)%nat) by (apply nth_error_Some; congruence).
    assert (k = length vs - S k')%nat.
    { apply U. exists s'. rewrite <- Rv by lia.
      replace (length vs - S (length vs - S k'))%nat with k' by lia. auto. }
    lia.
Qed.
Print Assumptions C03_every_index_in_exactly_one_verifier.

(** No subtree of the proof straddles the lower end of the job. *)
Theorem C03_no_straddle :
  forall (p : list bytes) first last sts s,
    (0 < first <= last)%N -> (last < two64 - 1)%N ->
    consistencyProofToSubtrees p first (last + 1)%N = Ok sts -> In s sts ->
    (st_first s <= st_last s <= last)%N /\ ((st_last s < first)%N \/ (first <= st_first s)%N).
Proof.
  intros p f l sts s H1 H2 HS Hin.
  destruct (ranges_tile p f (l + 1)%N sts) as [T F]; [lia|unfold two64 in *; lia|exact HS|].
  rewrite Forall_forall in F. specialize (F (range s) (in_map _ _ _ Hin)). unfold range in F. cbn in F.
  destruct F as [F1 F2]. split; [|exact F2].
  destruct F2 as [F2|F2]; [lia|].
  pose proof (tiles_bounds _ _ _ T) as Bd. rewrite Forall_forall in Bd.
  assert (I : In (range s) (filter (fun r => (f <=? fst r)%N) (map range sts))).
  { apply filter_In. split; [apply in_map; exact Hin|]. unfold range; cbn. lia. }
  specialize (Bd _ I). unfold range in Bd; cbn in Bd. lia.
Qed.
Print Assumptions C03_no_straddle.

(** Update job [6,20]: the subtrees are [6,7], [8,15], [16,20]. *)
Example C03_example :
  exists sts, consistencyProofToSubtrees (repeat (B "h") 5) 6 21 = Ok sts /\
    map (fun s => (st_first s, st_last s)) (orderVerifiers TUpdate 6 20 sts [])
      = [(6, 7); (8, 15); (16, 20)]%N.
Proof. eexists; split; vm_compute; reflexivity. Qed.

(** A first job on [0,5]: old size 3 is used. *)
Example C03_example_init :
  exists sts, consistencyProofToSubtrees (repeat (B "h") 4) 3 6 = Ok sts /\
    map (fun s => (st_first s, st_last s)) (orderVerifiers TInit 0 5 sts [])
      = [(0, 1); (2, 2); (3, 3); (4, 5)]%N.
Proof. eexists; split; vm_compute; reflexivity. Qed.

(** ** C04 *)
Lemma entries_firstn D n f l : (l < N.of_nat n)%N -> (f <= l)%N ->
  entries (firstn n D) f l = entries D f l.
Proof.
  intros H1 H2. unfold entries.
  rewrite skipn_firstn_comm, firstn_firstn. f_equal. lia.
Qed.
Lemma entries_length D f l : (l < N.of_nat (length D))%N -> (f <= l)%N ->
  N.of_nat (length (entries D f l)) = (l - f + 1)%N.
Proof. intros H1 H2. unfold entries. rewrite firstn_length, skipn_length. lia. Qed.

(** A log with entries [D] that answers a job for [first,last] with the RFC 6962
    consistency proof between the two sizes asked for is never refused: the proof
    is accepted, and every verifier of the job accepts the log's own entries. *)
Theorem C04_honest_log_accepted :
  forall (sha256 : bytes -> bytes) (w : task) (D : list bytes) (first last : N) (p : list bytes),
    (forall x, length (sha256 x) = 32%nat) ->
    (first <= last)%N -> (last < N.of_nat (length D))%N -> (N.of_nat (length D) < two64)%N ->
    (first = 0%N -> (3 <= last)%N) ->
    let old := (if (first =? 0)%N then 3 else first)%N in
    PROOF sha256 (N.to_nat old) (firstn (N.to_nat (last + 1)) D) p ->
    exists sts, consistencyProofToSubtrees p old (last + 1)%N = Ok sts /\
      forall s, In s (orderVerifiers w first last sts []) ->
        verifyLeaves sha256 s (entries D (st_first s) (st_last s)) = Ok tt.
Proof.
  intros sha w D f l p HL H1 H2 H3 H4 old HP.
  assert (Len : length (firstn (N.to_nat (l + 1)) D) = N.to_nat (l + 1)) by (rewrite firstn_length; lia).
  destruct (honest_proof sha _ _ _ HP) as [sts [E F]]; [rewrite Len; lia|].
  rewrite Len, !N2Nat.id in E. exists sts. split; [exact E|].
  intros s Hs.
  assert (T : tiles (map range (match w with TBackfill => rev (orderVerifiers w f l sts [])
              | _ => orderVerifiers w f l sts [] end)) f l).
  { apply (C03_job_covered_exactly_once w p f l sts); auto. unfold two64 in *; lia. }
  pose proof (tiles_bounds _ _ _ T) as Bd. rewrite Forall_forall in Bd.
  assert (Ir : In (range s) (map range (match w with TBackfill => rev (orderVerifiers w f l sts [])
              | _ => orderVerifiers w f l sts [] end))).
  { apply in_map. destruct w; try exact Hs. apply -> in_rev. exact Hs. }
  specialize (Bd _ Ir). unfold range in Bd; cbn [fst snd] in Bd.
  assert (Hin : In s sts).
  { destruct (orderVerifiers_spec w f l sts [] ltac:(constructor)) as [_ P].
    apply Permutation.Permutation_in with (1 := P) in Hs. rewrite app_nil_r in Hs.
    apply filter_In in Hs. tauto. }
  rewrite Forall_forall in F. specialize (F _ Hin). unfold honestTerm in F.
  rewrite entries_firstn in F by lia.
  destruct s as [root a b]. cbn [st_root st_first st_last] in *.
  apply C01_verifier_exact; auto; try lia; rewrite entries_length by lia; try lia.
  split; [reflexivity|exact F].
Qed.
Print Assumptions C04_honest_log_accepted.

(** The consistency proof of the RFC exists for every log and size, so the
    theorem always applies. *)
Theorem C04_proof_exists :
  forall (sha256 : bytes -> bytes) (m : nat) (D : list bytes),
    (0 < m < length D)%nat -> exists p, PROOF sha256 m D p.
Proof.
  intros sha m D H.
  assert (G : forall n m D b, length D = n -> (0 < m <= length D)%nat -> exists p, SUBPROOF sha m D b p).
  { intros n. induction n as [n IH] using lt_wf_ind. intros m' D' b El Hm.
    destruct (Nat.eq_dec m' (length D')) as [->|Ne].
    - destruct b; [exists []; constructor|].
      destruct (MTH_total sha D') as [h Hh]. exists [h]. constructor. exact Hh.
    - destruct (split_exists n) as [j [J1 J2]]; [lia|]. pose proof (pow2_pos j).
      rewrite <- El in J1, J2.
      destruct (Nat.le_gt_cases m' (2 ^ j)) as [Le|Gt].
      + destruct (IH (2 ^ j)%nat ltac:(lia) m' (firstn (2 ^ j) D') b) as [p Hp];
          [rewrite firstn_length; lia|rewrite firstn_length; lia|].
        destruct (MTH_total sha (skipn (2 ^ j) D')) as [h Hh].
        exists (p ++ [h]). eapply SP_left with (k := (2 ^ j)%nat); eauto; lia.
      + destruct (IH (length D' - 2 ^ j)%nat ltac:(lia) (m' - 2 ^ j)%nat (skipn (2 ^ j) D') false) as [p Hp];
          [rewrite skipn_length; lia|rewrite skipn_length; lia|].
        destruct (MTH_total sha (firstn (2 ^ j) D')) as [h Hh].
        exists (p ++ [h]). eapply SP_right with (k := (2 ^ j)%nat); eauto; lia. }
  destruct (G (length D) m D true eq_refl ltac:(lia)) as [p Hp]. exists p. split; auto.
Qed.
Print Assumptions C04_proof_exists.

(** A proof with more or fewer hashes than the RFC 6962 proof for the two sizes
    is rejected. *)
Theorem C04_wrong_length_rejected :
  forall (sha256 : bytes -> bytes) (m : nat) (D : list bytes) (p q : list bytes),
    (N.of_nat (length D) < two64)%N -> PROOF sha256 m D p -> length q <> length p ->
    consistencyProofToSubtrees q (N.of_nat m) (N.of_nat (length D)) = Err.
Proof.
  intros sha m D p q H3 HP NE. destruct (honest_proof sha _ _ _ HP) as [sts [E _]]; [exact H3|].
  unfold consistencyProofToSubtrees in *. destruct (N.of_nat (length D) <=? N.of_nat m)%N; [reflexivity|].
  destruct (proofRanges _ _) as [ranges|]; [|discriminate].
  destruct (Nat.eqb_spec (length ranges) (length p)) as [L|L]; cbn [negb] in E; [|discriminate].
  destruct (Nat.eqb_spec (length ranges) (length q)) as [L'|L']; cbn [negb]; [congruence|reflexivity].
Qed.
Print Assumptions C04_wrong_length_rejected.
Example C04_wrong_length_example :
  consistencyProofToSubtrees [B "a"; B "b"; B "c"; B "d"; B "e"] 3 7 = Err /\
  consistencyProofToSubtrees [B "a"; B "b"; B "c"] 3 7 = Err.
Proof. vm_compute. auto. Qed.

(** A seven-entry log (the RFC's own example size), job [3,6]. *)
Definition ex_log : list bytes := [B "0"; B "1"; B "2"; B "3"; B "4"; B "5"; B "6"].
Example C04_example : exists p sts,
  PROOF toyHash 3 (firstn 7 ex_log) p /\
  consistencyProofToSubtrees p 3 7 = Ok sts /\
  map (fun s => (st_first s, st_last s)) (orderVerifiers TUpdate 3 6 sts []) = [(3, 3); (4, 6)]%N /\
  forall s, In s (orderVerifiers TUpdate 3 6 sts []) ->
    verifyLeaves toyHash s (entries ex_log (st_first s) (st_last s)) = Ok tt.
Proof.
  destruct (C04_proof_exists toyHash 3 ex_log) as [p Hp]; [cbn; lia|].
  destruct (C04_honest_log_accepted toyHash TUpdate ex_log 3 6 p toyHash_len) as [sts [E F]];
    [lia|reflexivity|reflexivity|lia|exact Hp|].
  exists p, sts. repeat split; [cbn; lia|cbn; lia|exact (proj2 Hp)|exact E| |exact F].
  assert (R : proofRanges 3 7 = Some [(2, 2); (3, 3); (0, 1); (4, 6)]%N) by (vm_compute; reflexivity).
  assert (E' : consistencyProofToSubtrees p 3 7 = Ok sts) by exact E. clear E. rename E' into E.
  unfold consistencyProofToSubtrees in E. rewrite R in E.
  destruct p as [|p1 [|p2 [|p3 [|p4 [|p5 p]]]]]; cbn in E; try discriminate E.
  injection E as <-. vm_compute. reflexivity.
Qed.
