(** * RFC 6962 consistency proofs against consistencyProofToSubtrees (C03, C04). *)
From Coq Require Import Permutation.
From Verif Require Import Base MerkleModel MerkleSpec MerkleProofs MerkleProofs2.

Lemma pow2_of_nat j : N.of_nat (2 ^ j) = (2 ^ N.of_nat j)%N.
Proof.
  induction j as [|j IH]; [reflexivity|].
  rewrite Nat.pow_succ_r', Nat2N.inj_mul, IH, (Nat2N.inj_succ j), N.pow_succ_r'. reflexivity.
Qed.

Lemma pow2_to_nat j : N.to_nat (2 ^ j) = (2 ^ N.to_nat j)%nat.
Proof. rewrite <- (N2Nat.id j) at 1. rewrite <- pow2_of_nat, Nat2N.id. reflexivity. Qed.

(** ** Powers of two *)
Lemma land_pow2 j : N.land (2 ^ j) (2 ^ j - 1) = 0%N.
Proof.
  replace (2 ^ j - 1)%N with (N.ones j) by (rewrite N.ones_equiv; lia).
  rewrite N.land_ones. apply N.mod_same. apply N.pow_nonzero. discriminate.
Qed.

Lemma land_npow2 m j : (2 ^ j < m)%N -> (m < 2 * 2 ^ j)%N -> N.land m (m - 1) <> 0%N.
Proof.
  intros H1 H2 E.
  assert (T : forall x, (2 ^ j <= x)%N -> (x < 2 * 2 ^ j)%N -> N.testbit x j = true).
  { intros x A1 A2. rewrite N.testbit_eqb.
    replace (x / 2 ^ j)%N with 1%N; [reflexivity|].
    apply (N.div_unique x (2 ^ j) 1 (x - 2 ^ j)); lia. }
  assert (Hb : N.testbit (N.land m (m - 1)) j = true).
  { rewrite N.land_spec, T, T by lia. reflexivity. }
  rewrite E in Hb. rewrite N.bits_0 in Hb. discriminate.
Qed.

(** ** Entries *)
Lemma entries_length D f l : (f <= l)%N -> (l < N.of_nat (length D))%N ->
  length (entries D f l) = N.to_nat (l - f + 1).
Proof.
  intros H1 H2. unfold entries. rewrite firstn_length, skipn_length. lia.
Qed.

Lemma firstn_entries D f l k : (f <= l)%N -> (0 < k)%nat -> (N.of_nat k <= l - f + 1)%N ->
  firstn k (entries D f l) = entries D f (f + N.of_nat k - 1).
Proof.
  intros H1 H2 H3. unfold entries. rewrite firstn_firstn. f_equal. lia.
Qed.

Lemma skipn_skipn_add {A} x : forall y (l : list A), skipn x (skipn y l) = skipn (x + y) l.
Proof.
  intros y; revert x; induction y as [|y IH]; intros x l.
  - rewrite Nat.add_0_r. reflexivity.
  - destruct l as [|a l]; [rewrite !skipn_nil; reflexivity|].
    rewrite Nat.add_succ_r. cbn [skipn]. apply IH.
Qed.

Lemma skipn_entries D f l k : (f + N.of_nat k <= l)%N ->
  skipn k (entries D f l) = entries D (f + N.of_nat k) l.
Proof.
  intros H. unfold entries. rewrite skipn_firstn_comm, skipn_skipn_add.
  f_equal; [lia|]. f_equal. lia.
Qed.

Lemma entries_all D : D <> [] -> entries D 0 (N.of_nat (length D) - 1) = D.
Proof.
  intros H. unfold entries. cbn [skipn N.to_nat].
  apply firstn_all2. destruct D; [congruence|cbn [length]]. lia.
Qed.

Section Hash.
  Variable sha256 : bytes -> bytes.
  Notation MTH := (MTH sha256).
  Notation SUBPROOF := (SUBPROOF sha256).
  Notation PROOF := (PROOF sha256).

  Lemma SUBPROOF_inv m D b p : SUBPROOF m D b p ->
    (m = length D /\ b = true /\ p = []) \/
    (m = length D /\ b = false /\ exists h, p = [h] /\ MTH D h) \/
    (exists k j p' h, (m < length D)%nat /\ k = (2 ^ j)%nat /\ (k < length D)%nat /\
       (length D <= 2 * k)%nat /\ (m <= k)%nat /\ SUBPROOF m (firstn k D) b p' /\
       MTH (skipn k D) h /\ p = p' ++ [h]) \/
    (exists k j p' h, (m < length D)%nat /\ k = (2 ^ j)%nat /\ (k < length D)%nat /\
       (length D <= 2 * k)%nat /\ (k < m)%nat /\ SUBPROOF (m - k) (skipn k D) false p' /\
       MTH (firstn k D) h /\ p = p' ++ [h]).
  Proof.
    intros H; inversion H; subst.
    - left; auto.
    - right; left; repeat split; eauto.
    - right; right; left. do 4 eexists; repeat split; eauto.
    - right; right; right. do 4 eexists; repeat split; eauto.
  Qed.

  Definition matches (D : list bytes) (r : N * N) (h : bytes) : Prop :=
    MTH (entries D (fst r) (snd r)) h.

  Lemma sub_false D t f l rs c : walkR t f l rs c -> (f <= t <= l)%N ->
    (l < N.of_nat (length D))%N -> forall p,
    SUBPROOF (N.to_nat (t - f + 1)) (entries D f l) false p ->
    exists h p', p = h :: p' /\ matches D c h /\ Forall2 (matches D) rs p'.
  Proof.
    induction 1 as [f l Dj|f l j rs c N1 N2 J1 J2 T W IH|f l j rs c N1 N2 J1 J2 T W IH];
      intros Ht Hl p HS; apply SUBPROOF_inv in HS;
      rewrite entries_length in HS by lia;
      destruct HS as [[_ [A _]]|[[A [_ [h [-> Mh]]]]|[[k [i [p' [h [A0 [-> [A1 [A2 [A3 [A4 [A5 ->]]]]]]]]]]]|[k [i [p' [h [A0 [-> [A1 [A2 [A3 [A4 [A5 ->]]]]]]]]]]]]]];
      try discriminate A; try lia.
    - exists h, []. repeat split; [exact Mh|constructor].
    - pose proof (pow2N_pos j). pose proof (pow2_to_nat j).
      assert (i = N.to_nat j) as -> by (apply (split_unique (N.to_nat (l - f + 1))); lia).
      rewrite firstn_entries in A4 by lia.
      replace (f + N.of_nat (2 ^ N.to_nat j) - 1)%N with (f + 2 ^ j - 1)%N in A4 by lia.
      rewrite skipn_entries in A5 by lia.
      replace (f + N.of_nat (2 ^ N.to_nat j))%N with (f + 2 ^ j)%N in A5 by lia.
      destruct (IH ltac:(lia) ltac:(lia) _ A4) as [h' [p'' [-> [B1 B2]]]].
      exists h', (p'' ++ [h]). repeat split; [exact B1|].
      apply Forall2_app; [exact B2|]. constructor; [exact A5|constructor].
    - pose proof (pow2N_pos j). pose proof (pow2_to_nat j).
      assert (i = N.to_nat j) as -> by (apply (split_unique (N.to_nat (l - f + 1))); lia).
      lia.
    - pose proof (pow2N_pos j). pose proof (pow2_to_nat j).
      assert (i = N.to_nat j) as -> by (apply (split_unique (N.to_nat (l - f + 1))); lia).
      lia.
    - pose proof (pow2N_pos j). pose proof (pow2_to_nat j).
      assert (i = N.to_nat j) as -> by (apply (split_unique (N.to_nat (l - f + 1))); lia).
      rewrite firstn_entries in A5 by lia.
      replace (f + N.of_nat (2 ^ N.to_nat j) - 1)%N with (f + 2 ^ j - 1)%N in A5 by lia.
      rewrite skipn_entries in A4 by lia.
      replace (f + N.of_nat (2 ^ N.to_nat j))%N with (f + 2 ^ j)%N in A4 by lia.
      replace (N.to_nat (t - f + 1) - 2 ^ N.to_nat j)%nat with (N.to_nat (t - (f + 2 ^ j) + 1)) in A4 by lia.
      destruct (IH ltac:(lia) ltac:(lia) _ A4) as [h' [p'' [-> [B1 B2]]]].
      exists h', (p'' ++ [h]). repeat split; [exact B1|].
      apply Forall2_app; [exact B2|]. constructor; [exact A5|constructor].
  Qed.

  (** With b = true: either the walk only goes left (then m is the size of the
      range or a power of two), or it goes right and m is not a power of two. *)
  Lemma sub_true D t f l rs c : walkR t f l rs c -> (f <= t <= l)%N ->
    (l < N.of_nat (length D))%N -> forall p,
    SUBPROOF (N.to_nat (t - f + 1)) (entries D f l) true p ->
    (c = (f, t) /\ (t = l \/ exists j, (t - f + 1 = 2 ^ j)%N) /\ Forall2 (matches D) rs p) \/
    ((exists j, (2 ^ j < t - f + 1)%N /\ (t - f + 1 < 2 * 2 ^ j)%N) /\
     exists h p', p = h :: p' /\ matches D c h /\ Forall2 (matches D) rs p').
  Proof.
    induction 1 as [f l Dj|f l j rs c N1 N2 J1 J2 T W IH|f l j rs c N1 N2 J1 J2 T W IH];
      intros Ht Hl p HS; apply SUBPROOF_inv in HS;
      rewrite entries_length in HS by lia;
      destruct HS as [[A [_ ->]]|[[_ [A _]]|[[k [i [p' [h [A0 [-> [A1 [A2 [A3 [A4 [A5 ->]]]]]]]]]]]|[k [i [p' [h [A0 [-> [A1 [A2 [A3 [A4 [A5 ->]]]]]]]]]]]]]];
      try discriminate A; try lia.
    - left. repeat split; try constructor; try lia. f_equal; lia.
    - pose proof (pow2N_pos j). pose proof (pow2_to_nat j).
      assert (i = N.to_nat j) as -> by (apply (split_unique (N.to_nat (l - f + 1))); lia).
      rewrite firstn_entries in A4 by lia.
      replace (f + N.of_nat (2 ^ N.to_nat j) - 1)%N with (f + 2 ^ j - 1)%N in A4 by lia.
      rewrite skipn_entries in A5 by lia.
      replace (f + N.of_nat (2 ^ N.to_nat j))%N with (f + 2 ^ j)%N in A5 by lia.
      destruct (IH ltac:(lia) ltac:(lia) _ A4) as [[B1 [B2 B3]]|[B0 [h' [p'' [-> [B1 B2]]]]]].
      + left. repeat split; [exact B1| |].
        * right. destruct B2 as [B2|B2]; [exists j; lia|exact B2].
        * apply Forall2_app; [exact B3|]. constructor; [exact A5|constructor].
      + right. split; [exact B0|]. exists h', (p'' ++ [h]). repeat split; [exact B1|].
        apply Forall2_app; [exact B2|]. constructor; [exact A5|constructor].
    - pose proof (pow2N_pos j). pose proof (pow2_to_nat j).
      assert (i = N.to_nat j) as -> by (apply (split_unique (N.to_nat (l - f + 1))); lia).
      lia.
    - pose proof (pow2N_pos j). pose proof (pow2_to_nat j).
      assert (i = N.to_nat j) as -> by (apply (split_unique (N.to_nat (l - f + 1))); lia).
      lia.
    - pose proof (pow2N_pos j). pose proof (pow2_to_nat j).
      assert (i = N.to_nat j) as -> by (apply (split_unique (N.to_nat (l - f + 1))); lia).
      rewrite firstn_entries in A5 by lia.
      replace (f + N.of_nat (2 ^ N.to_nat j) - 1)%N with (f + 2 ^ j - 1)%N in A5 by lia.
      rewrite skipn_entries in A4 by lia.
      replace (f + N.of_nat (2 ^ N.to_nat j))%N with (f + 2 ^ j)%N in A4 by lia.
      replace (N.to_nat (t - f + 1) - 2 ^ N.to_nat j)%nat with (N.to_nat (t - (f + 2 ^ j) + 1)) in A4 by lia.
      right. split; [exists j; lia|].
      destruct (sub_false D _ _ _ _ _ W ltac:(lia) ltac:(lia) _ A4) as [h' [p'' [-> [B1 B2]]]].
      exists h', (p'' ++ [h]). repeat split; [exact B1|].
      apply Forall2_app; [exact B2|]. constructor; [exact A5|constructor].
  Qed.

  Lemma walk_top t l : (t <= l)%N -> (l < two64 - 1)%N ->
    exists rs c, walk walkFuel t 0 l [] = Some (rs, c) /\ walkR t 0 l rs c.
  Proof.
    intros H1 H2.
    destruct (walk_spec walkFuel t 0 l []) as [rs [c [E W]]]; [lia|exact H2| |].
    - assert (N.size (l - 0) <= 64)%N by (apply size_lt; change (2 ^ 64)%N with two64; lia).
      unfold walkFuel. lia.
    - exists rs, c. rewrite app_nil_r in E. auto.
  Qed.

  Lemma Forall2_combine {A B C} (P : A -> B -> Prop) (Q : C -> Prop) (g : A * B -> C) la lb :
    (forall a b, P a b -> Q (g (a, b))) -> Forall2 P la lb -> Forall Q (map g (combine la lb)).
  Proof. intros H; induction 1; cbn; constructor; auto. Qed.

  Lemma F2_length {A B} (P : A -> B -> Prop) la lb : Forall2 P la lb -> length la = length lb.
  Proof. induction 1; cbn; congruence. Qed.

  Definition honestTerm (D : list bytes) (s : subtree) : Prop :=
    MTH (entries D (st_first s) (st_last s)) (st_root s).

  Lemma honest_proof m D p : PROOF m D p -> (N.of_nat (length D) < two64)%N ->
    exists sts, consistencyProofToSubtrees p (N.of_nat m) (N.of_nat (length D)) = Ok sts /\
                Forall (honestTerm D) sts.
  Proof.
    intros [Hm HS] Hb.
    unfold consistencyProofToSubtrees, proofRanges.
    destruct (N.leb_spec (N.of_nat (length D)) (N.of_nat m)); [lia|].
    rewrite !sub64_small by lia.
    set (t := (N.of_nat m - 1)%N). set (l := (N.of_nat (length D) - 1)%N).
    destruct (walk_top t l) as [rs [c [E W]]]; [lia|lia|].
    rewrite E. clear E.
    assert (HS' : SUBPROOF (N.to_nat (t - 0 + 1)) (entries D 0 l) true p).
    { replace (N.to_nat (t - 0 + 1)) with m by lia.
      unfold l. rewrite entries_all; [exact HS|]. intros ->. cbn in Hm. lia. }
    destruct (sub_true D t 0 l rs c W ltac:(lia) ltac:(lia) p HS')
      as [[B1 [B2 B3]]|[[j [B0 B0']] [h' [p'' [-> [B1 B2]]]]]].
    - assert (exists j, N.of_nat m = 2 ^ j)%N as [j Ej].
      { destruct B2 as [B2|[j Ej]]; [lia|]. exists j. lia. }
      unfold t. rewrite Ej, land_pow2. cbn [N.eqb negb].
      pose proof (F2_length _ _ _ B3) as Lr. rewrite Lr, Nat.eqb_refl. cbn [negb].
      eexists; split; [reflexivity|].
      eapply Forall2_combine; [|exact B3]. intros [a b] q M. exact M.
    - assert (Hl : N.land (N.of_nat m) t <> 0%N).
      { apply land_npow2 with (j := j); lia. }
      apply N.eqb_neq in Hl. rewrite Hl. cbn [negb].
      assert (B3 : Forall2 (matches D) (c :: rs) (h' :: p'')) by (constructor; assumption).
      pose proof (F2_length _ _ _ B3) as Lr. rewrite Lr, Nat.eqb_refl. cbn [negb].
      eexists; split; [reflexivity|].
      eapply Forall2_combine; [|exact B3]. intros [a b] q M. exact M.
  Qed.
End Hash.

Lemma Ok_inj {A} (a b : A) : Ok a = Ok b -> a = b.
Proof. intros H; injection H; auto. Qed.

(** ** The ranges assigned to a proof, for any proof of the right length. *)
Definition range (s : subtree) : N * N := (st_first s, st_last s).

Lemma map_range_combine rs p : length rs = length p ->
  map range (map (fun rp : N * N * bytes => mkSubtree (snd rp) (fst (fst rp)) (snd (fst rp))) (combine rs p)) = rs.
Proof.
  revert p; induction rs as [|[a b] rs IH]; destruct p as [|x p]; cbn; intros H; try lia; auto.
  f_equal. apply IH. lia.
Qed.

Lemma filter_map_comm {A B} (f : B -> bool) (g : A -> B) l :
  filter f (map g l) = map g (filter (fun x => f (g x)) l).
Proof.
  induction l as [|x l IH]; cbn; [reflexivity|]. destruct (f (g x)); cbn; congruence.
Qed.

(** Subtrees right of the old tree tile [oldSize, newSize-1]; the others are in
    the old tree. *)
Lemma ranges_tile p old new sts :
  (0 < old < new)%N -> (new < two64)%N ->
  consistencyProofToSubtrees p old new = Ok sts ->
  tiles (filter (fun r => (old <=? fst r)%N) (map range sts)) old (new - 1) /\
  Forall (fun r => (fst r <= snd r)%N /\ ((snd r < old)%N \/ (old <= fst r)%N)) (map range sts).
Proof.
  intros H1 H2. unfold consistencyProofToSubtrees, proofRanges.
  destruct (N.leb_spec new old); [lia|].
  rewrite !sub64_small by lia.
  set (t := (old - 1)%N). set (l := (new - 1)%N).
  destruct (walk_top t l) as [rs [c [E W]]]; [lia|lia|].
  rewrite E. clear E.
  destruct (walkR_tiles t 0 l rs c W ltac:(lia)) as [T1 [T2 [T3 [T4 T5]]]].
  assert (Hrs : tiles (filter (fun r => (old <=? fst r)%N) rs) old l).
  { assert (EF : filter (fun r => (old <=? fst r)%N) rs = filter (onRight t) rs).
    { apply filter_ext. intros r. unfold onRight. destruct (N.leb_spec old (fst r)), (N.ltb_spec t (fst r)); lia. }
    rewrite EF. replace (t + 1)%N with old in T3 by lia.
    destruct (filter (onRight t) rs); [cbn in T3; lia|exact T3]. }
  assert (Hle : Forall (fun r => (fst r <= snd r)%N) rs).
  { clear - W. assert (Hfl : (0 <= l)%N) by lia. revert W Hfl. generalize 0%N.
    induction 1 as [f l' D|f l' j rs c N1 N2 J1 J2 T W IH|f l' j rs c N1 N2 J1 J2 T W IH]; intros Hfl.
    - constructor.
    - pose proof (pow2N_pos j). apply Forall_app; split; [apply IH; lia|]. constructor; [cbn; lia|constructor].
    - pose proof (pow2N_pos j). apply Forall_app; split; [apply IH; lia|]. constructor; [cbn; lia|constructor]. }
  destruct c as [c1 c2]. cbn [fst snd] in *.
  destruct (negb (N.land old t =? 0)%N);
    (match goal with |- context[Nat.eqb ?a ?b] => destruct (Nat.eqb_spec a b) as [Er|Er] end);
    cbn [negb]; try discriminate;
    intros Heq; apply Ok_inj in Heq; subst sts; rewrite map_range_combine by exact Er.
  - split.
    + cbn [filter fst]. destruct (N.leb_spec old c1); [lia|]. exact Hrs.
    + constructor; [cbn; lia|]. rewrite Forall_forall in *. intros r Hr.
      specialize (T5 r Hr). specialize (Hle r Hr). cbn beta in *. lia.
  - split; [exact Hrs|].
    rewrite Forall_forall in *. intros r Hr. specialize (T5 r Hr). specialize (Hle r Hr). cbn beta in *. lia.
Qed.

(** When old is not a power of two, all subtrees together tile [0, new-1]. *)
Lemma filter_split_perm {A} (f : A -> bool) l :
  Permutation l (filter f l ++ filter (fun x => negb (f x)) l).
Proof.
  induction l as [|x l IH]; cbn [filter app]; [constructor|].
  destruct (f x); cbn [negb app].
  - constructor; exact IH.
  - etransitivity; [constructor; exact IH|]. apply Permutation_middle.
Qed.

Lemma ranges_tile_all p old new sts :
  (0 < old < new)%N -> (new < two64)%N -> N.land old (old - 1) <> 0%N ->
  consistencyProofToSubtrees p old new = Ok sts ->
  exists L, Permutation (map range sts) L /\ tiles L 0 (new - 1).
Proof.
  intros H1 H2 Hp. unfold consistencyProofToSubtrees, proofRanges.
  destruct (N.leb_spec new old); [lia|].
  rewrite !sub64_small by lia.
  set (t := (old - 1)%N) in *. set (l := (new - 1)%N).
  destruct (walk_top t l) as [rs [c [E W]]]; [lia|lia|].
  rewrite E. clear E.
  destruct (walkR_tiles t 0 l rs c W ltac:(lia)) as [T1 [T2 [T3 [T4 T5]]]].
  apply N.eqb_neq in Hp. rewrite Hp. cbn [negb].
  match goal with |- context[Nat.eqb ?a ?b] => destruct (Nat.eqb_spec a b) as [Er|Er] end;
    cbn [negb]; try discriminate.
  intros Heq; apply Ok_inj in Heq; subst sts. rewrite map_range_combine by exact Er.
  exists (rev (filter (fun r => negb (onRight t r)) rs) ++ c :: filter (onRight t) rs). split.
  - etransitivity; [constructor; apply (filter_split_perm (onRight t))|].
    etransitivity; [|apply Permutation_middle]. constructor.
    etransitivity; [apply Permutation_app_comm|].
    apply Permutation_app_tail. apply Permutation_rev.
  - assert (TR : tiles (c :: filter (onRight t) rs) (fst c) l).
    { change (c :: filter (onRight t) rs) with ([c] ++ filter (onRight t) rs).
      apply tiles_app with (m := t).
      - destruct c as [c1 c2]. cbn [fst snd] in *. cbn [tiles]. lia.
      - destruct (filter (onRight t) rs); [cbn in T3; lia|exact T3]. }
    destruct T4 as [[E1 E2]|[E1 E2]].
    + rewrite E2. cbn [rev app]. rewrite E1 in TR. exact TR.
    + eapply tiles_app; [exact E2|]. replace (fst c - 1 + 1)%N with (fst c) by lia. exact TR.
Qed.
