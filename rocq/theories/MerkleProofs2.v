(** * Proofs about collisions (C02) and consistency proofs (C03, C04). *)
From Verif Require Import Base MerkleModel MerkleSpec MerkleProofs.

(** ** Collision extraction *)
Section Collision.
  Variable sha256 : bytes -> bytes.
  Hypothesis sha_len : forall x, length (sha256 x) = 32%nat.
  Notation MTH := (MTH sha256).

  Lemma MTH_len D h : MTH D h -> length h = 32%nat.
  Proof. intros H; inversion H; apply sha_len. Qed.

  Lemma app_inj_len (a b c d : bytes) : length a = length c -> a ++ b = c ++ d -> a = c /\ b = d.
  Proof.
    revert c; induction a as [|x a IH]; destruct c as [|y c]; cbn; intros L E; try lia.
    - auto.
    - injection E as -> E. destruct (IH c) as [-> ->]; auto.
  Qed.

  Lemma collision : forall n l1 l2 h, length l1 = n -> length l2 = n ->
    MTH l1 h -> MTH l2 h -> l1 <> l2 ->
    exists x y, hashed sha256 l1 x /\ hashed sha256 l2 y /\ x <> y /\ sha256 x = sha256 y.
  Proof.
    induction n as [n IH] using lt_wf_ind; intros l1 l2 h L1 L2 H1 H2 N.
    destruct l1 as [|d1 t1].
    { destruct l2; [congruence|cbn in *; lia]. }
    destruct t1 as [|e1 t1].
    { destruct l2 as [|d2 [|e2 t2]]; cbn in *; try lia.
      inversion H1 as [|d|D k j hl hr K A]; subst.
      2:{ cbn in A. pose proof (pow2_pos j). lia. }
      inversion H2 as [|d|D k j hl hr K A]; subst.
      2:{ cbn in A. pose proof (pow2_pos j). lia. }
      exists (x00 :: d1), (x00 :: d2). repeat split; try constructor; congruence. }
    remember (d1 :: e1 :: t1) as l1' eqn:El1.
    assert (2 <= n)%nat by (subst; cbn; lia). clear El1.
    inversion H1 as [E1 E2|d E1 E2|D k j hl hr K A1 A2 Hl Hr E1 E2]; subst h.
    { rewrite <- E1 in *; cbn in *; lia. } { rewrite <- E1 in *; cbn in *; lia. }
    inversion H2 as [E1'|d E1'|D' k' j' hl' hr' K' B1 B2 Hl' Hr' E1' E2'].
    { rewrite <- E1' in *; cbn in *; lia. } { rewrite <- E1' in *; cbn in *; lia. }
    subst D D' k k'.
    assert (j' = j) by (eapply split_unique; [exact B1|exact B2| |]; lia). subst j'.
    destruct (bytes_eq_dec (hl' ++ hr') (hl ++ hr)) as [E|E].
    - destruct (app_inj_len hl' hr' hl hr) as [-> ->]; [|exact E|].
      { rewrite (MTH_len _ _ Hl), (MTH_len _ _ Hl'); reflexivity. }
      destruct (list_eq_dec bytes_eq_dec (firstn (2 ^ j) l1') (firstn (2 ^ j) l2)) as [EL|EL].
      + assert (skipn (2 ^ j) l1' <> skipn (2 ^ j) l2) as ER.
        { intros ER. apply N. rewrite <- (firstn_skipn (2 ^ j) l1'), EL, ER. apply firstn_skipn. }
        destruct (IH (length (skipn (2 ^ j) l1'))) with (l1 := skipn (2 ^ j) l1') (l2 := skipn (2 ^ j) l2) (h := hr)
          as [x [y [X1 [X2 [X3 X4]]]]]; auto.
        { rewrite skipn_length. pose proof (pow2_pos j). lia. }
        { rewrite !skipn_length. lia. }
        exists x, y. repeat split; auto; eapply hashed_right; eauto.
      + destruct (IH (length (firstn (2 ^ j) l1'))) with (l1 := firstn (2 ^ j) l1') (l2 := firstn (2 ^ j) l2) (h := hl)
          as [x [y [X1 [X2 [X3 X4]]]]]; auto.
        { rewrite firstn_length. lia. }
        { rewrite !firstn_length. lia. }
        exists x, y. repeat split; auto; eapply hashed_left; eauto.
    - exists (x01 :: hl ++ hr), (x01 :: hl' ++ hr').
      repeat split.
      + eapply hashed_node; eauto.
      + eapply hashed_node; eauto.
      + congruence.
      + symmetry; assumption.
  Qed.

  Lemma verify_binding root first last l1 l2 :
    (first <= last)%N -> (last < two64 - 1)%N ->
    (N.of_nat (length l1) < two64)%N -> (N.of_nat (length l2) < two64)%N ->
    verifyLeaves sha256 (mkSubtree root first last) l1 = Ok tt ->
    verifyLeaves sha256 (mkSubtree root first last) l2 = Ok tt ->
    l1 <> l2 ->
    exists x y, hashed sha256 l1 x /\ hashed sha256 l2 y /\ x <> y /\ sha256 x = sha256 y.
  Proof.
    intros H1 H2 B1 B2 V1 V2 N.
    apply verify_iff in V1; auto. apply verify_iff in V2; auto.
    destruct V1 as [_ [L1 M1]], V2 as [_ [L2 M2]].
    apply (collision (length l1) l1 l2 root); auto; lia.
  Qed.
End Collision.

(** ** The walk of consistencyProofToSubtrees *)
Lemma midpoint_spec root f l : (f < l)%N -> (l < two64 - 1)%N ->
  exists j, midpoint (mkSubtree root f l) = (f + 2 ^ j)%N /\
            (2 ^ j < l - f + 1)%N /\ (l - f + 1 <= 2 * 2 ^ j)%N /\ j = N.log2 (l - f).
Proof.
  intros H1 H2. unfold midpoint.
  rewrite st_size_val by (cbn [st_first st_last]; lia). cbn [st_last st_first].
  destruct (N.ltb_spec 1 (l - f + 1)); [|lia].
  replace (l - f + 1 - 1)%N with (l - f)%N by lia.
  exists (N.log2 (l - f)).
  assert (E : (len64 (l - f) - 1)%N = N.log2 (l - f)).
  { unfold len64. rewrite N.size_log2 by lia. lia. }
  rewrite E, N.shiftl_1_l.
  pose proof (N.log2_spec (l - f) ltac:(lia)) as [S1 S2].
  rewrite N.pow_succ_r' in S2.
  rewrite add64_small by lia. repeat split; lia.
Qed.

(** The walk as a relation on index ranges, innermost term first. *)
Inductive walkR (t : N) : N -> N -> list (N * N) -> N * N -> Prop :=
| wk_stop f l : (f = l \/ l = t) -> walkR t f l [] (f, l)
| wk_left f l j rs c : f <> l -> l <> t ->
    (2 ^ j < l - f + 1)%N -> (l - f + 1 <= 2 * 2 ^ j)%N -> (t < f + 2 ^ j)%N ->
    walkR t f (f + 2 ^ j - 1) rs c -> walkR t f l (rs ++ [(f + 2 ^ j, l)%N]) c
| wk_right f l j rs c : f <> l -> l <> t ->
    (2 ^ j < l - f + 1)%N -> (l - f + 1 <= 2 * 2 ^ j)%N -> (f + 2 ^ j <= t)%N ->
    walkR t (f + 2 ^ j) l rs c -> walkR t f l (rs ++ [(f, f + 2 ^ j - 1)%N]) c.

Lemma pow2N_pos j : (0 < 2 ^ j)%N.
Proof. apply N.neq_0_lt_0, N.pow_nonzero; discriminate. Qed.

Lemma size_lt x j : (x < 2 ^ j)%N -> (N.size x <= j)%N.
Proof.
  intros H. destruct (N.eq_dec x 0) as [->|Nz]; [cbn; lia|].
  rewrite N.size_log2 by exact Nz.
  assert (N.log2 x < j)%N by (apply N.log2_lt_pow2; lia). lia.
Qed.

Lemma walk_spec fuel : forall t f l acc,
  (f <= l)%N -> (l < two64 - 1)%N -> (N.size (l - f) <= N.of_nat fuel)%N ->
  exists rs c, walk fuel t f l acc = Some (rs ++ acc, c) /\ walkR t f l rs c.
Proof.
  induction fuel as [|fuel IH]; intros t f l acc H1 H2 H3.
  - assert (l - f = 0)%N.
    { destruct (N.eq_dec (l - f) 0) as [E|E]; [exact E|].
      rewrite N.size_log2 in H3 by exact E. lia. }
    cbn [walk]. destruct (N.eqb_spec f l); [|lia]. cbn [orb].
    exists [], (f, l). split; [reflexivity|]. constructor; auto.
  - cbn [walk].
    destruct (N.eqb_spec f l) as [E1|E1]; cbn [orb].
    { exists [], (f, l). split; [reflexivity|]. constructor; auto. }
    destruct (N.eqb_spec l t) as [E2|E2].
    { exists [], (f, l). split; [reflexivity|]. constructor; auto. }
    destruct (midpoint_spec [] f l ltac:(lia) H2) as [j [Em [M1 [M2 M3]]]].
    rewrite Em. pose proof (pow2N_pos j).
    assert (Hj : (N.size (l - f) = N.succ j)%N) by (rewrite N.size_log2 by lia; congruence).
    rewrite (sub64_small (f + 2 ^ j) 1) by lia.
    destruct (N.ltb_spec t (f + 2 ^ j)) as [Lt|Ge].
    + destruct (IH t f (f + 2 ^ j - 1)%N ((f + 2 ^ j, l)%N :: acc)) as [rs [c [E W]]]; [lia|lia| |].
      { assert (N.size (f + 2 ^ j - 1 - f) <= j)%N by (apply size_lt; lia). lia. }
      exists (rs ++ [(f + 2 ^ j, l)%N]), c. split.
      * rewrite E, <- app_assoc. reflexivity.
      * apply wk_left; auto.
    + destruct (IH t (f + 2 ^ j)%N l ((f, f + 2 ^ j - 1)%N :: acc)) as [rs [c [E W]]]; [lia|lia| |].
      { assert (N.size (l - (f + 2 ^ j)) <= j)%N by (apply size_lt; lia). lia. }
      exists (rs ++ [(f, f + 2 ^ j - 1)%N]), c. split.
      * rewrite E, <- app_assoc. reflexivity.
      * apply wk_right; auto.
Qed.

(** *** Tiling *)
Lemma tiles_le rs : forall a b, tiles rs a b -> (a <= b)%N.
Proof.
  induction rs as [|[x y] rs IH]; cbn [tiles]; intros a b H; [contradiction|].
  destruct rs as [|r rs]; [lia|]. destruct H as [-> [H1 [H2 H3]]]. lia.
Qed.

Lemma tiles_app rs1 : forall a m rs2 b,
  tiles rs1 a m -> tiles rs2 (m + 1) b -> tiles (rs1 ++ rs2) a b.
Proof.
  induction rs1 as [|[x y] rs1 IH]; intros a m rs2 b H1 H2; [contradiction|].
  pose proof (tiles_le _ _ _ H2).
  cbn [app]. cbn [tiles] in H1. destruct rs1 as [|r rs1].
  - destruct H1 as [-> [-> H1]]. cbn [app tiles].
    destruct rs2 as [|r2 rs2]; [contradiction|]. repeat split; try lia. exact H2.
  - destruct H1 as [-> [A1 [A2 A3]]].
    pose proof (tiles_le _ _ _ A3).
    change (tiles ((a, y) :: (r :: rs1) ++ rs2) a b).
    cbn [tiles app]. change (r :: rs1 ++ rs2) with ((r :: rs1) ++ rs2).
    repeat split; try lia. eapply IH; eassumption.
Qed.

Lemma tiles_one a b : (a <= b)%N -> tiles [(a, b)] a b.
Proof. cbn. auto. Qed.

Definition onRight (t : N) (r : N * N) : bool := (t <? fst r)%N.

Definition tiles0 (rs : list (N * N)) (a b : N) : Prop :=
  match rs with [] => a = (b + 1)%N | _ => tiles rs a b end.

Lemma tiles0_app rs1 rs2 a m b :
  tiles0 rs1 a m -> tiles rs2 (m + 1) b -> tiles (rs1 ++ rs2) a b.
Proof.
  destruct rs1 as [|r rs1]; cbn [tiles0 app].
  - intros -> H; exact H.
  - intros H1 H2. change (r :: rs1 ++ rs2) with ((r :: rs1) ++ rs2). eapply tiles_app; eassumption.
Qed.

Lemma tiles_tiles0 rs a b : tiles rs a b -> tiles0 rs a b.
Proof. destruct rs; [contradiction|auto]. Qed.

Lemma walkR_tiles t f l rs c : walkR t f l rs c -> (f <= t <= l)%N ->
  snd c = t /\ (f <= fst c <= t)%N /\
  tiles0 (filter (onRight t) rs) (t + 1) l /\
  (fst c = f /\ filter (fun r => negb (onRight t r)) rs = [] \/
   (f < fst c)%N /\
   tiles (rev (filter (fun r => negb (onRight t r)) rs)) f (fst c - 1)) /\
  Forall (fun r => (snd r < fst c)%N \/ (t < fst r)%N) rs.
Proof.
  induction 1 as [f l D|f l j rs c N1 N2 J1 J2 T W IH|f l j rs c N1 N2 J1 J2 T W IH]; intros Ht.
  - assert (l = t) by lia. subst l. cbn [fst snd filter rev tiles0].
    repeat split; try lia; auto.
  - pose proof (pow2N_pos j).
    destruct IH as [I1 [I2 [I3 [I4 I5]]]]; [lia|].
    repeat split; try lia.
    + rewrite filter_app. cbn [filter]. unfold onRight at 2. cbn [fst].
      destruct (N.ltb_spec t (f + 2 ^ j)); [|lia].
      apply tiles_tiles0. eapply tiles0_app; [exact I3|].
      replace (f + 2 ^ j - 1 + 1)%N with (f + 2 ^ j)%N by lia. apply tiles_one. lia.
    + rewrite filter_app. cbn [filter]. unfold onRight at 2 4. cbn [fst].
      destruct (N.ltb_spec t (f + 2 ^ j)); [|lia]. cbn [negb]. rewrite !app_nil_r. exact I4.
    + apply Forall_app. split; [exact I5|]. constructor; [|constructor]. cbn. lia.
  - pose proof (pow2N_pos j).
    destruct IH as [I1 [I2 [I3 [I4 I5]]]]; [lia|].
    repeat split; try lia.
    + rewrite filter_app. cbn [filter]. unfold onRight at 2. cbn [fst].
      destruct (N.ltb_spec t f); [lia|]. rewrite app_nil_r. exact I3.
    + right. split; [lia|]. rewrite filter_app. cbn [filter]. unfold onRight at 2. cbn [fst].
      destruct (N.ltb_spec t f); [lia|]. cbn [negb]. rewrite rev_app_distr. cbn [rev app].
      destruct I4 as [[E1 E2]|[E1 E2]].
      * rewrite E1, E2. cbn [rev app]. apply tiles_one. lia.
      * change ((f, (f + 2 ^ j - 1)%N) :: rev (filter (fun r => negb (onRight t r)) rs))
          with ([(f, (f + 2 ^ j - 1)%N)] ++ rev (filter (fun r => negb (onRight t r)) rs)).
        eapply tiles_app; [apply tiles_one; lia|].
        replace (f + 2 ^ j - 1 + 1)%N with (f + 2 ^ j)%N by lia. exact E2.
    + apply Forall_app. split; [exact I5|]. constructor; [|constructor]. cbn. lia.
Qed.
