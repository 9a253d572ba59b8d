(** * Ordering of the subtrees of a job (C03) and job ranges (C05). *)
From Coq Require Import Permutation Sorted.
From Verif Require Import Base MerkleModel MerkleSpec MerkleProofs MerkleProofs2 MerkleProofs3 CtFetchModel.

(** ** sort.Search *)
Lemma searchLoop_spec f n : (forall i j, (i <= j < n)%nat -> f i = true -> f j = true) ->
  forall fuel i j, (j - i < fuel)%nat -> (i <= j <= n)%nat ->
  (forall k, (k < i)%nat -> f k = false) -> (forall k, (j <= k < n)%nat -> f k = true) ->
  let r := searchLoop fuel f i j in
  (r <= n)%nat /\ (forall k, (k < r)%nat -> f k = false) /\ (forall k, (r <= k < n)%nat -> f k = true).
Proof.
  intros Mono. induction fuel as [|fuel IH]; intros i j Hf Hij Lo Hi; [lia|].
  cbn [searchLoop]. destruct (Nat.ltb_spec i j) as [L|L].
  - set (h := ((i + j) / 2)%nat).
    assert (Hh : (i <= h < j)%nat) by (unfold h; lia).
    destruct (f h) eqn:E.
    + apply IH; [lia|lia|exact Lo|]. intros k Hk. apply (Mono h k); [lia|exact E].
    + apply IH; [lia|lia| |exact Hi]. intros k Hk.
      destruct (f k) eqn:Ek; [|reflexivity]. rewrite (Mono k h) in E; [discriminate|lia|exact Ek].
  - cbn. repeat split; [lia|exact Lo|]. intros k Hk. apply Hi. lia.
Qed.

Lemma sortSearch_spec f n : (forall i j, (i <= j < n)%nat -> f i = true -> f j = true) ->
  let r := sortSearch n f in
  (r <= n)%nat /\ (forall k, (k < r)%nat -> f k = false) /\ (forall k, (r <= k < n)%nat -> f k = true).
Proof.
  intros Mono. apply (searchLoop_spec f n Mono); [lia|lia| |]; intros k Hk; lia.
Qed.

(** ** Insertion by key *)
Section Key.
  Context {A : Type} (d : A) (gt : A -> A -> bool).
  (** [gt x a]: x goes before a. Strict weak order given by a key. *)
  Variable key : A -> Z.
  Hypothesis gt_key : forall x a, gt x a = (key x <? key a)%Z.

  Definition leK (a b : A) : Prop := (key a <= key b)%Z.
  Definition ltK (a b : A) : Prop := (key a < key b)%Z.

  Lemma sorted_nth l : StronglySorted leK l -> forall i j, (i <= j < length l)%nat ->
    (key (nth i l d) <= key (nth j l d))%Z.
  Proof.
    induction 1 as [|a l S IH F]; intros i j H; [cbn in H; lia|].
    destruct i as [|i]; destruct j as [|j]; cbn [nth]; try lia.
    - rewrite Forall_forall in F. apply F. apply nth_In. cbn in H; lia.
    - apply IH. cbn in H; lia.
  Qed.

  Lemma insert_sorted l x : StronglySorted leK l ->
    StronglySorted leK (insertAt (sortSearch (length l) (fun i => gt x (nth i l d))) x l).
  Proof.
    intros S.
    destruct (sortSearch_spec (fun i => gt x (nth i l d)) (length l)) as [R1 [R2 R3]].
    { intros i j Hij. rewrite !gt_key. intros E. pose proof (sorted_nth l S i j ltac:(lia)). lia. }
    cbv zeta in *. set (r := sortSearch _ _) in *. clearbody r.
    unfold insertAt.
    revert r R1 R2 R3. induction S as [|a l SS IH F]; intros r R1 R2 R3.
    - cbn in R1. replace r with O by lia. cbn. repeat constructor.
    - destruct r as [|r].
      + cbn [firstn skipn app]. constructor; [constructor; assumption|].
        assert (E : (key x < key a)%Z).
        { specialize (R3 O ltac:(cbn; lia)). cbn [nth] in R3. rewrite gt_key in R3. lia. }
        constructor; [unfold leK; lia|]. rewrite Forall_forall in *. intros y Hy.
        specialize (F y Hy). unfold leK in *. lia.
      + cbn [firstn skipn app]. constructor.
        * apply IH; [cbn in R1; lia| |].
          -- intros k Hk. specialize (R2 (S k) ltac:(lia)). exact R2.
          -- intros k Hk. specialize (R3 (S k) ltac:(cbn; lia)). exact R3.
        * rewrite Forall_forall in *. intros y Hy. apply in_app_iff in Hy.
          destruct Hy as [Hy|[<-|Hy]].
          -- apply F. rewrite <- (firstn_skipn r l). apply in_or_app; auto.
          -- specialize (R2 O ltac:(lia)). cbn [nth] in R2. rewrite gt_key in R2. unfold leK. lia.
          -- apply F. rewrite <- (firstn_skipn r l). apply in_or_app; auto.
  Qed.

  Lemma insert_perm r (x : A) l : Permutation (insertAt r x l) (x :: l).
  Proof.
    unfold insertAt. symmetry. rewrite <- (firstn_skipn r l) at 1. apply Permutation_middle.
  Qed.

End Key.

Section Unique.
  Context {A : Type} (key : A -> Z).
  Lemma sorted_unique l1 : StronglySorted (leK key) l1 -> forall l2, StronglySorted (ltK key) l2 ->
    Permutation l1 l2 -> l1 = l2.
  Proof.
    induction 1 as [|y l1 S1 IH F1]; intros l2 S2 P.
    - apply Permutation_nil in P. auto.
    - destruct l2 as [|x l2].
      + symmetry in P. apply Permutation_nil in P. discriminate.
      + inversion S2 as [|? ? S2' F2]; subst.
        assert (Iy : In y (x :: l2)) by (eapply Permutation_in; [exact P|left; auto]).
        destruct Iy as [->|Iy].
        * f_equal. apply IH; [exact S2'|]. eapply Permutation_cons_inv; exact P.
        * exfalso. rewrite Forall_forall in *. specialize (F2 y Iy).
          assert (Ix : In x (y :: l1)) by (eapply Permutation_in; [symmetry; exact P|left; auto]).
          destruct Ix as [->|Ix]; [unfold ltK in F2; lia|].
          specialize (F1 x Ix). unfold leK, ltK in *. lia.
  Qed.
End Unique.

Definition inJob (f l : N) (s : subtree) : bool :=
  (f <=? st_first s)%N && (st_last s <=? l)%N.

(** The key by which orderVerifiers sorts. *)
Definition keyOf (w : task) (s : subtree) : Z :=
  match w with TBackfill => - Z.of_N (st_last s) | _ => Z.of_N (st_first s) end%Z.

Lemma orderVerifiers_spec w f l sts : forall acc, StronglySorted (leK (keyOf w)) acc ->
  StronglySorted (leK (keyOf w)) (orderVerifiers w f l sts acc) /\
  Permutation (orderVerifiers w f l sts acc) (filter (inJob f l) sts ++ acc).
Proof.
  induction sts as [|s sts IH]; intros acc Sa; cbn [orderVerifiers filter].
  - split; [exact Sa|reflexivity].
  - unfold inJob at 1. destruct ((f <=? st_first s)%N && (st_last s <=? l)%N); cbn [negb]; [|apply IH; exact Sa].
    match goal with |- context[insertAt ?p s acc] => set (acc' := insertAt p s acc) end.
    assert (Sacc' : StronglySorted (leK (keyOf w)) acc').
    { unfold acc'. destruct w.
      2:{ apply (insert_sorted dummySubtree (fun x a => (st_last a <? st_last x)%N)); [|exact Sa].
          intros x a; cbn [keyOf]; lia. }
      all: apply (insert_sorted dummySubtree (fun x a => (st_first x <? st_first a)%N)); [|exact Sa];
        intros x a; cbn [keyOf]; lia. }
    destruct (IH acc' Sacc') as [I1 I2]. split; [exact I1|].
    etransitivity; [exact I2|].
    etransitivity; [apply Permutation_app_head; apply insert_perm|].
    symmetry. cbn [app]. apply Permutation_middle.
Qed.

Lemma tiles_bounds rs : forall a b, tiles rs a b ->
  Forall (fun r => (a <= fst r <= snd r)%N /\ (snd r <= b)%N) rs.
Proof.
  induction rs as [|[x y] rs IH]; intros a b H; [constructor|].
  cbn [tiles] in H. destruct rs as [|r rs].
  - constructor; [cbn; lia|constructor].
  - destruct H as [-> [H1 [H2 H3]]]. constructor; [cbn; lia|].
    specialize (IH _ _ H3). rewrite Forall_forall in *. intros z Hz. specialize (IH z Hz). lia.
Qed.

Lemma tiles_sorted rs : forall a b, tiles rs a b ->
  StronglySorted (fun x y : N * N => (snd x < fst y)%N) rs.
Proof.
  induction rs as [|[x y] rs IH]; intros a b H; [constructor|].
  cbn [tiles] in H. destruct rs as [|r rs].
  - repeat constructor.
  - destruct H as [-> [H1 [H2 H3]]]. constructor; [eapply IH; exact H3|].
    pose proof (tiles_bounds _ _ _ H3) as F. rewrite Forall_forall in *. intros z Hz.
    specialize (F z Hz). cbn in *. lia.
Qed.

Lemma SS_map {A C} (g : A -> C) (R : C -> C -> Prop) (l : list A) :
  StronglySorted (fun x y => R (g x) (g y)) l <-> StronglySorted R (map g l).
Proof.
  split.
  - induction 1 as [|a l S IH F]; cbn [map]; constructor; [exact IH|].
    rewrite Forall_map. exact F.
  - induction l as [|a l IH]; cbn [map]; intros S; constructor;
      inversion S as [|? ? S' F]; subst.
    + apply IH; exact S'.
    + rewrite Forall_map in F. exact F.
Qed.

Lemma SS_impl {A} (P Q : A -> A -> Prop) (G : A -> Prop) l :
  (forall a b, G a -> G b -> P a b -> Q a b) -> Forall G l -> StronglySorted P l -> StronglySorted Q l.
Proof.
  intros H FG S. induction S as [|a l S IH F]; constructor.
  - apply IH. inversion FG; assumption.
  - inversion FG; subst. rewrite Forall_forall in *. intros x Hx. apply H; auto.
Qed.

Lemma SS_rev {A} (R : A -> A -> Prop) l :
  StronglySorted R l -> StronglySorted (fun x y => R y x) (rev l).
Proof.
  induction 1 as [|a l S IH F]; cbn [rev]; [constructor|].
  assert (G : forall l1 l2 : list A, StronglySorted (fun x y => R y x) l1 -> StronglySorted (fun x y => R y x) l2 ->
     (forall x y, In x l1 -> In y l2 -> R y x) -> StronglySorted (fun x y => R y x) (l1 ++ l2)).
  { clear. induction 1 as [|b l1 S1 IH1 F1]; intros S2 X; cbn [app]; [exact S2|].
    constructor.
    - apply IH1; [exact S2|]. intros; apply X; [right; assumption|assumption].
    - rewrite Forall_app. split; [exact F1|]. rewrite Forall_forall. intros y Hy. apply X; [left; auto|exact Hy]. }
  apply G; [exact IH|repeat constructor|].
  intros x y Hx [<-|[]]. apply in_rev in Hx. rewrite Forall_forall in F. auto.
Qed.

(** Ordered verifiers of a job whose subtrees are a permutation of a tiling. *)
Lemma order_tiles w f l sts L a b :
  Permutation (map range (filter (inJob f l) sts)) L -> tiles L a b ->
  tiles (match w with TBackfill => rev (map range (orderVerifiers w f l sts []))
                 | _ => map range (orderVerifiers w f l sts []) end) a b.
Proof.
  intros P T.
  destruct (orderVerifiers_spec w f l sts [] ltac:(constructor)) as [O1 O2].
  rewrite app_nil_r in O2. set (vs := orderVerifiers w f l sts []) in *. clearbody vs.
  assert (P' : Permutation (map range vs) L) by (etransitivity; [apply Permutation_map; exact O2|exact P]).
  pose proof (tiles_sorted _ _ _ T) as SL. pose proof (tiles_bounds _ _ _ T) as BL.
  assert (Hcase : (w <> TBackfill -> map range vs = L) /\ (w = TBackfill -> rev (map range vs) = L)).
  { split.
    - intros Nw. apply (sorted_unique (fun r : N * N => Z.of_N (fst r))).
      + unfold leK. apply (SS_map range (fun x y : N * N => (Z.of_N (fst x) <= Z.of_N (fst y))%Z)).
        eapply (SS_impl _ _ (fun _ => True)); [|apply Forall_forall; auto|exact O1].
        intros x y _ _. unfold leK. destruct w; cbn [keyOf range fst]; congruence.
      + eapply (SS_impl _ _ (fun r => (a <= fst r <= snd r)%N /\ (snd r <= b)%N)); [|exact BL|exact SL].
        intros x y Gx Gy. unfold ltK. lia.
      + exact P'.
    - intros ->.
      assert (E : map range vs = rev L).
      { apply (sorted_unique (fun r : N * N => (- Z.of_N (snd r))%Z)).
        - unfold leK. apply (SS_map range (fun x y : N * N => (- Z.of_N (snd x) <= - Z.of_N (snd y))%Z)).
          exact O1.
        - eapply (SS_impl _ _ (fun r => (a <= fst r <= snd r)%N /\ (snd r <= b)%N));
            [|apply Forall_rev; exact BL|apply SS_rev; exact SL].
          intros x y Gx Gy. unfold ltK. lia.
        - etransitivity; [exact P'|apply Permutation_rev]. }
      rewrite E. apply rev_involutive. }
  destruct Hcase as [H1 H2].
  destruct w; try (rewrite H1 by discriminate; exact T).
  rewrite H2 by reflexivity. exact T.
Qed.

Lemma jobs_tile w p first last sts :
  (first <= last)%N -> (last < two64 - 1)%N -> (first = 0%N -> (3 <= last)%N) ->
  consistencyProofToSubtrees p (fst (proofSizes (first, last))) (snd (proofSizes (first, last))) = Ok sts ->
  tiles (match w with TBackfill => rev (map range (orderVerifiers w first last sts []))
                 | _ => map range (orderVerifiers w first last sts []) end) first last.
Proof.
  intros H1 H2 H3 HS. unfold proofSizes in HS. cbn [fst snd] in HS.
  rewrite add64_small in HS by lia.
  destruct (N.eqb_spec first 0) as [->|Nz].
  - specialize (H3 eq_refl).
    destruct (ranges_tile_all p 3 (last + 1) sts) as [L [P T]]; [lia|lia|discriminate|exact HS|].
    replace (last + 1 - 1)%N with last in T by lia.
    eapply order_tiles; [|exact T].
    assert (E : filter (inJob 0 last) sts = sts).
    { pose proof (tiles_bounds _ _ _ T) as BL.
      assert (BS : Forall (fun s => inJob 0 last s = true) sts).
      { rewrite Forall_forall in *. intros s Hs. unfold inJob.
        specialize (BL (range s)). rewrite <- P in BL. specialize (BL (in_map range sts s Hs)).
        cbn [range fst snd] in BL. lia. }
      clear - BS. induction BS as [|s sts E F IH]; cbn [filter]; [reflexivity|]. rewrite E, IH. reflexivity. }
    rewrite E. exact P.
  - destruct (ranges_tile p first (last + 1) sts) as [T B]; [lia|lia|exact HS|].
    replace (last + 1 - 1)%N with last in T by lia.
    eapply order_tiles; [|exact T].
    rewrite filter_map_comm.
    assert (E : filter (inJob first last) sts = filter (fun x => (first <=? fst (range x))%N) sts).
    { assert (BS : Forall (fun s => (first <= st_first s)%N -> (st_last s <= last)%N) sts).
      { rewrite Forall_forall in *. intros s Hs Hf.
        pose proof (tiles_bounds _ _ _ T) as BL. rewrite Forall_forall in BL.
        specialize (BL (range s)). cbn [range fst snd] in BL. apply BL.
        apply filter_In. split; [apply (in_map range sts s Hs)|]. cbn [range fst]. lia. }
      clear - BS. induction BS as [|s sts E F IH]; cbn [filter]; [reflexivity|].
      rewrite IH. unfold inJob, range. cbn [fst].
      destruct (N.leb_spec first (st_first s)); cbn [andb]; [|reflexivity].
      destruct (N.leb_spec (st_last s) last); [reflexivity|]. lia. }
    rewrite E. reflexivity.
Qed.
