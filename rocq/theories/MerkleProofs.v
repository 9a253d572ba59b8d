(** * Proofs about the Merkle verifier (properties C01, C02). *)
From Verif Require Import Base MerkleModel MerkleSpec.

Lemma pow2_pos j : (0 < 2 ^ j)%nat.
Proof. induction j; cbn; lia. Qed.

Section Hash.
  Variable sha256 : bytes -> bytes.
  Notation MTH := (MTH sha256).
  Notation popPairs := (popPairs sha256).
  Notation consume := (consume sha256).
  Notation consumeAll := (consumeAll sha256).
  Notation verifyLeaves := (verifyLeaves sha256).

  Lemma pow2_le_inv j1 j2 : (2 ^ j1 <= 2 ^ j2)%nat -> (j1 <= j2)%nat.
  Proof.
    intros H. destruct (Nat.le_gt_cases j1 j2) as [L|L]; [exact L|].
    exfalso. assert (2 ^ (S j2) <= 2 ^ j1)%nat by (apply Nat.pow_le_mono_r; lia).
    cbn [Nat.pow] in *. pose proof (pow2_pos j2). lia.
  Qed.

  (** The split point is unique. *)
  Lemma split_unique n j1 j2 :
    (2 ^ j1 < n)%nat -> (n <= 2 * 2 ^ j1)%nat ->
    (2 ^ j2 < n)%nat -> (n <= 2 * 2 ^ j2)%nat -> j1 = j2.
  Proof.
    intros A1 A2 B1 B2.
    destruct (Nat.lt_trichotomy j1 j2) as [L|[E|L]]; [|exact E|]; exfalso.
    - assert (2 ^ (S j1) <= 2 ^ j2)%nat by (apply Nat.pow_le_mono_r; lia).
      cbn [Nat.pow] in *. lia.
    - assert (2 ^ (S j2) <= 2 ^ j1)%nat by (apply Nat.pow_le_mono_r; lia).
      cbn [Nat.pow] in *. lia.
  Qed.

  Lemma MTH_fun D h1 h2 : MTH D h1 -> MTH D h2 -> h1 = h2.
  Proof.
    intros H1; revert h2; induction H1 as [|d|D k j hl hr K L1 L2 Hl IHl Hr IHr];
      intros h2 H2.
    - inversion H2; subst; [reflexivity|cbn in *; lia].
    - inversion H2 as [|d'|D' k' j' hl' hr' K' L1' L2']; subst; [reflexivity|].
      cbn in *. pose proof (pow2_pos j'). lia.
    - inversion H2 as [|d'|D' k' j' hl' hr' K' L1' L2' Hl' Hr']; subst.
      + cbn in L1; lia.
      + cbn in L1. pose proof (pow2_pos j). lia.
      + assert (j = j') by (eapply split_unique; eassumption). subst j'.
        rewrite (IHl _ Hl'), (IHr _ Hr'). reflexivity.
  Qed.

  Lemma split_exists n : (1 < n)%nat -> exists j, (2 ^ j < n)%nat /\ (n <= 2 * 2 ^ j)%nat.
  Proof.
    intros H. exists (Nat.log2 (n - 1)).
    pose proof (Nat.log2_spec (n - 1)). cbn [Nat.pow] in *. lia.
  Qed.

  Lemma MTH_total D : exists h, MTH D h.
  Proof.
    remember (length D) as n eqn:E. revert D E.
    induction n as [n IH] using lt_wf_ind; intros D E.
    destruct D as [|d D']; [eexists; constructor|].
    destruct D' as [|e D']; [eexists; constructor|].
    destruct (split_exists n) as [j [J1 J2]]; [subst; cbn; lia|].
    pose proof (pow2_pos j).
    destruct (IH (2 ^ j)%nat J1 (firstn (2 ^ j) (d :: e :: D'))) as [hl Hl].
    { rewrite firstn_length. rewrite <- E. lia. }
    destruct (IH (n - 2 ^ j)%nat ltac:(lia) (skipn (2 ^ j) (d :: e :: D'))) as [hr Hr].
    { rewrite skipn_length. rewrite <- E. lia. }
    eexists. eapply MTH_node; try eassumption; [reflexivity| |]; rewrite <- E; lia.
  Qed.

  Lemma MTH_merge D1 D2 h1 h2 j :
    length D1 = (2 ^ j)%nat -> (1 <= length D2 <= 2 ^ j)%nat ->
    MTH D1 h1 -> MTH D2 h2 -> MTH (D1 ++ D2) (sha256 (x01 :: h1 ++ h2)).
  Proof.
    intros L1 L2 H1 H2.
    apply (MTH_node sha256 (D1 ++ D2) (2 ^ j) j h1 h2); try reflexivity.
    - rewrite app_length; lia.
    - rewrite app_length; lia.
    - rewrite <- L1, firstn_app, Nat.sub_diag, firstn_all. cbn. rewrite app_nil_r. exact H1.
    - rewrite <- L1, skipn_app, Nat.sub_diag, skipn_all. exact H2.
  Qed.

  (** Stack of the roots of the binary decomposition of the leaves so far. *)
  Inductive stk : nat -> positive -> list bytes -> list bytes -> Prop :=
  | stk_1 i D h : length D = (2 ^ i)%nat -> MTH D h -> stk i xH D [h]
  | stk_O i p D s : stk (S i) p D s -> stk i (xO p) D s
  | stk_I i p D1 D2 h s : stk (S i) p D1 s -> length D2 = (2 ^ i)%nat -> MTH D2 h ->
      stk i (xI p) (D1 ++ D2) (h :: s).

  Lemma stk_carry i p D s : stk i p D s -> forall D2 h,
    length D2 = (2 ^ i)%nat -> MTH D2 h ->
    exists s', popPairs (pos_ctz (Pos.succ p)) (h :: s) = Ok s' /\
               stk i (Pos.succ p) (D ++ D2) s'.
  Proof.
    induction 1 as [i D h0 L0 H0|i p D s H IH|i p D1 D2' h' s H IH L' H'];
      intros D2 h L2 H2; cbn [Pos.succ pos_ctz].
    - cbn [MerkleModel.popPairs]. eexists; split; [reflexivity|].
      constructor. constructor.
      + rewrite app_length. cbn [Nat.pow]. lia.
      + eapply MTH_merge; try eassumption. pose proof (pow2_pos i). lia.
    - cbn [MerkleModel.popPairs]. eexists; split; [reflexivity|].
      constructor; assumption.
    - cbn [MerkleModel.popPairs].
      destruct (IH (D2' ++ D2) (pairHash sha256 h' h)) as [s' [E K]].
      + rewrite app_length; cbn [Nat.pow]; lia.
      + eapply MTH_merge; try eassumption. pose proof (pow2_pos i); lia.
      + exists s'; split; [exact E|]. constructor. rewrite <- app_assoc. exact K.
  Qed.

  Lemma stk_all i p D s : stk i p D s -> forall R h,
    (1 <= length R <= 2 ^ i)%nat -> MTH R h ->
    exists hh, popPairs (length s) (h :: s) = Ok [hh] /\ MTH (D ++ R) hh.
  Proof.
    induction 1 as [i D h0 L0 H0|i p D s H IH|i p D1 D2' h' s H IH L' H'];
      intros R h LR HR.
    - cbn. eexists; split; [reflexivity|]. eapply MTH_merge; eassumption.
    - apply IH; [|exact HR]. cbn [Nat.pow]; lia.
    - cbn [length MerkleModel.popPairs].
      destruct (IH (D2' ++ R) (pairHash sha256 h' h)) as [hh [E K]].
      + rewrite app_length; cbn [Nat.pow]; lia.
      + eapply MTH_merge; eassumption.
      + exists hh; split; [exact E|]. rewrite <- app_assoc. exact K.
  Qed.

  Lemma popPairs_one s : forall h, exists hh, popPairs (length s) (h :: s) = Ok [hh].
  Proof.
    induction s as [|a s IH]; intros h; cbn [length MerkleModel.popPairs].
    - eexists; reflexivity.
    - apply IH.
  Qed.

  (** Invariant after consuming the leaves [P]. *)
  Definition vinv (s : subtree) (P : list bytes) (v : verifier) : Prop :=
    v_subtree v = s /\ v_num v = N.of_nat (length P) /\
    match P with
    | [] => v_stack v = []
    | _ =>
        if (N.of_nat (length P) <? st_size s)%N
        then stk 0 (Pos.of_nat (length P)) P (v_stack v)
        else exists h, v_stack v = [h] /\
               (N.of_nat (length P) = st_size s -> MTH P h)
    end.

  Lemma consume_inv s P v leaf :
    (1 <= st_size s)%N -> (N.of_nat (length P) + 1 < two64)%N ->
    vinv s P v -> exists v', consume v leaf = Ok v' /\ vinv s (P ++ [leaf]) v'.
  Proof.
    intros Hs Hb [E1 [E2 E3]].
    assert (Hadd : add64 (v_num v) 1 = (N.of_nat (length P) + 1)%N).
    { rewrite E2. apply add64_small. exact Hb. }
    assert (Hlen : N.of_nat (length (P ++ [leaf])) = (N.of_nat (length P) + 1)%N).
    { rewrite app_length. cbn [length]. lia. }
    unfold MerkleModel.consume. rewrite E1, Hadd.
    assert (S0 : (if (v_num v =? 0)%N then [] else v_stack v) = v_stack v).
    { destruct (N.eqb_spec (v_num v) 0) as [Z|Z]; [|reflexivity].
      destruct P; [symmetry; exact E3|]. rewrite E2 in Z. cbn in Z. lia. }
    rewrite S0. clear S0.
    destruct P as [|p0 P0].
    - rewrite E3. cbn [length app].
      destruct (N.leb_spec (st_size s) (N.of_nat 0 + 1)) as [L|L].
      + cbn [Nat.sub MerkleModel.popPairs]. eexists; split; [reflexivity|].
        unfold vinv. cbn [v_subtree v_num v_stack app].
        split; [reflexivity|]. split; [reflexivity|]. cbn [length].
        destruct (N.ltb_spec (N.of_nat 1) (st_size s)); [lia|].
        eexists; split; [reflexivity|]. intros _. constructor.
      + change (ctz64 (N.of_nat 0 + 1)) with O.
        cbn [MerkleModel.popPairs]. eexists; split; [reflexivity|].
        unfold vinv. cbn [v_subtree v_num v_stack app].
        split; [reflexivity|]. split; [reflexivity|]. cbn [length].
        destruct (N.ltb_spec (N.of_nat 1) (st_size s)); [|lia].
        change (Pos.of_nat 1) with xH. constructor; [reflexivity|constructor].
    - set (P := p0 :: P0) in *.
      assert (HP : (1 <= length P)%nat) by (subst P; cbn; lia).
      assert (E3' : if (N.of_nat (length P) <? st_size s)%N
        then stk 0 (Pos.of_nat (length P)) P (v_stack v)
        else exists h, v_stack v = [h] /\
               (N.of_nat (length P) = st_size s -> MTH P h)) by exact E3.
      clear E3.
      assert (G : forall st num, num = (N.of_nat (length P) + 1)%N ->
         (if (num <? st_size s)%N
         then stk 0 (Pos.of_nat (length (P ++ [leaf]))) (P ++ [leaf]) st
         else exists h, st = [h] /\ (num = st_size s -> MTH (P ++ [leaf]) h)) ->
         vinv s (P ++ [leaf]) (mkVerifier s st num)).
      { intros st num En H. unfold vinv. cbn [v_subtree v_num v_stack].
        split; [reflexivity|]. split; [lia|].
        destruct (P ++ [leaf]) as [|q Q] eqn:EQ; [cbn in Hlen; lia|].
        rewrite <- EQ. rewrite <- EQ in H.
        replace (N.of_nat (length (P ++ [leaf]))) with num by (rewrite EQ; lia). exact H. }
      destruct (N.leb_spec (st_size s) (N.of_nat (length P) + 1)) as [L|L].
      + (* reduce everything *)
        cbn [length]. rewrite Nat.sub_succ, Nat.sub_0_r.
        destruct (N.ltb_spec (N.of_nat (length P)) (st_size s)) as [L2|L2].
        * destruct (stk_all _ _ _ _ E3' [leaf] (leafHash sha256 leaf)) as [hh [Eh Mh]].
          { cbn. lia. } { constructor. }
          rewrite Eh. eexists; split; [reflexivity|]. apply G; [reflexivity|].
          destruct (N.ltb_spec (N.of_nat (length P) + 1) (st_size s)); [lia|].
          eexists; split; [reflexivity|]. intros _. exact Mh.
        * destruct (popPairs_one (v_stack v) (leafHash sha256 leaf)) as [hh Eh].
          rewrite Eh. eexists; split; [reflexivity|]. apply G; [reflexivity|].
          destruct (N.ltb_spec (N.of_nat (length P) + 1) (st_size s)); [lia|].
          eexists; split; [reflexivity|]. intros A. lia.
      + destruct (N.ltb_spec (N.of_nat (length P)) (st_size s)) as [L2|L2]; [|lia].
        destruct (stk_carry _ _ _ _ E3' [leaf] (leafHash sha256 leaf)) as [s' [Es Ks]].
        { reflexivity. } { constructor. }
        assert (Ec : ctz64 (N.of_nat (length P) + 1) = pos_ctz (Pos.succ (Pos.of_nat (length P)))).
        { replace (N.of_nat (length P) + 1)%N with (Npos (Pos.succ (Pos.of_nat (length P)))) by lia.
          reflexivity. }
        rewrite Ec, Es. eexists; split; [reflexivity|]. apply G; [reflexivity|].
        destruct (N.ltb_spec (N.of_nat (length P) + 1) (st_size s)); [|lia].
        replace (Pos.of_nat (length (P ++ [leaf]))) with (Pos.succ (Pos.of_nat (length P))); [exact Ks|].
        rewrite app_length. cbn [length]. lia.
  Qed.

  Lemma consumeAll_inv s ls : forall P v,
    (1 <= st_size s)%N -> (N.of_nat (length P + length ls) < two64)%N ->
    vinv s P v -> exists v', consumeAll v ls = Ok v' /\ vinv s (P ++ ls) v'.
  Proof.
    induction ls as [|l ls IH]; intros P v Hs Hb Hv; cbn [MerkleModel.consumeAll].
    - exists v; split; [reflexivity|]. rewrite app_nil_r. exact Hv.
    - cbn [length] in Hb.
      destruct (consume_inv s P v l) as [v1 [E1 V1]]; [exact Hs|lia|exact Hv|].
      rewrite E1.
      destruct (IH (P ++ [l]) v1) as [v2 [E2 V2]]; [exact Hs| |exact V1|].
      { rewrite app_length. cbn [length]. lia. }
      exists v2; split; [exact E2|]. rewrite <- app_assoc in V2. exact V2.
  Qed.

  Lemma newVerifier_inv s : vinv s [] (newVerifier s).
  Proof. repeat split. Qed.

  Lemma st_size_val s : (st_first s <= st_last s)%N -> (st_last s < two64 - 1)%N ->
    st_size s = (st_last s - st_first s + 1)%N.
  Proof.
    intros H1 H2. unfold st_size. rewrite sub64_small by lia.
    apply add64_small. lia.
  Qed.

  (** The verifier never panics, and accepts exactly the genuine leaves. *)
  Lemma verify_no_panic root first last leaves :
    (first <= last)%N -> (last < two64 - 1)%N ->
    (N.of_nat (length leaves) < two64)%N ->
    verifyLeaves (mkSubtree root first last) leaves <> Panic.
  Proof.
    intros H1 H2 H3. unfold MerkleModel.verifyLeaves.
    set (s := mkSubtree root first last).
    assert (Hs : st_size s = (last - first + 1)%N) by (apply st_size_val; assumption).
    destruct (consumeAll_inv s leaves [] (newVerifier s)) as [v [E [V1 [V2 V3]]]];
      [lia|exact H3|apply newVerifier_inv|].
    rewrite E. cbn [app] in *. unfold checkClaim. rewrite V1.
    destruct (negb _); [discriminate|].
    destruct (N.eqb_spec (v_num v) (st_size s)) as [En|En]; cbn [negb]; [|discriminate].
    destruct leaves as [|l ls]; [cbn in V2; lia|].
    destruct (N.ltb_spec (N.of_nat (length (l :: ls))) (st_size s)); [lia|].
    destruct V3 as [h [Eh _]]. rewrite Eh. cbn.
    destruct (beq _ _); discriminate.
  Qed.

  Lemma verify_iff root first last leaves :
    (first <= last)%N -> (last < two64 - 1)%N ->
    (N.of_nat (length leaves) < two64)%N ->
    verifyLeaves (mkSubtree root first last) leaves = Ok tt <->
    length root = 32%nat /\
    N.of_nat (length leaves) = (last - first + 1)%N /\ MTH leaves root.
  Proof.
    intros H1 H2 H3. unfold MerkleModel.verifyLeaves.
    set (s := mkSubtree root first last).
    assert (Hs : st_size s = (last - first + 1)%N) by (apply st_size_val; assumption).
    destruct (consumeAll_inv s leaves [] (newVerifier s)) as [v [E [V1 [V2 V3]]]];
      [lia|exact H3|apply newVerifier_inv|].
    rewrite E. cbn [app] in *. unfold checkClaim. rewrite V1.
    change (st_root s) with root.
    destruct (N.eqb_spec (N.of_nat (length root)) 32) as [Er|Er]; cbn [negb].
    2:{ split; [discriminate|]. intros [A _]. lia. }
    destruct (N.eqb_spec (v_num v) (st_size s)) as [En|En]; cbn [negb].
    2:{ split; [discriminate|]. intros [_ [A _]]. lia. }
    destruct leaves as [|l ls]; [cbn in V2; lia|].
    destruct (N.ltb_spec (N.of_nat (length (l :: ls))) (st_size s)); [lia|].
    destruct V3 as [h [Eh Mh]]. rewrite Eh. cbn [rev app].
    specialize (Mh ltac:(lia)).
    destruct (beq_spec root h) as [->|Nr].
    - split; [|reflexivity]. intros _. repeat split; [lia|lia|exact Mh].
    - split; [discriminate|]. intros [_ [_ A]]. exfalso. apply Nr. eapply MTH_fun; eassumption.
  Qed.
End Hash.
