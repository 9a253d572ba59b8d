(** * Per-job soundness of the workers (C06, C09, C11, C12). *)
From Verif Require Import Base MerkleModel MerkleSpec MerkleProofs MerkleProofs2 MerkleProofs3
  CtFetchModel CtFetchProofs.

Definition two63 : N := 9223372036854775808%N.

(** The range a log state claims; a state never updated claims nothing. *)
Definition claims (s : logState) (i : N) : Prop :=
  ls_lastUpdate s <> None /\ (ls_minEntry s <= i <= ls_maxEntry s)%N.

Definition wfState (s : logState) : Prop :=
  match ls_lastUpdate s with
  | None => ls_minEntry s = 0%N /\ ls_maxEntry s = 0%N
  | Some _ => (ls_minEntry s <= ls_maxEntry s)%N /\ (ls_maxEntry s < two63)%N
  end.

Section Worker.
  Variable sha256 : bytes -> bytes.
  Context {Cert : Type}.
  Notation event := (event Cert).
  Notation consumeAll := (consumeAll sha256).
  Notation MTH := (MTH sha256).

  (** A trace made only of the entries k, k+1, ... *)
  Fixpoint entriesFrom (k : N) (tr : list event) : Prop :=
    match tr with
    | [] => True
    | EEntry i _ _ o :: tr' => i = k /\ o <> SFatal /\ entriesFrom (k + 1) tr'
    | EState _ :: _ => False
    end.
  Fixpoint leavesOf (tr : list event) : list bytes :=
    match tr with
    | [] => []
    | EEntry _ _ leaf _ :: tr' => leaf :: leavesOf tr'
    | EState _ :: tr' => leavesOf tr'
    end.

  Lemma entriesFrom_app k tr1 tr2 : entriesFrom k (tr1 ++ tr2) <->
    entriesFrom k tr1 /\ entriesFrom (k + N.of_nat (length tr1)) tr2.
  Proof.
    revert k; induction tr1 as [|[i ts lf o|s] tr1 IH]; intros k; cbn [app entriesFrom length].
    - rewrite N.add_0_r. tauto.
    - rewrite IH. replace (k + 1 + N.of_nat (length tr1))%N with (k + N.of_nat (S (length tr1)))%N by lia. tauto.
    - tauto.
  Qed.
  Lemma leavesOf_app tr1 tr2 : leavesOf (tr1 ++ tr2) = leavesOf tr1 ++ leavesOf tr2.
  Proof. induction tr1 as [|[i ts lf o|s] tr1 IH]; cbn; congruence. Qed.
  Lemma leavesOf_length k tr : entriesFrom k tr -> length (leavesOf tr) = length tr.
  Proof.
    revert k; induction tr as [|[i ts lf o|s] tr IH]; intros k; cbn; try tauto.
    intros [_ [_ H]]. rewrite (IH _ H). reflexivity.
  Qed.
  Lemma entriesFrom_In k tr : entriesFrom k tr -> forall i,
    (k <= i < k + N.of_nat (length tr))%N ->
    exists ts leaf o, In (EEntry i ts leaf o) tr /\ o <> SFatal /\
      nth_error (leavesOf tr) (N.to_nat (i - k)) = Some leaf.
  Proof.
    revert k; induction tr as [|[j ts lf o|s] tr IH]; intros k; cbn [entriesFrom length]; try tauto; [lia|].
    intros [-> [Ho H]] i Hi.
    destruct (N.eq_dec i k) as [->|Ne].
    - exists ts, lf, o. rewrite N.sub_diag. cbn. auto.
    - destruct (IH _ H i ltac:(lia)) as [ts' [lf' [o' [I [O E]]]]].
      exists ts', lf', o'. split; [right; exact I|]. split; [exact O|].
      replace (N.to_nat (i - k)) with (S (N.to_nat (i - (k + 1)))) by lia. exact E.
  Qed.
  Lemma entriesFrom_idx k tr : entriesFrom k tr -> forall e, In e tr ->
    exists i ts leaf o, e = EEntry i ts leaf o /\ (k <= i < k + N.of_nat (length tr))%N.
  Proof.
    revert k; induction tr as [|[j ts lf o|s] tr IH]; intros k; cbn [entriesFrom length]; try tauto.
    - intros _ e [].
    - intros [-> [Ho H]] e [<-|He].
      + do 4 eexists; split; [reflexivity|lia].
      + destruct (IH _ H e He) as [i [t' [l' [o' [-> B]]]]]. do 4 eexists; split; [reflexivity|lia].
  Qed.

  Lemma consumeAll_app v l1 l2 : consumeAll v (l1 ++ l2) =
    match consumeAll v l1 with Ok v' => consumeAll v' l2 | Err => Err | Panic => Panic end.
  Proof.
    revert v; induction l1 as [|a l1 IH]; intros v; cbn; [reflexivity|].
    destruct (consume sha256 v a); auto.
  Qed.

  Lemma consume_fields v l v' : consume sha256 v l = Ok v' ->
    v_subtree v' = v_subtree v /\ v_num v' = add64 (v_num v) 1.
  Proof.
    unfold consume.
    match goal with |- context[match ?x with _ => _ end] => destruct x eqn:Ep end; try discriminate.
    intros H; injection H as <-. cbn. auto.
  Qed.

  (** Timestamps of a trace are at most [mx]. *)
  Definition tsLe (mx : N) (tr : list event) : Prop :=
    forall i ts leaf o, In (EEntry i ts leaf o) tr -> (ts <= mx)%N.
  Lemma tsLe_mono m1 m2 tr : (m1 <= m2)%N -> tsLe m1 tr -> tsLe m2 tr.
  Proof using Type. intros H T i ts lf o I. exact (N.le_trans _ _ _ (T _ _ _ _ I) H). Qed.
  Lemma tsLe_app m tr1 tr2 : tsLe m tr1 -> tsLe m tr2 -> tsLe m (tr1 ++ tr2).
  Proof using Type. intros T1 T2 i ts lf o I. apply in_app_iff in I. destruct I; eauto. Qed.

  Lemma maxTsUpd_ge m ts : (m <= maxTsUpd m ts)%N /\ (ts <= maxTsUpd m ts)%N.
  Proof. unfold maxTsUpd. destruct (N.eqb_spec m 0), (N.ltb_spec m ts); cbn [orb]; lia. Qed.

  (** The value of maxTimestamp after a trace: the maximum, or unchanged. *)
  Definition tsSrc (m0 mx : N) (tr : list event) : Prop :=
    mx = m0 \/ exists i leaf o, In (EEntry i mx leaf o) tr.

  Lemma handleEntries_spec le es : forall index v mn mx tr r,
    handleEntries sha256 Cert le es index v mn mx = (tr, r) ->
    (index + N.of_nat (length es) < two64)%N ->
    (v_num v + N.of_nat (length es) < two64)%N ->
    entriesFrom (st_first (v_subtree v) + v_num v) tr /\ (length tr <= length es)%nat /\
    match r with
    | Some (Ok (index', v', mn', mx')) =>
        index' = (index + N.of_nat (length es))%N /\
        consumeAll v (leavesOf tr) = Ok v' /\ v_subtree v' = v_subtree v /\
        v_num v' = (v_num v + N.of_nat (length tr))%N /\
        (mx <= mx')%N /\ tsLe mx' tr /\ tsSrc mx mx' tr
    | _ => True
    end.
  Proof.
    induction es as [|e es IH]; intros index v mn mx tr r; cbn [handleEntries length]; intros H B1 B2.
    - injection H as <- <-. repeat split; cbn; try lia. { intros ? ? ? ? []. } left; reflexivity.
    - destruct (re_parsed Cert e) as [[[[ts c] cert] chain]|].
      2:{ rewrite add64_small in H by lia.
          destruct (IH _ _ _ _ _ _ H ltac:(lia) ltac:(lia)) as [A1 [A2 A3]].
          repeat split; [exact A1|lia|].
          destruct r as [[[[[i' v'] mn'] mx']| |]|]; auto.
          destruct A3 as [A3 A4]. split; [lia|exact A4]. }
      destruct (storeLogEntry Cert le c cert chain) as [c1 c2| | |] eqn:Eo.
      4:{ injection H as <- <-. cbn. repeat split; lia. }
      all: destruct (consume sha256 v (re_leaf Cert e)) as [v'| |] eqn:Ec;
        [|injection H as <- <-; cbn; repeat split; lia|injection H as <- <-; cbn; repeat split; lia].
      all: rewrite add64_small in H by lia.
      all: destruct (handleEntries sha256 Cert le es (index + 1) v' (minTsUpd mn ts) (maxTsUpd mx ts)) as [tr' r'] eqn:Eh.
      all: injection H as <- <-.
      all: destruct (consume_fields _ _ _ Ec) as [F1 F2].
      all: rewrite add64_small in F2 by lia.
      all: destruct (IH _ _ _ _ _ _ Eh ltac:(lia) ltac:(lia)) as [A1 [A2 A3]].
      all: rewrite F1, F2 in A1.
      all: pose proof (maxTsUpd_ge mx ts) as [G1 G2].
      all: cbn [entriesFrom leavesOf length MerkleModel.consumeAll].
      all: rewrite Ec.
      all: rewrite N.add_assoc in A1.
      all: split; [split; [reflexivity|split; [congruence|exact A1]]|].
      all: split; [lia|].
      all: destruct r' as [[[[[i' v''] mn'] mx']| |]|]; auto.
      all: destruct A3 as [B3 [B4 [B5 [B6 [B7 [B8 B9]]]]]].
      all: repeat split; [lia|exact B4|congruence|rewrite B6, F2; lia|lia| |].
      all: try (intros i t l o [X|X]; [injection X as _ <- _ _; lia|exact (B8 _ _ _ _ X)]).
      all: destruct B9 as [->|[i [lf [o I]]]]; [|right; exists i, lf, o; right; exact I].
      all: unfold maxTsUpd; destruct ((mx =? 0)%N || (mx <? ts)%N); [|left; reflexivity].
      all: right; do 3 eexists; left; reflexivity.
  Qed.

  Definition respOk (r : resp Cert) : Prop :=
    match r with REntries es => (N.of_nat (length es) < two63)%N | _ => True end.

  Lemma download_spec le resps : forall index v mn mx tr r rs',
    download sha256 Cert le resps index v mn mx = (tr, r, rs') ->
    Forall respOk resps -> (st_last (v_subtree v) < two63)%N ->
    (st_first (v_subtree v) + v_num v <= index)%N -> (index < two64)%N ->
    entriesFrom (st_first (v_subtree v) + v_num v) tr /\ Forall respOk rs' /\
    match r with
    | DDone v' mn' mx' =>
        consumeAll v (leavesOf tr) = Ok v' /\ v_subtree v' = v_subtree v /\
        v_num v' = (v_num v + N.of_nat (length tr))%N /\
        (st_first (v_subtree v) + v_num v' < two64)%N /\
        (mx <= mx')%N /\ tsLe mx' tr /\ tsSrc mx mx' tr
    | _ => True
    end.
  Proof.
    induction resps as [|rp resps IH]; intros index v mn mx tr r rs'; cbn [download]; intros H F L1 L2 L3.
    - destruct (st_last (v_subtree v) <? index)%N; injection H as <- <- <-; cbn; repeat split; auto; try lia.
      { intros ? ? ? ? []. } left; reflexivity.
    - inversion F as [|? ? F1 F2]; subst.
      destruct (N.ltb_spec (st_last (v_subtree v)) index) as [Lt|Ge].
      { injection H as <- <- <-; cbn; repeat split; auto; try lia.
        { intros ? ? ? ? []. } left; reflexivity. }
      destruct rp as [[|]| |es].
      + injection H as <- <- <-. cbn. auto.
      + eapply IH; eassumption.
      + injection H as <- <- <-. cbn. auto.
      + cbn [respOk] in F1.
        destruct (handleEntries sha256 Cert le es index v mn mx) as [tr1 r1] eqn:Eh.
        destruct (handleEntries_spec _ _ _ _ _ _ _ _ Eh) as [A1 [A2 A3]];
          [unfold two63, two64 in *; lia|unfold two63, two64 in *; lia|].
        destruct r1 as [[[[[i' v'] mn'] mx']| |]|].
        2-4: injection H as <- <- <-; cbn; auto.
        destruct A3 as [B3 [B4 [B5 [B6 [B7 [B8 B9]]]]]].
        destruct (download sha256 Cert le resps i' v' mn' mx') as [[tr2 r2] rs2] eqn:Ed.
        injection H as <- <- <-.
        destruct (IH _ _ _ _ _ _ _ Ed F2) as [C1 [C2 C3]];
          [rewrite B5; exact L1|rewrite B5, B6; lia|unfold two63, two64 in *; lia|].
        rewrite B5, B6 in C1.
        split; [rewrite entriesFrom_app; split; [exact A1|]; rewrite <- N.add_assoc; exact C1|].
        split; [exact C2|].
        destruct r2 as [v2 mn2 mx2| | |]; auto.
        destruct C3 as [D1 [D2 [D3 [D4 [D5 [D6 D7]]]]]].
        repeat split.
        * rewrite leavesOf_app, consumeAll_app, B4. exact D1.
        * congruence.
        * rewrite D3, B6, app_length. lia.
        * rewrite B5 in D4. exact D4.
        * lia.
        * apply tsLe_app; [eapply tsLe_mono; [exact D5|exact B8]|exact D6].
        * destruct D7 as [->|[i [lf [o I]]]].
          -- destruct B9 as [->|[i [lf [o I]]]]; [left; reflexivity|].
             right; exists i, lf, o. apply in_app_iff; auto.
          -- right; exists i, lf, o. apply in_app_iff; auto.
  Qed.

  (** A verified subtree: the trace is exactly the entries of its range, and
      their Merkle tree hash is the claimed root. *)
  Lemma subtree_verified le resps st tr v mn mx rs' :
    download sha256 Cert le resps (st_first st) (newVerifier st) 0 0 = (tr, DDone v mn mx, rs') ->
    Forall respOk resps -> (st_first st <= st_last st)%N -> (st_last st < two63)%N ->
    checkClaim v = Ok tt ->
    entriesFrom (st_first st) tr /\ N.of_nat (length tr) = (st_last st - st_first st + 1)%N /\
    MTH (leavesOf tr) (st_root st) /\ length (st_root st) = 32%nat /\
    tsLe mx tr /\ Forall respOk rs' /\ tsSrc 0 mx tr.
  Proof.
    intros H F L1 L2 C.
    destruct (download_spec _ _ _ _ _ _ _ _ _ H F) as [A1 [A2 A3]]; cbn [newVerifier v_subtree v_num];
      [exact L2|lia|unfold two63, two64 in *; lia|].
    cbn [newVerifier v_subtree v_num] in *. rewrite N.add_0_r in *.
    destruct A3 as [B1 [B2 [B3 [B4 [B5 [B6 B7]]]]]].
    assert (V : verifyLeaves sha256 st (leavesOf tr) = Ok tt).
    { unfold verifyLeaves. rewrite B1. exact C. }
    destruct st as [root f l]. cbn [st_root st_first st_last] in *.
    apply verify_iff in V; [|exact L1|unfold two63, two64 in *; lia|rewrite (leavesOf_length _ _ A1); lia].
    destruct V as [V1 [V2 V3]]. rewrite (leavesOf_length _ _ A1) in V2.
    repeat split; auto.
  Qed.

  (** ** The whole job *)

  (** The entries of one verified subtree occur consecutively in [pre]. *)
  Definition verifiedSeg (sts : list subtree) (pre : list event) (i : N) : Prop :=
    exists a seg b st, pre = a ++ seg ++ b /\ In st sts /\
      (st_first st <= i <= st_last st)%N /\
      entriesFrom (st_first st) seg /\ N.of_nat (length seg) = (st_last st - st_first st + 1)%N /\
      MTH (leavesOf seg) (st_root st).

  (** Why a job may claim index [i] in save point [st] after events [pre]:
      it was claimed in the state the job started from, or its whole subtree was
      processed and verified before; the entry's timestamp is at most the
      MaxTimestamp of the save point. *)
  Definition justified (sts : list subtree) (s0 : logState) (pre : list event) (st : logState) (i : N) : Prop :=
    (claims s0 i /\ (ls_maxTs s0 <= ls_maxTs st)%N) \/
    (verifiedSeg sts pre i /\
     exists ts leaf o, In (EEntry i ts leaf o) pre /\ o <> SFatal /\ (ts <= ls_maxTs st)%N).

  (** Where MaxTimestamp comes from. *)
  Definition maxSrc (s0 : logState) (pre : list event) (st : logState) : Prop :=
    (ls_maxTs st = ls_maxTs s0) \/ exists i leaf o, In (EEntry i (ls_maxTs st) leaf o) pre.

  Definition soundTrace (sts : list subtree) (s0 : logState) (tr : list event) : Prop :=
    forall pre st post, tr = pre ++ EState st :: post ->
      wfState st /\ ls_lastUpdate st <> None /\ maxSrc s0 pre st /\
      (ls_lastUpdate s0 <> None -> (ls_maxTs s0 <= ls_maxTs st)%N) /\
      forall i, claims st i -> justified sts s0 pre st i.

  Lemma soundTrace_nil sts s0 : soundTrace sts s0 [].
  Proof. intros pre st post H. destruct pre; discriminate. Qed.

  Lemma entries_no_state k tr : entriesFrom k tr -> forall pre st post, tr <> pre ++ EState st :: post.
  Proof.
    intros H pre st post E. subst tr. apply entriesFrom_app in H. destruct H as [_ H]. exact H.
  Qed.

  Lemma soundTrace_entries sts s0 k tr : entriesFrom k tr -> soundTrace sts s0 tr.
  Proof. intros H pre st post E. exfalso. eapply entries_no_state; eassumption. Qed.

  (** Splitting [tr ++ EState s :: rest] at a state event when [tr] has none. *)
  Lemma split_state k tr s rest pre st post :
    entriesFrom k tr -> tr ++ EState s :: rest = pre ++ EState st :: post ->
    (pre = tr /\ st = s /\ post = rest) \/
    exists pre', pre = tr ++ EState s :: pre' /\ rest = pre' ++ EState st :: post.
  Proof.
    revert k pre; induction tr as [|e tr IH]; intros k pre H E.
    - destruct pre as [|p pre]; cbn in E.
      + injection E as -> ->. left; auto.
      + injection E as <- E. right. exists pre. auto.
    - destruct e as [i ts lf o|x]; cbn [entriesFrom] in H; [|contradiction].
      destruct H as [_ [_ H]].
      destruct pre as [|p pre]; cbn in E; [discriminate|].
      injection E as <- E. destruct (IH _ pre H E) as [[-> [-> ->]]|[pre' [-> ->]]].
      + left; auto.
      + right. exists pre'. auto.
  Qed.

  Lemma updateState_sound w sts r f l mn mx now s s' tr :
    wfState s -> (f <= l)%N -> (l < two63)%N ->
    (ls_lastUpdate s = None -> w = TInit) ->
    updateState w (Some (f, l)) mn mx now s = Some s' ->
    entriesFrom f tr -> N.of_nat (length tr) = (l - f + 1)%N -> tsLe mx tr -> tsSrc 0 mx tr ->
    In (mkSubtree r f l) sts -> MTH (leavesOf tr) r ->
    wfState s' /\ ls_lastUpdate s' <> None /\ maxSrc s tr s' /\
    (ls_lastUpdate s <> None -> (ls_maxTs s <= ls_maxTs s')%N) /\
    forall i, claims s' i -> justified sts s tr s' i.
  Proof.
    intros W L1 L2 Hw U E Len T Src Hin M.
    assert (New : forall i, (f <= i <= l)%N -> (mx <= ls_maxTs s')%N -> justified sts s tr s' i).
    { intros i Hi Hm. right. split.
      - exists [], tr, [], (mkSubtree r f l). cbn [st_first st_last st_root app].
        rewrite app_nil_r. auto 10.
      - destruct (entriesFrom_In _ _ E i ltac:(lia)) as [ts [lf [o [I [O _]]]]].
        exists ts, lf, o. repeat split; auto. specialize (T _ _ _ _ I). lia. }
    assert (Src' : exists i leaf o, In (EEntry i mx leaf o) tr).
    { destruct Src as [->|Src]; [|exact Src].
      destruct (entriesFrom_In _ _ E f ltac:(lia)) as [ts [lf [o [I _]]]].
      pose proof (T _ _ _ _ I). assert (ts = 0%N) as -> by lia. eauto. }
    assert (MaxS : ls_maxTs s' = N.max (ls_maxTs s) mx \/ (ls_maxTs s' = mx) -> maxSrc s tr s').
    { unfold maxSrc. intros [->| ->]; [|right; exact Src'].
      destruct (N.max_spec (ls_maxTs s) mx) as [[_ ->]|[_ ->]]; auto. }
    unfold updateState in U. unfold wfState in W.
    destruct w; try discriminate U.
    - (* Init *)
      destruct (ls_lastUpdate s) as [u|] eqn:Eu.
      + destruct (N.eqb_spec (ls_maxEntry s) (sub64 f 1)) as [Em|]; [|discriminate].
        injection U as <-. unfold wfState, claims. cbn [ls_lastUpdate ls_minEntry ls_maxEntry ls_maxTs] in *.
        assert (Hf : (f = ls_maxEntry s + 1)%N).
        { destruct (N.eq_dec f 0) as [->|Nz].
          - exfalso. change (sub64 0 1) with (two64 - 1)%N in Em. unfold two63, two64 in *; lia.
          - rewrite sub64_small in Em by (unfold two63, two64 in *; lia). lia. }
        split; [unfold two63 in *; lia|]. split; [discriminate|]. split; [apply MaxS; auto|]. split; [lia|].
        intros i [_ Hi]. destruct (N.le_gt_cases i (ls_maxEntry s)) as [Le|Gt].
        * left. split; [|cbn; lia]. unfold claims. rewrite Eu. split; [discriminate|lia].
        * apply New; lia.
      + injection U as <-. unfold wfState, claims. cbn [ls_lastUpdate ls_minEntry ls_maxEntry ls_maxTs] in *.
        split; [lia|]. split; [discriminate|]. split; [apply MaxS; right; lia|]. split; [congruence|].
        intros i [_ Hi]. apply New; lia.
    - (* Backfill *)
      destruct (N.eqb_spec (ls_minEntry s) (add64 l 1)) as [Em|]; [|discriminate].
      rewrite add64_small in Em by (unfold two63, two64 in *; lia).
      injection U as <-. unfold wfState, claims. cbn [ls_lastUpdate ls_minEntry ls_maxEntry ls_maxTs] in *.
      destruct (ls_lastUpdate s) as [u|] eqn:Eu; [|discriminate (Hw eq_refl)].
      split; [lia|]. split; [discriminate|]. split; [apply MaxS; auto|]. split; [lia|].
      intros i [_ Hi]. destruct (N.le_gt_cases i l) as [Le|Gt].
      + apply New; lia.
      + left. split; [|cbn; lia]. unfold claims. rewrite Eu. split; [discriminate|lia].
    - (* Update *)
      destruct (N.eqb_spec (ls_maxEntry s) (sub64 f 1)) as [Em|]; [|discriminate].
      injection U as <-. unfold wfState, claims. cbn [ls_lastUpdate ls_minEntry ls_maxEntry ls_maxTs] in *.
      destruct (ls_lastUpdate s) as [u|] eqn:Eu; [|discriminate (Hw eq_refl)].
      assert (Hf : (f = ls_maxEntry s + 1)%N).
      { destruct (N.eq_dec f 0) as [->|Nz].
        - exfalso. change (sub64 0 1) with (two64 - 1)%N in Em. unfold two63, two64 in *; lia.
        - rewrite sub64_small in Em by (unfold two63, two64 in *; lia). lia. }
      split; [unfold two63 in *; lia|]. split; [discriminate|]. split; [apply MaxS; auto|]. split; [lia|].
      intros i [_ Hi]. destruct (N.le_gt_cases i (ls_maxEntry s)) as [Le|Gt].
      + left. split; [|cbn; lia]. unfold claims. rewrite Eu. split; [discriminate|lia].
      + apply New; lia.
  Qed.

  Lemma verifiedSeg_app sts pre1 pre2 pre3 i : verifiedSeg sts pre2 i -> verifiedSeg sts (pre1 ++ pre2 ++ pre3) i.
  Proof.
    intros [a [seg [b [st [-> H]]]]]. exists (pre1 ++ a), seg, (b ++ pre3), st.
    split; [rewrite <- !app_assoc; reflexivity|exact H].
  Qed.

  Lemma runVerifiers_sound w le now sts vs : forall s resps cancels tr o,
    (forall st, In st vs -> In st sts /\ (st_first st <= st_last st)%N /\ (st_last st < two63)%N) ->
    Forall respOk resps -> wfState s -> (ls_lastUpdate s = None -> w = TInit) ->
    runVerifiers sha256 Cert w le now vs s resps cancels = (tr, o) ->
    soundTrace sts s tr.
  Proof.
    induction vs as [|st vs IH]; intros s resps cancels tr o Hvs F W Hw R; cbn [runVerifiers] in R.
    - injection R as <- <-. apply soundTrace_nil.
    - destruct (Hvs st (or_introl eq_refl)) as [Hin [L1 L2]].
      destruct (download sha256 Cert le resps (st_first st) (newVerifier st) 0 0) as [[tr1 r] resps'] eqn:Ed.
      assert (E1 : entriesFrom (st_first st) tr1).
      { destruct (download_spec _ _ _ _ _ _ _ _ _ Ed F) as [A _]; cbn [newVerifier v_subtree v_num];
          [exact L2|lia|unfold two63, two64 in *; lia|].
        cbn [newVerifier v_subtree v_num] in A. rewrite N.add_0_r in A. exact A. }
      destruct r as [v mn mx| | |].
      2-4: injection R as <- <-; eapply soundTrace_entries; exact E1.
      destruct (checkClaim v) as [[]| |] eqn:Ec.
      2-3: injection R as <- <-; eapply soundTrace_entries; exact E1.
      destruct (subtree_verified _ _ _ _ _ _ _ _ Ed F L1 L2 Ec) as [_ [B2 [B3 [B4 [B5 [B6 B7]]]]]].
      destruct (updateState w (Some (st_first st, st_last st)) mn mx now s) as [s'|] eqn:Eu.
      2: injection R as <- <-; eapply soundTrace_entries; exact E1.
      assert (Hin' : In (mkSubtree (st_root st) (st_first st) (st_last st)) sts) by (destruct st; exact Hin).
      destruct (updateState_sound _ sts (st_root st) _ _ _ _ _ _ _ tr1 W L1 L2 Hw Eu E1 B2 B5 B7 Hin' B3)
        as [U1 [U2 [U3 [U4 U5]]]].
      destruct (hd (false, false) cancels) as [[] c2].
      { injection R as <- <-; eapply soundTrace_entries; exact E1. }
      assert (S1 : forall pre x post rest, tr1 ++ EState s' :: rest = pre ++ EState x :: post ->
               soundTrace sts s' rest ->
               wfState x /\ ls_lastUpdate x <> None /\ maxSrc s pre x /\
               (ls_lastUpdate s <> None -> (ls_maxTs s <= ls_maxTs x)%N) /\
               forall i, claims x i -> justified sts s pre x i).
      { intros pre x post rest E Sr. apply (split_state _ _ _ _ _ _ _ E1) in E.
        destruct E as [[-> [-> _]]|[pre' [-> E]]]; [auto|].
        destruct (Sr _ _ _ E) as [X1 [X2 [X3 [X4 X5]]]]. specialize (X4 U2).
        split; [exact X1|]. split; [exact X2|]. split; [|split].
        - destruct X3 as [X3|[i [lf [oo I]]]].
          + destruct U3 as [U3|[i [lf [oo I]]]]; [left; congruence|].
            right. rewrite X3. exists i, lf, oo. apply in_app_iff. auto.
          + right. exists i, lf, oo. apply in_app_iff. right. right. exact I.
        - intros Q. specialize (U4 Q). lia.
        - intros i Ci. destruct (X5 i Ci) as [[C0 C1]|[V [ts [lf [oo [I [O T]]]]]]].
          + destruct (U5 i C0) as [[D0 D1]|[V [ts [lf [oo [I [O T]]]]]]].
            * left. split; [exact D0|lia].
            * right. split; [apply (verifiedSeg_app sts [] tr1); exact V|].
              exists ts, lf, oo. split; [apply in_app_iff; auto|]. split; [exact O|lia].
          + right. split.
            * replace (tr1 ++ EState s' :: pre') with ((tr1 ++ [EState s']) ++ pre' ++ [])
                by (rewrite app_nil_r, <- app_assoc; reflexivity).
              apply verifiedSeg_app. exact V.
            * exists ts, lf, oo. split; [apply in_app_iff; right; right; exact I|]. auto. }
      destruct c2.
      + injection R as <- <-. intros pre x post E. eapply S1; [exact E|apply soundTrace_nil].
      + destruct (runVerifiers sha256 Cert w le now vs s' resps' (tl cancels)) as [tr' o'] eqn:Er.
        injection R as <- <-. intros pre x post E. eapply S1; [exact E|].
        eapply IH; [|exact B6|exact U1| |exact Er].
        * intros y Hy. apply Hvs. right; exact Hy.
        * intros X. congruence.
  Qed.
End Worker.
