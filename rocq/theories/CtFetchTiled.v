(** * Soundness of tiled jobs (C11) *)
From Verif Require Import Base MerkleModel CtFetchModel CtFetchProofs CtFetchSafety.

Section Tiled.
  Context {Cert : Type}.
  Notation event := (event Cert).

  (** Number of entries processed in a trace. *)
  Fixpoint nEntries (tr : list event) : N :=
    match tr with
    | [] => 0
    | EEntry _ _ _ _ :: t => 1 + nEntries t
    | EState _ :: t => nEntries t
    end.
  (** The entries of a trace are k+1, k+2, ... in order. *)
  Fixpoint numbered (k : N) (tr : list event) : Prop :=
    match tr with
    | [] => True
    | EEntry i _ _ o :: t => i = (k + 1)%N /\ o <> SFatal /\ numbered (k + 1) t
    | EState _ :: t => numbered k t
    end.

  Lemma nEntries_app a b : nEntries (a ++ b) = (nEntries a + nEntries b)%N.
  Proof. induction a as [|[i ts l o|s] a IH]; cbn [app nEntries]; lia. Qed.
  Lemma numbered_app a : forall k b, numbered k (a ++ b) <-> numbered k a /\ numbered (k + nEntries a) b.
  Proof.
    induction a as [|[i ts l o|s] a IH]; intros k b; cbn [app numbered nEntries].
    - rewrite N.add_0_r. tauto.
    - rewrite IH. replace (k + 1 + nEntries a)%N with (k + (1 + nEntries a))%N by lia. tauto.
    - apply IH.
  Qed.
  Lemma numbered_In tr : forall k, numbered k tr -> forall i, (k < i <= k + nEntries tr)%N ->
    exists ts leaf o, In (EEntry i ts leaf o) tr /\ o <> SFatal.
  Proof.
    induction tr as [|[j ts l o|s] tr IH]; intros k; cbn [numbered nEntries].
    - lia.
    - intros [-> [Ho H]] i Hi. destruct (N.eq_dec i (k + 1)) as [->|].
      + exists ts, l, o. split; [left; reflexivity|exact Ho].
      + destruct (IH _ H i ltac:(lia)) as [a [b [c [I O]]]]. exists a, b, c. split; [right; exact I|exact O].
    - intros H i Hi. destruct (IH _ H i Hi) as [a [b [c [I O]]]]. exists a, b, c. split; [right; exact I|exact O].
  Qed.

  Lemma store_not_fatal le c cert chain o : storeLogEntryTiled Cert le c cert chain = TSOk o -> o <> SFatal.
  Proof.
    unfold storeLogEntryTiled. intros H.
    repeat match goal with
    | H : context[match ?x with _ => _ end] |- _ => destruct x eqn:?
    end; try discriminate; injection H as <-; discriminate.
  Qed.

  Definition tiledPoint (s0 : logState) (base : N) (mx : N) (pre : list event) (st : logState) : Prop :=
    ls_minEntry st = 0%N /\ ls_lastUpdate st <> None /\
    ls_maxEntry st = (base + nEntries pre)%N /\
    (mx <= ls_maxTs st)%N /\ tsLe (ls_maxTs st) pre /\
    (ls_maxTs st = mx \/ exists i l o, In (EEntry i (ls_maxTs st) l o) pre).

  Lemma point_cons_entry s0 base mx i ts l o pre st :
    tiledPoint s0 (base + 1) (N.max mx ts) pre st ->
    tiledPoint s0 base mx (EEntry i ts l o :: pre) st.
  Proof.
    intros [A1 [A2 [A3 [A4 [A5 A6]]]]]. unfold tiledPoint. cbn [nEntries].
    split; [exact A1|]. split; [exact A2|]. split; [lia|]. split; [lia|]. split.
    - intros j t l' o' [X|X]; [injection X as _ <- _ _; lia|exact (A5 _ _ _ _ X)].
    - destruct A6 as [->|[j [l' [o' I]]]].
      + destruct (N.max_spec mx ts) as [[_ ->]|[_ ->]]; [right|left; reflexivity].
        exists i, l, o. left; reflexivity.
      + right. exists j, l', o'. right; exact I.
  Qed.
  Lemma point_cons_state s0 base mx s pre st :
    tiledPoint s0 base mx pre st -> tiledPoint s0 base mx (EState s :: pre) st.
  Proof.
    intros [A1 [A2 [A3 [A4 [A5 A6]]]]]. unfold tiledPoint. cbn [nEntries].
    repeat split; auto.
    - intros j t l' o' [X|X]; [discriminate|exact (A5 _ _ _ _ X)].
    - destruct A6 as [->|[j [l' [o' I]]]]; [auto|]. right. exists j, l', o'. right; exact I.
  Qed.

  Lemma readLogEntries_sound le bs now es endc cerr : forall s mE mn mx tr s' mE' mn' mx' r,
    (ls_maxEntry s <= mE)%N -> (ls_maxTs s <= mx)%N -> (mE + N.of_nat (length es) < two64)%N ->
    readLogEntries Cert le bs now es endc cerr s mE mn mx = (tr, (s', mE', mn', mx'), r) ->
    numbered mE tr /\ mE' = (mE + nEntries tr)%N /\ (nEntries tr <= N.of_nat (length es))%N /\
    (ls_maxEntry s' <= mE')%N /\ (ls_maxTs s' <= mx')%N /\ (mx <= mx')%N /\ tsLe mx' tr /\
    (mx' = mx \/ exists i l o, In (EEntry i mx' l o) tr) /\
    forall pre st post, tr = pre ++ EState st :: post -> tiledPoint s mE mx pre st.
  Proof.
    induction es as [|e es IH]; intros s mE mn mx tr s' mE' mn' mx' r H1 H2 Hb R; cbn [readLogEntries] in R.
    - destruct endc; injection R as <- <- <- <- <- <-.
      + unfold updateStateTiled. cbn [numbered nEntries ls_maxEntry ls_maxTs length].
        repeat split; try lia; auto. { intros ? ? ? ? []. }
        all: destruct pre; discriminate.
      + unfold updateStateTiled. cbn [numbered nEntries ls_maxEntry ls_maxTs length].
        split; [exact I|]. split; [lia|]. split; [lia|]. split; [lia|]. split; [lia|]. split; [lia|].
        split; [intros ? ? ? ? [X|[]]; discriminate|]. split; [auto|].
        intros pre st post E. destruct pre as [|p pre]; [|destruct pre; discriminate].
        injection E as <- <-. unfold tiledPoint. cbn [ls_minEntry ls_lastUpdate ls_maxEntry ls_maxTs nEntries].
        repeat split; try discriminate; try lia. { intros ? ? ? ? []. }
    - cbn [length] in Hb.
      destruct (storeLogEntryTiled Cert le (te_cancelled Cert e) (te_cert Cert e) (te_chain Cert e)) as [o| |] eqn:Eo.
      2-3: injection R as <- <- <- <- <- <-; cbn [numbered nEntries];
        repeat split; try lia; auto; try (intros ? ? ? ? []); destruct pre; discriminate.
      pose proof (store_not_fatal _ _ _ _ _ Eo) as Ho.
      rewrite add64_small in R by lia.
      assert (Single : forall sx, (ls_maxEntry sx <= mE + 1)%N -> (ls_maxTs sx <= N.max mx (te_ts Cert e))%N ->
        numbered mE [EEntry (mE + 1) (te_ts Cert e) (te_leaf Cert e) o] /\
        (mE + 1)%N = (mE + nEntries [EEntry (mE + 1) (te_ts Cert e) (te_leaf Cert e) o])%N /\
        (nEntries [EEntry (mE + 1) (te_ts Cert e) (te_leaf Cert e) o] <= N.of_nat (length (e :: es)))%N /\
        (ls_maxEntry sx <= mE + 1)%N /\ (ls_maxTs sx <= N.max mx (te_ts Cert e))%N /\ (mx <= N.max mx (te_ts Cert e))%N /\
        tsLe (N.max mx (te_ts Cert e)) [EEntry (mE + 1) (te_ts Cert e) (te_leaf Cert e) o] /\
        (N.max mx (te_ts Cert e) = mx \/
          exists i l oo, In (EEntry i (N.max mx (te_ts Cert e)) l oo) [EEntry (mE + 1) (te_ts Cert e) (te_leaf Cert e) o]) /\
        (forall pre st post, [EEntry (mE + 1) (te_ts Cert e) (te_leaf Cert e) o] = pre ++ EState st :: post ->
           tiledPoint s mE mx pre st)).
      { intros sx X1 X2. cbn [numbered nEntries length].
        split; [auto|]. split; [lia|]. split; [lia|]. split; [exact X1|]. split; [exact X2|]. split; [lia|].
        split; [intros ? ? ? ? [X|[]]; injection X as _ <- _ _; lia|]. split.
        - destruct (N.max_spec mx (te_ts Cert e)) as [[_ ->]|[_ ->]]; [right|left; reflexivity].
          do 3 eexists; left; reflexivity.
        - intros pre st post E. destruct pre as [|p [|q pre]]; discriminate. }
      destruct (bs =? 0)%N.
      { injection R as <- <- <- <- <- <-. apply Single; lia. }
      destruct ((mE + 1) mod bs =? 0)%N.
      + destruct (te_saveCancelled Cert e).
        { injection R as <- <- <- <- <- <-. apply Single; unfold updateStateTiled; cbn [ls_maxEntry ls_maxTs]; lia. }
        set (s1 := updateStateTiled (mE + 1) (N.min mn (te_ts Cert e)) (N.max mx (te_ts Cert e)) now s) in *.
        destruct (readLogEntries Cert le bs now es endc cerr s1 (mE + 1) (N.min mn (te_ts Cert e)) (N.max mx (te_ts Cert e)))
          as [[tr2 [[[s2 mE2] mn2] mx2]] r2] eqn:E2.
        injection R as <- <- <- <- <- <-.
        assert (S1 : ls_maxEntry s1 = (mE + 1)%N /\ ls_maxTs s1 = N.max mx (te_ts Cert e)).
        { unfold s1, updateStateTiled. cbn [ls_maxEntry ls_maxTs]. lia. }
        destruct S1 as [S1 S2].
        pose proof (fun a b c => IH _ _ _ _ _ _ _ _ _ _ a b c E2) as Q.
        destruct (Q ltac:(lia) ltac:(lia) ltac:(lia))
          as [A1 [A2 [A3 [A4 [A5 [A6 [A7 [A8 A9]]]]]]]].
        cbn [numbered nEntries length].
        split; [auto|]. split; [lia|]. split; [lia|]. split; [lia|]. split; [lia|]. split; [lia|].
        split. { intros i t l oo [X|[X|X]]; [injection X as _ <- _ _; lia|discriminate|exact (A7 _ _ _ _ X)]. }
        split.
        { destruct A8 as [->|[i [l [oo X]]]].
          - destruct (N.max_spec mx (te_ts Cert e)) as [[_ ->]|[_ ->]]; [right|left; reflexivity].
            do 3 eexists; left; reflexivity.
          - right. exists i, l, oo. right; right; exact X. }
        intros pre st post E.
        destruct pre as [|p pre]; [discriminate|]. injection E as <- E. apply point_cons_entry.
        destruct pre as [|p pre].
        * injection E as <- <-. unfold tiledPoint. cbn [nEntries].
          split; [reflexivity|]. split; [discriminate|]. split; [lia|]. split; [lia|].
          split; [intros ? ? ? ? []|left; exact S2].
        * injection E as <- E. apply point_cons_state. exact (A9 _ _ _ E).
      + destruct (readLogEntries Cert le bs now es endc cerr s (mE + 1) (N.min mn (te_ts Cert e)) (N.max mx (te_ts Cert e)))
          as [[tr2 [[[s2 mE2] mn2] mx2]] r2] eqn:E2.
        injection R as <- <- <- <- <- <-.
        pose proof (fun a b c => IH _ _ _ _ _ _ _ _ _ _ a b c E2) as Q.
        destruct (Q ltac:(lia) ltac:(lia) ltac:(lia))
          as [A1 [A2 [A3 [A4 [A5 [A6 [A7 [A8 A9]]]]]]]].
        cbn [numbered nEntries length].
        split; [auto|]. split; [lia|]. split; [lia|]. split; [lia|]. split; [lia|]. split; [lia|].
        split. { intros i t l oo [X|X]; [injection X as _ <- _ _; lia|exact (A7 _ _ _ _ X)]. }
        split.
        { destruct A8 as [->|[i [l [oo X]]]].
          - destruct (N.max_spec mx (te_ts Cert e)) as [[_ ->]|[_ ->]]; [right|left; reflexivity].
            do 3 eexists; left; reflexivity.
          - right. exists i, l, oo. right; exact X. }
        intros pre st post E.
        destruct pre as [|p pre]; [discriminate|]. injection E as <- E. apply point_cons_entry.
        exact (A9 _ _ _ E).
  Qed.

  (** A whole tiled job. *)
  Definition tiledBudget (e : tiledEnv Cert) : N :=
    N.of_nat (length (fst (fst (tj_first Cert e))) + length (fst (fst (tj_second Cert e)))).

  Lemma runTiled_sound bs s e tr o :
    (ls_maxEntry s + tiledBudget e + 1 < two64)%N ->
    runTiled Cert bs s e = (tr, o) ->
    numbered (ls_maxEntry s) tr /\
    forall pre st post, tr = pre ++ EState st :: post ->
      ls_minEntry st = 0%N /\ ls_lastUpdate st <> None /\
      ls_maxEntry st = (ls_maxEntry s + nEntries pre)%N /\
      (ls_maxTs s <= ls_maxTs st)%N /\ tsLe (ls_maxTs st) pre /\
      (ls_maxTs st = ls_maxTs s \/ (exists i l oo, In (EEntry i (ls_maxTs st) l oo) pre) \/
       exists h, tj_head Cert e = Some h /\ ls_maxTs st = sth_ts h /\
                 (ls_maxEntry st + 1)%N = sth_size h).
  Proof.
    intros Hb R. unfold runTiled in R. unfold tiledBudget in Hb.
    destruct (tj_head Cert e) as [h|] eqn:Eh.
    2:{ injection R as <- <-. split; [exact I|]. intros pre st post X. destruct pre; discriminate. }
    destruct (chooseTaskTiled bs (tj_recent Cert e) (Some h) s) eqn:Ew;
      try (injection R as <- <-; split; [exact I|]; intros pre st post X; destruct pre; discriminate).
    - (* Update *)
      destruct (tj_first Cert e) as [[es c] ce]. cbn [fst] in Hb.
      destruct (readLogEntries Cert (tj_logExpired Cert e) bs (tj_now Cert e) es c ce s (ls_maxEntry s) (ls_minTs s) (ls_maxTs s))
        as [[tr1 [[[s1 mE1] mn1] mx1]] r1] eqn:E1.
      pose proof (fun c => readLogEntries_sound _ _ _ _ _ _ _ _ _ _ _ _ _ _ _ _ (N.le_refl _) (N.le_refl _) c E1) as Q1.
      destruct (Q1 ltac:(lia))
        as [A1 [A2 [A3 [A4 [A5 [A6 [A7 [A8 A9]]]]]]]].
      injection R as <- <-. split; [exact A1|].
      intros pre st post X. destruct (A9 _ _ _ X) as [B1 [B2 [B3 [B4 [B5 B6]]]]]. tauto.
    - (* ForceUpdate *)
      destruct (tj_first Cert e) as [[es c] ce]. destruct (tj_second Cert e) as [[es2 c2] ce2]. cbn [fst] in Hb.
      destruct (readLogEntries Cert (tj_logExpired Cert e) bs (tj_now Cert e) es c ce s (ls_maxEntry s) (ls_minTs s) (ls_maxTs s))
        as [[tr1 [[[s1 mE1] mn1] mx1]] r1] eqn:E1.
      pose proof (fun c => readLogEntries_sound _ _ _ _ _ _ _ _ _ _ _ _ _ _ _ _ (N.le_refl _) (N.le_refl _) c E1) as Q1.
      destruct (Q1 ltac:(lia))
        as [A1 [A2 [A3 [A4 [A5 [A6 [A7 [A8 A9]]]]]]]].
      assert (First : forall pre st post, tr1 = pre ++ EState st :: post ->
        ls_minEntry st = 0%N /\ ls_lastUpdate st <> None /\
        ls_maxEntry st = (ls_maxEntry s + nEntries pre)%N /\
        (ls_maxTs s <= ls_maxTs st)%N /\ tsLe (ls_maxTs st) pre /\
        (ls_maxTs st = ls_maxTs s \/ (exists i l oo, In (EEntry i (ls_maxTs st) l oo) pre) \/
         exists h0, Some h = Some h0 /\ ls_maxTs st = sth_ts h0 /\ (ls_maxEntry st + 1)%N = sth_size h0)).
      { intros pre st post X. destruct (A9 _ _ _ X) as [B1 [B2 [B3 [B4 [B5 B6]]]]]. tauto. }
      destruct r1 as [[]| |]; try (injection R as <- <-; split; [exact A1|exact First]).
      destruct (readLogEntries Cert (tj_logExpired Cert e) bs (tj_now Cert e) es2 c2 ce2 s1 mE1 mn1 mx1)
        as [[tr2 [[[s2 mE2] mn2] mx2]] r2] eqn:E2.
      pose proof (fun c => readLogEntries_sound _ _ _ _ _ _ _ _ _ _ _ _ _ _ _ _ A4 A5 c E2) as Q2.
      destruct (Q2 ltac:(lia))
        as [C1 [C2 [C3 [C4 [C5 [C6 [C7 [C8 C9]]]]]]]].
      injection R as <- <-. split; [apply numbered_app; split; [exact A1|rewrite <- A2; exact C1]|].
      intros pre st post X.
      assert (Sp : (exists post', tr1 = pre ++ EState st :: post') \/
                   exists pre', pre = tr1 ++ pre' /\ tr2 = pre' ++ EState st :: post).
      { clear -X. revert pre X. induction tr1 as [|a tr1 IH]; intros pre X; cbn in X.
        - right. exists pre. auto.
        - destruct pre as [|b pre]; cbn in X.
          + injection X as -> X. left. eexists; reflexivity.
          + injection X as <- X. destruct (IH _ X) as [[post' ->]|[pre' [-> ->]]].
            * left. eexists; reflexivity.
            * right. exists pre'. auto. }
      destruct Sp as [[post' ->]|[pre' [-> X2]]].
      + eapply First; reflexivity.
      + destruct (C9 _ _ _ X2) as [B1 [B2 [B3 [B4 [B5 B6]]]]].
        split; [exact B1|]. split; [exact B2|]. split; [rewrite nEntries_app; lia|]. split; [lia|].
        split; [apply tsLe_app; [eapply tsLe_mono; [exact B4|exact A7]|exact B5]|].
        destruct B6 as [B6|[i [l [oo I]]]].
        * rewrite B6. destruct A8 as [->|[i [l [oo I]]]]; [auto|].
          right; left. exists i, l, oo. apply in_app_iff; auto.
        * right; left. exists i, l, oo. apply in_app_iff; auto.
    - (* Sleep *)
      destruct (N.eqb_spec (add64 (ls_maxEntry s) 1) (sth_size h)) as [Em|].
      2:{ injection R as <- <-. split; [exact I|]. intros pre st post X. destruct pre; discriminate. }
      destruct (tj_sleepCancelled Cert e).
      { injection R as <- <-. split; [exact I|]. intros pre st post X. destruct pre; discriminate. }
      injection R as <- <-. split; [exact I|].
      intros pre st post X. destruct pre as [|p pre]; [|destruct pre; discriminate].
      injection X as <- <-. unfold updateStateTiled. cbn [ls_minEntry ls_lastUpdate ls_maxEntry ls_maxTs nEntries].
      split; [reflexivity|]. split; [discriminate|]. split; [lia|]. split; [lia|].
      split; [intros ? ? ? ? []|].
      destruct (N.max_spec (ls_maxTs s) (sth_ts h)) as [[_ ->]|[_ ->]]; [|auto].
      rewrite add64_small in Em by lia. right; right. exists h. repeat split. lia.
  Qed.
End Tiled.
