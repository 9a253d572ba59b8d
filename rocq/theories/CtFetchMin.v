(** * MinTimestamp along a job (C09) *)
From Verif Require Import Base MerkleModel MerkleSpec MerkleProofs MerkleProofs2 MerkleProofs3
  CtFetchModel CtFetchProofs CtFetchSafety CtFetchJobs CtFetchTiled.

Section Def.
  Context {Cert : Type}.
  Notation event := (event Cert).

  (** Every timestamp of a trace is at least [m] / is not zero. *)
  Definition tsGe (m : N) (tr : list event) : Prop :=
    forall i ts leaf o, In (EEntry i ts leaf o) tr -> (m <= ts)%N.
  Definition tsNonzero (tr : list event) : Prop :=
    forall i ts leaf o, In (EEntry i ts leaf o) tr -> ts <> 0%N.
  (** Where the value comes from: an entry of the trace, or it is unchanged. *)
  Definition minTsSrc (m0 m : N) (tr : list event) : Prop :=
    (m = m0 /\ (tr = [] \/ m0 <> 0%N)) \/ exists i leaf o, In (EEntry i m leaf o) tr.

  Lemma tsGe_mono m1 m2 tr : (m1 <= m2)%N -> tsGe m2 tr -> tsGe m1 tr.
  Proof. intros H T i ts lf o I. exact (N.le_trans _ _ _ H (T _ _ _ _ I)). Qed.
  Lemma tsGe_app m tr1 tr2 : tsGe m tr1 -> tsGe m tr2 -> tsGe m (tr1 ++ tr2).
  Proof. intros T1 T2 i ts lf o I. apply in_app_iff in I. destruct I; eauto. Qed.
  Lemma tsNonzero_app tr1 tr2 : tsNonzero (tr1 ++ tr2) -> tsNonzero tr1 /\ tsNonzero tr2.
  Proof. intros H. split; intros i ts lf o I; apply (H i ts lf o), in_app_iff; auto. Qed.

  (** What is known about the minimum after a list of entries. *)
  Definition minAfter (m0 m : N) (tr : list event) : Prop :=
    minTsSrc m0 m tr /\
    (tsNonzero tr -> tsGe m tr /\ (m0 <> 0%N -> (m <= m0)%N /\ m <> 0%N)).

  Lemma minAfter_nil m : minAfter m m [].
  Proof.
    split; [left; auto|]. intros _. split; [intros ? ? ? ? []|]. intros H. split; [apply N.le_refl|exact H].
  Qed.
  Lemma minAfter_app m0 m1 m2 tr1 tr2 : minAfter m0 m1 tr1 -> minAfter m1 m2 tr2 ->
    minAfter m0 m2 (tr1 ++ tr2).
  Proof.
    intros [A1 A2] [B1 B2]. split.
    - destruct B1 as [[-> B1]|[i [lf [o I]]]].
      + destruct A1 as [[-> A1]|[i [lf [o I]]]].
        * left. split; [reflexivity|]. destruct A1 as [->|A1]; [|auto]. destruct B1 as [->|B1]; auto.
        * right. exists i, lf, o. apply in_app_iff. auto.
      + right. exists i, lf, o. apply in_app_iff. auto.
    - intros Nz. apply tsNonzero_app in Nz. destruct Nz as [N1 N2].
      destruct (A2 N1) as [A3 A4]. destruct (B2 N2) as [B3 B4].
      split.
      + apply tsGe_app; [|exact B3]. destruct tr1 as [|x tr1]; [intros ? ? ? ? []|].
        assert (Z : m1 <> 0%N).
        { destruct A1 as [[-> [X|X]]|[i [lf [o I]]]]; [discriminate| |exact (N1 _ _ _ _ I)].
          exact (proj2 (A4 X)). }
        eapply tsGe_mono; [exact (proj1 (B4 Z))|exact A3].
      + intros Z. destruct (A4 Z) as [A5 A6]. destruct (B4 A6) as [B5 B6].
        split; [exact (N.le_trans _ _ _ B5 A5)|exact B6].
  Qed.
  Lemma minAfter_one m i ts lf o : minAfter m (minTsUpd m ts) [EEntry i ts lf o].
  Proof.
    unfold minTsUpd. split.
    - destruct (N.eqb_spec m 0) as [->|Nz]; cbn [orb].
      { right. exists i, lf, o. left. reflexivity. }
      destruct (ts <? m)%N.
      + right. exists i, lf, o. left. reflexivity.
      + left. auto.
    - intros Hz. assert (Z : ts <> 0%N) by (apply (Hz i ts lf o); left; reflexivity).
      split.
      + intros j t l' o' [X|[]]. injection X as <- <- <- <-.
        destruct (N.eqb_spec m 0), (N.ltb_spec ts m); cbn [orb]; lia.
      + intros Nz. destruct (N.eqb_spec m 0); [contradiction|]. cbn [orb].
        destruct (N.ltb_spec ts m); split; try lia; auto.
  Qed.

  (** ** A whole job *)

  (** Where the MinTimestamp of a save point comes from. *)
  Definition minSrc (s0 : logState) (pre : list event) (st : logState) : Prop :=
    ls_minTs st = ls_minTs s0 \/ exists i leaf o, In (EEntry i (ls_minTs st) leaf o) pre.
  Definition minPoint (s0 : logState) (pre : list event) (st : logState) : Prop :=
    (ls_lastUpdate s0 <> None -> (ls_minTs st <= ls_minTs s0)%N) /\
    (tsNonzero pre -> tsGe (ls_minTs st) pre) /\ minSrc s0 pre st.
  Definition minTrace (s0 : logState) (tr : list event) : Prop :=
    forall pre st post, tr = pre ++ EState st :: post -> minPoint s0 pre st.

  Lemma minTrace_entries s0 k tr : entriesFrom k tr -> minTrace s0 tr.
  Proof. intros H pre st post E. exfalso. exact (entries_no_state (fun x => x) _ _ H _ _ _ E). Qed.

  Lemma updateState_min w f l mn mx now s s' tr :
    (ls_lastUpdate s = None -> w = TInit) -> tr <> [] -> minAfter 0 mn tr ->
    updateState w (Some (f, l)) mn mx now s = Some s' ->
    minPoint s tr s' /\ ls_lastUpdate s' <> None.
  Proof.
    intros Hw Ne [Src Ge] U.
    assert (Src' : exists i leaf o, In (EEntry i mn leaf o) tr).
    { destruct Src as [[_ [X|X]]|X]; [contradiction|congruence|exact X]. }
    assert (K : (ls_lastUpdate s <> None /\ ls_minTs s' = N.min (ls_minTs s) mn) \/
                (ls_lastUpdate s = None /\ ls_minTs s' = mn)).
    { unfold updateState in U.
      destruct w; try discriminate U.
      - destruct (ls_lastUpdate s) as [u|] eqn:Eu.
        + destruct (ls_maxEntry s =? sub64 f 1)%N; [|discriminate]. injection U as <-. left. split; [discriminate|reflexivity].
        + injection U as <-. right. split; [reflexivity|]. cbn [ls_minTs]. apply N.min_id.
      - destruct (ls_minEntry s =? add64 l 1)%N; [|discriminate]. injection U as <-. left.
        split; [intros X; discriminate (Hw X)|reflexivity].
      - destruct (ls_maxEntry s =? sub64 f 1)%N; [|discriminate]. injection U as <-. left.
        split; [intros X; discriminate (Hw X)|reflexivity]. }
    split.
    - unfold minPoint, minSrc. destruct K as [[K1 ->]|[K1 ->]].
      + split; [intros _; apply N.le_min_l|]. split.
        * intros Nz. eapply tsGe_mono; [apply N.le_min_r|exact (proj1 (Ge Nz))].
        * destruct (N.min_spec (ls_minTs s) mn) as [[_ ->]|[_ ->]]; [left; reflexivity|right; exact Src'].
      + split; [intros X; contradiction|]. split; [intros Nz; exact (proj1 (Ge Nz))|right; exact Src'].
    - unfold updateState in U. destruct w; try discriminate U.
      + destruct (ls_lastUpdate s); [destruct (ls_maxEntry s =? sub64 f 1)%N; [|discriminate]|]; injection U as <-; discriminate.
      + destruct (ls_minEntry s =? add64 l 1)%N; [|discriminate]. injection U as <-. discriminate.
      + destruct (ls_maxEntry s =? sub64 f 1)%N; [|discriminate]. injection U as <-. discriminate.
  Qed.

  (** ** Tiled: the minimum only goes down from the state's own, which starts at 0 *)
  Lemma readLogEntries_min le bs now es endc cerr : forall s mE mn mx tr s' mE' mn' mx' r,
    readLogEntries Cert le bs now es endc cerr s mE mn mx = (tr, (s', mE', mn', mx'), r) ->
    (ls_minTs s' <= ls_minTs s)%N /\ (mn' <= mn)%N /\ tsGe mn' tr /\
    forall pre st post, tr = pre ++ EState st :: post ->
      (ls_minTs st <= ls_minTs s)%N /\ (ls_minTs st <= mn)%N /\ tsGe (ls_minTs st) pre.
  Proof.
    induction es as [|e es IH]; intros s mE mn mx tr s' mE' mn' mx' r R; cbn [readLogEntries] in R.
    - destruct endc; injection R as <- <- <- <- <- <-; unfold updateStateTiled; cbn [ls_minTs].
      + split; [apply N.le_min_l|]. split; [apply N.le_refl|]. split; [intros ? ? ? ? []|].
        intros [] ? ? ?; discriminate.
      + split; [apply N.le_min_l|]. split; [apply N.le_refl|]. split; [intros ? ? ? ? [X|[]]; discriminate|].
        intros pre st post E. destruct pre as [|p [|q pre]]; try discriminate.
        injection E as <- <-. cbn [ls_minTs]. split; [apply N.le_min_l|]. split; [apply N.le_min_r|]. intros ? ? ? ? [].
    - destruct (storeLogEntryTiled Cert le (te_cancelled Cert e) (te_cert Cert e) (te_chain Cert e)) as [o| |].
      2-3: injection R as <- <- <- <- <- <-; split; [apply N.le_refl|]; split; [apply N.le_refl|];
           split; [intros ? ? ? ? []|]; intros [] ? ? ?; discriminate.
      set (i := add64 mE 1) in *. set (ts := te_ts Cert e) in *.
      assert (Single : forall sx lf, (ls_minTs sx <= ls_minTs s)%N ->
        (ls_minTs sx <= ls_minTs s)%N /\ (N.min mn ts <= mn)%N /\ tsGe (N.min mn ts) [EEntry i ts lf o] /\
        forall pre st post, [EEntry i ts lf o] = pre ++ EState st :: post ->
          (ls_minTs st <= ls_minTs s)%N /\ (ls_minTs st <= mn)%N /\ tsGe (ls_minTs st) pre).
      { intros sx lf X. split; [exact X|]. split; [apply N.le_min_l|]. split.
        - intros j t l' o' [Y|[]]. injection Y as _ <- _ _. apply N.le_min_r.
        - intros pre st post E. destruct pre as [|p [|q pre]]; discriminate. }
      destruct (bs =? 0)%N.
      { injection R as <- <- <- <- <- <-. apply Single. apply N.le_refl. }
      destruct (i mod bs =? 0)%N.
      + destruct (te_saveCancelled Cert e).
        { injection R as <- <- <- <- <- <-. apply Single. unfold updateStateTiled. cbn [ls_minTs]. apply N.le_min_l. }
        destruct (readLogEntries Cert le bs now es endc cerr _ i (N.min mn ts) (N.max mx ts))
          as [[tr2 [[[s2 mE2] mn2] mx2]] r2] eqn:E2.
        injection R as <- <- <- <- <- <-.
        destruct (IH _ _ _ _ _ _ _ _ _ _ E2) as [A1 [A2 [A3 A4]]].
        unfold updateStateTiled in A1, A4. cbn [ls_minTs] in A1, A4.
        split; [lia|]. split; [lia|]. split.
        { intros j t l' o' [X|[X|X]]; [injection X as _ <- _ _; lia|discriminate|exact (A3 _ _ _ _ X)]. }
        intros pre st post E. destruct pre as [|p pre]; [discriminate|]. injection E as <- E.
        destruct pre as [|p pre].
        * injection E as <- <-. cbn [updateStateTiled ls_minTs]. split; [lia|]. split; [lia|].
          intros j t l' o' [X|[]]. injection X as _ <- _ _. lia.
        * injection E as <- E. destruct (A4 _ _ _ E) as [B1 [B2 B3]]. split; [lia|]. split; [lia|].
          intros j t l' o' [X|[X|X]]; [injection X as _ <- _ _; lia|discriminate|exact (B3 _ _ _ _ X)].
      + destruct (readLogEntries Cert le bs now es endc cerr s i (N.min mn ts) (N.max mx ts))
          as [[tr2 [[[s2 mE2] mn2] mx2]] r2] eqn:E2.
        injection R as <- <- <- <- <- <-.
        destruct (IH _ _ _ _ _ _ _ _ _ _ E2) as [A1 [A2 [A3 A4]]].
        split; [exact A1|]. split; [lia|]. split.
        { intros j t l' o' [X|X]; [injection X as _ <- _ _; lia|exact (A3 _ _ _ _ X)]. }
        intros pre st post E. destruct pre as [|p pre]; [discriminate|]. injection E as <- E.
        destruct (A4 _ _ _ E) as [B1 [B2 B3]]. split; [lia|]. split; [lia|].
        intros j t l' o' [X|X]; [injection X as _ <- _ _; lia|exact (B3 _ _ _ _ X)].
  Qed.

  Lemma runTiled_min bs s e tr o :
    runTiled Cert bs s e = (tr, o) ->
    forall pre st post, tr = pre ++ EState st :: post ->
      (ls_minTs st <= ls_minTs s)%N /\ tsGe (ls_minTs st) pre.
  Proof.
    unfold runTiled. destruct (tj_head Cert e) as [h|].
    2:{ intros R; injection R as <- <-. intros [] ? ? ?; discriminate. }
    destruct (tj_first Cert e) as [[es c] ce]. destruct (tj_second Cert e) as [[es2 c2] ce2].
    destruct (chooseTaskTiled bs (tj_recent Cert e) (Some h) s); intros R;
      try (injection R as <- <-; intros [] ? ? ?; discriminate).
    - destruct (readLogEntries Cert (tj_logExpired Cert e) bs (tj_now Cert e) es c ce s (ls_maxEntry s) (ls_minTs s) (ls_maxTs s))
        as [[tr1 [[[s1 mE1] mn1] mx1]] r1] eqn:E1.
      injection R as <- <-. destruct (readLogEntries_min _ _ _ _ _ _ _ _ _ _ _ _ _ _ _ _ E1) as [_ [_ [_ A]]].
      intros pre st post E. destruct (A _ _ _ E) as [B1 [_ B3]]. auto.
    - destruct (readLogEntries Cert (tj_logExpired Cert e) bs (tj_now Cert e) es c ce s (ls_maxEntry s) (ls_minTs s) (ls_maxTs s))
        as [[tr1 [[[s1 mE1] mn1] mx1]] r1] eqn:E1.
      destruct (readLogEntries_min _ _ _ _ _ _ _ _ _ _ _ _ _ _ _ _ E1) as [A1 [A2 [A3 A4]]].
      assert (First : forall pre st post, tr1 = pre ++ EState st :: post ->
        (ls_minTs st <= ls_minTs s)%N /\ tsGe (ls_minTs st) pre).
      { intros pre st post E. destruct (A4 _ _ _ E) as [B1 [_ B3]]. auto. }
      destruct r1 as [[]| |]; try (injection R as <- <-; exact First).
      destruct (readLogEntries Cert (tj_logExpired Cert e) bs (tj_now Cert e) es2 c2 ce2 s1 mE1 mn1 mx1)
        as [[tr2 [[[s2 mE2] mn2] mx2]] r2] eqn:E2.
      destruct (readLogEntries_min _ _ _ _ _ _ _ _ _ _ _ _ _ _ _ _ E2) as [C1 [C2 [C3 C4]]].
      injection R as <- <-. intros pre st post X.
      assert (Sp : (exists post', tr1 = pre ++ EState st :: post') \/
                   exists pre', pre = tr1 ++ pre' /\ tr2 = pre' ++ EState st :: post).
      { clear -X. revert pre X. induction tr1 as [|a tr1 IH]; intros pre X; cbn in X.
        - right. exists pre. auto.
        - destruct pre as [|b pre]; cbn in X.
          + injection X as -> X. left. eexists; reflexivity.
          + injection X as <- X. destruct (IH _ X) as [[post' ->]|[pre' [-> ->]]].
            * left. eexists; reflexivity.
            * right. exists pre'. auto. }
      destruct Sp as [[post' ->]|[pre' [-> X2]]]; [eapply First; reflexivity|].
      destruct (C4 _ _ _ X2) as [B1 [B2 B3]]. split; [lia|].
      apply tsGe_app; [|exact B3]. eapply tsGe_mono; [exact B2|exact A3].
    - destruct (add64 (ls_maxEntry s) 1 =? sth_size h)%N; [|injection R as <- <-; intros [] ? ? ?; discriminate].
      destruct (tj_sleepCancelled Cert e); injection R as <- <-; [intros [] ? ? ?; discriminate|].
      intros pre st post X. destruct pre as [|p [|q pre]]; try discriminate.
      injection X as <- <-. cbn [updateStateTiled ls_minTs]. split; [apply N.le_min_l|]. intros ? ? ? ? [].
  Qed.
End Def.

Section MinTs.
  Variable sha256 : bytes -> bytes.
  Context {Cert : Type}.
  Notation event := (event Cert).

  Lemma handleEntries_min le es : forall index v mn mx tr r,
    handleEntries sha256 Cert le es index v mn mx = (tr, r) ->
    match r with
    | Some (Ok (_, _, mn', _)) => minAfter mn mn' tr
    | _ => True
    end.
  Proof.
    induction es as [|e es IH]; intros index v mn mx tr r; cbn [handleEntries]; intros H.
    - injection H as <- <-. apply minAfter_nil.
    - destruct (re_parsed Cert e) as [[[[ts c] cert] chain]|]; [|exact (IH _ _ _ _ _ _ H)].
      destruct (storeLogEntry Cert le c cert chain) as [c1 c2| | |].
      4:{ injection H as <- <-. exact I. }
      all: destruct (consume sha256 v (re_leaf Cert e)) as [v'| |];
        [|injection H as <- <-; exact I|injection H as <- <-; exact I].
      all: destruct (handleEntries sha256 Cert le es (add64 index 1) v' (minTsUpd mn ts) (maxTsUpd mx ts)) as [tr' r'] eqn:Eh.
      all: injection H as <- <-.
      all: pose proof (IH _ _ _ _ _ _ Eh) as A.
      all: destruct r' as [[[[[i' v''] mn'] mx']| |]|]; auto.
      all: match goal with |- minAfter _ _ (?x :: ?t) => change (x :: t) with ([x] ++ t) end.
      all: eapply minAfter_app; [apply minAfter_one|exact A].
  Qed.

  Lemma download_min le resps : forall index v mn mx tr r rs',
    download sha256 Cert le resps index v mn mx = (tr, r, rs') ->
    match r with DDone _ mn' _ => minAfter mn mn' tr | _ => True end.
  Proof.
    induction resps as [|rp resps IH]; intros index v mn mx tr r rs'; cbn [download]; intros H.
    - destruct (st_last (v_subtree v) <? index)%N; injection H as <- <- <-; [apply minAfter_nil|exact I].
    - destruct (st_last (v_subtree v) <? index)%N; [injection H as <- <- <-; apply minAfter_nil|].
      destruct rp as [[|]| |es].
      + injection H as <- <- <-. exact I.
      + exact (IH _ _ _ _ _ _ _ H).
      + injection H as <- <- <-. exact I.
      + destruct (handleEntries sha256 Cert le es index v mn mx) as [tr1 r1] eqn:Eh.
        pose proof (handleEntries_min _ _ _ _ _ _ _ _ Eh) as A.
        destruct r1 as [[[[[i' v'] mn'] mx']| |]|]; try (injection H as <- <- <-; exact I).
        destruct (download sha256 Cert le resps i' v' mn' mx') as [[tr2 r2] rs2] eqn:Ed.
        injection H as <- <- <-. pose proof (IH _ _ _ _ _ _ _ Ed) as D.
        destruct r2; auto. eapply minAfter_app; eassumption.
  Qed.

  Lemma runVerifiers_min w le now vs : forall s resps cancels tr o,
    (forall st, In st vs -> (st_first st <= st_last st)%N /\ (st_last st < two63)%N) ->
    Forall respOk resps -> (ls_lastUpdate s = None -> w = TInit) ->
    runVerifiers sha256 Cert w le now vs s resps cancels = (tr, o) ->
    minTrace s tr.
  Proof.
    induction vs as [|st vs IH]; intros s resps cancels tr o Hvs F Hw R; cbn [runVerifiers] in R.
    - injection R as <- <-. intros pre x post E. destruct pre; discriminate.
    - destruct (Hvs st (or_introl eq_refl)) as [L1 L2].
      destruct (download sha256 Cert le resps (st_first st) (newVerifier st) 0 0) as [[tr1 r] resps'] eqn:Ed.
      assert (E1 : entriesFrom (st_first st) tr1).
      { destruct (download_spec sha256 _ _ _ _ _ _ _ _ _ Ed F) as [A _]; cbn [newVerifier v_subtree v_num];
          [exact L2|lia|unfold two63, two64 in *; lia|].
        cbn [newVerifier v_subtree v_num] in A. rewrite N.add_0_r in A. exact A. }
      pose proof (download_min _ _ _ _ _ _ _ _ _ Ed) as MA.
      destruct r as [v mn mx| | |]; try (injection R as <- <-; eapply minTrace_entries; exact E1).
      destruct (checkClaim v) as [[]| |] eqn:Ec; try (injection R as <- <-; eapply minTrace_entries; exact E1).
      destruct (subtree_verified sha256 _ _ _ _ _ _ _ _ Ed F L1 L2 Ec) as [_ [B2 [_ [_ [_ [B6 _]]]]]].
      assert (Ne : tr1 <> []) by (intros ->; cbn in B2; lia).
      destruct (updateState w (Some (st_first st, st_last st)) mn mx now s) as [s'|] eqn:Eu;
        [|injection R as <- <-; eapply minTrace_entries; exact E1].
      destruct (updateState_min _ _ _ _ _ _ _ _ _ Hw Ne MA Eu) as [P1 P2].
      destruct (hd (false, false) cancels) as [[] c2].
      { injection R as <- <-; eapply minTrace_entries; exact E1. }
      assert (S1 : forall rest, minTrace s' rest -> minTrace s (tr1 ++ EState s' :: rest)).
      { intros rest Sr pre x post E. apply (split_state _ _ _ _ _ _ _ E1) in E.
        destruct E as [[-> [-> _]]|[pre' [-> E]]]; [exact P1|].
        destruct (Sr _ _ _ E) as [X1 [X2 X3]]. specialize (X1 P2). destruct P1 as [Y1 [Y2 Y3]].
        split; [|split].
        - intros Q. exact (N.le_trans _ _ _ X1 (Y1 Q)).
        - intros Nz. apply tsNonzero_app in Nz. destruct Nz as [N1 N2].
          apply tsGe_app; [eapply tsGe_mono; [exact X1|exact (Y2 N1)]|].
          assert (N3 : tsNonzero pre') by (intros i ts lf oo I; apply (N2 i ts lf oo); right; exact I).
          intros i ts lf oo [I|I]; [discriminate|]. exact (X2 N3 _ _ _ _ I).
        - unfold minSrc in *. destruct X3 as [X3|[i [lf [oo I]]]].
          + rewrite X3. destruct Y3 as [Y3|[i [lf [oo I]]]]; [left; exact Y3|].
            right. exists i, lf, oo. apply in_app_iff. auto.
          + right. exists i, lf, oo. apply in_app_iff. right. right. exact I. }
      destruct c2.
      + injection R as <- <-. apply S1. intros pre x post E. destruct pre; discriminate.
      + destruct (runVerifiers sha256 Cert w le now vs s' resps' (tl cancels)) as [tr' o'] eqn:Er.
        injection R as <- <-. apply S1. eapply IH; [|exact B6| |exact Er].
        * intros y Hy. apply Hvs. right; exact Hy.
        * intros X. congruence.
  Qed.

  (** A job either follows the above or it had nothing to do and saved a single
      state, whose MinTimestamp may be the MinEntry index. *)
  Lemma run_min J s e tr o :
    (0 < J < two63)%N -> headOk (je_head Cert e) -> Forall respOk (je_resps Cert e) -> wfState s ->
    run sha256 Cert J s e = (tr, o) ->
    minTrace s tr \/
    exists s' h, tr = [EState s'] /\ je_head Cert e = Some h /\
      ls_minTs s' = N.min (ls_minTs s) (ls_minEntry s) /\
      (ls_minEntry s = 0%N \/ (sth_size h <= 3)%N).
  Proof.
    intros HJ HH HR W R. unfold run in R.
    destruct (je_head Cert e) as [h|] eqn:Eh; [|injection R as <- <-; left; intros [] ? ? ?; discriminate].
    cbn [headOk] in HH.
    pose proof (chooseTask_cases J (je_recent Cert e) h s _ eq_refl) as C.
    assert (G : forall w, (3 < sth_size h)%N -> (ls_lastUpdate s = None -> w = TInit) ->
      (match jobRange J w h s with
       | Ok fl =>
                let '(oldSize, newSize) := proofSizes fl in
                match je_proof Cert e with
                | None => ([], OOk)
                | Some proof =>
                    match consistencyProofToSubtrees proof oldSize newSize with
                    | Ok sts =>
                        let vs := orderVerifiers w (fst fl) (snd fl) sts [] in
                        let '(tr, o) := runVerifiers sha256 Cert w (je_logExpired Cert e) (je_now Cert e) vs s
                                          (je_resps Cert e) (je_cancels Cert e) in
                        (tr, match vs, o with [], OOk => OPanic | _, _ => o end)
                    | Err => ([], OErr)
                    | Panic => ([], OPanic)
                    end
                end
       | Err => ([], OErr)
       | Panic => ([], OPanic)
       end) = (tr, o) -> minTrace s tr).
    { intros w Hs Hw Rw.
      destruct (jobRange J w h s) as [[f l]| |] eqn:Ej; try (injection Rw as <- <-; intros [] ? ? ?; discriminate).
      pose proof (jobRange_last J w h s (f, l) HH ltac:(lia) Ej) as Hl. cbn [snd] in Hl.
      destruct (proofSizes (f, l)) as [old new] eqn:Ep.
      destruct (je_proof Cert e) as [proof|] eqn:Epr; [|injection Rw as <- <-; intros [] ? ? ?; discriminate].
      destruct (consistencyProofToSubtrees proof old new) as [sts| |] eqn:Ec;
        try (injection Rw as <- <-; intros [] ? ? ?; discriminate).
      cbv zeta in Rw. cbn [fst snd] in Rw.
      destruct (job_verifiers_ok w proof f l sts Hl) as [_ [_ Hv]]; [rewrite Ep; exact Ec|].
      destruct (runVerifiers sha256 Cert w (je_logExpired Cert e) (je_now Cert e) (orderVerifiers w f l sts []) s
                 (je_resps Cert e) (je_cancels Cert e)) as [tr1 o1] eqn:Er.
      assert (tr1 = tr) as -> by congruence.
      eapply runVerifiers_min; [|exact HR|exact Hw|exact Er].
      intros st Hin. destruct (Hv st Hin) as [V1 [V2 [V3 V4]]]. lia. }
    destruct (chooseTask J (je_recent Cert e) (Some h) s) eqn:Ew;
      try (injection R as <- <-; left; intros [] ? ? ?; discriminate).
    - left. apply (G TInit); auto. tauto.
    - left. apply (G TBackfill); auto; tauto.
    - left. apply (G TUpdate); auto; tauto.
    - destruct (N.eqb_spec (ls_maxEntry s) (sub64 (sth_size h) 1)) as [Em|];
        [|injection R as <- <-; left; intros [] ? ? ?; discriminate].
      cbn [updateState] in R.
      destruct (fst (hd (false, false) (je_cancels Cert e))); [injection R as <- <-; left; intros [] ? ? ?; discriminate|].
      injection R as <- <-. right. eexists _, h. split; [reflexivity|]. split; [reflexivity|].
      split; [reflexivity|].
      unfold chooseTask in Ew. destruct (N.leb_spec (sth_size h) 3); [right; assumption|left].
      unfold wfState in W. destruct (ls_lastUpdate s); [|tauto].
      destruct (add64 (ls_maxEntry s) J <? sth_size h)%N; [discriminate|].
      destruct (N.ltb_spec 0 (ls_minEntry s)); [discriminate|lia].
  Qed.

End MinTs.
