(** * C84: what clients of the channel with the priority filters get *)
From Verif Require Import Base MerkleModel SerialModel SerialProofs IssuersModel FilterModel FilterProofs TimeModel TimeProofs QueryModel TextProofs P_Query P_Filter RemoteModel PublishModel P_RunIds PublishProofs PublishProofs2 P_Publish PublishProofs3 PublishProofs4 P_Recover PipelineModel PipelineProofs PipelineSystem P_Pipeline.
From Coq Require Import Strings.Byte Sorting.Permutation Sorting.Sorted.

Lemma selected_dec set n : selected set n \/ ~ selected set n.
Proof.
  destruct (skipReason set (reasonOfCode n)) eqn:E; [right|left]; [|apply skip_selected; exact E].
  intros H. apply skip_selected in H. congruence.
Qed.
Lemma revokedCert_dec set rs d s : revokedCert set rs d s \/ ~ revokedCert set rs d s.
Proof.
  unfold revokedCert. induction rs as [|[d0 l] rs IH]; [right; intros [l [c [[] _]]]|].
  destruct IH as [[l' [c [I J]]]|IH]; [left; exists l', c; split; [right; exact I|exact J]|].
  destruct (bytes_eq_dec d0 d) as [->|ND].
  2:{ right. intros [l' [c [[E|I] J]]]; [injection E as E _; exact (ND E)|]. apply IH. exists l', c. auto. }
  assert (X : (exists c, In (s, c) l /\ selected set (c mod 256)) \/ ~ exists c, In (s, c) l /\ selected set (c mod 256)).
  { clear. induction l as [|[s0 c0] l IH]; [right; intros [c [[] _]]|]. destruct IH as [[c [I J]]|IH]; [left; exists c; split; [right; exact I|exact J]|].
    destruct (bytes_eq_dec s0 s) as [->|NS]; [|right; intros [c [[E|I] J]]; [injection E as E _; exact (NS E)|apply IH; exists c; auto]].
    destruct (selected_dec set (c0 mod 256)) as [Y|Y]; [left; exists c0; split; [left; reflexivity|exact Y]|].
    right. intros [c [[E|I] J]]; [injection E as ->; exact (Y J)|apply IH; exists c; auto]. }
  destruct X as [[c [I J]]|X]; [left; exists l, c; split; [left; reflexivity|auto]|].
  right. intros [l' [c [[E|I] J]]]; [injection E as ->; apply X; exists c; exact J|apply IH; exists l', c; auto].
Qed.

Section Pipeline.
  Variables (F : Type) (has : F -> bytes -> bool) (buildCascade : N -> N -> list bytes -> list bytes -> option bytes).
  Variable buildClubcard : bytes -> list (bytes * list bytes * N) -> list (bytes * list (bytes * bool)) -> option bytes.
  Variable fromBytes : bytes -> res (option F).
  Variable order : list bytes -> list bytes.
  Variable listdir : folder -> folder.
  Variable reasons : reasonSet -> dir -> dir -> bytes.
  Variable marker : bytes.
  Variable parseTime : bytes -> option Z.
  Hypothesis Listdir : forall f, Permutation (listdir f) f.
  Hypothesis Order : forall l, Permutation (order l) l.

  Let inv := PipelineSystem.inv F has buildCascade buildClubcard fromBytes order reasons marker parseTime.
  Let finished := PipelineSystem.finished F has buildCascade buildClubcard fromBytes order reasons marker parseTime.

  Lemma build_any set out prev t a nm c : buildDir F has buildCascade buildClubcard fromBytes order reasons set out prev t = Ok a -> fileAt a [nm] c ->
    exists kn rv ct o, plookup [B "known"] t = Some kn /\ plookup [B "revoked"] t = Some rv /\
      buildRun F has buildCascade (buildClubcard ct) fromBytes order Clubcard set set (prevSet prev) (plainOf rv) (plainOf kn) = Ok o /\
      (nm = B "filter" -> o_filter o = Some c) /\ (nm = B "filter.delta" -> o_deltaFilter o = Some c).
  Proof.
    intros H FA. unfold buildDir in H. destruct out; cbn [negb] in H; [|injection H as <-; destruct FA as [d [f [n [_ [[] _]]]]]].
    assert (E : forall x : tree, x = [([], []); ([B "delta"], [])] -> ~ fileAt x [nm] c).
    { intros x -> [d [f [n [_ [[I|[I|[]]] J]]]]]; injection I as _ <-; destruct J. }
    destruct (plookup [B "known"] t) as [kn|]; [|injection H as <-; contradiction (E _ eq_refl)]. destruct (plookup [B "revoked"] t) as [rv|]; [|injection H as <-; contradiction (E _ eq_refl)].
    destruct (match plookup [] t with Some f => fileIn (B "ct-logs.json") f | None => None end) as [ct|]; [|injection H as <-; contradiction (E _ eq_refl)].
    apply bind_ok in H. destruct H as [o [HB H]]. injection H as <-. exists kn, rv, ct, o. split; [reflexivity|]. split; [reflexivity|]. split; [exact HB|].
    apply fileAt_top in FA; [|intros d g [I|[]]; injection I as <- _; discriminate]. cbn [In] in FA. rewrite !in_app_iff in FA. cbn [In] in FA.
    split; intros ->.
    - destruct FA as [X|[X|[[X|[X|[]]]|X]]]; try (injection X as X _; revert X; vm_compute; discriminate).
      + destruct (o_filter o) as [x|]; [|destruct X]. destruct X as [X|[]]. injection X as ->. reflexivity.
      + destruct (o_deltaFilter o) as [x|]; [|destruct X]. destruct X as [X|[]]. injection X as X _. revert X. vm_compute. discriminate.
    - destruct FA as [X|[X|[[X|[X|[]]]|X]]]; try (injection X as X _; revert X; vm_compute; discriminate).
      + destruct (o_filter o) as [x|]; [|destruct X]. destruct X as [X|[]]. injection X as X _. revert X. vm_compute. discriminate.
      + destruct (o_deltaFilter o) as [x|]; [|destruct X]. destruct X as [X|[]]. injection X as ->. reflexivity.
  Qed.

  Lemma priority_files all r t a p : goodTree parseTime t -> (forall q c, plookup (r :: q) all = Some c <-> objectsOf marker t a p q c) -> forall nm c, plookup [r; sPriority; nm] all = Some c -> fileAt p [nm] c.
  Proof.
    intros GT OB nm c H. apply OB in H. destruct H as [H|[[q' [E H]]|[[q' [E H]]|[E _]]]].
    - exfalso. destruct (goodTree_names parseTime _ _ _ GT H) as [_ X]. destruct (X [nm]) as [_ Y]; [discriminate|]. apply Y. reflexivity.
    - exfalso. injection E as E _. revert E. vm_compute. discriminate.
    - injection E as <-. exact H.
    - discriminate E.
  Qed.

  (** What a completed run made of its inputs, as far as this channel is concerned. *)
  Definition madeFrom (ws : list world) (all : objects) (r : bytes) (w : world) (t : tree) : Prop :=
    In w ws /\ w_tree w = Some t /\ (exists n, runId r (w_today w) n) /\
    (exists L, plookup (revsetOf r) all = Some (enRevset L) /\ fits L /\
       forall ks rs, inputs t ks rs -> forall k, In k L <-> exists d s, k = d ++ s /\ knownCert ks d s /\ revokedCert RAll rs d s) /\
    (forall c, plookup [r; sPriority; B "filter"] all = Some c -> exists f, fromBytes c = Ok (Some f) /\
       forall ks rs, inputs t ks rs -> forall d s, knownCert ks d s -> (has f (d ++ s) = true <-> revokedCert RPriority rs d s)) /\
    (forall c, plookup [r; sPriority; B "filter.delta"] all = Some c -> exists p2 f, prevOk all r p2 /\ fromBytes c = Ok (Some f) /\
       forall ks rs, inputs t ks rs -> forall d s, knownCert ks d s -> (has f (d ++ s) = true <-> revokedCert RPriority rs d s /\ ~ In (d ++ s) (prevSet p2))).

  Lemma made_from ws all r : allInputs ws -> finished ws all r -> exists w t, madeFrom ws all r w t.
  Proof.
    intros AI [w [t [p1 [p2 [a [p [IW [[n RN] [GT [[WT [BA [BP HF]]] [OB [P1 P2]]]]]]]]]]]]. exists w, t.
    split; [exact IW|]. split; [exact WT|]. split; [exists n; exact RN|]. destruct (AI w t IW WT) as [ks0 [rs0 IN0]].
    split.
    { destruct (build_of F has buildCascade buildClubcard fromBytes order reasons _ _ _ _ BA HF) as [kn [rv [ct [o [KN [RV [BR [_ [_ E3]]]]]]]]].
      exists (order (o_revset o)). split; [apply (all_files marker parseTime _ _ _ _ _ GT OB); exact E3|].
      split; [apply (revset_fits F has buildCascade buildClubcard fromBytes order listdir Listdir Order _ _ _ _ _ _ _ _ _ IN0 KN RV BR)|].
      intros ks rs IN k. destruct (revset_fits F has buildCascade buildClubcard fromBytes order listdir Listdir Order _ _ _ _ _ _ _ _ _ IN KN RV BR) as [_ X]. rewrite <- X.
      split; apply Permutation_in; [apply Order|apply Permutation_sym, Order]. }
    assert (EX : forall nm c, plookup [r; sPriority; nm] all = Some c -> exists o ct kn rv, plookup [B "known"] t = Some kn /\ plookup [B "revoked"] t = Some rv /\
      buildRun F has buildCascade (buildClubcard ct) fromBytes order Clubcard RPriority RPriority (prevSet p2) (plainOf rv) (plainOf kn) = Ok o /\
      (nm = B "filter" -> o_filter o = Some c) /\ (nm = B "filter.delta" -> o_deltaFilter o = Some c)).
    { intros nm c H. apply (priority_files _ _ _ _ _ GT OB) in H. destruct (build_any _ _ _ _ _ _ _ BP H) as [kn [rv [ct [o [KN [RV X]]]]]]. exists o, ct, kn, rv. auto. }
    assert (EXACT : forall o ct kn rv, plookup [B "known"] t = Some kn -> plookup [B "revoked"] t = Some rv ->
      buildRun F has buildCascade (buildClubcard ct) fromBytes order Clubcard RPriority RPriority (prevSet p2) (plainOf rv) (plainOf kn) = Ok o -> forall ks rs, inputs t ks rs ->
      (forall data, o_filter o = Some data -> exists f, fromBytes data = Ok (Some f) /\ forall d s, knownCert ks d s -> (has f (d ++ s) = true <-> revokedCert RPriority rs d s)) /\
      (forall data, o_deltaFilter o = Some data -> exists f, fromBytes data = Ok (Some f) /\ forall d s, knownCert ks d s -> (has f (d ++ s) = true <-> revokedCert RPriority rs d s /\ ~ In (d ++ s) (prevSet p2)))).
    { intros o ct kn rv KN RV BR ks rs [kn' [rv' [K [R [EK [ER [GK [GR _]]]]]]]]. rewrite KN in K. injection K as <-. rewrite RV in R. injection R as <-. rewrite EK, ER in BR.
      destruct (C38_run_is_exact F has buildCascade (buildClubcard ct) fromBytes order Clubcard RPriority RPriority (prevSet p2) rs ks o GK GR BR) as [X1 [X2 _]]. auto. }
    split.
    - intros c H. destruct (EX _ _ H) as [o [ct [kn [rv [KN [RV [BR [E1 _]]]]]]]]. specialize (E1 eq_refl).
      destruct (proj1 (EXACT _ _ _ _ KN RV BR _ _ IN0) c E1) as [f [PF _]]. exists f. split; [exact PF|].
      intros ks rs IN. destruct (proj1 (EXACT _ _ _ _ KN RV BR _ _ IN) c E1) as [f' [PF' X]]. rewrite PF in PF'. injection PF' as <-. exact X.
    - intros c H. destruct (EX _ _ H) as [o [ct [kn [rv [KN [RV [BR [_ E2]]]]]]]]. specialize (E2 eq_refl).
      destruct (proj2 (EXACT _ _ _ _ KN RV BR _ _ IN0) c E2) as [f [PF _]]. exists p2, f. split; [exact P2|]. split; [exact PF|].
      intros ks rs IN. destruct (proj2 (EXACT _ _ _ _ KN RV BR _ _ IN) c E2) as [f' [PF' X]]. rewrite PF in PF'. injection PF' as <-. exact X.
  Qed.

  Section Publisher.
    Variables (fresh : list frec -> bytes) (listing : list frec -> list frec) (ch : channel).
    Hypothesis Fresh : forall l, ~ In (fresh l) (map r_id l).
    Hypothesis Listing : forall l, Permutation (listing l) l.
    Hypothesis PlainC : plain ch.
    Hypothesis PriorityC : c_dir ch = sPriority.

    Let joint := P_Pipeline.joint F has buildCascade buildClubcard fromBytes order listdir reasons marker parseTime fresh listing ch.
    Let reports := P_Pipeline.reports F has fromBytes.
    Let clientReports := P_Pipeline.clientReports F has fromBytes ch.
    Let upTo := P_Pipeline.upTo ch.

    (** The items of a chain are from completed runs, and the run just before that of
        an item, among all runs, is that of the item before it. *)
    Lemma item_done ws all0 all o xs : inv ws all o -> older all0 all -> faithful (bucketOf parseTime all0) ch xs -> (forall x, In x xs -> In (itemRun x) (ids all0)) ->
      forall x, In x xs -> done all0 (itemRun x) /\ done all (itemRun x) /\ finished ws all (itemRun x).
    Proof.
      intros IV [O1 [O2 O3]] [SO [_ FA]] LI x Ix.
      assert (RD : b_ready (bucketOf parseTime all0) (itemRun x) = true).
      { destruct xs as [|x0 xs]; [destruct Ix|]. destruct FA as [G1 [G2 _]]. pose proof (LI x Ix) as J. destruct Ix as [->|I]; [apply (G1 J)|apply (G2 x I J)]. }
      assert (D : done all0 (itemRun x)) by (unfold done, sCompleted; cbn [bucketOf b_ready] in RD; destruct (plookup [itemRun x; B "completed"] all0); [discriminate|discriminate RD]).
      assert (D' : done all (itemRun x)) by (unfold done; rewrite (O2 _ (LI x Ix) D); exact D).
      split; [exact D|]. split; [exact D'|]. apply (i_done _ _ _ _ _ _ _ _ _ _ _ _ IV); [apply O1, LI, Ix|exact D'].
    Qed.
    Lemma item_data ws all0 all o xs : inv ws all o -> older all0 all -> faithful (bucketOf parseTime all0) ch xs -> (forall x, In x xs -> In (itemRun x) (ids all0)) ->
      forall p x rest, xs = p ++ x :: rest -> plookup [itemRun x; sPriority; match p with [] => B "filter" | _ => B "filter.delta" end] all = Some (snd x).
    Proof.
      intros IV OL FA LI p x rest E. assert (Ix : In x xs) by (rewrite E; apply in_or_app; right; left; reflexivity).
      destruct (item_done _ _ _ _ _ IV OL FA LI x Ix) as [D _]. destruct OL as [O1 [O2 O3]]. rewrite (O2 _ (LI x Ix) D). destruct FA as [_ [_ FA]].
      destruct p as [|x0 p]; cbn [app] in E; subst xs; destruct FA as [G1 [G2 _]].
      - destruct (G1 (LI x Ix)) as [_ [_ X]]. cbn [bucketOf b_filter] in X. rewrite PriorityC in X. exact X.
      - destruct (G2 x) as [_ [_ X]]; [apply in_or_app; right; left; reflexivity|exact (LI x Ix)|]. cbn [bucketOf b_delta] in X. rewrite PriorityC in X. exact X.
    Qed.
    Lemma item_before ws all0 all o xs : inv ws all o -> older all0 all -> faithful (bucketOf parseTime all0) ch xs -> (forall x, In x xs -> In (itemRun x) (ids all0)) ->
      forall p x' x rest, xs = p ++ x' :: x :: rest -> before (itemRun x') (itemRun x) /\ forall r', In r' (ids all) -> before r' (itemRun x) -> r' = itemRun x' \/ before r' (itemRun x').
    Proof.
      intros IV [O1 [O2 O3]] [SO [_ FA]] LI p x' x rest E.
      assert (Ix : In x xs) by (rewrite E; apply in_or_app; right; right; left; reflexivity). assert (Ix' : In x' xs) by (rewrite E; apply in_or_app; right; left; reflexivity).
      rewrite E in SO. pose proof (sorted_split p (x :: rest) x' SO) as [S1 S2].
      pose proof (sorted_split (p ++ [x']) rest x) as S3. rewrite <- app_assoc in S3. specialize (S3 SO). destruct S3 as [S3 S4].
      split; [apply S2; left; reflexivity|].
      intros r' I' B'. assert (J : In r' (ids all0)).
      { destruct (O3 r' I') as [J|J]; [exact J|]. exfalso. exact (before_asym _ _ B' (J _ (LI x Ix))). }
      destruct (f_apart _ _ _ (i_frame _ _ _ _ _ _ _ _ _ _ _ _ IV) r' (itemRun x') I' (O1 _ (LI x' Ix'))) as [X|[X|X]]; [left; exact X|right; exact X|]. exfalso.
      assert (IN : In r' (map itemRun xs)).
      { rewrite E in *. clear E. destruct (p ++ x' :: x :: rest) as [|x0 xs'] eqn:E0; [destruct p; discriminate E0|]. destruct FA as [_ [_ G3]].
        destruct (exists_last (l := x0 :: xs')) as [m [y Em]]; [discriminate|].
        apply (G3 r' y); [rewrite Em; apply lastOf_some; exists m; reflexivity|exact J| |].
        - intros Y. assert (Z : itemRun x0 = itemRun x' \/ before (itemRun x0) (itemRun x')).
          { destruct p as [|z p]; cbn [app] in E0; injection E0 as <- _; [left; reflexivity|right; apply S1; left; reflexivity]. }
          destruct Z as [Z|Z]; [rewrite Z in Y; exact (before_asym _ _ X Y)|exact (before_irrefl _ (before_trans _ _ _ (before_trans _ _ _ Y Z) X))].
        - intros Y. assert (Z : itemRun y = itemRun x \/ before (itemRun x) (itemRun y)).
          { rewrite Em in E0. destruct rest as [|z rest] using rev_ind; [|clear IHrest].
            - left. assert (E1 : (p ++ [x']) ++ [x] = m ++ [y]) by (rewrite <- app_assoc; exact E0). apply app_inj_tail in E1. destruct E1 as [_ ->]. reflexivity.
            - right. assert (E1 : (p ++ x' :: x :: rest) ++ [z] = m ++ [y]) by (rewrite <- app_assoc; exact E0). apply app_inj_tail in E1. destruct E1 as [_ ->]. apply S4. apply in_or_app. right. left. reflexivity. }
          destruct Z as [Z|Z]; [rewrite Z in Y; exact (before_asym _ _ B' Y)|exact (before_irrefl _ (before_trans _ _ _ (before_trans _ _ _ B' Z) Y))]. }
      rewrite E, map_app in IN. apply in_app_iff in IN. cbn [map In] in IN. destruct IN as [IN|[IN|[IN|IN]]].
      * apply in_map_iff in IN. destruct IN as [z [<- Iz]]. exact (before_asym _ _ X (S1 z Iz)).
      * subst r'. exact (before_irrefl _ X).
      * subst r'. exact (before_irrefl _ B').
      * apply in_map_iff in IN. destruct IN as [z [<- Iz]]. exact (before_asym _ _ B' (S4 z Iz)).
    Qed.

    (** A certificate that an earlier run of the chain had revoked, but not for a
        priority reason. *)
    Definition otherwise (ws : list world) (all : objects) (p : list item) (d s : bytes) : Prop :=
      exists y w t ks rs, In y p /\ madeFrom ws all (itemRun y) w t /\ inputs t ks rs /\ knownCert ks d s /\ revokedCert RAll rs d s /\ ~ revokedCert RPriority rs d s.

    Lemma chain_priority ws all0 all o xs : allInputs ws -> inv ws all o -> older all0 all -> faithful (bucketOf parseTime all0) ch xs -> (forall x, In x xs -> In (itemRun x) (ids all0)) ->
      forall p x rest w t ks rs d s, xs = p ++ x :: rest -> madeFrom ws all (itemRun x) w t -> inputs t ks rs -> knownCert ks d s -> revokedCert RPriority rs d s ->
      reports (p ++ [x]) (d ++ s) \/ otherwise ws all p d s.
    Proof.
      intros AI IV OL FA LI. induction p as [|x' p IH] using rev_ind; intros x rest w t ks rs d s E M IN K R.
      - pose proof (item_data _ _ _ _ _ IV OL FA LI [] x rest E) as DT. cbn iota in DT. destruct M as [_ [_ [_ [_ [MF _]]]]]. destruct (MF _ DT) as [f [PF X]].
        left. exists x, f. split; [left; reflexivity|]. split; [exact PF|]. apply (X ks rs IN d s K). exact R.
      - pose proof (item_data _ _ _ _ _ IV OL FA LI (p ++ [x']) x rest E) as DT. destruct M as [_ [_ [_ [_ [_ MD]]]]].
        assert (DT' : plookup [itemRun x; sPriority; B "filter.delta"] all = Some (snd x)) by (destruct p; exact DT). clear DT.
        destruct (MD _ DT') as [p2 [f [P2 [PF X]]]].
        destruct (in_dec bytes_eq_dec (d ++ s) (prevSet p2)) as [IP|IP].
        2:{ left. exists x, f. split; [apply in_or_app; right; left; reflexivity|]. split; [exact PF|]. apply (X ks rs IN d s K). auto. }
        rewrite <- app_assoc in E. cbn [app] in E. assert (Ix' : In x' xs) by (rewrite E; apply in_or_app; right; left; reflexivity).
        destruct (item_done _ _ _ _ _ IV OL FA LI x' Ix') as [_ [D' Fi']]. destruct (made_from _ _ _ AI Fi') as [w' [t' M']]. pose proof M' as [IW' [WT' [_ [[L [RS [FL XL]]] _]]]].
        destruct (item_before _ _ _ _ _ IV OL FA LI p x' x rest E) as [BE NE].
        destruct (AI w' t' IW' WT') as [ks' [rs' IN']].
        assert (J : In (itemRun x') (ids all)) by (destruct OL as [O1 _]; apply O1, LI, Ix').
        destruct (P2 (itemRun x') J BE NE D') as [-> | ->]; [destruct IP|]. rewrite RS in IP. cbn [prevSet] in IP. pose proof (de_en L [] FL) as DE. rewrite app_nil_r in DE. rewrite DE in IP.
        apply (XL ks' rs' IN') in IP. destruct IP as [d' [s' [ED [K' R']]]].
        assert (EDS : d = d' /\ s = s').
        { destruct IN as [kn1 [rv1 [_ [_ [_ [_ [GK _]]]]]]]. destruct IN' as [kn2 [rv2 [_ [_ [_ [_ [GK' _]]]]]]]. exact (known_key ks ks' d s d' s' GK GK' K K' ED). }
        destruct EDS as [<- <-].
        destruct (revokedCert_dec RPriority rs' d s) as [Y|Y].
        + destruct (IH x' (x :: rest) w' t' ks' rs' d s E M' IN' K' Y) as [[z [g [Iz Hz]]]|[z [w2 [t2 [ks2 [rs2 [Iz Hz]]]]]]].
          * left. exists z, g. split; [apply in_or_app; left; exact Iz|exact Hz].
          * right. exists z, w2, t2, ks2, rs2. split; [apply in_or_app; left; exact Iz|exact Hz].
        + right. exists x', w', t', ks', rs'. split; [apply in_or_app; right; left; reflexivity|]. auto.
    Qed.

    (** At any time, of the revocations for a priority reason of the newest run that
        the records of the channel are from, the records report each one, unless an
        earlier run they are from had that certificate as revoked for another reason. *)
    Theorem C84_reported : forall ws all st s sv, joint ws all st s sv -> allInputs ws -> verifyRecords ch (sv_recs sv) = Val tt ->
      chan ch (sv_recs sv) = [] \/
      exists run w t n, upTo (sv_recs sv) run /\ In w ws /\ w_tree w = Some t /\ runId run (w_today w) n /\
        forall ks rs, inputs t ks rs -> forall d s, knownCert ks d s -> revokedCert RPriority rs d s ->
          clientReports (sv_recs sv) (d ++ s) \/
          exists r run' w' t' n' ks' rs', In r (chan ch (sv_recs sv)) /\ runOf r run' /\ before run' run /\ In w' ws /\ w_tree w' = Some t' /\ runId run' (w_today w') n' /\
            inputs t' ks' rs' /\ knownCert ks' d s /\ revokedCert RAll rs' d s /\ ~ revokedCert RPriority rs' d s.
    Proof.
      intros ws all st s sv J AI V. destruct (joint_inv F has buildCascade buildClubcard fromBytes order listdir reasons marker parseTime Listdir fresh listing ch _ _ _ _ _ J) as [RE [seen [all0 [H [SE OL]]]]].
      destruct (reach_inv' F has buildCascade buildClubcard fromBytes order listdir reasons marker parseTime Listdir _ _ _ _ RE) as [IV _].
      destruct (C45_accepted_is_sound fresh listing ch Fresh Listing PlainC _ _ _ H V) as [E|[xs SD]]; [left; exact E|right].
      pose proof (history_recoverable fresh listing ch Fresh Listing PlainC _ _ _ H) as RC.
      assert (LI : forall x, In x xs -> In (itemRun x) (ids all0)) by (intros x I; apply SE; exact (sound_seen ch PlainC _ _ _ _ RC SD x I)).
      pose proof SD as [l [P [PU FA]]]. pose proof FA as [SO [RU _]]. destruct (publishes_att ch PlainC _ _ RU PU) as [A1 A2].
      destruct (publishes_runs ch l xs PlainC RU PU) as [RO _].
      destruct (exists_last (l := xs)) as [m [y Em]]; [intros ->; destruct l; exact PU|].
      assert (Iy : In y xs) by (rewrite Em; apply in_or_app; right; left; reflexivity).
      destruct (item_done _ _ _ _ _ IV OL FA LI y Iy) as [_ [_ Fi]]. destruct (made_from _ _ _ AI Fi) as [w [t M]]. pose proof M as [IW [WT [[n RN] _]]].
      exists (itemRun y), w, t, n. split; [apply (sound_upTo ch PlainC _ _ _ _ SD); rewrite Em; apply lastOf_some; exists m; reflexivity|]. split; [exact IW|]. split; [exact WT|]. split; [exact RN|].
      intros ks rs IN d s0 K R.
      destruct (chain_priority ws all0 all (p_objs s) xs AI IV OL FA LI m y [] w t ks rs d s0 Em M IN K R) as [[x [f [Ix [PF HS]]]]|[x [w' [t' [ks' [rs' [Ix [[IW' [WT' [[n' RN'] _]]] [IN' [K' [R' NR']]]]]]]]]]].
      - left. rewrite <- Em in Ix. destruct (A1 x Ix) as [r [nm [Ir AT]]]. exists r, nm, (snd x), f. split; [apply (Permutation_in _ P); exact Ir|]. auto.
      - right. assert (Ix2 : In x xs) by (rewrite Em; apply in_or_app; left; exact Ix).
        assert (LR : exists r, In r l /\ runOf r (itemRun x)).
        { apply (in_map itemRun) in Ix2. revert Ix2. generalize (itemRun x). clear -RO. intros q. induction RO as [|z q0 l m H G IH]; intros I; [destruct I|]. destruct I as [<-|I]; [exists z; split; [left; reflexivity|exact H]|]. destruct (IH I) as [v [J K]]. exists v. split; [right; exact J|exact K]. }
        destruct LR as [r [Ir Rr]]. exists r, (itemRun x), w', t', n', ks', rs'. split; [apply (Permutation_in _ P); exact Ir|]. split; [exact Rr|].
        split; [rewrite Em in SO; destruct (sorted_split m [] y SO) as [S1 _]; apply S1; exact Ix|]. repeat (split; [assumption|]). assumption.
    Qed.

    (** No record of the channel reports a certificate that was known in the run it is
        from and was not revoked there for a priority reason. *)
    Theorem C84_nothing_is_invented : forall ws all st s sv, joint ws all st s sv -> allInputs ws -> verifyRecords ch (sv_recs sv) = Val tt ->
      forall r name data, In r (chan ch (sv_recs sv)) -> r_att r = Some (name, data) ->
      exists f w t run n, fromBytes data = Ok (Some f) /\ runOf r run /\ In w ws /\ w_tree w = Some t /\ runId run (w_today w) n /\
        forall ks rs, inputs t ks rs -> forall d s, has f (d ++ s) = true -> revokedCert RPriority rs d s \/ ~ knownCert ks d s.
    Proof.
      intros ws all st s sv J AI V r name data Ir AT. destruct (joint_inv F has buildCascade buildClubcard fromBytes order listdir reasons marker parseTime Listdir fresh listing ch _ _ _ _ _ J) as [RE [seen [all0 [H [SE OL]]]]].
      destruct (reach_inv' F has buildCascade buildClubcard fromBytes order listdir reasons marker parseTime Listdir _ _ _ _ RE) as [IV _].
      destruct (C45_accepted_is_sound fresh listing ch Fresh Listing PlainC _ _ _ H V) as [E|[xs SD]]; [rewrite E in Ir; destruct Ir|].
      pose proof (history_recoverable fresh listing ch Fresh Listing PlainC _ _ _ H) as RC.
      assert (LI : forall x, In x xs -> In (itemRun x) (ids all0)) by (intros x I; apply SE; exact (sound_seen ch PlainC _ _ _ _ RC SD x I)).
      destruct SD as [l [P [PU FA]]]. pose proof FA as [_ [RU _]]. destruct (publishes_att ch PlainC _ _ RU PU) as [_ A2].
      apply (Permutation_in _ (Permutation_sym P)) in Ir. destruct (A2 r Ir) as [x [nm' [Ix [AT' RF]]]]. rewrite AT in AT'. injection AT' as -> ->.
      destruct (item_done _ _ _ _ _ IV OL FA LI x Ix) as [_ [_ Fi]]. destruct (made_from _ _ _ AI Fi) as [w [t [IW [WT [[n RN] [_ [MF MD]]]]]]].
      apply in_split in Ix. destruct Ix as [p [rest E]]. pose proof (item_data _ _ _ _ _ IV OL FA LI p x rest E) as DT.
      assert (X : exists f, fromBytes (snd x) = Ok (Some f) /\ forall ks rs, inputs t ks rs -> forall d s, knownCert ks d s -> has f (d ++ s) = true -> revokedCert RPriority rs d s).
      { destruct p as [|x0 p].
        - destruct (MF _ DT) as [f [PF X]]. exists f. split; [exact PF|]. intros ks rs IN d s0 K HS. apply (X ks rs IN d s0 K). exact HS.
        - destruct (MD _ DT) as [p2 [f [_ [PF X]]]]. exists f. split; [exact PF|]. intros ks rs IN d s0 K HS. apply (X ks rs IN d s0 K) in HS. apply HS. }
      destruct X as [f [PF X]]. exists f, w, t, (itemRun x), n. split; [exact PF|]. split; [exact RF|]. split; [exact IW|]. split; [exact WT|]. split; [exact RN|].
      intros ks rs IN d s0 HS. destruct (knownCert_dec ks d s0) as [K|K]; [left; apply (X ks rs IN d s0 K HS)|right; exact K].
    Qed.

    (** And a run of the publisher without failures brings the records up to the newest
        run of the bucket, if that is completed and every completed run has both
        priority filters; [C59_priority_refuted] shows that it need not have. *)
    Theorem C84_up_to_date : forall ws all st s sv new, joint ws all st s sv -> lastOf (ids (p_objs s)) = Some new -> done (p_objs s) new ->
      (forall r, isRun r -> done (p_objs s) r -> plookup [r; sPriority; B "filter"] (p_objs s) <> None /\ plookup [r; sPriority; B "filter.delta"] (p_objs s) <> None) ->
      exists v sv', run fresh listing (publishCrlite false (bucketOf parseTime (p_objs s)) ch) sv [] = (Done v, sv') /\ verifyRecords ch (sv_recs sv') = Val tt /\ upTo (sv_recs sv') new.
    Proof.
      intros ws all st s sv new J L D DE. pose proof (j_publish F has buildCascade buildClubcard fromBytes order listdir reasons marker parseTime fresh listing ch _ _ _ _ _ [] J) as J'.
      destruct (joint_inv F has buildCascade buildClubcard fromBytes order listdir reasons marker parseTime Listdir fresh listing ch _ _ _ _ _ J) as [RE [seen [all0 [H [SE OL]]]]].
      destruct (reach_inv' F has buildCascade buildClubcard fromBytes order listdir reasons marker parseTime Listdir _ _ _ _ RE) as [IV _].
      pose proof (i_frame _ _ _ _ _ _ _ _ _ _ _ _ IV) as Fr.
      destruct (C45_recovers fresh listing ch Fresh Listing PlainC seen (bucketOf parseTime all0) sv (bucketOf parseTime all) (bucketOf parseTime (p_objs s)) new H) as [v [sv' [E [[xs [y [SD [LY EY]]]] _]]]].
      - exact (bucket_timely F has buildCascade buildClubcard fromBytes order reasons marker parseTime _ _ _ IV).
      - intros r I. destruct (bucket_grows parseTime _ _ OL r I) as [X|X]; [left; exact X|right]. intros r' S'. apply X. apply SE. exact S'.
      - exact (bucket_tail F has buildCascade buildClubcard fromBytes order reasons marker parseTime _ _ _ IV).
      - intros r I RD. cbn [bucketOf b_ids b_ready b_filter b_delta] in *. fold (ids (p_objs s)) in I. rewrite PriorityC.
        assert (DR : done (p_objs s) r) by (unfold done, sCompleted; destruct (plookup [r; B "completed"] (p_objs s)); [discriminate|discriminate RD]).
        assert (R : isRun r) by (apply (in_ids _ _ (named_run _ _ (frame_named_o _ _ _ Fr))) in I; apply I). apply DE; assumption.
      - exact L.
      - cbn [bucketOf b_ready]. unfold done, sCompleted in D. destruct (plookup [new; B "completed"] (p_objs s)); [reflexivity|contradiction D; reflexivity].
      - exists v, sv'. split; [exact E|]. split; [|rewrite <- EY; apply (sound_upTo ch PlainC _ _ _ _ SD LY)].
        rewrite E in J'. cbn [snd] in J'. destruct (joint_inv F has buildCascade buildClubcard fromBytes order listdir reasons marker parseTime Listdir fresh listing ch _ _ _ _ _ J') as [_ [seen' [all' [H' _]]]]. pose proof (history_recoverable fresh listing ch Fresh Listing PlainC _ _ _ H') as [ND _].
        apply C43_accepts. right. destruct SD as [l [P [PU [_ [RU _]]]]]. destruct (publishes_runs ch l xs PlainC RU PU) as [_ [CH [AT _]]]. exists l. split; [exact P|]. split; [exact CH|]. split; [|intros r I; apply (AT r I)].
        apply (Permutation_NoDup (Permutation_map r_id (Permutation_sym P))). clear -ND. unfold chan. induction (sv_recs sv') as [|r m IH]; [constructor|]. cbn [map] in ND. apply NoDup_cons_iff in ND. destruct ND as [N ND]. cbn [filter]. destruct (inChannel ch r); [|apply IH; exact ND].
        cbn [map]. constructor; [|apply IH; exact ND]. intros I. apply N. apply in_map_iff in I. destruct I as [z [<- I]]. apply filter_In in I. apply in_map. apply I.
    Qed.
  End Publisher.
End Pipeline.
Print Assumptions C84_reported.
Print Assumptions C84_nothing_is_invented.
Print Assumptions C84_up_to_date.

(** ** Two runs, each published in the channel *)

(** First "1" is revoked for a priority reason and "3" for none; then all three are
    revoked for a priority reason. *)
Definition pRs0 : revokedSrc := [(dA, [(B "1", 1%N); (B "3", 0%N)])].
Definition pRs1 : revokedSrc := [(dA, [(B "1", 1%N); (B "2", 5%N); (B "3", 1%N)])].
Lemma pGood time rs : In rs [pRs0; pRs1] -> goodTree toyTime (xTree time rs).
Proof.
  intros I. assert (ND : NoDup (map fst (filesOf (goRevoked rs)))) by (destruct I as [<-|[<-|[]]]; apply (nodupb_spec beq beq_refl); vm_compute; reflexivity).
  split; [|split].
  - split; [apply (nodupb_spec peq peq_refl); vm_compute; reflexivity|]. intros d f [E|[E|[E|[E|[]]]]]; injection E as <- <-; [apply (nodupb_spec beq beq_refl); vm_compute; reflexivity|apply (nodupb_spec beq beq_refl); vm_compute; reflexivity|exact ND|apply (nodupb_spec beq beq_refl); vm_compute; reflexivity].
  - intros d f [E|[E|[E|[E|[]]]]]; injection E as <- <-; [|split; vm_compute; discriminate|split; vm_compute; discriminate|split; vm_compute; discriminate].
    cbn [map fst In]. intros [X|[X|[X|[]]]]; revert X; vm_compute; discriminate.
  - exists time, (Z.of_N (valueOf time)). split; [|reflexivity]. eexists [], _, (B "timestamp"). split; [reflexivity|]. split; [left; reflexivity|]. left. reflexivity.
Qed.
Lemma pInputs time rs : In rs [pRs0; pRs1] -> inputs (xTree time rs) zKs rs.
Proof.
  intros I. exists (filesOf (goKnown zKs)), (filesOf (goRevoked rs)). split; [reflexivity|]. split; [reflexivity|]. rewrite !plain_filesOf. split; [reflexivity|]. split; [reflexivity|]. split; [apply zGood|]. split.
  - destruct I as [<-|[<-|[]]]; (constructor; [intros []|constructor]).
  - split; [vm_compute; reflexivity|]. intros k X. repeat (destruct X as [<-|X]; [vm_compute; reflexivity|]). destruct X.
Qed.
Definition v1 := mkWorld (B "20260101") (Some (xTree (B "1000") pRs0)) true true true.
Definition v2 := mkWorld (B "20260101") (Some (xTree (B "2000") pRs1)) true true true.
Lemma pAll : allInputs [v2; v1].
Proof. intros w t [<-|[<-|[]]] E; injection E as <-; [exists zKs, pRs1|exists zKs, pRs0]; apply pInputs; cbn; auto. Qed.
Lemma goodv1 : goodWorld toyTime [] v1.
Proof. split; [reflexivity|]. split; [reflexivity|]. split; [intros w' []|]. split; [|vm_compute; reflexivity]. intros t E. injection E as <-. apply pGood. cbn; auto. Qed.
Lemma goodv2 : goodWorld toyTime [v1] v2.
Proof. split; [reflexivity|]. split; [reflexivity|]. split; [intros w' [<-|[]]; vm_compute; discriminate|]. split; [|vm_compute; reflexivity]. intros t E. injection E as <-. apply pGood. cbn; auto. Qed.

Definition pFresh (l : list frec) : bytes := concat (map r_id l) ++ B "x".
Definition compat := mkChannel (B "compat") sPriority (B "filter.delta") 45 true.
Definition px1 := after x0 v1 [].
Definition px2 := after px1 v2 [].
Definition psv0 := mkServer [] false [] : server attrs.
Definition psv1 := snd (run pFresh (fun l => l) (publishCrlite false (bucketOf toyTime (objs px1)) compat) psv0 []).
Definition psv2 := snd (run pFresh (fun l => l) (publishCrlite false (bucketOf toyTime (objs px2)) compat) psv1 []).
Definition pNone : frec := mkRecord [] (mkAttrs None None None None 0) None.
Definition pReports := clientReports (list bytes) toyHas toyFromBytes compat.
Lemma pJoint1 : toyJoint pFresh (fun l => l) compat [v1] (fst (fst px1)) (snd (fst px1)) (snd px1) psv1.
Proof. apply j_publish. apply drive_joint. eapply j_pipeline; [apply j_start; [reflexivity|constructor]|]. apply p_run; [intros p; discriminate|exact goodv1]. Qed.
Lemma pJoint2 : toyJoint pFresh (fun l => l) compat [v2; v1] (fst (fst px2)) (snd (fst px2)) (snd px2) psv1.
Proof. apply drive_joint. eapply j_pipeline; [exact pJoint1|]. apply p_run; [intros p; vm_compute; discriminate|exact goodv2]. Qed.
Lemma pJoint : toyJoint pFresh (fun l => l) compat [v2; v1] (fst (fst px2)) (snd (fst px2)) (snd px2) psv2.
Proof. apply j_publish. exact pJoint2. Qed.
Lemma done_path o r : done o r -> In [r; sCompleted] (map fst o).
Proof. intros D. apply plookup_in. exact D. Qed.
(** The channel is one of those of the publisher. *)
Example C84_channel : In compat channels /\ plain compat.
Proof. split; [vm_compute; auto|]. split; vm_compute; intros I; repeat (destruct I as [I|I]; [discriminate I|]); exact I. Qed.
Example C84_example : toyJoint pFresh (fun l => l) compat [v2; v1] (fst (fst px2)) (snd (fst px2)) (snd px2) psv2 /\ allInputs [v2; v1] /\ verifyRecords compat (sv_recs psv2) = Val tt /\
  map (fun r : frec => r_att r) (sv_recs psv2) = [Some (B "20260101-1-compat.filter.delta", dA ++ B "2"); Some (B "20260101-0-compat.filter", dA ++ B "1")] /\
  revokedCert RPriority pRs1 dA (B "1") /\ revokedCert RPriority pRs1 dA (B "2") /\ pReports (sv_recs psv2) (dA ++ B "1") /\ pReports (sv_recs psv2) (dA ++ B "2").
Proof.
  split; [exact pJoint|]. split; [exact pAll|]. split; [vm_compute; reflexivity|]. split; [vm_compute; reflexivity|].
  split; [eexists _, 1%N; split; [left; reflexivity|split; [cbn; auto|vm_compute; auto]]|]. split; [eexists _, 5%N; split; [left; reflexivity|split; [cbn; auto|vm_compute; auto]]|].
  split.
  - exists (nth 1 (chan compat (sv_recs psv2)) pNone), (B "20260101-0-compat.filter"), (dA ++ B "1"), [dA ++ B "1"]. split; [apply nth_In; apply Nat.ltb_lt; vm_compute; reflexivity|]. split; [vm_compute; reflexivity|]. split; vm_compute; reflexivity.
  - exists (nth 0 (chan compat (sv_recs psv2)) pNone), (B "20260101-1-compat.filter.delta"), (dA ++ B "2"), [dA ++ B "2"]. split; [apply nth_In; apply Nat.ltb_lt; vm_compute; reflexivity|]. split; [vm_compute; reflexivity|]. split; vm_compute; reflexivity.
Qed.

(** The exception in [C84_reported] is needed: the deltas of this channel are taken
    from the revoked set of the other one, and so "3" is never reported. *)
Theorem C84_reported_refuted : exists ch ws all st s sv w t ks rs d x, toyJoint pFresh (fun l => l) ch ws all st s sv /\ plain ch /\ c_dir ch = sPriority /\ allInputs ws /\ verifyRecords ch (sv_recs sv) = Val tt /\
  upTo ch (sv_recs sv) k2 /\ In w ws /\ w_tree w = Some t /\ runId k2 (w_today w) 1 /\ inputs t ks rs /\ knownCert ks d x /\ revokedCert RPriority rs d x /\ ~ clientReports (list bytes) toyHas toyFromBytes ch (sv_recs sv) (d ++ x).
Proof.
  exists compat, [v2; v1], (fst (fst px2)), (snd (fst px2)), (snd px2), psv2, v2, (xTree (B "2000") pRs1), zKs, pRs1, dA, (B "3").
  split; [exact pJoint|]. split; [apply C84_channel|]. split; [reflexivity|]. split; [exact pAll|]. split; [vm_compute; reflexivity|]. split; [|split; [left; reflexivity|]; split; [reflexivity|]; split; [|split; [apply pInputs; cbn; auto|]; split; [|split]]].
  - destruct (C84_up_to_date (list bytes) toyHas toyCascade toyClub toyFromBytes (fun l => l) (fun f => f) toyReasons (B "now") toyTime (fun f => Permutation_refl f) pFresh (fun l => l) compat) with (ws := [v2; v1]) (all := fst (fst px2)) (st := snd (fst px2)) (s := snd px2) (sv := psv1) (new := k2) as [v [sv' [E [_ U]]]].
    + intros l I. unfold pFresh in I. assert (G : forall m : list bytes, In (concat m ++ B "x") m -> False).
      { intros m J. assert (LE : forall q, In q m -> length q <= length (concat m)) by (clear; induction m as [|a m IH]; intros q I; [destruct I|]; cbn [concat]; rewrite app_length; destruct I as [->|I]; [lia|specialize (IH q I); lia]).
        specialize (LE _ J). rewrite app_length in LE. cbn in LE. lia. }
      exact (G _ I).
    + intros l. apply Permutation_refl.
    + apply C84_channel.
    + reflexivity.
    + exact pJoint2.
    + vm_compute. reflexivity.
    + vm_compute. discriminate.
    + intros r R D. assert (I : In r [k1; k2]).
      { pose proof (done_path _ _ D) as X.
        assert (A : forallb (fun e => negb (beq (nth 1 e []) sCompleted) || memb (hd [] e) [k1; k2]) (map fst (p_objs (snd px2))) = true) by (vm_compute; reflexivity).
        rewrite forallb_forall in A. specialize (A _ X). cbn [nth hd] in A. rewrite beq_refl in A. cbn [negb orb] in A. apply memb_in in A. exact A. }
      destruct I as [<-|[<-|[]]]; (split; vm_compute; discriminate).
    + assert (EQ : sv' = psv2) by (apply (f_equal snd) in E; symmetry; exact E). rewrite <- EQ. exact U.
  - eexists. repeat split; try reflexivity; discriminate.
  - exists [(100%Z, [B "1"; B "2"]); (200%Z, [B "2"; B "3"])], 200%Z, [B "2"; B "3"]. split; [left; reflexivity|]. split; right; left; reflexivity.
  - eexists _, 1%N. split; [left; reflexivity|split; [cbn; auto|vm_compute; auto]].
  - intros [r [nm [data [f [I [AT [PF HS]]]]]]].
    assert (A : forallb (fun r : frec => match r_att r with Some (_, c) => negb (memb (dA ++ B "3") (chunks (length c) c)) | None => true end) (chan compat (sv_recs psv2)) = true) by (vm_compute; reflexivity).
    rewrite forallb_forall in A. specialize (A r I). rewrite AT in A. injection PF as <-. unfold toyHas in HS. rewrite HS in A. discriminate A.
Qed.
Print Assumptions C84_reported_refuted.
