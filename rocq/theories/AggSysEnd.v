(** * What the invariant of the workers of aggregate-crls says about a run *)
From Verif Require Import Base MerkleModel SerialModel StoreModel StoreProofs AggModel AggProofs AggSystem AggSysProofs AggSysInv.
From Coq Require Import Strings.Byte Permutation.

Section End_.
  Variable sha256 : bytes -> bytes.
  Variable lower : bytes -> bytes.
  Variable Cert : Type.
  Variable parseCRL : bytes -> option crl.
  Variable checkSig : Cert -> bytes -> bool.

  Notation task := (task Cert).
  Notation fitem := (fitem Cert).
  Notation aitem := (aitem Cert).
  Notation fworker := (fworker Cert).
  Notation aworker := (aworker Cert).
  Notation st := (st Cert).
  Notation crlPath := (crlPath sha256 lower).
  Notation crlValid := (crlValid Cert parseCRL checkSig).
  Notation fetchOne := (fetchOne sha256 lower Cert parseCRL checkSig).
  Notation fetchAll := (fetchAll sha256 lower Cert parseCRL checkSig).
  Notation processAll := (processAll Cert parseCRL checkSig).
  Notation fetchPlan := (fetchPlan sha256 lower Cert parseCRL checkSig).
  Notation t_issuer := (t_issuer Cert).
  Notation t_cert := (t_cert Cert).
  Notation t_urls := (t_urls Cert).
  Notation t_partitioned := (t_partitioned Cert).
  Notation fi_task := (fi_task Cert).
  Notation fi_done := (fi_done Cert).
  Notation fi_cur := (fi_cur Cert).
  Notation fi_rest := (fi_rest Cert).
  Notation ai_task := (ai_task Cert).
  Notation ai_done := (ai_done Cert).
  Notation ai_penvs := (ai_penvs Cert).
  Notation ai_phase := (ai_phase Cert).
  Notation mkF := (mkF Cert).
  Notation mkA := (mkA Cert).
  Notation FIdle := (FIdle Cert).
  Notation FBusy := (FBusy Cert).
  Notation FGone := (FGone Cert).
  Notation AIdle := (AIdle Cert).
  Notation ABusy := (ABusy Cert).
  Notation AGone := (AGone Cert).
  Notation s_phase := (s_phase Cert).
  Notation s_cancelled := (s_cancelled Cert).
  Notation s_queue := (s_queue Cert).
  Notation s_fetch := (s_fetch Cert).
  Notation s_results := (s_results Cert).
  Notation s_agg := (s_agg Cert).
  Notation s_lost := (s_lost Cert).
  Notation s_given := (s_given Cert).
  Notation s_out := (s_out Cert).
  Notation s_disk := (s_disk Cert).
  Notation s_rev := (s_rev Cert).
  Notation s_audit := (s_audit Cert).
  Notation owned := (owned sha256 lower Cert).
  Notation agree := (agree sha256 lower Cert).
  Notation apart := (apart Cert).

  Variable allowedFetch : task -> url -> fetchEnv -> Prop.
  Variable allowedProc : task -> url -> procEnv -> Prop.
  Notation step := (step sha256 lower Cert parseCRL checkSig allowedFetch allowedProc).
  Notation runs := (runs sha256 lower Cert parseCRL checkSig allowedFetch allowedProc).
  Notation fetchMove := (fetchMove sha256 lower Cert parseCRL checkSig allowedFetch).
  Notation aggMove := (aggMove Cert parseCRL checkSig allowedProc).

  Variables (n : nat) (ts : list task) (d0 : disk) (r0 : revDir).
  Hypothesis AP : apart ts.


  Notation Inv := (Inv sha256 lower Cert parseCRL checkSig allowedFetch allowedProc n ts d0 r0).
  Notation Core := (Core sha256 lower Cert parseCRL checkSig allowedFetch allowedProc ts d0 r0).
  Notation okItem := (okItem sha256 lower Cert parseCRL checkSig allowedFetch allowedProc d0 r0).
  Notation okF := (okF sha256 lower Cert parseCRL checkSig allowedFetch d0).
  Notation okA := (okA Cert parseCRL checkSig allowedProc r0).
  Notation base := (base sha256 lower Cert parseCRL checkSig d0).
  Notation proc := (proc Cert parseCRL checkSig).
  Notation items := (items Cert).
  Notation itask := (itask Cert).
  Notation IA := (IA Cert).
  Notation IF := (IF Cert).
  Notation toF := (toF Cert).
  Notation itemAudit := (itemAudit sha256 lower Cert parseCRL checkSig d0).
  Notation safeAt := (safeAt Cert parseCRL checkSig).
  Notation job := (job Cert).
  Notation jobTask := (jobTask Cert).
  Notation jobFetch := (jobFetch sha256 lower Cert parseCRL checkSig).
  Notation jobProc := (jobProc Cert parseCRL checkSig).
  Notation aggregateCrls := (aggregateCrls sha256 lower Cert parseCRL checkSig).

  (** ** Safety at every moment *)

  Lemma task_item s t : Core s -> In t ts -> exists it, In it (items s) /\ itask it = t /\ okItem (s_disk s) (s_rev s) it.
  Proof using Type.
    intros C I. apply (Permutation_in _ (Permutation_sym (co_perm _ _ _ _ _ _ _ _ _ _ _ C))) in I.
    apply in_map_iff in I. destruct I as [it [E I]]. exists it. split; [exact I|]. split; [exact E|].
    pose proof (co_ok _ _ _ _ _ _ _ _ _ _ _ C) as F. rewrite Forall_forall in F. apply F; exact I.
  Qed.

  Lemma okF_safe d i u : okF d i -> In u (t_urls (fi_task i)) ->
    safeAt (fi_task i) d0 d (crlPath (t_issuer (fi_task i)) u).
  Proof using Type.
    intros [db [au [B [_ M]]]] IU. set (t := fi_task i) in *. set (q := crlPath (t_issuer t) u).
    pose proof (fetchAll_safe sha256 lower Cert parseCRL checkSig t u _ _ _ _ _ B) as S. fold q in S.
    assert (O : owned t q) by (apply owned_path; exact IU).
    destruct (fi_cur i) as [c|].
    - destruct M as [U [_ [_ [pre [P G]]]]].
      assert (N : q <> tmpOf (crlPath (t_issuer t) (c_url c))) by (intros X; symmetry in X; apply (tmp_not_path _ _ _ _ _ _ X)).
      destruct (play_safe _ _ _ _ _ _ _ _ _ _ _ _ _ _ _ P eq_refl N) as [X|[f [X V]]]; rewrite <- (G q O) in X.
      + destruct S as [S|[f [S V]]]; [left; congruence|right; exists f; split; [congruence|exact V]].
      + right. exists f. auto.
    - destruct M as [_ G]. destruct S as [S|[f [S V]]]; rewrite <- (G q O) in S; [left; exact S|right; exists f; auto].
  Qed.

  Lemma item_okF d r it : okItem d r it -> okF d (match it with AggSysInv.IF _ i => i | AggSysInv.IA _ a => toF a end).
  Proof using Type. destruct it; intros [O _]; exact O. Qed.

  Lemma always_safe s t u : Inv s -> In t ts -> In u (t_urls t) -> safeAt t d0 (s_disk s) (crlPath (t_issuer t) u).
  Proof using Type.
    intros I T U. destruct (task_item s t (iv_core _ _ _ _ _ _ _ _ _ _ _ _ I) T) as [it [_ [E O]]].
    apply item_okF in O. subst t. destruct it as [i|a]; cbn [AggSysInv.itask] in *; apply (okF_safe _ _ _ O U).
  Qed.

  (** What a revocation file holds at any moment: what it held before, or the
      beginning of the entries of all CRLs of the issuer. *)
  Lemma okA_file d r a : okF d (toF a) -> okA d r a ->
    alookup (t_issuer (ai_task a)) r = alookup (t_issuer (ai_task a)) r0 \/
    exists ls k, Forall2 (contributes Cert parseCRL checkSig (t_cert (ai_task a)) d) (map snd (map urlPath (ai_done a))) ls /\
      alookup (t_issuer (ai_task a)) r = Some (firstn k (revokedFile (concat ls))) /\
      (forall o, ai_phase a = ADone o -> k = length (revokedFile (concat ls))).
  Proof using Type.
    intros OF [_ M]. set (t := ai_task a) in *.
    assert (G : forall l, length (ai_penvs a) = length (ai_done a) -> fst (proc d a) = Some (false, l) ->
               exists ls, Forall2 (contributes Cert parseCRL checkSig (t_cert t) d) (map snd (map urlPath (ai_done a))) ls /\ l = concat ls).
    { intros l L P. unfold AggSysInv.proc in P.
      destruct (processAll _ _ _ d _ false []) as [rr au] eqn:E. cbn [fst] in P. subst rr.
      destruct (processAll_spec _ _ _ _ _ _ _ _ _ _ _ _ E) as [X _]. destruct (X eq_refl) as [_ [ls [F ES]]]. cbn [snd app] in ES.
      exists ls. split; [|exact ES].
      assert (Z : map (fun x : url * option bytes * procEnv => snd (fst x)) (zip Cert a) = map snd (map urlPath (ai_done a))).
      { unfold AggSysInv.zip. assert (LE : length (map urlPath (ai_done a)) = length (ai_penvs a)) by (rewrite map_length; congruence).
        clear -LE. revert LE. generalize (map urlPath (ai_done a)) as l1, (ai_penvs a) as l2.
        induction l1 as [|x l1 IH]; intros [|y l2] LE; try discriminate; [reflexivity|]. cbn [combine map fst]. f_equal. apply IH. injection LE as LE. exact LE. }
      rewrite <- Z. exact F. }
    destruct (ai_phase a) as [f l rest|c k|[]].
    - destruct M as [_ [_ S]]. left. exact S.
    - destruct M as [L [K [l [E [P S]]]]]. destruct (G l L P) as [ls [F EL]]. right. exists ls, k. split; [exact F|]. split; [|discriminate].
      rewrite S, E, EL. reflexivity.
    - destruct M as [L [l [P S]]]. destruct (G l L P) as [ls [F EL]]. right. exists ls, (length (revokedFile (concat ls))).
      split; [exact F|]. split; [|reflexivity]. rewrite S, firstn_all, EL. reflexivity.
    - destruct M as [_ [l [_ S]]]. left. exact S.
    - destruct M.
    - destruct M.
  Qed.

  Lemma always_rev s t : Inv s -> In t ts ->
    alookup (t_issuer t) (s_rev s) = alookup (t_issuer t) r0 \/
    exists ls k, Forall2 (fun u l => contributes Cert parseCRL checkSig (t_cert t) (s_disk s) (Some (crlPath (t_issuer t) u)) l) (t_urls t) ls /\
      alookup (t_issuer t) (s_rev s) = Some (firstn k (revokedFile (concat ls))).
  Proof using Type.
    intros I T. destruct (task_item s t (iv_core _ _ _ _ _ _ _ _ _ _ _ _ I) T) as [it [_ [E O]]]. subst t.
    destruct it as [i|a]; cbn [AggSysInv.itask] in *; destruct O as [OF O]; [left; exact O|].
    destruct (okA_file _ _ _ OF O) as [S|[ls [k [F [S _]]]]]; [left; exact S|]. right. exists ls, k. split; [|exact S].
    destruct OF as [db [au [B [_ [U _]]]]]. cbn [AggSysInv.toF AggSystem.fi_task AggSystem.fi_done AggSystem.fi_rest] in *.
    rewrite U, app_nil_r. unfold doneUrls.
    assert (P : forall u p, In (u, Some p) (map urlPath (ai_done a)) -> p = crlPath (t_issuer (ai_task a)) u)
      by (intros u p J; apply (fetchAll_paths _ _ _ _ _ _ _ _ _ _ _ _ B u p J)).
    clear -F P. revert ls F P. induction (ai_done a) as [|x l IH]; intros ls F P; inversion F as [|y z ly lz C1 C2 E1 E2]; subst; constructor.
    - destruct C1 as [path [f [c [E1 C]]]]. cbn [snd urlPath] in E1. exists path, f, c. split; [|exact C]. f_equal. symmetry. apply P. left.
      unfold urlPath. rewrite E1. reflexivity.
    - apply IH; [exact C2|]. intros u p J. apply P. right; exact J.
  Qed.

  (** ** A run that ends well is a run one after the other *)

  Definition jobOf (a : aitem) : job :=
    mkJob (t_issuer (ai_task a)) (t_cert (ai_task a)) (t_partitioned (ai_task a)) (map fst (ai_done a)) (ai_penvs a) None.

  Lemma jobOf_task d a : okF d (toF a) -> jobTask (jobOf a) = ai_task a.
  Proof using Type.
    intros [db [au [_ [_ [U _]]]]]. cbn [AggSysInv.toF AggSystem.fi_task AggSystem.fi_done AggSystem.fi_rest] in U.
    rewrite app_nil_r in U. unfold AggSysProofs.jobTask, jobOf. cbn [j_issuer j_cert j_partitioned j_urls].
    rewrite map_map. fold (doneUrls (ai_done a)). rewrite <- U. destruct (ai_task a). reflexivity.
  Qed.

  Lemma withProc_combine : forall (l : list (url * option bytes)) ps, length ps = length l -> withProc l ps = combine l ps.
  Proof using Type.
    induction l as [|x l IH]; intros [|y ps] L; try discriminate; [reflexivity|]. cbn [withProc combine hd tl]. f_equal. apply IH.
    injection L as L. exact L.
  Qed.

  Lemma flat_map_split {A C} (f g : A -> list C) : forall l, Permutation (flat_map (fun a => f a ++ g a) l) (flat_map f l ++ flat_map g l).
  Proof using Type.
    induction l as [|x l IH]; [constructor|]. cbn [flat_map].
    apply (perm_trans (l' := (f x ++ g x) ++ flat_map f l ++ flat_map g l)); [apply Permutation_app_head; exact IH|]. psolve.
  Qed.

  Lemma ended_items s : Inv s -> (0 < n)%nat -> s_phase s = Ended 0 -> s_cancelled s = false -> items s = map IA (s_out s).
  Proof using Type.
    intros I N PH C. destruct I as [CO LO QU LE LN RE OU P _]. rewrite PH in P. destruct (P C) as [PF [PA PL]].
    destruct (LO C) as [EL EG].
    assert (Q : s_queue s = []).
    { apply QU; [exact C|]. destruct (s_fetch s) as [|w l]; [cbn in LN; lia|]. inversion PF; subst. left; reflexivity. }
    assert (R : s_results s = []).
    { apply LE; [exact C|]. destruct (s_agg s) as [|w l]; [cbn in PL; lia|]. inversion PA; subst. left; reflexivity. }
    assert (FB : flat_map (fbusy Cert) (s_fetch s) = []).
    { clear -PF. induction PF as [|w l -> _ IH]; [reflexivity|exact IH]. }
    assert (AB : flat_map (abusy Cert) (s_agg s) = []).
    { clear -PA. induction PA as [|w l -> _ IH]; [reflexivity|exact IH]. }
    unfold AggSysInv.items. rewrite Q, R, FB, AB, EL, EG. reflexivity.
  Qed.

  Theorem sequential s : Inv s -> (0 < n)%nat -> s_phase s = Ended 0 -> s_cancelled s = false ->
    exists js d' r' os au, map jobTask js = ts /\ aggregateCrls js d0 r0 = (d', r', os, au) /\
      (forall q, alookup q (s_disk s) = alookup q d') /\ (forall i, alookup i (s_rev s) = alookup i r') /\
      Permutation (s_audit s) au /\
      Forall (fun x => snd x = AgWritten \/ snd x = AgIncomplete) os /\
      (forall j, In j js -> j_storeErr j = None /\ length (j_proc j) = length (j_urls j) /\
         (forall u e, In (u, e) (j_urls j) -> allowedFetch (jobTask j) u e) /\
         (forall u pe, In (u, pe) (combine (map fst (j_urls j)) (j_proc j)) -> allowedProc (jobTask j) u pe /\ pe_cancelled pe = false)).
  Proof using AP.
    intros I N PH C. pose proof (ended_items s I N PH C) as EI. pose proof (iv_out _ _ _ _ _ _ _ _ _ _ _ _ I) as OUT.
    destruct I as [CO _ _ _ _ _ _ _ _]. destruct CO as [CP CK CD CR CA]. rewrite EI in CP, CK, CA.
    rewrite map_map in CP. cbn [AggSysInv.itask] in CP.
    destruct (Permutation_map_inv _ _ (Permutation_sym CP)) as [outs [ET PO]].
    assert (OK : forall a, In a outs -> okF (s_disk s) (toF a) /\ okA (s_disk s) (s_rev s) a /\ exists o, ai_phase a = ADone o).
    { intros a J. apply (Permutation_in _ (Permutation_sym PO)) in J. rewrite Forall_forall in CK, OUT.
      destruct (CK (IA a) (in_map IA _ _ J)) as [K1 K2]. split; [exact K1|]. split; [exact K2|]. apply OUT; exact J. }
    assert (LEN : forall a, In a outs -> length (ai_penvs a) = length (ai_done a) /\ exists f l,
              fst (proc (s_disk s) a) = Some (f, l) /\
              alookup (t_issuer (ai_task a)) (s_rev s) = if f then alookup (t_issuer (ai_task a)) r0 else Some (revokedFile l)).
    { intros a J. destruct (OK a J) as [_ [[_ K] [o E]]]. rewrite E in K. destruct o; try destruct K as [K1 [l [K2 K3]]]; try contradiction K.
      - split; [exact K1|]. exists false, l. auto.
      - split; [exact K1|]. exists true, l. auto. }
    set (js := map jobOf outs).
    assert (TS : map jobTask js = ts).
    { rewrite ET. unfold js. rewrite map_map. apply map_ext_in. intros a J. apply (jobOf_task (s_disk s)). apply OK; exact J. }
    assert (BASE : forall a, In a outs -> exists db au, jobFetch d0 (jobOf a) = (db, Some (map urlPath (ai_done a)), au) /\
                     jobFetch d0 (jobOf a) = base (ai_task a) (ai_done a) /\ agree (ai_task a) (s_disk s) db).
    { intros a J. destruct (OK a J) as [[db [au [B [_ [_ G]]]]] _]. cbn [AggSysInv.toF AggSystem.fi_task AggSystem.fi_done] in *.
      exists db, au. split; [exact B|]. split; [reflexivity|exact G]. }
    destruct (fetchJobs_each sha256 lower Cert parseCRL checkSig js d0 d0) as [d' [ls [F [ML [LL [AG OT]]]]]].
    { rewrite TS. exact AP. }
    { intros j _. apply agree_refl. }
    { intros j J. unfold js in J. apply in_map_iff in J. destruct J as [a [<- J]]. destruct (BASE a J) as [db [au [-> _]]]. discriminate. }
    assert (AGR : forall a, In a outs -> agree (ai_task a) (s_disk s) d').
    { intros a J. destruct (BASE a J) as [db [au [B1 [_ G]]]]. pose proof (AG (jobOf a) (in_map jobOf _ _ J)) as X. rewrite B1 in X. cbn [fst] in X.
      rewrite (jobOf_task (s_disk s)) in X by (apply OK; exact J). eapply agree_trans; [exact G|]. apply agree_sym. exact X. }
    assert (ELS : ls = map (fun a => (jobOf a, map urlPath (ai_done a))) outs).
    { assert (X : forall l0 : list (job * list (url * option bytes)),
        (forall j l, In (j, l) l0 -> l = match snd (fst (jobFetch d0 j)) with Some l => l | None => [] end) ->
        l0 = map (fun j => (j, match snd (fst (jobFetch d0 j)) with Some l => l | None => [] end)) (map fst l0)).
      { clear. induction l0 as [|[j l] l0 IH]; intros H; [reflexivity|]. cbn [map fst]. rewrite <- (H j l (or_introl eq_refl)). f_equal.
        apply IH. intros j' l' J. apply H. right; exact J. }
      rewrite (X ls); [|intros j l J; rewrite (LL j l J); reflexivity]. rewrite ML. unfold js. rewrite map_map. apply map_ext_in.
      intros a J. destruct (BASE a J) as [db [au [-> _]]]. reflexivity. }
    assert (PROC : forall a, In a outs -> jobProc d' (jobOf a) (map urlPath (ai_done a)) = proc (s_disk s) a).
    { intros a J. rewrite <- (proc_agree sha256 lower Cert parseCRL checkSig allowedFetch d0 (s_disk s) d' a); [|apply OK; exact J|apply AGR; exact J].
      unfold AggSysProofs.jobProc, AggSysInv.proc, AggSysProofs.known, AggSysInv.zip, jobOf. cbn [j_cert j_partitioned j_proc].
      rewrite map_map. cbn [fst urlPath]. rewrite withProc_combine; [reflexivity|]. rewrite map_length. apply LEN; exact J. }
    destruct (aggregateJobs_each Cert parseCRL checkSig ls d' r0) as [r' [os [A [MO [GR OR]]]]].
    { rewrite <- (map_map fst j_issuer), ML. rewrite <- (map_map jobTask t_issuer js) || idtac.
      assert (X : map j_issuer js = map t_issuer ts) by (rewrite <- TS, map_map; reflexivity). rewrite X. apply (proj1 AP). }
    { intros j l J. rewrite ELS in J. apply in_map_iff in J. destruct J as [a [E J]]. injection E as <- <-. split; [reflexivity|].
      rewrite (PROC a J). destruct (LEN a J) as [_ [f [l [P _]]]]. exists f, l. exact P. }
    exists js, d', r', os. eexists. split; [exact TS|]. split; [unfold AggModel.aggregateCrls; rewrite F, A; reflexivity|].
    split.
    { intros q. destruct (Exists_dec (fun t => owned t q) ts (fun t => owned_dec sha256 lower Cert t q)) as [E|E].
      - apply Exists_exists in E. destruct E as [t [J O]]. rewrite ET in J. apply in_map_iff in J. destruct J as [a [<- J]]. apply (AGR a J). exact O.
      - assert (U : forall t, In t ts -> ~ owned t q) by (intros t J O; apply E; apply Exists_exists; exists t; auto).
        rewrite (CD q U). symmetry. apply OT. intros j J. apply U. rewrite <- TS. apply in_map; exact J. }
    assert (MI : map (fun x : job * list (url * option bytes) => j_issuer (fst x)) ls = map t_issuer ts).
    { rewrite ELS, ET, !map_map. reflexivity. }
    split.
    { intros i. destruct (in_dec bytes_eq_dec i (map t_issuer ts)) as [J|J].
      - rewrite ET, map_map in J. apply in_map_iff in J. destruct J as [a [<- J]]. destruct (LEN a J) as [_ [f [l [P E]]]]. rewrite E.
        assert (JL : In (jobOf a, map urlPath (ai_done a)) ls) by (rewrite ELS; apply (in_map (fun a => (jobOf a, map urlPath (ai_done a)))); exact J).
        rewrite <- (PROC a J) in P. destruct (GR _ _ _ _ JL P) as [_ G]. symmetry. exact G.
      - rewrite (CR i J). symmetry. apply OR. rewrite MI. exact J. }
    split.
    { rewrite CA. rewrite (Permutation_flat_map _ (Permutation_map IA PO)).
      rewrite ELS. unfold js. rewrite !flat_map_concat_map, !map_map, <- !flat_map_concat_map.
      rewrite (flat_map_ext_in _ (fun a => jobAudit sha256 lower Cert parseCRL checkSig d0 (jobOf a) ++
               map (fun x => (j_issuer (fst (jobOf a, map urlPath (ai_done a))), fst x, snd x))
                 (snd (jobProc d' (fst (jobOf a, map urlPath (ai_done a))) (snd (jobOf a, map urlPath (ai_done a)))))) outs).
      - apply flat_map_split.
      - intros a J. unfold AggSysInv.itemAudit, tag. cbn [AggSysInv.itask AggSysInv.idone fst snd]. rewrite (PROC a J). reflexivity. }
    split.
    { apply Forall_forall. intros [i o] J.
      assert (J' : In i (map fst os)) by (apply (in_map fst) in J; exact J). rewrite MO, ELS, map_map in J'.
      apply in_map_iff in J'. destruct J' as [a [E J']]. cbn [fst jobOf j_issuer] in E.
      destruct (LEN a J') as [_ [f [l [P _]]]]. rewrite <- (PROC a J') in P.
      assert (JL : In (jobOf a, map urlPath (ai_done a)) ls) by (rewrite ELS; apply (in_map (fun a => (jobOf a, map urlPath (ai_done a)))); exact J').
      destruct (GR _ _ _ _ JL P) as [G _]. cbn [jobOf j_issuer] in G. rewrite E in G.
      assert (ND : NoDup (map fst os)) by (rewrite MO, MI; apply (proj1 AP)).
      assert (EO : o = outcome f).
      { clear -ND J G. induction os as [|[i' o'] os IH]; [destruct J|]. cbn [map fst] in ND. inversion ND as [|x y N1 N2 E]; subst.
        destruct J as [J|J], G as [G|G].
        - congruence.
        - injection J as -> ->. exfalso. apply N1. apply (in_map fst) in G. exact G.
        - injection G as -> ->. exfalso. apply N1. apply (in_map fst) in J. exact J.
        - apply IH; assumption. }
      cbn [snd]. subst o. destruct f; [right|left]; reflexivity. }
    intros j J. unfold js in J. apply in_map_iff in J. destruct J as [a [<- J]]. destruct (LEN a J) as [L _]. destruct (OK a J) as [OF [OA _]].
    rewrite (jobOf_task (s_disk s)) by exact OF. cbn [jobOf j_storeErr j_proc j_urls].
    split; [reflexivity|]. split; [rewrite map_length; exact L|]. split.
    - destruct OF as [db [au [_ [FA _]]]]. cbn [AggSysInv.toF AggSystem.fi_task AggSystem.fi_done] in FA. rewrite Forall_forall in FA.
      intros u e K. apply in_map_iff in K. destruct K as [[[u' e'] p] [E K]]. injection E as -> ->. apply (FA _ K).
    - destruct OA as [FA _]. intros u pe K. rewrite Forall_forall in FA.
      assert (Z : exists p, In (u, p, pe) (zip Cert a)).
      { unfold AggSysInv.zip. clear -K. revert K. generalize (ai_penvs a) as l2. induction (ai_done a) as [|x l IH]; intros [|y l2] K; try (destruct K; fail).
        cbn [map combine] in *. destruct K as [K|K].
        - injection K as <- <-. exists (snd x). left. reflexivity.
        - destruct (IH l2 K) as [p Q]. exists p. right; exact Q. }
      destruct Z as [p Z]. apply (FA _ Z).
  Qed.
End End_.
