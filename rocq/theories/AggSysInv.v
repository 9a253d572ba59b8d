(** * The invariant of the workers of aggregate-crls *)
From Verif Require Import Base MerkleModel SerialModel StoreModel StoreProofs AggModel AggProofs AggSystem AggSysProofs.
From Coq Require Import Strings.Byte Permutation.

Section Inv.
  Variable sha256 : bytes -> bytes.
  Variable lower : bytes -> bytes.
  Variable Cert : Type.
  Variable parseCRL : bytes -> option crl.
  Variable checkSig : Cert -> bytes -> bool.

  Notation task := (task Cert).
  Notation fitem := (fitem Cert).
  Notation aitem := (aitem Cert).
  Notation fworker := (fworker Cert).
  Notation aworker := (aworker Cert).
  Notation st := (st Cert).
  Notation crlPath := (crlPath sha256 lower).
  Notation crlValid := (crlValid Cert parseCRL checkSig).
  Notation fetchOne := (fetchOne sha256 lower Cert parseCRL checkSig).
  Notation fetchAll := (fetchAll sha256 lower Cert parseCRL checkSig).
  Notation processAll := (processAll Cert parseCRL checkSig).
  Notation fetchPlan := (fetchPlan sha256 lower Cert parseCRL checkSig).
  Notation t_issuer := (t_issuer Cert).
  Notation t_cert := (t_cert Cert).
  Notation t_urls := (t_urls Cert).
  Notation t_partitioned := (t_partitioned Cert).
  Notation fi_task := (fi_task Cert).
  Notation fi_done := (fi_done Cert).
  Notation fi_cur := (fi_cur Cert).
  Notation fi_rest := (fi_rest Cert).
  Notation ai_task := (ai_task Cert).
  Notation ai_done := (ai_done Cert).
  Notation ai_penvs := (ai_penvs Cert).
  Notation ai_phase := (ai_phase Cert).
  Notation mkF := (mkF Cert).
  Notation mkA := (mkA Cert).
  Notation FIdle := (FIdle Cert).
  Notation FBusy := (FBusy Cert).
  Notation FGone := (FGone Cert).
  Notation AIdle := (AIdle Cert).
  Notation ABusy := (ABusy Cert).
  Notation AGone := (AGone Cert).
  Notation s_phase := (s_phase Cert).
  Notation s_cancelled := (s_cancelled Cert).
  Notation s_queue := (s_queue Cert).
  Notation s_fetch := (s_fetch Cert).
  Notation s_results := (s_results Cert).
  Notation s_agg := (s_agg Cert).
  Notation s_lost := (s_lost Cert).
  Notation s_given := (s_given Cert).
  Notation s_out := (s_out Cert).
  Notation s_disk := (s_disk Cert).
  Notation s_rev := (s_rev Cert).
  Notation s_audit := (s_audit Cert).
  Notation owned := (owned sha256 lower Cert).
  Notation agree := (agree sha256 lower Cert).
  Notation apart := (apart Cert).

  Variable allowedFetch : task -> url -> fetchEnv -> Prop.
  Variable allowedProc : task -> url -> procEnv -> Prop.
  Notation step := (step sha256 lower Cert parseCRL checkSig allowedFetch allowedProc).
  Notation runs := (runs sha256 lower Cert parseCRL checkSig allowedFetch allowedProc).
  Notation fetchMove := (fetchMove sha256 lower Cert parseCRL checkSig allowedFetch).
  Notation aggMove := (aggMove Cert parseCRL checkSig allowedProc).

  Variables (n : nat) (ts : list task) (d0 : disk) (r0 : revDir).
  Hypothesis AP : apart ts.

  (** ** One issuer *)

  Definition base (t : task) (done : list (url * fetchEnv * option bytes)) :=
    fetchAll (t_cert t) (t_issuer t) (map fst done) d0.

  Definition doneUrls (done : list (url * fetchEnv * option bytes)) : list url := map (fun x => fst (fst x)) done.

  Definition okF (d : disk) (i : fitem) : Prop :=
    let t := fi_task i in
    exists db au, base t (fi_done i) = (db, Some (map urlPath (fi_done i)), au) /\
      Forall (fun x => allowedFetch t (fst (fst x)) (snd (fst x))) (fi_done i) /\
      match fi_cur i with
      | None => t_urls t = doneUrls (fi_done i) ++ fi_rest i /\ agree t d db
      | Some c =>
          t_urls t = doneUrls (fi_done i) ++ c_url c :: fi_rest i /\
          allowedFetch t (c_url c) (c_env c) /\ fe_cancelled (c_env c) = false /\
          exists pre, fetchPlan t (c_env c) (c_url c) db = (pre ++ c_todo c, c_path c, c_audit c) /\
            agree t d (play (crlPath (t_issuer t) (c_url c)) pre db)
      end.

  Definition zip (a : aitem) : list (url * option bytes * procEnv) := combine (map urlPath (ai_done a)) (ai_penvs a).
  Definition proc (d : disk) (a : aitem) :=
    processAll (t_cert (ai_task a)) (t_partitioned (ai_task a)) (map (fun x => u_norm (fst (fst x))) (ai_done a)) d (zip a) false [].

  Definition same (r : revDir) (i : bytes) : Prop := alookup i r = alookup i r0.

  Definition okA (d : disk) (r : revDir) (a : aitem) : Prop :=
    let t := ai_task a in let i := t_issuer t in
    Forall (fun x => allowedProc t (fst (fst x)) (snd x) /\ pe_cancelled (snd x) = false) (zip a) /\
    match ai_phase a with
    | AProc f l rest =>
        (exists pre, map urlPath (ai_done a) = pre ++ rest /\ length pre = length (ai_penvs a)) /\
        fst (proc d a) = Some (f, l) /\ same r i
    | AWrite c k => length (ai_penvs a) = length (ai_done a) /\ (k <= length c)%nat /\
        exists l, c = revokedFile l /\ fst (proc d a) = Some (false, l) /\ alookup i r = Some (firstn k c)
    | ADone AgWritten => length (ai_penvs a) = length (ai_done a) /\
        exists l, fst (proc d a) = Some (false, l) /\ alookup i r = Some (revokedFile l)
    | ADone AgIncomplete => length (ai_penvs a) = length (ai_done a) /\
        exists l, fst (proc d a) = Some (true, l) /\ same r i
    | ADone _ => False
    end.

  Inductive item := IF (i : fitem) | IA (a : aitem).
  Definition itask (it : item) : task := match it with IF i => fi_task i | IA a => ai_task a end.
  Definition idone (it : item) := match it with IF i => fi_done i | IA a => ai_done a end.
  Definition toF (a : aitem) : fitem := mkF (ai_task a) (ai_done a) None [].

  Definition okItem (d : disk) (r : revDir) (it : item) : Prop :=
    match it with
    | IF i => okF d i /\ same r (t_issuer (fi_task i))
    | IA a => okF d (toF a) /\ okA d r a
    end.

  Definition tag (t : task) (l : list (url * audit)) : list (bytes * url * audit) :=
    map (fun a => (t_issuer t, fst a, snd a)) l.
  Definition itemAudit (d : disk) (it : item) : list (bytes * url * audit) :=
    tag (itask it) (snd (base (itask it) (idone it))) ++
    match it with IF _ => [] | IA a => tag (ai_task a) (snd (proc d a)) end.

  Lemma zip_owned d a : okF d (toF a) -> forall u p e, In (u, Some p, e) (zip a) -> owned (ai_task a) p.
  Proof using Type.
    intros [db [au [B [_ [U _]]]]] u p e I. cbn [AggSystem.fi_task AggSystem.fi_done AggSystem.fi_rest toF] in *.
    unfold zip in I. apply in_combine_l in I. unfold base in B.
    rewrite (fetchAll_paths _ _ _ _ _ _ _ _ _ _ _ _ B u p I). apply owned_path. rewrite U. apply in_or_app; left.
    apply in_map_iff in I. destruct I as [x [E I]]. unfold urlPath in E. injection E as <- _.
    unfold doneUrls. apply (in_map (fun x => fst (fst x))). exact I.
  Qed.

  Lemma proc_agree d d' a : okF d (toF a) -> agree (ai_task a) d d' -> proc d' a = proc d a.
  Proof using Type.
    intros O A. unfold proc. apply (processAll_agree sha256 lower Cert parseCRL checkSig _ _ _ (ai_task a)).
    - apply agree_sym; exact A.
    - intros u p e I. apply (zip_owned d a O u p e I).
  Qed.

  Lemma okF_agree d d' i : agree (fi_task i) d d' -> okF d i -> okF d' i.
  Proof using Type.
    intros A [db [au [B [F M]]]]. exists db, au. split; [exact B|]. split; [exact F|].
    destruct (fi_cur i) as [c|].
    - destruct M as [U [AL [C [pre [P G]]]]]. split; [exact U|]. split; [exact AL|]. split; [exact C|]. exists pre. split; [exact P|].
      intros q O. rewrite <- (A q O). apply G; exact O.
    - destruct M as [U G]. split; [exact U|]. intros q O. rewrite <- (A q O). apply G; exact O.
  Qed.

  Lemma okItem_stable d d' r r' it : agree (itask it) d d' -> alookup (t_issuer (itask it)) r' = alookup (t_issuer (itask it)) r ->
    okItem d r it -> okItem d' r' it /\ itemAudit d' it = itemAudit d it.
  Proof using Type.
    intros A R. destruct it as [i|a]; cbn [itask] in *; intros O.
    - destruct O as [O S]. split; [|reflexivity]. split; [apply (okF_agree d d' i A O)|]. unfold same in *. congruence.
    - destruct O as [O S]. pose proof (proc_agree d d' a O A) as P. split; [|unfold itemAudit; rewrite P; reflexivity].
      split; [apply (okF_agree d d' (toF a) A O)|]. unfold okA in *. rewrite P. destruct S as [S1 S2]. split; [exact S1|].
      unfold same in *. rewrite R. exact S2.
  Qed.

  (** ** The whole state *)

  Definition fbusy (w : fworker) : list item := match w with AggSystem.FBusy _ i => [IF i] | _ => [] end.
  Definition abusy (w : aworker) : list item := match w with AggSystem.ABusy _ a => [IA a] | _ => [] end.
  Definition waiting (t : task) : item := IF (mkF t [] None (t_urls t)).

  Definition items (s : st) : list item :=
    map waiting (s_queue s) ++ flat_map fbusy (s_fetch s) ++ map IF (s_results s) ++ map IF (s_lost s) ++
    flat_map abusy (s_agg s) ++ map IA (s_given s) ++ map IA (s_out s).

  Record Core (s : st) : Prop := mkCore {
    co_perm : Permutation (map itask (items s)) ts;
    co_ok : Forall (okItem (s_disk s) (s_rev s)) (items s);
    co_disk : forall q, (forall t, In t ts -> ~ owned t q) -> alookup q (s_disk s) = alookup q d0;
    co_rev : forall i, ~ In i (map t_issuer ts) -> same (s_rev s) i;
    co_audit : Permutation (s_audit s) (flat_map (itemAudit (s_disk s)) (items s)) }.

  Lemma flat_map_ext_in {A C} (f g : A -> list C) l : (forall a, In a l -> f a = g a) -> flat_map f l = flat_map g l.
  Proof using Type. induction l as [|x l IH]; intros H; [reflexivity|]. cbn [flat_map]. rewrite (H x), IH; [reflexivity| |left; reflexivity]. intros; apply H; right; assumption. Qed.

  (** One issuer moves on. *)
  Lemma core_change s s' it it' rest au : Core s ->
    Permutation (items s) ([it] ++ rest) -> Permutation (items s') ([it'] ++ rest) -> itask it' = itask it ->
    (forall q, ~ owned (itask it) q -> alookup q (s_disk s') = alookup q (s_disk s)) ->
    (forall i, i <> t_issuer (itask it) -> alookup i (s_rev s') = alookup i (s_rev s)) ->
    (okItem (s_disk s) (s_rev s) it -> okItem (s_disk s') (s_rev s') it' /\
       itemAudit (s_disk s') it' = itemAudit (s_disk s) it ++ au) ->
    s_audit s' = s_audit s ++ au -> Core s'.
  Proof using AP.
    intros [P O D R A] P1 P2 T HD HR HO HA. cbn [app] in P1, P2.
    assert (Q : Permutation (map itask (it :: rest)) ts) by (rewrite <- (Permutation_map itask P1); exact P).
    assert (Ihead : In (itask it) ts) by (eapply Permutation_in; [exact Q|left; reflexivity]).
    assert (NDI : NoDup (map t_issuer (map itask (it :: rest)))).
    { eapply Permutation_NoDup; [apply Permutation_sym, Permutation_map; exact Q|]. apply (proj1 AP). }
    assert (Irest : forall x, In x rest -> In (itask x) ts /\ t_issuer (itask x) <> t_issuer (itask it)).
    { intros x I. split; [eapply Permutation_in; [exact Q|right; apply in_map; exact I]|].
      cbn [map] in NDI. inversion NDI as [|a b N1 N2 E]; subst. intros X. apply N1. rewrite <- X.
      rewrite map_map. apply (in_map (fun x => t_issuer (itask x))). exact I. }
    assert (Ok : Forall (okItem (s_disk s) (s_rev s)) (it :: rest)) by (eapply Permutation_Forall; [exact P1|exact O]).
    inversion Ok as [|a b Ok1 Ok2 E]; subst. destruct (HO Ok1) as [Ok1' Au1].
    assert (St : forall x, In x rest -> okItem (s_disk s') (s_rev s') x /\ itemAudit (s_disk s') x = itemAudit (s_disk s) x).
    { intros x I. destruct (Irest x I) as [I1 I2]. apply (okItem_stable (s_disk s) (s_disk s') (s_rev s)).
      - intros q OQ. symmetry. apply HD. apply (owned_apart sha256 lower Cert (itask x) (itask it)); auto.
        + apply (proj2 AP); exact I1.
        + apply (proj2 AP); exact Ihead.
      - apply HR. exact I2.
      - rewrite Forall_forall in Ok2. apply Ok2; exact I. }
    split.
    - rewrite (Permutation_map itask P2). cbn [map]. rewrite T. exact Q.
    - eapply Permutation_Forall; [apply Permutation_sym; exact P2|]. constructor; [exact Ok1'|].
      apply Forall_forall. intros x I. apply St; exact I.
    - intros q N. rewrite HD; [apply D; exact N|]. apply N. exact Ihead.
    - intros i N. unfold same in *. rewrite HR; [apply R; exact N|]. intros ->. apply N. apply in_map; exact Ihead.
    - rewrite HA. rewrite (Permutation_flat_map (itemAudit (s_disk s')) P2). cbn [flat_map].
      rewrite (flat_map_ext_in _ (itemAudit (s_disk s)) rest) by (intros x I; apply St; exact I).
      rewrite Au1. rewrite A. rewrite (Permutation_flat_map (itemAudit (s_disk s)) P1). cbn [flat_map]. psolve.
  Qed.

  (** Only bookkeeping changes. *)
  Lemma core_same s s' : Core s -> Permutation (items s') (items s) -> s_disk s' = s_disk s -> s_rev s' = s_rev s ->
    s_audit s' = s_audit s -> Core s'.
  Proof using Type.
    intros [P O D R A] PI E1 E2 E3. split; rewrite ?E1, ?E2, ?E3.
    - rewrite (Permutation_map itask PI). exact P.
    - eapply Permutation_Forall; [apply Permutation_sym; exact PI|exact O].
    - exact D.
    - exact R.
    - rewrite (Permutation_flat_map (itemAudit (s_disk s)) PI). exact A.
  Qed.

  Definition finishedF (i : fitem) : Prop := fi_cur i = None /\ fi_rest i = [].

  Record Inv (s : st) : Prop := mkInv {
    iv_core : Core s;
    iv_lost : s_cancelled s = false -> s_lost s = [] /\ s_given s = [];
    iv_queue : s_cancelled s = false -> In FGone (s_fetch s) -> s_queue s = [];
    iv_left : s_cancelled s = false -> In AGone (s_agg s) -> s_results s = [];
    iv_len : length (s_fetch s) = n;
    iv_results : Forall finishedF (s_results s);
    iv_out : Forall (fun a => exists o, ai_phase a = ADone o) (s_out s);
    iv_phase : match s_phase s with
               | Fetching => s_agg s = []
               | Aggregating => Forall (fun w => w = FGone) (s_fetch s) /\ length (s_agg s) = n
               | Ended 0 => s_cancelled s = false ->
                   Forall (fun w => w = FGone) (s_fetch s) /\ Forall (fun w => w = AGone) (s_agg s) /\ length (s_agg s) = n
               | Ended _ => True
               end;
    iv_busy : forall a, In (ABusy a) (s_agg s) -> forall o, ai_phase a <> ADone o }.

  Lemma waiting_task l : map itask (map waiting l) = l.
  Proof using Type. rewrite map_map. cbn [itask waiting AggSystem.fi_task]. apply map_id. Qed.

  Lemma inv_init : Inv (init Cert n ts d0 r0).
  Proof using Type.
    assert (FB : flat_map fbusy (repeat FIdle n) = []) by (induction n as [|k IH]; [reflexivity|exact IH]).
    assert (IT : items (init Cert n ts d0 r0) = map waiting ts).
    { unfold items, init. cbn [AggSystem.s_queue AggSystem.s_fetch AggSystem.s_results AggSystem.s_lost AggSystem.s_agg AggSystem.s_given AggSystem.s_out map flat_map].
      rewrite FB. cbn [app]. apply app_nil_r. }
    split; cbn [init AggSystem.s_cancelled AggSystem.s_lost AggSystem.s_given AggSystem.s_fetch AggSystem.s_queue AggSystem.s_agg AggSystem.s_results AggSystem.s_out AggSystem.s_phase]; auto.
    - split; rewrite ?IT.
      + rewrite waiting_task. reflexivity.
      + apply Forall_forall. intros x I. apply in_map_iff in I. destruct I as [t [<- _]]. split; [|reflexivity].
        exists d0, []. split; [reflexivity|]. split; [constructor|]. split; [reflexivity|]. apply agree_refl.
      + reflexivity.
      + reflexivity.
      + cbn [AggSystem.s_audit init]. rewrite flat_map_concat_map, map_map.
        clear. induction ts as [|t l IH]; [constructor|]. cbn [map concat]. exact IH.
    - intros _ I. apply repeat_spec in I. discriminate.
    - apply repeat_length.
  Qed.

  (** *** Moves of a fetch worker *)

  Lemma fetch_item s i w' sent lost d au : fetchMove s i w' sent lost d au ->
    exists it', fbusy w' ++ map IF sent ++ map IF lost = [it'] /\ itask it' = fi_task i /\
      (forall q, ~ owned (fi_task i) q -> okF (s_disk s) i -> alookup q d = alookup q (s_disk s)) /\
      (okItem (s_disk s) (s_rev s) (IF i) -> okItem d (s_rev s) it' /\ itemAudit d it' = itemAudit (s_disk s) (IF i) ++ au) /\
      (sent <> [] -> Forall finishedF sent) /\ (s_cancelled s = false -> lost = [] /\ w' <> FGone).
  Proof using Type.
    intros M. inversion M; subst.
    - exists (IF (mkF t done None (u :: rest))). split; [reflexivity|]. split; [reflexivity|]. split; [reflexivity|].
      split; [intros O; split; [exact O|rewrite app_nil_r; reflexivity]|]. split; [congruence|]. intros X. congruence.
    - eexists. split; [reflexivity|]. split; [reflexivity|]. split; [reflexivity|].
      split; [|split; [congruence|intros _; split; [reflexivity|discriminate]]].
      intros [[db [aB [B [F [U G]]]]] S]. cbn [AggSystem.fi_task AggSystem.fi_done AggSystem.fi_cur AggSystem.fi_rest] in *.
      split; [|rewrite app_nil_r; reflexivity]. split; [|exact S].
      exists db, aB. split; [exact B|]. split; [exact F|]. cbn [AggSystem.fi_cur c_url c_env c_todo c_path c_audit].
      split; [exact U|]. split; [assumption|]. split; [assumption|]. exists []. split.
      + cbn [app]. match goal with H : AggSystem.fetchPlan _ _ _ _ _ _ _ _ _ = _ |- _ => rewrite <- H end. symmetry. apply plan_agree; [|exact G].
        cbn [AggSystem.fi_task AggSystem.fi_rest] in *. rewrite U. apply in_or_app; right; left; reflexivity.
      + cbn [play fold_left]. exact G.
    - eexists. split; [reflexivity|]. split; [reflexivity|]. cbn [AggSystem.fi_task]. split.
      { intros q N [db [aB [B [F [U _]]]]]. cbn [AggSystem.fi_task AggSystem.fi_done AggSystem.fi_cur AggSystem.fi_rest c_url] in *.
        assert (IU : In u (t_urls t)) by (rewrite U; apply in_or_app; right; left; reflexivity).
        apply putFs_other; intros ->; apply N; [apply owned_path|apply owned_tmp]; exact IU. }
      split; [|split; [congruence|intros _; split; [reflexivity|discriminate]]].
      intros [[db [aB [B [F [U [AL [C [pre [P G]]]]]]]]] S].
      cbn [AggSystem.fi_task AggSystem.fi_done AggSystem.fi_cur AggSystem.fi_rest c_url c_env c_todo c_path c_audit] in *.
      split; [|rewrite app_nil_r; reflexivity]. split; [|exact S]. exists db, aB. split; [exact B|]. split; [exact F|].
      cbn [AggSystem.fi_task AggSystem.fi_done AggSystem.fi_cur AggSystem.fi_rest c_url c_env c_todo c_path c_audit].
      split; [exact U|]. split; [exact AL|]. split; [exact C|]. exists (pre ++ [x]). split; [rewrite <- app_assoc; exact P|].
      rewrite play_app. cbn [play fold_left]. apply putFs_agree. exact G.
    - eexists. split; [reflexivity|]. split; [reflexivity|]. split; [reflexivity|].
      split; [|split; [congruence|intros _; split; [reflexivity|discriminate]]].
      intros [[db [aB [B [F [U [AL [C [pre [P G]]]]]]]]] S].
      cbn [AggSystem.fi_task AggSystem.fi_done AggSystem.fi_cur AggSystem.fi_rest c_url c_env c_todo c_path c_audit] in *.
      rewrite app_nil_r in P. destruct (plan_one _ _ _ _ _ _ _ _ _ _ _ _ P) as [d1 [O E]].
      assert (B' : base t (done ++ [(u, e, p)]) = (d1, Some (map urlPath (done ++ [(u, e, p)])), aB ++ map (fun a => (u, a)) au0)).
      { unfold base in *. rewrite !map_app. cbn [map fst urlPath snd]. eapply fetchAll_snoc; [exact B|exact C|exact O]. }
      split.
      + split; [|exact S]. exists d1, (aB ++ map (fun a => (u, a)) au0). cbn [AggSystem.fi_task AggSystem.fi_done AggSystem.fi_cur AggSystem.fi_rest].
        split; [exact B'|]. split; [apply Forall_app; split; [exact F|constructor; [exact AL|constructor]]|].
        split; [unfold doneUrls in *; rewrite map_app, <- app_assoc; exact U|].
        intros q OQ. rewrite (G q OQ). apply E.
      + unfold itemAudit. cbn [itask idone AggSystem.fi_task AggSystem.fi_done]. rewrite B, B'. cbn [snd]. rewrite !app_nil_r.
        unfold tag, audited. rewrite map_app. f_equal. rewrite map_map. reflexivity.
    - eexists. split; [reflexivity|]. split; [reflexivity|]. split; [reflexivity|].
      split; [intros O; split; [exact O|rewrite app_nil_r; reflexivity]|].
      split; [intros _; constructor; [split; reflexivity|constructor]|intros _; split; [reflexivity|discriminate]].
  Qed.

  (** *** Moves of an aggregation worker *)

  Lemma combine_snoc {A C} : forall (l : list A) (m : list C) pre x rest y, l = pre ++ x :: rest -> length pre = length m ->
    combine l (m ++ [y]) = combine l m ++ [(x, y)].
  Proof using Type.
    induction l as [|a l IH]; intros m pre x rest y E L; [destruct pre; discriminate|].
    destruct pre as [|b pre], m as [|c m]; try discriminate; cbn [app combine] in *.
    - injection E as <- _. destruct l; reflexivity.
    - injection E as <- E. injection L as L. cbn [app]. f_equal. apply (IH m pre x rest y E L).
  Qed.

  Lemma agg_item s a w' given out r au : aggMove s a w' given out r au ->
    exists it', abusy w' ++ map IA given ++ map IA out = [it'] /\ itask it' = ai_task a /\
      (forall i, i <> t_issuer (ai_task a) -> alookup i r = alookup i (s_rev s)) /\
      (okItem (s_disk s) (s_rev s) (IA a) -> okItem (s_disk s) r it' /\ itemAudit (s_disk s) it' = itemAudit (s_disk s) (IA a) ++ au) /\
      Forall (fun a => exists o, ai_phase a = ADone o) out /\ (s_cancelled s = false -> given = [] /\ w' <> AGone) /\
      (forall a', w' = ABusy a' -> forall o, ai_phase a' <> ADone o).
  Proof using Type.
    intros M. inversion M; subst.
    - eexists. split; [reflexivity|]. split; [reflexivity|]. split; [reflexivity|].
      split; [intros O; split; [exact O|rewrite app_nil_r; reflexivity]|]. split; [constructor|]. split; [intros X; congruence|]. intros a' X; discriminate X.
    - eexists. split; [reflexivity|]. split; [reflexivity|]. split; [reflexivity|].
      split; [|split; [constructor|split; [intros _; split; [reflexivity|discriminate]|intros a' X; injection X as <-; discriminate]]].
      intros [OF [FA [[pre [E L]] [P S]]]].
      cbn [AggSystem.ai_task AggSystem.ai_done AggSystem.ai_penvs AggSystem.ai_phase] in *.
      assert (Z : zip (mkA t done (pes ++ [pe]) (AProc f' l' rest)) = zip (mkA t done pes (AProc f l ((u, p) :: rest))) ++ [(u, p, pe)]).
      { unfold zip. cbn [AggSystem.ai_done AggSystem.ai_penvs]. apply (combine_snoc _ _ pre _ rest); assumption. }
      assert (PP : proc (s_disk s) (mkA t done (pes ++ [pe]) (AProc f' l' rest)) =
                   (Some (f', l'), snd (proc (s_disk s) (mkA t done pes (AProc f l ((u, p) :: rest)))) ++ au0)).
      { destruct (proc (s_disk s) (mkA t done pes (AProc f l ((u, p) :: rest)))) as [rr aa] eqn:PE. cbn [fst] in P. subst rr.
        unfold proc in *. cbn [AggSystem.ai_task AggSystem.ai_done] in *. rewrite Z. erewrite processAll_app by exact PE.
        match goal with H : AggModel.processAll _ _ _ _ _ _ _ _ _ _ = _ |- _ => rewrite H end. reflexivity. }
      split.
      + split; [exact OF|]. unfold okA. rewrite Z, PP. cbn [AggSystem.ai_task AggSystem.ai_done AggSystem.ai_penvs AggSystem.ai_phase fst].
        split; [apply Forall_app; split; [exact FA|constructor; [split; assumption|constructor]]|].
        split; [exists (pre ++ [(u, p)]); rewrite <- app_assoc, !app_length; split; [exact E|cbn; congruence]|].
        split; [reflexivity|exact S].
      + unfold itemAudit. cbn [itask idone AggSystem.ai_task AggSystem.ai_done]. rewrite PP. cbn [snd]. rewrite <- app_assoc. f_equal.
        unfold tag. rewrite map_app. reflexivity.
    - eexists. split; [reflexivity|]. split; [reflexivity|]. split; [reflexivity|].
      split; [|split; [constructor; [eexists; reflexivity|constructor]|split; [intros _; split; [reflexivity|discriminate]|intros a' X; discriminate X]]].
      intros [OF [FA [[pre [E L]] [P S]]]]. split; [|rewrite app_nil_r; reflexivity].
      cbn [AggSystem.ai_task AggSystem.ai_done AggSystem.ai_penvs AggSystem.ai_phase] in *.
      split; [exact OF|]. split; [exact FA|]. cbn [AggSystem.ai_task AggSystem.ai_done AggSystem.ai_penvs AggSystem.ai_phase].
      rewrite app_nil_r in E. split; [rewrite <- L, <- E, map_length; reflexivity|]. exists l. split; [exact P|exact S].
    - eexists. split; [reflexivity|]. split; [reflexivity|]. split; [intros i N; apply alookup_aset_other; exact N|].
      split; [|split; [constructor|split; [intros _; split; [reflexivity|discriminate]|intros a' X; injection X as <-; discriminate]]].
      intros [OF [FA [[pre [E L]] [P S]]]]. split; [|rewrite app_nil_r; reflexivity].
      cbn [AggSystem.ai_task AggSystem.ai_done AggSystem.ai_penvs AggSystem.ai_phase] in *.
      split; [exact OF|]. split; [exact FA|]. cbn [AggSystem.ai_task AggSystem.ai_done AggSystem.ai_penvs AggSystem.ai_phase].
      rewrite app_nil_r in E. split; [rewrite <- L, <- E, map_length; reflexivity|]. split; [lia|].
      exists l. split; [reflexivity|]. split; [exact P|]. rewrite alookup_aset_same. reflexivity.
    - eexists. split; [reflexivity|]. split; [reflexivity|]. split; [intros i N; apply alookup_aset_other; exact N|].
      split; [|split; [constructor|split; [intros _; split; [reflexivity|discriminate]|intros a' X; injection X as <-; discriminate]]].
      intros [OF [FA [L [K [l [E [P S]]]]]]]. split; [|rewrite app_nil_r; reflexivity].
      split; [exact OF|]. split; [exact FA|]. cbn [AggSystem.ai_task AggSystem.ai_done AggSystem.ai_penvs AggSystem.ai_phase] in *.
      split; [exact L|]. split; [lia|]. exists l. split; [exact E|]. split; [exact P|]. apply alookup_aset_same.
    - eexists. split; [reflexivity|]. split; [reflexivity|]. split; [reflexivity|].
      split; [|split; [constructor; [eexists; reflexivity|constructor]|split; [intros _; split; [reflexivity|discriminate]|intros a' X; discriminate X]]].
      intros [OF [FA [L [K [l [E [P S]]]]]]]. split; [|rewrite app_nil_r; reflexivity].
      split; [exact OF|]. split; [exact FA|]. cbn [AggSystem.ai_task AggSystem.ai_done AggSystem.ai_penvs AggSystem.ai_phase] in *.
      split; [exact L|]. exists l. split; [exact P|]. rewrite S, firstn_all, E. reflexivity.
  Qed.
  Ltac norm := unfold items, setFetch, setAgg, setPhase in *;
    cbn [AggSystem.s_phase AggSystem.s_cancelled AggSystem.s_queue AggSystem.s_fetch AggSystem.s_results AggSystem.s_agg
         AggSystem.s_lost AggSystem.s_given AggSystem.s_out AggSystem.s_disk AggSystem.s_rev AggSystem.s_saved AggSystem.s_audit] in *.

  Lemma in_mid {A} (x y z : A) w1 w2 : In x (w1 ++ z :: w2) -> x <> z -> In x (w1 ++ y :: w2).
  Proof using Type.
    intros I N. apply in_app_or in I. apply in_or_app. destruct I as [I|[I|I]]; [left; exact I|congruence|right; right; exact I].
  Qed.

  Lemma fetch_split w1 i w2 : flat_map fbusy (w1 ++ FBusy i :: w2) = flat_map fbusy w1 ++ [IF i] ++ flat_map fbusy w2.
  Proof using Type. rewrite flat_map_app. reflexivity. Qed.

  Lemma inv_step s s' : Inv s -> step s s' -> Inv s'.
  Proof using AP.
    intros I ST. destruct I as [CO LO QU LE LN RE OU PH BU]. inversion ST; subst.
    - (* signal *)
      split; norm; try discriminate; auto.
      + apply (core_same s); [exact CO|reflexivity|reflexivity|reflexivity|reflexivity].
      + destruct (s_phase s) as [| |[|c]]; try exact PH; discriminate.
    - (* take *)
      match goal with H : s_fetch s = _, H1 : s_queue s = _ |- _ => rename H into EF; rename H1 into EQ end.
      split; norm; auto.
      + apply (core_same s); [exact CO| | | |norm; apply app_nil_r]; try reflexivity. norm. rewrite EF, EQ, fetch_split.
        rewrite (flat_map_app fbusy w1 (FIdle :: w2)). change (flat_map fbusy (FIdle :: w2)) with (flat_map fbusy w2).
        change (map waiting (t :: q)) with ([waiting t] ++ map waiting q). change [IF (mkF t [] None (t_urls t))] with [waiting t]. psolve.
      + intros C J. exfalso. rewrite EF in QU. rewrite EQ in QU.
        assert (X : In FGone (w1 ++ FIdle :: w2)) by (apply (in_mid _ _ (FBusy (mkF t [] None (t_urls t)))); [exact J|discriminate]).
        specialize (QU C X). discriminate.
      + rewrite <- LN, EF, !app_length. reflexivity.
      + destruct (s_phase s) as [| |[|c]]; try discriminate. exact PH.
    - (* leave *)
      match goal with H : s_fetch s = _, H1 : s_queue s = _ |- _ => rename H into EF; rename H1 into EQ end.
      split; norm; auto.
      + apply (core_same s); [exact CO| | | |norm; apply app_nil_r]; try reflexivity. norm. rewrite EF, EQ, !flat_map_app. cbn [flat_map fbusy map app]. reflexivity.
      + rewrite <- LN, EF, !app_length. reflexivity.
      + destruct (s_phase s) as [| |[|c]]; try discriminate. exact PH.
    - (* fetch *)
      match goal with H : s_fetch s = _, H1 : AggSystem.fetchMove _ _ _ _ _ _ _ _ _ _ _ _ _ |- _ => rename H into EF; rename H1 into M end.
      destruct (fetch_item _ _ _ _ _ _ _ M) as [it' [EI [T [HD [HO [HS HL]]]]]].
      assert (OKI : okF (s_disk s) i).
      { pose proof (co_ok s CO) as F. rewrite Forall_forall in F. apply (F (IF i)). norm. rewrite EF, fetch_split.
        apply in_or_app; right. apply in_or_app; left. apply in_or_app; right. left; reflexivity. }
      split; norm; auto.
      + apply (core_change s _ (IF i) it'
          (map waiting (s_queue s) ++ flat_map fbusy w1 ++ flat_map fbusy w2 ++ map IF (s_results s) ++ map IF (s_lost s) ++
           flat_map abusy (s_agg s) ++ map IA (s_given s) ++ map IA (s_out s)) au); auto.
        * norm. rewrite EF, fetch_split. psolve.
        * norm. rewrite flat_map_app, !map_app. cbn [flat_map]. rewrite <- EI. psolve.
      + intros C. destruct (HL C) as [-> _]. destruct (LO C) as [-> ->]. auto.
      + intros C J. destruct (HL C) as [_ N]. apply QU; [exact C|]. rewrite EF. apply (in_mid _ _ w'); [exact J|congruence].
      + intros C J. exfalso. destruct (s_phase s) as [| |[|c]]; try discriminate. rewrite PH in J. destruct J.
      + rewrite <- LN, EF, !app_length. reflexivity.
      + apply Forall_app. split; [exact RE|]. destruct sent; [constructor|]. apply HS. discriminate.
      + destruct (s_phase s) as [| |[|c]]; try discriminate. exact PH.
    - (* fetched *)
      match goal with H : s_phase s = _ |- _ => rewrite H in PH end.
      assert (AI : forall l : list fworker, flat_map abusy (map (fun _ => AIdle) l) = []) by (induction l as [|x l IH]; [reflexivity|exact IH]).
      split; norm; auto.
      + apply (core_same s); [exact CO| | | |]; try reflexivity. norm. rewrite PH, AI. reflexivity.
      + intros C J. apply in_map_iff in J. destruct J as [x [J _]]. discriminate.
      + split; [assumption|]. rewrite map_length. exact LN.
      + intros a J. apply in_map_iff in J. destruct J as [x [J _]]. discriminate.
    - (* stopped *)
      match goal with H : s_phase s = _ |- _ => rewrite H in PH end.
      split; norm; auto.
      + apply (core_same s); [exact CO| | | |]; try reflexivity. norm. rewrite PH. reflexivity.
      + intros C []. 
      + intros C. congruence.
    - (* agg take *)
      match goal with H : s_agg s = _, H1 : s_results s = _, H2 : s_phase s = _ |- _ => rename H into EA; rename H1 into ER; rewrite H2 in * end.
      destruct PH as [PF PL]. rewrite ER in RE. inversion RE as [|x y RE1 RE2 EE]; subst.
      split; norm; auto.
      + apply (core_change s _ (IF (mkF t done None [])) (IA (mkA t done [] (AProc false [] (map urlPath done))))
          (map waiting (s_queue s) ++ flat_map fbusy (s_fetch s) ++ map IF rs ++ map IF (s_lost s) ++
           flat_map abusy w1 ++ flat_map abusy w2 ++ map IA (s_given s) ++ map IA (s_out s)) []); auto.
        * norm. rewrite EA, ER. rewrite flat_map_app. cbn [flat_map]. change (abusy AIdle) with (@nil item). rewrite app_nil_l.
          change (map IF (mkF t done None [] :: rs)) with ([IF (mkF t done None [])] ++ map IF rs). psolve.
        * norm. rewrite flat_map_app. cbn [flat_map].
          change (abusy (ABusy (mkA t done [] (AProc false [] (map urlPath done))))) with [IA (mkA t done [] (AProc false [] (map urlPath done)))]. psolve.
        * norm. intros [OF S]. split.
          -- split; [exact OF|]. split; [unfold zip; cbn [AggSystem.ai_done AggSystem.ai_penvs]; rewrite combine_nil; constructor|].
             cbn [AggSystem.ai_done AggSystem.ai_penvs AggSystem.ai_phase AggSystem.ai_task]. split; [exists []; split; reflexivity|].
             split; [|exact S]. unfold proc, zip. cbn [AggSystem.ai_done AggSystem.ai_penvs]. rewrite combine_nil. reflexivity.
          -- unfold itemAudit, proc, zip. cbn [itask idone AggSystem.ai_done AggSystem.ai_task AggSystem.ai_penvs AggSystem.fi_task AggSystem.fi_done].
             rewrite combine_nil. cbn [AggModel.processAll snd tag map]. rewrite !app_nil_r. reflexivity.
      + intros C J. exfalso. rewrite ER, EA in LE.
        assert (X : In AGone (w1 ++ AIdle :: w2)) by (eapply in_mid; [exact J|discriminate]).
        specialize (LE C X). discriminate.
      + match goal with H : s_phase s = _ |- _ => rewrite H end. split; [exact PF|]. rewrite <- PL, EA, !app_length. reflexivity.
      + intros a J. rewrite EA in BU. apply in_app_or in J. destruct J as [J|[J|J]].
        * apply BU. apply in_or_app; left; exact J.
        * injection J as <-. discriminate.
        * apply BU. apply in_or_app; right; right; exact J.
    - (* agg leave *)
      match goal with H : s_agg s = _, H1 : s_results s = _, H2 : s_phase s = _ |- _ => rename H into EA; rename H1 into ER; rewrite H2 in * end.
      destruct PH as [PF PL].
      split; norm; auto.
      + apply (core_same s); [exact CO| | | |norm; apply app_nil_r]; try reflexivity. norm. rewrite EA, ER, !flat_map_app. cbn [flat_map abusy map app]. reflexivity.
      + match goal with H : s_phase s = _ |- _ => rewrite H end. split; [exact PF|]. rewrite <- PL, EA, !app_length. reflexivity.
      + intros a J. apply BU. rewrite EA. apply (in_mid _ _ AGone); [exact J|discriminate].
    - (* agg *)
      match goal with H : s_agg s = _, H1 : AggSystem.aggMove _ _ _ _ _ _ _ _ _ _ _, H2 : s_phase s = _ |- _ => rename H into EA; rename H1 into M; rewrite H2 in * end.
      destruct PH as [PF PL]. destruct (agg_item _ _ _ _ _ _ _ M) as [it' [EI [T [HR [HO [HS [HL HB]]]]]]].
      split; norm; auto.
      + apply (core_change s _ (IA i) it'
          (map waiting (s_queue s) ++ flat_map fbusy (s_fetch s) ++ map IF (s_results s) ++ map IF (s_lost s) ++
           flat_map abusy w1 ++ flat_map abusy w2 ++ map IA (s_given s) ++ map IA (s_out s)) au); auto.
        * norm. rewrite EA, flat_map_app. cbn [flat_map]. change (abusy (ABusy i)) with [IA i]. psolve.
        * norm. rewrite flat_map_app, !map_app. cbn [flat_map]. rewrite <- EI. psolve.
      + intros C. destruct (HL C) as [-> _]. destruct (LO C) as [-> ->]. auto.
      + intros C J. destruct (HL C) as [_ N]. apply LE; [exact C|]. rewrite EA. apply (in_mid _ _ w'); [exact J|congruence].
      + apply Forall_app. split; assumption.
      + match goal with H : s_phase s = _ |- _ => rewrite H end. split; [exact PF|]. rewrite <- PL, EA, !app_length. reflexivity.
      + intros a J. rewrite EA in BU. apply in_app_or in J. destruct J as [J|[J|J]].
        * apply BU. apply in_or_app; left; exact J.
        * apply HB. exact J.
        * apply BU. apply in_or_app; right; right; exact J.
    - (* fatal *)
      split; norm; auto. apply (core_same s); [exact CO| | | |]; reflexivity.
    - (* save *)
      match goal with H2 : s_phase s = _ |- _ => rewrite H2 in * end. destruct PH as [PF PL].
      split; norm; auto. apply (core_same s); [exact CO| | | |]; reflexivity.
    - split; norm; auto. apply (core_same s); [exact CO| | | |]; reflexivity.
  Qed.

  Lemma inv_runs s : runs (init Cert n ts d0 r0) s -> Inv s.
  Proof using AP.
    intros R. remember (init Cert n ts d0 r0) as s0 eqn:E. induction R as [s|s1 s2 s3 R IH ST]; subst.
    - apply inv_init.
    - apply (inv_step s2); [apply IH; reflexivity|exact ST].
  Qed.
End Inv.
