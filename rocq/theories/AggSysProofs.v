(** * Facts about the workers of aggregate-crls: they do not get in each other's way *)
From Verif Require Import Base MerkleModel SerialModel StoreModel StoreProofs AggModel AggProofs AggSystem.
From Coq Require Import Strings.Byte Permutation.

(** ** Permutations of appended lists *)

Ltac rotate := match goal with |- Permutation _ (?y ++ ?r) =>
  apply (perm_trans (l' := r ++ y)); [|apply Permutation_app_comm]; rewrite <- ?app_assoc end.
Ltac psolve := rewrite <- ?app_assoc; do 80 (first [reflexivity|apply Permutation_app_head|rotate]).

Lemma cons_app {A} (x : A) l : x :: l = [x] ++ l.
Proof. reflexivity. Qed.

Section Proofs.
  Variable sha256 : bytes -> bytes.
  Variable lower : bytes -> bytes.
  Variable Cert : Type.
  Variable parseCRL : bytes -> option crl.
  Variable checkSig : Cert -> bytes -> bool.

  Notation task := (task Cert).
  Notation fitem := (fitem Cert).
  Notation aitem := (aitem Cert).
  Notation fworker := (fworker Cert).
  Notation aworker := (aworker Cert).
  Notation st := (st Cert).
  Notation crlPath := (crlPath sha256 lower).
  Notation crlValid := (crlValid Cert parseCRL checkSig).
  Notation loadCRL := (loadCRL Cert parseCRL checkSig).
  Notation fetchOne := (fetchOne sha256 lower Cert parseCRL checkSig).
  Notation fetchAll := (fetchAll sha256 lower Cert parseCRL checkSig).
  Notation processAll := (processAll Cert parseCRL checkSig).
  Notation fetchJobs := (fetchJobs sha256 lower Cert parseCRL checkSig).
  Notation aggregateJobs := (aggregateJobs Cert parseCRL checkSig).
  Notation aggregateCrls := (aggregateCrls sha256 lower Cert parseCRL checkSig).
  Notation fetchPlan := (fetchPlan sha256 lower Cert parseCRL checkSig).
  Notation t_issuer := (t_issuer Cert).
  Notation t_cert := (t_cert Cert).
  Notation t_urls := (t_urls Cert).
  Notation t_partitioned := (t_partitioned Cert).
  Notation job := (job Cert).

  (** ** Files of an issuer *)

  Definition files (i : bytes) (us : list url) : list bytes :=
    flat_map (fun u => [crlPath i u; tmpOf (crlPath i u)]) us.
  Definition owned (t : task) (q : bytes) : Prop := In q (files (t_issuer t) (t_urls t)).

  Lemma owned_inv t q : owned t q -> exists u, In u (t_urls t) /\ (q = crlPath (t_issuer t) u \/ q = tmpOf (crlPath (t_issuer t) u)).
  Proof using Type.
    intros H. apply in_flat_map in H. destruct H as [u [I [H|[H|[]]]]]; exists u; auto.
  Qed.
  Lemma owned_path t u : In u (t_urls t) -> owned t (crlPath (t_issuer t) u).
  Proof using Type. intros I. apply in_flat_map. exists u. split; [exact I|left; reflexivity]. Qed.
  Lemma owned_tmp t u : In u (t_urls t) -> owned t (tmpOf (crlPath (t_issuer t) u)).
  Proof using Type. intros I. apply in_flat_map. exists u. split; [exact I|right; left; reflexivity]. Qed.
  Lemma owned_dec t q : {owned t q} + {~ owned t q}.
  Proof using Type. apply (in_dec bytes_eq_dec). Qed.

  Lemma owned_apart t t' q : ~ In slash (t_issuer t) -> ~ In slash (t_issuer t') -> t_issuer t <> t_issuer t' ->
    owned t q -> ~ owned t' q.
  Proof using Type.
    intros N N' D O O'. apply owned_inv in O. apply owned_inv in O'.
    destruct O as [u [_ [E|E]]], O' as [u' [_ [E'|E']]]; subst q.
    - apply crlPath_cut in E'; tauto.
    - symmetry in E'. apply (tmp_not_path _ _ _ _ _ _ E').
    - apply (tmp_not_path _ _ _ _ _ _ E').
    - apply tmp_cut in E'; tauto.
  Qed.

  Definition agree (t : task) (d d' : disk) : Prop := forall q, owned t q -> alookup q d = alookup q d'.

  Lemma agree_refl t d : agree t d d. Proof using Type. intros q _. reflexivity. Qed.
  Lemma agree_sym t d d' : agree t d d' -> agree t d' d. Proof using Type. intros H q O. symmetry. apply H; exact O. Qed.
  Lemma agree_trans t d d' d2 : agree t d d' -> agree t d' d2 -> agree t d d2.
  Proof using Type. intros H H' q O. rewrite H by exact O. apply H'; exact O. Qed.

  Lemma alookup_putFs p s d q : alookup q (putFs p s d) =
    if beq q p then fs_final s else if beq q (tmpOf p) then fs_tmp s else alookup q d.
  Proof using Type. unfold putFs. rewrite !alookup_put. reflexivity. Qed.

  Lemma putFs_agree t p s d d' : agree t d d' -> agree t (putFs p s d) (putFs p s d').
  Proof using Type. intros H q O. rewrite !alookup_putFs. destruct (beq q p); [reflexivity|]. destruct (beq q (tmpOf p)); auto. Qed.

  Lemma putFs_other p s d q : q <> p -> q <> tmpOf p -> alookup q (putFs p s d) = alookup q d.
  Proof using Type. intros H H'. rewrite alookup_putFs. rewrite (proj2 (beq_neq q p) H), (proj2 (beq_neq q (tmpOf p)) H'). reflexivity. Qed.

  (** ** The plan of a download does what [fetchOne] does *)

  Definition play (p : bytes) (tr : list fs) (d : disk) : disk := fold_left (fun d s => putFs p s d) tr d.

  Lemma play_app p tr tr' d : play p (tr ++ tr') d = play p tr' (play p tr d).
  Proof using Type. apply fold_left_app. Qed.
  Lemma play_agree t p : forall tr d d', agree t d d' -> agree t (play p tr d) (play p tr d').
  Proof using Type. induction tr as [|x tr IH]; intros d d' H; cbn [play fold_left]; [exact H|]. apply IH. apply putFs_agree; exact H. Qed.
  Lemma play_other p q : q <> p -> q <> tmpOf p -> forall tr d, alookup q (play p tr d) = alookup q d.
  Proof using Type.
    intros H H'. induction tr as [|x tr IH]; intros d; [reflexivity|].
    change (alookup q (play p tr (putFs p x d)) = alookup q d). rewrite IH. apply putFs_other; assumption.
  Qed.
  Lemma play_last p s tr d q : alookup q (play p (tr ++ [s]) d) = alookup q (putFs p s d).
  Proof using Type.
    rewrite play_app. change (alookup q (putFs p s (play p tr d)) = alookup q (putFs p s d)). rewrite !alookup_putFs.
    destruct (beq_spec q p); [reflexivity|]. destruct (beq_spec q (tmpOf p)); [reflexivity|].
    apply play_other; assumption.
  Qed.

  Lemma dv_last valid n e s tr s' ok err au : downloadAndVerify valid n e s = (tr, s', ok, err, au) -> exists pre, tr = pre ++ [s'].
  Proof using Type.
    unfold downloadAndVerify. destruct (downloadFileSync n (dv_attempts e) (fs_tmp s)) as [[tr0 t] dlOk]. cbv zeta.
    destruct (negb dlOk); [intros H; injection H as <- <- _ _ _; eexists; reflexivity|].
    destruct (negb (isValid valid (dv_tmpReadErr e) t)); [intros H; injection H as <- <- _ _ _; eexists; reflexivity|].
    destruct (dv_renameErr e); [intros H; injection H as <- <- _ _ _; eexists; reflexivity|].
    intros H; injection H as <- <- _ _ _.
    exists (map (fun t0 : option file => mkFS t0 (fs_final s)) tr0 ++ [mkFS None t]). rewrite <- app_assoc. reflexivity.
  Qed.

  Lemma plan_one t e u d tr p au : fetchPlan t e u d = (tr, p, au) ->
    exists d1, fetchOne (t_cert t) (t_issuer t) e u d = (d1, p, au) /\
      forall q, alookup q (play (crlPath (t_issuer t) u) tr d) = alookup q d1.
  Proof using Type.
    unfold AggSystem.fetchPlan, AggModel.fetchOne. destruct (fe_mkdirErr e).
    { intros H. injection H as <- <- <-. exists d. split; reflexivity. }
    cbv zeta. set (path := crlPath (t_issuer t) u).
    destruct (downloadAndVerify _ _ _ _) as [[[[tr0 s] ok] err] au0] eqn:D. apply dv_last in D. destruct D as [pre ->].
    assert (E : forall q, alookup q (play path (pre ++ [s]) d) =
                 alookup q (put path (fs_final s) (put (tmpOf path) (fs_tmp s) d))).
    { intros q. rewrite play_last. reflexivity. }
    destruct (negb ok); [intros H; injection H as <- <- <-; eexists; split; [reflexivity|exact E]|].
    destruct (fs_final s) as [f|]; [|intros H; injection H as <- <- <-; eexists; split; [reflexivity|exact E]].
    destruct (fe_statErr e); intros H; injection H as <- <- <-; eexists; (split; [reflexivity|exact E]).
  Qed.

  Lemma plan_agree t e u d d' : In u (t_urls t) -> agree t d d' -> fetchPlan t e u d = fetchPlan t e u d'.
  Proof using Type.
    intros I A. unfold AggSystem.fetchPlan. rewrite (A _ (owned_tmp _ _ I)), (A _ (owned_path _ _ I)). reflexivity.
  Qed.

  (** Every state on the way keeps the final file or replaces it by a CRL that verifies. *)
  Lemma plan_states t e u d tr p au : fetchPlan t e u d = (tr, p, au) ->
    forall x, In x tr -> fs_final x = alookup (crlPath (t_issuer t) u) d \/
      exists f, fs_final x = Some f /\ crlValid (t_cert t) (f_data f) = true.
  Proof using Type.
    unfold AggSystem.fetchPlan. destruct (fe_mkdirErr e); [intros H; injection H as <- _ _; intros x []|]. cbv zeta.
    pose proof (dv_spec (crlValid (t_cert t)) 3 (fe_dv e)
      (mkFS (alookup (tmpOf (crlPath (t_issuer t) u)) d) (alookup (crlPath (t_issuer t) u) d))) as S.
    destruct (downloadAndVerify _ _ _ _) as [[[[tr0 s] ok] err] au0]. destruct S as [S _].
    assert (G : forall x, In x tr0 -> fs_final x = alookup (crlPath (t_issuer t) u) d \/
      exists f, fs_final x = Some f /\ crlValid (t_cert t) (f_data f) = true) by exact S.
    destruct (negb ok); [intros H; injection H as <- _ _; exact G|].
    destruct (fs_final s) as [f|]; [|intros H; injection H as <- _ _; exact G].
    destruct (fe_statErr e); intros H; injection H as <- _ _; exact G.
  Qed.

  Lemma fetchOne_agree t e u d d' : In u (t_urls t) -> agree t d d' ->
    let '(d1, p, au) := fetchOne (t_cert t) (t_issuer t) e u d in
    let '(d1', p', au') := fetchOne (t_cert t) (t_issuer t) e u d' in
    p = p' /\ au = au' /\ agree t d1 d1'.
  Proof using Type.
    intros I A. destruct (fetchPlan t e u d) as [[tr p] au] eqn:P.
    assert (P' : fetchPlan t e u d' = (tr, p, au)) by (rewrite <- P; symmetry; apply plan_agree; assumption).
    destruct (plan_one _ _ _ _ _ _ _ P) as [d1 [-> E]]. destruct (plan_one _ _ _ _ _ _ _ P') as [d1' [-> E']].
    split; [reflexivity|]. split; [reflexivity|]. intros q O. rewrite <- E, <- E'. exact (play_agree t _ tr d d' A q O).
  Qed.

  Lemma fetchAll_agree t : forall us d d', (forall u e, In (u, e) us -> In u (t_urls t)) -> agree t d d' ->
    let '(d1, r, au) := fetchAll (t_cert t) (t_issuer t) us d in
    let '(d1', r', au') := fetchAll (t_cert t) (t_issuer t) us d' in
    r = r' /\ au = au' /\ agree t d1 d1'.
  Proof using Type.
    induction us as [|[u e] us IH]; intros d d' I A; cbn [AggModel.fetchAll]; [auto|].
    destruct (fe_cancelled e); [auto|].
    pose proof (fetchOne_agree t e u d d' (I u e (or_introl eq_refl)) A) as O.
    destruct (fetchOne _ _ e u d) as [[d1 p] au]. destruct (fetchOne _ _ e u d') as [[d1' p'] au'].
    destruct O as [<- [<- A1]].
    specialize (IH d1 d1' (fun u0 e0 X => I u0 e0 (or_intror X)) A1).
    destruct (fetchAll _ _ us d1) as [[d2 r] au2]. destruct (fetchAll _ _ us d1') as [[d2' r'] au2'].
    destruct IH as [<- [<- A2]]. auto.
  Qed.

  Lemma fetchAll_snoc cert i us u e d d1 l au d2 p au2 : fetchAll cert i us d = (d1, Some l, au) -> fe_cancelled e = false ->
    fetchOne cert i e u d1 = (d2, p, au2) ->
    fetchAll cert i (us ++ [(u, e)]) d = (d2, Some (l ++ [(u, p)]), au ++ map (fun a => (u, a)) au2).
  Proof using Type.
    revert d l au. induction us as [|[u0 e0] us IH]; intros d l au H C O; cbn [AggModel.fetchAll app] in *.
    - injection H as -> <- <-. rewrite C, O. cbn [app]. rewrite app_nil_r. reflexivity.
    - destruct (fe_cancelled e0); [discriminate|]. destruct (fetchOne cert i e0 u0 d) as [[d3 p3] au3].
      destruct (fetchAll cert i us d3) as [[d4 r4] au4] eqn:F. destruct r4 as [l4|]; [|discriminate].
      injection H as -> <- <-. rewrite (IH _ _ _ F C O). cbn [app]. rewrite app_assoc. reflexivity.
  Qed.

  Lemma fetchAll_other t us d q : (forall u e, In (u, e) us -> In u (t_urls t)) -> ~ owned t q ->
    alookup q (fst (fst (fetchAll (t_cert t) (t_issuer t) us d))) = alookup q d.
  Proof using Type.
    intros I N. apply fetchAll_frame. intros [u [e [J [E|E]]]]; apply N; subst q; [apply owned_path|apply owned_tmp]; eapply I; exact J.
  Qed.

  (** The final files after fetching: as before, or a CRL that verifies. *)
  Definition safeAt (t : task) (d0 d : disk) (q : bytes) : Prop :=
    alookup q d = alookup q d0 \/ exists f, alookup q d = Some f /\ crlValid (t_cert t) (f_data f) = true.

  Lemma play_safe t e u d tr p au pre todo q : fetchPlan t e u d = (tr, p, au) -> tr = pre ++ todo ->
    q <> tmpOf (crlPath (t_issuer t) u) ->
    safeAt t d (play (crlPath (t_issuer t) u) pre d) q.
  Proof using Type.
    intros P E N. destruct pre as [|x pre'] using rev_ind; [left; reflexivity|]. clear IHpre'.
    unfold safeAt. rewrite play_last, alookup_putFs. destruct (beq_spec q (crlPath (t_issuer t) u)) as [->|Q].
    - apply (plan_states _ _ _ _ _ _ _ P). rewrite E. apply in_or_app; left. apply in_or_app; right; left; reflexivity.
    - rewrite (proj2 (beq_neq _ _) N). left; reflexivity.
  Qed.

  Lemma fetchAll_safe t v : forall us d d' r au,
    fetchAll (t_cert t) (t_issuer t) us d = (d', r, au) -> safeAt t d d' (crlPath (t_issuer t) v).
  Proof using Type.
    induction us as [|[u e] us IH]; intros d d' r au H; cbn [AggModel.fetchAll] in H.
    - injection H as <- _ _. left; reflexivity.
    - destruct (fe_cancelled e); [injection H as <- _ _; left; reflexivity|].
      destruct (fetchPlan t e u d) as [[tr p] au0] eqn:P. destruct (plan_one _ _ _ _ _ _ _ P) as [d1 [O E]]. rewrite O in H.
      destruct (fetchAll _ _ us d1) as [[d2 r2] au2] eqn:F. injection H as <- _ _.
      destruct (IH _ _ _ _ F) as [X|X]; [|right; exact X].
      assert (N : crlPath (t_issuer t) v <> tmpOf (crlPath (t_issuer t) u))
        by (intros Y; symmetry in Y; apply (tmp_not_path _ _ _ _ _ _ Y)).
      destruct (play_safe t e u d tr p au0 tr [] _ P (eq_sym (app_nil_r _)) N) as [S|[f [S V]]]; rewrite E in S.
      + left. congruence.
      + right. exists f. split; [congruence|exact V].
  Qed.

  (** ** Processing *)

  Lemma processAll_agree cert part known t d d' : agree t d d' -> forall ps failed serials,
    (forall u p e, In (u, Some p, e) ps -> owned t p) ->
    processAll cert part known d ps failed serials = processAll cert part known d' ps failed serials.
  Proof using Type.
    intros A. induction ps as [|[[u p] e] ps IH]; intros failed serials O; cbn [AggModel.processAll]; [reflexivity|].
    destruct (pe_cancelled e); [reflexivity|].
    assert (IH' : forall f s, processAll cert part known d ps f s = processAll cert part known d' ps f s)
      by (intros; apply IH; intros u0 p0 e0 I0; apply (O u0 p0 e0); right; exact I0).
    destruct p as [path|]; [|rewrite IH'; reflexivity].
    rewrite (A path (O u path e (or_introl eq_refl))).
    destruct (match alookup path d' with Some f => _ | None => _ end) as [c|]; [|rewrite IH'; reflexivity].
    destruct (processCRL c) as [[|x l]|]; rewrite IH'; reflexivity.
  Qed.

  Lemma processAll_app cert part known d : forall ps ps' f l f1 l1 au1,
    processAll cert part known d ps f l = (Some (f1, l1), au1) ->
    processAll cert part known d (ps ++ ps') f l =
      (fst (processAll cert part known d ps' f1 l1), au1 ++ snd (processAll cert part known d ps' f1 l1)).
  Proof using Type.
    induction ps as [|[[u p] e] ps IH]; intros ps' f l f1 l1 au1 H; cbn [AggModel.processAll app] in *.
    - injection H as <- <- <-. destruct (processAll cert part known d ps' f l). reflexivity.
    - destruct (pe_cancelled e); [discriminate|].
      assert (G : forall f' l' a', (let '(r, au2) := processAll cert part known d ps f' l' in (r, map (fun a : audit => (u, a)) a' ++ au2)) = (Some (f1, l1), au1) ->
        (let '(r, au2) := processAll cert part known d (ps ++ ps') f' l' in (r, map (fun a : audit => (u, a)) a' ++ au2)) =
        (fst (processAll cert part known d ps' f1 l1), au1 ++ snd (processAll cert part known d ps' f1 l1))).
      { intros f' l' a' E. destruct (processAll cert part known d ps f' l') as [r0 au2] eqn:E2. injection E as -> <-.
        rewrite (IH ps' _ _ _ _ _ E2). rewrite app_assoc. reflexivity. }
      destruct p as [path|]; [|apply G; exact H].
      destruct (match alookup path d with Some g => _ | None => _ end) as [c|]; [|apply G; exact H].
      destruct (processCRL c) as [[|x l0]|]; apply G; exact H.
  Qed.

  (** ** The run one after the other, file by file *)

  Definition jobTask (j : job) : task := mkTask Cert (j_issuer j) (j_cert j) (j_partitioned j) (map fst (j_urls j)).

  Definition jobFetch (d : disk) (j : job) := fetchAll (j_cert j) (j_issuer j) (j_urls j) d.
  Definition jobAudit (d : disk) (j : job) : list (bytes * url * audit) :=
    map (fun a => (j_issuer j, fst a, snd a)) (snd (jobFetch d j)).

  Definition apart (ts : list task) : Prop := NoDup (map t_issuer ts) /\ forall t, In t ts -> ~ In slash (t_issuer t).

  Lemma apart_tail t ts : apart (t :: ts) -> apart ts.
  Proof using Type. intros [N S]. inversion N; subst. split; [assumption|]. intros; apply S; right; assumption. Qed.
  Lemma apart_head t ts t' q : apart (t :: ts) -> In t' ts -> owned t' q -> ~ owned t q.
  Proof using Type.
    intros [N S] I O. inversion N as [|a b N1 N2 E]; subst. apply (owned_apart t' t q); auto.
    - apply S; right; exact I.
    - apply S; left; reflexivity.
    - intros E. apply N1. rewrite <- E. apply in_map; exact I.
  Qed.

  Lemma jobFetch_urls j u e : In (u, e) (j_urls j) -> In u (t_urls (jobTask j)).
  Proof using Type. intros I. cbn [AggSystem.t_urls jobTask]. apply (in_map fst) in I. exact I. Qed.

  Lemma fetchJobs_each : forall js d0 d, apart (map jobTask js) -> (forall j, In j js -> agree (jobTask j) d d0) ->
    (forall j, In j js -> snd (fst (jobFetch d0 j)) <> None) ->
    exists d' ls, fetchJobs js d = (d', Some ls, flat_map (jobAudit d0) js) /\
      map fst ls = js /\
      (forall j l, In (j, l) ls -> snd (fst (jobFetch d0 j)) = Some l) /\
      (forall j, In j js -> agree (jobTask j) d' (fst (fst (jobFetch d0 j)))) /\
      (forall q, (forall j, In j js -> ~ owned (jobTask j) q) -> alookup q d' = alookup q d).
  Proof using Type.
    induction js as [|j js IH]; intros d0 d AP A NN; cbn [AggModel.fetchJobs map flat_map].
    - exists d, []. split; [reflexivity|]. split; [reflexivity|]. split; [intros j l []|]. split; [intros j []|reflexivity].
    - cbn [map] in AP.
      pose proof (fetchAll_agree (jobTask j) (j_urls j) d d0 (fun u e => jobFetch_urls j u e) (A j (or_introl eq_refl))) as FA.
      cbn [AggSystem.t_cert AggSystem.t_issuer jobTask] in FA.
      assert (FO : forall q, ~ owned (jobTask j) q -> alookup q (fst (fst (fetchAll (j_cert j) (j_issuer j) (j_urls j) d))) = alookup q d).
      { intros q N. apply (fetchAll_other (jobTask j)); [apply jobFetch_urls|exact N]. }
      pose proof (NN j (or_introl eq_refl)) as NJ. unfold jobFetch in NJ.
      destruct (fetchAll (j_cert j) (j_issuer j) (j_urls j) d) as [[d1 r] au] eqn:F.
      unfold jobAudit, jobFetch at 1. unfold jobFetch.
      destruct (fetchAll (j_cert j) (j_issuer j) (j_urls j) d0) as [[d1' r'] au'] eqn:F0. cbn [fst snd] in *.
      destruct FA as [<- [<- AJ]]. destruct r as [l|]; [|congruence].
      assert (A1 : forall j', In j' js -> agree (jobTask j') d1 d0).
      { intros j' I q O. rewrite FO.
        - apply (A j' (or_intror I)); exact O.
        - apply (apart_head (jobTask j) (map jobTask js) (jobTask j')); [exact AP|apply in_map; exact I|exact O]. }
      destruct (IH d0 d1 (apart_tail _ _ AP) A1 (fun j' I => NN j' (or_intror I))) as [d' [ls [E [M [L [G O]]]]]].
      rewrite E. exists d', ((j, l) :: ls). split; [reflexivity|]. split; [cbn [map fst]; congruence|].
      split. { intros j' l' [I|I]; [injection I as <- <-; unfold jobFetch in *; rewrite F0; reflexivity|apply L; exact I]. }
      split.
      { intros j' [<-|I]; [|apply G; exact I]. unfold jobFetch. rewrite F0. cbn [fst]. intros q OQ.
        rewrite O; [apply AJ; exact OQ|]. intros j' I OJ. apply (apart_head _ _ _ _ AP (in_map jobTask _ _ I) OJ OQ). }
      intros q N. rewrite O by (intros j' I; apply N; right; exact I). apply FO. apply N. left; reflexivity.
  Qed.

  Definition known (j : job) (l : list (url * option bytes)) := map (fun x : url * option bytes => u_norm (fst x)) l.
  Definition jobProc (d : disk) (j : job) (l : list (url * option bytes)) :=
    processAll (j_cert j) (j_partitioned j) (known j l) d (withProc l (j_proc j)) false [].

  Definition outcome (f : bool) : aggOutcome := if f then AgIncomplete else AgWritten.

  Lemma aggregateJobs_each : forall ls d r, NoDup (map (fun x => j_issuer (fst x)) ls) ->
    (forall j l, In (j, l) ls -> j_storeErr j = None /\ exists f s, fst (jobProc d j l) = Some (f, s)) ->
    exists r' os, aggregateJobs ls d r =
        (r', os, flat_map (fun x => map (fun a => (j_issuer (fst x), fst a, snd a)) (snd (jobProc d (fst x) (snd x)))) ls) /\
      map fst os = map (fun x => j_issuer (fst x)) ls /\
      (forall j l f s, In (j, l) ls -> fst (jobProc d j l) = Some (f, s) ->
         In (j_issuer j, outcome f) os /\
         alookup (j_issuer j) r' = if f then alookup (j_issuer j) r else Some (revokedFile s)) /\
      (forall i, ~ In i (map (fun x => j_issuer (fst x)) ls) -> alookup i r' = alookup i r).
  Proof using Type.
    induction ls as [|[j l] ls IH]; intros d r ND H; cbn [AggModel.aggregateJobs map flat_map fst snd].
    - exists r, []. split; [reflexivity|]. split; [reflexivity|]. split; [intros j l f s []|reflexivity].
    - cbn [map fst] in ND. inversion ND as [|a b N1 N2 E]; subst.
      destruct (H j l (or_introl eq_refl)) as [SE [f [s P]]].
      pose proof (aggregateOne_frame Cert parseCRL checkSig (j_cert j) (j_partitioned j) (j_issuer j) d (withProc l (j_proc j)) (j_storeErr j) r) as FR.
      unfold AggModel.aggregateOne in *.
      assert (K : map (fun p : url * option bytes * procEnv => u_norm (fst (fst p))) (withProc l (j_proc j)) = known j l).
      { unfold known. rewrite <- (withProc_fst l (j_proc j)) at 2. rewrite map_map. reflexivity. }
      unfold jobProc in P. rewrite K in *.
      assert (KE : (fun x : job * list (url * option bytes) => 0%nat) = (fun _ => 0%nat)) by reflexivity. clear KE.
      change (processAll (j_cert j) (j_partitioned j) (known j l) d (withProc l (j_proc j)) false []) with (jobProc d j l) in *.
      destruct (jobProc d j l) as [rr au] eqn:PE. cbn [fst] in P. subst rr. rewrite SE in *. cbn [storeRevoked] in *.
      assert (Q : exists r1, alookup (j_issuer j) r1 = (if f then alookup (j_issuer j) r else Some (revokedFile s)) /\
                   (forall i, i <> j_issuer j -> alookup i r1 = alookup i r) /\
                   (if f then (r, AgIncomplete, au) else let '(r', o) := (aset (j_issuer j) (revokedFile s) r, AgWritten) in (r', o, au)) = (r1, outcome f, au)).
      { destruct f; [exists r; auto|]. exists (aset (j_issuer j) (revokedFile s) r).
        split; [apply alookup_aset_same|]. split; [|reflexivity]. intros i N. apply alookup_aset_other; exact N. }
      destruct Q as [r1 [R1 [R2 Q]]].
      destruct (IH d r1 N2 (fun j' l' I => H j' l' (or_intror I))) as [r' [os [E2 [M [G O]]]]].
      exists r', ((j_issuer j, outcome f) :: os).
      split.
      { unfold storeRevoked, outcome in *. cbn [snd]. destruct f; cbv beta iota zeta; injection Q as ->; rewrite E2; reflexivity. }
      split; [cbn [map fst]; congruence|]. split.
      + intros j' l' f' s' [I|I] P'.
        * injection I as <- <-. rewrite PE in P'. cbn [fst] in P'. injection P' as <- <-. split; [left; reflexivity|].
          rewrite O by exact N1. exact R1.
        * destruct (G j' l' f' s' I P') as [G1 G2]. split; [right; exact G1|]. rewrite G2.
          destruct f'; [|reflexivity]. apply R2. intros X. apply N1. rewrite <- X.
          apply (in_map (fun x => j_issuer (fst x)) _ _ I).
      + intros i N. rewrite O by (intros X; apply N; right; exact X). apply R2. intros X. apply N. left; congruence.
  Qed.
End Proofs.
