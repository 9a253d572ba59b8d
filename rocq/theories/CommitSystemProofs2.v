(** * More about the system of committing processes: the start of ct-fetch, and
    what holds even when locks expire *)
From Verif Require Import Base MerkleModel SerialModel SerialProofs TimeModel StoreModel
  CommitModel CommitProofs CommitProofs2 CommitSystem CommitSystemProofs.

Section Sys2.
  Variable binDate : bytes -> Z.
  Notation mstep := (mstep binDate).
  Notation msteps := (msteps binDate).
  Notation alone := (alone binDate).
  Notation within := (within binDate).

  (** ** A check that no other process disturbs *)
  Definition checkOK (m : sys) (p : proc) : Prop :=
    match p with
    | EStored se | EBehind se | ELogs se _ | RKeys _ se _ | RDel _ se _ _ | RPut _ se _ => se = d_sepoch (m_db m)
    | Rel _ true | RelSure _ true | Ready => inStep (d_epoch (m_db m)) (d_sepoch (m_db m)) = true
    | _ => True
    end.

  Lemma inStep_next se : inStep (se + 1) se = true.
  Proof using Type. unfold inStep. rewrite N.eqb_refl. reflexivity. Qed.

  Lemma alone_step_ok i w m n : d_commit (m_db m) = None -> checkOK m (m_procs m i) -> w = None \/ w = Some i ->
    mstep false w m n -> checkOK n (m_procs n i) /\ d_commit (m_db n) = None.
  Proof using Type.
    intros N C W H. destruct H;
      cbn [withDb withProc withBoth lockFor m_db m_procs] in *; fields;
      try (destruct W as [W|W]; [discriminate W|injection W as <-]; rewrite ?pset_same);
      try (rewrite H in C); cbn [checkOK] in *.
    all: try (split; [exact C|exact N]).
    all: try (split; [|exact N]).
    all: try exact Logic.I.
    all: try exact C.
    all: try reflexivity.
    - destruct (m_procs m i); exact C.
    - destruct (d_lock (m_db m)) as [k'|]; [destruct (beq k' k)|]; exact Logic.I.
    - destruct (inStep _ _); exact Logic.I.
    - split; [|reflexivity]. destruct (d_commit t); exact Logic.I.
    - destruct (d_lock (m_db m)) as [k'|]; [destruct (beq k' k)|]; destruct go; exact C.
    - destruct H as [H|H]; rewrite H in C; destruct go; exact C.
    - destruct go; exact C.
    - destruct (inStep (d_epoch (m_db m)) se) eqn:E; [|exact C]. cbn [checkOK withProc m_db]. rewrite <- C. exact E.
    - destruct (d_cov _); [exact C|exact Logic.I].
    - cbn [withBoth m_db]. fields. rewrite <- C. apply inStep_next.
  Qed.

  Lemma prompt_weaker pr w m n : mstep pr w m n -> mstep false w m n.
  Proof using Type.
    intros H. destruct H; try (econstructor; eassumption). apply MTick; [assumption|discriminate].
  Qed.

  Lemma alone_in_step pr i m n : d_commit (m_db m) = None -> m_procs m i = Out -> alone pr i m n ->
    checkOK n (m_procs n i) /\ d_commit (m_db n) = None.
  Proof using Type.
    intros N0 O H. induction H as [m|m n o w H IH W S].
    - rewrite O. split; [exact Logic.I|exact N0].
    - destruct (IH N0 O) as [A B]. eapply alone_step_ok; [exact B|exact A|exact W|eapply prompt_weaker; exact S].
  Qed.

  (** ** What a restoration leaves behind *)
  Definition key (l : lstate) : bytes := logKey (lg_url (l_log l)).
  Definition logsOf (ls : list lstate) (logs : bytes -> option lstate) : Prop :=
    (forall u l, logs u = Some l -> In l ls /\ u = key l) /\ (forall l, In l ls -> logs (key l) <> None).

  Definition stored (s t : db) : Prop :=
    d_files t = d_files s /\ d_cov t = d_cov s /\ d_sepoch t = d_sepoch s /\ d_sets t = d_sets s.

  Definition restOK (m0 : sys) (ls : list lstate) (m : sys) (p : proc) : Prop :=
    let se := d_sepoch (m_db m0) in
    stored (m_db m0) (m_db m) /\
    match p with
    | EBehind se' => se' = se
    | ELogs se' ls' | RKeys _ se' ls' => se' = se /\ ls' = ls
    | RDel _ se' ls' todo => se' = se /\ ls' = ls /\ forall u, d_logs (m_db m) u <> None -> In u todo
    | RPut _ se' todo => se' = se /\ exists done, ls = done ++ todo /\ logsOf done (d_logs (m_db m))
    | Rel _ true | RelSure _ true | Ready => d_epoch (m_db m) = (se + 1)%N /\ logsOf ls (d_logs (m_db m))
    | Rel _ false | RelSure _ false | Out => True
    | _ => False
    end.

  Lemma logsOf_put ls l logs : logsOf ls logs -> logsOf (ls ++ [l]) (upd logs (key l) (Some l)).
  Proof using Type.
    intros [A B]. split.
    - intros u l' H. destruct (beq_spec u (key l)) as [->|N].
      + rewrite upd_same in H. injection H as <-. split; [apply in_or_app; right; left; reflexivity|reflexivity].
      + rewrite upd_other in H by exact N. destruct (A u l' H) as [A1 A2]. split; [apply in_or_app; left; exact A1|exact A2].
    - intros l' H. destruct (beq_spec (key l') (key l)) as [E|N].
      + rewrite E, upd_same. discriminate.
      + rewrite upd_other by exact N. apply in_app_or in H. destruct H as [H|[<-|[]]]; [apply B; exact H|congruence].
  Qed.

  Lemma rest_step m0 ls pr i m n : d_cov (m_db m0) = Some ls -> restOK m0 ls m (m_procs m i) -> m_procs m i <> Out ->
    mstep pr (Some i) m n -> restOK m0 ls n (m_procs n i).
  Proof using Type.
    intros C [St R] No H. remember (Some i) as w eqn:Ew. destruct H; try discriminate Ew; injection Ew as ->;
      cbn [withDb withProc withBoth lockFor m_db m_procs] in *; rewrite ?pset_same;
      try (rewrite H in R; cbn beta iota in R); unfold restOK; cbn [withDb withProc withBoth lockFor m_db m_procs]; fields.
    all: try contradiction.
    all: try (split; [exact St|exact R]).
    all: try (split; [exact St|exact Logic.I]).
    - split; [exact St|]. destruct (d_lock (m_db m)) as [k'|]; [destruct (beq k' k)|]; destruct go; exact R.
    - split; [exact St|]. destruct H as [H|H]; rewrite H in R; destruct go; exact R.
    - split; [exact St|]. destruct go; exact R.
    - split; [exact St|]. destruct St as (_ & E & _ & _). rewrite E, C. auto.
    - split; [exact St|]. destruct R as [-> ->]. split; [reflexivity|]. split; [reflexivity|]. intros u Hu. apply H0. exact Hu.
    - split; [exact St|]. destruct R as (-> & -> & R). split; [reflexivity|]. split; [reflexivity|].
      intros v Hv. destruct (beq_spec v u) as [->|N]; [rewrite upd_same in Hv; congruence|].
      rewrite upd_other in Hv by exact N. destruct (R v Hv) as [->|Hin]; [congruence|exact Hin].
    - split; [exact St|]. destruct R as (-> & -> & R). split; [reflexivity|]. exists []. split; [reflexivity|].
      split; [|intros l []]. intros u l Hu. destruct (R u). congruence.
    - split; [exact St|]. destruct R as (-> & dn & -> & R). split; [reflexivity|]. exists (dn ++ [l]).
      split; [rewrite <- app_assoc; reflexivity|]. apply logsOf_put. exact R.
    - split; [exact St|]. destruct R as (-> & dn & -> & R). split; [reflexivity|]. rewrite app_nil_r. exact R.
  Qed.

  Lemma restored pr i m n ls : d_cov (m_db m) = Some ls -> m_procs m i = EBehind (d_sepoch (m_db m)) ->
    within pr i m n -> restOK m ls n (m_procs n i).
  Proof using Type.
    intros C E H. induction H as [m|m n o H IH No S].
    - rewrite E. split; [repeat split|reflexivity].
    - eapply rest_step; [exact C|apply IH; assumption|exact No|exact S].
  Qed.

  (** ** The coverage file exists once the epochs have moved *)
  Definition covThere (s : db) (p : proc) : Prop :=
    match p with
    | CRun (mkCm _ _ PExpire) | CRun (mkCm _ _ PEpoch) | CRun (mkCm _ _ PFinish)
    | EBehind _ | ELogs _ _ | RKeys _ _ _ | RDel _ _ _ _ | RPut _ _ _ => d_cov s <> None
    | CRun (mkCm _ e _) => e <> 0%N -> d_cov s <> None
    | CStored _ se | EStored se => se <> 0%N -> d_cov s <> None
    | _ => True
    end.
  Record covInv (m : sys) : Prop := mkCI {
    ci_epoch : d_epoch (m_db m) <> 0%N -> d_cov (m_db m) <> None;
    ci_sepoch : d_sepoch (m_db m) <> 0%N -> d_cov (m_db m) <> None;
    ci_proc : forall i, covThere (m_db m) (m_procs m i) }.

  Lemma covThere_mono s s' p : (d_cov s <> None -> d_cov s' <> None) -> covThere s p -> covThere s' p.
  Proof using Type. intros M. destruct p as [| | | |[k e []]| | | | | | | | | ]; cbn [covThere]; auto. Qed.

  Lemma covInv_proc m d i p u v : covInv m -> (d_cov (m_db m) <> None -> d_cov d <> None) ->
    (d_epoch d <> 0%N -> d_cov d <> None) -> (d_sepoch d <> 0%N -> d_cov d <> None) -> covThere d p ->
    covInv (mkSys d (pset (m_procs m) i p) u v).
  Proof using Type.
    intros [A B C] M E S P. split; cbn [m_db m_procs]; [exact E|exact S|]. intros j.
    destruct (Nat.eq_dec j i) as [->|N]; [rewrite pset_same; exact P|rewrite pset_other by exact N].
    eapply covThere_mono; [exact M|apply C].
  Qed.

  Lemma inStep_zero e se : inStep e se = false -> e <> 0%N \/ se <> 0%N.
  Proof using Type.
    clear. intros H. destruct (N.eq_dec e 0) as [->|?]; [|auto]. destruct (N.eq_dec se 0) as [->|?]; [discriminate H|auto].
  Qed.

  Lemma covInv_step pr w m n : covInv m -> mstep pr w m n -> covInv n.
  Proof using Type.
    intros I H. pose proof I as [A B C]. destruct H.
    1-4,6: split; cbn [withDb m_db m_procs]; fields; assumption.
    - split; cbn [m_db m_procs]; fields; [exact A|exact B|]. intros i. specialize (C i).
      destruct (m_procs m i) as [| | | |[k e []]| | | | | | | | | ]; exact C.
    - apply covInv_proc; fields; cbn [covThere]; auto.
    - apply covInv_proc; fields; cbn [covThere]; auto.
    - apply covInv_proc; fields; cbn [covThere]; auto. destruct (d_lock (m_db m)) as [k'|]; [destruct (beq k' k)|]; exact Logic.I.
    - apply covInv_proc; fields; cbn [covThere]; auto.
    - apply covInv_proc; fields; cbn [covThere]; auto. destruct (inStep _ _); [exact A|exact Logic.I].
    - pose proof (C i) as Ci. rewrite H in Ci. destruct c as [ck ce cp]. cbn [cm_tok] in *.
      assert (M : (d_cov (m_db m) <> None -> d_cov t <> None) /\ (d_epoch t <> 0%N -> d_cov t <> None) /\
        (d_sepoch t <> 0%N -> d_cov t <> None) /\ match d_commit t with Some c' => covThere t (CRun c') | None => True end).
      { remember (setCommit (m_db m) (Some (mkCm ck ce cp))) as s0 eqn:E0.
        assert (E1 : d_cov s0 = d_cov (m_db m) /\ d_epoch s0 = d_epoch (m_db m) /\ d_sepoch s0 = d_sepoch (m_db m) /\
          d_commit s0 = Some (mkCm ck ce cp)) by (subst s0; fields; auto).
        destruct E1 as (E1 & E2 & E3 & E4). rewrite <- E1, <- E2, <- E3 in *. clear E0.
        assert (E5 : forall c', d_commit s0 = Some c' -> mkCm ck ce cp = c') by (intros; congruence).
        assert (E6 : d_commit s0 <> None) by congruence. clear E4 H I C. destruct H0; fields; try congruence;
          match goal with X : d_commit _ = Some _ |- _ => pose proof (E5 _ X) as Y; injection Y; intros; subst;
            try rewrite X end.
        all: unfold covThere in Ci |- *; fields; rewrite ?E1; repeat split; try discriminate; auto; try congruence.
        all: rewrite <- ?E1 in *; auto. }
      destruct M as (M1 & M2 & M3 & M4). apply covInv_proc; fields; cbn [covThere]; auto.
      destruct (d_commit t) as [[k' e' p']|]; [|exact Logic.I]. exact M4.
    - apply covInv_proc; fields; cbn [covThere]; auto. destruct (d_lock (m_db m)) as [k'|]; [destruct (beq k' k)|]; destruct go; exact Logic.I.
    - apply covInv_proc; fields; cbn [covThere]; auto. destruct go; exact Logic.I.
    - apply covInv_proc; fields; cbn [covThere]; auto. destruct go; exact Logic.I.
    - apply covInv_proc; fields; cbn [covThere]; auto.
    - apply covInv_proc; fields; cbn [covThere]; auto. destruct (inStep _ _) eqn:E; [exact Logic.I|]. cbn [covThere].
      pose proof (C i) as Ci. rewrite H in Ci. destruct (inStep_zero _ _ E); auto.
    - apply covInv_proc; fields; cbn [covThere]; auto. destruct (d_cov (m_db m)) eqn:E; [cbn [covThere]; congruence|exact Logic.I].
    - apply covInv_proc; fields; cbn [covThere]; auto. pose proof (C i) as Ci. rewrite H in Ci. exact Ci.
    - apply covInv_proc; fields; cbn [covThere]; auto.
    - apply covInv_proc; fields; cbn [covThere]; auto. pose proof (C i) as Ci. rewrite H in Ci. exact Ci.
    - apply covInv_proc; fields; cbn [covThere]; auto. pose proof (C i) as Ci. rewrite H in Ci. exact Ci.
    - apply covInv_proc; fields; cbn [covThere]; auto. pose proof (C i) as Ci. rewrite H in Ci. exact Ci.
    - apply covInv_proc; fields; cbn [covThere]; auto. pose proof (C i) as Ci. rewrite H in Ci. exact Ci.
    - pose proof (C i) as Ci. rewrite H in Ci. cbn [covThere] in Ci. apply covInv_proc; fields; cbn [covThere]; auto.
    - apply covInv_proc; fields; cbn [covThere]; auto.
    - apply covInv_proc; fields; cbn [covThere]; auto.
  Qed.

  (** ** The keys of the log states are finitely many *)
  Definition covers (s : db) (keys : list bytes) : Prop := forall u, d_logs s u <> None -> In u keys.

  Lemma own_logs k s t : own binDate false true k s t -> d_logs t = d_logs s.
  Proof using Type. intros H. destruct H; reflexivity. Qed.

  Lemma covers_upd_some s keys u l : covers s keys -> covers (setLogs s (upd (d_logs s) u (Some l))) (u :: keys).
  Proof using Type.
    intros C v. fields. destruct (beq_spec v u) as [->|N]; [left; reflexivity|]. rewrite upd_other by exact N.
    intros Hv. right. apply C. exact Hv.
  Qed.
  Lemma covers_upd_none s keys u : covers s keys -> covers (setLogs s (upd (d_logs s) u None)) keys.
  Proof using Type.
    intros C v. fields. destruct (beq_spec v u) as [->|N]; [rewrite upd_same; congruence|]. rewrite upd_other by exact N.
    apply C.
  Qed.

  Lemma covers_step pr w m n keys : covers (m_db m) keys -> mstep pr w m n ->
    exists keys', covers (m_db n) keys'.
  Proof using Type.
    intros C H. destruct H; try (exists keys; exact C).
    - exists (u :: keys). apply covers_upd_some. exact C.
    - exists keys. apply covers_upd_none. exact C.
    - exists keys. unfold covers. cbn [withBoth m_db]. fields. rewrite (own_logs _ _ _ H0). exact C.
    - exists keys. apply covers_upd_none. exact C.
    - exists (key l :: keys). apply covers_upd_some. exact C.
  Qed.

  Definition listed (s : db) (keys : list bytes) : list bytes :=
    filter (fun u => match d_logs s u with Some _ => true | None => false end) keys.
  Lemma listed_exact s keys : covers s keys -> forall u, In u (listed s keys) <-> d_logs s u <> None.
  Proof using Type.
    intros C u. unfold listed. rewrite filter_In. split.
    - intros [_ H]. destruct (d_logs s u); congruence.
    - intros H. split; [apply C; exact H|]. destruct (d_logs s u); congruence.
  Qed.

  (** ** Nothing is invented, whatever expires *)
  Definition commitOf (p : proc) : option cm := match p with CRun c => Some c | _ => None end.
  Definition all2 (m : sys) : Prop := forall i, inv2 (setCommit (m_db m) (commitOf (m_procs m i))).

  Lemma inv2_none s c : inv2 (setCommit s c) -> inv2 (setCommit s None).
  Proof using Type. intros [A B C]. split; [exact A|exact B|]. fields. discriminate. Qed.

  Lemma all2_proc m d i p u v : all2 m ->
    inv2 (setCommit d (commitOf p)) ->
    (forall x, In x (d_inserted (m_db m)) -> In x (d_inserted d)) ->
    all2 (mkSys d (pset (m_procs m) i p) u v).
  Proof using Type.
    intros I P M j. cbn [m_db m_procs]. destruct (Nat.eq_dec j i) as [->|N]; [rewrite pset_same; exact P|].
    rewrite pset_other by exact N. pose proof (I j) as [_ _ C]. destruct P as [A B _]. fieldsIn A. fieldsIn B. fieldsIn C.
    split; fields; [exact A|exact B|]. intros k e acc tasks E a b t Ha.
    eapply taskFrom_mono; [|eapply C; eassumption]. fields. exact M.
  Qed.

  Lemma all2_db m d : all2 m -> (forall oc, inv2 (setCommit (m_db m) oc) -> inv2 (setCommit d oc)) -> all2 (withDb m d).
  Proof using Type. intros I H j. cbn [withDb m_db m_procs]. apply H. apply I. Qed.

  Lemma inv2_ext s t : ext binDate false s t -> inv2 s -> inv2 t.
  Proof using Type. intros H I. eapply (step_inv2 binDate false true false); [exact I|apply step_ext; exact H]. Qed.

  Lemma all2_step pr w m n : all2 m -> mstep pr w m n -> all2 n.
  Proof using Type.
    intros I H.
    assert (N0 : forall j, inv2 (setCommit (m_db m) None)) by (intros j; eapply inv2_none; apply (I j)).
    specialize (N0 0%nat).
    assert (Q : forall d i p u v, commitOf p = None -> inv2 (setCommit d None) ->
      (forall x, In x (d_inserted (m_db m)) -> In x (d_inserted d)) -> all2 (mkSys d (pset (m_procs m) i p) u v)).
    { intros d i p u v E P M. apply all2_proc; [exact I|rewrite E; exact P|exact M]. }
    destruct H.
    - apply all2_db; [exact I|]. intros oc. apply inv2_ext. apply (XInsert binDate false (setCommit (m_db m) oc) b e).
    - apply all2_db; [exact I|]. intros oc. apply inv2_ext. apply (XSaveLog binDate false (setCommit (m_db m) oc) u l). exact H.
    - apply all2_db; [exact I|]. intros oc. apply inv2_ext. apply (XDelLog binDate false (setCommit (m_db m) oc) u).
    - apply all2_db; [exact I|]. intros oc. apply inv2_ext. apply (XTick binDate false (setCommit (m_db m) oc) t). exact H.
    - intros j. cbn [m_db m_procs].
      assert (E : commitOf (forgetProc b (m_procs m j)) = option_map (forget b) (commitOf (m_procs m j)))
        by (destruct (m_procs m j); reflexivity).
      rewrite E. eapply inv2_ext; [|apply (I j)].
      apply (XEvict binDate false (setCommit (m_db m) (commitOf (m_procs m j))) b). exact H.
    - apply all2_db; [exact I|]. intros oc [A B C]. split; [exact A|exact B|exact C].
    - apply Q; auto.
    - apply Q; auto. destruct N0 as [A B C]. split; [exact A|exact B|exact C].
    - apply Q; auto. destruct (d_lock (m_db m)) as [k'|]; [destruct (beq k' k)|]; reflexivity.
    - apply Q; auto.
    - destruct (inStep _ _); [|apply Q; auto]. apply all2_proc; [exact I| |auto].
      destruct N0 as [A B C]. split; [exact A|exact B|]. fields. discriminate.
    - pose proof (own_frame binDate _ _ _ H0) as (_ & _ & F & _). fieldsIn F.
      assert (T : inv2 t).
      { eapply (step_inv2 binDate false true false); [|eapply step_own; exact H0].
        specialize (I i). rewrite H in I. exact I. }
      apply all2_proc; [exact I| |intros x Hx; cbn [setCommit d_inserted]; rewrite F; exact Hx].
      destruct T as [A B C].
      assert (K : commitOf (match d_commit t with Some c' => CRun c' | None => Rel (cm_tok c) false end) = d_commit t)
        by (destruct (d_commit t); reflexivity).
      rewrite K. split; fields; [exact A|exact B|exact C].
    - apply Q; auto. destruct (d_lock (m_db m)) as [k'|]; [destruct (beq k' k)|]; destruct go; reflexivity.
    - apply Q; auto. destruct go; reflexivity.
    - apply Q; auto; [destruct go; reflexivity|]. destruct N0 as [A B C]. split; [exact A|exact B|exact C].
    - apply Q; auto.
    - apply Q; auto. destruct (inStep _ _); reflexivity.
    - apply Q; auto. destruct (d_cov _); reflexivity.
    - apply Q; auto. destruct N0 as [A B C]. split; [exact A|exact B|exact C].
    - apply Q; auto.
    - apply Q; auto.
    - apply Q; auto. destruct N0 as [A B C]. split; [exact A|exact B|exact C].
    - apply Q; auto.
    - apply Q; auto. destruct N0 as [A B C]. split; [exact A|exact B|exact C].
    - apply Q; auto. destruct N0 as [A B C]. split; [exact A|exact B|exact C].
    - apply Q; auto.
    - apply Q; auto.
  Qed.

  (** ** All of it, along a run *)
  Record sane (m : sys) : Prop := mkSane {
    s_none : d_commit (m_db m) = None;
    s_all2 : all2 m;
    s_cov : covInv m;
    s_keys : exists keys, covers (m_db m) keys }.

  Lemma none_step pr w m n : d_commit (m_db m) = None -> mstep pr w m n -> d_commit (m_db n) = None.
  Proof using Type. intros N H. destruct H; cbn [withDb withProc withBoth lockFor m_db]; fields; auto. Qed.

  Lemma sane_step pr w m n : sane m -> mstep pr w m n -> sane n.
  Proof using Type.
    intros [A B C [ks D]] H. split; [eapply none_step|eapply all2_step|eapply covInv_step|eapply covers_step]; eassumption.
  Qed.
  Lemma sane_empty now : sane (emptySys now).
  Proof using Type.
    split.
    - reflexivity.
    - intros i. split; cbn [emptySys m_db m_procs commitOf]; fields; cbn [emptyDb d_sets d_files d_inserted]; try discriminate; contradiction.
    - split; cbn [emptySys m_db m_procs emptyDb d_epoch d_sepoch]; try congruence. intros i. exact Logic.I.
    - exists []. intros u Hu. cbn [emptySys m_db emptyDb d_logs] in Hu. congruence.
  Qed.
  Lemma sane_run pr now m : msteps pr (emptySys now) m -> sane m.
  Proof using Type.
    intros H. remember (emptySys now) as m0 eqn:E0. induction H as [m|m n o w H IH S].
    - subst m. apply sane_empty.
    - eapply sane_step; [apply IH; exact E0|exact S].
  Qed.

  (** ** A start of ct-fetch can always get through when the lock is free *)
  Lemma fresh (used : list bytes) : exists k, ~ In k used.
  Proof using Type.
    clear. assert (A : exists n, forall k, In k used -> (length k <= n)%nat).
    { induction used as [|x l [n IH]]; [exists 0%nat; intros k []|]. exists (Nat.max (length x) n).
      intros k [<-|H]; [lia|]. specialize (IH k H). lia. }
    destruct A as [n A]. exists (repeat x00 (S n)). intros H. specialize (A _ H). rewrite repeat_length in A. lia.
  Qed.

  Lemma alone_trans pr i m n o : alone pr i m n -> alone pr i n o -> alone pr i m o.
  Proof using Type. intros A B. induction B as [n|n o p w B IH W S]; [exact A|]. eapply alone_step; [apply IH; exact A|exact W|exact S]. Qed.
  Lemma alone_one pr i m n : mstep pr (Some i) m n -> alone pr i m n.
  Proof using Type. intros S. eapply alone_step; [apply alone_refl|right; reflexivity|exact S]. Qed.

  Lemma del_all pr i k se ls : forall todo m, m_procs m i = RDel k se ls todo ->
    exists n, alone pr i m n /\ m_procs n i = RPut k se ls /\ d_lock (m_db n) = d_lock (m_db m).
  Proof using Type.
    induction todo as [|u todo IH]; intros m H.
    - eexists. split; [apply alone_one; eapply MDeleted; exact H|]. cbn [withProc m_procs m_db]. rewrite pset_same. auto.
    - destruct (IH (withBoth m (setLogs (m_db m) (upd (d_logs (m_db m)) u None)) i (RDel k se ls todo))) as (n & A & E & L);
        [cbn [withBoth m_procs]; apply pset_same|].
      exists n. split; [|split; [exact E|exact L]]. eapply alone_trans; [apply alone_one; eapply MDelete; exact H|exact A].
  Qed.
  Lemma put_all pr i k se : forall ls m, m_procs m i = RPut k se ls ->
    exists n, alone pr i m n /\ m_procs n i = Rel k true /\ d_lock (m_db n) = d_lock (m_db m).
  Proof using Type.
    induction ls as [|l ls IH]; intros m H.
    - eexists. split; [apply alone_one; eapply MSetEpoch; exact H|]. cbn [withBoth m_procs m_db]. rewrite pset_same. auto.
    - destruct (IH (withBoth m (setLogs (m_db m) (upd (d_logs (m_db m)) (key l) (Some l))) i (RPut k se ls))) as (n & A & E & L);
        [cbn [withBoth m_procs]; apply pset_same|].
      exists n. split; [|split; [exact E|exact L]]. eapply alone_trans; [apply alone_one; eapply MPut; exact H|exact A].
  Qed.
  Lemma release_all pr i k m : m_procs m i = Rel k true -> d_lock (m_db m) = Some k ->
    exists n, alone pr i m n /\ m_procs n i = Ready /\ d_lock (m_db n) = None.
  Proof using Type.
    intros H L. pose proof (MRelease binDate pr m i k true H) as S. rewrite L, beq_refl in S.
    eexists. split; [eapply alone_trans; [apply alone_one; exact S|]; apply alone_one; eapply MUnlock|].
    - cbn [withProc m_procs]. apply pset_same.
    - cbn [withBoth withProc m_procs m_db]. rewrite pset_same. auto.
  Qed.

  Lemma restart_possible pr now m i : msteps pr (emptySys now) m -> m_procs m i = Out -> d_lock (m_db m) = None ->
    exists n, alone pr i m n /\ m_procs n i = Ready /\ d_lock (m_db n) = None.
  Proof using Type.
    intros R O L. apply sane_run in R. destruct R as [N0 _ CI [keys K]].
    pose proof (MCheck binDate pr m i O) as S1. set (m1 := withProc m i (EStored (d_sepoch (m_db m)))) in *.
    assert (P1 : m_procs m1 i = EStored (d_sepoch (m_db m))) by (apply pset_same).
    pose proof (MCompare binDate pr m1 i _ P1) as S2. change (m_db m1) with (m_db m) in S2.
    destruct (inStep (d_epoch (m_db m)) (d_sepoch (m_db m))) eqn:E.
    { eexists. split; [eapply alone_trans; [apply alone_one; exact S1|apply alone_one; exact S2]|].
      cbn [withProc m_procs m_db]. rewrite pset_same. auto. }
    set (m2 := withProc m1 i (EBehind (d_sepoch (m_db m)))) in *.
    assert (P2 : m_procs m2 i = EBehind (d_sepoch (m_db m))) by (apply pset_same).
    pose proof (MCoverage binDate pr m2 i _ P2) as S3. change (m_db m2) with (m_db m) in S3.
    assert (C : exists ls, d_cov (m_db m) = Some ls).
    { destruct CI as [A B _]. destruct (d_cov (m_db m)) as [ls|]; [eauto|]. exfalso.
      destruct (inStep_zero _ _ E) as [Z0|Z0]; [exact (A Z0 eq_refl)|exact (B Z0 eq_refl)]. }
    destruct C as [ls C]. rewrite C in S3. set (m3 := withProc m2 i (ELogs (d_sepoch (m_db m)) ls)) in *.
    assert (P3 : m_procs m3 i = ELogs (d_sepoch (m_db m)) ls) by (apply pset_same).
    destruct (fresh (m_used m3)) as [k Fk].
    pose proof (MTake binDate pr m3 i k _ _ P3 L Fk) as S4. set (m4 := lockFor m3 i k (RKeys k (d_sepoch (m_db m)) ls)) in *.
    assert (P4 : m_procs m4 i = RKeys k (d_sepoch (m_db m)) ls) by (apply pset_same).
    pose proof (MKeys binDate pr m4 i _ _ _ _ P4 (listed_exact (m_db m4) keys K)) as S5.
    set (m5 := withProc m4 i _) in S5.
    destruct (del_all pr i k (d_sepoch (m_db m)) ls (listed (m_db m4) keys) m5) as (m6 & A6 & P6 & L6); [apply pset_same|].
    destruct (put_all pr i k _ _ m6 P6) as (m7 & A7 & P7 & L7).
    destruct (release_all pr i k m7 P7) as (m8 & A8 & P8 & L8).
    { rewrite L7, L6. reflexivity. }
    exists m8. split; [|auto].
    eapply alone_trans; [apply alone_one; exact S1|]. eapply alone_trans; [apply alone_one; exact S2|].
    eapply alone_trans; [apply alone_one; exact S3|]. eapply alone_trans; [apply alone_one; exact S4|].
    eapply alone_trans; [apply alone_one; exact S5|]. eapply alone_trans; [exact A6|]. eapply alone_trans; [exact A7|exact A8].
  Qed.
End Sys2.
