(** * Invariants of the system of committing processes *)
From Verif Require Import Base MerkleModel SerialModel SerialProofs TimeModel StoreModel
  CommitModel CommitProofs CommitProofs2 CommitSystem.

(** The log states of the coverage file, and those a commit has read, stand for
    certificates that were stored. *)
Definition phaseClaims (d : list (bytes * bytes)) (p : phase) : Prop :=
  match p with
  | PLoad acc | PScan acc _ | PMove acc _ => forall l x, In l acc -> In x (l_claims l) -> In x d
  | _ => True
  end.
Record covOK (s : db) : Prop := mkCovOK {
  v_logs : forall k l x, d_logs s k = Some l -> In x (l_claims l) -> In x (d_inserted s);
  v_cov : forall ls l x, d_cov s = Some ls -> In l ls -> In x (l_claims l) -> In x (d_inserted s);
  v_phase : forall k e p, d_commit s = Some (mkCm k e p) -> phaseClaims (d_inserted s) p }.

Lemma phaseClaims_mono d d' p : (forall x, In x d -> In x d') -> phaseClaims d p -> phaseClaims d' p.
Proof. intros M. destruct p; cbn [phaseClaims]; eauto. Qed.

Lemma forget_phase b c d : phaseClaims d (cm_phase c) -> phaseClaims d (cm_phase (forget b c)).
Proof. destruct c as [k e []]; cbn [forget cm_phase cm_tok cm_epoch phaseClaims]; auto. Qed.

Lemma forget_tok b c : cm_tok (forget b c) = cm_tok c.
Proof. destruct c as [k e []]; reflexivity. Qed.

Section Sys.
  Variable binDate : bytes -> Z.
  Notation step1 := (step binDate false true false).
  Notation mstep := (mstep binDate).
  Notation msteps := (msteps binDate).

  Lemma step_cov s t : covOK s -> step1 s t -> covOK t.
  Proof using Type.
    intros [L V P] H. destruct H as [s t H|k s t H]; destruct H; try discriminate.
    all: try (split; fields; [eauto|eauto|]; intros k0 e0 p0 C0; first [exact (P _ _ _ C0)|discriminate C0]; fail).
    - split; fields.
      + intros k l x Hk Hx. right. eapply L; eassumption.
      + intros ls l x Hk Hl Hx. right. eapply V; eassumption.
      + intros k e0 p C0. eapply phaseClaims_mono; [|eapply P; exact C0]. intros; right; assumption.
    - split; fields; [|exact V|exact P]. intros u l0 x Hu Hx. destruct (beq_spec u k) as [->|N].
      + rewrite upd_same in Hu. injection Hu as <-. auto.
      + rewrite upd_other in Hu by exact N. eapply L; eassumption.
    - split; fields; [|exact V|exact P]. intros u l0 x Hu Hx. destruct (beq_spec u k) as [->|N].
      + rewrite upd_same in Hu. discriminate.
      + rewrite upd_other in Hu by exact N. eapply L; eassumption.
    - split; fields; [exact L|exact V|]. intros k e p C0. destruct (d_commit s) as [c|] eqn:E; [|discriminate].
      cbn [option_map] in C0. injection C0 as C0.
      assert (Q : phaseClaims (d_inserted s) (cm_phase (forget b c))) by (apply forget_phase; destruct c; eapply P; reflexivity).
      rewrite C0 in Q. exact Q.
    - split; fields; [exact L|exact V|]. intros k0 e p C0. injection C0 as <- <- <-. intros l x [].
    - split; fields; [exact L|exact V|]. intros k0 e0 p C0. injection C0 as <- <- <-. cbn [phaseClaims].
      intros l0 x Hl Hx. apply in_app_or in Hl. destruct Hl as [Hl|[<-|[]]].
      + exact (P _ _ _ H l0 x Hl Hx).
      + eapply L; eassumption.
    - split; fields; [exact L|exact V|]. intros k0 e0 p C0. injection C0 as <- <- <-. exact (P _ _ _ H).
    - split; fields; [exact L|exact V|]. intros k0 e0 p C0. injection C0 as <- <- <-. exact (P _ _ _ H).
    - split; fields; [exact L|exact V|]. intros k0 e0 p C0. injection C0 as <- <- <-. exact (P _ _ _ H).
    - split; fields; [exact L|exact V|]. intros k0 e0 p C0. injection C0 as <- <- <-. exact (P _ _ _ H).
    - split; fields; [exact L|exact V|]. intros k0 e0 p C0. injection C0 as <- <- <-. exact (P _ _ _ H).
    - split; fields; [exact L|exact V|]. intros k0 e0 p C0. injection C0 as <- <- <-. exact (P _ _ _ H).
    - split; fields; [exact L|exact V|]. intros k0 e0 p C0. injection C0 as <- <- <-. exact (P _ _ _ H).
    - split; fields; [exact L|exact V|]. intros k0 e0 p C0. injection C0 as <- <- <-. exact (P _ _ _ H).
    - split; fields; [exact L|exact V|]. intros k0 e0 p C0. injection C0 as <- <- <-. exact (P _ _ _ H).
    - split; fields; [exact L| |].
      + intros ls l x E Hl Hx. injection E as <-. exact (P _ _ _ H l x Hl Hx).
      + intros k0 e0 p C0. injection C0 as <- <- <-. exact Logic.I.
    - split; fields; [exact L|exact V|]. intros k0 e0 p C0. injection C0 as <- <- <-. exact Logic.I.
    - split; fields; [exact L|exact V|]. intros k0 e0 p C0. injection C0 as <- <- <-. exact Logic.I.
  Qed.

  (** ** The system of CommitModel.v, with the epoch set at any time no commit runs *)
  Inductive gstep : db -> db -> Prop :=
  | g_step s t : step1 s t -> gstep s t
  | g_epoch s n : d_commit s = None -> gstep s (setEpoch s n).
  Inductive gsteps : db -> db -> Prop :=
  | gsteps_refl s : gsteps s s
  | gsteps_step s t u : gsteps s t -> gstep t u -> gsteps s u.

  Record ginv (s : db) : Prop := mkG { g_inv : inv binDate s; g_inv2 : inv2 s; g_cov : covOK s }.

  Lemma gstep_inv s t : ginv s -> gstep s t -> ginv t.
  Proof using Type.
    intros [A B C] H. destruct H as [s t H|s n H].
    - split; [eapply step_inv; eassumption|eapply step_inv2; eassumption|eapply step_cov; eassumption].
    - split.
      + eapply phaseOK_same_inv; try exact A; fields; try reflexivity. intros k e p X. congruence.
      + eapply inv2_same; try exact B; fields; auto. intros k e acc tasks X. congruence.
      + destruct C as [L V P]. split; fields; [exact L|exact V|]. intros k e p X. congruence.
  Qed.
  Lemma gsteps_inv s t : ginv s -> gsteps s t -> ginv t.
  Proof using Type. intros G H. induction H as [s|s t u H IH S]; [exact G|]. eapply gstep_inv; [apply IH; exact G|exact S]. Qed.

  (** ** At most one holder *)
  Record excl (m : sys) : Prop := mkX {
    x_lock : forall i k, holds (m_procs m i) = Some k -> d_lock (m_db m) = Some k;
    x_one : forall i j k k', holds (m_procs m i) = Some k -> holds (m_procs m j) = Some k' -> i = j;
    x_time : forall i k, holds (m_procs m i) = Some k -> (d_now (m_db m) < m_until m)%Z;
    x_seen : forall i k se, m_procs m i = CStored k se -> se = d_sepoch (m_db m);
    x_none : d_commit (m_db m) = None }.

  Lemma pset_same f i p : pset f i p i = p.
  Proof using Type. unfold pset. rewrite Nat.eqb_refl. reflexivity. Qed.
  Lemma pset_other f i p j : j <> i -> pset f i p j = f j.
  Proof using Type. intros N. unfold pset. destruct (Nat.eqb_spec j i); [contradiction|reflexivity]. Qed.

  Lemma own_frame k s t : own binDate false true k s t ->
    d_lock t = d_lock s /\ d_now t = d_now s /\ d_inserted t = d_inserted s /\ d_logs t = d_logs s.
  Proof using Type. intros H. destruct H; fields; auto. Qed.

  Lemma own_tok k s t c : own binDate false true k s t -> d_commit s = Some c -> cm_tok c = k ->
    forall c', d_commit t = Some c' -> cm_tok c' = k.
  Proof using Type. intros H. destruct H; fields; intros E T c' X; try congruence; injection X as <-; reflexivity. Qed.

  (** A process whose token, and nothing else of the invariant, matters. *)
  Lemma excl_proc m i p : excl m -> holds p = None \/ holds p = holds (m_procs m i) ->
    (forall k se, p = CStored k se -> se = d_sepoch (m_db m)) -> excl (withProc m i p).
  Proof using Type.
    intros [L O T S N] H Hs. split; cbn [withProc m_db m_procs m_until m_used].
    - intros j k Hj. destruct (Nat.eq_dec j i) as [->|Ne].
      + rewrite pset_same in Hj. destruct H as [H|H]; [congruence|]. rewrite H in Hj. eapply L; exact Hj.
      + rewrite pset_other in Hj by exact Ne. eapply L; exact Hj.
    - intros j j' k k' Hj Hj'.
      assert (A : forall a q, holds (pset (m_procs m) i p a) = Some q -> holds (m_procs m a) = Some q).
      { intros a q Ha. destruct (Nat.eq_dec a i) as [->|Ne].
        - rewrite pset_same in Ha. destruct H as [H|H]; [congruence|]. rewrite H in Ha. exact Ha.
        - rewrite pset_other in Ha by exact Ne. exact Ha. }
      eapply O; apply A; eassumption.
    - intros j k Hj. destruct (Nat.eq_dec j i) as [->|Ne].
      + rewrite pset_same in Hj. destruct H as [H|H]; [congruence|]. rewrite H in Hj. eapply T; exact Hj.
      + rewrite pset_other in Hj by exact Ne. eapply T; exact Hj.
    - intros j k se Hj. destruct (Nat.eq_dec j i) as [->|Ne].
      + rewrite pset_same in Hj. eapply Hs; exact Hj.
      + rewrite pset_other in Hj by exact Ne. eapply S; exact Hj.
    - exact N.
  Qed.

  (** A step that changes the data only, for a holder also the storage epoch. *)
  Lemma excl_db m s : excl m -> d_lock s = d_lock (m_db m) -> d_now s = d_now (m_db m) ->
    d_commit s = None ->
    (d_sepoch s = d_sepoch (m_db m) \/ exists i c, m_procs m i = CRun c) -> excl (withDb m s).
  Proof using Type.
    intros [L O T S N] E1 E2 E3 E4. split; cbn [withDb m_db m_procs m_until m_used]; rewrite ?E1, ?E2; auto.
    intros i k se H. destruct E4 as [->|(j & c & Hj)]; [eapply S; exact H|]. exfalso.
    assert (i = j) as <- by (eapply (O i j k (cm_tok c)); [rewrite H|rewrite Hj]; reflexivity). congruence.
  Qed.

  Lemma excl_lockFor m i k p : excl m -> d_lock (m_db m) = None -> holds p = Some k ->
    (forall k se, p <> CStored k se) -> excl (lockFor m i k p).
  Proof using Type.
    intros [L O T S N] E Hp Np.
    assert (Z0 : forall j q, holds (m_procs m j) = Some q -> False) by (intros j q Hj; specialize (L j q Hj); congruence).
    split; cbn [lockFor m_db m_procs m_until m_used]; fields.
    - intros j q Hj. destruct (Nat.eq_dec j i) as [->|Ne]; [rewrite pset_same in Hj; congruence|].
      rewrite pset_other in Hj by exact Ne. destruct (Z0 j q Hj).
    - intros j j' q q' Hj Hj'. destruct (Nat.eq_dec j i) as [->|Ne]; destruct (Nat.eq_dec j' i) as [->|Ne']; [reflexivity| | |].
      + rewrite pset_other in Hj' by exact Ne'. destruct (Z0 _ _ Hj').
      + rewrite pset_other in Hj by exact Ne. destruct (Z0 _ _ Hj).
      + rewrite pset_other in Hj by exact Ne. destruct (Z0 _ _ Hj).
    - intros j q Hj. clear. assert (0 < nsHour)%Z by reflexivity. lia.
    - intros j q se Hj. destruct (Nat.eq_dec j i) as [->|Ne]; [rewrite pset_same in Hj; destruct (Np _ _ Hj)|].
      rewrite pset_other in Hj by exact Ne. eapply S; exact Hj.
    - exact N.
  Qed.

  Lemma excl_step w m n : excl m -> mstep true w m n -> excl n.
  Proof using Type.
    intros X H. destruct H.
    - apply excl_db; fields; auto. apply (x_none _ X).
    - apply excl_db; fields; auto. apply (x_none _ X).
    - apply excl_db; fields; auto. apply (x_none _ X).
    - destruct X as [L O T S N]. split; cbn [withDb m_db m_procs m_until m_used]; fields; auto.
      intros i k Hi. eapply H0; [reflexivity|exact Hi|eapply L; exact Hi].
    - destruct X as [L O T S N].
      assert (A : forall i, holds (forgetProc b (m_procs m i)) = holds (m_procs m i)).
      { intros i. destruct (m_procs m i); try reflexivity. cbn [forgetProc holds]. rewrite forget_tok. reflexivity. }
      split; cbn [m_db m_procs m_until m_used]; fields.
      + intros i k. rewrite A. apply L.
      + intros i j k k'. rewrite !A. apply O.
      + intros i k. rewrite A. apply T.
      + intros i k se Hi. apply (S i k). destruct (m_procs m i); try discriminate Hi; exact Hi.
      + exact N.
    - assert (Z0 : forall j q, holds (m_procs m j) = Some q -> False).
      { intros j q Hj. pose proof (x_time _ X j q Hj). lia. }
      destruct X as [L O T S N]. split; cbn [withDb m_db m_procs m_until m_used]; fields; auto.
      intros i k Hi. destruct (Z0 _ _ Hi).
    - apply excl_proc; [exact X|left; reflexivity|discriminate].
    - apply excl_lockFor; auto; discriminate.
    - apply excl_proc; [exact X| |].
      + right. rewrite H. destruct (d_lock (m_db m)) as [k'|]; [destruct (beq k' k)|]; reflexivity.
      + intros q se. destruct (d_lock (m_db m)) as [k'|]; [destruct (beq k' k)|]; discriminate.
    - apply excl_proc; [exact X|right; rewrite H; reflexivity|]. intros q se E. injection E as _ <-. reflexivity.
    - apply excl_proc; [exact X|right; rewrite H; destruct (inStep _ _); reflexivity|]. intros q se'. destruct (inStep _ _); discriminate.
    - pose proof (own_frame _ _ _ H0) as (F1 & F2 & _ & _). pose proof (own_tok _ _ _ c H0 eq_refl eq_refl) as F3.
      fieldsIn F1. fieldsIn F2.
      assert (Y : excl (withDb m (setCommit t None))).
      { apply excl_db; fields; auto. right. exists i, c. exact H. }
      apply (excl_proc (withDb m (setCommit t None)) i); [exact Y| |].
      + right. cbn [withDb m_procs]. rewrite H. destruct (d_commit t) as [c'|]; cbn [holds]; [rewrite (F3 c' eq_refl)|]; reflexivity.
      + intros q se. destruct (d_commit t); discriminate.
    - apply excl_proc; [exact X| |].
      + destruct (d_lock (m_db m)) as [k'|]; [destruct (beq k' k)|]; [right; rewrite H; reflexivity| |]; left; destruct go; reflexivity.
      + intros q se. destruct (d_lock (m_db m)) as [k'|]; [destruct (beq k' k)|]; try discriminate; destruct go; discriminate.
    - apply excl_proc; [exact X|left; destruct go; reflexivity|]. intros q se; destruct go; discriminate.
    - assert (Hi : holds (m_procs m i) = Some k) by (rewrite H; reflexivity).
      destruct X as [L O T S N].
      assert (Z0 : forall j q, holds (pset (m_procs m) i (if go then Ready else Out) j) = Some q -> False).
      { intros j q Hj. destruct (Nat.eq_dec j i) as [->|Ne]; [rewrite pset_same in Hj; destruct go; discriminate Hj|].
        rewrite pset_other in Hj by exact Ne. apply Ne. eapply O; eassumption. }
      split; cbn [withBoth m_db m_procs m_until m_used]; fields.
      + intros j q Hj. destruct (Z0 _ _ Hj).
      + intros j j' q q' Hj. destruct (Z0 _ _ Hj).
      + intros j q Hj. destruct (Z0 _ _ Hj).
      + intros j q se Hj. destruct (Z0 j q). rewrite Hj. reflexivity.
      + exact N.
    - apply excl_proc; [exact X|left; reflexivity|discriminate].
    - apply excl_proc; [exact X|left; destruct (inStep _ _); reflexivity|]. intros q se'; destruct (inStep _ _); discriminate.
    - apply excl_proc; [exact X|left; destruct (d_cov _); reflexivity|]. intros q se'; destruct (d_cov _); discriminate.
    - apply excl_lockFor; auto; discriminate.
    - apply excl_proc; [exact X|left; reflexivity|discriminate].
    - apply excl_proc; [exact X|right; rewrite H; reflexivity|discriminate].
    - apply (excl_proc (withDb m (setLogs (m_db m) (upd (d_logs (m_db m)) u None))) i);
        [apply excl_db; fields; auto; apply (x_none _ X)|right; cbn [withDb m_procs]; rewrite H; reflexivity|discriminate].
    - apply excl_proc; [exact X|right; rewrite H; reflexivity|discriminate].
    - apply (excl_proc (withDb m (setLogs (m_db m) (upd (d_logs (m_db m)) (logKey (lg_url (l_log l))) (Some l)))) i);
        [apply excl_db; fields; auto; apply (x_none _ X)|right; cbn [withDb m_procs]; rewrite H; reflexivity|discriminate].
    - apply (excl_proc (withDb m (setEpoch (m_db m) (se + 1)%N)) i);
        [apply excl_db; fields; auto; apply (x_none _ X)|right; cbn [withDb m_procs]; rewrite H; reflexivity|discriminate].
    - apply excl_proc; [exact X|right; rewrite H; reflexivity|discriminate].
    - apply excl_proc; [exact X|left; reflexivity|discriminate].
  Qed.

  (** ** The one commit that runs *)
  Definition isRun (p : proc) : bool := match p with CRun _ => true | _ => false end.
  Definition runner (m : sys) (oc : option cm) : Prop :=
    match oc with Some c => exists i, m_procs m i = CRun c | None => forall i, isRun (m_procs m i) = false end.
  Definition view (m : sys) (s : db) : Prop := exists oc, s = setCommit (m_db m) oc /\ runner m oc.

  (** The log states that a starting ct-fetch has read. *)
  Definition procLogs (p : proc) : list lstate :=
    match p with ELogs _ ls | RKeys _ _ ls | RDel _ _ ls _ | RPut _ _ ls => ls | _ => [] end.
  Definition held (m : sys) : Prop :=
    forall i l x, In l (procLogs (m_procs m i)) -> In x (l_claims l) -> In x (d_inserted (m_db m)).

  Lemma run_unique m i j c c' : excl m -> m_procs m i = CRun c -> m_procs m j = CRun c' -> i = j.
  Proof using Type.
    intros X Hi Hj. eapply (x_one _ X i j (cm_tok c) (cm_tok c')); [rewrite Hi|rewrite Hj]; reflexivity.
  Qed.

  Lemma runner_other m i p oc : isRun (m_procs m i) = false -> isRun p = false -> runner m oc -> runner (withProc m i p) oc.
  Proof using Type.
    intros Hi Hp R. destruct oc as [c|]; cbn [runner withProc m_procs] in *.
    - destruct R as [j Hj]. exists j. rewrite pset_other; [exact Hj|]. intros ->. rewrite Hj in Hi. discriminate.
    - intros j. destruct (Nat.eq_dec j i) as [->|N]; [rewrite pset_same; exact Hp|rewrite pset_other by exact N; apply R].
  Qed.

  Lemma sim_quiet m i p s : isRun (m_procs m i) = false -> isRun p = false -> view m s -> view (withProc m i p) s.
  Proof using Type. intros Hi Hp (oc & E & R). exists oc. split; [exact E|]. apply runner_other; assumption. Qed.

  (** A process stops committing. *)
  Lemma sim_leave m i p s : excl m -> isRun p = false -> view m s ->
    exists t, view (withProc m i p) t /\ (t = s \/ gstep s t).
  Proof using Type.
    intros X Hp V. destruct (isRun (m_procs m i)) eqn:Hi.
    2:{ exists s. split; [apply sim_quiet; assumption|left; reflexivity]. }
    destruct (m_procs m i) as [| | | |c| | | | | | | | | ] eqn:Pi; try discriminate Hi.
    destruct V as (oc & E & R). exists (setCommit (m_db m) None). split.
    - exists None. split; [reflexivity|]. cbn [runner withProc m_procs]. intros j.
      destruct (Nat.eq_dec j i) as [->|N]; [rewrite pset_same; exact Hp|rewrite pset_other by exact N].
      destruct (m_procs m j) as [| | | |c'| | | | | | | | | ] eqn:Pj; try reflexivity.
      exfalso. apply N. eapply run_unique; eassumption.
    - right. destruct oc as [c'|]; cbn [runner] in R.
      + destruct c' as [k e ph]. subst s. apply g_step.
        assert (Q : setCommit (m_db m) None = setCommit (setCommit (m_db m) (Some (mkCm k e ph))) None) by reflexivity.
        rewrite Q. eapply step_own with (k := k). eapply SAbort. fields. reflexivity.
      + specialize (R i). rewrite Pi in R. discriminate.
  Qed.

  Lemma view_db m d s : view m s -> exists oc, s = setCommit (m_db m) oc /\ runner m oc /\ view (withDb m d) (setCommit d oc).
  Proof using Type.
    intros (oc & E & R). exists oc. split; [exact E|]. split; [exact R|]. exists oc. split; [reflexivity|exact R].
  Qed.

  Lemma sim_ext m d s : view m s ->
    (forall oc, ext binDate false (setCommit (m_db m) oc) (setCommit d oc)) ->
    exists t, view (withDb m d) t /\ (t = s \/ gstep s t).
  Proof using Type.
    intros V H. destruct (view_db m d s V) as (oc & -> & R & V'). exists (setCommit d oc). split; [exact V'|].
    right. apply g_step. apply step_ext. apply H.
  Qed.

  Lemma quietly m i p s : isRun (m_procs m i) = false -> isRun p = false -> view m s ->
    exists t, view (withProc m i p) t /\ (t = s \/ gstep s t).
  Proof using Type. intros Hi Hp V. exists s. split; [apply sim_quiet; assumption|left; reflexivity]. Qed.

  Lemma sim_both m d i p s : isRun (m_procs m i) = false -> isRun p = false ->
    (exists t, view (withDb m d) t /\ (t = s \/ gstep s t)) ->
    exists t, view (withBoth m d i p) t /\ (t = s \/ gstep s t).
  Proof using Type.
    intros Hi Hp (t & V & G). exists t. split; [|exact G]. apply (sim_quiet (withDb m d) i p t); assumption.
  Qed.

  Lemma no_runner m i s : excl m -> isRun (m_procs m i) = false -> (exists k, holds (m_procs m i) = Some k) ->
    view m s -> s = setCommit (m_db m) None /\ forall j, isRun (m_procs m j) = false.
  Proof using Type.
    intros X Hi [k Hk] (oc & E & R).
    assert (A : forall j, isRun (m_procs m j) = false).
    { intros j. destruct (isRun (m_procs m j)) eqn:Hj; [|reflexivity].
      destruct (m_procs m j) as [| | | |c'| | | | | | | | | ] eqn:Pj; try discriminate Hj.
      assert (i = j) as <- by (eapply (x_one _ X i j k (cm_tok c')); [exact Hk|rewrite Pj; reflexivity]).
      rewrite Pj in Hi. discriminate Hi. }
    split; [|exact A]. destruct oc as [c|]; [|exact E]. destruct R as [j Hj]. specialize (A j). rewrite Hj in A. discriminate.
  Qed.

  Lemma sim_step w m n s : excl m -> held m -> view m s -> mstep true w m n ->
    exists t, view n t /\ (t = s \/ gstep s t).
  Proof using Type.
    intros X Hd V H. destruct H.
    - apply sim_ext; [exact V|]. intros oc. apply (XInsert binDate false (setCommit (m_db m) oc) b e).
    - apply sim_ext; [exact V|]. intros oc. apply (XSaveLog binDate false (setCommit (m_db m) oc) u l). exact H.
    - apply sim_ext; [exact V|]. intros oc. apply (XDelLog binDate false (setCommit (m_db m) oc) u).
    - apply sim_ext; [exact V|]. intros oc. apply (XTick binDate false (setCommit (m_db m) oc) t). exact H.
    - destruct V as (oc & -> & R).
      exists (setCommit (setSets (m_db m) (upd (d_sets (m_db m)) b [])) (option_map (forget b) oc)). split.
      + exists (option_map (forget b) oc). split; [reflexivity|]. destruct oc as [c|]; cbn [option_map runner m_procs] in *.
        * destruct R as [i Hi]. exists i. rewrite Hi. reflexivity.
        * intros i. specialize (R i). destruct (m_procs m i); try reflexivity; discriminate R.
      + right. apply g_step. apply step_ext. apply (XEvict binDate false (setCommit (m_db m) oc) b). exact H.
    - assert (Z0 : forall j, isRun (m_procs m j) = false).
      { intros j. destruct (m_procs m j) as [| | | |c'| | | | | | | | | ] eqn:Pj; try reflexivity.
        assert (Hj : holds (m_procs m j) = Some (cm_tok c')) by (rewrite Pj; reflexivity).
        pose proof (x_time _ X j _ Hj). clear - H H0. lia. }
      destruct V as (oc & -> & R).
      assert (oc = None) as ->.
      { destruct oc as [c|]; [|reflexivity]. destruct R as [j Hj]. specialize (Z0 j). rewrite Hj in Z0. discriminate. }
      exists (setCommit (setLock (m_db m) None) None). split.
      + exists None. split; [reflexivity|exact Z0].
      + right. apply g_step. apply step_ext. apply (XUnlock binDate false (setCommit (m_db m) None)). reflexivity.
    - apply sim_leave; auto.
    - destruct V as (oc & -> & R). exists (setCommit (setLock (m_db m) (Some k)) oc). split.
      + exists oc. split; [reflexivity|].
        apply (runner_other m i (CHave k) oc); [rewrite H; reflexivity|reflexivity|exact R].
      + right. apply g_step. apply step_ext. apply (XAcquire binDate false (setCommit (m_db m) oc) k). exact H0.
    - apply quietly; [rewrite H; reflexivity| |exact V].
      destruct (d_lock (m_db m)) as [k'|]; [destruct (beq k' k)|]; reflexivity.
    - apply quietly; [rewrite H; reflexivity|reflexivity|exact V].
    - destruct (inStep (d_epoch (m_db m)) se) eqn:E.
      2:{ apply quietly; [rewrite H; reflexivity|reflexivity|exact V]. }
      assert (Hk : holds (m_procs m i) = Some k) by (rewrite H; reflexivity).
      destruct (no_runner m i s X) as [-> A]; [rewrite H; reflexivity|exists k; exact Hk|exact V|].
      exists (setPhase (setCommit (m_db m) None) k (d_epoch (m_db m)) (PLoad [])). split.
      + exists (Some (mkCm k (d_epoch (m_db m)) (PLoad []))). split; [reflexivity|].
        cbn [runner withProc m_procs]. exists i. apply pset_same.
      + right. apply g_step. eapply step_own with (k := k).
        apply (SStart binDate false true k (setCommit (m_db m) None)); fields; [reflexivity|reflexivity| |].
        * apply (x_lock _ X i). exact Hk.
        * rewrite <- (x_seen _ X i k se H). exact E.
    - destruct V as (oc & -> & R).
      assert (oc = Some c) as ->.
      { destruct oc as [c'|]; cbn [runner] in R.
        - destruct R as [j Hj]. assert (i = j) as <- by (eapply run_unique; eassumption). congruence.
        - specialize (R i). rewrite H in R. discriminate. }
      exists t. split; [|right; apply g_step; eapply step_own; exact H0].
      exists (d_commit t). split; [destruct t; reflexivity|].
      destruct (d_commit t) as [c'|] eqn:Ct; cbn [runner withBoth m_procs].
      + exists i. apply pset_same.
      + intros j. destruct (Nat.eq_dec j i) as [->|N]; [rewrite pset_same; reflexivity|rewrite pset_other by exact N].
        destruct (m_procs m j) as [| | | |c'| | | | | | | | | ] eqn:Pj; try reflexivity.
        exfalso. apply N. eapply run_unique; eassumption.
    - apply quietly; [rewrite H; reflexivity| |exact V].
      destruct (d_lock (m_db m)) as [k'|]; [destruct (beq k' k)|]; destruct go; reflexivity.
    - apply quietly; [destruct H as [-> | ->]; reflexivity|destruct go; reflexivity|exact V].
    - assert (Hk : holds (m_procs m i) = Some k) by (rewrite H; reflexivity).
      apply sim_both; [rewrite H; reflexivity|destruct go; reflexivity|].
      destruct (no_runner m i s X) as [-> A]; [rewrite H; reflexivity|exists k; exact Hk|exact V|].
      exists (setCommit (setLock (m_db m) None) None). split.
      + exists None. split; [reflexivity|exact A].
      + right. apply g_step. apply step_ext. apply (XUnlock binDate false (setCommit (m_db m) None)). reflexivity.
    - apply quietly; [rewrite H; reflexivity|reflexivity|exact V].
    - apply quietly; [rewrite H; reflexivity|destruct (inStep _ _); reflexivity|exact V].
    - apply quietly; [rewrite H; reflexivity|destruct (d_cov _); reflexivity|exact V].
    - destruct V as (oc & -> & R). exists (setCommit (setLock (m_db m) (Some k)) oc). split.
      + exists oc. split; [reflexivity|].
        apply (runner_other m i (RKeys k se ls) oc); [rewrite H; reflexivity|reflexivity|exact R].
      + right. apply g_step. apply step_ext. apply (XAcquire binDate false (setCommit (m_db m) oc) k). exact H0.
    - apply quietly; [rewrite H; reflexivity|reflexivity|exact V].
    - apply quietly; [rewrite H; reflexivity|reflexivity|exact V].
    - apply sim_both; [rewrite H; reflexivity|reflexivity|].
      apply sim_ext; [exact V|]. intros oc. apply (XDelLog binDate false (setCommit (m_db m) oc) u).
    - apply quietly; [rewrite H; reflexivity|reflexivity|exact V].
    - apply sim_both; [rewrite H; reflexivity|reflexivity|].
      apply sim_ext; [exact V|]. intros oc. apply (XSaveLog binDate false (setCommit (m_db m) oc) _ l).
      fields. intros x Hx. eapply Hd; [rewrite H; left; reflexivity|exact Hx].
    - assert (Hk : holds (m_procs m i) = Some k) by (rewrite H; reflexivity).
      apply sim_both; [rewrite H; reflexivity|reflexivity|].
      destruct (no_runner m i s X) as [-> A]; [rewrite H; reflexivity|exists k; exact Hk|exact V|].
      exists (setCommit (setEpoch (m_db m) (se + 1)%N) None). split.
      + exists None. split; [reflexivity|exact A].
      + right. apply (g_epoch (setCommit (m_db m) None)). reflexivity.
    - apply sim_leave; auto.
    - apply quietly; [rewrite H; reflexivity|reflexivity|exact V].
  Qed.

  Lemma step_grows pr w m n : mstep pr w m n -> forall x, In x (d_inserted (m_db m)) -> In x (d_inserted (m_db n)).
  Proof using Type.
    intros H x Hx. destruct H; cbn [withDb withProc withBoth lockFor m_db]; fields; auto.
    - right; exact Hx.
    - pose proof (own_frame _ _ _ H0) as (_ & _ & F & _). rewrite F. exact Hx.
  Qed.

  Lemma held_set m d q i p : held m -> (forall x, In x (d_inserted (m_db m)) -> In x (d_inserted d)) ->
    (forall l x, In l (procLogs p) -> In x (l_claims l) -> In x (d_inserted d)) ->
    forall u, held (mkSys d (pset (m_procs m) i p) q u).
  Proof using Type.
    intros Hd G Hp u j l x. cbn [m_procs m_db]. destruct (Nat.eq_dec j i) as [->|N].
    - rewrite pset_same. apply Hp.
    - rewrite pset_other by exact N. intros Hl Hx. apply G. eapply Hd; eassumption.
  Qed.

  Lemma held_step pr w m n : held m -> covOK (m_db m) -> mstep pr w m n -> held n.
  Proof using Type.
    intros Hd C H. pose proof (step_grows _ _ _ _ H) as G. destruct H.
    1-4,6: intros i l0 x Hl Hx; apply G; eapply Hd; eassumption.
    - intros i l0 x Hl Hx. apply G. apply (Hd i l0 x); [|exact Hx]. cbn [m_procs] in Hl.
      destruct (m_procs m i); exact Hl.
    - apply held_set; [exact Hd|exact G|intros l x []].
    - apply held_set; [exact Hd|exact G|intros l x []].
    - apply held_set; [exact Hd|exact G|]. intros l x. destruct (d_lock (m_db m)) as [k'|]; [destruct (beq k' k)|]; intros [].
    - apply held_set; [exact Hd|exact G|intros l x []].
    - apply held_set; [exact Hd|exact G|]. intros l x. destruct (inStep _ _); intros [].
    - apply held_set; [exact Hd|exact G|]. intros l x. destruct (d_commit t); intros [].
    - apply held_set; [exact Hd|exact G|]. intros l x. destruct (d_lock (m_db m)) as [k'|]; [destruct (beq k' k)|]; destruct go; intros [].
    - apply held_set; [exact Hd|exact G|]. intros l x. destruct go; intros [].
    - apply held_set; [exact Hd|exact G|]. intros l x. destruct go; intros [].
    - apply held_set; [exact Hd|exact G|intros l x []].
    - apply held_set; [exact Hd|exact G|]. intros l x. destruct (inStep _ _); intros [].
    - apply held_set; [exact Hd|exact G|]. intros l x. destruct (d_cov (m_db m)) as [ls|] eqn:E; [|intros []].
      cbn [procLogs]. intros Hl Hx. eapply v_cov; eassumption.
    - apply held_set; [exact Hd|exact G|]. intros l x Hl Hx. apply G. eapply Hd; [rewrite H; exact Hl|exact Hx].
    - apply held_set; [exact Hd|exact G|intros l x []].
    - apply held_set; [exact Hd|exact G|]. intros l x Hl Hx. apply G. eapply Hd; [rewrite H; exact Hl|exact Hx].
    - apply held_set; [exact Hd|exact G|]. intros l x Hl Hx. apply G. eapply Hd; [rewrite H; exact Hl|exact Hx].
    - apply held_set; [exact Hd|exact G|]. intros l x Hl Hx. apply G. eapply Hd; [rewrite H; exact Hl|exact Hx].
    - apply held_set; [exact Hd|exact G|]. intros l0 x Hl Hx. apply G. eapply Hd; [rewrite H; right; exact Hl|exact Hx].
    - apply held_set; [exact Hd|exact G|intros l x []].
    - apply held_set; [exact Hd|exact G|intros l x []].
    - apply held_set; [exact Hd|exact G|intros l x []].
  Qed.

  Lemma view_cov m s : view m s -> covOK s -> covOK (m_db m) \/ d_commit (m_db m) <> None.
  Proof using Type.
    intros (oc & -> & _) [L Vc P]. fieldsIn L. fieldsIn Vc. destruct (d_commit (m_db m)) eqn:E; [right; discriminate|left].
    split; [exact L|exact Vc|]. intros k e p C. congruence.
  Qed.

  (** ** Every run of many processes is a run with one commit at a time *)
  Theorem sim_run now m : msteps true (emptySys now) m ->
    excl m /\ held m /\ exists s, view m s /\ gsteps (emptyDb now) s /\ ginv s.
  Proof using Type.
    intros H. remember (emptySys now) as m0 eqn:E0. induction H as [m|m n o w H IH S].
    - subst m. split; [|split].
      + split; cbn [emptySys m_procs m_db m_until m_used holds emptyDb d_commit]; try discriminate; auto.
      + intros i l x [].
      + exists (emptyDb now). split; [|split].
        * exists None. split; [reflexivity|]. intros i. reflexivity.
        * constructor.
        * split; [apply empty_inv|apply empty_inv2|]. split; cbn [emptyDb d_logs d_cov d_commit]; discriminate.
    - specialize (IH E0). destruct IH as (X & Hd & s & V & G & I).
      destruct (sim_step w n o s X Hd V S) as (t & V' & T).
      split; [eapply excl_step; eassumption|]. split.
      + eapply held_step; [exact Hd| |exact S].
        destruct (view_cov n s V (g_cov _ I)) as [C|C]; [exact C|]. destruct (C (x_none _ X)).
      + exists t. split; [exact V'|]. destruct T as [->|T]; [auto|].
        split; [eapply gsteps_step; eassumption|eapply gstep_inv; eassumption].
  Qed.
End Sys.
