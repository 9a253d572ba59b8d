(** * Concrete runs of the commit model
    An executable version of the steps of CommitModel.v, used only to exhibit
    runs: a list of actions that executes is a run of the model. *)
From Verif Require Import Base MerkleModel SerialModel SerialProofs TimeModel CommitModel CommitProofs CommitProofs2 CommitRetry.

Inductive act :=
| AInsert (b e : bytes) | ASave (k : bytes) (l : lstate) | ADelLog (k : bytes) | ATick (t : Z) | AEvict (b : bytes)
| AAcquire (k : bytes) | AUnlock | ARestore | ALoss | ARestoreLog (k : bytes) (n : nat)
| AContinue (k : bytes) (l : lstate)
| AAbort | AStart (k : bytes) | ALoad (u : bytes) | AScan | AList (bins : list bytes)
| ATaskScan (i : nat) | ASee (i : nat) (x : bytes) | ACovered (i : nat) | AMerge (i : nat)
| AReplace (i : nat) | ARemove (i n : nat) | ATaskDone (i : nat)
| ACover | AExpire (b : bytes) | AExpired | ANext | AFinish.

Definition memb (x : bytes) (l : list bytes) : bool := existsb (beq x) l.
Definition memp (x : bytes * bytes) (l : list (bytes * bytes)) : bool :=
  existsb (fun y => beq (fst x) (fst y) && beq (snd x) (snd y)) l.
Fixpoint nodupb (l : list bytes) : bool :=
  match l with [] => true | x :: l' => negb (memb x l') && nodupb l' end.

Lemma memb_spec x l : memb x l = true <-> In x l.
Proof.
  unfold memb. rewrite existsb_exists. split.
  - intros (y & Hy & E). apply beq_eq in E. congruence.
  - intros H. exists x. split; [exact H|apply beq_refl].
Qed.
Lemma memp_spec x l : memp x l = true -> In x l.
Proof.
  unfold memp. rewrite existsb_exists. intros ((y1, y2) & Hy & E). apply andb_prop in E.
  destruct x as [x1 x2]. cbn [fst snd] in E. destruct E as [E1 E2]. apply beq_eq in E1, E2. congruence.
Qed.
Lemma nodupb_spec l : nodupb l = true -> NoDup l.
Proof.
  induction l as [|x l IH]; cbn [nodupb]; intros H; [constructor|]. apply andb_prop in H. destruct H as [H1 H2].
  constructor; [|auto]. intros I. apply memb_spec in I. rewrite I in H1. discriminate.
Qed.

Section Exec.
  Variable binDate : bytes -> Z.
  Variable uniq lossy : bool.

  Definition when {A} (c : bool) (a : A) : option A := if c then Some a else None.

  Definition idle (s : db) : bool := match d_commit s with None => true | _ => false end.

  Definition exec (a : act) (s : db) : option db :=
    match a, d_commit s with
    | AInsert b e, _ => Some (setInserted (setSets s (upd (d_sets s) b (e :: d_sets s b))) ((b, e) :: d_inserted s))
    | ASave k l, _ => when (forallb (fun x => memp x (d_inserted s)) (l_claims l)) (setLogs s (upd (d_logs s) k (Some l)))
    | ADelLog k, _ => Some (setLogs s (upd (d_logs s) k None))
    | ATick t, _ => when (d_now s <=? t)%Z (setNow s t)
    | AEvict b, _ => when (binDate b <=? d_now s)%Z
        (setCommit (setSets s (upd (d_sets s) b [])) (option_map (forget b) (d_commit s)))
    | AAcquire k, _ => match d_lock s with None => Some (setLock s (Some k)) | _ => None end
    | AUnlock, None => Some (setLock s None)
    | ARestore, None =>
        match d_lock s with
        | None => when (negb (inStep (d_epoch s) (d_sepoch s))) (setEpoch s (d_sepoch s + 1)%N)
        | _ => None
        end
    | ALoss, _ => when lossy (setSets (setLogs (setEpoch (setLock s None) 0) (fun _ => None)) (fun _ => []))
    | ARestoreLog k n, _ =>
        match d_cov s with
        | Some ls => match nth_error ls n with
            | Some l => when lossy (setLogs s (upd (d_logs s) k (Some l)))
            | None => None
            end
        | None => None
        end
    | AContinue k l', _ =>
        match d_logs s k with
        | Some l => when (lossy && forallb (fun x => memp x (l_claims l) || memp x (d_inserted s)) (l_claims l'))
            (setLogs s (upd (d_logs s) k (Some l')))
        | None => None
        end
    | AAbort, Some _ => Some (setCommit s None)
    | AStart k, None =>
        match d_lock s with
        | Some k' => when (beq k k' && inStep (d_epoch s) (d_sepoch s)) (setPhase s k (d_epoch s) (PLoad []))
        | None => None
        end
    | ALoad u, Some (mkCm k e (PLoad acc)) =>
        match d_logs s u with Some l => Some (setPhase s k e (PLoad (acc ++ [l]))) | None => None end
    | AScan, Some (mkCm k e (PLoad acc)) => Some (setPhase s k e (PScan acc (map fst (d_inserted s))))
    | AList bins, Some (mkCm k e (PScan acc must)) =>
        when (forallb (fun b => memb b bins) must && (negb uniq || nodupb bins))
          (setPhase s k e (PMove acc (map (fun b => (b, TNew)) bins)))
    | ATaskScan i, Some (mkCm k e (PMove acc tasks)) =>
        match nth_error tasks i with
        | Some (b, TNew) => Some (setPhase s k e (PMove acc (setTask i (TScan (d_sets s b) []) tasks)))
        | _ => None
        end
    | ASee i x, Some (mkCm k e (PMove acc tasks)) =>
        match nth_error tasks i with
        | Some (b, TScan must seen) => when (memb x (d_sets s b))
            (setPhase s k e (PMove acc (setTask i (TScan must (x :: seen)) tasks)))
        | _ => None
        end
    | ACovered i, Some (mkCm k e (PMove acc tasks)) =>
        match nth_error tasks i with
        | Some (b, TScan must seen) => when (forallb (fun x => memb x seen) must)
            (setPhase s k e (PMove acc (setTask i
              (match seen with
               | [] => TDone
               | _ => TRead (filter (isCovered (cutoffs acc)) seen)
               end) tasks)))
        | _ => None
        end
    | AMerge i, Some (mkCm k e (PMove acc tasks)) =>
        match nth_error tasks i with
        | Some (b, TRead covered) => Some (setPhase s k e (PMove acc (setTask i
            (TWrite covered (dedup (d_files s b ++ map asSerial covered))) tasks)))
        | _ => None
        end
    | AReplace i, Some (mkCm k e (PMove acc tasks)) =>
        match nth_error tasks i with
        | Some (b, TWrite covered out) => Some (setPhase (setFiles s (upd (d_files s) b out)) k e
            (PMove acc (setTask i (TRemove covered) tasks)))
        | _ => None
        end
    | ARemove i n, Some (mkCm k e (PMove acc tasks)) =>
        match nth_error tasks i with
        | Some (b, TRemove todo) => Some (setPhase (setSets s (upd (d_sets s) b
                   (filter (fun x => negb (existsb (beq x) (firstn n todo))) (d_sets s b)))) k e
                 (PMove acc (setTask i (TRemove (skipn n todo)) tasks)))
        | _ => None
        end
    | ATaskDone i, Some (mkCm k e (PMove acc tasks)) =>
        match nth_error tasks i with
        | Some (b, TRemove todo) => Some (setPhase s k e (PMove acc (setTask i TDone tasks)))
        | _ => None
        end
    | ACover, Some (mkCm k e (PMove acc tasks)) =>
        when (forallb isDone tasks) (setPhase (setCov s (Some acc)) k e PExpire)
    | AExpire b, Some (mkCm k e PExpire) =>
        when (binDate b + nsHour - nsMilli <? d_now s)%Z (setFiles s (upd (d_files s) b []))
    | AExpired, Some (mkCm k e PExpire) => Some (setPhase s k e PEpoch)
    | ANext, Some (mkCm k e PEpoch) => Some (setPhase (setEpoch s (d_epoch s + 1)%N) k e PFinish)
    | AFinish, Some (mkCm k e PFinish) => Some (setCommit (setSEpoch s e) None)
    | _, _ => None
    end.

  Fixpoint execs (l : list act) (s : db) : option db :=
    match l with
    | [] => Some s
    | a :: l' => match exec a s with Some t => execs l' t | None => None end
    end.

  Lemma when_some {A} c (a b : A) : when c a = Some b -> c = true /\ a = b.
  Proof using Type. unfold when. destruct c; [|discriminate]. intros H; injection H as ->; auto. Qed.

  Ltac fin := match goal with H : Some _ = Some _ |- _ => injection H as <- end.
  Ltac wh := match goal with H : when _ _ = Some _ |- _ => apply when_some in H; let W := fresh "W" in destruct H as [W <-] end.

  Lemma exec_step a s t : inv2 s -> exec a s = Some t -> step binDate false uniq lossy s t.
  Proof using Type.
    intros I H. destruct a; unfold exec in H;
      try (destruct (d_commit s) as [[k0 e0 [acc0|acc0 must0|acc0 tasks0| | |]]|] eqn:C0; try discriminate H);
      try (match type of H with context [nth_error ?ts ?i] =>
             destruct (nth_error ts i) as [[b0 []]|] eqn:N0; try discriminate H end);
      try fin; try wh.
    all: try (apply step_ext; econstructor; fail).
    all: try (eapply step_own with (k := k0); econstructor; eassumption).
    all: try (apply step_ext; apply XSaveLog; intros x Hx; apply memp_spec; rewrite forallb_forall in W; apply W; exact Hx).
    all: try (apply step_ext; apply XTick; lia).
    all: try (apply step_ext; rewrite <- C0; apply XEvict; lia).
    all: try (destruct (d_lock s) eqn:L0; try discriminate H; first [fin|wh]; apply step_ext; apply XAcquire; exact L0).
    all: try (apply step_ext; apply XUnlock; exact C0).
    all: try (destruct (d_lock s) eqn:L0; try discriminate H; wh; apply step_ext; apply XRestore;
              [exact C0|exact L0|apply negb_true_iff; exact W]).
    all: try (apply step_ext; apply XLoss; exact W).
    all: try (destruct (d_cov s) as [ls|] eqn:V0; [|discriminate H]; destruct (nth_error ls n) eqn:N0; [|discriminate H];
              wh; apply step_ext; eapply XRestoreLog; [exact W|exact V0|eapply nth_error_In; exact N0]).
    all: try (destruct (d_logs s k) as [l0|] eqn:V0; [|discriminate H]; wh; apply andb_prop in W; destruct W as [W1 W2];
              apply step_ext; eapply XContinueLog; [exact W1|exact V0|];
              intros x Hx; rewrite forallb_forall in W2; specialize (W2 x Hx); apply orb_prop in W2;
              destruct W2; [left|right]; apply memp_spec; assumption).
    all: try (destruct (d_lock s) eqn:L0; [|discriminate H]; wh; apply andb_prop in W; destruct W as [W1 W2];
              apply beq_eq in W1; subst; eapply step_own; apply SStart; auto).
    all: try (destruct (d_logs s u) as [l0|] eqn:V0; [|discriminate H]; fin; eapply step_own; eapply SLoad; eassumption).
    - eapply step_own. apply SScanStart; [exact C0|]. intros b Hb. destruct (d_sets s b) as [|x l] eqn:E; [congruence|].
      apply (in_map fst _ (b, x)). apply (n_sets _ I). rewrite E. left; reflexivity.
    - apply andb_prop in W. destruct W as [W1 W2]. eapply step_own. eapply SScanEnd; [exact C0| |].
      + intros b Hb. rewrite forallb_forall in W1. apply memb_spec. apply W1. exact Hb.
      + intros U. rewrite U in W2. cbn [negb orb] in W2. apply nodupb_spec. exact W2.
    - eapply step_own. eapply STaskSee; [exact C0|exact N0|]. apply memb_spec. exact W.
    - eapply step_own. eapply STaskCovered; [exact C0|exact N0|]. intros x Hx. rewrite forallb_forall in W.
      apply memb_spec. apply W. exact Hx.
    - eapply step_own. eapply STaskRemove; [exact C0|]. rewrite N0, firstn_skipn. reflexivity.
    - eapply step_own. eapply SExpire; [exact C0|]. lia.
  Qed.

  Lemma execs_steps : forall l s t, inv2 s -> execs l s = Some t -> steps binDate false uniq lossy s t.
  Proof using Type.
    assert (G : forall l s0 s t, steps binDate false uniq lossy s0 s -> inv2 s -> execs l s = Some t ->
      steps binDate false uniq lossy s0 t).
    { induction l as [|a l IH]; cbn [execs]; intros s0 s t S I H.
      - injection H as <-. exact S.
      - destruct (exec a s) as [u|] eqn:E; [|discriminate]. pose proof (exec_step a s u I E) as T.
        apply (IH s0 u t); [eapply steps_step; eassumption| |exact H].
        eapply step_inv2; [exact I|exact T]. }
    intros l s t I H. apply (G l s s t); [constructor|exact I|exact H].
  Qed.

  (** Actions of the committing process. *)
  Definition ownAct (a : act) : bool :=
    match a with
    | AAbort | ALoad _ | AScan | AList _ | ATaskScan _ | ASee _ _ | ACovered _ | AMerge _ | AReplace _
    | ARemove _ _ | ATaskDone _ | ACover | AExpire _ | AExpired | ANext | AFinish => true
    | _ => false
    end.

  Lemma exec_own a s t k e p : inv2 s -> ownAct a = true -> d_commit s = Some (mkCm k e p) ->
    exec a s = Some t -> own binDate false uniq k s t.
  Proof using Type.
    intros I O C0 H. destruct a; try discriminate O; unfold exec in H; rewrite C0 in H;
      try (destruct p as [acc0|acc0 must0|acc0 tasks0| | |]; try discriminate H);
      try (match type of H with context [nth_error ?ts ?i] =>
             destruct (nth_error ts i) as [[b0 []]|] eqn:N0; try discriminate H end);
      try fin; try wh.
    all: try (econstructor; eassumption).
    all: try (destruct (d_logs s u) as [l0|] eqn:V0; [|discriminate H]; fin; eapply SLoad; eassumption).
    - apply SScanStart; [exact C0|]. intros b Hb. destruct (d_sets s b) as [|x l] eqn:E; [congruence|].
      apply (in_map fst _ (b, x)). apply (n_sets _ I). rewrite E. left; reflexivity.
    - apply andb_prop in W. destruct W as [W1 W2]. eapply SScanEnd; [exact C0| |].
      + intros b Hb. rewrite forallb_forall in W1. apply memb_spec. apply W1. exact Hb.
      + intros U. rewrite U in W2. cbn [negb orb] in W2. apply nodupb_spec. exact W2.
    - eapply STaskSee; [exact C0|exact N0|]. apply memb_spec. exact W.
    - eapply STaskCovered; [exact C0|exact N0|]. intros x Hx. rewrite forallb_forall in W.
      apply memb_spec. apply W. exact Hx.
    - eapply STaskRemove; [exact C0|]. rewrite N0, firstn_skipn. reflexivity.
    - eapply SExpire; [exact C0|]. lia.
  Qed.
End Exec.

Lemma execs_running binDate lossy k s : forall l t u, inv2 t -> running binDate false k s t ->
  (exists c, d_commit t = Some c /\ cm_tok c = k) ->
  forallb (fun a => ownAct a && negb (match a with AAbort | AFinish => true | _ => false end)) l = true ->
  execs binDate true lossy l t = Some u -> running binDate false k s u.
Proof.
  induction l as [|a l IH]; cbn [execs forallb]; intros t u I R (c & C & T) F H.
  - injection H as <-. exact R.
  - destruct (exec _ _ _ a t) as [t'|] eqn:E; [|discriminate]. apply andb_prop in F. destruct F as [F1 F2].
    apply andb_prop in F1. destruct F1 as [F0 F1]. destruct c as [k' e p]. cbn [cm_tok] in T. subst k'.
    assert (exists c', d_commit t' = Some c' /\ cm_tok c' = k) as C'.
    { clear IH. destruct a; try discriminate F0; try discriminate F1; unfold exec in E; rewrite C in E;
        try (destruct p as [acc0|acc0 must0|acc0 tasks0| | |]; try discriminate E);
        try (match type of E with context [nth_error ?ts ?i] =>
             destruct (nth_error ts i) as [[b0 []]|] eqn:N0; try discriminate E end);
        try (match type of E with context [d_logs t ?u] => destruct (d_logs t u); [|discriminate E] end);
        try (apply when_some in E; destruct E as [_ E]); try injection E as <-; try subst t'; fields;
        eexists; (split; [first [reflexivity|exact C]|reflexivity]). }
    apply (IH t' u); [| | |exact F2|exact H].
    + eapply step_inv2; [exact I|]. eapply exec_step; eassumption.
    + eapply run_step; [exact R|eapply exec_own; eassumption|]. destruct C' as (c' & C' & _). congruence.
    + exact C'.
Qed.
