(** * Concrete runs of the system of committing processes
    An executable version of the steps of CommitSystem.v, used only to exhibit
    runs: a list of actions that executes is a run of the model. *)
From Verif Require Import Base MerkleModel SerialModel SerialProofs TimeModel StoreModel
  CommitModel CommitProofs CommitProofs2 CommitExec CommitSystem CommitSystemProofs CommitSystemProofs2.

Inductive mact :=
| BInsert (b e : bytes) | BSave (u : bytes) (l : lstate) | BTick (t : Z) | BExpireLock
| BDie (i : nat) | BAcquire (i : nat) (k : bytes) | BOwn (i : nat) (a : act)
| BTake (i : nat) (k : bytes) | BKeys (i : nat)
(** The one step that a process can take in its state: the guards of a commit,
    the release, the check of ct-fetch and its restoration. *)
| BNext (i : nat).

(** Only the first ten processes are used. *)
Definition actor (a : mact) : nat :=
  match a with
  | BInsert _ _ | BSave _ _ | BTick _ | BExpireLock => 0
  | BDie i | BAcquire i _ | BOwn i _ | BTake i _ | BKeys i | BNext i => i
  end.
Definition first10 (m : sys) : Prop := forall i, (10 <= i)%nat -> m_procs m i = Out.
Definition noHolder (m : sys) : bool :=
  forallb (fun i => match holds (m_procs m i) with None => true | Some _ => false end) (seq 0 10).

Section Exec.
  Variable binDate : bytes -> Z.
  Variable prompt : bool.

  Definition keysOf (ks : list bytes) (a : mact) (m : sys) : list bytes :=
    match a with
    | BSave u _ => u :: ks
    | BNext i => match m_procs m i with RPut _ _ (l :: _) => key l :: ks | _ => ks end
    | _ => ks
    end.

  Definition next (m : sys) (i : nat) : option sys :=
    match m_procs m i with
    | Out => Some (withProc m i (EStored (d_sepoch (m_db m))))
    | CHave k => Some (withProc m i (match d_lock (m_db m) with
                                     | Some k' => if beq k' k then CLocked k else Rel k false
                                     | None => Rel k false
                                     end))
    | CLocked k => Some (withProc m i (CStored k (d_sepoch (m_db m))))
    | CStored k se => Some (withProc m i (if inStep (d_epoch (m_db m)) se
                                      then CRun (mkCm k (d_epoch (m_db m)) (PLoad [])) else Rel k false))
    | Rel k go => Some (withProc m i (match d_lock (m_db m) with
                                      | Some k' => if beq k' k then RelSure k go else if go then Ready else Out
                                      | None => if go then Ready else Out
                                      end))
    | RelSure k go => Some (withBoth m (setLock (m_db m) None) i (if go then Ready else Out))
    | EStored se => Some (withProc m i (if inStep (d_epoch (m_db m)) se then Ready else EBehind se))
    | EBehind se => Some (withProc m i (match d_cov (m_db m) with Some ls => ELogs se ls | None => Out end))
    | RDel k se ls (u :: todo) =>
        Some (withBoth m (setLogs (m_db m) (upd (d_logs (m_db m)) u None)) i (RDel k se ls todo))
    | RDel k se ls [] => Some (withProc m i (RPut k se ls))
    | RPut k se (l :: ls) =>
        Some (withBoth m (setLogs (m_db m) (upd (d_logs (m_db m)) (logKey (lg_url (l_log l))) (Some l))) i (RPut k se ls))
    | RPut k se [] => Some (withBoth m (setEpoch (m_db m) (se + 1)%N) i (Rel k true))
    | Ready => Some (withProc m i Out)
    | _ => None
    end.

  Definition mexec (ks : list bytes) (a : mact) (m : sys) : option sys :=
    match a with
    | BInsert b e => Some (withDb m (setInserted (setSets (m_db m) (upd (d_sets (m_db m)) b (e :: d_sets (m_db m) b)))
                                          ((b, e) :: d_inserted (m_db m))))
    | BSave u l => when (forallb (fun x => memp x (d_inserted (m_db m))) (l_claims l))
        (withDb m (setLogs (m_db m) (upd (d_logs (m_db m)) u (Some l))))
    | BTick t => when ((d_now (m_db m) <=? t)%Z && (negb prompt || (t <? m_until m)%Z || noHolder m)) (withDb m (setNow (m_db m) t))
    | BExpireLock => when (m_until m <=? d_now (m_db m))%Z (withDb m (setLock (m_db m) None))
    | BDie i => Some (withProc m i Out)
    | BAcquire i k =>
        match m_procs m i, d_lock (m_db m) with
        | Out, None => when (negb (memb k (m_used m))) (lockFor m i k (CHave k))
        | _, _ => None
        end
    | BOwn i a =>
        match m_procs m i with
        | CRun c => if ownAct a then
            match exec binDate true false a (setCommit (m_db m) (Some c)) with
            | Some t => Some (withBoth m (setCommit t None) i
                          (match d_commit t with Some c' => CRun c' | None => Rel (cm_tok c) false end))
            | None => None
            end
            else None
        | _ => None
        end
    | BTake i k =>
        match m_procs m i, d_lock (m_db m) with
        | ELogs se ls, None => when (negb (memb k (m_used m))) (lockFor m i k (RKeys k se ls))
        | _, _ => None
        end
    | BKeys i =>
        match m_procs m i with
        | RKeys k se ls => Some (withProc m i (RDel k se ls (listed (m_db m) ks)))
        | _ => None
        end
    | BNext i => next m i
    end.

  Fixpoint mexecs (ks : list bytes) (l : list mact) (m : sys) : option sys :=
    match l with
    | [] => Some m
    | a :: l' => if (actor a <? 10)%nat then
        match mexec ks a m with Some n => mexecs (keysOf ks a m) l' n | None => None end else None
    end.

  Lemma not_used k l : negb (memb k l) = true -> ~ In k l.
  Proof using Type. intros H I. apply memb_spec in I. rewrite I in H. discriminate. Qed.

  Lemma next_step m i n : next m i = Some n -> mstep binDate prompt (Some i) m n.
  Proof using Type.
    unfold next. destruct (m_procs m i) as [| | | | | | | | | | |k se ls [|u todo]|k se [|l ls]| ] eqn:P;
      intros H; try discriminate H; injection H as <-; econstructor; eassumption.
  Qed.

  Lemma first10_step ks a m n : first10 m -> (actor a <? 10)%nat = true -> mexec ks a m = Some n -> first10 n.
  Proof using Type.
    intros F T H i Hi. apply Nat.ltb_lt in T.
    assert (N : i <> actor a) by (intros ->; exact (Nat.lt_irrefl _ (Nat.lt_le_trans _ _ _ T Hi))).
    destruct a as [b e|u l|t| |j|j k|j a|j k|j|j]; cbn [mexec actor] in *.
    - injection H as <-. apply F; exact Hi.
    - apply when_some in H. destruct H as [_ <-]. apply F; exact Hi.
    - apply when_some in H. destruct H as [_ <-]. apply F; exact Hi.
    - apply when_some in H. destruct H as [_ <-]. apply F; exact Hi.
    - injection H as <-. cbn [withProc m_procs]. rewrite pset_other by exact N. apply F; exact Hi.
    - destruct (m_procs m j); try discriminate H. destruct (d_lock (m_db m)); [discriminate H|].
      apply when_some in H. destruct H as [_ <-]. cbn [lockFor m_procs]. rewrite pset_other by exact N. apply F; exact Hi.
    - destruct (m_procs m j); try discriminate H. destruct (ownAct a); [|discriminate H].
      destruct (exec _ _ _ _ _); [|discriminate H]. injection H as <-. cbn [withBoth m_procs].
      rewrite pset_other by exact N. apply F; exact Hi.
    - destruct (m_procs m j); try discriminate H. destruct (d_lock (m_db m)); [discriminate H|].
      apply when_some in H. destruct H as [_ <-]. cbn [lockFor m_procs]. rewrite pset_other by exact N. apply F; exact Hi.
    - destruct (m_procs m j); try discriminate H. injection H as <-. cbn [withProc m_procs].
      rewrite pset_other by exact N. apply F; exact Hi.
    - unfold next in H. destruct (m_procs m j) as [| | | | | | | | | | |k se ls [|u todo]|k se [|l ls]| ];
        try discriminate H; injection H as <-; cbn [withProc withBoth m_procs]; rewrite pset_other by exact N; apply F; exact Hi.
  Qed.

  Lemma noHolder_spec m : first10 m -> noHolder m = true -> forall i k, holds (m_procs m i) <> Some k.
  Proof using Type.
    intros F H i k E. destruct (Nat.ltb_spec i 10) as [L|L].
    - unfold noHolder in H. rewrite forallb_forall in H. specialize (H i). rewrite E in H.
      discriminate H. apply in_seq. split; [apply Nat.le_0_l|exact L].
    - rewrite (F i L) in E. discriminate E.
  Qed.

  Lemma mexec_step ks a m n : first10 m -> all2 m -> covers (m_db m) ks -> mexec ks a m = Some n ->
    (exists w, mstep binDate prompt w m n) /\ covers (m_db n) (keysOf ks a m).
  Proof using Type.
    intros F I K H. destruct a as [b e|u l|t| |i|i k|i a|i k|i|i]; cbn [mexec keysOf] in *.
    - injection H as <-. split; [eexists; apply MInsert|exact K].
    - apply when_some in H. destruct H as [W <-]. split; [exists None|apply covers_upd_some; exact K].
      apply MSaveLog. intros x Hx. apply memp_spec. rewrite forallb_forall in W. apply W. exact Hx.
    - apply when_some in H. destruct H as [W <-]. apply andb_prop in W. destruct W as [W1 W2]. split; [exists None|exact K].
      apply MTick; [apply Z.leb_le; exact W1|]. intros -> i k Hk _. cbn [negb orb] in W2.
      apply orb_prop in W2. destruct W2 as [W2|W2]; [apply Z.ltb_lt; exact W2|]. destruct (noHolder_spec m F W2 i k Hk).
    - apply when_some in H. destruct H as [W <-]. split; [exists None|exact K]. apply MExpireLock. apply Z.leb_le. exact W.
    - injection H as <-. split; [eexists; apply MDie|exact K].
    - destruct (m_procs m i) eqn:P; try discriminate H. destruct (d_lock (m_db m)) eqn:L; [discriminate H|].
      apply when_some in H. destruct H as [W <-]. split; [eexists; apply MAcquire; auto; apply not_used; exact W|exact K].
    - destruct (m_procs m i) as [| | | |c| | | | | | | | | ] eqn:P; try discriminate H.
      destruct (ownAct a) eqn:O; [|discriminate H].
      destruct (exec binDate true false a (setCommit (m_db m) (Some c))) as [t|] eqn:X; [|discriminate H].
      injection H as <-. destruct c as [ck ce cp].
      assert (Y : own binDate false true ck (setCommit (m_db m) (Some (mkCm ck ce cp))) t).
      { eapply exec_own; [|exact O|reflexivity|exact X]. specialize (I i). rewrite P in I. exact I. }
      split; [eexists; eapply MOwn; [exact P|exact Y]|].
      unfold covers. cbn [withBoth m_db]. fields. rewrite (own_logs binDate _ _ _ Y). exact K.
    - destruct (m_procs m i) eqn:P; try discriminate H. destruct (d_lock (m_db m)) eqn:L; [discriminate H|].
      apply when_some in H. destruct H as [W <-]. split; [eexists; eapply MTake; eauto; apply not_used; exact W|exact K].
    - destruct (m_procs m i) eqn:P; try discriminate H. injection H as <-.
      split; [eexists; eapply MKeys; [exact P|apply listed_exact; exact K]|exact K].
    - split; [eexists; apply next_step; exact H|]. unfold next in H.
      destruct (m_procs m i) as [| | | | | | | | | | |k se ls [|u todo]|k se [|l ls]| ] eqn:P;
        try discriminate H; injection H as <-; try exact K.
      + apply covers_upd_none. exact K.
      + apply covers_upd_some. exact K.
  Qed.

  Lemma mexecs_run now : forall l ks m n, msteps binDate prompt (emptySys now) m -> covers (m_db m) ks -> first10 m ->
    mexecs ks l m = Some n -> msteps binDate prompt (emptySys now) n.
  Proof using Type.
    induction l as [|a l IH]; cbn [mexecs]; intros ks m n R K F H.
    - injection H as <-. exact R.
    - destruct (actor a <? 10)%nat eqn:T; [|discriminate H].
      destruct (mexec ks a m) as [o|] eqn:E; [|discriminate H].
      destruct (mexec_step ks a m o F (s_all2 _ (sane_run binDate prompt now m R)) K E) as [[w S] K'].
      apply (IH (keysOf ks a m) o n); [eapply msteps_step; eassumption|exact K'|eapply first10_step; eassumption|exact H].
  Qed.

  Lemma mexecs_first10 : forall l ks m n, first10 m -> mexecs ks l m = Some n -> first10 n.
  Proof using Type.
    induction l as [|a l IH]; cbn [mexecs]; intros ks m n F H.
    - injection H as <-. exact F.
    - destruct (actor a <? 10)%nat eqn:T; [|discriminate H].
      destruct (mexec ks a m) as [o|] eqn:E; [|discriminate H].
      eapply IH; [eapply first10_step; eassumption|exact H].
  Qed.

  (** What a run ends in, observed by a function that can be computed. *)
  Lemma mrun_obs {A} now l (f : sys -> A) v :
    option_map f (mexecs [] l (emptySys now)) = Some v ->
    exists m, msteps binDate prompt (emptySys now) m /\ f m = v.
  Proof using Type.
    destruct (mexecs [] l (emptySys now)) as [m|] eqn:E; [|discriminate]. intros H. injection H as H. exists m.
    split; [|exact H]. eapply mexecs_run; [apply msteps_refl| | |exact E].
    - intros u Hu. cbn [emptySys m_db emptyDb d_logs] in Hu. congruence.
    - intros i _. reflexivity.
  Qed.
End Exec.
