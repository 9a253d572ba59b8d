(** * More about the commit model: nothing is invented, the lock, the epochs, and
    what an undisturbed commit does *)
From Verif Require Import Base MerkleModel SerialModel SerialProofs TimeModel CommitModel CommitProofs.

Ltac fieldsIn H := unfold setPhase, setSets, setLogs, setEpoch, setLock, setFiles, setCov, setSEpoch, setNow,
  setCommit, setInserted in H; cbn [d_sets d_logs d_epoch d_lock d_files d_cov d_sepoch d_now d_commit d_inserted] in H.

Section Inv2.
  Variable binDate : bytes -> Z.
  Variable readOnly : bool.

  (** ** Nothing is invented (any listing, any loss) *)
  Definition taskFrom (s : db) (b : bytes) (t : tstate) : Prop :=
    match t with
    | TScan _ seen => forall x, In x seen -> In (b, x) (d_inserted s)
    | TRead cov => forall x, In x cov -> In (b, x) (d_inserted s)
    | TWrite cov out => forall x, In x out -> exists e, In (b, e) (d_inserted s) /\ asSerial e = x
    | _ => True
    end.

  Record inv2 (s : db) : Prop := mkInv2 {
    n_sets : forall b e, In e (d_sets s b) -> In (b, e) (d_inserted s);
    n_files : forall b x, In x (d_files s b) -> exists e, In (b, e) (d_inserted s) /\ asSerial e = x;
    n_tasks : forall k e acc tasks, d_commit s = Some (mkCm k e (PMove acc tasks)) ->
      forall i b t, nth_error tasks i = Some (b, t) -> taskFrom s b t }.

  Lemma inv2_same s s' :
    (forall b e, In e (d_sets s' b) -> In e (d_sets s b)) ->
    (forall b x, In x (d_files s' b) -> In x (d_files s b)) ->
    (forall x, In x (d_inserted s) -> In x (d_inserted s')) ->
    inv2 s ->
    (forall k e acc tasks, d_commit s' = Some (mkCm k e (PMove acc tasks)) ->
      forall i b t, nth_error tasks i = Some (b, t) -> taskFrom s' b t) ->
    inv2 s'.
  Proof using Type.
    intros S F I [A B C] T. split; [|intros b x H|exact T].
    - intros b e H. auto.
    - destruct (B b x (F b x H)) as (e & H1 & H2). exists e. auto.
  Qed.

  Lemma taskFrom_mono s s' b t : (forall x, In x (d_inserted s) -> In x (d_inserted s')) ->
    taskFrom s b t -> taskFrom s' b t.
  Proof using Type.
    intros M. destruct t; cbn [taskFrom]; auto.
    intros H x Hx. destruct (H x Hx) as (e & H1 & H2). exists e; auto.
  Qed.

  Lemma tasks_mono s s' : inv2 s -> d_commit s' = d_commit s ->
    (forall x, In x (d_inserted s) -> In x (d_inserted s')) ->
    forall k e acc tasks, d_commit s' = Some (mkCm k e (PMove acc tasks)) ->
      forall i b t, nth_error tasks i = Some (b, t) -> taskFrom s' b t.
  Proof using Type.
    intros [A B C] E M k e acc tasks H i b t Hi. rewrite E in H.
    eapply taskFrom_mono; [exact M|]. eapply C; eassumption.
  Qed.

  Lemma set_task_from s acc tasks k e i b t t' : inv2 s ->
    d_commit s = Some (mkCm k e (PMove acc tasks)) -> nth_error tasks i = Some (b, t) ->
    taskFrom s b t' ->
    forall j c u, nth_error (setTask i t' tasks) j = Some (c, u) -> taskFrom s c u.
  Proof using Type.
    intros [A B C] E Hi T j c u Hj. destruct (Nat.eq_dec i j) as [<-|N].
    - rewrite (setTask_same i t' tasks b t Hi) in Hj. injection Hj as <- <-. exact T.
    - rewrite setTask_other in Hj by exact N. eapply C; eassumption.
  Qed.

  Lemma step_inv2 uniq lossy s t : inv2 s -> step binDate readOnly uniq lossy s t -> inv2 t.
  Proof using Type.
    intros I H. destruct H as [s t H|k s t H]; destruct H.
    - (* insert *)
      destruct I as [A B C]. split; fields.
      + intros b' e' H. destruct (bytes_eq_dec b' b) as [->|N].
        * rewrite upd_same in H. destruct H as [<-|H]; [left; reflexivity|right; auto].
        * rewrite upd_other in H by exact N. right; auto.
      + intros b' x H. destruct (B b' x H) as (e' & H1 & H2). exists e'. split; [right; exact H1|exact H2].
      + intros k' e' acc tasks E i b' t' Hi.
        eapply (taskFrom_mono s); [intros x Hx; right; exact Hx|]. eapply C; eassumption.
    - apply (inv2_same s); auto. apply (tasks_mono s); auto.
    - apply (inv2_same s); auto. apply (tasks_mono s); auto.
    - apply (inv2_same s); auto. apply (tasks_mono s); auto.
    - (* evict *)
      apply (inv2_same s); auto; fields.
      + intros b' e H0. destruct (bytes_eq_dec b' b) as [->|N].
        * rewrite upd_same in H0. destruct H0.
        * rewrite upd_other in H0 by exact N. exact H0.
      + intros k' e' acc tasks E i b' t' Hi.
        destruct (d_commit s) as [[k0 e0 p0]|] eqn:Ec; [|discriminate]. cbn [option_map] in E.
        unfold forget in E. cbn [cm_phase] in E. destruct p0; try discriminate; cbn [cm_tok cm_epoch] in E.
        injection E as -> -> -> <-. rewrite nth_error_map in Hi.
        destruct (nth_error tasks0 i) as [[c u]|] eqn:Eu; [|discriminate]. cbn [option_map] in Hi. injection Hi as Hi.
        pose proof (n_tasks _ I _ _ _ _ Ec i c u Eu) as T. unfold forgetTask in Hi. cbn [snd fst] in Hi.
        destruct u; try destruct (beq c b); injection Hi as <- <-; exact T.
    - apply (inv2_same s); auto. apply (tasks_mono s); auto.
    - apply (inv2_same s); auto. apply (tasks_mono s); auto.
    - apply (inv2_same s); auto. apply (tasks_mono s); auto.
    - (* loss *)
      apply (inv2_same s); auto; fields.
      + intros b e [].
      + apply (tasks_mono s); auto.
    - apply (inv2_same s); auto. apply (tasks_mono s); auto.
    - apply (inv2_same s); auto. apply (tasks_mono s); auto.
    - apply (inv2_same s); auto. fields. discriminate.
    - apply (inv2_same s); auto. fields. intros; discriminate.
    - apply (inv2_same s); auto. fields. intros; discriminate.
    - apply (inv2_same s); auto. fields. intros; discriminate.
    - apply (inv2_same s); auto. fields. intros k' e' acc' tasks E i b t Hi.
      injection E as <- <- <- <-. rewrite nth_error_map in Hi. destruct (nth_error bins i); [|discriminate].
      injection Hi as <- <-. exact Logic.I.
    - apply (inv2_same s); auto. fields. intros k' e' acc' tasks' E. injection E as <- <- <- <-.
      apply (set_task_from s acc tasks k e i b TNew); auto. cbn [taskFrom]. intros x [].
    - apply (inv2_same s); auto. fields. intros k' e' acc' tasks' E. injection E as <- <- <- <-.
      apply (set_task_from s acc tasks k e i b (TScan must seen)); auto. cbn [taskFrom]. intros y [<-|Hy].
      + eapply n_sets; eassumption.
      + eapply (n_tasks _ I _ _ _ _ H i b (TScan must seen)); eassumption.
    - apply (inv2_same s); auto. fields. intros k' e' acc' tasks' E. injection E as <- <- <- <-.
      apply (set_task_from s acc tasks k e i b (TScan must seen)); auto.
      pose proof (n_tasks _ I _ _ _ _ H i b (TScan must seen) H0) as T. cbn [taskFrom] in T.
      destruct seen; [exact Logic.I|]. cbn [taskFrom]. intros y Hy. apply filter_In in Hy. apply T, Hy.
    - apply (inv2_same s); auto. fields. intros k' e' acc' tasks' E. injection E as <- <- <- <-.
      apply (set_task_from s acc tasks k e i b (TRead covered)); auto.
      pose proof (n_tasks _ I _ _ _ _ H i b (TRead covered) H0) as T. cbn [taskFrom] in T |- *.
      intros x Hx. apply (proj1 (dedup_in _ _)) in Hx. apply in_app_or in Hx. destruct Hx as [Hx|Hx].
      + eapply n_files; eassumption.
      + apply in_map_iff in Hx. destruct Hx as (y & <- & Hy). exists y. split; [auto|reflexivity].
    - (* replace *)
      pose proof (n_tasks _ I _ _ _ _ H i b _ H0) as T. cbn [taskFrom] in T.
      destruct I as [A B C]. split; fields.
      + exact A.
      + intros b' x Hx. destruct (bytes_eq_dec b' b) as [->|N].
        * rewrite upd_same in Hx. auto.
        * rewrite upd_other in Hx by exact N. auto.
      + intros k' e' acc' tasks' E. injection E as <- <- <- <-.
        apply (set_task_from s acc tasks k e i b (TWrite covered out)); auto.
        * split; assumption.
        * exact Logic.I.
    - (* remove *)
      apply (inv2_same s); auto; fields.
      + intros b' x Hx. destruct (bytes_eq_dec b' b) as [->|N].
        * rewrite upd_same in Hx. apply filter_In in Hx. apply Hx.
        * rewrite upd_other in Hx by exact N. exact Hx.
      + intros k' e' acc' tasks' E. injection E as <- <- <- <-.
        apply (set_task_from s acc tasks k e i b (TRemove (gone ++ todo))); auto. exact Logic.I.
    - apply (inv2_same s); auto. fields. intros k' e' acc' tasks' E. injection E as <- <- <- <-.
      apply (set_task_from s acc tasks k e i b (TRemove todo)); auto. exact Logic.I.
    - apply (inv2_same s); auto. fields. intros; discriminate.
    - apply (inv2_same s); auto; fields.
      + intros b' x Hx. destruct (bytes_eq_dec b' b) as [->|N].
        * rewrite upd_same in Hx. destruct Hx.
        * rewrite upd_other in Hx by exact N. exact Hx.
      + apply (tasks_mono s); auto.
    - apply (inv2_same s); auto. fields. intros; discriminate.
    - apply (inv2_same s); auto. fields. intros; discriminate.
    - apply (inv2_same s); auto. fields. intros; discriminate.
  Qed.

  Lemma empty_inv2 now : inv2 (emptyDb now).
  Proof using Type. split; cbn; try (intros; contradiction). discriminate. Qed.

  Lemma steps_inv2 uniq lossy s t : inv2 s -> steps binDate readOnly uniq lossy s t -> inv2 t.
  Proof using Type.
    intros I H. induction H as [s|s t u H IH S]; [exact I|]. eapply step_inv2; [apply IH; exact I|exact S].
  Qed.

  (** ** Lock and epochs *)
  Record inv3 (s : db) : Prop := mkInv3 {
    e_lock : forall c, d_commit s = Some c -> d_lock s = Some (cm_tok c) /\ readOnly = false;
    e_epoch :
      match d_commit s with
      | None => inStep (d_epoch s) (d_sepoch s) = true \/ d_epoch s = (d_sepoch s + 2)%N
      | Some c => inStep (cm_epoch c) (d_sepoch s) = true /\
          d_epoch s = match cm_phase c with PFinish => (cm_epoch c + 1)%N | _ => cm_epoch c end
      end }.

  Lemma inStep_spec c s : inStep c s = true <-> c = (s + 1)%N \/ (c = 0%N /\ s = 0%N).
  Proof using Type. unfold inStep. lia. Qed.

  Lemma forget_keeps b c : cm_tok (forget b c) = cm_tok c /\ cm_epoch (forget b c) = cm_epoch c /\
    (cm_phase (forget b c) = PFinish <-> cm_phase c = PFinish).
  Proof using Type.
    unfold forget. destruct (cm_phase c) eqn:E; cbn [cm_tok cm_epoch cm_phase]; rewrite ?E;
      split; auto; split; auto; split; congruence.
  Qed.

  Lemma step_inv3 uniq s t : inv3 s -> step binDate readOnly uniq false s t -> inv3 t.
  Proof using Type.
    intros I H. destruct H as [s t H|k s t H]; destruct H; try discriminate.
    1-4: destruct I as [L E]; split; fields; assumption.
    - destruct I as [L E]. split; fields.
      + intros c Hc. destruct (d_commit s) as [c0|]; [|discriminate]. cbn [option_map] in Hc. injection Hc as <-.
        destruct (forget_keeps b c0) as (K1 & _). rewrite K1. apply L. reflexivity.
      + destruct (d_commit s) as [c0|]; cbn [option_map]; [|exact E].
        destruct (forget_keeps b c0) as (K1 & K2 & K3). rewrite K2. destruct E as [E1 E2]. split; [exact E1|].
        rewrite E2. destruct (cm_phase c0) eqn:P0; destruct (cm_phase (forget b c0)) eqn:P1; try reflexivity;
          try (assert (X : PFinish = PFinish) by reflexivity; apply K3 in X; discriminate);
          exfalso; (discriminate (proj1 K3 eq_refl) || discriminate (proj2 K3 eq_refl)).
    - destruct I as [L E]. split; fields; [|exact E]. intros c Hc. destruct (L c Hc). congruence.
    - destruct I as [L E]. split; fields; [|exact E]. intros c Hc. congruence.
    - destruct I as [L E]. split; fields.
      + intros c Hc. congruence.
      + rewrite H. left. apply inStep_spec. auto.
    - (* abort *)
      destruct I as [L E]. split; fields; [discriminate|].
      rewrite H in E. cbn [cm_epoch cm_phase] in E. destruct E as [E1 E2].
      destruct p; rewrite E2; auto. apply inStep_spec in E1. destruct E1 as [E1|[E1 E1']].
      + right. lia.
      + left. apply inStep_spec. left. lia.
    - (* start *)
      destruct I as [L E]. split; fields.
      + intros c Hc. injection Hc as <-. cbn [cm_tok]. auto.
      + cbn [cm_epoch cm_phase]. auto.
    - destruct I as [L E]. rewrite H in *. split; fields; [|exact E]. intros c Hc. injection Hc as <-. apply (L _ eq_refl).
    - destruct I as [L E]. rewrite H in *. split; fields; [|exact E]. intros c Hc. injection Hc as <-. apply (L _ eq_refl).
    - destruct I as [L E]. rewrite H in *. split; fields; [|exact E]. intros c Hc. injection Hc as <-. apply (L _ eq_refl).
    - destruct I as [L E]. rewrite H in *. split; fields; [|exact E]. intros c Hc. injection Hc as <-. apply (L _ eq_refl).
    - destruct I as [L E]. rewrite H in *. split; fields; [|exact E]. intros c Hc. injection Hc as <-. apply (L _ eq_refl).
    - destruct I as [L E]. rewrite H in *. split; fields; [|exact E]. intros c Hc. injection Hc as <-. apply (L _ eq_refl).
    - destruct I as [L E]. rewrite H in *. split; fields; [|exact E]. intros c Hc. injection Hc as <-. apply (L _ eq_refl).
    - destruct I as [L E]. rewrite H in *. split; fields; [|exact E]. intros c Hc. injection Hc as <-. apply (L _ eq_refl).
    - destruct I as [L E]. rewrite H in *. split; fields; [|exact E]. intros c Hc. injection Hc as <-. apply (L _ eq_refl).
    - destruct I as [L E]. rewrite H in *. split; fields; [|exact E]. intros c Hc. injection Hc as <-. apply (L _ eq_refl).
    - destruct I as [L E]. rewrite H in *. split; fields; [|exact E]. intros c Hc. injection Hc as <-. apply (L _ eq_refl).
    - destruct I as [L E]. split; fields; assumption.
    - destruct I as [L E]. rewrite H in *. split; fields; [|exact E]. intros c Hc. injection Hc as <-. apply (L _ eq_refl).
    - (* next epoch *)
      destruct I as [L E]. rewrite H in *. cbn [cm_epoch cm_phase] in E. destruct E as [E1 E2]. split; fields.
      + intros c Hc. injection Hc as <-. apply (L _ eq_refl).
      + cbn [cm_epoch cm_phase]. split; [exact E1|]. rewrite E2. reflexivity.
    - (* finish *)
      destruct I as [L E]. rewrite H in *. cbn [cm_epoch cm_phase] in E. destruct E as [E1 E2]. split; fields.
      + discriminate.
      + left. apply inStep_spec. left. exact E2.
  Qed.

  Lemma empty_inv3 now : inv3 (emptyDb now).
  Proof using Type. split; cbn; [discriminate|]. left. reflexivity. Qed.

  Lemma steps_inv3 uniq s t : inv3 s -> steps binDate readOnly uniq false s t -> inv3 t.
  Proof using Type.
    intros I H. induction H as [s|s t u H IH S]; [exact I|]. eapply step_inv3; [apply IH; exact I|exact S].
  Qed.
End Inv2.
