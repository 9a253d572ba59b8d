(** * Invariants of the commit model *)
From Verif Require Import Base MerkleModel SerialModel SerialProofs TimeModel CommitModel.

Lemma upd_same {V} (f : bytes -> V) k v : upd f k v k = v.
Proof. unfold upd. rewrite beq_refl. reflexivity. Qed.

Lemma upd_other {V} (f : bytes -> V) k v x : x <> k -> upd f k v x = f x.
Proof. intros N. unfold upd. destruct (beq_spec x k); [contradiction|reflexivity]. Qed.

Lemma setTask_fst i t : forall l, map fst (setTask i t l) = map fst l.
Proof.
  induction i; intros [|[b u] l]; cbn [setTask map fst]; try reflexivity. rewrite IHi. reflexivity.
Qed.

Lemma setTask_same i t : forall l b u, nth_error l i = Some (b, u) -> nth_error (setTask i t l) i = Some (b, t).
Proof.
  induction i; intros [|[c v] l] b u H; cbn [setTask nth_error] in *; try discriminate.
  - injection H as -> ->. reflexivity.
  - eapply IHi. exact H.
Qed.

Lemma setTask_other i j t : i <> j -> forall l, nth_error (setTask i t l) j = nth_error l j.
Proof.
  revert j; induction i; intros [|j] N [|[b u] l]; cbn [setTask nth_error]; try reflexivity; try congruence.
  apply IHi. congruence.
Qed.

Lemma nth_error_fst_inj (l : list (bytes * tstate)) i j b t u :
  NoDup (map fst l) -> nth_error l i = Some (b, t) -> nth_error l j = Some (b, u) -> i = j.
Proof.
  intros ND Hi Hj. apply (proj1 (NoDup_nth_error (map fst l)) ND).
  - rewrite map_length. apply nth_error_Some. congruence.
  - rewrite (map_nth_error fst _ _ Hi), (map_nth_error fst _ _ Hj). reflexivity.
Qed.

Ltac fields := unfold setPhase, setSets, setLogs, setEpoch, setLock, setFiles, setCov, setSEpoch, setNow,
  setCommit, setInserted; cbn [d_sets d_logs d_epoch d_lock d_files d_cov d_sepoch d_now d_commit d_inserted].

Section Inv.
  Variable binDate : bytes -> Z.
  Variable readOnly : bool.
  Notation step := (step binDate readOnly true false).
  Notation steps := (steps binDate readOnly true false).

  Definition alive (s : db) (b : bytes) : Prop := (d_now s < binDate b)%Z.

  (** What the goroutine of a bin still owes for an entry in the cache. *)
  Definition owes (t : tstate) (e : bytes) : Prop :=
    match t with
    | TNew => True
    | TScan must seen => In e must \/ In e seen
    | TRead cov => In e cov
    | TWrite cov out => In (asSerial e) out
    | TRemove _ | TDone => False
    end.

  Definition taskOK (s : db) (b : bytes) (t : tstate) : Prop :=
    match t with
    | TWrite cov out => (forall x, In x (d_files s b) -> In x out) /\ (forall x, In x cov -> In (asSerial x) out)
    | TRemove todo => forall x, In x todo -> In (asSerial x) (d_files s b)
    | _ => True
    end.

  Definition claimed (acc : list lstate) (b e : bytes) : Prop :=
    exists l, In l acc /\ In (b, e) (l_claims l).

  Definition scanOK (s : db) (acc : list lstate) (must : list bytes) : Prop :=
    forall b e, claimed acc b e -> alive s b ->
      In (asSerial e) (d_files s b) \/ (In e (d_sets s b) /\ In b must).

  Definition moveOK (s : db) (acc : list lstate) (tasks : list (bytes * tstate)) : Prop :=
    forall b e, claimed acc b e -> isCovered (cutoffs acc) e = true -> alive s b ->
      In (asSerial e) (d_files s b) \/
      (In e (d_sets s b) /\ exists i t, nth_error tasks i = Some (b, t) /\ owes t e).

  Definition phaseOK (s : db) (p : phase) : Prop :=
    match p with
    | PLoad acc => forall b e, claimed acc b e -> In (b, e) (d_inserted s)
    | PScan acc must => scanOK s acc must
    | PMove acc tasks =>
        NoDup (map fst tasks) /\
        (forall i b t, nth_error tasks i = Some (b, t) -> taskOK s b t) /\
        moveOK s acc tasks
    | _ => True
    end.

  Record inv (s : db) : Prop := mkInv {
    i_known : forall b e, In (b, e) (d_inserted s) -> alive s b ->
      In e (d_sets s b) \/ In (asSerial e) (d_files s b);
    i_logs : forall k l x, d_logs s k = Some l -> In x (l_claims l) -> In x (d_inserted s);
    i_cov : forall ls b e, d_cov s = Some ls -> claimed ls b e -> isCovered (cutoffs ls) e = true ->
      alive s b -> In (asSerial e) (d_files s b);
    i_phase : forall k e p, d_commit s = Some (mkCm k e p) -> phaseOK s p }.

  (** Steps of other processes that only add. *)
  Lemma phaseOK_mono s s' p :
    (forall b, alive s' b -> alive s b) ->
    (forall b e, In e (d_sets s b) -> In e (d_sets s' b)) ->
    (forall b, d_files s' b = d_files s b) ->
    (forall x, In x (d_inserted s) -> In x (d_inserted s')) ->
    phaseOK s p -> phaseOK s' p.
  Proof using Type.
    intros A S F I. destruct p as [acc|acc must|acc tasks| | |]; cbn [phaseOK]; auto.
    - unfold scanOK. intros H b e C L. rewrite F. destruct (H b e C (A b L)) as [?|[? ?]]; auto.
    - intros (ND & TO & MO). split; [exact ND|]. split.
      + intros i b t Hi. specialize (TO i b t Hi). unfold taskOK in *. rewrite F. exact TO.
      + intros b e C V L. rewrite F. destruct (MO b e C V (A b L)) as [?|[? ?]]; auto.
  Qed.

  Lemma phaseOK_same_inv s s' :
    d_now s' = d_now s -> d_sets s' = d_sets s -> d_files s' = d_files s ->
    d_inserted s' = d_inserted s -> d_logs s' = d_logs s -> d_cov s' = d_cov s ->
    inv s -> (forall k e p, d_commit s' = Some (mkCm k e p) -> phaseOK s' p) -> inv s'.
  Proof using Type.
    intros En Es Ef Ei El Ec [K L C P] P'. split; unfold alive in *; rewrite ?En, ?Es, ?Ef, ?Ei, ?El, ?Ec; auto.
    all: intros; try (eapply K; eassumption); try (eapply L; eassumption); try (eapply C; eassumption);
      eapply P'; eassumption.
  Qed.

  Lemma inv_setPhase s k e p : inv s -> phaseOK s p -> inv (setPhase s k e p).
  Proof using Type.
    intros I P. apply (phaseOK_same_inv s); try reflexivity; [exact I|].
    intros k' e' p' E. cbn [setPhase setCommit d_commit] in E. injection E as _ _ <-.
    revert P. apply phaseOK_mono; auto.
  Qed.

  Lemma forget_phase s b c (s' : db) :
    (binDate b <= d_now s)%Z ->
    d_sets s' = upd (d_sets s) b [] -> d_files s' = d_files s -> d_inserted s' = d_inserted s ->
    d_now s' = d_now s ->
    phaseOK s (cm_phase c) -> phaseOK s' (cm_phase (forget b c)).
  Proof using Type.
    intros D Es Ef Ei En P. unfold forget.
    assert (AL : forall b', alive s' b' -> alive s b' /\ b' <> b /\ d_sets s' b' = d_sets s b').
    { intros b' A. unfold alive in *. rewrite En in A. assert (N : b' <> b) by (intros ->; lia).
      rewrite Es, upd_other by exact N. auto. }
    destruct (cm_phase c) as [acc|acc must|acc tasks| | |] eqn:Ep; cbn [cm_phase].
    - rewrite Ep. cbn [phaseOK] in *. rewrite Ei. exact P.
    - cbn [phaseOK] in *. intros b' e C A. destruct (AL b' A) as (A' & N & S). rewrite Ef, S.
      destruct (P b' e C A') as [?|[? ?]]; [auto|]. right. split; [assumption|].
      apply filter_In. split; [assumption|]. apply negb_true_iff. apply beq_neq. exact N.
    - cbn [phaseOK] in *. destruct P as (ND & TO & MO). split; [|split].
      + rewrite map_map. replace (map (fun x => fst (forgetTask b x)) tasks) with (map fst tasks); [exact ND|].
        apply map_ext. intros [b' t]. unfold forgetTask. cbn [snd fst].
        destruct t; try reflexivity. destruct (beq b' b); reflexivity.
      + intros i b' t H. rewrite nth_error_map in H.
        destruct (nth_error tasks i) as [[b0 t0]|] eqn:E; [|discriminate]. cbn [option_map] in H.
        injection H as H. specialize (TO i b0 t0 E). unfold forgetTask in H. cbn [snd fst] in H.
        destruct t0; try destruct (beq b0 b); injection H as <- <-; unfold taskOK in *; rewrite ?Ef; auto.
      + intros b' e C V A. destruct (AL b' A) as (A' & N & S). rewrite Ef, S.
        destruct (MO b' e C V A') as [?|[? (i & t & Hi & O)]]; [auto|]. right. split; [assumption|].
        exists i, t. split; [|exact O]. rewrite nth_error_map, Hi. cbn [option_map]. f_equal.
        unfold forgetTask. cbn [snd fst]. destruct t; try reflexivity.
        destruct (beq_spec b' b); [contradiction|reflexivity].
    - rewrite Ep. exact I.
    - rewrite Ep. exact I.
    - rewrite Ep. exact I.
  Qed.

  (** A goroutine moves on without touching cache or files. *)
  Lemma move_task s acc tasks i b t t' :
    phaseOK s (PMove acc tasks) -> nth_error tasks i = Some (b, t) ->
    taskOK s b t' ->
    (forall e, owes t e -> In e (d_sets s b) -> isCovered (cutoffs acc) e = true ->
       In (asSerial e) (d_files s b) \/ owes t' e) ->
    phaseOK s (PMove acc (setTask i t' tasks)).
  Proof using Type.
    intros (ND & TO & MO) Hi T O. cbn [phaseOK]. split; [|split].
    - rewrite setTask_fst. exact ND.
    - intros j b' u Hj. destruct (Nat.eq_dec i j) as [<-|N].
      + rewrite (setTask_same i t' tasks b t Hi) in Hj. injection Hj as <- <-. exact T.
      + rewrite setTask_other in Hj by exact N. eapply TO. exact Hj.
    - intros b' e C V A. destruct (MO b' e C V A) as [?|[Hs (j & u & Hj & Ou)]]; [auto|].
      destruct (Nat.eq_dec i j) as [<-|N].
      + rewrite Hi in Hj. injection Hj as <- <-. destruct (O e Ou Hs V) as [?|O']; [auto|].
        right. split; [exact Hs|]. exists i, t'. split; [|exact O']. eapply setTask_same. exact Hi.
      + right. split; [exact Hs|]. exists j, u. split; [|exact Ou]. rewrite setTask_other by exact N. exact Hj.
  Qed.

  Lemma step_inv s t : inv s -> step s t -> inv t.
  Proof using Type.
    intros I H. destruct H as [s t H|k s t H]; destruct H; try discriminate.
    - (* insert *)
      destruct I as [K L C P]. split; fields.
      + intros b' e' [E|H] A.
        * injection E as <- <-. left. rewrite upd_same. left; reflexivity.
        * destruct (K b' e' H A) as [H'|H']; [|auto]. left.
          destruct (bytes_eq_dec b' b) as [->|N]; [rewrite upd_same; right; exact H'|].
          rewrite upd_other by exact N. exact H'.
      + intros k l x Hk Hx. right. eapply L; eassumption.
      + exact C.
      + intros k' e' p E. specialize (P k' e' p E). revert P. apply phaseOK_mono; cbn; auto.
        intros b' e0 Hin. destruct (bytes_eq_dec b' b) as [->|N]; [rewrite upd_same; right; exact Hin|].
        rewrite upd_other by exact N. exact Hin.
    - (* save log *)
      destruct I as [K L C P]. split; fields; auto.
      intros k' l' x Hk Hx. destruct (bytes_eq_dec k' k) as [->|N].
      + rewrite upd_same in Hk. injection Hk as <-. auto.
      + rewrite upd_other in Hk by exact N. eapply L; eassumption.
    - (* delete log *)
      destruct I as [K L C P]. split; fields; auto.
      intros k' l' x Hk Hx. destruct (bytes_eq_dec k' k) as [->|N].
      + rewrite upd_same in Hk. discriminate.
      + rewrite upd_other in Hk by exact N. eapply L; eassumption.
    - (* tick *)
      destruct I as [K L C P].
      assert (M : forall b, (t < binDate b)%Z -> alive s b) by (unfold alive; intros; lia).
      split; unfold alive; fields.
      + intros b e Hb A. apply K; auto.
      + exact L.
      + intros ls b e E Cl V A. eapply C; eauto.
      + intros k' e p E. specialize (P k' e p E). revert P. apply phaseOK_mono; auto.
    - (* evict *)
      destruct I as [K L C P]. split; unfold alive in *; fields.
      + intros b' e Hb A. rewrite upd_other by (intros ->; lia). apply K; auto.
      + exact L.
      + exact C.
      + intros k' e p E. destruct (d_commit s) as [[k0 e0 p0]|] eqn:Ec; [|discriminate].
        cbn [option_map] in E. injection E as E.
        specialize (P k0 e0 p0 eq_refl).
        replace p with (cm_phase (forget b (mkCm k0 e0 p0))) by (rewrite E; reflexivity).
        apply (forget_phase s); try reflexivity; assumption.
    - (* acquire *)
      apply (phaseOK_same_inv s); try reflexivity; [exact I|]. fields.
      intros k' e p E. pose proof (i_phase _ I _ _ _ E) as P. revert P. apply phaseOK_mono; auto.
    - (* unlock *)
      apply (phaseOK_same_inv s); try reflexivity; [exact I|]. fields. congruence.
    - (* restore *)
      apply (phaseOK_same_inv s); try reflexivity; [exact I|]. fields. congruence.
    - (* abort *)
      apply (phaseOK_same_inv s); try reflexivity; [exact I|]. fields. discriminate.
    - (* start *)
      apply inv_setPhase; [exact I|]. cbn [phaseOK]. intros b e (l & [] & _).
    - (* load *)
      apply inv_setPhase; [exact I|]. pose proof (i_phase _ I _ _ _ H) as P. cbn [phaseOK] in *.
      intros b e' (l' & Hl & Hc). apply in_app_or in Hl. destruct Hl as [Hl|[<-|[]]].
      + apply P. exists l'. auto.
      + eapply (i_logs _ I); eassumption.
    - (* scan start *)
      apply inv_setPhase; [exact I|]. pose proof (i_phase _ I _ _ _ H) as P. cbn [phaseOK] in *.
      intros b e' Cl A. destruct (i_known _ I b e' (P b e' Cl) A) as [K|K]; [|auto].
      right. split; [exact K|]. apply H0. intros Z. rewrite Z in K. destruct K.
    - (* scan end *)
      apply inv_setPhase; [exact I|]. pose proof (i_phase _ I _ _ _ H) as P. cbn [phaseOK] in *.
      split; [|split].
      + rewrite map_map. cbn [fst]. rewrite map_id. auto.
      + intros i b t Hi. rewrite nth_error_map in Hi. destruct (nth_error bins i); [|discriminate].
        cbn [option_map] in Hi. injection Hi as <- <-. exact Logic.I.
      + intros b e' Cl V A. destruct (P b e' Cl A) as [?|[Hs Hb]]; [auto|]. right. split; [exact Hs|].
        apply H0 in Hb. apply In_nth_error in Hb. destruct Hb as (i & Hi).
        exists i, TNew. split; [|exact Logic.I]. rewrite nth_error_map, Hi. reflexivity.
    - (* task scan *)
      apply inv_setPhase; [exact I|]. pose proof (i_phase _ I _ _ _ H) as P.
      eapply move_task; [exact P|exact H0|exact Logic.I|]. intros x _ Hx _. right. left. exact Hx.
    - (* task see *)
      apply inv_setPhase; [exact I|]. pose proof (i_phase _ I _ _ _ H) as P.
      eapply move_task; [exact P|exact H0|exact Logic.I|]. intros y [?|?] _ _; right; [left|right; right]; assumption.
    - (* task covered *)
      apply inv_setPhase; [exact I|]. pose proof (i_phase _ I _ _ _ H) as P.
      eapply move_task; [exact P|exact H0| |].
      + destruct seen; exact Logic.I.
      + intros y O Hy V. right.
        assert (S : In y seen) by (destruct O; auto).
        destruct seen as [|z seen]; [destruct S|].
        cbn [owes]. apply filter_In. split; assumption.
    - (* task merge *)
      apply inv_setPhase; [exact I|]. pose proof (i_phase _ I _ _ _ H) as P.
      assert (MC : forall x, In x covered -> In (asSerial x) (dedup (d_files s b ++ map asSerial covered))).
      { intros x Hx. apply dedup_in. apply in_or_app. right. apply in_map. exact Hx. }
      eapply move_task; [exact P|exact H0| |].
      + cbn [taskOK]. split; [|exact MC]. intros x Hx. apply dedup_in. apply in_or_app. left; exact Hx.
      + intros y O Hy V. right. cbn [owes] in *. auto.
    - (* task replace *)
      pose proof (i_phase _ I _ _ _ H) as P. cbn [phaseOK] in P. destruct P as (ND & TO & MO).
      pose proof (TO i b _ H0) as [T1 T2].
      destruct I as [K L C P].
      assert (G : forall b' x, In x (d_files s b') -> In x (upd (d_files s) b out b')).
      { intros b' x Hx. destruct (bytes_eq_dec b' b) as [->|N]; [rewrite upd_same; auto|].
        rewrite upd_other by exact N. exact Hx. }
      split; unfold alive; fields.
      + intros b' e' Hb A. destruct (K b' e' Hb A) as [?|?]; auto.
      + exact L.
      + intros ls b' e' E Cl V A. apply G. eapply C; eassumption.
      + intros k' e' p E. injection E as <- <- <-. cbn [phaseOK]. split; [|split].
        * rewrite setTask_fst. exact ND.
        * intros j b' u Hj. destruct (Nat.eq_dec i j) as [<-|N].
          -- rewrite (setTask_same i _ tasks b _ H0) in Hj. injection Hj as <- <-.
             cbn [taskOK d_files]. rewrite upd_same. exact T2.
          -- rewrite setTask_other in Hj by exact N.
             assert (Nb : b' <> b).
             { intros ->. apply N. eapply nth_error_fst_inj; eassumption. }
             specialize (TO j b' u Hj). unfold taskOK in *. cbn [d_files].
             rewrite upd_other by exact Nb. exact TO.
        * intros b' e' Cl V A. cbn [d_files d_sets]. destruct (MO b' e' Cl V A) as [?|[Hs (j & u & Hj & Ou)]].
          -- left. apply G. assumption.
          -- destruct (Nat.eq_dec i j) as [<-|N].
             ++ rewrite H0 in Hj. injection Hj as <- <-. left. rewrite upd_same. exact Ou.
             ++ right. split; [exact Hs|]. exists j, u. split; [|exact Ou].
                rewrite setTask_other by exact N. exact Hj.
    - (* task remove *)
      pose proof (i_phase _ I _ _ _ H) as P. cbn [phaseOK] in P. destruct P as (ND & TO & MO).
      pose proof (TO i b _ H0) as T. cbn [taskOK] in T.
      destruct I as [K L C P].
      assert (G : forall b' x, In x (d_sets s b') ->
        In x (upd (d_sets s) b (filter (fun x => negb (existsb (beq x) gone)) (d_sets s b)) b') \/
        In (asSerial x) (d_files s b')).
      { intros b' x Hx. destruct (bytes_eq_dec b' b) as [->|N].
        - rewrite upd_same. destruct (existsb (beq x) gone) eqn:E.
          + right. apply T. apply in_or_app. left. apply existsb_exists in E. destruct E as (y & Hy & E).
            apply beq_eq in E. congruence.
          + left. apply filter_In. rewrite E. auto.
        - left. rewrite upd_other by exact N. exact Hx. }
      split; unfold alive; fields.
      + intros b' e' Hb A. destruct (K b' e' Hb A) as [Hk|?]; [|auto]. destruct (G b' e' Hk); auto.
      + exact L.
      + exact C.
      + intros k' e' p E. injection E as <- <- <-. cbn [phaseOK]. split; [|split].
        * rewrite setTask_fst. exact ND.
        * intros j b' u Hj. destruct (Nat.eq_dec i j) as [<-|N].
          -- rewrite (setTask_same i _ tasks b _ H0) in Hj. injection Hj as <- <-.
             cbn [taskOK d_files]. intros x Hx. apply T. apply in_or_app. right; exact Hx.
          -- rewrite setTask_other in Hj by exact N. exact (TO j b' u Hj).
        * intros b' e' Cl V A. cbn [d_files d_sets]. destruct (MO b' e' Cl V A) as [?|[Hs (j & u & Hj & Ou)]]; [auto|].
          destruct (G b' e' Hs) as [G'|G']; [|auto]. right. split; [exact G'|].
          exists j, u. split; [|exact Ou]. rewrite setTask_other; [exact Hj|].
          intros <-. rewrite H0 in Hj. injection Hj as <- <-. exact Ou.
    - (* task done *)
      apply inv_setPhase; [exact I|]. pose proof (i_phase _ I _ _ _ H) as P.
      eapply move_task; [exact P|exact H0|exact Logic.I|]. intros y [].
    - (* cover *)
      pose proof (i_phase _ I _ _ _ H) as P. cbn [phaseOK] in P. destruct P as (ND & TO & MO).
      destruct I as [K L C P].
      split; unfold alive; fields; auto.
      + intros ls b e' E Cl V A. injection E as <-. destruct (MO b e' Cl V A) as [?|[Hs (j & u & Hj & Ou)]]; [assumption|].
        rewrite forallb_forall in H0. apply nth_error_In in Hj. apply H0 in Hj. unfold isDone in Hj. cbn [snd] in Hj.
        destruct u; try discriminate. destruct Ou.
      + intros k' e' p E. injection E as <- <- <-. exact Logic.I.
    - (* expire *)
      destruct I as [K L C P].
      assert (N : forall b', alive s b' -> b' <> b).
      { unfold alive. intros b' A ->. unfold nsHour, nsSecond, nsMilli in *. lia. }
      split; unfold alive; fields.
      + intros b' e' Hb A. rewrite upd_other by (apply N; exact A). apply K; assumption.
      + exact L.
      + intros ls b' e' E Cl V A. rewrite upd_other by (apply N; exact A). eapply C; eassumption.
      + intros k' e' p E. rewrite H in E. injection E as <- <- <-. exact Logic.I.
    - (* expired *)
      apply inv_setPhase; [exact I|exact Logic.I].
    - (* next epoch *)
      apply (phaseOK_same_inv s); try reflexivity; [exact I|]. fields.
      intros k' e' p E. injection E as <- <- <-. exact Logic.I.
    - (* finish *)
      apply (phaseOK_same_inv s); try reflexivity; [exact I|]. fields. discriminate.
  Qed.

  Lemma empty_inv now : inv (emptyDb now).
  Proof using Type.
    split; cbn.
    - intros b e [].
    - discriminate.
    - discriminate.
    - discriminate.
  Qed.

  Lemma steps_inv s t : inv s -> steps s t -> inv t.
  Proof using Type. intros I H. induction H as [s|s t u H IH S]; [exact I|]. eapply step_inv; [apply IH; exact I|exact S]. Qed.
End Inv.
