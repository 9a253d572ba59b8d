(** * What an undisturbed commit does, and that it can be repeated *)
From Verif Require Import Base MerkleModel SerialModel SerialProofs TimeModel CommitModel CommitProofs CommitProofs2.

Section Retry.
  Variable binDate : bytes -> Z.
  Variable readOnly : bool.
  Notation own := (own binDate readOnly true).

  (** [t] is a state during the commit that token [k] started in state [s], no
      other process interfering. *)
  Inductive running (k : bytes) (s : db) : db -> Prop :=
  | run_start : d_commit s = None -> readOnly = false -> d_lock s = Some k ->
      inStep (d_epoch s) (d_sepoch s) = true ->
      running k s (setPhase s k (d_epoch s) (PLoad []))
  | run_step t u : running k s t -> own k t u -> d_commit u <> None -> running k s u.

  (** That commit ran to its end, having read the log states [acc]. *)
  Definition completed (k : bytes) (s : db) (acc : list lstate) (t : db) : Prop :=
    exists u, running k s u /\ d_commit u = Some (mkCm k (d_epoch s) PFinish) /\
      d_cov u = Some acc /\ t = setCommit (setSEpoch u (d_epoch s)) None.

  Lemma running_frame k s t : running k s t ->
    d_logs t = d_logs s /\ d_now t = d_now s /\ d_sepoch t = d_sepoch s /\
    ((forall e, d_commit t <> Some (mkCm k e PFinish)) -> d_epoch t = d_epoch s).
  Proof using Type.
    intros R. induction R as [C RO L E|t u R IH O N]; [auto|].
    destruct IH as (I1 & I2 & I3 & I4).
    destruct O; fields; fieldsIn N; split; auto; split; auto; split; auto; try congruence;
      intros NF; try (apply I4; congruence); exfalso; eapply NF; reflexivity.
  Qed.

  Definition fromLogs (s : db) (acc : list lstate) : Prop :=
    forall l, In l acc -> exists u, d_logs s u = Some l.

  (** All log states in the cache were read. *)
  Definition allLogs (s : db) (acc : list lstate) : Prop :=
    fromLogs s acc /\ forall u l, d_logs s u = Some l -> In l acc.

  (** Different log states have different log ids. *)
  Definition distinctLogs (s : db) : Prop :=
    forall u v l l' id, d_logs s u = Some l -> d_logs s v = Some l' ->
      lg_keyID (l_log l) = Some id -> lg_keyID (l_log l') = Some id -> l = l'.

  Lemma find_some_from (acc : list lstate) id l :
    find (fun l => match lg_keyID l with Some j => beq id j | None => false end) (rev (map l_log acc)) = Some l ->
    exists a, In a acc /\ l = l_log a /\ lg_keyID l = Some id.
  Proof using Type.
    intros H. apply find_some in H. destruct H as [H1 H2]. apply in_rev in H1. apply in_map_iff in H1.
    destruct H1 as (a & <- & Ha). exists a. split; [exact Ha|]. split; [reflexivity|].
    destruct (lg_keyID (l_log a)); [|discriminate]. apply beq_eq in H2. congruence.
  Qed.

  (** With distinct logs, more log states never make an entry uncovered. *)
  Lemma covered_mono s acc full e : distinctLogs s -> fromLogs s acc -> allLogs s full ->
    isCovered (cutoffs acc) e = true -> isCovered (cutoffs full) e = true.
  Proof using Type.
    intros D F [FF A]. unfold isCovered. destruct (length e <? 40)%nat; [auto|].
    cbv zeta. unfold cutoffs, newCoverageCutoffMap. rewrite !cutoffMapFrom_spec. cbn [alookup].
    destruct (find _ (rev (map l_log acc))) as [l|] eqn:E; [|discriminate].
    apply find_some_from in E. destruct E as (a & Ha & -> & Ka).
    destruct (F a Ha) as (u & Hu).
    destruct (find _ (rev (map l_log full))) as [l'|] eqn:E'.
    - apply find_some_from in E'. destruct E' as (a' & Ha' & -> & Ka').
      destruct (FF a' Ha') as (v & Hv). rewrite (D u v a a' _ Hu Hv Ka Ka'). auto.
    - exfalso. apply (find_none _ _) with (x := l_log a) in E'.
      + rewrite Ka, beq_refl in E'. discriminate.
      + rewrite <- in_rev. apply in_map. eapply A. exact Hu.
  Qed.

  Lemma covered_same s full full' e : distinctLogs s -> allLogs s full -> allLogs s full' ->
    isCovered (cutoffs full) e = isCovered (cutoffs full') e.
  Proof using Type.
    intros D A A'.
    destruct (isCovered (cutoffs full) e) eqn:E; destruct (isCovered (cutoffs full') e) eqn:E'; try reflexivity.
    - rewrite (covered_mono s full full' e D (proj1 A) A' E) in E'. discriminate.
    - rewrite (covered_mono s full' full e D (proj1 A') A E') in E. discriminate.
  Qed.

  Section Run.
    Variable s0 : db.
    Variable full : list lstate.
    Hypothesis D : distinctLogs s0.
    Hypothesis A : allLogs s0 full.

    Definition covF (e : bytes) : bool := isCovered (cutoffs full) e.

    (** The serials of a bin that are stored or about to be. *)
    Definition total (s : db) (b x : bytes) : Prop :=
      In x (d_files s b) \/ exists e, In e (d_sets s b) /\ covF e = true /\ asSerial e = x.

    Definition current (b : bytes) : Prop := (d_now s0 <= binDate b + nsHour - nsMilli)%Z.

    Definition qtask (s : db) (acc : list lstate) (b : bytes) (t : tstate) : Prop :=
      match t with
      | TScan _ seen => forall x, In x seen -> In x (d_sets s b)
      | TRead cov => forall x, In x cov -> In x (d_sets s b) /\ isCovered (cutoffs acc) x = true
      | TWrite cov out =>
          (forall x, In x (d_files s b) -> In x out) /\ (forall x, In x cov -> In (asSerial x) out) /\
          (forall x, In x out -> total s b x)
      | TRemove todo => forall x, In x todo -> In (asSerial x) (d_files s b)
      | _ => True
      end.

    Definition qmove (s : db) (acc : list lstate) (tasks : list (bytes * tstate)) : Prop :=
      forall b e, In e (d_sets s b) -> isCovered (cutoffs acc) e = true ->
        In (asSerial e) (d_files s b) \/ exists i t, nth_error tasks i = Some (b, t) /\ owes t e.

    Definition qdone (s : db) : Prop :=
      exists acc, d_cov s = Some acc /\ fromLogs s0 acc /\
        forall b e, current b -> In e (d_sets s b) -> isCovered (cutoffs acc) e = true ->
          In (asSerial e) (d_files s b).

    Definition qphase (s : db) (p : phase) : Prop :=
      match p with
      | PLoad acc => fromLogs s0 acc
      | PScan acc must => fromLogs s0 acc /\ forall b, d_sets s b <> [] -> In b must
      | PMove acc tasks => fromLogs s0 acc /\ NoDup (map fst tasks) /\
          (forall i b t, nth_error tasks i = Some (b, t) -> qtask s acc b t) /\ qmove s acc tasks
      | _ => qdone s
      end.

    Record qinv (k : bytes) (s : db) : Prop := mkQ {
      q_logs : d_logs s = d_logs s0;
      q_now : d_now s = d_now s0;
      q_sepoch : d_sepoch s = d_sepoch s0;
      q_lock : d_lock s = d_lock s0;
      q_total : forall b x, current b -> (total s b x <-> total s0 b x);
      q_phase : exists p, d_commit s = Some (mkCm k (d_epoch s0) p) /\ qphase s p /\
        d_epoch s = match p with PFinish => (d_epoch s0 + 1)%N | _ => d_epoch s0 end }.

    Lemma qphase_eq s s' p : d_sets s' = d_sets s -> d_files s' = d_files s -> d_cov s' = d_cov s ->
      qphase s p -> qphase s' p.
    Proof using Type.
      intros E1 E2 E3. unfold qphase, qmove, qdone, qtask, total. rewrite E1, E2, E3. auto.
    Qed.

    Lemma total_eq s s' b x : d_sets s' = d_sets s -> d_files s' = d_files s -> total s' b x = total s b x.
    Proof using Type. intros E1 E2. unfold total. rewrite E1, E2. reflexivity. Qed.

    Lemma q_setPhase k s p : qinv k s ->
      (forall e, d_commit s = Some (mkCm k e PFinish) -> False) -> p <> PFinish -> qphase s p ->
      qinv k (setPhase s k (d_epoch s0) p).
    Proof using Type.
      intros Q NF NP P. destruct Q as [Q1 Q2 Q3 Q4 Q5 (p0 & C & P0 & E0)].
      split; fields; auto.
      exists p. split; [reflexivity|]. split.
      - apply (qphase_eq s); auto.
      - destruct p0; try (exfalso; eapply NF; exact C); rewrite E0; destruct p; congruence.
    Qed.

    Lemma q_move_task k e s acc tasks i b t t' : qinv k s ->
      d_commit s = Some (mkCm k e (PMove acc tasks)) -> nth_error tasks i = Some (b, t) ->
      qtask s acc b t' ->
      (forall x, owes t x -> In x (d_sets s b) -> isCovered (cutoffs acc) x = true ->
         In (asSerial x) (d_files s b) \/ owes t' x) ->
      qphase s (PMove acc (setTask i t' tasks)).
    Proof using Type.
      intros Q C Hi T O. destruct (q_phase _ _ Q) as (p & C' & P & _). rewrite C in C'. injection C' as -> <-.
      destruct P as (F & ND & TO & MO). cbn [qphase]. split; [exact F|]. split; [|split].
      - rewrite setTask_fst. exact ND.
      - intros j b' u Hj. destruct (Nat.eq_dec i j) as [<-|N].
        + rewrite (setTask_same i t' tasks b t Hi) in Hj. injection Hj as <- <-. exact T.
        + rewrite setTask_other in Hj by exact N. eapply TO. exact Hj.
      - intros b' x Hs V. destruct (MO b' x Hs V) as [?|(j & u & Hj & Ou)]; [auto|].
        destruct (Nat.eq_dec i j) as [<-|N].
        + rewrite Hi in Hj. injection Hj as <- <-. destruct (O x Ou Hs V) as [?|O']; [auto|].
          right. exists i, t'. split; [|exact O']. eapply setTask_same. exact Hi.
        + right. exists j, u. split; [|exact Ou]. rewrite setTask_other by exact N. exact Hj.
    Qed.

    Lemma q_epoch k e p s : qinv k s -> d_commit s = Some (mkCm k e p) -> e = d_epoch s0.
    Proof using Type. intros Q C. destruct (q_phase _ _ Q) as (p' & C' & _). rewrite C in C'. congruence. Qed.

    Lemma q_ph k e p s : qinv k s -> d_commit s = Some (mkCm k e p) -> qphase s p.
    Proof using Type.
      intros Q C. destruct (q_phase _ _ Q) as (p' & C' & P & _). rewrite C in C'.
      assert (p = p') by congruence. subst p'. exact P.
    Qed.

    Lemma q_nofin k e p s : qinv k s -> d_commit s = Some (mkCm k e p) -> p <> PFinish ->
      d_epoch s = d_epoch s0.
    Proof using Type.
      intros Q C N. destruct (q_phase _ _ Q) as (p' & C' & P & E). rewrite C in C'.
      assert (p = p') by congruence. subst p'. destruct p; congruence.
    Qed.

    Lemma q_step k s t : qinv k s -> own k s t -> d_commit t <> None -> qinv k t.
    Proof using D A.
      intros Q H N0. destruct H.
      - exfalso. apply N0. reflexivity.
      - destruct (q_phase _ _ Q) as (p & C & _). congruence.
      - pose proof (q_epoch _ _ _ _ Q H) as ->. apply q_setPhase; try congruence.
        cbn [qphase]. pose proof (q_ph _ _ _ _ Q H) as P. cbn [qphase] in P.
        intros l' Hl. apply in_app_or in Hl. destruct Hl as [Hl|[<-|[]]]; [auto|].
        exists u. rewrite <- (q_logs _ _ Q). exact H0.
      - pose proof (q_epoch _ _ _ _ Q H) as ->. apply q_setPhase; try congruence.
        cbn [qphase]. split; [exact (q_ph _ _ _ _ Q H)|exact H0].
      - pose proof (q_epoch _ _ _ _ Q H) as ->. apply q_setPhase; try congruence.
        destruct (q_ph _ _ _ _ Q H) as [P1 P2]. cbn [qphase]. split; [exact P1|]. split; [|split].
        + rewrite map_map. cbn [fst]. rewrite map_id. auto.
        + intros i b t Hi. rewrite nth_error_map in Hi. destruct (nth_error bins i); [|discriminate].
          cbn [option_map] in Hi. injection Hi as <- <-. exact Logic.I.
        + intros b x Hx V. right. assert (Hb : In b bins).
          { apply H0, P2. intros Z. rewrite Z in Hx. destruct Hx. }
          apply In_nth_error in Hb. destruct Hb as (i & Hi). exists i, TNew. split; [|exact Logic.I].
          rewrite nth_error_map, Hi. reflexivity.
      - pose proof (q_epoch _ _ _ _ Q H) as ->. apply q_setPhase; try congruence.
        eapply q_move_task; [exact Q|exact H|exact H0| |].
        + cbn [qtask]. intros x [].
        + intros x _ Hx _. right. left. exact Hx.
      - pose proof (q_epoch _ _ _ _ Q H) as ->. apply q_setPhase; try congruence.
        destruct (q_ph _ _ _ _ Q H) as (_ & _ & TO & _). pose proof (TO _ _ _ H0) as T. cbn [qtask] in T.
        eapply q_move_task; [exact Q|exact H|exact H0| |].
        + cbn [qtask]. intros y [<-|Hy]; auto.
        + intros y [?|?] _ _; right; [left|right; right]; assumption.
      - pose proof (q_epoch _ _ _ _ Q H) as ->. apply q_setPhase; try congruence.
        destruct (q_ph _ _ _ _ Q H) as (_ & _ & TO & _). pose proof (TO _ _ _ H0) as T. cbn [qtask] in T.
        eapply q_move_task; [exact Q|exact H|exact H0| |].
        + destruct seen as [|z seen]; [exact Logic.I|]. cbn [qtask]. intros y Hy. apply filter_In in Hy.
          destruct Hy as [Hy V]. split; [apply T; exact Hy|exact V].
        + intros y O Hy V. right. assert (S : In y seen) by (destruct O; auto).
          destruct seen as [|z seen]; [destruct S|]. cbn [owes]. apply filter_In. split; assumption.
      - pose proof (q_epoch _ _ _ _ Q H) as ->. apply q_setPhase; try congruence.
        destruct (q_ph _ _ _ _ Q H) as (FL & _ & TO & _). pose proof (TO _ _ _ H0) as T. cbn [qtask] in T.
        assert (MC : forall x, In x covered -> In (asSerial x) (dedup (d_files s b ++ map asSerial covered))).
        { intros x Hx. apply dedup_in. apply in_or_app. right. apply in_map. exact Hx. }
        eapply q_move_task; [exact Q|exact H|exact H0| |].
        + cbn [qtask]. split; [|split; [exact MC|]].
          * intros x Hx. apply dedup_in. apply in_or_app. left; exact Hx.
          * intros x Hx. apply (proj1 (dedup_in _ _)) in Hx. apply in_app_or in Hx. destruct Hx as [Hx|Hx]; [left; exact Hx|].
            apply in_map_iff in Hx. destruct Hx as (y & <- & Hy). destruct (T y Hy) as [T1 T2].
            right. exists y. split; [exact T1|]. split; [|reflexivity].
            eapply covered_mono; [exact D|exact FL|exact A|exact T2].
        + intros y O _ _. right. cbn [owes] in *. auto.
      - (* replace *)
        pose proof (q_epoch _ _ _ _ Q H) as ->.
        pose proof (q_nofin _ _ _ _ Q H ltac:(discriminate)) as EP.
        destruct (q_ph _ _ _ _ Q H) as (FL & ND & TO & MO). pose proof (TO _ _ _ H0) as (T1 & T2 & T3).
        assert (TE : forall b' x, total (setFiles s (upd (d_files s) b out)) b' x <-> total s b' x).
        { intros b' x. unfold total. fields. destruct (bytes_eq_dec b' b) as [->|N].
          - rewrite upd_same. split.
            + intros [Hx|Hx]; [apply T3; exact Hx|right; exact Hx].
            + intros [Hx|Hx]; [left; auto|right; exact Hx].
          - rewrite upd_other by exact N. reflexivity. }
        assert (TT : forall b' x, total (setPhase (setFiles s (upd (d_files s) b out)) k (d_epoch s0)
                 (PMove acc (setTask i (TRemove covered) tasks))) b' x <-> total s b' x) by exact TE.
        destruct Q as [Q1 Q2 Q3 Q4 Q5 Q6]. split; [exact Q1|exact Q2|exact Q3|exact Q4| |].
        + intros b' x Cb. rewrite TT. apply Q5. exact Cb.
        + exists (PMove acc (setTask i (TRemove covered) tasks)). split; [reflexivity|].
          split; [|exact EP].
          cbn [qphase]. split; [exact FL|]. split; [rewrite setTask_fst; exact ND|]. split.
          * intros j b' u Hj. destruct (Nat.eq_dec i j) as [<-|N].
            -- rewrite (setTask_same i _ tasks b _ H0) in Hj. injection Hj as <- <-.
               cbn [qtask]. fields. rewrite upd_same. exact T2.
            -- rewrite setTask_other in Hj by exact N.
               assert (Nb : b' <> b). { intros ->. apply N. eapply nth_error_fst_inj; eassumption. }
               specialize (TO j b' u Hj). destruct u; cbn [qtask] in *; fields; rewrite ?upd_other by exact Nb; try exact TO.
               destruct TO as (U1 & U2 & U3). split; [exact U1|]. split; [exact U2|].
               intros x Hx. rewrite TT. auto.
          * intros b' x Hs V. fieldsIn Hs. fields. destruct (MO b' x Hs V) as [Hf|(j & u & Hj & Ou)].
            -- left. destruct (bytes_eq_dec b' b) as [->|N]; [rewrite upd_same; auto|].
               rewrite upd_other by exact N. exact Hf.
            -- destruct (Nat.eq_dec i j) as [<-|N].
               ++ rewrite H0 in Hj. injection Hj as <- <-. left. rewrite upd_same. exact Ou.
               ++ right. exists j, u. split; [|exact Ou]. rewrite setTask_other by exact N. exact Hj.
      - (* remove *)
        pose proof (q_epoch _ _ _ _ Q H) as ->.
        pose proof (q_nofin _ _ _ _ Q H ltac:(discriminate)) as EP.
        destruct (q_ph _ _ _ _ Q H) as (FL & ND & TO & MO). pose proof (TO _ _ _ H0) as T. cbn [qtask] in T.
        set (sets' := upd (d_sets s) b (filter (fun x => negb (existsb (beq x) gone)) (d_sets s b))).
        assert (G1 : forall b' x, In x (sets' b') -> In x (d_sets s b')).
        { intros b' x Hx. unfold sets' in Hx. destruct (bytes_eq_dec b' b) as [->|N].
          - rewrite upd_same in Hx. apply filter_In in Hx. apply Hx.
          - rewrite upd_other in Hx by exact N. exact Hx. }
        assert (G2 : forall b' x, In x (d_sets s b') -> In x (sets' b') \/ In (asSerial x) (d_files s b')).
        { intros b' x Hx. unfold sets'. destruct (bytes_eq_dec b' b) as [->|N].
          - rewrite upd_same. destruct (existsb (beq x) gone) eqn:E.
            + right. apply T. apply in_or_app. left. apply existsb_exists in E. destruct E as (y & Hy & E).
              apply beq_eq in E. congruence.
            + left. apply filter_In. rewrite E. auto.
          - left. rewrite upd_other by exact N. exact Hx. }
        assert (TT : forall b' x, total (setPhase (setSets s sets') k (d_epoch s0)
                 (PMove acc (setTask i (TRemove todo) tasks))) b' x <-> total s b' x).
        { intros b' x. unfold total. fields. split.
          - intros [Hx|(y & Hy & V & E)]; [left; exact Hx|right; exists y; auto].
          - intros [Hx|(y & Hy & V & E)]; [left; exact Hx|]. destruct (G2 b' y Hy) as [G|G].
            + right. exists y. auto.
            + left. rewrite <- E. exact G. }
        destruct Q as [Q1 Q2 Q3 Q4 Q5 Q6]. split; [exact Q1|exact Q2|exact Q3|exact Q4| |].
        + intros b' x Cb. rewrite TT. apply Q5. exact Cb.
        + exists (PMove acc (setTask i (TRemove todo) tasks)). split; [reflexivity|]. split; [|exact EP].
          cbn [qphase]. split; [exact FL|]. split; [rewrite setTask_fst; exact ND|]. split.
          * intros j b' u Hj. destruct (Nat.eq_dec i j) as [<-|N].
            -- rewrite (setTask_same i _ tasks b _ H0) in Hj. injection Hj as <- <-.
               cbn [qtask]. fields. intros x Hx. apply T. apply in_or_app. right; exact Hx.
            -- rewrite setTask_other in Hj by exact N.
               assert (Nb : b' <> b). { intros ->. apply N. eapply nth_error_fst_inj; eassumption. }
               assert (SE : sets' b' = d_sets s b') by (unfold sets'; apply upd_other; exact Nb).
               specialize (TO j b' u Hj). destruct u; cbn [qtask] in *; fields; rewrite ?SE; try exact TO.
               destruct TO as (U1 & U2 & U3). split; [exact U1|]. split; [exact U2|].
               intros x Hx. rewrite TT. auto.
          * intros b' x Hs V. fieldsIn Hs. fields. destruct (MO b' x (G1 _ _ Hs) V) as [Hf|(j & u & Hj & Ou)]; [auto|].
            right. exists j, u. split; [|exact Ou]. rewrite setTask_other; [exact Hj|].
            intros <-. rewrite H0 in Hj. injection Hj as <- <-. exact Ou.
      - pose proof (q_epoch _ _ _ _ Q H) as ->. apply q_setPhase; try congruence.
        eapply q_move_task; [exact Q|exact H|exact H0|exact Logic.I|]. intros y [].
      - (* cover *)
        pose proof (q_epoch _ _ _ _ Q H) as ->.
        pose proof (q_nofin _ _ _ _ Q H ltac:(discriminate)) as EP.
        destruct (q_ph _ _ _ _ Q H) as (FL & ND & TO & MO).
        destruct Q as [Q1 Q2 Q3 Q4 Q5 Q6]. split; [exact Q1|exact Q2|exact Q3|exact Q4|exact Q5|].
        exists PExpire. split; [reflexivity|]. split; [|exact EP].
        cbn [qphase]. exists acc. split; [reflexivity|]. split; [exact FL|].
        intros b x _ Hs V. fieldsIn Hs. fields. destruct (MO b x Hs V) as [Hf|(j & u & Hj & Ou)]; [exact Hf|].
        rewrite forallb_forall in H0. apply nth_error_In in Hj. apply H0 in Hj. unfold isDone in Hj. cbn [snd] in Hj.
        destruct u; try discriminate. destruct Ou.
      - (* expire *)
        pose proof (q_epoch _ _ _ _ Q H) as ->.
        pose proof (q_nofin _ _ _ _ Q H ltac:(discriminate)) as EP.
        destruct (q_ph _ _ _ _ Q H) as (acc & P1 & P2 & P3).
        destruct Q as [Q1 Q2 Q3 Q4 Q5 Q6].
        assert (NB : forall b', current b' -> b' <> b).
        { intros b' Cb ->. unfold current in Cb. rewrite Q2 in H0. lia. }
        split; [exact Q1|exact Q2|exact Q3|exact Q4| |].
        + intros b' x Cb. rewrite <- Q5 by exact Cb. unfold total. fields. rewrite upd_other by (apply NB; exact Cb). reflexivity.
        + exists PExpire. split; [exact H|]. split; [|exact EP].
          exists acc. split; [exact P1|]. split; [exact P2|].
          intros b' x Cb Hs V. fields. rewrite upd_other by (apply NB; exact Cb). eapply P3; eassumption.
      - pose proof (q_epoch _ _ _ _ Q H) as ->. apply q_setPhase; try congruence.
        exact (q_ph _ _ _ _ Q H).
      - (* next epoch *)
        pose proof (q_epoch _ _ _ _ Q H) as ->.
        pose proof (q_nofin _ _ _ _ Q H ltac:(discriminate)) as EP.
        pose proof (q_ph _ _ _ _ Q H) as P.
        destruct Q as [Q1 Q2 Q3 Q4 Q5 Q6]. split; [exact Q1|exact Q2|exact Q3|exact Q4|exact Q5|].
        exists PFinish. split; [reflexivity|]. split; [exact P|]. fields. rewrite EP. reflexivity.
      - exfalso. apply N0. reflexivity.
    Qed.

    Lemma q_running k t : running k s0 t -> qinv k t.
    Proof using D A.
      induction 1 as [C RO L E|t u R IH O N].
      - split; try reflexivity. exists (PLoad []). split; [reflexivity|]. split; [|reflexivity].
        cbn [qphase]. intros l [].
      - eapply q_step; eassumption.
    Qed.

    (** The state after a crash. *)
    Lemma crashed_total k t : running k s0 t ->
      d_logs t = d_logs s0 /\ d_now t = d_now s0 /\ d_sepoch t = d_sepoch s0 /\
      (forall b x, current b -> (total t b x <-> total s0 b x)) /\
      ((forall e, d_commit t <> Some (mkCm k e PFinish)) -> d_epoch t = d_epoch s0).
    Proof using D A.
      intros R. apply q_running in R. destruct R as [Q1 Q2 Q3 Q4 Q5 (p & C & P & E)].
      split; [exact Q1|]. split; [exact Q2|]. split; [exact Q3|]. split; [exact Q5|].
      intros NF. destruct p; try exact E. exfalso. apply (NF (d_epoch s0)). exact C.
    Qed.

    (** The state after a complete commit that read every log state. *)
    Lemma completed_files k acc t : allLogs s0 acc -> completed k s0 acc t ->
      d_epoch t = (d_epoch s0 + 1)%N /\ d_sepoch t = d_epoch s0 /\ d_cov t = Some acc /\ d_commit t = None /\
      forall b x, current b -> (In x (d_files t b) <-> total s0 b x).
    Proof using D A.
      intros AL (u & R & C & V & ->). apply q_running in R.
      destruct R as [Q1 Q2 Q3 Q4 Q5 (p & C' & P & E)]. rewrite C in C'. injection C' as <-.
      fields. split; [exact E|]. split; [reflexivity|]. split; [exact V|]. split; [reflexivity|].
      intros b x Cb. rewrite <- Q5 by exact Cb. cbn [qphase] in P. destruct P as (acc' & V' & _ & P).
      rewrite V in V'. injection V' as <-. split; [left; assumption|].
      intros [Hx|(e & He & Ve & <-)]; [exact Hx|]. eapply P; [exact Cb|exact He|].
      rewrite <- Ve. apply (covered_same s0); assumption.
    Qed.
  End Run.

  (** ** A commit that is allowed to start can be completed *)
  Lemma run_more k s t u : running k s t -> own k t u -> d_commit u <> None -> running k s u.
  Proof using Type. intros. eapply run_step; eassumption. Qed.

  Lemma load_all k s (us : list bytes) : forall t acc, running k s t ->
    d_commit t = Some (mkCm k (d_epoch s) (PLoad acc)) -> d_logs t = d_logs s ->
    exists t' acc', running k s t' /\ d_commit t' = Some (mkCm k (d_epoch s) (PLoad (acc ++ acc'))) /\
      d_logs t' = d_logs s /\ d_sets t' = d_sets t /\
      (forall l, In l acc' -> exists u, d_logs s u = Some l) /\
      (forall u l, In u us -> d_logs s u = Some l -> In l acc').
  Proof using Type.
    induction us as [|u us IH]; intros t acc R C L.
    - exists t, []. rewrite app_nil_r. split; [exact R|]. split; [exact C|]. split; [exact L|]. split; [reflexivity|].
      split; [intros l []|intros u l []].
    - destruct (d_logs s u) as [l|] eqn:E.
      + destruct (IH (setPhase t k (d_epoch s) (PLoad (acc ++ [l]))) (acc ++ [l])) as (t' & acc' & R' & C' & L' & S' & F1 & F2).
        * eapply run_step; [exact R| |].
          -- eapply SLoad with (u := u); [exact C|]. rewrite L. exact E.
          -- discriminate.
        * reflexivity.
        * exact L.
        * exists t', (l :: acc'). rewrite <- app_assoc in C'. split; [exact R'|]. split; [exact C'|].
          split; [exact L'|]. split; [exact S'|]. split.
          -- intros l' [<-|H]; [exists u; exact E|auto].
          -- intros v l' [<-|H] E'; [left; congruence|right; eapply F2; eassumption].
      + destruct (IH t acc R C L) as (t' & acc' & R' & C' & L' & S' & F1 & F2).
        exists t', acc'. split; [exact R'|]. split; [exact C'|]. split; [exact L'|]. split; [exact S'|].
        split; [exact F1|]. intros v l' [<-|H] E'; [congruence|eapply F2; eassumption].
  Qed.

  Lemma see_all k s e acc i b must (xs : list bytes) : forall t tasks seen, running k s t ->
    d_commit t = Some (mkCm k e (PMove acc tasks)) -> nth_error tasks i = Some (b, TScan must seen) ->
    (forall x, In x xs -> In x (d_sets t b)) ->
    exists t' tasks' seen', running k s t' /\ d_commit t' = Some (mkCm k e (PMove acc tasks')) /\
      nth_error tasks' i = Some (b, TScan must seen') /\ (forall x, In x xs \/ In x seen -> In x seen') /\
      d_sets t' = d_sets t /\ length tasks' = length tasks /\
      (forall j, j <> i -> nth_error tasks' j = nth_error tasks j).
  Proof using Type.
    induction xs as [|x xs IH]; intros t tasks seen R C T H.
    - exists t, tasks, seen. split; [exact R|]. split; [exact C|]. split; [exact T|].
      split; [intros x [[]|Hx]; exact Hx|]. auto.
    - destruct (IH (setPhase t k e (PMove acc (setTask i (TScan must (x :: seen)) tasks)))
                   (setTask i (TScan must (x :: seen)) tasks) (x :: seen)) as (t' & tasks' & seen' & R' & C' & T' & S' & D' & Ln & O').
      + eapply run_step; [exact R| |discriminate].
        eapply STaskSee; [exact C|exact T|]. apply H. left; reflexivity.
      + reflexivity.
      + eapply setTask_same. exact T.
      + intros y Hy. apply H. right; exact Hy.
      + exists t', tasks', seen'. split; [exact R'|]. split; [exact C'|]. split; [exact T'|]. split.
        * intros y [[<-|Hy]|Hy]; apply S'; cbn [In]; auto.
        * split; [exact D'|]. split.
          -- rewrite Ln. rewrite <- (map_length fst), setTask_fst, map_length. reflexivity.
          -- intros j Nj. rewrite O' by exact Nj. apply setTask_other. auto.
  Qed.

  Lemma one_task k s e acc i b : forall t tasks, running k s t ->
    d_commit t = Some (mkCm k e (PMove acc tasks)) -> nth_error tasks i = Some (b, TNew) ->
    exists t' tasks', running k s t' /\ d_commit t' = Some (mkCm k e (PMove acc tasks')) /\
      nth_error tasks' i = Some (b, TDone) /\ length tasks' = length tasks /\
      (forall j, j <> i -> nth_error tasks' j = nth_error tasks j).
  Proof using Type.
    assert (LEN : forall j u l, length (setTask j u l) = length l).
    { intros j u l. rewrite <- (map_length fst), setTask_fst, map_length. reflexivity. }
    intros t tasks R C T.
    pose (t1 := setPhase t k e (PMove acc (setTask i (TScan (d_sets t b) []) tasks))).
    assert (R1 : running k s t1).
    { eapply run_step; [exact R| |discriminate]. eapply STaskScan; eassumption. }
    destruct (see_all k s e acc i b (d_sets t b) (d_sets t b) t1 (setTask i (TScan (d_sets t b) []) tasks) [] R1 eq_refl)
      as (t2 & tasks2 & seen & R2 & C2 & T2 & S2 & D2 & L2 & O2).
    { eapply setTask_same. exact T. }
    { intros x Hx. exact Hx. }
    rewrite LEN in L2.
    assert (O2' : forall j, j <> i -> nth_error tasks2 j = nth_error tasks j).
    { intros j Nj. rewrite O2 by exact Nj. apply setTask_other. auto. }
    pose (t3 := setPhase t2 k e (PMove acc (setTask i
        (match seen with [] => TDone | _ => TRead (filter (isCovered (cutoffs acc)) seen) end) tasks2))).
    assert (R3 : running k s t3).
    { eapply run_step; [exact R2| |discriminate]. eapply STaskCovered; [exact C2|exact T2|]. intros x Hx. apply S2. auto. }
    destruct seen as [|z seen].
    { exists t3, (setTask i TDone tasks2). split; [exact R3|]. split; [reflexivity|].
      split; [eapply setTask_same; exact T2|]. split; [rewrite LEN; exact L2|].
      intros j Nj. rewrite setTask_other by auto. auto. }
    set (cov := filter (isCovered (cutoffs acc)) (z :: seen)) in *.
    pose (tasks3 := setTask i (TRead cov) tasks2).
    pose (out := dedup (d_files t3 b ++ map asSerial cov)).
    pose (tasks4 := setTask i (TWrite cov out) tasks3).
    pose (t4 := setPhase t3 k e (PMove acc tasks4)).
    assert (T3 : nth_error tasks3 i = Some (b, TRead cov)) by (eapply setTask_same; exact T2).
    assert (R4 : running k s t4).
    { eapply run_step; [exact R3| |discriminate]. eapply STaskMerge; [reflexivity|exact T3]. }
    assert (T4 : nth_error tasks4 i = Some (b, TWrite cov out)) by (eapply setTask_same; exact T3).
    pose (tasks5 := setTask i (TRemove cov) tasks4).
    pose (t5 := setPhase (setFiles t4 (upd (d_files t4) b out)) k e (PMove acc tasks5)).
    assert (R5 : running k s t5).
    { eapply run_step; [exact R4| |discriminate]. eapply STaskReplace; [reflexivity|exact T4]. }
    assert (T5 : nth_error tasks5 i = Some (b, TRemove (cov ++ []))).
    { rewrite app_nil_r. eapply setTask_same; exact T4. }
    pose (tasks6 := setTask i (TRemove []) tasks5).
    pose (t6 := setPhase (setSets t5 (upd (d_sets t5) b
                   (filter (fun x => negb (existsb (beq x) cov)) (d_sets t5 b)))) k e (PMove acc tasks6)).
    assert (R6 : running k s t6).
    { eapply run_step; [exact R5| |discriminate]. eapply STaskRemove; [reflexivity|exact T5]. }
    assert (T6 : nth_error tasks6 i = Some (b, TRemove [])) by (eapply setTask_same; exact T5).
    exists (setPhase t6 k e (PMove acc (setTask i TDone tasks6))), (setTask i TDone tasks6).
    split; [|split; [reflexivity|split; [eapply setTask_same; exact T6|split]]].
    - eapply run_step; [exact R6| |discriminate]. eapply STaskDone; [reflexivity|exact T6].
    - unfold tasks6, tasks5, tasks4, tasks3. rewrite !LEN. exact L2.
    - intros j Nj. unfold tasks6, tasks5, tasks4, tasks3. rewrite !setTask_other by auto. auto.
  Qed.

  Lemma all_tasks k s e acc : forall n t tasks, running k s t ->
    d_commit t = Some (mkCm k e (PMove acc tasks)) -> (n <= length tasks)%nat ->
    (forall j p, (n <= j)%nat -> nth_error tasks j = Some p -> isDone p = true) ->
    (forall j p, (j < n)%nat -> nth_error tasks j = Some p -> snd p = TNew) ->
    exists t' tasks', running k s t' /\ d_commit t' = Some (mkCm k e (PMove acc tasks')) /\
      forallb isDone tasks' = true.
  Proof using Type.
    induction n as [|n IH]; intros t tasks R C L HD HN.
    - exists t, tasks. split; [exact R|]. split; [exact C|]. apply forallb_forall. intros p Hp.
      apply In_nth_error in Hp. destruct Hp as (j & Hj). apply (HD j); [lia|exact Hj].
    - destruct (nth_error tasks n) as [[b u]|] eqn:E.
      2:{ apply nth_error_None in E. lia. }
      assert (u = TNew) by (apply (HN n (b, u)); [lia|exact E]). subst u.
      destruct (one_task k s e acc n b t tasks R C E) as (t' & tasks' & R' & C' & T' & L' & O').
      apply (IH t' tasks' R' C').
      + lia.
      + intros j p Hj Hp. destruct (Nat.eq_dec j n) as [->|N].
        * rewrite T' in Hp. injection Hp as <-. reflexivity.
        * rewrite O' in Hp by exact N. apply (HD j); [lia|exact Hp].
      + intros j p Hj Hp. rewrite O' in Hp by lia. apply (HN j); [lia|exact Hp].
  Qed.

  Lemma commit_completes k s (us bs : list bytes) :
    d_commit s = None -> readOnly = false -> d_lock s = Some k -> inStep (d_epoch s) (d_sepoch s) = true ->
    (forall u, d_logs s u <> None -> In u us) -> (forall b, d_sets s b <> [] -> In b bs) ->
    exists acc t, allLogs s acc /\ completed k s acc t.
  Proof using Type.
    intros C RO L E HU HB.
    pose proof (run_start k s C RO L E) as R0.
    destruct (load_all k s us _ [] R0 eq_refl eq_refl) as (t1 & acc & R1 & C1 & L1 & S1 & F1 & F2).
    cbn [app] in C1.
    pose (t2 := setPhase t1 k (d_epoch s) (PScan acc bs)).
    assert (R2 : running k s t2).
    { eapply run_step; [exact R1| |discriminate]. eapply SScanStart; [exact C1|].
      intros b Hb. apply HB. rewrite S1 in Hb. exact Hb. }
    pose (bins := nodup bytes_eq_dec bs).
    pose (t3 := setPhase t2 k (d_epoch s) (PMove acc (map (fun b => (b, TNew)) bins))).
    assert (R3 : running k s t3).
    { eapply run_step; [exact R2| |discriminate]. eapply SScanEnd; [reflexivity| |].
      - intros b Hb. apply nodup_In. exact Hb.
      - intros _. apply NoDup_nodup. }
    destruct (all_tasks k s (d_epoch s) acc (length bins) t3 _ R3 eq_refl) as (t4 & tasks & R4 & C4 & D4).
    { rewrite map_length. lia. }
    { intros j p Hj Hp. exfalso. assert (nth_error (map (fun b => (b, TNew)) bins) j = None).
      { apply nth_error_None. rewrite map_length. exact Hj. } congruence. }
    { intros j p _ Hp. rewrite nth_error_map in Hp. destruct (nth_error bins j); [|discriminate].
      injection Hp as <-. reflexivity. }
    pose (t5 := setPhase (setCov t4 (Some acc)) k (d_epoch s) PExpire).
    assert (R5 : running k s t5).
    { eapply run_step; [exact R4| |discriminate]. eapply SCover; eassumption. }
    pose (t6 := setPhase t5 k (d_epoch s) PEpoch).
    assert (R6 : running k s t6).
    { eapply run_step; [exact R5| |discriminate]. eapply SExpired. reflexivity. }
    pose (t7 := setPhase (setEpoch t6 (d_epoch t6 + 1)%N) k (d_epoch s) PFinish).
    assert (R7 : running k s t7).
    { eapply run_step; [exact R6| |discriminate]. eapply SNextEpoch. reflexivity. }
    exists acc, (setCommit (setSEpoch t7 (d_epoch s)) None). split.
    - split; [exact F1|]. intros u l Hu. eapply F2; [|exact Hu]. apply HU. congruence.
    - exists t7. split; [exact R7|]. split; [reflexivity|]. split; reflexivity.
  Qed.
End Retry.
