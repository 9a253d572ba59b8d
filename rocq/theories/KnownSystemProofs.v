(** * Proofs about aggregate-known beside other processes *)
From Verif Require Import Base MerkleModel SerialModel SerialProofs TimeModel StoreModel
  CommitModel CommitProofs CommitProofs2 CommitSystem CommitSystemProofs CommitSystemProofs2 KnownSystem.

Section Sys.
  Variable binDate : bytes -> Z.
  Variable enrolled : bytes -> bool.
  Notation gstep := (gstep binDate).
  Notation ginv := (ginv binDate).
  Notation mstep := (mstep binDate).
  Notation krun := (krun binDate enrolled).

  (** ** Serial files only grow, until their bin expires *)
  Lemma files_grow s t b x : ginv s -> gstep s t -> (d_now t < binDate b)%Z ->
    In x (d_files s b) -> In x (d_files t b).
  Proof using Type.
    intros G H A I. destruct H as [s t H|s n H]; [|exact I].
    destruct H as [s t H|k s t H]; destruct H; try exact I.
    - fields. destruct (beq_spec b b0) as [->|N]; [rewrite upd_same|rewrite upd_other by exact N; exact I].
      pose proof (i_phase _ _ (g_inv _ _ G) _ _ _ H) as (_ & TO & _).
      apply (proj1 (TO _ _ _ H0)). exact I.
    - fields. fieldsIn A. destruct (beq_spec b b0) as [->|N]; [|rewrite upd_other by exact N; exact I].
      exfalso. clear -H0 A. assert (0 < nsHour - nsMilli)%Z by reflexivity. lia.
  Qed.

  (** What the runs of many processes keep (sim_run). *)
  Definition good (m : sys) : Prop := excl m /\ held m /\ exists s, view m s /\ ginv s.

  Lemma good_empty now : good (emptySys now).
  Proof using Type.
    destruct (sim_run binDate now (emptySys now) (msteps_refl _ _ _)) as (X & H & s & V & _ & G).
    split; [exact X|]. split; [exact H|]. exists s. auto.
  Qed.

  Lemma good_run now m : msteps binDate true (emptySys now) m -> good m.
  Proof using Type.
    intros R. destruct (sim_run binDate now m R) as (X & H & s & V & _ & G).
    split; [exact X|]. split; [exact H|]. exists s. auto.
  Qed.

  Lemma view_files m s : view m s -> d_files s = d_files (m_db m) /\ d_now s = d_now (m_db m).
  Proof using Type. intros (oc & -> & _). fields. split; reflexivity. Qed.

  Lemma good_step w m n : good m -> mstep true w m n ->
    good n /\ forall b x, (d_now (m_db n) < binDate b)%Z -> In x (d_files (m_db m) b) -> In x (d_files (m_db n) b).
  Proof using Type.
    intros (X & Hd & s & V & G) S. destruct (sim_step binDate w m n s X Hd V S) as (t & V' & T).
    destruct (view_files m s V) as [F1 N1]. destruct (view_files n t V') as [F2 N2]. split.
    - split; [eapply excl_step; eassumption|]. split.
      + eapply held_step; [exact Hd| |exact S].
        destruct (view_cov m s V (g_cov _ _ G)) as [C|C]; [exact C|]. destruct (C (x_none _ X)).
      + exists t. split; [exact V'|]. destruct T as [->|T]; [exact G|eapply gstep_inv; eassumption].
    - intros b x A I. rewrite <- F2. rewrite <- F1 in I. rewrite <- N2 in A.
      destruct T as [->|T]; [exact I|]. eapply files_grow; eassumption.
  Qed.

  Lemma step_now pr w m n : mstep pr w m n -> (d_now (m_db m) <= d_now (m_db n))%Z.
  Proof using Type.
    intros H. destruct H; cbn [withDb withProc withBoth lockFor m_db]; fields; try (clear; lia); try assumption.
    pose proof (own_frame _ _ _ _ H0) as (_ & F & _). fieldsIn F. rewrite F. clear; lia.
  Qed.

  (** ** Completeness *)
  Definition listsAll (m : sys) (logs : list lstate) (P : bytes -> bytes -> Prop) : Prop :=
    forall b e, claimed logs b e -> isCovered (cutoffs logs) e = true -> enrolled b = true ->
      (d_now (m_db m) < binDate b)%Z -> P b (asSerial e).

  (** What the coverage list in the hands of the run promises. *)
  Definition kOK (m : sys) (k : kn) : Prop :=
    match k with
    | KCommitted | KFailed => True
    | KLogged logs => listsAll m logs (fun b x => In x (d_files (m_db m) b))
    | KListing logs must => listsAll m logs (fun b x => In x (d_files (m_db m) b) /\ In b must)
    | KReading logs todo out => listsAll m logs (fun b x =>
        In x (d_files (m_db m) b) /\ (In b todo \/ exists ss, In (b, ss) out /\ In x ss))
    end.

  Lemma kOK_step w m n k : good m -> mstep true w m n -> kOK m k -> kOK n k.
  Proof using Type.
    intros G S K. pose proof (step_now _ _ _ _ S) as T. destruct (good_step w m n G S) as [_ F].
    destruct k as [|logs|logs must|logs todo out|]; cbn [kOK] in *; try exact Logic.I;
      intros b e C V E A; specialize (K b e C V E (Z.le_lt_trans _ _ _ T A)); cbv beta in K.
    - apply F; assumption.
    - destruct K as [K1 K2]. split; [apply F; assumption|exact K2].
    - destruct K as [K1 K2]. split; [apply F; assumption|exact K2].
  Qed.

  Lemma in_split_cases {A} (x b : A) a c : In x (a ++ b :: c) -> x = b \/ In x (a ++ c).
  Proof using Type.
    clear. intros H. apply in_app_or in H. destruct H as [H|[H|H]]; [right; apply in_or_app; auto|left; congruence|right; apply in_or_app; auto].
  Qed.

  Lemma kOK_move m k k' : good m -> kmove binDate enrolled (m_db m) k k' -> kOK m k -> kOK m k'.
  Proof using Type.
    intros (X & Hd & s & V & G) M K. destruct (view_files m s V) as [F1 N1].
    destruct M; cbn [kOK] in *; try exact Logic.I.
    - intros b e C Cv E A. rewrite <- F1. apply (i_cov _ _ (g_inv _ _ G) logs b e); try assumption.
      + destruct V as (oc & -> & _). fields. exact H.
      + unfold alive. rewrite N1. exact A.
    - intros b e C Cv E A. specialize (K b e C Cv E A). cbv beta in K. split; [exact K|]. apply H. intros Z. rewrite Z in K. destruct K.
    - intros b e C Cv E A. destruct (K b e C Cv E A) as [K1 K2]. split; [exact K1|]. left.
      apply filter_In. split; [|exact E]. apply H; [exact K2|]. intros Z. rewrite Z in K1. destruct K1.
    - intros b0 e C Cv E A. destruct (K b0 e C Cv E A) as [K1 [K2|K2]]; (split; [exact K1|]); [|right; exact K2].
      destruct (in_split_cases _ _ _ _ K2) as [->|K3]; [|left; exact K3].
      exfalso. clear -H A. assert (0 < nsHour - nsMilli)%Z by reflexivity. lia.
    - intros b0 e C Cv E A. destruct (K b0 e C Cv E A) as [K1 [K2|(ss & K2 & K3)]]; (split; [exact K1|]).
      + destruct (in_split_cases _ _ _ _ K2) as [->|K3]; [|left; exact K3].
        right. exists (d_files (m_db m) b). split; [apply in_or_app; right; left; reflexivity|exact K1].
      + right. exists ss. split; [apply in_or_app; left; exact K2|exact K3].
  Qed.

  Lemma kOK_run hold m0 k0 m k : good m0 -> kOK m0 k0 -> krun true hold (m0, k0) (m, k) -> good m /\ kOK m k.
  Proof using Type.
    intros G K R. remember (m0, k0) as x eqn:Ex. remember (m, k) as y eqn:Ey. revert m k Ey.
    induction R as [x|x m1 n k1 w R IH S W|x m1 k1 k' R IH M]; intros m k Ey.
    - subst x. injection Ey as <- <-. split; assumption.
    - injection Ey as <- <-. destruct (IH Ex m1 k1 eq_refl) as [G1 K1].
      split; [apply (good_step w m1 n G1 S)|eapply kOK_step; eassumption].
    - injection Ey as <- <-. destruct (IH Ex m1 k1 eq_refl) as [G1 K1]. split; [exact G1|eapply kOK_move; eassumption].
  Qed.

  (** ** Nothing is invented *)
  Definition outOK (m : sys) (k : kn) : Prop :=
    match k with
    | KReading _ todo out => Forall (fun b => enrolled b = true) todo /\
        Forall (fun p => enrolled (fst p) = true /\ forall x, In x (snd p) ->
          exists e, In (fst p, e) (d_inserted (m_db m)) /\ asSerial e = x) out
    | _ => True
    end.

  Lemma outOK_run pr hold now m0 k m : msteps binDate pr (emptySys now) m0 ->
    krun pr hold (m0, KCommitted) (m, k) -> msteps binDate pr (emptySys now) m /\ outOK m k.
  Proof using Type.
    intros R0 R. remember (m0, KCommitted) as x eqn:Ex. remember (m, k) as y eqn:Ey. revert m k Ey.
    induction R as [x|x m1 n k1 w R IH S W|x m1 k1 k' R IH M]; intros m k Ey.
    - subst x. injection Ey as <- <-. split; [exact R0|exact Logic.I].
    - injection Ey as <- <-. destruct (IH Ex m1 k1 eq_refl) as [G1 K1].
      split; [eapply msteps_step; eassumption|]. destruct k1; try exact Logic.I. destruct K1 as [K1 K2]. split; [exact K1|].
      eapply Forall_impl; [|exact K2]. intros [b ss] [E H]. split; [exact E|]. intros x0 I.
      destruct (H x0 I) as (e & Ie & Ee). exists e. split; [eapply step_grows; eassumption|exact Ee].
    - injection Ey as <- <-. destruct (IH Ex m1 k1 eq_refl) as [G1 K1]. split; [exact G1|].
      destruct M; try exact Logic.I; cbn [outOK] in *.
      + split; [|constructor]. apply Forall_forall. intros b Hb. apply filter_In in Hb. apply Hb.
      + destruct K1 as [K1 K2]. split; [|exact K2]. rewrite Forall_forall in *. intros b0 Hb. apply K1.
        apply in_app_or in Hb. apply in_or_app. destruct Hb; [left|right; right]; assumption.
      + destruct K1 as [K1 K2]. split.
        * rewrite Forall_forall in *. intros b0 Hb. apply K1.
          apply in_app_or in Hb. apply in_or_app. destruct Hb; [left|right; right]; assumption.
        * apply Forall_app. split; [exact K2|]. constructor; [|constructor]. cbn [fst snd]. split.
          -- rewrite Forall_forall in K1. apply K1. apply in_or_app. right; left; reflexivity.
          -- intros x0 I. apply sane_run in G1. exact (n_files _ (s_all2 _ G1 0%nat) b x0 I).
  Qed.

  (** ** While the lock is held, storage stands still *)
  Lemma still w m n i k : excl m -> holds (m_procs m i) = Some k -> isRun (m_procs m i) = false ->
    mstep true w m n -> w <> Some i ->
    m_procs n i = m_procs m i /\ d_files (m_db n) = d_files (m_db m) /\ d_cov (m_db n) = d_cov (m_db m) /\
    d_sepoch (m_db n) = d_sepoch (m_db m) /\ d_lock (m_db n) = d_lock (m_db m).
  Proof using Type.
    intros X Hk Hr S W. pose proof (x_lock _ X i k Hk) as L. pose proof (x_time _ X i k Hk) as T.
    assert (O : forall j q, holds (m_procs m j) = Some q -> j = i) by (intros j q Hj; eapply (x_one _ X j i q k); assumption).
    destruct S; cbn [withDb withProc withBoth lockFor m_db m_procs]; fields; try (rewrite pset_other by congruence); auto 6.
    - split; [|auto]. destruct (m_procs m i); try reflexivity. discriminate Hr.
    - exfalso. clear -H T. lia.
    - congruence.
    - assert (i0 = i) as -> by (apply (O _ (cm_tok c)); rewrite H; reflexivity). congruence.
    - assert (i0 = i) as -> by (apply (O _ k0); rewrite H; reflexivity). congruence.
    - congruence.
  Qed.

  Definition fromOne (m0 : sys) (k : kn) : Prop :=
    match k with
    | KCommitted | KFailed => True
    | KLogged logs | KListing logs _ => d_cov (m_db m0) = Some logs
    | KReading logs _ out => d_cov (m_db m0) = Some logs /\ forall b ss, In (b, ss) out -> ss = d_files (m_db m0) b
    end.

  Lemma still_run i k m0 m kk : excl m0 -> holds (m_procs m0 i) = Some k -> isRun (m_procs m0 i) = false ->
    krun true (Some i) (m0, KCommitted) (m, kk) ->
    excl m /\ m_procs m i = m_procs m0 i /\ d_files (m_db m) = d_files (m_db m0) /\ d_cov (m_db m) = d_cov (m_db m0) /\
    d_sepoch (m_db m) = d_sepoch (m_db m0) /\ d_lock (m_db m) = d_lock (m_db m0) /\ fromOne m0 kk.
  Proof using Type.
    intros X Hk Hr R. remember (m0, KCommitted) as x eqn:Ex. remember (m, kk) as y eqn:Ey. revert m kk Ey.
    induction R as [x|x m1 n k1 w R IH S W|x m1 k1 k' R IH M]; intros m kk Ey.
    - subst x. injection Ey as <- <-. cbn [fromOne]. auto 8.
    - injection Ey as <- <-. destruct (IH Ex m1 k1 eq_refl) as (X1 & E1 & E2 & E3 & E4 & E5 & E6).
      destruct (still w m1 n i k X1) as (F1 & F2 & F3 & F4 & F5); try assumption; try congruence; [apply W; reflexivity|].
      split; [eapply excl_step; eassumption|]. repeat split; congruence || exact E6.
    - injection Ey as <- <-. destruct (IH Ex m1 k1 eq_refl) as (X1 & E1 & E2 & E3 & E4 & E5 & E6).
      split; [exact X1|]. repeat (split; [assumption|]). destruct M; cbn [fromOne] in *; try exact Logic.I; try assumption.
      + congruence.
      + split; [exact E6|intros b ss []].
      + destruct E6 as [E6 E7]. split; [exact E6|]. intros b0 ss Hb. apply in_app_or in Hb. destruct Hb as [Hb|[Hb|[]]]; [apply E7; exact Hb|].
        assert (b = b0) as <- by congruence. assert (ss = d_files (m_db m1) b) as -> by congruence. rewrite E2. reflexivity.
  Qed.
End Sys.
