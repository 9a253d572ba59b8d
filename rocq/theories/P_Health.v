(** * C73: what the health report of ct-fetch says *)
From Verif Require Import Base MerkleModel CtFetchModel HealthModel.

(** ** Specification *)
(** Twice the polling delay, in nanoseconds. *)
Definition window (pollingDelay : N) : Z := 2 * Z.of_N pollingDelay * 1000000000.
(** A sign of life: a job that returned no error, or a message taken off the queue. *)
Definition sign (e : hevent) : Prop := e = HJob true \/ e = HTake.
Definition sane (pollingDelay : N) : Prop := (window pollingDelay < 2 ^ 63)%Z.

(** ** Proofs *)
Lemma int64_id x : (0 <= x < 2 ^ 63)%Z -> int64 x = x.
Proof.
  intros H. unfold int64. assert (E : (2 ^ 63 < 2 ^ 64)%Z) by reflexivity. rewrite Z.mod_small by lia.
  destruct (Z.ltb_spec x (2 ^ 63)); lia.
Qed.

Lemma evaluation pd : sane pd -> evaluationTime pd = window pd.
Proof.
  unfold sane, window. intros H. unfold evaluationTime.
  rewrite (int64_id (Z.of_N pd)) by lia. rewrite (int64_id (2 * Z.of_N pd)) by lia. apply int64_id. lia.
Qed.

Section C73.
  Variables start period : Z.
  Hypothesis period_pos : (0 < period)%Z.
  Notation ticksAt := (ticksAt start period).
  Notation hstep := (hstep start period).
  Notation hrun := (hrun start period).
  Notation tickWaiting := (tickWaiting start period).

  (** A history that can happen. *)
  Definition happens (h : list (Z * hevent)) : Prop := hpossible start period (mkHealth None start) start h.

  Lemma hrun_snoc h e : hrun (h ++ [e]) = hstep e (hrun h).
  Proof using Type. unfold HealthModel.hrun. rewrite fold_left_app. reflexivity. Qed.

  Definition lastTime (now : Z) (h : list (Z * hevent)) : Z := fold_left (fun _ e => fst e) h now.

  Lemma possible_snoc h e : forall s now, hpossible start period s now (h ++ [e]) ->
    hpossible start period s now h /\ (lastTime now h <= fst e)%Z /\
    (snd e = HRetry -> tickWaiting (fold_left (fun s e => hstep e s) h s) (fst e) = true).
  Proof using Type.
    induction h as [|x h IH]; intros s now H; cbn [app hpossible] in *.
    - destruct H as [A [B _]]. auto.
    - destruct H as [A [B H]]. apply IH in H. destruct H as [H1 [H2 H3]]. repeat split; assumption.
  Qed.

  Lemma happens_snoc h e : happens (h ++ [e]) -> happens h /\ (lastTime start h <= fst e)%Z /\
    (snd e = HRetry -> tickWaiting (hrun h) (fst e) = true).
  Proof using Type. apply possible_snoc. Qed.

  Lemma times h : happens h -> (start <= lastTime start h)%Z /\ forall t e, In (t, e) h -> (start <= t <= lastTime start h)%Z.
  Proof using Type.
    induction h as [|[t0 e0] h IH] using rev_ind; intros H; [split; [unfold lastTime; cbn; lia|intros t e []]|].
    apply happens_snoc in H. destruct H as [H [L _]]. destruct (IH H) as [A B]. cbn [fst] in L.
    unfold lastTime. rewrite fold_left_app. cbn [fold_left fst]. fold (lastTime start h). split; [lia|].
    intros t e I. apply in_app_or in I. destruct I as [I|[I|[]]]; [specialize (B t e I); lia|]. injection I as <- <-. lia.
  Qed.

  Lemma ticks_mono a b : (a <= b)%Z -> (ticksAt a <= ticksAt b)%Z.
  Proof using period_pos. intros H. unfold HealthModel.ticksAt. apply Z.div_le_mono; lia. Qed.

  Lemma ticks_step a b : (a + period <= b)%Z -> (ticksAt a < ticksAt b)%Z.
  Proof using period_pos.
    intros H. unfold HealthModel.ticksAt.
    assert (E : ((a + period - start) / period = (a - start) / period + 1)%Z).
    { replace (a + period - start)%Z with (a - start + 1 * period)%Z by lia. apply Z.div_add. lia. }
    assert ((a + period - start) / period <= (b - start) / period)%Z by (apply Z.div_le_mono; lia). lia.
  Qed.

  (** The time of the last update is that of a sign of life. *)
  Lemma last_is_sign h t : h_last (hrun h) = Some t -> exists e, In (t, e) h /\ sign e.
  Proof using Type.
    induction h as [|[t0 e0] h IH] using rev_ind; [discriminate|]. rewrite hrun_snoc.
    assert (OLD : h_last (hrun h) = Some t -> exists e, In (t, e) (h ++ [(t0, e0)]) /\ sign e).
    { intros H. destruct (IH H) as [e [I S]]. exists e. split; [apply in_or_app; left; exact I|exact S]. }
    assert (NEW : sign e0 -> Some t0 = Some t -> exists e, In (t, e) (h ++ [(t0, e0)]) /\ sign e).
    { intros S E. injection E as <-. exists e0. split; [apply in_or_app; right; left; reflexivity|exact S]. }
    unfold HealthModel.hstep. cbn [fst snd]. destruct e0 as [[]| |]; cbn [h_last]; try exact OLD.
    - apply NEW. left. reflexivity.
    - destruct (tickWaiting (hrun h) t0); cbn [h_last]; [apply NEW; right; reflexivity|exact OLD].
  Qed.

  (** It is no older than any job that returned without an error. *)
  Lemma job_counts h t : happens h -> In (t, HJob true) h -> exists t', h_last (hrun h) = Some t' /\ (t <= t')%Z.
  Proof using Type.
    induction h as [|[t0 e0] h IH] using rev_ind; intros H I; [destruct I|]. pose proof (times _ H) as [_ TM].
    pose proof H as H0. apply happens_snoc in H0. destruct H0 as [H0 [L _]]. cbn [fst] in L. rewrite hrun_snoc.
    apply in_app_or in I. destruct I as [I|[I|[]]].
    - destruct (IH H0 I) as [t' [E Lt]]. pose proof (proj2 (times _ H0) t _ I) as TT.
      unfold HealthModel.hstep. cbn [fst snd]. destruct e0 as [[]| |]; cbn [h_last]; try (exists t'; auto; fail).
      + exists t0. split; [reflexivity|lia].
      + destruct (tickWaiting (hrun h) t0); cbn [h_last]; [exists t0; split; [reflexivity|lia]|exists t'; auto].
    - injection I as -> ->. exists t. split; [reflexivity|lia].
  Qed.

  (** When the insert worker last looked at the ticker. *)
  Lemma seen_bound h : happens h -> (start <= h_seen (hrun h) <= lastTime start h)%Z.
  Proof using Type.
    induction h as [|[t0 e0] h IH] using rev_ind; intros H; [unfold lastTime; cbn; lia|].
    apply happens_snoc in H. destruct H as [H [L _]]. cbn [fst] in L. specialize (IH H). pose proof (proj1 (times _ H)) as T0. rewrite hrun_snoc.
    unfold lastTime. rewrite fold_left_app. cbn [fold_left fst]. fold (lastTime start h).
    unfold HealthModel.hstep. cbn [fst snd]. destruct e0 as [[]| |]; cbn [h_seen]; try lia.
    destruct (tickWaiting (hrun h) t0); cbn [h_seen]; lia.
  Qed.

  (** After a message taken at [a], either the ticker was received later by a retry, or
      there is an update not older than [a], or no tick has been received since [a]. *)
  Lemma take_counts h a : forall h1 h2, happens h -> h = h1 ++ (a, HTake) :: h2 -> ~ In HRetry (map snd h2) ->
    (exists t', h_last (hrun h) = Some t' /\ (a <= t')%Z) \/ (h_seen (hrun h) <= a)%Z.
  Proof using Type.
    intros h1 h2. revert h. induction h2 as [|[t0 e0] h2 IH] using rev_ind; intros h H -> NR.
    - apply happens_snoc in H. destruct H as [H [L _]]. cbn [fst] in L. pose proof (seen_bound _ H) as SB. rewrite hrun_snoc.
      unfold HealthModel.hstep. cbn [fst snd]. destruct (tickWaiting (hrun h1) a); cbn [h_last h_seen].
      + left. exists a. split; [reflexivity|lia].
      + right. lia.
    - rewrite app_comm_cons, app_assoc in H |- *. pose proof H as H0. apply happens_snoc in H0. destruct H0 as [H0 [L _]]. cbn [fst] in L.
      assert (NR' : ~ In HRetry (map snd h2)) by (intros I; apply NR; rewrite map_app; apply in_or_app; left; exact I).
      assert (NE : e0 <> HRetry) by (intros ->; apply NR; rewrite map_app; apply in_or_app; right; left; reflexivity).
      pose proof (proj2 (times _ H0) a HTake) as TA. specialize (TA ltac:(apply in_or_app; right; left; reflexivity)).
      rewrite hrun_snoc. specialize (IH _ H0 eq_refl NR'). unfold HealthModel.hstep. cbn [fst snd].
      destruct e0 as [[]| |]; cbn [h_last h_seen]; try exact IH; [| |contradiction NE; reflexivity].
      + left. exists t0. split; [reflexivity|lia].
      + destruct (tickWaiting (hrun (h1 ++ (a, HTake) :: h2)) t0); cbn [h_last h_seen]; [left; exists t0; split; [reflexivity|lia]|exact IH].
  Qed.

  Lemma update_stays h t : forall h2, happens (h ++ h2) -> (exists t', h_last (hrun h) = Some t' /\ (t <= t')%Z) ->
    exists t', h_last (hrun (h ++ h2)) = Some t' /\ (t <= t')%Z.
  Proof using Type.
    induction h2 as [|[t0 e0] h2 IH] using rev_ind; intros H U; [rewrite app_nil_r; exact U|].
    rewrite app_assoc in H |- *. pose proof H as H0. apply happens_snoc in H0. destruct H0 as [H0 [L _]]. cbn [fst] in L.
    destruct (IH H0 U) as [t' [E Lt]]. rewrite hrun_snoc.
    assert (T' : (t' <= lastTime start (h ++ h2))%Z).
    { destruct (last_is_sign _ _ E) as [e [I _]]. apply (times _ H0) in I. lia. }
    unfold HealthModel.hstep. cbn [fst snd].
    destruct e0 as [[]| |]; cbn [h_last]; try (exists t'; auto; fail).
    - exists t0. split; [reflexivity|lia].
    - destruct (tickWaiting (hrun (h ++ h2)) t0); cbn [h_last]; [exists t0; split; [reflexivity|lia]|exists t'; auto].
  Qed.

  (** "ok" means a sign of life within twice the polling delay. *)
  Theorem C73_ok_means : forall pd h now, sane pd -> healthStatus pd now (hrun h) = 200%N ->
    exists t e, In (t, e) h /\ sign e /\ (now - t <= window pd)%Z.
  Proof using Type.
    intros pd h now S E. unfold healthStatus in E. destruct (h_last (hrun h)) as [t|] eqn:L; [|discriminate].
    rewrite evaluation in E by exact S. destruct (Z.ltb_spec (window pd) (now - t)) as [X|X]; [discriminate|].
    destruct (last_is_sign h t L) as [e [I Se]]. exists t, e. auto.
  Qed.

  (** An alarm means that no job returned without an error within that time, and that of
      the messages taken within it no two lie a period of the ticker apart, unless an
      attempt to store failed between them. *)
  Theorem C73_alarm_means : forall pd h now, sane pd -> happens h -> healthStatus pd now (hrun h) <> 200%N ->
    (forall t, In (t, HJob true) h -> (window pd < now - t)%Z) /\
    (forall a b h1 h2 h3, h = h1 ++ (a, HTake) :: h2 ++ (b, HTake) :: h3 -> (now - a <= window pd)%Z -> (a + period <= b)%Z -> In HRetry (map snd h2)).
  Proof using period_pos.
    intros pd h now S H E.
    assert (U : forall t, (exists t', h_last (hrun h) = Some t' /\ (t <= t')%Z) -> (window pd < now - t)%Z).
    { intros t [t' [L Lt]]. unfold healthStatus in E. rewrite L in E. rewrite evaluation in E by exact S.
      destruct (Z.ltb_spec (window pd) (now - t')) as [X|X]; [lia|]. contradiction E. reflexivity. }
    split; [intros t I; apply U, job_counts; assumption|].
    intros a b h1 h2 h3 -> W P. destruct (in_dec (fun x y : hevent => ltac:(decide equality; apply Bool.bool_dec)) HRetry (map snd h2)) as [I|NR]; [exact I|exfalso].
    specialize (U a). enough (window pd < now - a)%Z by lia. apply U.
    replace (h1 ++ (a, HTake) :: h2 ++ (b, HTake) :: h3) with ((h1 ++ (a, HTake) :: h2 ++ [(b, HTake)]) ++ h3) in H |- * by (rewrite <- app_assoc; cbn [app]; rewrite <- app_assoc; reflexivity).
    apply update_stays; [exact H|].
    assert (H1 : happens (h1 ++ (a, HTake) :: h2 ++ [(b, HTake)])).
    { clear -H. induction h3 as [|x h3 IH] using rev_ind; [rewrite app_nil_r in H; exact H|]. apply IH. rewrite app_assoc in H. apply happens_snoc in H. apply H. }
    rewrite app_comm_cons, app_assoc in H1 |- *. pose proof H1 as H2. apply happens_snoc in H2. destruct H2 as [H2 [L _]]. cbn [fst] in L.
    rewrite hrun_snoc. unfold HealthModel.hstep. cbn [fst snd].
    destruct (take_counts _ a h1 h2 H2 eq_refl NR) as [X|X].
    - destruct (tickWaiting _ b); cbn [h_last]; [exists b; split; [reflexivity|lia]|exact X].
    - assert (TW : tickWaiting (hrun (h1 ++ (a, HTake) :: h2)) b = true).
      { unfold HealthModel.tickWaiting. apply Z.ltb_lt. apply Z.le_lt_trans with (ticksAt a); [apply ticks_mono, X|apply ticks_step, P]. }
      rewrite TW. cbn [h_last]. exists b. split; [reflexivity|lia].
  Qed.

  (** "no health updates yet" before the first sign of life, and never after a job
      that returned without an error; "too long since the last update" only if there
      was one. *)
  Theorem C73_too_early : forall pd h now, happens h ->
    ((forall t e, In (t, e) h -> ~ sign e) -> healthStatus pd now (hrun h) = 503%N) /\
    (healthStatus pd now (hrun h) = 503%N -> forall t, ~ In (t, HJob true) h) /\
    (healthStatus pd now (hrun h) = 500%N -> exists t e, In (t, e) h /\ sign e) /\
    In (healthStatus pd now (hrun h)) [200%N; 500%N; 503%N].
  Proof using Type.
    intros pd h now H. unfold healthStatus. destruct (h_last (hrun h)) as [u|] eqn:L.
    - destruct (last_is_sign h u L) as [e [I S]]. split; [intros N; contradiction (N _ _ I S)|].
      split; [destruct (_ <? _)%Z; discriminate|]. split; [intros _; exists u, e; auto|].
      destruct (_ <? _)%Z; cbn; auto.
    - split; [reflexivity|]. split; [|split; [discriminate|cbn; auto]].
      intros _ t I. destruct (job_counts h t H I) as [t' [L' _]]. congruence.
  Qed.

  (** A report that follows a job without an error by no more than that time is "ok". *)
  Lemma recent_job_ok pd h t now : sane pd -> happens h -> In (t, HJob true) h -> (now - t <= window pd)%Z -> healthStatus pd now (hrun h) = 200%N.
  Proof using period_pos.
    intros S H I W. destruct (N.eq_dec (healthStatus pd now (hrun h)) 200) as [E|E]; [exact E|].
    destruct (C73_alarm_means pd h now S H E) as [A _]. specialize (A t I). lia.
  Qed.

  (** ** What does not hold: "ok" is no sign of progress *)

  (** Jobs that return without an error, twice the polling delay apart. *)
  Definition idle (pd : N) (n : nat) : list (Z * hevent) := map (fun i => ((start + Z.of_nat i * window pd)%Z, HJob true)) (seq 0 n).

  Lemma idle_happens pd : forall n k s now, (now <= start + Z.of_nat k * window pd)%Z ->
    hpossible start period s now (map (fun i => ((start + Z.of_nat i * window pd)%Z, HJob true)) (seq k n)).
  Proof using Type.
    assert (W : (0 <= window pd)%Z) by (unfold window; lia).
    induction n as [|n IH]; intros k s now L; [exact I|]. cbn [seq map hpossible fst snd]. split; [exact L|]. split; [discriminate|].
    apply IH. nia.
  Qed.

  (** A log that cannot be reached: its jobs do nothing and return without an error,
      in both kinds of log, and the report stays "ok" for as long as one likes. *)
  Theorem C73_progress_refuted : forall pd, sane pd ->
    (forall (sha256 : bytes -> bytes) (Cert : Type) jobSize s (e : jobEnv Cert), je_head Cert e = None -> run sha256 Cert jobSize s e = ([], OOk)) /\
    (forall (Cert : Type) batchSize s (e : tiledEnv Cert), tj_head Cert e = None -> runTiled Cert batchSize s e = ([], OOk)) /\
    forall n, happens (idle pd (S n)) /\
      forall now, (start + Z.of_nat n * window pd <= now <= start + Z.of_nat (S n) * window pd)%Z ->
      healthStatus pd now (hrun (idle pd (S n))) = 200%N.
  Proof using period_pos.
    intros pd S. split; [|split].
    - intros sha256 Cert jobSize s e E. unfold run. rewrite E. reflexivity.
    - intros Cert batchSize s e E. unfold runTiled. rewrite E. reflexivity.
    - intros n.
      assert (HP : happens (idle pd (Datatypes.S n))) by (apply idle_happens; lia).
      split; [exact HP|]. intros now [L U]. apply (recent_job_ok pd _ (start + Z.of_nat n * window pd)%Z now S HP).
      + unfold idle. apply in_map_iff. exists n. split; [reflexivity|]. apply in_seq. lia.
      + nia.
  Qed.

  (** A message taken, and then nothing but failing attempts to store it, at every tick,
      while the jobs of other logs return without an error. *)
  Fixpoint stuck (n : nat) : list (Z * hevent) :=
    match n with
    | O => [((start + period)%Z, HTake)]
    | S m => stuck m ++ [((start + Z.of_nat (S (S m)) * period)%Z, HRetry); ((start + Z.of_nat (S (S m)) * period)%Z, HJob true)]
    end.

  Lemma possible_app h2 : forall h1 s now, hpossible start period s now h1 ->
    hpossible start period (fold_left (fun s e => hstep e s) h1 s) (lastTime now h1) h2 -> hpossible start period s now (h1 ++ h2).
  Proof using Type.
    induction h1 as [|e h1 IH]; intros s now H1 H2; [exact H2|]. cbn [app hpossible] in *. destruct H1 as [A [B H1]].
    split; [exact A|]. split; [exact B|]. apply IH; [exact H1|exact H2].
  Qed.

  Lemma stuck_happens n : happens (stuck n) /\ lastTime start (stuck n) = (start + Z.of_nat (S n) * period)%Z /\
    h_seen (hrun (stuck n)) = (start + Z.of_nat (S n) * period)%Z.
  Proof using period_pos.
    induction n as [|n [IH1 [IH2 IH3]]].
    - split; [|split].
      + cbn. split; [lia|]. split; [discriminate|exact I].
      + cbn [stuck lastTime fold_left fst]. lia.
      + cbn [stuck HealthModel.hrun fold_left HealthModel.hstep fst snd].
        replace (tickWaiting (mkHealth None start) (start + period)) with true; [cbn [h_seen]; lia|].
        symmetry. apply Z.ltb_lt. cbn [h_seen]. apply ticks_step. lia.
    - cbn [stuck]. split; [|split].
      + apply possible_app; [exact IH1|]. fold (hrun (stuck n)). rewrite IH2. cbn [hpossible fst snd].
        split; [nia|]. split; [intros _; apply Z.ltb_lt; rewrite IH3; apply ticks_step; nia|].
        split; [lia|]. split; [discriminate|exact I].
      + unfold lastTime. rewrite fold_left_app. reflexivity.
      + unfold HealthModel.hrun. rewrite fold_left_app. reflexivity.
  Qed.

  (** Nothing has been stored for as long as one likes, and the report is "ok". *)
  Theorem C73_storing_refuted : forall pd n, sane pd -> (period <= window pd)%Z ->
    happens (stuck (S n)) /\ (forall i, (i < S n)%nat -> In ((start + Z.of_nat (2 + i) * period)%Z, HRetry) (stuck (S n))) /\
    length (filter (fun e => match snd e with HTake => true | _ => false end) (stuck (S n))) = 1%nat /\
    forall now, (start + Z.of_nat (2 + n) * period <= now <= start + Z.of_nat (3 + n) * period)%Z -> healthStatus pd now (hrun (stuck (S n))) = 200%N.
  Proof using period_pos.
    intros pd n S W. split; [apply stuck_happens|]. split; [|split].
    - generalize (Datatypes.S n) as k. induction k as [|k IH]; intros i L; [lia|]. cbn [stuck]. apply in_or_app.
      destruct (Nat.eq_dec i k) as [->|N]; [right; left; reflexivity|left; apply IH; lia].
    - generalize (Datatypes.S n) as k. induction k as [|k IH]; [reflexivity|]. cbn [stuck]. rewrite filter_app, app_length, IH. reflexivity.
    - intros now [L U]. apply (recent_job_ok pd _ (start + Z.of_nat (2 + n) * period)%Z now S).
      + apply stuck_happens.
      + cbn [stuck]. apply in_or_app. right. right. left. reflexivity.
      + nia.
  Qed.
End C73.

(** A polling delay of 146 years: the window overflows, and an update of one nanosecond
    ago raises an alarm. *)
Theorem C73_overflow_refuted : exists pd : N, (Z.of_N pd < 2 ^ 63)%Z /\ forall t, healthStatus pd (t + 1) (mkHealth (Some t) t) = 500%N.
Proof.
  exists 4611686019%N. split; [reflexivity|]. intros t. unfold healthStatus. cbn [h_last].
  assert (E : evaluationTime 4611686019%N = (-9223372035709551616)%Z) by reflexivity. rewrite E.
  destruct (Z.ltb_spec (-9223372035709551616) (t + 1 - t)) as [X|X]; [reflexivity|lia].
Qed.

(** ** A case *)
(** A ticker of 20 s, a polling delay of 600 s: a message at 25 s, at which a tick waits;
    a job that fails; attempts to store that fail; a job that returns. *)
Definition exSec (n : Z) : Z := (n * 1000000000)%Z.
Definition exHistory : list (Z * hevent) :=
  [(exSec 5, HTake); (exSec 25, HTake); (exSec 30, HJob false); (exSec 40, HRetry); (exSec 61, HRetry); (exSec 62, HTake); (exSec 70, HJob true); (exSec 79, HTake)].

Example C73_example :
  sane 600 /\ happens 0 (exSec 20) exHistory /\
  healthStatus 600 (exSec 6) (hrun 0 (exSec 20) (firstn 1 exHistory)) = 503%N /\
  h_last (hrun 0 (exSec 20) (firstn 2 exHistory)) = Some (exSec 25) /\
  h_last (hrun 0 (exSec 20) (firstn 6 exHistory)) = Some (exSec 25) /\
  h_last (hrun 0 (exSec 20) exHistory) = Some (exSec 70) /\
  healthStatus 600 (exSec 1270) (hrun 0 (exSec 20) exHistory) = 200%N /\
  healthStatus 600 (exSec 1270 + 1) (hrun 0 (exSec 20) exHistory) = 500%N.
Proof. repeat split; try reflexivity; try discriminate. Qed.

Print Assumptions C73_ok_means.
Print Assumptions C73_alarm_means.
Print Assumptions C73_too_early.
Print Assumptions C73_progress_refuted.
Print Assumptions C73_storing_refuted.
Print Assumptions C73_overflow_refuted.
