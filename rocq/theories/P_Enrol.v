(** * C50: enrolled logs are downloaded, and only these *)
From Verif Require Import Base EnrolModel.

(** ** Specification *)
(** After the records [seen], in this order, the log [id] is enrolled: some record says so and no later one says otherwise. *)
Definition inForce (seen : list logrec) (id : bytes) : Prop :=
  exists pre r post, seen = pre ++ r :: post /\ lId r = id /\ lEnrolled r = true /\ forall x, In x post -> lId x = id -> lEnrolled x = true.
(** The record that enrolled it: the first of those. *)
Definition enrolledBy (seen : list logrec) (id : bytes) (r : logrec) : Prop :=
  exists pre post, seen = pre ++ r :: post /\ lId r = id /\ lEnrolled r = true /\ ~ inForce pre id /\ forall x, In x post -> lId x = id -> lEnrolled x = true.
(** Counting events *)
Definition count (f : event -> bool) (t : list event) : nat := length (filter f t).
Definition isEnrolled (id : bytes) (e : event) : bool := match e with Enrolled i => beq i id | _ => false end.
Definition isUnenrolled (id : bytes) (e : event) : bool := match e with Unenrolled i => beq i id | _ => false end.
Definition isStarted (id : bytes) (e : event) : bool := match e with Started i => beq i id | _ => false end.
Definition isBegun (id : bytes) (e : event) : bool := match e with JobBegun i => beq i id | _ => false end.
Definition isEnded (id : bytes) (e : event) : bool := match e with JobEnded i _ => beq i id | _ => false end.

(** ** Proofs *)
Lemma snoc_cases {A} (seen pre post : list A) x r : seen ++ [x] = pre ++ r :: post -> post = [] /\ r = x /\ pre = seen \/ exists post', post = post' ++ [x] /\ seen = pre ++ r :: post'.
Proof.
  destruct post as [|y p] using rev_ind; intros E.
  - apply app_inj_tail in E. destruct E as [-> ->]. auto.
  - clear IHp. right. exists p. rewrite app_comm_cons, app_assoc in E. apply app_inj_tail in E. destruct E as [-> ->]. auto.
Qed.
Lemma inForce_snoc seen x id : inForce (seen ++ [x]) id <-> (lId x = id /\ lEnrolled x = true) \/ (lId x <> id /\ inForce seen id).
Proof.
  split.
  - intros (pre & r & post & E & I & L & P). apply snoc_cases in E. destruct E as [(-> & -> & ->)|(post' & -> & ->)]; [auto|].
    destruct (bytes_eq_dec (lId x) id) as [Q|Q]; [left; split; [exact Q|]; apply P; [apply in_or_app; right; left; reflexivity|exact Q]|].
    right. split; [exact Q|]. exists pre, r, post'. repeat split; try assumption. intros y Y. apply P. apply in_or_app. auto.
  - intros [[I L]|[N (pre & r & post & -> & I & L & P)]].
    + exists seen, x, []. repeat split; try assumption. intros y [].
    + exists pre, r, (post ++ [x]). rewrite <- app_assoc. repeat split; try assumption. intros y Y Q. apply in_app_or in Y. destruct Y as [Y|[<-|[]]]; [apply P; assumption|contradiction].
Qed.
Lemma enrolledBy_inForce seen id r : enrolledBy seen id r -> inForce seen id.
Proof. intros (pre & post & E & I & L & _ & P). exists pre, r, post. auto. Qed.
Lemma enrolledBy_snoc seen x id r : enrolledBy (seen ++ [x]) id r <->
  lId x <> id /\ enrolledBy seen id r \/ lId x = id /\ lEnrolled x = true /\ enrolledBy seen id r \/ lId x = id /\ lEnrolled x = true /\ ~ inForce seen id /\ r = x.
Proof.
  split.
  - intros (pre & post & E & I & L & NF & P). apply snoc_cases in E. destruct E as [(-> & -> & ->)|(post' & -> & ->)]; [auto 6|].
    assert (H : enrolledBy (pre ++ r :: post') id r) by (exists pre, post'; repeat split; try assumption; intros y Y; apply P; apply in_or_app; auto).
    destruct (bytes_eq_dec (lId x) id) as [Q|Q]; [|auto]. right. left. split; [exact Q|]. split; [|exact H]. apply P; [apply in_or_app; right; left; reflexivity|exact Q].
  - intros [[N (pre & post & -> & I & L & NF & P)]|[(Q & T & (pre & post & -> & I & L & NF & P))|(Q & T & NF & ->)]].
    + exists pre, (post ++ [x]). rewrite <- app_assoc. repeat split; try assumption. intros y Y Q. apply in_app_or in Y. destruct Y as [Y|[<-|[]]]; [apply P; assumption|contradiction].
    + exists pre, (post ++ [x]). rewrite <- app_assoc. repeat split; try assumption. intros y Y Q'. apply in_app_or in Y. destruct Y as [Y|[<-|[]]]; [apply P; assumption|assumption].
    + exists seen, []. repeat split; try assumption. intros y [].
Qed.

Definition describes (seen : list logrec) (m : list (bytes * logrec)) : Prop := forall id r, alookup id m = Some r <-> enrolledBy seen id r.
Lemma describes_nil : describes [] [].
Proof. intros id r. split; [discriminate|]. intros (pre & post & E & _). destruct pre; discriminate E. Qed.
Lemma describes_inForce seen m id : describes seen m -> inForce seen id <-> alookup id m <> None.
Proof.
  intros D. split.
  - (* the first record after the last change *)
    clear - D. intros F. assert (X : exists r, enrolledBy seen id r).
    { clear D. induction seen as [|x seen IH] using rev_ind; [destruct F as (pre & r & post & E & _); destruct pre; discriminate E|].
      assert (DEC : inForce seen id \/ ~ inForce seen id).
      { clear. induction seen as [|x seen IH] using rev_ind; [right; intros (pre & r & post & E & _); destruct pre; discriminate E|].
        destruct (bytes_eq_dec (lId x) id) as [Q|Q]; [|destruct IH as [H|H]; [left; apply inForce_snoc; auto|right; intros G; apply inForce_snoc in G; tauto]].
        destruct (lEnrolled x) eqn:T; [left; apply inForce_snoc; auto|]. right. intros G. apply inForce_snoc in G. destruct G as [[_ G]|[G _]]; [congruence|contradiction]. }
      apply inForce_snoc in F. destruct F as [[Q T]|[N F]].
      - destruct DEC as [Y|Y]; [destruct (IH Y) as [r R]; exists r; apply enrolledBy_snoc; auto|]. exists x. apply enrolledBy_snoc. auto 6.
      - destruct (IH F) as [r R]. exists r. apply enrolledBy_snoc. auto. }
    destruct X as [r X]. apply D in X. congruence.
  - destruct (alookup id m) as [r|] eqn:A; [|congruence]. intros _. apply D in A. apply enrolledBy_inForce in A. exact A.
Qed.
Lemma describes_step seen m r : describes seen m -> describes (seen ++ [r]) (fst (oneRecord m r)).
Proof.
  intros D id x. rewrite enrolledBy_snoc. pose proof (describes_inForce seen m (lId r) D) as F. unfold oneRecord.
  destruct (alookup (lId r) m) as [o|] eqn:A.
  - assert (F' : inForce seen (lId r)) by (apply F; congruence). destruct (lEnrolled r) eqn:T; cbn [negb fst].
    + rewrite (D id x). destruct (bytes_eq_dec (lId r) id) as [Q|Q]; [subst id|]; intuition.
    + destruct (bytes_eq_dec (lId r) id) as [Q|Q].
      * subst id. rewrite alookup_aremove_same. split; [discriminate|]. intuition congruence.
      * rewrite alookup_aremove_other by congruence. rewrite (D id x). intuition.
  - assert (F' : ~ inForce seen (lId r)) by (rewrite F; congruence). destruct (lEnrolled r) eqn:T; cbn [fst].
    + destruct (bytes_eq_dec (lId r) id) as [Q|Q].
      * subst id. rewrite alookup_aset_same. split; [intros H; injection H as <-; auto 6|]. intros [[N _]|[(_ & _ & H)|(_ & _ & _ & ->)]]; [contradiction|apply enrolledBy_inForce in H; contradiction|reflexivity].
      * rewrite alookup_aset_other by congruence. rewrite (D id x). intuition.
    + rewrite (D id x). destruct (bytes_eq_dec (lId r) id) as [Q|Q]; [|intuition]. subst id. split; [intros H; apply enrolledBy_inForce in H; contradiction|]. intros [[N _]|[(_ & X & _)|(_ & X & _)]]; [contradiction|discriminate X|discriminate X].
Qed.

Lemma run_app rf cs cs' s : run rf (cs ++ cs') s = match run rf cs s with Some s' => run rf cs' s' | None => None end.
Proof. revert s. induction cs as [|c cs IH]; intros s; cbn [app run]; [reflexivity|]. destruct (step rf c s); [apply IH|reflexivity]. Qed.
Lemma run_invariant rf (P : state -> Prop) : (forall c s s', P s -> step rf c s = Some s' -> P s') -> forall cs s s', P s -> run rf cs s = Some s' -> P s'.
Proof.
  intros ST cs. induction cs as [|c cs IH]; intros s s' H R; cbn [run] in R; [injection R as <-; exact H|]. destruct (step rf c s) as [s1|] eqn:E; [|discriminate]. exact (IH s1 s' (ST c s s1 H E) R).
Qed.

(** What a step does, in one place *)
Definition live (s : state) : Prop := main s = WaitEnrolled \/ main s = WaitDownloads \/ main s = Closed.
Inductive effect (rf : bool) (s : state) : state -> Prop :=
  | ENext x rest : current s = [] -> offered s = None -> finalized s = false -> script s = x :: rest ->
      effect rf s (mkState rest (batch x) None (metadata s) false (workers s) (main s) (cancelled s) (trace s))
  | EFinal : current s = [] -> offered s = None -> finalized s = false -> script s = [] \/ cancelled s = true ->
      effect rf s (mkState (script s) [] None (metadata s) true (workers s) (main s) (cancelled s) (trace s))
  | EKept r rest m : current s = r :: rest -> offered s = None -> oneRecord (metadata s) r = (m, Kept) ->
      effect rf s (mkState (script s) rest None m (finalized s) (workers s) (main s) (cancelled s) (trace s))
  | EDropped r rest m : current s = r :: rest -> offered s = None -> oneRecord (metadata s) r = (m, Dropped) ->
      effect rf s (mkState (script s) rest None m (finalized s) (workers s) (main s) (cancelled s) (Unenrolled (lId r) :: trace s))
  | EAdded r rest m : current s = r :: rest -> offered s = None -> oneRecord (metadata s) r = (m, Added) ->
      effect rf s (mkState (script s) rest (Some r) m (finalized s) (workers s) (main s) (cancelled s) (Enrolled (lId r) :: trace s))
  | EReceive r : offered s = Some r ->
      effect rf s (mkState (script s) (current s) None (metadata s) (finalized s) (workers s ++ [(r, Spawned)]) (main s) (cancelled s) (Started (lId r) :: trace s))
  | EQuiet i r p p' : nth_error (workers s) i = Some (r, p) -> p <> Working -> p' <> Working ->
      (p = Spawned /\ p' = Migrating) \/ (p = Migrating /\ (p' = Checking \/ p' = Gone)) \/ (p = Checking /\ p' = Gone /\ unlocked s = true /\ alookup (lId r) (metadata s) = None) ->
      effect rf s (setWorker i r p' [] s)
  | EBegin i r o : nth_error (workers s) i = Some (r, Checking) -> unlocked s = true -> alookup (lId r) (metadata s) = Some o ->
      effect rf s (setWorker i r Working [JobBegun (lId r)] s)
  | EEnd i r ok : nth_error (workers s) i = Some (r, Working) ->
      effect rf s (setWorker i r (if ok && rf && negb (cancelled s) then Checking else Gone) [JobEnded (lId r) ok] s)
  | EPanic i r : nth_error (workers s) i = Some (r, Working) -> main s = Closed ->
      effect rf s (mkState (script s) (current s) (offered s) (metadata s) (finalized s) (workers s) Panicked (cancelled s) (trace s))
  | ECancel : cancelled s = false ->
      effect rf s (mkState (script s) (current s) (offered s) (metadata s) (finalized s) (workers s) (main s) true (trace s))
  | EMain m ev : (main s = WaitEnrolled /\ finalized s = true /\ m = WaitDownloads /\ ev = []) \/ (main s = WaitDownloads /\ counter s = 0 /\ m = Closed /\ ev = [WaitOver]) \/ (main s = Closed /\ m = Exited /\ ev = []) ->
      effect rf s (mkState (script s) (current s) (offered s) (metadata s) (finalized s) (workers s) m (cancelled s) (ev ++ trace s)).
Lemma unlocked_nil s : unlocked s = true -> current s = [] /\ offered s = None.
Proof. unfold unlocked. destruct (current s), (offered s); intros H; auto; discriminate. Qed.
Lemma step_effect rf c s s' : step rf c s = Some s' -> live s /\ effect rf s s'.
Proof.
  unfold step. intros E. assert (L : live s) by (unfold live; destruct (main s); try discriminate E; auto). split; [exact L|].
  assert (LV : forall {A} (a b : A), match main s with Exited | Panicked => a | _ => b end = b) by (intros A a b; destruct L as [->|[->| ->]]; reflexivity).
  rewrite LV in E. clear LV. destruct c as [| | | |i|i ok|i|i ok|i| |].
  - destruct (unlocked s) eqn:U; [|discriminate E]. destruct (finalized s) eqn:F; [discriminate E|]. cbn [andb negb] in E. destruct (unlocked_nil s U) as [C O]. destruct (script s) as [|x rest] eqn:S; injection E as <-.
    + pose proof (EFinal rf s C O F (or_introl S)) as X. rewrite S in X. exact X.
    + apply ENext; auto.
  - destruct (unlocked s) eqn:U; [|discriminate E]. destruct (finalized s) eqn:F; [discriminate E|]. destruct (cancelled s) eqn:C; [|discriminate E]. cbn [andb negb] in E. destruct (unlocked_nil s U) as [Q O]. injection E as <-. pose proof (EFinal rf s Q O F (or_intror C)) as X. rewrite C in X. exact X.
  - destruct (current s) as [|r rest] eqn:C; [discriminate E|]. destruct (offered s) eqn:O; [discriminate E|]. destruct (oneRecord (metadata s) r) as [m ch] eqn:R. injection E as <-. destruct ch; cbn [app]; [eapply EKept|eapply EDropped|eapply EAdded]; eassumption.
  - destruct (offered s) as [r|] eqn:O; [|discriminate E]. injection E as <-. apply EReceive. exact O.
  - destruct (nth_error (workers s) i) as [[r []]|] eqn:W; try discriminate E. injection E as <-. eapply EQuiet; [exact W| | |]; auto; discriminate.
  - destruct (nth_error (workers s) i) as [[r []]|] eqn:W; try discriminate E. injection E as <-. eapply EQuiet; [exact W|discriminate|destruct ok; discriminate|]. right. left. split; [reflexivity|]. destruct ok; auto.
  - destruct (nth_error (workers s) i) as [[r []]|] eqn:W; try discriminate E. destruct (unlocked s) eqn:U; [|discriminate E]. destruct (alookup (lId r) (metadata s)) as [o|] eqn:A; injection E as <-.
    + eapply EBegin; eassumption.
    + eapply EQuiet; [exact W|discriminate|discriminate|auto 7].
  - destruct (nth_error (workers s) i) as [[r []]|] eqn:W; try discriminate E. injection E as <-. apply EEnd. exact W.
  - destruct (nth_error (workers s) i) as [[r []]|] eqn:W; try discriminate E. destruct (main s) eqn:M; try discriminate E. injection E as <-. eapply EPanic; eassumption.
  - destruct (cancelled s) eqn:C; [discriminate E|]. injection E as <-. apply ECancel. exact C.
  - destruct L as [L|[L|L]]; rewrite L in E.
    + destruct (finalized s) eqn:F; [|discriminate E]. injection E as <-. pose proof (EMain rf s WaitDownloads []) as X. rewrite F in X. apply X. left. auto.
    + destruct (counter s =? 0) eqn:C; [|discriminate E]. apply Nat.eqb_eq in C. injection E as <-. apply (EMain rf s Closed [WaitOver]). right. left. auto.
    + injection E as <-. apply (EMain rf s Exited []). right. right. auto.
Qed.

Section C50.
  Variable runForever : bool.

  Definition metaInv (all : list source) (s : state) : Prop :=
    exists done seen, all = done ++ script s /\ flat_map batch done = seen ++ current s /\ describes seen (metadata s).
  Lemma step_meta all c s s' : metaInv all s -> step runForever c s = Some s' -> metaInv all s'.
  Proof.
    intros (done & seen & A & F & D) E. apply step_effect in E. destruct E as [_ E].
    assert (P : forall r rest m ch, current s = r :: rest -> oneRecord (metadata s) r = (m, ch) -> flat_map batch done = (seen ++ [r]) ++ rest /\ describes (seen ++ [r]) m).
    { intros r rest m ch C O. split; [rewrite F, C, <- app_assoc; reflexivity|]. change m with (fst (m, ch)). rewrite <- O. apply describes_step. exact D. }
    destruct E; unfold metaInv; cbn [setWorker script current metadata].
    - exists (done ++ [x]), seen. rewrite A, H2, <- app_assoc. split; [reflexivity|]. rewrite flat_map_app, F, H, app_nil_r. cbn [flat_map]. rewrite app_nil_r. auto.
    - exists done, seen. rewrite F, H. auto.
    - exists done, (seen ++ [r]). split; [exact A|eapply P; eassumption].
    - exists done, (seen ++ [r]). split; [exact A|eapply P; eassumption].
    - exists done, (seen ++ [r]). split; [exact A|eapply P; eassumption].
    - exists done, seen. auto.
    - exists done, seen. auto.
    - exists done, seen. auto.
    - exists done, seen. auto.
    - exists done, seen. auto.
    - exists done, seen. auto.
    - exists done, seen. auto.
  Qed.
  (** The records that a sequence of sources gives, in order: the local ones that are marked as enrolled, and every one in a fetched list. *)
  Inductive supplies : list source -> list logrec -> Prop :=
  | SupNone : supplies [] []
  | SupLocal l k r : supplies l k -> lEnrolled r = true -> supplies (l ++ [Local r]) (k ++ [r])
  | SupSkipped l k r : supplies l k -> lEnrolled r = false -> supplies (l ++ [Local r]) k
  | SupFetched l k rs : supplies l k -> supplies (l ++ [Fetched rs]) (k ++ rs)
  | SupFailed l k : supplies l k -> supplies (l ++ [FetchFailed]) k.
  Lemma supplies_batch done : supplies done (flat_map batch done).
  Proof.
    induction done as [|x l IH] using rev_ind; [constructor|]. rewrite flat_map_app. cbn [flat_map]. rewrite app_nil_r. destruct x as [r|rs|]; cbn [batch].
    - destruct (lEnrolled r) eqn:E; [apply SupLocal; assumption|]. rewrite app_nil_r. apply SupSkipped; assumption.
    - apply SupFetched. exact IH.
    - rewrite app_nil_r. apply SupFailed. exact IH.
  Qed.
  (** At every moment the enrolled logs are those that the records gone through so far enrol, each with the record that enrolled it. *)
  Theorem C50_enrolled_set all cs s : run runForever cs (start all) = Some s ->
    exists done seen, all = done ++ script s /\ supplies done (seen ++ current s) /\
      (forall id, alookup id (metadata s) <> None <-> inForce seen id) /\ (forall id r, alookup id (metadata s) = Some r <-> enrolledBy seen id r).
  Proof.
    intros R. assert (M : metaInv all s).
    { eapply run_invariant with (P := metaInv all); [intros c a b; apply step_meta| |exact R]. exists [], []. repeat split; try reflexivity; apply describes_nil. }
    destruct M as (done & seen & A & F & D). exists done, seen. split; [exact A|]. split; [rewrite <- F; apply supplies_batch|]. repeat split; try assumption; try (apply D); try (intros H; apply (describes_inForce seen _ id D); exact H).
  Qed.

  (** *** Counting *)
  Definition ofLog (id : bytes) (w : logrec * phase) : bool := beq (lId (fst w)) id.
  Definition atWork (id : bytes) (w : logrec * phase) : bool := (beq (lId (fst w)) id && match snd w with Working => true | _ => false end)%bool.
  Definition offers (id : bytes) (s : state) : nat := match offered s with Some r => if beq (lId r) id then 1 else 0 | None => 0 end.
  Record inv (id : bytes) (s : state) : Prop := {
    i_enrolled : count (isEnrolled id) (trace s) = count (isUnenrolled id) (trace s) + (if alookup id (metadata s) then 1 else 0);
    i_started : count (isStarted id) (trace s) + offers id s = count (isEnrolled id) (trace s);
    i_workers : length (filter (ofLog id) (workers s)) = count (isStarted id) (trace s);
    i_jobs : count (isBegun id) (trace s) = count (isEnded id) (trace s) + length (filter (atWork id) (workers s));
    i_when : forall later earlier, trace s = later ++ JobBegun id :: earlier -> count (isEnrolled id) earlier = count (isUnenrolled id) earlier + 1 }.
  Lemma count_cons f e t : count f (e :: t) = (if f e then 1 else 0) + count f t.
  Proof. unfold count. cbn [filter]. destruct (f e); reflexivity. Qed.
  Definition one (b : bool) : nat := if b then 1 else 0.
  Lemma setNth_count {A} (f : A -> bool) l : forall i x y, nth_error l i = Some y -> length (filter f (setNth i x l)) + one (f y) = length (filter f l) + one (f x).
  Proof.
    induction l as [|z l IH]; intros [|i] x y H; cbn [nth_error setNth filter] in *; try discriminate H.
    - injection H as ->. destruct (f x), (f y); cbn [length one]; lia.
    - specialize (IH i x y H). destruct (f z); cbn [length]; lia.
  Qed.
  Lemma filter_snoc {A} (f : A -> bool) l x : length (filter f (l ++ [x])) = length (filter f l) + one (f x).
  Proof. rewrite filter_app, app_length. cbn [filter]. destruct (f x); reflexivity. Qed.
  Lemma oneRecord_other id m r m' ch : oneRecord m r = (m', ch) -> lId r <> id -> alookup id m' = alookup id m.
  Proof.
    unfold oneRecord. intros O N. destruct (alookup (lId r) m), (lEnrolled r); cbn [negb] in O; injection O as <- _; try reflexivity; [apply alookup_aremove_other|apply alookup_aset_other]; congruence.
  Qed.
  Lemma oneRecord_same m r m' ch : oneRecord m r = (m', ch) ->
    match ch with Kept => m' = m | Dropped => alookup (lId r) m <> None /\ alookup (lId r) m' = None | Added => alookup (lId r) m = None /\ alookup (lId r) m' = Some r end.
  Proof.
    unfold oneRecord. intros O. destruct (alookup (lId r) m) eqn:A, (lEnrolled r); cbn [negb] in O; injection O as <- <-; try reflexivity.
    - rewrite alookup_aremove_same. split; [discriminate|reflexivity].
    - rewrite alookup_aset_same. auto.
  Qed.
  Lemma when_cons id e t : (forall later earlier, t = later ++ JobBegun id :: earlier -> count (isEnrolled id) earlier = count (isUnenrolled id) earlier + 1) ->
    (e = JobBegun id -> count (isEnrolled id) t = count (isUnenrolled id) t + 1) ->
    forall later earlier, e :: t = later ++ JobBegun id :: earlier -> count (isEnrolled id) earlier = count (isUnenrolled id) earlier + 1.
  Proof. intros H E [|x later] earlier Q; cbn [app] in Q; injection Q as Q1 Q2; [subst; apply E; reflexivity|exact (H later earlier Q2)]. Qed.

  Lemma setNth_ofLog id l i r p p' : nth_error l i = Some (r, p) -> length (filter (ofLog id) (setNth i (r, p') l)) = length (filter (ofLog id) l).
  Proof. intros H. pose proof (setNth_count (ofLog id) l i (r, p') _ H) as SN. unfold ofLog in SN at 2 4. cbn [fst] in SN. lia. Qed.

  Lemma step_inv id c s s' : inv id s -> step runForever c s = Some s' -> inv id s'.
  Proof.
    intros [IE IS IW IJ IT] E. apply step_effect in E. destruct E as [_ E]. destruct E; constructor; cbn [setWorker script current metadata trace workers offered app] in *; unfold offers in *; cbn [offered setWorker] in *; rewrite ?count_cons; cbn [isEnrolled isUnenrolled isStarted isBegun isEnded].
    all: try assumption.
    all: try (rewrite H0 in *; assumption).
    all: try (rewrite H1 in *; assumption).
    all: try (apply when_cons; [exact IT|intros QQ; try discriminate QQ]).
    all: try (pose proof (oneRecord_same _ _ _ _ H1) as SM; pose proof (oneRecord_other id _ _ _ _ H1) as OT; cbv beta iota in SM).
    all: try (destruct (beq_spec (lId r) id) as [Q|Q]; [subst id|rewrite (OT Q)]).
    all: try (rewrite SM in *).
    all: try (rewrite (proj2 SM); destruct (alookup (lId r) (metadata s)); try (exfalso; destruct SM; congruence)).
    all: try rewrite H0 in *; try rewrite H in *; try lia.
    all: try (destruct (beq_spec (lId r) id) as [Q|Q]; lia).
    all: try (rewrite filter_snoc, IW; unfold ofLog; cbn [fst]; destruct (beq (lId r) id); cbn [one]; lia).
    all: try (rewrite filter_snoc, IJ; unfold atWork; cbn [fst snd]; rewrite andb_false_r; cbn [one]; lia).
    - rewrite (setNth_ofLog id (workers s) i r p p' H). exact IW.
    - pose proof (setNth_count (atWork id) (workers s) i (r, p') _ H) as SN. unfold atWork in SN at 2 4. cbn [fst snd] in SN. destruct p, p'; try congruence; rewrite !andb_false_r in SN; cbn [one] in SN; lia.
    - rewrite (setNth_ofLog id (workers s) i r Checking Working H). exact IW.
    - pose proof (setNth_count (atWork id) (workers s) i (r, Working) _ H) as SN. unfold atWork in SN at 2 4. cbn [fst snd] in SN. rewrite andb_false_r, andb_true_r in SN. destruct (beq (lId r) id); cbn [one] in SN; lia.
    - injection QQ as <-. rewrite H1 in IE. lia.
    - rewrite (setNth_ofLog id (workers s) i r Working _ H). exact IW.
    - pose proof (setNth_count (atWork id) (workers s) i (r, if ok && runForever && negb (cancelled s) then Checking else Gone) _ H) as SN. unfold atWork in SN at 2 4. cbn [fst snd] in SN. rewrite andb_true_r in SN.
      assert (NW : (beq (lId r) id && match (if ok && runForever && negb (cancelled s) then Checking else Gone) with Working => true | _ => false end)%bool = false) by (destruct (ok && runForever && negb (cancelled s))%bool; apply andb_false_r).
      rewrite NW in SN. destruct (beq (lId r) id); cbn [one] in SN; lia.
    - decompose [and or] H; subst ev; cbn [app]; rewrite ?count_cons; cbn [isEnrolled isUnenrolled]; lia.
    - decompose [and or] H; subst ev; cbn [app]; rewrite ?count_cons; cbn [isEnrolled isStarted]; lia.
    - decompose [and or] H; subst ev; cbn [app]; rewrite ?count_cons; cbn [isStarted]; lia.
    - decompose [and or] H; subst ev; cbn [app]; rewrite ?count_cons; cbn [isBegun isEnded]; lia.
    - decompose [and or] H; subst ev; cbn [app]; try exact IT. apply when_cons; [exact IT|discriminate].
  Qed.
  Lemma start_inv id all : inv id (start all).
  Proof. constructor; try reflexivity. intros later earlier E. destruct later; discriminate E. Qed.
  Lemma run_inv id all cs s : run runForever cs (start all) = Some s -> inv id s.
  Proof. apply (run_invariant runForever (inv id)); [intros c a b; apply step_inv|apply start_inv]. Qed.

  (** Every enrolment starts one download loop, and nothing else does; a log is enrolled as often as it is unenrolled, or once more if it is enrolled now. *)
  Theorem C50_one_start_per_enrolment all cs s id : run runForever cs (start all) = Some s ->
    count (isEnrolled id) (trace s) = count (isUnenrolled id) (trace s) + (if alookup id (metadata s) then 1 else 0) /\
    (offered s = None -> count (isStarted id) (trace s) = count (isEnrolled id) (trace s)) /\
    length (filter (fun w => beq (lId (fst w)) id) (workers s)) = count (isStarted id) (trace s).
  Proof.
    intros R. pose proof (run_inv id all cs s R) as [IE IS IW IJ IT]. split; [exact IE|]. split; [|exact IW]. intros O. unfold offers in IS. rewrite O in IS. lia.
  Qed.
  (** A job of a log begins only while the log is enrolled. *)
  Theorem C50_only_enrolled_logs all cs s id later earlier : run runForever cs (start all) = Some s -> trace s = later ++ JobBegun id :: earlier ->
    count (isEnrolled id) earlier = count (isUnenrolled id) earlier + 1.
  Proof. intros R. pose proof (run_inv id all cs s R) as [IE IS IW IJ IT]. apply IT. Qed.

  (** *** The end of the process *)
  Definition endInv (s : state) : Prop :=
    (main s <> WaitEnrolled -> finalized s = true) /\ (finalized s = true -> current s = [] /\ offered s = None) /\
    (main s <> WaitEnrolled -> main s <> WaitDownloads -> exists later earlier, trace s = later ++ WaitOver :: earlier /\ forall id, count (isBegun id) earlier = count (isEnded id) earlier).
  Lemma counter_work s id : counter s = 0 -> length (filter (atWork id) (workers s)) = 0.
  Proof.
    unfold counter. generalize (workers s). induction l as [|[r p] l IH]; [reflexivity|]. cbn [filter]. unfold atWork at 1. cbn [fst snd]. destruct p; cbn [registered length]; rewrite ?andb_false_r; try discriminate; exact IH.
  Qed.
  Lemma step_end c s s' : (forall id, inv id s) -> endInv s -> step runForever c s = Some s' -> endInv s'.
  Proof.
    intros I (F & L & W) E. apply step_effect in E. destruct E as [_ E]. unfold endInv. destruct E; cbn [setWorker main finalized current offered trace app].
    - rewrite H1 in F. split; [intros M; specialize (F M); discriminate|]. split; [discriminate|exact W].
    - split; [reflexivity|]. split; [auto|exact W].
    - assert (NF : finalized s <> true) by (intros Q; destruct (L Q); congruence). split; [exact F|]. split; [contradiction|exact W].
    - assert (NF : finalized s <> true) by (intros Q; destruct (L Q); congruence). split; [exact F|]. split; [contradiction|]. intros M1 M2. destruct (W M1 M2) as (la & ea & -> & Q). exists (Unenrolled (lId r) :: la), ea. auto.
    - assert (NF : finalized s <> true) by (intros Q; destruct (L Q); congruence). split; [exact F|]. split; [contradiction|]. intros M1 M2. destruct (W M1 M2) as (la & ea & -> & Q). exists (Enrolled (lId r) :: la), ea. auto.
    - assert (NF : finalized s <> true) by (intros Q; destruct (L Q); congruence). split; [exact F|]. split; [contradiction|]. intros M1 M2. destruct (W M1 M2) as (la & ea & -> & Q). exists (Started (lId r) :: la), ea. auto.
    - auto.
    - split; [exact F|]. split; [exact L|]. intros M1 M2. destruct (W M1 M2) as (la & ea & -> & Q). exists (JobBegun (lId r) :: la), ea. auto.
    - split; [exact F|]. split; [exact L|]. intros M1 M2. destruct (W M1 M2) as (la & ea & -> & Q). exists (JobEnded (lId r) ok :: la), ea. auto.
    - split; [intros _; apply F; congruence|]. split; [exact L|]. intros _ _. apply W; congruence.
    - auto.
    - split; [intros _; destruct H as [(M & Q & _)|[(M & _)|(M & _)]]; [exact Q|apply F; congruence|apply F; congruence]|]. split; [exact L|].
      intros M1 M2. destruct H as [(M & Q & -> & _)|[(M & C & -> & ->)|(M & -> & ->)]]; [congruence| |apply W; congruence].
      exists [], (trace s). split; [reflexivity|]. intros id. pose proof (i_jobs id s (I id)) as J. rewrite (counter_work s id C) in J. lia.
  Qed.
  Lemma run_end all cs s : run runForever cs (start all) = Some s -> endInv s.
  Proof.
    intros R. assert (X : (forall id, inv id s) /\ endInv s); [|exact (proj2 X)].
    eapply run_invariant with (P := fun s => (forall id, inv id s) /\ endInv s); [|split; [intros id; apply start_inv|]|exact R].
    - intros c a b [I E] ST. split; [intros id; exact (step_inv id c a b (I id) ST)|exact (step_end c a b I E ST)].
    - split; [intros M; destruct (M eq_refl)|]. split; [discriminate|]. intros M; destruct (M eq_refl).
  Qed.
  (** When the process has exited, enrolment was complete and, when it passed its wait, no download was under way. *)
  Theorem C50_waits_for_downloads all cs s : run runForever cs (start all) = Some s -> main s = Exited ->
    finalized s = true /\ exists later earlier, trace s = later ++ WaitOver :: earlier /\ forall id, count (isBegun id) earlier = count (isEnded id) earlier.
  Proof. intros R M. destruct (run_end all cs s R) as (F & L & W). split; [apply F; congruence|apply W; congruence]. Qed.

  (** *** Progress *)
  (** The process never gets stuck: unless it has exited or panicked, some step of it is possible. *)
  Lemma lock_progress s : live s -> endInv s -> unlocked s = false -> exists c s', step runForever c s = Some s'.
  Proof.
    intros L _ U. assert (LV : forall {A} (a b : A), match main s with Exited | Panicked => a | _ => b end = b) by (intros A a b; destruct L as [->|[->| ->]]; reflexivity).
    unfold unlocked in U. destruct (offered s) as [r|] eqn:O.
    - exists Receive. unfold step. rewrite LV, O. eauto.
    - destruct (current s) as [|r rest] eqn:C; [discriminate U|]. exists Process. unfold step. rewrite LV, C, O. destruct (oneRecord (metadata s) r). eauto.
  Qed.
  Theorem C50_never_stuck all cs s : run runForever cs (start all) = Some s -> main s <> Exited -> main s <> Panicked -> exists c s', step runForever c s = Some s'.
  Proof.
    intros R M1 M2. pose proof (run_end all cs s R) as EI.
    assert (L : live s) by (unfold live; destruct (main s); auto; congruence).
    assert (LV : forall {A} (a b : A), match main s with Exited | Panicked => a | _ => b end = b) by (intros A a b; destruct L as [->|[->| ->]]; reflexivity).
    destruct (unlocked s) eqn:U; [|exact (lock_progress s L EI U)].
    destruct L as [L|[L|L]].
    - destruct (finalized s) eqn:F.
      + exists Main. unfold step. rewrite L, F. eauto.
      + exists Next. unfold step. rewrite LV, U, F. cbn [andb negb]. destruct (script s); eauto.
    - destruct (counter s) as [|n] eqn:C.
      + exists Main. unfold step. rewrite L, C. cbn [Nat.eqb]. eauto.
      + assert (X : exists i r p, nth_error (workers s) i = Some (r, p) /\ registered p = true).
        { clear - C. unfold counter in C. revert C. generalize (workers s). induction l as [|[r p] l IH]; cbn [filter]; [discriminate|]. cbn [snd]. destruct (registered p) eqn:P; [exists 0, r, p; auto|].
          intros C. destruct (IH C) as (i & r' & p' & H). exists (S i), r', p'. exact H. }
        destruct X as (i & r & p & W & P). destruct p; try discriminate P.
        * exists (Migrated i true). unfold step. rewrite LV, W. eauto.
        * exists (Check i). unfold step. rewrite LV, W, U. destruct (alookup (lId r) (metadata s)); eauto.
        * exists (Finish i true). unfold step. rewrite LV, W. eauto.
    - exists Main. unfold step. rewrite L. eauto.
  Qed.
End C50.

(** *** Termination of a one-shot run *)
Definition phaseWeight (p : phase) : nat := match p with Spawned => 4 | Migrating => 3 | Checking => 2 | Working => 1 | Gone => 0 end.
Definition mainWeight (m : mainPhase) : nat := match m with WaitEnrolled => 3 | WaitDownloads => 2 | Closed => 1 | _ => 0 end.
Definition weight (s : state) : nat :=
  list_sum (map (fun x => 1 + 7 * length (batch x)) (script s)) + 7 * length (current s) + (if offered s then 5 else 0) +
  (if finalized s then 0 else 1) + list_sum (map (fun w => phaseWeight (snd w)) (workers s)) + mainWeight (main s) + (if cancelled s then 0 else 1).
Lemma setNth_sum {A} (f : A -> nat) l : forall i x y, nth_error l i = Some y -> list_sum (map f (setNth i x l)) + f y = list_sum (map f l) + f x.
Proof.
  induction l as [|z l IH]; intros [|i] x y H; cbn [nth_error setNth] in *; try discriminate H; unfold list_sum in *; cbn [map fold_right].
  - injection H as ->. lia.
  - specialize (IH i x y H). lia.
Qed.
Lemma step_weight c s s' : step false c s = Some s' -> weight s' < weight s.
Proof.
  intros E. apply step_effect in E. destruct E as [L E]. unfold weight. destruct E; cbn [setWorker script current offered finalized workers main cancelled].
  - rewrite H, H0, H1, H2. unfold list_sum. cbn [map fold_right length]. lia.
  - rewrite H, H0, H1. cbn [length]. lia.
  - rewrite H, H0. cbn [length]. lia.
  - rewrite H, H0. cbn [length]. lia.
  - rewrite H, H0. cbn [length]. lia.
  - rewrite H, map_app, list_sum_app. unfold list_sum at 3. cbn [map fold_right snd phaseWeight]. lia.
  - pose proof (setNth_sum (fun w : logrec * phase => phaseWeight (snd w)) (workers s) i (r, p') _ H) as SN. cbn [snd] in SN. decompose [and or] H2; subst; cbn [phaseWeight] in SN; lia.
  - pose proof (setNth_sum (fun w : logrec * phase => phaseWeight (snd w)) (workers s) i (r, Working) _ H) as SN. cbn [snd phaseWeight] in SN. lia.
  - pose proof (setNth_sum (fun w : logrec * phase => phaseWeight (snd w)) (workers s) i (r, Gone) _ H) as SN. cbn [snd phaseWeight] in SN. rewrite andb_false_r. cbn [andb]. lia.
  - rewrite H0. cbn [mainWeight]. lia.
  - rewrite H. lia.
  - destruct H as [(M & _ & -> & _)|[(M & _ & -> & _)|(M & -> & _)]]; rewrite M; cbn [mainWeight]; lia.
Qed.
(** Without runForever, a run takes at most a number of steps that depends only on what it is given; with [C50_never_stuck] it therefore exits (or panics), if its jobs end. *)
Theorem C50_one_shot_terminates all cs s : run false cs (start all) = Some s -> length cs <= weight (start all).
Proof.
  assert (G : forall cs a s, run false cs a = Some s -> length cs + weight s <= weight a).
  { clear. induction cs as [|c cs IH]; intros a s R; cbn [run] in R; [injection R as <-; cbn [length]; lia|]. destruct (step false c a) as [b|] eqn:E; [|discriminate]. apply step_weight in E. specialize (IH b s R). cbn [length]. lia. }
  intros R. specialize (G cs _ s R). lia.
Qed.

(** *** What a one-shot run has done *)
Definition calm (c : choice) : bool := match c with Migrated _ false | Finish _ false | Cancel => false | _ => true end.
Definition servedInv (s : state) : Prop := forall id, alookup id (metadata s) <> None ->
  (exists r, offered s = Some r /\ lId r = id) \/ (exists i r p, nth_error (workers s) i = Some (r, p) /\ lId r = id /\ p <> Gone) \/ In (JobEnded id true) (trace s).
Lemma setNth_nth {A} (l : list A) : forall i x y j, nth_error l i = Some y -> nth_error (setNth i x l) j = if (i =? j)%nat then Some x else nth_error l j.
Proof.
  induction l as [|z l IH]; intros [|i] x y j H; cbn [nth_error setNth] in *; try discriminate H.
  - destruct j; reflexivity.
  - destruct j; [reflexivity|]. cbn [nth_error Nat.eqb]. exact (IH i x y j H).
Qed.
Lemma step_served c s s' : calm c = true -> servedInv s -> step false c s = Some s' -> servedInv s'.
Proof.
  intros CA SV E id. pose proof (SV id) as SI.
  assert (QUIET : forall t, alookup id (metadata t) = alookup id (metadata s) -> offered t = offered s -> workers t = workers s -> incl (trace s) (trace t) ->
     alookup id (metadata t) <> None ->
     (exists r, offered t = Some r /\ lId r = id) \/ (exists i r p, nth_error (workers t) i = Some (r, p) /\ lId r = id /\ p <> Gone) \/ In (JobEnded id true) (trace t)).
  { intros t M O W T N. rewrite M in N. rewrite O, W. destruct (SI N) as [X|[X|X]]; auto. }
  (* steps of a goroutine *)
  assert (WORK : forall i r p p' ev, nth_error (workers s) i = Some (r, p) -> incl ev ev -> (p' = Gone -> lId r = id -> alookup id (metadata s) <> None -> In (JobEnded id true) ev) ->
     alookup id (metadata s) <> None ->
     (exists x, offered s = Some x /\ lId x = id) \/ (exists j x q, nth_error (workers (setWorker i r p' ev s)) j = Some (x, q) /\ lId x = id /\ q <> Gone) \/ In (JobEnded id true) (trace (setWorker i r p' ev s))).
  { intros i r p p' ev H _ G N. cbn [setWorker workers trace]. destruct (SI N) as [X|[(j & x & q & Wj & I & Q)|X]]; [auto| |right; right; apply in_or_app; auto].
    destruct (Nat.eq_dec i j) as [->|D].
    - assert (QQ : (r, p) = (x, q)) by congruence. injection QQ as -> ->.
      assert (PD : {p' = Gone} + {p' <> Gone}) by (destruct p'; (left; reflexivity) || (right; discriminate)). destruct PD as [->|NG].
      + right. right. apply in_or_app. left. apply G; [reflexivity|exact I|exact N].
      + right. left. exists j, x, p'. rewrite (setNth_nth _ _ _ _ _ H), Nat.eqb_refl. auto.
    - right. left. exists j, x, q. rewrite (setNth_nth _ _ _ _ _ H), (proj2 (Nat.eqb_neq i j) D). auto. }
  unfold step in E. assert (L : live s) by (unfold live; destruct (main s); try discriminate E; auto).
  assert (LV : forall {A} (a b : A), match main s with Exited | Panicked => a | _ => b end = b) by (intros A a b; destruct L as [->|[->| ->]]; reflexivity).
  rewrite LV in E. clear LV. destruct c as [| | | |i|i ok|i|i ok|i| |].
  - destruct (unlocked s) eqn:U; [|discriminate E]. destruct (finalized s) eqn:F; [discriminate E|]. cbn [andb negb] in E. destruct (unlocked_nil s U) as [C O]. destruct (script s) as [|x rest] eqn:S; injection E as <-; apply QUIET; cbn; auto; apply incl_refl.
  - destruct (unlocked s) eqn:U; [|discriminate E]. destruct (unlocked_nil s U) as [C O]. destruct (true && negb (finalized s) && cancelled s)%bool; [|discriminate E]. injection E as <-. apply QUIET; cbn; auto; apply incl_refl.
  - destruct (current s) as [|r rest] eqn:C; [discriminate E|]. destruct (offered s) eqn:O; [discriminate E|]. destruct (oneRecord (metadata s) r) as [m ch] eqn:R. injection E as <-.
    cbn [metadata offered workers trace]. intros N. pose proof (oneRecord_same _ _ _ _ R) as SM. destruct (bytes_eq_dec (lId r) id) as [Q|Q].
    + subst id. destruct ch; [subst m| |left; exists r; auto].
      * destruct (SI N) as [(x & X & _)|[X|X]]; [discriminate X|auto|auto].
      * destruct SM; contradiction.
    + rewrite (oneRecord_other id _ _ _ _ R Q) in N. destruct (SI N) as [(x & X & _)|[X|X]]; [discriminate X|auto|]. right. right. apply in_or_app. auto.
  - destruct (offered s) as [r|] eqn:O; [|discriminate E]. injection E as <-. cbn [metadata offered workers trace]. intros N. destruct (SI N) as [(x & X & I)|[(j & x & q & Wj & I & Q)|X]].
    + injection X as ->. right. left. exists (length (workers s)), x, Spawned. split; [|split; [exact I|discriminate]]. rewrite nth_error_app2, Nat.sub_diag by lia. reflexivity.
    + right. left. exists j, x, q. split; [|auto]. rewrite nth_error_app1; [exact Wj|]. apply nth_error_Some. congruence.
    + right. right. right. exact X.
  - destruct (nth_error (workers s) i) as [[r []]|] eqn:W; try discriminate E. injection E as <-. apply (WORK i r Spawned Migrating [] W); [apply incl_refl|discriminate].
  - destruct (nth_error (workers s) i) as [[r []]|] eqn:W; try discriminate E. destruct ok; [|discriminate CA]. injection E as <-. apply (WORK i r Migrating Checking [] W); [apply incl_refl|discriminate].
  - destruct (nth_error (workers s) i) as [[r []]|] eqn:W; try discriminate E. destruct (unlocked s) eqn:U; [|discriminate E]. destruct (alookup (lId r) (metadata s)) as [o|] eqn:A; injection E as <-.
    + apply (WORK i r Checking Working [JobBegun (lId r)] W); [apply incl_refl|discriminate].
    + apply (WORK i r Checking Gone [] W); [apply incl_refl|]. intros _ <- N. contradiction.
  - destruct (nth_error (workers s) i) as [[r []]|] eqn:W; try discriminate E. destruct ok; [|discriminate CA]. injection E as <-. cbn [andb]. apply (WORK i r Working Gone [JobEnded (lId r) true] W); [apply incl_refl|]. intros _ <- _. left. reflexivity.
  - destruct (nth_error (workers s) i) as [[r []]|] eqn:W; try discriminate E. destruct (main s) eqn:M; try discriminate E. injection E as <-. apply QUIET; cbn; auto; apply incl_refl.
  - discriminate CA.
  - destruct L as [L|[L|L]]; rewrite L in E.
    + destruct (finalized s) eqn:F; [|discriminate E]. injection E as <-. apply QUIET; cbn; auto; apply incl_refl.
    + destruct (counter s =? 0) eqn:C; [|discriminate E]. injection E as <-. apply QUIET; cbn; auto. apply incl_tl, incl_refl.
    + injection E as <-. apply QUIET; cbn; auto; apply incl_refl.
Qed.
(** If nothing fails and there is no signal, then by the time all goroutines that have been started are through, a job of every enrolled log has been done. *)
Theorem C50_one_shot_serves_all all cs s : run false cs (start all) = Some s -> forallb calm cs = true -> main s <> WaitEnrolled -> counter s = 0 ->
  (forall r, ~ In (r, Spawned) (workers s)) -> forall id, alookup id (metadata s) <> None -> In (JobEnded id true) (trace s).
Proof.
  intros R CA M C NS. assert (SV : servedInv s).
  { assert (G : forall cs a, forallb calm cs = true -> servedInv a -> run false cs a = Some s -> servedInv s); [|apply (G cs (start all)); [exact CA| |exact R]; intros id N; cbn in N; congruence].
    clear. induction cs as [|c cs IH]; intros a CA SV R; cbn [run] in R; [injection R as <-; exact SV|]. cbn [forallb] in CA. apply andb_true_iff in CA. destruct CA as [C1 C2]. destruct (step false c a) as [b|] eqn:E; [|discriminate]. exact (IH b C2 (step_served c a b C1 SV E) R). }
  destruct (run_end false all cs s R) as (F & L & _). destruct (L (F M)) as [_ O]. intros id N. destruct (SV id N) as [(r & X & _)|[(i & r & p & W & I & G)|X]]; [congruence| |exact X]. exfalso.
  apply nth_error_In in W. unfold counter in C. apply length_zero_iff_nil in C. destruct p; [exact (NS r W)| | | |congruence].
  all: match type of W with In ?a _ => assert (Y : In a (filter (fun w => registered (snd w)) (workers s))) by (apply filter_In; split; [exact W|reflexivity]) end; rewrite C in Y; exact Y.
Qed.

(** *** What a run without end does *)
(** No signal was received, and every enrolled log is handed to a loop or has one that has not ended. *)
Definition attended (s : state) : Prop := cancelled s = false /\ forall id, alookup id (metadata s) <> None ->
  (exists r, offered s = Some r /\ lId r = id) \/ (exists i r p, nth_error (workers s) i = Some (r, p) /\ lId r = id /\ p <> Gone).
Lemma step_attended c s s' : calm c = true -> attended s -> step true c s = Some s' -> attended s'.
Proof.
  intros CA [CN SV] E. assert (CN' : cancelled s' = false).
  { destruct c; try discriminate CA; unfold step in E;
      repeat match type of E with context [match ?x with _ => _ end] => destruct x eqn:?; try discriminate E end;
      injection E as <-; cbn [cancelled setWorker]; congruence. }
  split; [exact CN'|]. clear CN'. intros id. pose proof (SV id) as SI.
  assert (QUIET : forall t, alookup id (metadata t) = alookup id (metadata s) -> offered t = offered s -> workers t = workers s ->
     alookup id (metadata t) <> None ->
     (exists r, offered t = Some r /\ lId r = id) \/ (exists i r p, nth_error (workers t) i = Some (r, p) /\ lId r = id /\ p <> Gone)).
  { intros t M O W N. rewrite M in N. rewrite O, W. exact (SI N). }
  (* steps of a goroutine *)
  assert (WORK : forall i r p p' ev, nth_error (workers s) i = Some (r, p) -> (p' = Gone -> lId r = id -> alookup id (metadata s) = None) ->
     alookup id (metadata s) <> None ->
     (exists x, offered s = Some x /\ lId x = id) \/ (exists j x q, nth_error (workers (setWorker i r p' ev s)) j = Some (x, q) /\ lId x = id /\ q <> Gone)).
  { intros i r p p' ev H G N. cbn [setWorker workers]. destruct (SI N) as [X|(j & x & q & Wj & I & Q)]; [auto|].
    destruct (Nat.eq_dec i j) as [->|D].
    - assert (QQ : (r, p) = (x, q)) by congruence. injection QQ as -> ->.
      assert (PD : {p' = Gone} + {p' <> Gone}) by (destruct p'; (left; reflexivity) || (right; discriminate)). destruct PD as [->|NG].
      + exfalso. apply N. apply G; [reflexivity|exact I].
      + right. exists j, x, p'. rewrite (setNth_nth _ _ _ _ _ H), Nat.eqb_refl. auto.
    - right. exists j, x, q. rewrite (setNth_nth _ _ _ _ _ H), (proj2 (Nat.eqb_neq i j) D). auto. }
  unfold step in E. assert (L : live s) by (unfold live; destruct (main s); try discriminate E; auto).
  assert (LV : forall {A} (a b : A), match main s with Exited | Panicked => a | _ => b end = b) by (intros A a b; destruct L as [->|[->| ->]]; reflexivity).
  rewrite LV in E. clear LV. destruct c as [| | | |i|i ok|i|i ok|i| |].
  - destruct (unlocked s) eqn:U; [|discriminate E]. destruct (finalized s) eqn:F; [discriminate E|]. cbn [andb negb] in E. destruct (unlocked_nil s U) as [C O]. destruct (script s) as [|x rest] eqn:S; injection E as <-; apply QUIET; cbn; auto.
  - destruct (unlocked s) eqn:U; [|discriminate E]. destruct (unlocked_nil s U) as [C O]. destruct (true && negb (finalized s) && cancelled s)%bool; [|discriminate E]. injection E as <-. apply QUIET; cbn; auto.
  - destruct (current s) as [|r rest] eqn:C; [discriminate E|]. destruct (offered s) eqn:O; [discriminate E|]. destruct (oneRecord (metadata s) r) as [m ch] eqn:R. injection E as <-.
    cbn [metadata offered workers trace]. intros N. pose proof (oneRecord_same _ _ _ _ R) as SM. destruct (bytes_eq_dec (lId r) id) as [Q|Q].
    + subst id. destruct ch; [subst m| |left; exists r; auto].
      * destruct (SI N) as [(x & X & _)|X]; [discriminate X|auto].
      * destruct SM; contradiction.
    + rewrite (oneRecord_other id _ _ _ _ R Q) in N. destruct (SI N) as [(x & X & _)|X]; [discriminate X|auto].
  - destruct (offered s) as [r|] eqn:O; [|discriminate E]. injection E as <-. cbn [metadata offered workers trace]. intros N. destruct (SI N) as [(x & X & I)|(j & x & q & Wj & I & Q)].
    + injection X as ->. right. exists (length (workers s)), x, Spawned. split; [|split; [exact I|discriminate]]. rewrite nth_error_app2, Nat.sub_diag by lia. reflexivity.
    + right. exists j, x, q. split; [|auto]. rewrite nth_error_app1; [exact Wj|]. apply nth_error_Some. congruence.
  - destruct (nth_error (workers s) i) as [[r []]|] eqn:W; try discriminate E. injection E as <-. apply (WORK i r Spawned Migrating [] W). discriminate.
  - destruct (nth_error (workers s) i) as [[r []]|] eqn:W; try discriminate E. destruct ok; [|discriminate CA]. injection E as <-. apply (WORK i r Migrating Checking [] W). discriminate.
  - destruct (nth_error (workers s) i) as [[r []]|] eqn:W; try discriminate E. destruct (unlocked s) eqn:U; [|discriminate E]. destruct (alookup (lId r) (metadata s)) as [o|] eqn:A; injection E as <-.
    + apply (WORK i r Checking Working [JobBegun (lId r)] W). discriminate.
    + apply (WORK i r Checking Gone [] W). intros _ <-. exact A.
  - destruct (nth_error (workers s) i) as [[r []]|] eqn:W; try discriminate E. destruct ok; [|discriminate CA]. rewrite CN in E. injection E as <-. cbn [andb negb]. apply (WORK i r Working Checking [JobEnded (lId r) true] W). discriminate.
  - destruct (nth_error (workers s) i) as [[r []]|] eqn:W; try discriminate E. destruct (main s) eqn:M; try discriminate E. injection E as <-. apply QUIET; cbn; auto.
  - discriminate CA.
  - destruct L as [L|[L|L]]; rewrite L in E.
    + destruct (finalized s) eqn:F; [|discriminate E]. injection E as <-. apply QUIET; cbn; auto.
    + destruct (counter s =? 0) eqn:C; [|discriminate E]. injection E as <-. apply QUIET; cbn; auto.
    + injection E as <-. apply QUIET; cbn; auto.
Qed.
(** With runForever, if nothing fails and there is no signal, then at every moment every enrolled log has a download loop, running or about to be started. *)
Theorem C50_forever_keeps_downloading all cs s : run true cs (start all) = Some s -> forallb calm cs = true ->
  forall id, alookup id (metadata s) <> None ->
  (exists r, offered s = Some r /\ lId r = id) \/ (exists r p, In (r, p) (workers s) /\ lId r = id /\ p <> Gone).
Proof.
  intros R CA. assert (SV : attended s).
  { assert (G : forall cs a, forallb calm cs = true -> attended a -> run true cs a = Some s -> attended s); [|apply (G cs (start all)); [exact CA| |exact R]; split; [reflexivity|intros id N; cbn in N; congruence]].
    clear. induction cs as [|c cs IH]; intros a CA SV R; cbn [run] in R; [injection R as <-; exact SV|]. cbn [forallb] in CA. apply andb_true_iff in CA. destruct CA as [C1 C2]. destruct (step true c a) as [b|] eqn:E; [|discriminate]. exact (IH b C2 (step_attended c a b C1 SV E) R). }
  intros id N. destruct (proj2 SV id N) as [X|(i & r & p & W & I & G)]; [left; exact X|right]. exists r, p. split; [exact (nth_error_In _ _ W)|auto].
Qed.
Print Assumptions C50_forever_keeps_downloading.
(** The second job of a log, after an update of the list. *)
Example C50_forever_example : exists s,
  run true [Next; Process; Receive; Register 0; Migrated 0 true; Check 0; Next; Process; Finish 0 true; Check 0] (start [Fetched [mkLog (B "A") true (B "https://a/") false]; Fetched [mkLog (B "A") true (B "https://a/") false]]) = Some s /\
  alookup (B "A") (metadata s) <> None /\ workers s = [(mkLog (B "A") true (B "https://a/") false, Working)] /\ count (isBegun (B "A")) (trace s) = 2.
Proof.
  match goal with |- exists s, ?r = Some s /\ _ => let v := eval vm_compute in r in match v with Some ?x => exists x end end.
  split; [vm_compute; reflexivity|]. split; [discriminate|]. split; reflexivity.
Qed.

(** *** What the enrolment of a log whose download loop has ended is worth *)
(** Once the loops of an enrolled log have ended, by an error for instance, no job of it ever begins again unless a list unenrols it first. *)
Theorem C50_ended_loop_is_not_restarted runForever s id : alookup id (metadata s) <> None -> offered s = None ->
  (forall r p, In (r, p) (workers s) -> lId r = id -> p = Gone) ->
  forall cs s', run runForever cs s = Some s' -> count (isUnenrolled id) (trace s') = count (isUnenrolled id) (trace s) -> count (isBegun id) (trace s') = count (isBegun id) (trace s).
Proof.
  intros N O G cs s' R.
  set (u := count (isUnenrolled id) (trace s)). set (b := count (isBegun id) (trace s)).
  assert (X : u < count (isUnenrolled id) (trace s') \/ count (isUnenrolled id) (trace s') = u /\ count (isBegun id) (trace s') = b /\ alookup id (metadata s') <> None /\ offers id s' = 0 /\ (forall r p, In (r, p) (workers s') -> lId r = id -> p = Gone)).
  { eapply run_invariant with (P := fun s' => u < count (isUnenrolled id) (trace s') \/ count (isUnenrolled id) (trace s') = u /\ count (isBegun id) (trace s') = b /\ alookup id (metadata s') <> None /\ offers id s' = 0 /\ (forall r p, In (r, p) (workers s') -> lId r = id -> p = Gone)); [| |exact R].
    2: right; unfold offers; rewrite O; auto.
    clearbody u b. clear. intros c s s' P E. apply step_effect in E. destruct E as [_ E].
    assert (SETIN : forall i r p p' x q, nth_error (workers s) i = Some (r, p) -> In (x, q) (setNth i (r, p') (workers s)) -> (x = r /\ q = p') \/ In (x, q) (workers s)).
    { clear. generalize (workers s). induction l as [|z l IH]; intros [|i] r p p' x q H I; cbn [nth_error setNth] in *; try discriminate H.
      - destruct I as [I|I]; [injection I as <- <-; auto|right; right; exact I].
      - destruct I as [I|I]; [right; left; exact I|]. destruct (IH i r p p' x q H I) as [Y|Y]; [auto|right; right; exact Y]. }
    destruct P as [P|(U & B0 & M & OF & G)].
    { left. destruct E; cbn [setWorker trace app]; rewrite ?count_cons; cbn [isUnenrolled]; try lia; try (destruct (beq (lId r) id); lia). destruct H as [(_ & _ & _ & ->)|[(_ & _ & _ & ->)|(_ & _ & ->)]]; cbn [app]; rewrite ?count_cons; cbn [isUnenrolled]; lia. }
    unfold offers in *. destruct E; cbn [setWorker trace metadata offered workers app]; rewrite ?count_cons; cbn [isUnenrolled isBegun].
    - right. auto 7.
    - right. auto 7.
    - pose proof (oneRecord_same _ _ _ _ H1) as SM. cbv beta iota in SM. subst m. right. auto 7.
    - destruct (beq_spec (lId r) id) as [Q|Q]; [left; lia|right]. rewrite (oneRecord_other id _ _ _ _ H1 Q). auto 7.
    - right. destruct (beq_spec (lId r) id) as [Q|Q]; [pose proof (oneRecord_same _ _ _ _ H1) as [SM _]; congruence|]. rewrite (oneRecord_other id _ _ _ _ H1 Q). auto 7.
    - right. rewrite H in OF. destruct (beq_spec (lId r) id) as [Q|Q]; [discriminate OF|]. repeat split; try assumption. intros x q I. apply in_app_or in I. destruct I as [I|[I|[]]]; [exact (G x q I)|]. injection I as <- <-. intros Y. contradiction.
    - right. repeat split; try assumption. intros x q I Y. destruct (SETIN i r p p' x q H I) as [[-> ->]|I']; [|exact (G x q I' Y)].
      assert (p = Gone) by (apply (G r p); [eapply nth_error_In; eassumption|exact Y]). exfalso. subst p. destruct H2 as [[Z _]|[[Z _]|[Z _]]]; discriminate Z.
    - right. destruct (beq_spec (lId r) id) as [Q|Q]; [apply nth_error_In in H; specialize (G r _ H Q); discriminate G|]. repeat split; try assumption. intros x q I Y. destruct (SETIN i r _ _ x q H I) as [[-> ->]|I']; [contradiction|exact (G x q I' Y)].
    - right. repeat split; try assumption. intros x q I Y. destruct (SETIN i r _ _ x q H I) as [[-> ->]|I']; [|exact (G x q I' Y)]. apply nth_error_In in H. specialize (G r _ H Y). discriminate G.
    - right. auto 7.
    - right. auto 7.
    - right. destruct H as [(_ & _ & _ & ->)|[(_ & _ & _ & ->)|(_ & _ & ->)]]; cbn [app]; rewrite ?count_cons; cbn [isUnenrolled isBegun]; auto 7. }
  intros Q. destruct X as [X|X]; [lia|tauto].
Qed.
Print Assumptions C50_enrolled_set.
Print Assumptions C50_one_start_per_enrolment.
Print Assumptions C50_only_enrolled_logs.
Print Assumptions C50_waits_for_downloads.
Print Assumptions C50_never_stuck.
Print Assumptions C50_one_shot_terminates.
Print Assumptions C50_one_shot_serves_all.
Print Assumptions C50_ended_loop_is_not_restarted.

(** ** Examples and witnesses *)
Ltac witness := match goal with |- exists s, ?r = Some s /\ _ => let v := eval vm_compute in r in match v with Some ?x => exists x end end.
Definition logA : logrec := mkLog (B "A") true (B "https://a/") false.
Definition logB : logrec := mkLog (B "B") true (B "https://b/") true.
Definition offA : logrec := mkLog (B "A") false (B "https://a/") false.

(** A one-shot run with a local and a fetched log *)
Example C50_example : exists s,
  run false [Next; Process; Receive; Next; Process; Process; Receive; Register 1; Migrated 1 true; Register 0; Next; Check 1; Main; Migrated 0 true; Check 0; Finish 1 true; Finish 0 true; Main; Main] (start [Local logA; Fetched [logA; logB]]) = Some s /\
  main s = Exited /\ alookup (B "A") (metadata s) = Some logA /\ alookup (B "B") (metadata s) = Some logB /\ In (JobEnded (B "A") true) (trace s) /\ In (JobEnded (B "B") true) (trace s).
Proof. witness. split; [vm_compute; reflexivity|]. vm_compute. repeat split; auto 10. Qed.

(** The goroutine of a log may be scheduled only after main has found nothing to wait for: the process exits with an enrolled log that was never contacted, although nothing failed; or it panics. *)
Theorem C50_exits_too_early_refuted : exists s,
  run false [Next; Process; Receive; Next; Main; Main; Main] (start [Fetched [logA]]) = Some s /\ main s = Exited /\ alookup (B "A") (metadata s) = Some logA /\ trace s = [WaitOver; Started (B "A"); Enrolled (B "A")].
Proof. witness. split; [vm_compute; reflexivity|]. repeat split. Qed.
Theorem C50_panic_refuted : exists s,
  run false [Next; Process; Receive; Next; Main; Main; Register 0; Migrated 0 true; Check 0; SendEntry 0] (start [Fetched [logA]]) = Some s /\ main s = Panicked.
Proof. witness. split; vm_compute; reflexivity. Qed.
(** A log that is unenrolled and enrolled again during a job is downloaded by two loops at the same time. *)
Theorem C50_two_loops_refuted : exists s,
  run true [Next; Process; Receive; Register 0; Migrated 0 true; Check 0; Next; Process; Next; Process; Receive; Register 1; Migrated 1 true; Check 1] (start [Fetched [logA]; Fetched [offA]; Fetched [logA]]) = Some s /\
  workers s = [(logA, Working); (logA, Working)].
Proof. witness. split; vm_compute; reflexivity. Qed.
(** A log that is no longer listed stays enrolled. *)
Theorem C50_delisted_refuted : exists s,
  run true [Next; Process; Receive; Next; Process; Receive] (start [Fetched [logA]; Fetched [logB]]) = Some s /\ unlocked s = true /\ script s = [] /\ alookup (B "A") (metadata s) = Some logA.
Proof. witness. split; [vm_compute; reflexivity|]. repeat split. Qed.
(** With runForever, one error ends the download of an enrolled log (the hypotheses of [C50_ended_loop_is_not_restarted] are met). *)
Theorem C50_error_is_final_refuted : exists s,
  run true [Next; Process; Receive; Register 0; Migrated 0 true; Check 0; Finish 0 false] (start [Fetched [logA]; Fetched [logA]]) = Some s /\
  alookup (B "A") (metadata s) <> None /\ offered s = None /\ workers s = [(logA, Gone)] /\
  forall cs s', run true cs s = Some s' -> count (isUnenrolled (B "A")) (trace s') = 0 -> count (isBegun (B "A")) (trace s') = 1.
Proof.
  witness. split; [vm_compute; reflexivity|]. split; [discriminate|]. split; [reflexivity|]. split; [reflexivity|]. intros cs s' R U.
  match type of R with run _ _ ?s = _ => apply (C50_ended_loop_is_not_restarted true s (B "A")) with (cs := cs) (s' := s') end; [discriminate|reflexivity| |exact R|exact U].
  intros r p [I|[]] _. congruence.
Qed.
Print Assumptions C50_exits_too_early_refuted.
Print Assumptions C50_panic_refuted.
Print Assumptions C50_two_loops_refuted.
Print Assumptions C50_delisted_refuted.
Print Assumptions C50_error_is_final_refuted.
