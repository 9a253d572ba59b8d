(** * C43, C44: consistency of a channel, and what to publish *)
From Verif Require Import Base MerkleModel TimeModel TimeProofs IssuersModel FilterModel FilterProofs QueryModel TextProofs P_Query RemoteModel PublishModel P_RunIds PublishProofs IsoProofs PublishProofs2.
From Coq Require Import Strings.Byte Sorting.Permutation Sorting.Sorted.

(** ** C43: the consistency check accepts exactly the linear chains

    [chain l]: the first record of [l] is a full filter, every later one an
    incremental filter whose parent is the record before it. *)
Theorem C43_accepts : forall ch (records : list frec), let rs := filter (inChannel ch) records in
  verifyRecords ch records = Val tt <->
  rs = [] \/ exists l, Permutation l rs /\ chain l /\ NoDup (map r_id l) /\ forall r, In r l -> r_att r <> None.
Proof. exact verify_accepts. Qed.
Print Assumptions C43_accepts.

(** The records of a channel: those that name it, and for the default channel those
    that name none. *)
Theorem C43_channel : forall ch (r : frec),
  inChannel ch r = true <-> a_channel (r_data r) = Some (c_slug ch) \/ (a_channel (r_data r) = None /\ c_slug ch = B "default").
Proof.
  intros ch r. unfold inChannel. destruct (a_channel (r_data r)) as [c|]; rewrite beq_eq.
  - split; [intros ->; auto|]. intros [E|[E _]]; [congruence|discriminate E].
  - split; [intros <-; auto|]. intros [E|[_ E]]; [discriminate E|congruence].
Qed.
Print Assumptions C43_channel.

(** The names of the records sort like the times of the runs, whatever their kinds
    (for years up to 9999). *)
Theorem C43_names : forall t t', (-62167219200 <= t < t')%Z -> (t' < 253402300800)%Z ->
  forall n n', n = fullName t \/ n = diffName t -> n' = fullName t' \/ n' = diffName t' -> bytesLtb n n' = true.
Proof.
  intros t t' H1 H2 n n' N N'.
  assert (Y : isoYear t) by (apply year_range; lia). assert (Y' : isoYear t') by (apply year_range; lia). assert (L : (t < t')%Z) by lia.
  destruct N as [-> | ->], N' as [-> | ->]; unfold fullName, diffName; exact (iso_lt t t' _ _ Y Y' L).
Qed.
Print Assumptions C43_names.

(** A name tells the time of the run and whether the record is a full filter or a
    delta. *)
Theorem C43_names_tell : forall t t', (-62167219200 <= t < 253402300800)%Z -> (-62167219200 <= t' < 253402300800)%Z ->
  fullName t <> diffName t' /\ (fullName t = fullName t' -> t = t') /\ (diffName t = diffName t' -> t = t').
Proof.
  intros t t' H H'.
  assert (K : forall a b, (-62167219200 <= a < 253402300800)%Z -> (-62167219200 <= b < 253402300800)%Z -> forall n m, n = fullName a \/ n = diffName a -> m = fullName b \/ m = diffName b -> n = m -> a = b).
  { intros a b A A' n m N M E. destruct (Z.lt_trichotomy a b) as [L|[->|L]]; [|reflexivity|]; exfalso.
    - pose proof (C43_names a b ltac:(lia) ltac:(lia) n m N M) as X. rewrite E, bytesLtb_irrefl in X. discriminate X.
    - pose proof (C43_names b a ltac:(lia) ltac:(lia) m n M N) as X. rewrite E, bytesLtb_irrefl in X. discriminate X. }
  repeat split.
  - intros E. apply (f_equal (@rev byte)) in E. unfold fullName, diffName in E. rewrite !rev_app_distr in E. discriminate E.
  - apply (K t t' H H'); auto.
  - apply (K t t' H H'); auto.
Qed.
Print Assumptions C43_names_tell.

Example C43_names_case : fullName 1767323045 = B "2026-01-02T03:04:05+00:00Z-full" /\ diffName 1767326400 = B "2026-01-02T04:00:00+00:00Z-diff".
Proof. split; vm_compute; reflexivity. Qed.

(** Anything else is reported as inconsistent, not as another failure. *)
Theorem C43_rejects : forall ch (records : list frec), (forall r, In r records -> a_inc (r_data r) <> None) ->
  verifyRecords ch records = Val tt \/ verifyRecords ch records = Exc EConsistency.
Proof. exact verify_rejects. Qed.
Print Assumptions C43_rejects.

(** An accepted list has one full filter. *)
Theorem C43_one_full : forall ch (records : list frec), verifyRecords ch records = Val tt -> filter (inChannel ch) records <> [] ->
  exists f, filter (fun r => match a_inc (r_data r) with Some false => true | _ => false end) (filter (inChannel ch) records) = [f].
Proof.
  intros ch records V NE. apply (proj1 (C43_accepts ch records)) in V. destruct V as [V|[l [P [C _]]]]; [contradiction|].
  set (full := fun r : frec => match a_inc (r_data r) with Some false => true | _ => false end).
  assert (E : exists f, filter full l = [f]).
  { destruct l as [|f l]; [destruct C|]. destruct C as [F L]. exists f. cbn [filter]. unfold full at 1. rewrite F. f_equal.
    clear -L. revert f L. induction l as [|r l IH]; intros f L; [reflexivity|]. destruct L as [I [_ L]]. cbn [filter]. unfold full at 1. rewrite I. exact (IH r L). }
  destruct E as [f E]. exists f. pose proof (perm_filter full _ _ P) as PF. rewrite E in PF. apply Permutation_length_1_inv in PF. exact PF.
Qed.
Print Assumptions C43_one_full.

Section Ex.
  Let ch := mkChannel (B "default") (B "mlbf") (B "filter.delta") 20 true.
  Let rec (id : bytes) (inc : bool) (par : option bytes) (t : Z) (file : bytes) : frec :=
    mkRecord id (mkAttrs (Some (if inc then diffName t else fullName t)) (Some inc) par (Some (B "default")) (t * 1000)) (Some (file, B "x")).
  (** Three records in any order are accepted; a second child of the full filter
      makes the list inconsistent, and so does a missing attachment. *)
  Example C43_example :
    let f := rec (B "a") false None 1000 (B "20260101-0-default.filter") in
    let d1 := rec (B "b") true (Some (B "a")) 2000 (B "20260101-1-default.filter.delta") in
    let d2 := rec (B "c") true (Some (B "b")) 3000 (B "20260101-2-default.filter.delta") in
    let d3 := rec (B "d") true (Some (B "a")) 3000 (B "20260101-2-default.filter.delta") in
    let d4 : frec := mkRecord (B "c") (r_data d2) None in
    (verifyRecords ch [d2; f; d1], verifyRecords ch [f; d1; d3], verifyRecords ch [f; d1; d4], verifyRecords ch [d1; d2]) =
    (Val tt, Exc EConsistency, Exc EConsistency, Exc EConsistency).
  Proof. vm_compute. reflexivity. Qed.
End Ex.

(** ** C44: what is uploaded

    [before]: earlier by date and then by number. *)

(** The run that an attachment belongs to, from its name. *)
Definition runOf (r : frec) (run : bytes) : Prop :=
  exists name data rest, r_att r = Some (name, data) /\ name = run ++ "-"%byte :: rest /\ ~ In "-"%byte rest.

Lemma dash_in_run r : isRun r -> In "-"%byte r.
Proof. intros [d [n [ds [-> _]]]]. apply in_or_app. right. left. reflexivity. Qed.
Lemma runOf_record r run : isRun run -> (runOfRecord r = Some run <-> runOf r run).
Proof.
  intros HR. unfold runOfRecord, runOfName, runOf. destruct (r_att r) as [[name data]|]; cbn [option_map fst].
  - destruct (rcut "-"%byte name) as [[a rest]|] eqn:E.
    + apply (proj1 (rcut_spec _ _ _ _)) in E. split.
      * intros H. injection H as ->. exists name, data, rest. tauto.
      * intros [n' [d' [rest' [H [H1 H2]]]]]. injection H as <- <-. f_equal. assert (G : Some (a, rest) = Some (run, rest')) by (transitivity (rcut "-"%byte name); [symmetry|]; apply rcut_spec; auto). congruence.
    + apply (proj1 (rcut_none _ _)) in E. split.
      * intros H. injection H as ->. exfalso. apply E. apply dash_in_run. exact HR.
      * intros [n' [d' [rest' [H [H1 H2]]]]]. injection H as <- <-. exfalso. apply E. rewrite H1. apply in_or_app. right. left. reflexivity.
  - split; [discriminate|]. intros [n' [d' [rest' [H _]]]]. discriminate H.
Qed.

Lemma minText_spec l : l <> [] -> exists m, minText l = Some m /\ In m l /\ forall x, In x l -> bytesLtb x m = false.
Proof.
  destruct l as [|x l]; [congruence|]. intros _. exists (fold_left (fun m y => if bytesLtb y m then y else m) l x). split; [reflexivity|]. split; [apply minText_in; reflexivity|].
  assert (G : forall l x, bytesLtb x (fold_left (fun m y => if bytesLtb y m then y else m) l x) = false /\ forall y, In y l -> bytesLtb y (fold_left (fun m y => if bytesLtb y m then y else m) l x) = false).
  { clear. induction l as [|y l IH]; intros x; cbn [fold_left]; [split; [apply bytesLtb_irrefl|intros y []]|].
    destruct (IH (if bytesLtb y x then y else x)) as [A A2]. destruct (bytesLtb y x) eqn:E.
    - split; [|intros z [<-|I]; [exact A|apply A2; exact I]]. eapply bytesLe_trans; [exact A|apply bytesLtb_asym; exact E].
    - split; [exact A|]. intros z [<-|I]; [|apply A2; exact I]. eapply bytesLe_trans; [exact A|exact E]. }
  intros y [<-|I]; [exact (proj1 (G l x))|exact (proj2 (G l x) y I)].
Qed.

(** The condition for an incremental update, and what is then uploaded: the
    records are a chain; the run [cut] is that of the last record; no record is of
    a later or unknown run; [up] is all that follows [cut] in the bucket, and can be
    used; the oldest run is not too old. *)
Definition incremental (b : bucket) (ch : channel) (records : list frec) (up : list bytes) : Prop :=
  exists new pre runs cut oldest t0 t1,
    (exists l, Permutation l records /\ chain l /\ NoDup (map r_id l) /\ forall r, In r l -> r_att r <> None) /\
    lastOf (b_ids b) = Some new /\
    Forall2 runOf records runs /\ lastOf runs = Some cut /\
    b_ids b = pre ++ up /\ (forall r, In r pre -> ~ before cut r) /\ (forall r, In r up -> before cut r) /\
    (forall r, In r runs -> In r pre) /\
    (forall r, In r up -> b_ready b r = true /\ b_valid b r (c_dir ch) = true) /\
    (exists ts, map (b_time b) up = map Some ts /\ StronglySorted Z.le ts) /\
    In oldest runs /\ (forall r, In r runs -> bytesLtb r oldest = false) /\
    b_time b oldest = Some t0 /\ b_time b new = Some t1 /\ (t1 - t0 < c_days ch * 86400)%Z.

Lemma filter_cut cut : forall ids, StronglySorted before ids -> forall P, (forall r, In r ids -> P r = true <-> before cut r) ->
  ids = filter (fun r => negb (P r)) ids ++ filter P ids.
Proof.
  induction ids as [|x ids IH]; intros S P H; [reflexivity|]. apply StronglySorted_inv in S. destruct S as [S F]. rewrite Forall_forall in F.
  assert (H' : forall r, In r ids -> P r = true <-> before cut r) by (intros r I; apply H; right; exact I).
  cbn [filter]. destruct (P x) eqn:E; cbn [negb].
  - assert (A : forall r, In r ids -> P r = true) by (intros r I; apply H'; [exact I|]; apply (before_trans _ x); [apply H; [left; reflexivity|exact E]|apply F; exact I]).
    assert (FA : forall m, (forall r, In r m -> P r = true) -> filter (fun r => negb (P r)) m = [] /\ filter P m = m).
    { clear. induction m as [|y m IHm]; intros A; [auto|]. cbn [filter]. rewrite (A y (or_introl eq_refl)). cbn [negb]. destruct IHm as [-> ->]; [intros r I; apply A; right; exact I|auto]. }
    destruct (FA ids A) as [-> ->]. reflexivity.
  - cbn [app]. f_equal. apply IH; [exact S|exact H'].
Qed.
Lemma strong_filter {A} (R : A -> A -> Prop) f : forall l, StronglySorted R l -> StronglySorted R (filter f l).
Proof.
  induction 1 as [|x l S IH F]; cbn [filter]; [constructor|]. destruct (f x); [|exact IH]. constructor; [exact IH|].
  rewrite Forall_forall in *. intros y I. apply filter_In in I. apply F. tauto.
Qed.
Lemma sortRuns_id l : (forall r, In r l -> isRun r) -> StronglySorted before l -> sortBy runLtb l = l.
Proof.
  intros W S. apply (sortBy_unique runLtb isRun).
  - intros x y Hx Hy E. destruct (runLtb y x) eqn:F; [|reflexivity]. exfalso. apply (runLtb_before x y Hx Hy) in E. apply (runLtb_before y x Hy Hx) in F. exact (before_asym _ _ E F).
  - intros x y z [d1 [n1 H1]] [d2 [n2 H2]] [d3 [n3 H3]]. unfold runLtb. rewrite (runParts_runId _ _ _ H1), (runParts_runId _ _ _ H2), (runParts_runId _ _ _ H3).
    rewrite !orb_false_iff, !andb_false_iff, !N.ltb_ge, !N.eqb_neq. lia.
  - apply Forall_forall. exact W.
  - clear -W S. induction S as [|x l S IH F]; [constructor|]. constructor; [apply IH; intros r I; apply W; right; exact I|]. rewrite Forall_forall in *. intros y I.
    apply (runLtb_before x y); [apply W; left; reflexivity|apply W; right; exact I|apply F; exact I].
  - reflexivity.
Qed.
Lemma filter_all {A} (f : A -> bool) l : (forall x, In x l -> f x = true) -> filter f l = l.
Proof. induction l as [|x l IH]; intros H; [reflexivity|]. cbn [filter]. rewrite (H x (or_introl eq_refl)). f_equal. apply IH. intros y I. apply H. right. exact I. Qed.
Lemma runs_forall2 : forall (records : list frec) runs, (forall r, In r runs -> isRun r) -> (map runOfRecord records = map Some runs <-> Forall2 runOf records runs).
Proof.
  induction records as [|x l IH]; intros [|r runs] W; cbn [map]; (split; [intros H|intros H]); try discriminate H; try (inversion H; fail); auto.
  - injection H as H1 H2. constructor; [apply runOf_record; [apply W; left; reflexivity|exact H1]|]. apply IH; [intros y I; apply W; right; exact I|exact H2].
  - inversion H as [|? ? ? ? H1 H2]; subst. f_equal; [apply runOf_record; [apply W; left; reflexivity|exact H1]|]. apply IH; [intros y I; apply W; right; exact I|exact H2].
Qed.

Theorem C44_incremental : forall b ch (records : list frec) up, StronglySorted before (b_ids b) -> (forall r, In r (b_ids b) -> isRun r) ->
  records <> [] -> (forall r, In r records -> inChannel ch r = true) ->
  (determine b ch records = Val (mkTasks false up) <-> incremental b ch records up).
Proof.
  intros b ch records up SB WR NE IC. pose proof (filter_all _ _ IC) as FA. split.
  - intros H. destruct (determine_incremental b ch records up WR H) as [new [runs [cut [t0 [t1 [EN [_ [EV [ES [EC [RU [EU [INS [_ [RV [TS [T0 [T1 AG]]]]]]]]]]]]]]]]]].
    apply (proj1 (C43_accepts ch records)) in EV. rewrite FA in EV. destruct EV as [EV|EV]; [contradiction|].
    assert (WRR : forall r, In r runs -> isRun r) by (intros r I; apply WR; apply RU; exact I).
    assert (NR : runs <> []) by (intros ->; destruct records; [apply NE; reflexivity|discriminate ES]).
    destruct (minText_spec runs NR) as [m [EM [IM MM]]]. rewrite EM in T0. cbn [option_map] in T0. injection T0 as T0.
    set (P := fun r => negb match runParts r with Some p => match runParts cut with Some c => notAfter c p | None => false end | None => false end) in *.
    assert (CUT : In cut (b_ids b)) by (apply RU; apply (proj1 (lastOf_some _ _)) in EC; destruct EC as [l' ->]; apply in_or_app; right; left; reflexivity).
    assert (PB : forall r, In r (b_ids b) -> P r = true <-> before cut r).
    { intros r I. destruct (WR cut CUT) as [d [n RC]]. unfold P. rewrite (runParts_runId _ _ _ RC), negb_true_iff. apply notAfter_before; [apply WR; exact I|exact RC]. }
    rewrite (sortRuns_id (filter P (b_ids b))) in EU; [|intros r I; apply filter_In in I; apply WR; tauto|apply strong_filter; exact SB].
    pose proof (filter_cut cut (b_ids b) SB P PB) as CUTEQ. rewrite <- EU in CUTEQ.
    exists new, (filter (fun r => negb (P r)) (b_ids b)), runs, cut, m, t0, t1.
    split; [exact EV|]. split; [exact EN|]. split; [apply runs_forall2; assumption|]. split; [exact EC|]. split; [exact CUTEQ|].
    split; [intros r I; apply filter_In in I; destruct I as [I N]; intros X; apply (PB r I) in X; rewrite X in N; discriminate N|].
    split; [intros r I; apply INS; exact I|].
    split; [intros r I; apply filter_In; destruct (RU r I) as [I' N]; split; [exact I'|]; destruct (P r) eqn:E; [exfalso; apply N; apply PB; assumption|reflexivity]|].
    auto 10.
  - intros [new [pre [runs [cut [m [t0 [t1 [CH [EN [RO [EC [EB [PRE [UP [RP [RV [TS [IM [MM [T0 [T1 AG]]]]]]]]]]]]]]]]]]]]].
    assert (WRR : forall r, In r runs -> isRun r) by (intros r I; apply WR; rewrite EB; apply in_or_app; left; apply RP; exact I).
    assert (CUTR : In cut runs) by (apply (proj1 (lastOf_some _ _)) in EC; destruct EC as [l' ->]; apply in_or_app; right; left; reflexivity).
    assert (CUT : In cut (b_ids b)) by (rewrite EB; apply in_or_app; left; apply RP; exact CUTR).
    unfold determine. rewrite EN. destruct records as [|rec0 recs0] eqn:ER; [congruence|]. rewrite <- ER in *. clear NE ER.
    assert (EV : verifyRecords ch records = Val tt) by (apply C43_accepts; rewrite FA; right; exact CH). rewrite EV.
    apply (proj2 (runs_forall2 records runs WRR)) in RO. apply (proj2 (allSome_spec _ _)) in RO. rewrite RO, EC. cbn [option_map].
    destruct (WR cut CUT) as [d [n RC]]. rewrite (runParts_runId _ _ _ RC). cbv zeta.
    assert (AP : exists ps, allSome (map runParts (b_ids b)) = Some ps).
    { clear -WR. induction (b_ids b) as [|x l IH]; [exists []; reflexivity|]. destruct IH as [ps E]; [intros r I; apply WR; right; exact I|].
      destruct (WR x (or_introl eq_refl)) as [d [n H]]. exists ((valueOf d, n) :: ps). cbn [map allSome]. rewrite (runParts_runId _ _ _ H), E. reflexivity. }
    destruct AP as [ps ->].
    set (old := fun r => match runParts r with Some p => notAfter (valueOf d, n) p | None => false end).
    assert (OLD : forall r, In r (b_ids b) -> (old r = false <-> before cut r)) by (intros r I; apply notAfter_before; [apply WR; exact I|exact RC]).
    change (filter (fun r => match runParts r with Some p => notAfter (valueOf d, n) p | None => false end) (b_ids b)) with (filter old (b_ids b)).
    change (filter (fun r => negb match runParts r with Some p => notAfter (valueOf d, n) p | None => false end) (b_ids b)) with (filter (fun r => negb (old r)) (b_ids b)).
    assert (OP : forall r, In r pre -> old r = true).
    { intros r I. destruct (old r) eqn:E; [reflexivity|]. exfalso. apply (PRE r I). apply OLD; [rewrite EB; apply in_or_app; left; exact I|exact E]. }
    assert (OU : forall r, In r up -> old r = false) by (intros r I; apply OLD; [rewrite EB; apply in_or_app; right; exact I|apply UP; exact I]).
    assert (NEWS : filter (fun r => negb (old r)) (b_ids b) = up).
    { rewrite EB, filter_app. rewrite (filter_all _ up) by (intros r I; rewrite (OU r I); reflexivity).
      assert (Z : forall m, (forall r, In r m -> old r = true) -> filter (fun r => negb (old r)) m = []).
      { clear. induction m as [|y m IHm]; intros A; [reflexivity|]. cbn [filter]. rewrite (A y (or_introl eq_refl)). cbn [negb]. apply IHm. intros r I. apply A. right. exact I. }
      rewrite (Z pre OP). reflexivity. }
    rewrite NEWS. assert (KN : forallb (fun r => memb r (filter old (b_ids b))) runs = true).
    { apply memb_forall. intros r I. apply filter_In. split; [rewrite EB; apply in_or_app; left; apply RP; exact I|apply OP; apply RP; exact I]. }
    rewrite KN. cbn [negb]. unfold verifyRuns. destruct TS as [ts [TS TO]].
    assert (SU : sortBy runLtb up = up) by (rewrite <- NEWS; apply sortRuns_id; [intros r I; apply filter_In in I; apply WR; tauto|apply strong_filter; exact SB]).
    rewrite (proj2 (forallb_forall (b_ready b) up)) by (intros r I; apply RV; exact I).
    rewrite (proj2 (forallb_forall (fun r => b_valid b r (c_dir ch)) up)) by (intros r I; apply RV; exact I).
    cbn [negb]. rewrite SU, (proj2 (allSome_spec _ _) TS), (proj2 (inOrder_spec ts) TO).
    destruct (minText_spec runs) as [m' [EM [IM' MM']]]; [intros Z; rewrite Z in IM; destruct IM|].
    assert (m' = m).
    { clear -IM MM IM' MM'. specialize (MM m' IM'). specialize (MM' m IM). revert MM MM'. clear.
      revert m. induction m' as [|c m' IH]; intros [|d m]; cbn [bytesLtb]; try discriminate; auto.
      destruct (N.ltb_spec (Byte.to_N c) (Byte.to_N d)) as [H|H], (N.ltb_spec (Byte.to_N d) (Byte.to_N c)) as [G|G]; try discriminate; try lia. intros A B0. f_equal; [|apply IH; assumption].
      assert (E : Byte.to_N c = Byte.to_N d) by lia. apply (f_equal Byte.of_N) in E. rewrite !Byte.of_to_N in E. congruence. }
    subst m'. rewrite EM. cbn [option_map]. rewrite T0, T1. destruct (Z.leb_spec (c_days ch * 86400) (t1 - t0)) as [L|L]; [lia|reflexivity].
Qed.
Print Assumptions C44_incremental.

Theorem C44_full : forall b ch records up, determine b ch records = Val (mkTasks true up) -> exists new, lastOf (b_ids b) = Some new /\ up = [new].
Proof. exact determine_full. Qed.
Print Assumptions C44_full.

(** The decision is one or the other, unless there is no run at all, the latest or
    a published run is not completed, a completed run has no timestamp, or a record
    was not made by the publisher. *)
Theorem C44_decided : forall b ch (records : list frec) new, lastOf (b_ids b) = Some new -> b_ready b new = true ->
  (forall r, In r (b_ids b) -> isRun r /\ (b_ready b r = true -> exists t, b_time b r = Some t)) ->
  (forall r, In r records -> a_inc (r_data r) <> None /\ (r_att r = None \/ exists run, isRun run /\ runOf r run /\ (In run (b_ids b) -> b_ready b run = true))) ->
  (forall r, In r records -> inChannel ch r = true) ->
  exists t, determine b ch records = Val t.
Proof.
  intros b ch records new EN RN WR RR IC. unfold determine. rewrite EN.
  destruct records as [|rec0 recs0] eqn:ER; [eauto|]. rewrite <- ER in *. assert (NER : records <> []) by (rewrite ER; discriminate). clear ER rec0 recs0.
  destruct (C43_rejects ch records) as [EV|EV]; [intros r I; apply RR; exact I| |rewrite EV; eauto]. rewrite EV.
  assert (AL : exists runs, map runOfRecord records = map Some runs /\ forall r, In r runs -> isRun r /\ (In r (b_ids b) -> b_ready b r = true)).
  { apply (proj1 (C43_accepts ch records)) in EV. rewrite (filter_all _ _ IC) in EV. destruct EV as [EV|[l [P [_ [_ AT]]]]]; [contradiction|].
    assert (AT' : forall r, In r records -> r_att r <> None) by (intros r I; apply AT; apply (Permutation_in _ (Permutation_sym P)); exact I).
    clear -AT' RR. induction records as [|x l IH]; [exists []; split; [reflexivity|intros r []]|].
    destruct IH as [runs [E W]]; [intros r I; apply RR; right; exact I|intros r I; apply AT'; right; exact I|].
    destruct (RR x (or_introl eq_refl)) as [_ [N|[run [IR [RO RB]]]]]; [exfalso; exact (AT' x (or_introl eq_refl) N)|].
    exists (run :: runs). split; [cbn [map]; f_equal; [apply runOf_record; assumption|exact E]|]. intros r [<-|I]; [split; [exact IR|exact RB]|apply W; exact I]. }
  destruct AL as [runs [ES WRR]]. rewrite (proj2 (allSome_spec _ _) ES).
  destruct (lastOf runs) as [cut|] eqn:EC; [|apply (proj1 (lastOf_none _)) in EC; subst runs; destruct records; [contradiction|discriminate ES]].
  cbn [option_map]. assert (CUTR : In cut runs) by (apply (proj1 (lastOf_some _ _)) in EC; destruct EC as [l' ->]; apply in_or_app; right; left; reflexivity).
  destruct (proj1 (WRR cut CUTR)) as [d [n RC]]. rewrite (runParts_runId _ _ _ RC). cbv zeta.
  assert (AP : exists ps, allSome (map runParts (b_ids b)) = Some ps).
  { clear -WR. induction (b_ids b) as [|x l IH]; [exists []; reflexivity|]. destruct IH as [ps E]; [intros r I; apply WR; right; exact I|].
    destruct (WR x (or_introl eq_refl)) as [[d [n H]] _]. exists ((valueOf d, n) :: ps). cbn [map allSome]. rewrite (runParts_runId _ _ _ H), E. reflexivity. }
  destruct AP as [ps ->]. set (old := fun r => match runParts r with Some p => notAfter (valueOf d, n) p | None => false end).
  change (filter (fun r => match runParts r with Some p => notAfter (valueOf d, n) p | None => false end) (b_ids b)) with (filter old (b_ids b)).
  change (filter (fun r => negb match runParts r with Some p => notAfter (valueOf d, n) p | None => false end) (b_ids b)) with (filter (fun r => negb (old r)) (b_ids b)).
  destruct (forallb (fun r => memb r (filter old (b_ids b))) runs) eqn:KN; cbn [negb]; [|eauto]. pose proof (proj1 (memb_forall _ _) KN) as MM.
  set (news := filter (fun r => negb (old r)) (b_ids b)). unfold verifyRuns.
  destruct (forallb (b_ready b) news) eqn:RDY; cbn [negb]; [|eauto]. destruct (forallb (fun r => b_valid b r (c_dir ch)) news); cbn [negb]; [|eauto].
  assert (TT : forall l, (forall r, In r l -> In r (b_ids b) /\ b_ready b r = true) -> exists ts, allSome (map (b_time b) l) = Some ts).
  { induction l as [|x l IH]; intros H; [exists []; reflexivity|]. destruct IH as [ts E]; [intros r I; apply H; right; exact I|].
    destruct (H x (or_introl eq_refl)) as [Hx Hy]. destruct (proj2 (WR x Hx) Hy) as [t T]. exists (t :: ts). cbn [map allSome]. rewrite T, E. reflexivity. }
  destruct (TT (sortBy runLtb news)) as [ts ->].
  { intros r I. apply (Permutation_in _ (sortBy_perm _ _)) in I. split; [apply filter_In in I; tauto|]. rewrite forallb_forall in RDY. apply RDY. exact I. }
  destruct (inOrder ts); [|eauto]. destruct (minText_spec runs) as [m [EM [IM _]]]; [intros Z; rewrite Z in CUTR; destruct CUTR|].
  rewrite EM. cbn [option_map]. assert (IB : In m (b_ids b)) by (apply MM in IM; apply filter_In in IM; tauto). destruct (proj2 (WR m IB) (proj2 (WRR m IM) IB)) as [t0 ->].
  assert (IN : In new (b_ids b)) by (apply (proj1 (lastOf_some _ _)) in EN; destruct EN as [l' ->]; apply in_or_app; right; left; reflexivity).
  destruct (proj2 (WR new IN) RN) as [t1 ->]. destruct (c_days ch * 86400 <=? t1 - t0)%Z; eauto.
Qed.
Print Assumptions C44_decided.

(** If the published run identifiers have equal length, no published run is too
    old for an incremental update: the oldest is the first in order. *)
Theorem C44_age : forall b ch (records : list frec) up runs, StronglySorted before (b_ids b) -> (forall r, In r (b_ids b) -> isRun r) ->
  records <> [] -> (forall r, In r records -> inChannel ch r = true) ->
  determine b ch records = Val (mkTasks false up) -> Forall2 runOf records runs ->
  (forall r r', In r runs -> In r' runs -> length r = length r') ->
  exists new first t0 t1, lastOf (b_ids b) = Some new /\ In first runs /\ (forall r, In r runs -> ~ before r first) /\
    b_time b first = Some t0 /\ b_time b new = Some t1 /\ (t1 - t0 < c_days ch * 86400)%Z.
Proof.
  intros b ch records up runs SB WR NE IC H RO LEN. apply (proj1 (C44_incremental b ch records up SB WR NE IC)) in H.
  destruct H as [new [pre [runs' [cut [m [t0 [t1 [CH [EN [RO' [EC [EB [PRE [UP [RP [RV [TS [IM [MM [T0 [T1 AG]]]]]]]]]]]]]]]]]]]]].
  assert (WRR : forall r, In r runs' -> isRun r) by (intros r I; apply WR; rewrite EB; apply in_or_app; left; apply RP; exact I).
  assert (runs' = runs).
  { clear -RO RO' WRR. revert runs RO. induction RO' as [|x r l rs H HF IH]; intros runs RO; inversion RO as [|? r2 ? rs2 H2 HF2]; subst; [reflexivity|].
    f_equal; [|apply IH; [intros y I; apply WRR; right; exact I|exact HF2]].
    destruct H as [n1 [d1 [e1 [A1 [B1 C1]]]]], H2 as [n2 [d2 [e2 [A2 [B2 C2]]]]]. rewrite A1 in A2. injection A2 as <- <-.
    assert (G : Some (r, e1) = Some (r2, e2)) by (transitivity (rcut "-"%byte n1); [symmetry|]; apply rcut_spec; auto). congruence. }
  subst runs'. exists new, m, t0, t1. split; [exact EN|]. split; [exact IM|]. split; [|auto].
  intros r I [d [n [d' [n' [H [H' L]]]]]]. specialize (MM r I). specialize (LEN r m I IM).
  destruct H as [ds [Er [Ld [Dd [_ [Ds V]]]]]], H' as [ds' [Em [Ld' [Dd' [_ [Ds' V']]]]]]. subst r m. rewrite !app_length, Ld, Ld' in LEN. cbn [length] in LEN.
  rewrite ltb_app in MM by congruence. pose proof (ltb_value d d' 0 ltac:(congruence) Dd Dd') as L1. pose proof (ltb_value ds ds' 0 ltac:(lia) Ds Ds') as L2.
  destruct (bytesLtb d d') eqn:E1; [discriminate MM|]. destruct L as [L|[L1' L2']]; [apply L1 in L; discriminate L|].
  assert (ED : d = d') by (apply value_inj; [congruence|exact Dd|exact Dd'|exact L1']). subst d'. rewrite beq_refl in MM. cbn [bytesLtb] in MM. rewrite N.ltb_irrefl in MM.
  rewrite <- V, <- V' in L2'. apply L2 in L2'. congruence.
Qed.
Print Assumptions C44_age.

Section Ex2.
  Let ch := mkChannel (B "default") (B "mlbf") (B "filter.delta") 20 true.
  Let rec (id : bytes) (inc : bool) (par : option bytes) (t : Z) (file : bytes) : frec :=
    mkRecord id (mkAttrs (Some (if inc then diffName t else fullName t)) (Some inc) par (Some (B "default")) (t * 1000)) (Some (file, B "x")).
  Let f := rec (B "a") false None 86400 (B "20260101-9-default.filter").
  Let d1 := rec (B "b") true (Some (B "a")) 1728000 (B "20260101-10-default.filter.delta").
  Let bk (ids : list bytes) : bucket :=
    mkBucket ids (fun _ => true) (fun _ _ => true)
      (fun r => if beq r (B "20260101-9") then Some 86400%Z else if beq r (B "20260101-10") then Some 1728000%Z else if beq r (B "20260101-11") then Some 1730000%Z else if beq r (B "20260120-1") then Some 2000000%Z else None)
      (fun r _ => Some r) (fun r _ => Some r).

  (** Two runs are new; with one more run the chain is too old; without the record
      of the last run the channel starts afresh. *)
  Example C44_example :
    (determine (bk [B "20260101-9"; B "20260101-10"; B "20260101-11"]) ch [f; d1], determine (bk [B "20260101-9"; B "20260101-10"; B "20260101-11"]) ch [f],
     determine (bk [B "20260101-10"; B "20260101-11"]) ch [f; d1], determine (bk [B "20260101-9"; B "20260120-1"]) ch [f]) =
    (Val (mkTasks false [B "20260101-11"]), Val (mkTasks false [B "20260101-10"; B "20260101-11"]), Val (mkTasks true [B "20260101-11"]), Val (mkTasks true [B "20260120-1"])).
  Proof. vm_compute. reflexivity. Qed.

  Lemma run_ex (d n : bytes) : length d = 8%nat -> forallb isDigit d = true -> n <> [] -> forallb isDigit n = true -> isRun (d ++ "-"%byte :: n).
  Proof. intros. exists d, (valueOf n), n. auto 10. Qed.

  (** Run identifiers of different lengths: the age of the chain is not that of its
      full filter, as the text "20260101-10" comes before "20260101-9".  The full
      filter is more than 20 days old here and is kept. *)
  Theorem C44_age_refuted : exists b ch (records : list frec) up new t0 t1,
    determine b ch records = Val (mkTasks false up) /\ (forall r, In r (b_ids b) -> isRun r) /\ StronglySorted before (b_ids b) /\
    lastOf (b_ids b) = Some new /\
    (exists r run, In r records /\ a_inc (r_data r) = Some false /\ runOf r run /\ b_time b run = Some t0) /\
    b_time b new = Some t1 /\ (t1 - t0 > c_days ch * 86400)%Z.
  Proof.
    exists (bk [B "20260101-9"; B "20260101-10"; B "20260120-1"]), ch, [f; d1], [B "20260120-1"], (B "20260120-1"), 86400%Z, 2000000%Z.
    split; [vm_compute; reflexivity|]. split.
    - intros r [<-|[<-|[<-|[]]]]; [apply (run_ex (B "20260101") (B "9"))|apply (run_ex (B "20260101") (B "10"))|apply (run_ex (B "20260120") (B "1"))]; (reflexivity || discriminate).
    - split.
      + assert (R : forall d n d' n', length d = 8%nat -> forallb isDigit d = true -> n <> [] -> forallb isDigit n = true -> length d' = 8%nat -> forallb isDigit d' = true -> n' <> [] -> forallb isDigit n' = true ->
          ((valueOf d <? valueOf d') || (valueOf d =? valueOf d') && (valueOf n <? valueOf n') = true)%N -> before (d ++ "-"%byte :: n) (d' ++ "-"%byte :: n')).
        { intros d n d' n' H1 H2 H3 H4 H5 H6 H7 H8 H9. exists d, (valueOf n), d', (valueOf n'). split; [exists n; auto 10|]. split; [exists n'; auto 10|].
          apply orb_true_iff in H9. rewrite andb_true_iff, !N.ltb_lt, N.eqb_eq in H9. exact H9. }
        apply SSorted_cons; [apply SSorted_cons; [apply SSorted_cons; [apply SSorted_nil|apply Forall_nil]|apply Forall_cons; [|apply Forall_nil]]|apply Forall_cons; [|apply Forall_cons; [|apply Forall_nil]]];
          [apply (R (B "20260101") (B "10") (B "20260120") (B "1"))|apply (R (B "20260101") (B "9") (B "20260101") (B "10"))|apply (R (B "20260101") (B "9") (B "20260120") (B "1"))]; (reflexivity || discriminate).
      + split; [vm_compute; reflexivity|]. split; [|split; [vm_compute; reflexivity|vm_compute; reflexivity]].
        exists f, (B "20260101-9"). split; [left; reflexivity|]. split; [reflexivity|]. split; [|vm_compute; reflexivity].
        exists (B "20260101-9-default.filter"), (B "x"), (B "default.filter"). split; [reflexivity|]. split; [reflexivity|]. apply rcut_none. vm_compute. reflexivity.
  Qed.
End Ex2.
Print Assumptions C44_age_refuted.
