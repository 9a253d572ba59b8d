(** * Publication of one channel under failures *)
From Verif Require Import Base MerkleModel TimeModel TimeProofs IssuersModel FilterModel FilterProofs QueryModel TextProofs P_Query RemoteModel PublishModel P_RunIds PublishProofs IsoProofs PublishProofs2 P_Publish.
From Coq Require Import Strings.Byte Sorting.Permutation Sorting.Sorted.

(** ** Specification *)

(** A published run: identifier, timestamp, contents. *)
Definition item := (bytes * Z * bytes)%type.
Definition itemRun (x : item) : bytes := fst (fst x).
Definition itemTime (x : item) : Z := snd (fst x).

(** The record of a published run. *)
Definition recordOf (ch : channel) (inc : bool) (parent : option bytes) (x : item) (r : frec) : Prop :=
  r_data r = mkAttrs (Some (if inc then diffName (itemTime x) else fullName (itemTime x))) (Some inc) parent (Some (c_slug ch)) (itemTime x * 1000) /\
  r_att r = Some ((if inc then deltaFile ch (itemRun x) else fullFile ch (itemRun x)), snd x).
Fixpoint deltas (ch : channel) (p : bytes) (l : list frec) (xs : list item) : Prop :=
  match l, xs with
  | [], [] => True
  | r :: l', x :: xs' => recordOf ch true (Some p) x r /\ deltas ch (r_id r) l' xs'
  | _, _ => False
  end.
(** Records that publish the runs [xs]: a full filter of the first, and an update
    for each of the others, linked to the one before. *)
Definition publishes (ch : channel) (l : list frec) (xs : list item) : Prop :=
  match l, xs with
  | r :: l', x :: xs' => recordOf ch false None x r /\ deltas ch (r_id r) l' xs'
  | _, _ => False
  end.
(** The runs [xs] in order, without a gap, with the contents in the bucket. *)
Definition faithful (b : bucket) (ch : channel) (xs : list item) : Prop :=
  StronglySorted before (map itemRun xs) /\ Forall isRun (map itemRun xs) /\
  match xs with
  | [] => False
  | x0 :: xs' =>
      (In (itemRun x0) (b_ids b) -> b_ready b (itemRun x0) = true /\ b_time b (itemRun x0) = Some (itemTime x0) /\ b_filter b (itemRun x0) (c_dir ch) = Some (snd x0)) /\
      (forall x, In x xs' -> In (itemRun x) (b_ids b) -> b_ready b (itemRun x) = true /\ b_time b (itemRun x) = Some (itemTime x) /\ b_delta b (itemRun x) (c_dir ch) = Some (snd x)) /\
      (forall r y, lastOf xs = Some y -> In r (b_ids b) -> ~ before r (itemRun x0) -> ~ before (itemRun y) r -> In r (map itemRun xs))
  end.

Definition chan (ch : channel) (l : list frec) : list frec := filter (inChannel ch) l.
Definition others (ch : channel) (l : list frec) : list frec := filter (fun r => negb (inChannel ch r)) l.

(** The channel is a chain that publishes runs of the bucket. *)
Definition sound (b : bucket) (ch : channel) (recs : list frec) (xs : list item) : Prop :=
  exists l, Permutation l (chan ch recs) /\ publishes ch l xs /\ faithful b ch xs.

(** What a crash can leave behind: nothing, or a state that cannot be taken for a
    chain (no full filter, or a record without its file).  All files are of runs in
    [seen] that are completed, if they are still there. *)
Definition recoverable (seen : bytes -> Prop) (b : bucket) (ch : channel) (recs : list frec) : Prop :=
  NoDup (map r_id recs) /\
  (forall r, In r (chan ch recs) -> a_inc (r_data r) <> None /\ a_name (r_data r) <> None /\ (r_att r = None \/ exists run, isRun run /\ seen run /\ runOf r run /\ (In run (b_ids b) -> b_ready b run = true))) /\
  (length (filter isFull (chan ch recs)) <= 1)%nat /\
  ((exists xs, sound b ch recs xs) \/ (forall r, In r (chan ch recs) -> isFull r = false) \/ (exists r, In r (chan ch recs) /\ r_att r = None)).

(** The bucket: runs in order, each completed one with a timestamp. *)
Definition timely (b : bucket) : Prop :=
  StronglySorted before (b_ids b) /\ forall r, In r (b_ids b) -> isRun r /\ (b_ready b r = true -> exists t, b_time b r = Some t).
Definition plain (ch : channel) : Prop := ~ In "-"%byte (c_slug ch) /\ ~ In "-"%byte (c_deltaName ch).

(** ** Chains *)

Lemma recordOf_facts ch inc p x r : plain ch -> isRun (itemRun x) -> recordOf ch inc p x r ->
  a_inc (r_data r) = Some inc /\ a_name (r_data r) = Some (if inc then diffName (itemTime x) else fullName (itemTime x)) /\ a_parent (r_data r) = p /\
  inChannel ch r = true /\ r_att r <> None /\ runOf r (itemRun x).
Proof.
  intros [NS ND] HR [E A]. unfold inChannel. rewrite E, A. cbn [a_inc a_name a_parent a_channel]. repeat split; try discriminate; [apply beq_refl|].
  exists (if inc then deltaFile ch (itemRun x) else fullFile ch (itemRun x)), (snd x). destruct inc.
  - exists (c_slug ch ++ "."%byte :: c_deltaName ch). repeat split; [exact A|]. intros I. apply in_app_iff in I. destruct I as [I|[I|I]]; [contradiction|discriminate I|contradiction].
  - exists (c_slug ch ++ B ".filter"). repeat split; [exact A|]. intros I. apply in_app_iff in I. destruct I as [I|I]; [contradiction|].
    revert I. apply rcut_none. reflexivity.
Qed.

Lemma deltas_app ch : forall l p xs r x, deltas ch p l xs -> recordOf ch true (Some (match lastOf l with Some y => r_id y | None => p end)) x r -> deltas ch p (l ++ [r]) (xs ++ [x]).
Proof.
  induction l as [|y l IH]; intros p [|z xs] r x D R; try destruct D.
  - cbn [app deltas lastOf] in *. auto.
  - cbn [app deltas]. split; [assumption|]. apply IH; [assumption|]. cbn [lastOf] in R. destruct l as [|w l]; [exact R|].
    destruct (lastOf (w :: l)) eqn:E; [exact R|]. apply (proj1 (lastOf_none _)) in E. discriminate E.
Qed.
Lemma publishes_snoc ch l xs r x y : publishes ch l xs -> lastOf l = Some y -> recordOf ch true (Some (r_id y)) x r -> publishes ch (l ++ [r]) (xs ++ [x]).
Proof.
  destruct l as [|f l], xs as [|x0 xs]; try (intros []; fail). intros [R D] L RX. cbn [app publishes]. split; [exact R|]. apply deltas_app; [exact D|].
  cbn [lastOf] in L. destruct l as [|w l]; [injection L as ->; exact RX|]. rewrite L. exact RX.
Qed.
Lemma deltas_runs ch : plain ch -> forall l p xs, Forall isRun (map itemRun xs) -> deltas ch p l xs -> Forall2 runOf l (map itemRun xs) /\ linkedTo p l /\
  (forall r, In r l -> inChannel ch r = true /\ r_att r <> None /\ isFull r = false /\ a_name (r_data r) <> None).
Proof.
  intros PL. induction l as [|y l IH]; intros p [|z xs] W D; try destruct D; cbn [map] in *; [split; [constructor|]; split; [exact I|intros r []]|].
  apply Forall_cons_iff in W. destruct W as [Wz W]. match goal with H : recordOf _ _ _ _ _ |- _ => destruct (recordOf_facts _ _ _ _ _ PL Wz H) as [A [B0 [C [E [F G]]]]] end.
  match goal with H : deltas _ _ _ _ |- _ => destruct (IH _ _ W H) as [I1 [I2 I3]] end.
  split; [constructor; assumption|]. split; [cbn [linkedTo]; auto|]. intros r [<-|I]; [|apply I3; exact I]. unfold isFull. rewrite A, B0. repeat split; try discriminate; assumption.
Qed.
Lemma publishes_runs ch l xs : plain ch -> Forall isRun (map itemRun xs) -> publishes ch l xs -> Forall2 runOf l (map itemRun xs) /\ chain l /\
  (forall r, In r l -> inChannel ch r = true /\ r_att r <> None /\ a_name (r_data r) <> None) /\ length (filter isFull l) = 1%nat.
Proof.
  intros PL W P. destruct l as [|f l], xs as [|x0 xs]; try destruct P. cbn [map] in *. apply Forall_cons_iff in W. destruct W as [W0 W].
  match goal with H : recordOf _ _ _ _ _ |- _ => destruct (recordOf_facts _ _ _ _ _ PL W0 H) as [A [B0 [C [E [F G]]]]] end.
  match goal with H : deltas _ _ _ _ |- _ => destruct (deltas_runs _ PL _ _ _ W H) as [I1 [I2 I3]] end.
  split; [constructor; assumption|]. split; [split; assumption|]. split.
  - intros r [<-|I]; [rewrite B0; repeat split; try discriminate; assumption|]. destruct (I3 r I) as [J1 [J2 [_ J3]]]. auto.
  - cbn [filter]. unfold isFull at 1. rewrite A. cbn [negb length]. f_equal.
    assert (Z : filter isFull l = []). { clear -I3. induction l as [|y l IH]; [reflexivity|]. cbn [filter]. destruct (I3 y (or_introl eq_refl)) as [_ [_ [-> _]]]. apply IH. intros r I. apply I3. right. exact I. }
    rewrite Z. reflexivity.
Qed.

Definition nameOf (r : frec) : bytes := match a_name (r_data r) with Some n => n | None => [] end.
Lemma withNames_all : forall l : list frec, (forall r, In r l -> a_name (r_data r) <> None) -> withNames l = Some (map (fun r => (nameOf r, r)) l).
Proof.
  induction l as [|r l IH]; intros H; [reflexivity|]. cbn [withNames map]. rewrite IH by (intros x I; apply H; right; exact I). unfold nameOf at 2.
  destruct (a_name (r_data r)) eqn:E; [reflexivity|]. exfalso. exact (H r (or_introl eq_refl) E).
Qed.
Lemma sortRecords_perm (m : list frec) : (forall r, In r m -> a_name (r_data r) <> None) -> exists l, sortRecords m = Val l /\ Permutation l m.
Proof.
  intros N. unfold sortRecords. rewrite withNames_all by exact N. eexists. split; [reflexivity|].
  etransitivity; [apply Permutation_map; apply sortBy_perm|]. rewrite map_map. cbn [snd]. rewrite map_id. reflexivity.
Qed.

(** ** The calls *)
Section Calls.
  Variable fresh : list frec -> bytes.
  Variable listing : list frec -> list frec.
  Variable ok : fault -> Prop.
  Hypothesis Fresh : forall l, ~ In (fresh l) (map r_id l).
  Hypothesis Listing : forall l, Permutation (listing l) l.

  Definition faulty : Prop := exists x, ok (FKinto x) \/ ok (FOther x).
  Let wpp {A} (p : prog attrs A) := wp fresh listing ok p.
  Let server := server attrs.

  Lemma wp_get (s : server) : wpp getRecords (fun o s' => s' = s /\ match o with Done l => l = listing (sv_recs s) | Raised _ => faulty | Died => True end) s.
  Proof.
    cbn. split; [auto|]. split; [|split]; intros x O; [split; [destruct x; reflexivity|exists x; auto]|split; [destruct x; reflexivity|exists x; auto]|split; [destruct x; reflexivity|exact I]].
  Qed.
  Lemma wp_unit c (s s1 : server) : exec fresh listing c s = (RDone, s1) ->
    wpp (unitCall c) (fun o s' => match o with Done _ => s' = s1 | Raised _ => faulty /\ (s' = s \/ s' = s1) | Died => s' = s \/ s' = s1 end) s.
  Proof.
    intros E. assert (H : forall x, effect fresh listing x c s = s \/ effect fresh listing x c s = s1) by (intros []; unfold effect; rewrite ?E; auto).
    unfold wpp, unitCall. cbn [wp]. rewrite E. cbn [fst snd wp]. split; [reflexivity|].
    split; [|split]; intros x O; [split; [exists x; auto|apply H]|split; [exists x; auto|apply H]|apply H].
  Qed.
  Lemma wp_create a (s : server) : let s1 := change s (mkRecord (fresh (sv_recs s)) a None :: sv_recs s) in
    wpp (createRecord a) (fun o s' => match o with Done id => id = fresh (sv_recs s) /\ s' = s1 | Raised _ => faulty /\ (s' = s \/ s' = s1) | Died => s' = s \/ s' = s1 end) s.
  Proof.
    intros s1. assert (H : forall x, effect fresh listing x (CCreate a) s = s \/ effect fresh listing x (CCreate a) s = s1) by (intros []; auto).
    unfold wpp, createRecord. cbn [wp exec fst snd]. fold s1. split; [auto|].
    split; [|split]; intros x O; [split; [exists x; auto|apply H]|split; [exists x; auto|apply H]|apply H].
  Qed.
  Lemma wp_review (s : server) : sv_wip s = true ->
    wpp requestReview (fun o s' => sv_recs s' = sv_recs s /\ match o with Done _ => sv_wip s' = false /\ sv_reviews s' = sv_recs s :: sv_reviews s | Raised _ => faulty | Died => True end) s.
  Proof.
    intros W. unfold wpp, requestReview, effect. cbn [wp exec fst snd]. rewrite W. split.
    - cbn. split; [auto|]. split; [|split]; intros x O; (split; [destruct x; reflexivity|]); [exists x; auto|exists x; auto|exact I].
    - split; [|split]; intros x O; (split; [destruct x; reflexivity|]); [exists x; auto|exists x; auto|exact I].
  Qed.

  Lemma existsb_id id (l : list frec) : existsb (hasId id) l = true <-> In id (map r_id l).
  Proof.
    rewrite existsb_exists, in_map_iff. split; intros [r [A B0]]; exists r; [unfold hasId in B0; apply (proj1 (beq_eq _ _)) in B0|unfold hasId; subst id; split; [exact B0|apply beq_refl]]. auto.
  Qed.
  Definition without (D : list bytes) (l : list frec) : list frec := filter (fun r => negb (memb (r_id r) D)) l.
  Lemma without_one id l : filter (fun r : frec => negb (hasId id r)) l = without [id] l.
  Proof.
    unfold without. apply filter_ext. intros r. f_equal. unfold hasId.
    destruct (beq id (r_id r)) eqn:E; [apply (proj1 (beq_eq _ _)) in E; subst id; symmetry; apply memb_in; left; reflexivity|].
    destruct (memb (r_id r) [id]) eqn:M; [|reflexivity]. apply memb_in in M. destruct M as [M|[]]. subst id. rewrite beq_refl in E. discriminate E.
  Qed.
  Lemma without_app D D' l : without D (without D' l) = without (D' ++ D) l.
  Proof.
    induction l as [|r l IH]; [reflexivity|]. unfold without in *. cbn [filter].
    assert (E : memb (r_id r) (D' ++ D) = (memb (r_id r) D' || memb (r_id r) D)%bool).
    { apply eq_true_iff_eq. rewrite orb_true_iff, !memb_in, in_app_iff. reflexivity. }
    rewrite E. destruct (memb (r_id r) D'); cbn [negb orb filter]; [exact IH|]. destruct (memb (r_id r) D); cbn [negb]; [exact IH|f_equal; exact IH].
  Qed.
  Lemma without_nil l : without [] l = l.
  Proof. apply filter_all. intros r _. destruct (memb (r_id r) []) eqn:E; [apply memb_in in E; destruct E|reflexivity]. Qed.
  Lemma in_without D l r : In r (without D l) <-> In r l /\ ~ In (r_id r) D.
  Proof.
    unfold without. rewrite filter_In, negb_true_iff. split; intros [A B0]; (split; [exact A|]).
    - intros I. apply memb_in in I. congruence.
    - destruct (memb (r_id r) D) eqn:E; [apply memb_in in E; contradiction|reflexivity].
  Qed.

  (** Deletion of the records of one kind, among those listed. *)
  Lemma wp_delete inc : forall l (s : server), (forall r, In r l -> a_inc (r_data r) <> None) -> NoDup (map r_id l) -> (forall r, In r l -> In r (sv_recs s)) ->
    wpp (deleteThose inc l) (fun o s' => exists D, sv_recs s' = without D (sv_recs s) /\ sv_reviews s' = sv_reviews s /\ (forall id, In id D -> exists r, In r l /\ r_id r = id /\ a_inc (r_data r) = Some inc) /\
      match o with Done _ => forall r, In r l -> a_inc (r_data r) = Some inc -> In (r_id r) D | Raised _ => faulty | Died => True end) s.
  Proof.
    induction l as [|r l IH]; intros s HI ND IN; cbn [deleteThose].
    - cbn. exists []. rewrite without_nil. repeat split; [intros id []|intros r []].
    - cbn [map] in ND. apply NoDup_cons_iff in ND. destruct ND as [NI ND]. destruct (a_inc (r_data r)) as [i|] eqn:EI; [|exfalso; exact (HI r (or_introl eq_refl) EI)].
      assert (HI' : forall x, In x l -> a_inc (r_data x) <> None) by (intros x I; apply HI; right; exact I).
      destruct (Bool.eqb i inc) eqn:EB.
      + apply eqb_prop in EB. subst i. unfold wpp. apply wp_seq.
        set (s1 := change s (without [r_id r] (sv_recs s))).
        assert (EX : exec fresh listing (CDelete (r_id r)) s = (RDone, s1)).
        { cbn [exec]. rewrite (proj2 (existsb_id (r_id r) (sv_recs s))) by (apply in_map; apply IN; left; reflexivity). rewrite without_one. reflexivity. }
        eapply wp_mono; [|exact (wp_unit _ _ _ EX)]. intros o s' H.
        assert (BASE : forall s', s' = s \/ s' = s1 -> exists D, sv_recs s' = without D (sv_recs s) /\ sv_reviews s' = sv_reviews s /\ (forall id, In id D -> exists x, In x (r :: l) /\ r_id x = id /\ a_inc (r_data x) = Some inc)).
        { intros s2 [->| ->]; [exists []; rewrite without_nil; repeat split; intros id []|]. exists [r_id r]. repeat split. intros id [<-|[]]. exists r. repeat split; [left; reflexivity|exact EI]. }
        destruct o as [[]|e|].
        * subst s'. eapply wp_mono; [|apply (IH s1 HI' ND)].
          -- intros o s' [D [E [RV [HD HO]]]]. exists (r_id r :: D). cbn [sv_recs s1 change] in E. rewrite without_app in E. cbn [app] in E. split; [exact E|]. split; [exact RV|]. split.
             ++ intros id [<-|I]; [exists r; repeat split; [left; reflexivity|exact EI]|]. destruct (HD id I) as [x [A B0]]. exists x. split; [right; exact A|exact B0].
             ++ destruct o; [|exact HO|exact HO]. intros x [<-|I] EX2; [left; reflexivity|right; apply HO; assumption].
          -- intros x I. apply in_without. split; [apply IN; right; exact I|]. intros [E|[]]. apply NI. rewrite E. apply in_map. exact I.
        * destruct H as [F H]. destruct (BASE s' H) as [D HD]. exists D. tauto.
        * destruct (BASE s' H) as [D HD]. exists D. tauto.
      + eapply wp_mono; [|apply (IH s HI' ND); intros x I; apply IN; right; exact I].
        intros o s' [D [E [RV [HD HO]]]]. exists D. split; [exact E|]. split; [exact RV|]. split.
        * intros id I. destruct (HD id I) as [x [A B0]]. exists x. split; [right; exact A|exact B0].
        * destruct o; [|exact HO|exact HO]. intros x [<-|I] EX2; [|apply HO; assumption]. rewrite EI in EX2. injection EX2 as ->. rewrite eqb_reflx in EB. discriminate EB.
  Qed.

  (** Publication of a record: it is there with its file, or without, or not. *)
  Definition partly (s s' : server) (a : attrs) (file data : bytes) : Prop :=
    sv_reviews s' = sv_reviews s /\
    (sv_recs s' = sv_recs s \/ sv_recs s' = mkRecord (fresh (sv_recs s)) a None :: sv_recs s \/ sv_recs s' = mkRecord (fresh (sv_recs s)) a (Some (file, data)) :: sv_recs s).
  Lemma map_other id f (l : list frec) : ~ In id (map r_id l) -> map (fun r => if hasId id r then f r else r) l = l.
  Proof.
    induction l as [|r l IH]; intros N; [reflexivity|]. cbn [map] in *. unfold hasId at 1. destruct (beq id (r_id r)) eqn:E; [apply (proj1 (beq_eq _ _)) in E; subst id; exfalso; apply N; left; reflexivity|].
    f_equal. apply IH. intros I. apply N. right. exact I.
  Qed.
  Lemma without_other id l : ~ In id (map r_id l) -> without [id] l = l.
  Proof.
    intros N. apply filter_all. intros r I. apply negb_true_iff. destruct (memb (r_id r) [id]) eqn:E; [|reflexivity]. apply memb_in in E. destruct E as [E|[]]. exfalso. apply N. rewrite E. apply in_map. exact I.
  Qed.
  Lemma wp_publish a name file data (s : server) :
    wpp (publishRecord false a name file data) (fun o s' => partly s s' a file data /\
      match o with
      | Done id => id = fresh (sv_recs s) /\ sv_wip s' = true /\ sv_recs s' = mkRecord id a (Some (file, data)) :: sv_recs s
      | Raised _ => faulty
      | Died => True
      end) s.
  Proof.
    unfold wpp, publishRecord. apply wp_seq. set (id := fresh (sv_recs s)). set (s1 := change s (mkRecord id a None :: sv_recs s)).
    set (s2 := change s1 (mkRecord id a (Some (file, data)) :: sv_recs s)).
    assert (P0 : partly s s a file data) by (split; auto). assert (P1 : partly s s1 a file data) by (split; auto). assert (P2 : partly s s2 a file data) by (split; auto).
    eapply wp_mono; [|exact (wp_create a s)]. fold id. fold s1. intros o s' H. destruct o as [i|e|].
    - destruct H as [-> ->]. apply wp_seq. apply wp_catch.
      assert (HA : hasId id (mkRecord id a None) = true) by (unfold hasId; cbn [r_id]; apply beq_refl).
      assert (EX : exec fresh listing (CAttach id file data) s1 = (RDone, s2)).
      { cbn [exec]. rewrite (proj2 (existsb_id id (sv_recs s1))) by (left; reflexivity). f_equal. cbn [s1 change sv_recs map]. rewrite HA. cbn [r_id r_data]. rewrite (map_other id); [reflexivity|apply Fresh]. }
      assert (ND : forall t, sv_recs t = mkRecord id a None :: sv_recs s \/ sv_recs t = mkRecord id a (Some (file, data)) :: sv_recs s -> sv_reviews t = sv_reviews s ->
        wpp (seq (unitCall (CDelete id)) (fun _ => Raise EKinto)) (fun (o : outcome unit) s' => match o with Done _ => False | _ => partly s s' a file data end) t).
      { intros t Ht Rt. apply wp_seq. set (t1 := change t (sv_recs s)).
        assert (ED : exec fresh listing (CDelete id) t = (RDone, t1)).
        { cbn [exec]. rewrite (proj2 (existsb_id id (sv_recs t))) by (destruct Ht as [-> | ->]; left; reflexivity). f_equal. unfold t1. f_equal. rewrite without_one.
          assert (W : forall at0, without [id] (mkRecord id a at0 :: sv_recs s) = sv_recs s).
          { intros at0. unfold without. cbn [filter r_id]. rewrite (proj2 (memb_in id [id])) by (left; reflexivity). cbn [negb]. apply without_other. apply Fresh. }
          destruct Ht as [-> | ->]; apply W. }
        assert (PT : forall s', s' = t \/ s' = t1 -> partly s s' a file data).
        { intros s' [->| ->]; [split; [exact Rt|tauto]|]. split; [exact Rt|left; reflexivity]. }
        eapply wp_mono; [|exact (wp_unit _ _ _ ED)]. intros o s' H. destruct o as [[]|e|]; [subst s'; cbn; apply PT; auto|apply PT; tauto|apply PT; tauto]. }
      assert (D1 : wpp (seq (unitCall (CDelete id)) (fun _ => Raise EKinto)) (fun (o : outcome unit) s' => match o with Done _ => False | _ => partly s s' a file data end) s1) by (apply ND; [left; reflexivity|reflexivity]).
      assert (D2 : wpp (seq (unitCall (CDelete id)) (fun _ => Raise EKinto)) (fun (o : outcome unit) s' => match o with Done _ => False | _ => partly s s' a file data end) s2) by (apply ND; [right; reflexivity|reflexivity]).
      eapply wp_mono; [|exact (wp_unit _ _ _ EX)]. intros o s' H. destruct o as [[]|e|].
      + subst s'. cbn [wp]. split; [exact P2|auto].
      + destruct H as [F H]. destruct e.
        * assert (DW : wpp (seq (unitCall (CDelete id)) (fun _ => Raise EKinto)) (fun (o : outcome unit) s' => match o with Done _ => False | _ => partly s s' a file data end) s') by (destruct H as [-> | ->]; assumption).
          eapply wp_mono; [|exact DW]. intros [u|e|] s3 H3; [destruct H3|split; [exact H3|exact F]|split; [exact H3|exact I]].
        * split; [destruct H as [-> | ->]; assumption|exact F].
        * split; [destruct H as [-> | ->]; assumption|exact F].
      + split; [destruct H as [-> | ->]; assumption|exact I].
    - destruct H as [F H]. split; [destruct H as [-> | ->]; assumption|exact F].
    - split; [destruct H as [-> | ->]; assumption|exact I].
  Qed.
End Calls.
