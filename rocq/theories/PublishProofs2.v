(** * Sorting, the decision, and the state of a channel between calls *)
From Verif Require Import Base MerkleModel TimeModel TimeProofs IssuersModel FilterModel FilterProofs QueryModel TextProofs P_Query RemoteModel PublishModel P_RunIds PublishProofs IsoProofs.
From Coq Require Import Strings.Byte Sorting.Permutation Sorting.Sorted.

(** ** Sorting *)

Lemma bytesLtb_irrefl a : bytesLtb a a = false.
Proof. induction a as [|c a IH]; cbn [bytesLtb]; [reflexivity|]. rewrite N.ltb_irrefl. exact IH. Qed.
Lemma bytesLtb_asym : forall a b, bytesLtb a b = true -> bytesLtb b a = false.
Proof.
  induction a as [|c a IH]; intros [|d b]; cbn [bytesLtb]; try discriminate; auto.
  destruct (N.ltb_spec (to_N c) (to_N d)), (N.ltb_spec (to_N d) (to_N c)); try lia; try discriminate; auto.
Qed.
Lemma bytesLe_trans : forall a b c, bytesLtb b a = false -> bytesLtb c b = false -> bytesLtb c a = false.
Proof.
  induction a as [|x a IH]; intros [|y b] [|z c]; cbn [bytesLtb]; try discriminate; auto.
  destruct (N.ltb_spec (to_N y) (to_N x)), (N.ltb_spec (to_N x) (to_N y)), (N.ltb_spec (to_N z) (to_N y)), (N.ltb_spec (to_N y) (to_N z)),
    (N.ltb_spec (to_N z) (to_N x)), (N.ltb_spec (to_N x) (to_N z)); try lia; try discriminate; auto. intros; eapply IH; eassumption.
Qed.

Lemma sorted_perm_unique {A} (R : A -> A -> Prop) : forall l1 l2, StronglySorted R l1 -> StronglySorted R l2 -> Permutation l1 l2 ->
  (forall x y, In x l1 -> In y l1 -> R x y -> R y x -> x = y) -> l1 = l2.
Proof.
  induction l1 as [|a l1 IH]; intros l2 S1 S2 P U; [apply Permutation_nil in P; congruence|].
  destruct l2 as [|b l2]; [symmetry in P; apply Permutation_nil in P; discriminate P|].
  apply StronglySorted_inv in S1, S2. destruct S1 as [S1 F1], S2 as [S2 F2]. rewrite Forall_forall in F1, F2.
  assert (E : a = b).
  { assert (Ia : In a (b :: l2)) by (apply (Permutation_in _ P); left; reflexivity). assert (Ib : In b (a :: l1)) by (apply (Permutation_in _ (Permutation_sym P)); left; reflexivity).
    destruct Ia as [Ia|Ia]; [congruence|]. destruct Ib as [Ib|Ib]; [congruence|]. apply U; [left; reflexivity|right; exact Ib|apply F1; exact Ib|apply F2; exact Ia]. }
  subst b. f_equal. apply IH; [exact S1|exact S2|apply Permutation_cons_inv in P; exact P|]. intros x y Ix Iy. apply U; right; assumption.
Qed.

(** Sorting a rearrangement of a strictly sorted list gives that list. *)
Lemma sortBy_unique {A} (lt : A -> A -> bool) (P : A -> Prop) l m :
  (forall x y, P x -> P y -> lt x y = true -> lt y x = false) ->
  (forall x y z, P x -> P y -> P z -> lt y x = false -> lt z y = false -> lt z x = false) ->
  Forall P l -> StronglySorted (fun x y => lt x y = true) l -> Permutation m l -> sortBy lt m = l.
Proof.
  intros AS TR FP S PM. assert (FPm : Forall P m) by (apply (Permutation_Forall (Permutation_sym PM)); exact FP).
  symmetry. apply (sorted_perm_unique (fun x y => lt y x = false /\ P x /\ P y)).
  - clear PM FPm m. induction S as [|x l S IH F]; [constructor|]. apply Forall_cons_iff in FP. destruct FP as [Px FP]. constructor; [apply IH; exact FP|].
    rewrite Forall_forall in *. intros y Iy. split; [apply AS; auto|auto].
  - apply (sortBy_sorted lt P).
    + intros x y Px Py E. auto.
    + intros x y Px Py E. auto.
    + intros x y z Px Py Pz [E1 _] [E2 _]. split; [apply (TR x y z); assumption|auto].
    + exact FPm.
  - etransitivity; [apply Permutation_sym; exact PM|apply Permutation_sym; apply sortBy_perm].
  - clear -S. intros x y Ix Iy [E1 _] [E2 _]. induction S as [|z l S IH F]; [destruct Ix|]. rewrite Forall_forall in F.
    destruct Ix as [->|Ix], Iy as [->|Iy]; [reflexivity| | |apply IH; assumption].
    + specialize (F y Iy). cbn beta in F. congruence.
    + specialize (F x Ix). cbn beta in F. congruence.
Qed.

(** ** Runs *)

(** Earlier run, by date and then by number. *)
Definition before (a b : bytes) : Prop :=
  exists d n d' n', runId a d n /\ runId b d' n' /\ (valueOf d < valueOf d' \/ valueOf d = valueOf d' /\ n < n')%N.

Lemma runParts_runId r d n : runId r d n -> runParts r = Some (valueOf d, n).
Proof.
  intros H. destruct (runId_split r d n H) as [ds [E [_ [V _]]]]. unfold runParts. rewrite E, V. destruct (dateFacts _ _ _ H) as [L D].
  unfold pyInt. destruct d as [|c d]; [discriminate L|]. rewrite (proj2 (dec_value (c :: d) 0 (valueOf (c :: d)))); [reflexivity|]. split; [exact D|reflexivity].
Qed.
Definition isRun (r : bytes) : Prop := exists d n, runId r d n.
Lemma before_irrefl a : ~ before a a.
Proof. intros [d [n [d' [n' [H [H' L]]]]]]. destruct (runId_fun _ _ _ _ _ H H') as [<- <-]. lia. Qed.
Lemma before_trans a b c : before a b -> before b c -> before a c.
Proof.
  intros [d [n [d' [n' [H [H' L]]]]]] [e [m [e' [m' [G [G' M]]]]]]. destruct (runId_fun _ _ _ _ _ H' G) as [<- <-]. exists d, n, e', m'. repeat split; auto. lia.
Qed.
Lemma before_asym a b : before a b -> ~ before b a.
Proof. intros H G. exact (before_irrefl a (before_trans _ _ _ H G)). Qed.
Lemma runLtb_before a b : isRun a -> isRun b -> (runLtb a b = true <-> before a b).
Proof.
  intros [d [n H]] [d' [n' H']]. unfold runLtb. rewrite (runParts_runId _ _ _ H), (runParts_runId _ _ _ H').
  rewrite orb_true_iff, andb_true_iff, !N.ltb_lt, N.eqb_eq. split.
  - intros L. exists d, n, d', n'. auto.
  - intros [e [m [e' [m' [G [G' L]]]]]]. destruct (runId_fun _ _ _ _ _ H G) as [<- <-]. destruct (runId_fun _ _ _ _ _ H' G') as [<- <-]. exact L.
Qed.
Lemma before_isRun a b : before a b -> isRun a /\ isRun b.
Proof. intros [d [n [d' [n' [H [H' _]]]]]]. split; [exists d, n|exists d', n']; assumption. Qed.

(** [r] is at or before [cut], as the code tests it. *)
Lemma notAfter_before r cut d n : isRun r -> runId cut d n ->
  (match runParts r with Some p => notAfter (valueOf d, n) p | None => false end = false <-> before cut r).
Proof.
  intros [e [m H]] C. rewrite (runParts_runId _ _ _ H). unfold notAfter. cbn [fst snd]. split.
  - intros X. exists d, n, e, m. repeat split; auto. apply orb_false_iff in X. destruct X as [X1 X2]. apply N.ltb_ge in X1.
    destruct (N.eqb_spec (valueOf e) (valueOf d)) as [E|E]; [|lia]. cbn [andb] in X2. apply N.leb_gt in X2. lia.
  - intros [e1 [m1 [e2 [m2 [G [G' L]]]]]]. destruct (runId_fun _ _ _ _ _ C G) as [<- <-]. destruct (runId_fun _ _ _ _ _ H G') as [<- <-].
    apply orb_false_iff. rewrite andb_false_iff, N.ltb_ge, N.eqb_neq, N.leb_gt. lia.
Qed.

(** ** The decision *)

Lemma allSome_spec {A} : forall (l : list (option A)) r, allSome l = Some r <-> l = map Some r.
Proof.
  induction l as [|x l IH]; intros r; cbn [allSome].
  - split; [intros H; injection H as <-; reflexivity|]. intros H. destruct r; [reflexivity|discriminate H].
  - destruct x as [a|]; [|split; [discriminate|]; intros H; destruct r; discriminate H]. destruct (allSome l) as [r'|] eqn:E.
    + split.
      * intros H. injection H as <-. cbn [map]. f_equal. apply IH. reflexivity.
      * intros H. destruct r as [|b r]; [discriminate H|]. cbn [map] in H. injection H as -> H. apply IH in H. injection H as ->. reflexivity.
    + split; [discriminate|]. intros H. destruct r as [|b r]; [discriminate H|]. cbn [map] in H. injection H as -> H. apply IH in H. discriminate H.
Qed.

Lemma inOrder_spec : forall ts, inOrder ts = true <-> StronglySorted Z.le ts.
Proof.
  induction ts as [|x ts IH]; cbn [inOrder]; [split; [constructor|reflexivity]|]. destruct ts as [|y ts].
  - split; [intros _; constructor; constructor|reflexivity].
  - rewrite andb_true_iff, IH, negb_true_iff, Z.ltb_ge. split.
    + intros [L S]. constructor; [exact S|]. apply StronglySorted_inv in S. destruct S as [S F]. constructor; [exact L|]. eapply Forall_impl; [|exact F]. cbn. intros z Hz. lia.
    + intros S. apply StronglySorted_inv in S. destruct S as [S F]. apply Forall_cons_iff in F. tauto.
Qed.

Lemma minText_in l m : minText l = Some m -> In m l.
Proof.
  destruct l as [|x l]; [discriminate|]. cbn [minText]. intros H. injection H as <-.
  assert (G : forall l x, fold_left (fun m y => if bytesLtb y m then y else m) l x = x \/ In (fold_left (fun m y => if bytesLtb y m then y else m) l x) l).
  { induction l0 as [|y l0 IH]; intros z; cbn [fold_left]; [auto|]. destruct (IH (if bytesLtb y z then y else z)) as [E|E]; [|right; right; exact E].
    rewrite E. destruct (bytesLtb y z); [right; left; reflexivity|auto]. }
  destruct (G l x) as [E|E]; [left; symmetry; exact E|right; exact E].
Qed.

Lemma memb_forall l m : forallb (fun r => memb r m) l = true <-> forall r, In r l -> In r m.
Proof.
  rewrite forallb_forall. split; intros H r I; [apply memb_in; apply H; exact I|apply memb_in; apply H; exact I].
Qed.

(** What an answer "incremental" means. *)
Lemma determine_incremental b ch records up : (forall r, In r (b_ids b) -> isRun r) -> determine b ch records = Val (mkTasks false up) ->
  exists new runs cut t0 t1, lastOf (b_ids b) = Some new /\ records <> [] /\ verifyRecords ch records = Val tt /\
    map runOfRecord records = map Some runs /\ lastOf runs = Some cut /\
    (forall r, In r runs -> In r (b_ids b) /\ ~ before cut r) /\
    up = sortBy runLtb (filter (fun r => negb (match runParts r with Some p => match runParts cut with Some c => notAfter c p | None => false end | None => false end)) (b_ids b)) /\
    (forall r, In r up <-> In r (b_ids b) /\ before cut r) /\ StronglySorted (fun a b => ~ before b a) up /\
    (forall r, In r up -> b_ready b r = true /\ b_valid b r (c_dir ch) = true) /\
    (exists ts, map (b_time b) up = map Some ts /\ StronglySorted Z.le ts) /\
    option_map (b_time b) (minText runs) = Some (Some t0) /\ b_time b new = Some t1 /\ (t1 - t0 < c_days ch * 86400)%Z.
Proof.
  intros WR. unfold determine. destruct (lastOf (b_ids b)) as [new|] eqn:EN; [|discriminate].
  destruct records as [|rec0 recs0] eqn:ER; [discriminate|]. rewrite <- ER in *. assert (NE : records <> []) by (rewrite ER; discriminate). clear ER rec0 recs0.
  destruct (verifyRecords ch records) as [u|e] eqn:EV; [|destruct e; discriminate]. destruct u.
  destruct (allSome (map runOfRecord records)) as [runs|] eqn:ES; [|discriminate]. apply (proj1 (allSome_spec _ _)) in ES.
  destruct (lastOf runs) as [cut|] eqn:EC; [|discriminate]. cbn [option_map]. destruct (runParts cut) as [c|] eqn:PC; [|discriminate].
  destruct (allSome (map runParts (b_ids b))) as [ps|] eqn:EP; [|discriminate].
  set (old := fun r => match runParts r with Some p => notAfter c p | None => false end).
  destruct (forallb (fun r => memb r (filter old (b_ids b))) runs) eqn:EM; [|discriminate]. cbn [negb].
  pose proof (proj1 (memb_forall _ _) EM) as MM.
  assert (CUT : In cut (b_ids b)).
  { assert (I : In cut runs) by (apply (proj1 (lastOf_some _ _)) in EC; destruct EC as [l' ->]; apply in_or_app; right; left; reflexivity).
    apply MM in I. apply filter_In in I. tauto. }
  destruct (WR cut CUT) as [d [n RC]]. rewrite (runParts_runId _ _ _ RC) in PC. injection PC as <-.
  assert (OLD : forall r, In r (b_ids b) -> (old r = false <-> before cut r)) by (intros r I; apply (notAfter_before r cut d n (WR r I) RC)).
  cbv zeta. unfold verifyRuns. cbv zeta.
  change (filter (fun r => negb match runParts r with Some p => notAfter (valueOf d, n) p | None => false end) (b_ids b)) with (filter (fun r => negb (old r)) (b_ids b)).
  destruct (forallb (b_ready b) (filter (fun r => negb (old r)) (b_ids b))) eqn:RD; cbn [negb]; [|discriminate].
  destruct (forallb (fun r => b_valid b r (c_dir ch)) (filter (fun r => negb (old r)) (b_ids b))) eqn:VL; cbn [negb]; [|discriminate].
  set (sorted := sortBy runLtb (filter (fun r => negb (old r)) (b_ids b))). destruct (allSome (map (b_time b) sorted)) as [ts|] eqn:TS; [|discriminate].
  destruct (inOrder ts) eqn:IO; [|discriminate]. destruct (option_map (b_time b) (minText runs)) as [[t0|]|] eqn:T0; try discriminate.
  destruct (b_time b new) as [t1|] eqn:T1; [|discriminate]. destruct (Z.leb_spec (c_days ch * 86400) (t1 - t0)) as [AG|AG]; [discriminate|].
  intros H. injection H as <-. exists new, runs, cut, t0, t1.
  assert (INS : forall r, In r sorted <-> In r (b_ids b) /\ before cut r).
  { intros r. unfold sorted. split.
    - intros I. apply (Permutation_in _ (sortBy_perm _ _)) in I. apply filter_In in I. destruct I as [I O]. split; [exact I|]. apply OLD; [exact I|]. destruct (old r); [discriminate O|reflexivity].
    - intros [I O]. apply (Permutation_in _ (Permutation_sym (sortBy_perm _ _))). apply filter_In. split; [exact I|]. apply (OLD r I) in O. rewrite O. reflexivity. }
  split; [reflexivity|]. split; [exact NE|]. split; [reflexivity|]. split; [exact ES|]. split; [exact EC|]. split; [|split; [|split; [exact INS|split; [|split; [|split; [|auto]]]]]].
  - intros r I. apply MM in I. apply filter_In in I. destruct I as [I O]. split; [exact I|]. intros X. apply (OLD r I) in X. congruence.
  - unfold sorted, old. rewrite (runParts_runId _ _ _ RC). reflexivity.
  - apply (sortBy_sorted runLtb isRun).
    + intros x y Hx Hy E. apply (runLtb_before x y Hx Hy) in E. apply before_asym. exact E.
    + intros x y Hx Hy E X. apply (runLtb_before x y Hx Hy) in X. congruence.
    + intros x y z [d1 [n1 H1]] [d2 [n2 H2]] [d3 [n3 H3]] A B0 X. destruct X as [e [m [e' [m' [G [G' L]]]]]].
      destruct (runId_fun _ _ _ _ _ H3 G) as [<- <-]. destruct (runId_fun _ _ _ _ _ H1 G') as [<- <-].
      assert (A' : ~ (valueOf d2 < valueOf d1 \/ valueOf d2 = valueOf d1 /\ n2 < n1)%N) by (intros Z; apply A; exists d2, n2, d1, n1; auto).
      assert (B' : ~ (valueOf d3 < valueOf d2 \/ valueOf d3 = valueOf d2 /\ n3 < n2)%N) by (intros Z; apply B0; exists d3, n3, d2, n2; auto). lia.
    + apply Forall_forall. intros r I. apply filter_In in I. apply WR. tauto.
  - intros r I. apply (Permutation_in _ (sortBy_perm _ _)) in I. rewrite forallb_forall in RD, VL. split; [apply RD; exact I|apply VL; exact I].
  - exists ts. split; [apply (proj1 (allSome_spec _ _)); exact TS|apply inOrder_spec; exact IO].
Qed.

Lemma determine_full b ch records up : determine b ch records = Val (mkTasks true up) -> exists new, lastOf (b_ids b) = Some new /\ up = [new].
Proof.
  unfold determine. destruct (lastOf (b_ids b)) as [new|]; [|discriminate]. intros H. exists new. split; [reflexivity|].
  assert (G : forall x, Val (mkTasks true [new]) = Val (mkTasks true x) -> x = [new]) by (intros x E; injection E as <-; reflexivity).
  destruct records; [apply G; exact H|]. destruct (verifyRecords ch (f :: records)) as [u|[]]; try discriminate H; [|apply G; exact H].
  destruct (allSome (map runOfRecord (f :: records))) as [runs|]; [|discriminate H]. destruct (option_map runParts (lastOf runs)) as [[cut|]|]; try discriminate H.
  destruct (allSome (map runParts (b_ids b))); [|discriminate H].
  match type of H with (if negb ?c then _ else _) = _ => destruct c end; cbn [negb] in H; [|apply G; exact H].
  match type of H with match ?c with _ => _ end = _ => destruct c as [u1|[]] end; try discriminate H; [|apply G; exact H].
  destruct (option_map (b_time b) (minText runs)) as [[t0|]|]; try discriminate H. destruct (b_time b new) as [t1|]; [|discriminate H].
  destruct (c_days ch * 86400 <=? t1 - t0)%Z; [apply G; exact H|discriminate H].
Qed.

(** ** File names *)

