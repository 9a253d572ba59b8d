(** * Facts about the publisher model used in P_Publish.v *)
From Verif Require Import Base MerkleModel TimeModel TimeProofs IssuersModel FilterModel FilterProofs QueryModel TextProofs P_Query RemoteModel PublishModel P_RunIds.
From Coq Require Import Strings.Byte Sorting.Permutation Sorting.Sorted.

(** ** Chains of records
    A full filter, then deltas, each with the record before it as its parent. *)
Fixpoint linkedTo (p : bytes) (l : list frec) : Prop :=
  match l with
  | [] => True
  | r :: l' => a_inc (r_data r) = Some true /\ a_parent (r_data r) = Some p /\ linkedTo (r_id r) l'
  end.
Definition chain (l : list frec) : Prop :=
  match l with
  | [] => False
  | r :: l' => a_inc (r_data r) = Some false /\ linkedTo (r_id r) l'
  end.

Lemma linked_snoc : forall l p r x, linkedTo p l -> a_inc (r_data r) = Some true -> a_parent (r_data r) = Some x ->
  (match lastOf l with Some y => r_id y | None => p end) = x -> linkedTo p (l ++ [r]).
Proof.
  induction l as [|y l IH]; intros p r x H I P L; cbn [app linkedTo lastOf] in *.
  - subst. auto.
  - destruct H as [H1 [H2 H3]]. split; [exact H1|]. split; [exact H2|]. apply (IH (r_id y) r x H3 I P). destruct l as [|f l]; [exact L|].
    destruct (lastOf (f :: l)) eqn:E; [exact L|]. apply (proj1 (lastOf_none _)) in E. discriminate E.
Qed.
Lemma chain_snoc l r y : chain l -> lastOf l = Some y -> a_inc (r_data r) = Some true -> a_parent (r_data r) = Some (r_id y) -> chain (l ++ [r]).
Proof.
  destruct l as [|f l]; [intros []|]. intros [C1 C2] L I P. cbn [app chain]. split; [exact C1|]. apply (linked_snoc l (r_id f) r (r_id y) C2 I P).
  cbn [lastOf] in L. destruct l as [|z l]; [injection L as ->; reflexivity|]. rewrite L. reflexivity.
Qed.
Lemma linked_app : forall l1 p l2, linkedTo p (l1 ++ l2) -> linkedTo p l1 /\ linkedTo (match lastOf l1 with Some y => r_id y | None => p end) l2.
Proof.
  induction l1 as [|y l1 IH]; intros p l2 H; cbn [app linkedTo] in *; [auto|]. destruct H as [H1 [H2 H3]]. destruct (IH _ _ H3) as [A B0].
  split; [auto|]. cbn [lastOf]. destruct l1 as [|f l1]; [exact B0|].
  destruct (lastOf (f :: l1)) eqn:E; [exact B0|]. apply (proj1 (lastOf_none _)) in E. discriminate E.
Qed.
(** A prefix of a chain is a chain, and what follows is linked to its end. *)
Lemma chain_app l1 y r l2 : chain (l1 ++ y :: r :: l2) -> chain (l1 ++ [y]) /\ a_inc (r_data r) = Some true /\ a_parent (r_data r) = Some (r_id y).
Proof.
  destruct l1 as [|f l1]; cbn [app chain].
  - intros [A [B0 [C _]]]. repeat split; auto.
  - intros [A B0]. replace (l1 ++ y :: r :: l2) with ((l1 ++ [y]) ++ r :: l2) in B0 by (rewrite <- app_assoc; reflexivity).
    apply (proj1 (iff_refl _)) in B0. destruct (linked_app _ _ _ B0) as [C D]. rewrite lastOf_app in D. cbn [linkedTo] in D. tauto.
Qed.

Lemma byId_some rs p r : byId rs p = Some r -> In r rs /\ r_id r = p.
Proof. unfold byId. intros H. apply find_some in H. destruct H as [I E]. apply in_rev in I. apply beq_eq in E. auto. Qed.
Lemma byId_nodup rs r : NoDup (map r_id rs) -> In r rs -> byId rs (r_id r) = Some r.
Proof.
  intros ND I. unfold byId. match goal with |- context [find ?f ?l] => destruct (find f l) as [x|] eqn:E end.
  - apply find_some in E. destruct E as [Ix E]. apply in_rev in Ix. apply beq_eq in E. f_equal.
    clear -ND I Ix E. induction rs as [|z rs IH]; [destruct I|]. cbn [map] in ND. apply NoDup_cons_iff in ND. destruct ND as [N ND].
    destruct I as [->|I], Ix as [->|Ix]; [reflexivity| | |apply IH; assumption].
    + exfalso. apply N. rewrite E. apply in_map. exact Ix.
    + exfalso. apply N. rewrite <- E. apply in_map. exact I.
  - exfalso. apply in_rev in I. pose proof (find_none _ _ E r I) as X. cbn beta in X. rewrite beq_refl in X. discriminate X.
Qed.

Lemma climb_det rs : forall k p h k' h', climb rs k p = Val h -> climb rs k' p = Val h' -> h = h'.
Proof.
  induction k as [|k IH]; intros p h k' h' H H'; destruct k'; cbn [climb] in H, H'; destruct (byId rs p) as [r|]; try discriminate H;
    destruct (a_inc (r_data r)) as [[]|]; try discriminate H; try congruence; destruct (a_parent (r_data r)) as [q|]; try discriminate H;
    destruct (byId rs q); try discriminate H; try discriminate H'.
  destruct (climb rs k q) as [x|] eqn:E; [|discriminate H]. destruct (climb rs k' q) as [x'|] eqn:E'; [|discriminate H']. cbn [pbind] in *.
  rewrite <- (IH q x k' x' E E') in H'. congruence.
Qed.

Lemma climb_path rs : forall k p h, climb rs k p = Val h -> exists l y, chain l /\ length l = S h /\ lastOf l = Some y /\ r_id y = p /\ NoDup (map r_id l) /\
  (forall x, In x l -> byId rs (r_id x) = Some x) /\ (forall x, In x l -> exists k' h', climb rs k' (r_id x) = Val h' /\ (h' <= h)%nat).
Proof.
  assert (BASE : forall k p h r, byId rs p = Some r -> a_inc (r_data r) = Some false -> climb rs k p = Val h -> exists l y, chain l /\ length l = S h /\ lastOf l = Some y /\ r_id y = p /\ NoDup (map r_id l) /\
    (forall x, In x l -> byId rs (r_id x) = Some x) /\ (forall x, In x l -> exists k' h', climb rs k' (r_id x) = Val h' /\ (h' <= h)%nat)).
  { intros k p h r R I H. assert (E : h = 0%nat) by (destruct k; cbn [climb] in H; rewrite R, I in H; congruence). subst h.
    exists [r], r. destruct (byId_some _ _ _ R) as [_ E]. split; [cbn; auto|]. split; [reflexivity|]. split; [reflexivity|]. split; [exact E|]. split; [constructor; [intros []|constructor]|].
    split; intros x [<-|[]]; rewrite E; [exact R|]. exists k, 0%nat. auto. }
  induction k as [|k IH]; intros p h H; pose proof H as H0; cbn [climb] in H; destruct (byId rs p) as [r|] eqn:R; try discriminate H;
    destruct (a_inc (r_data r)) as [[]|] eqn:I; try discriminate H; try (eapply BASE; eassumption).
  - destruct (a_parent (r_data r)) as [q|]; [|discriminate H]. destruct (byId rs q); discriminate H.
  - destruct (a_parent (r_data r)) as [q|] eqn:P; [|discriminate H]. destruct (byId rs q) eqn:Q; [|discriminate H].
    destruct (climb rs k q) as [h'|] eqn:E; [|discriminate H]. cbn [pbind] in H. injection H as <-.
    destruct (IH q h' E) as [l [y [C [L [LY [EY [ND [BY HT]]]]]]]]. destruct (byId_some _ _ _ R) as [_ ER].
    exists (l ++ [r]), r. split; [apply (chain_snoc l r y C LY I); congruence|]. split; [rewrite app_length, L; cbn; lia|]. split; [apply lastOf_app|]. split; [exact ER|].
    split.
    + rewrite map_app. apply (Permutation_NoDup (Permutation_cons_append _ _)). constructor; [|exact ND]. intros X. apply in_map_iff in X.
      destruct X as [x [EX IX]]. destruct (HT x IX) as [k' [h'' [CL LE]]]. rewrite EX, ER in CL. pose proof (climb_det rs _ _ _ _ _ H0 CL). lia.
    + split; intros x IX; apply in_app_or in IX; destruct IX as [IX|[<-|[]]].
      * apply BY; exact IX.
      * rewrite ER. exact R.
      * destruct (HT x IX) as [k' [h'' [CL LE]]]. exists k', h''. split; [exact CL|lia].
      * exists (S k), (S h'). rewrite ER. auto.
Qed.

Lemma heights_val rs : forall l m m', heights rs l m = Val m' -> (m <= m')%nat /\ (forall r, In r l -> exists h, climb rs (length rs) (r_id r) = Val h /\ (h <= m')%nat) /\
  (m' = m \/ exists r, In r l /\ climb rs (length rs) (r_id r) = Val m').
Proof.
  induction l as [|r l IH]; intros m m' H; cbn [heights] in H.
  - injection H as <-. split; [lia|]. split; [intros r []|auto].
  - destruct (climb rs (length rs) (r_id r)) as [h|] eqn:E; [|discriminate H]. cbn [pbind] in H. destruct (IH _ _ H) as [A [B0 C]].
    split; [lia|]. split.
    + intros x [<-|I]; [exists h; split; [exact E|lia]|apply B0; exact I].
    + destruct C as [C|[x [I C]]]; [|right; exists x; split; [right; exact I|exact C]].
      destruct (Nat.max_spec h m) as [[_ M]|[_ M]]; [left; congruence|]. right. exists r. split; [left; reflexivity|]. rewrite E. congruence.
Qed.
Lemma heights_ok rs : forall l m b, (forall r, In r l -> exists h, climb rs (length rs) (r_id r) = Val h /\ (h <= b)%nat) -> (m <= b)%nat ->
  exists m', heights rs l m = Val m' /\ (m' <= b)%nat.
Proof.
  induction l as [|r l IH]; intros m b H M; cbn [heights]; [eauto|]. destruct (H r (or_introl eq_refl)) as [h [E L]]. rewrite E. cbn [pbind].
  apply IH; [intros x I; apply H; right; exact I|lia].
Qed.

(** In a chain the climb from a record is its distance from the full filter. *)
Lemma climb_chain rs : NoDup (map r_id rs) -> forall l1 r l2 k, chain (l1 ++ r :: l2) -> incl (l1 ++ r :: l2) rs -> (length l1 <= k)%nat ->
  climb rs k (r_id r) = Val (length l1).
Proof.
  intros ND l1. induction l1 as [|y l1 IH] using rev_ind; intros r l2 k C I L.
  - cbn [app chain] in C. destruct C as [C _]. assert (E : byId rs (r_id r) = Some r) by (apply byId_nodup; [exact ND|apply I; left; reflexivity]).
    destruct k; cbn [climb]; rewrite E, C; reflexivity.
  - rewrite <- app_assoc in C, I. cbn [app] in C, I. destruct (chain_app _ _ _ _ C) as [C1 [IR PR]].
    rewrite app_length in L |- *. cbn [length] in L |- *. destruct k as [|k]; [lia|]. cbn [climb].
    rewrite (byId_nodup rs r ND) by (apply I; apply in_or_app; right; right; left; reflexivity). rewrite IR, PR.
    rewrite (byId_nodup rs y ND) by (apply I; apply in_or_app; right; left; reflexivity).
    rewrite (IH y [] k C1); [cbn [pbind]; f_equal; lia| |lia].
    intros x Ix. apply I. apply in_app_or in Ix. destruct Ix as [Ix|[<-|[]]]; apply in_or_app; [left; exact Ix|right; left; reflexivity].
Qed.

Lemma perm_filter {A} (f : A -> bool) l l' : Permutation l l' -> Permutation (filter f l) (filter f l').
Proof.
  induction 1; cbn [filter]; [constructor|destruct (f x); [constructor; assumption|assumption]| |etransitivity; eassumption].
  destruct (f x), (f y); try reflexivity. constructor.
Qed.

Lemma chain_wf l : chain l -> (forall r, In r l -> exists b, a_inc (r_data r) = Some b /\ (b = true -> a_parent (r_data r) <> None)) /\ length (filter isFull l) = 1%nat.
Proof.
  destruct l as [|f l]; [intros []|]. intros [C1 C2].
  assert (G : forall l p, linkedTo p l -> (forall r, In r l -> a_inc (r_data r) = Some true /\ a_parent (r_data r) <> None) /\ filter isFull l = []).
  { induction l0 as [|r l0 IH]; intros p H; cbn [linkedTo] in H; [split; [intros r []|reflexivity]|]. destruct H as [H1 [H2 H3]]. destruct (IH _ H3) as [A B0]. split.
    - intros x [<-|I]; [split; [exact H1|congruence]|apply A; exact I].
    - cbn [filter]. unfold isFull at 1. rewrite H1. exact B0. }
  destruct (G _ _ C2) as [A B0]. split.
  - intros r [<-|I]; [exists false; split; [exact C1|discriminate]|exists true; destruct (A r I); auto].
  - cbn [filter]. unfold isFull at 1. rewrite C1. cbn [negb length]. rewrite B0. reflexivity.
Qed.

Lemma verify_accepts ch records : let rs := filter (inChannel ch) records in
  verifyRecords ch records = Val tt <->
  rs = [] \/ exists l, Permutation l rs /\ chain l /\ NoDup (map r_id l) /\ forall r, In r l -> r_att r <> None.
Proof.
  intros rs. unfold verifyRecords. fold rs. destruct rs as [|r0 rs0] eqn:E; [split; auto|]. assert (NE : rs <> []) by (rewrite E; discriminate). rewrite <- E in *. clear E r0 rs0. split.
  - destruct (forallb wellFormed rs) eqn:W; [|discriminate]. cbn [negb]. destruct (length (filter isFull rs) =? 1)%nat eqn:F; [|discriminate]. cbn [negb].
    destruct (heights rs rs 0) as [m|] eqn:H; [|discriminate]. cbn [pbind]. destruct (Nat.eqb_spec m (length rs - 1)) as [M|M]; [|discriminate]. intros _. right.
    apply Nat.eqb_eq in F. assert (L : (0 < length rs)%nat) by (destruct rs; [discriminate F|cbn; lia]).
    destruct (heights_val _ _ _ _ H) as [_ [HA HB]].
    assert (X : exists r, In r rs /\ climb rs (length rs) (r_id r) = Val m).
    { destruct HB as [HB|HB]; [|exact HB]. destruct rs as [|r rs0]; [cbn in L; lia|]. exists r. split; [left; reflexivity|].
      destruct (HA r (or_introl eq_refl)) as [h [CL LE]]. rewrite CL. f_equal. lia. }
    destruct X as [r [_ CL]]. destruct (climb_path _ _ _ _ CL) as [l [y [C [LL [_ [_ [ND [BY _]]]]]]]].
    assert (IN : incl l rs) by (intros x Ix; apply BY in Ix; apply byId_some in Ix; tauto).
    exists l. split; [|split; [exact C|split; [exact ND|]]].
    + apply NoDup_Permutation_bis; [apply (NoDup_map_inv _ _ ND)|lia|exact IN].
    + intros x Ix. apply IN in Ix. rewrite forallb_forall in W. specialize (W x Ix). unfold wellFormed in W. destruct (a_inc (r_data x)); [|discriminate W]. destruct (r_att x); [discriminate|discriminate W].
  - intros [X|[l [P [C [ND AT]]]]]; [contradiction|]. destruct (chain_wf l C) as [WF FU].
    assert (W : forallb wellFormed rs = true).
    { apply forallb_forall. intros r I. apply (Permutation_in _ (Permutation_sym P)) in I. destruct (WF r I) as [b [Eb Hb]]. unfold wellFormed. rewrite Eb.
      destruct (r_att r) eqn:A; [|exfalso; exact (AT r I A)]. destruct b; [|reflexivity]. destruct (a_parent (r_data r)); [reflexivity|exfalso; apply Hb; reflexivity]. }
    rewrite W. cbn [negb]. rewrite <- (Permutation_length (perm_filter isFull _ _ P)), FU. cbn [Nat.eqb negb].
    assert (NDr : NoDup (map r_id rs)) by (apply (Permutation_NoDup (Permutation_map r_id P)); exact ND).
    assert (IN : incl l rs) by (intros x; apply (Permutation_in _ P)).
    assert (CL : forall l1 r l2, l = l1 ++ r :: l2 -> climb rs (length rs) (r_id r) = Val (length l1)).
    { intros l1 r l2 ->. apply (climb_chain rs NDr l1 r l2); [exact C|exact IN|]. rewrite <- (Permutation_length P), app_length. lia. }
    destruct (heights_ok rs rs 0 (length rs - 1)) as [m [Hm Lm]]; [|lia|].
    + intros r I. apply (Permutation_in _ (Permutation_sym P)) in I. apply in_split in I. destruct I as [l1 [l2 EL]]. exists (length l1). split; [apply (CL l1 r l2 EL)|].
      rewrite <- (Permutation_length P), EL, app_length. cbn [length]. lia.
    + rewrite Hm. cbn [pbind]. destruct l as [|z l _] using rev_ind; [destruct C|]. pose proof (CL l z [] eq_refl) as CZ.
      assert (Iz : In z rs) by (apply IN; apply in_or_app; right; left; reflexivity).
      destruct (heights_val _ _ _ _ Hm) as [_ [HA _]]. destruct (HA z Iz) as [h [Ez Lz]]. rewrite CZ in Ez. injection Ez as <-.
      pose proof (Permutation_length P) as PL. rewrite app_length in PL. cbn [length] in PL. destruct (Nat.eqb_spec m (length rs - 1)); [reflexivity|lia].
Qed.

(** A result other than acceptance is the consistency exception, unless a record
    has no kind. *)
Lemma verify_rejects ch records : (forall r, In r records -> a_inc (r_data r) <> None) ->
  verifyRecords ch records = Val tt \/ verifyRecords ch records = Exc EConsistency.
Proof.
  intros K. unfold verifyRecords. set (rs := filter (inChannel ch) records). assert (KS : forall r, In r rs -> a_inc (r_data r) <> None) by (intros r I; apply K; apply filter_In in I; tauto).
  destruct rs as [|r0 rs0] eqn:E; [auto|]. rewrite <- E in *. clear E r0 rs0. destruct (forallb wellFormed rs) eqn:W; [|auto]. cbn [negb].
  destruct (length (filter isFull rs) =? 1)%nat; [|auto]. cbn [negb]. rewrite forallb_forall in W.
  assert (CK : forall k p, (exists r, byId rs p = Some r) -> (exists h, climb rs k p = Val h) \/ climb rs k p = Exc EConsistency).
  { induction k as [|k IH]; intros p [r R]; cbn [climb]; rewrite R; destruct (byId_some _ _ _ R) as [I _]; specialize (W r I); unfold wellFormed in W;
      destruct (a_inc (r_data r)) as [[]|]; try discriminate W; eauto; destruct (r_att r); try discriminate W; destruct (a_parent (r_data r)) as [q|]; try discriminate W;
      destruct (byId rs q) as [x|] eqn:Q; auto. destruct (IH q (ex_intro _ x Q)) as [[h ->]| ->]; cbn [pbind]; eauto. }
  assert (HK : forall l m, incl l rs -> (exists m', heights rs l m = Val m') \/ heights rs l m = Exc EConsistency).
  { induction l as [|r l IH]; intros m I; cbn [heights]; [eauto|].
    assert (X : exists x, byId rs (r_id r) = Some x).
    { unfold byId. match goal with |- context [find ?f ?l] => destruct (find f l) as [x|] eqn:E end; [eauto|]. exfalso. assert (Ir : In r (rev rs)) by (apply (proj1 (in_rev _ _)); apply I; left; reflexivity).
      pose proof (find_none _ _ E r Ir) as Y. cbn beta in Y. rewrite beq_refl in Y. discriminate Y. }
    destruct (CK (length rs) (r_id r) X) as [[h ->]| ->]; cbn [pbind]; [|auto]. apply IH. intros y Iy. apply I. right. exact Iy. }
  destruct (HK rs 0%nat (fun x i => i)) as [[m ->]| ->]; cbn [pbind]; [|auto]. destruct (m =? length rs - 1)%nat; auto.
Qed.
