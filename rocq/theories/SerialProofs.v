(** * Facts about cache entries, cutoffs, serial lists and serial list files *)
From Verif Require Import Base MerkleModel SerialModel.
From Coq Require Import Strings.Byte Sorting.Sorted Sorting.Permutation.

(** ** Bytes and numbers *)
Lemma to_N_byteOf n : Byte.to_N (byteOf n) = (n mod 256)%N.
Proof.
  unfold byteOf. destruct (Byte.of_N (n mod 256)) as [b|] eqn:E.
  - apply Byte.to_of_N. exact E.
  - apply Byte.of_N_None_iff in E. lia.
Qed.

Lemma byteOf_to_N b : byteOf (Byte.to_N b) = b.
Proof. destruct b; vm_compute; reflexivity. Qed.

Lemma to_N_lt b : (Byte.to_N b < 256)%N.
Proof. pose proof (Byte.to_N_bounded b). lia. Qed.

Lemma to_N_inj a b : Byte.to_N a = Byte.to_N b -> a = b.
Proof. intros E. rewrite <- (byteOf_to_N a), <- (byteOf_to_N b), E. reflexivity. Qed.

Lemma putLE_length k n : length (putLE k n) = k.
Proof. revert n; induction k; intros n; cbn [putLE length]; [reflexivity|]. rewrite IHk. reflexivity. Qed.

Lemma getLE_putLE k : forall n, getLE (putLE k n) = (n mod 256 ^ N.of_nat k)%N.
Proof.
  induction k as [|k IH]; intros n; cbn [putLE getLE].
  - change (256 ^ N.of_nat 0)%N with 1%N. rewrite N.mod_1_r. reflexivity.
  - rewrite IH, to_N_byteOf.
    rewrite Nat2N.inj_succ, N.pow_succ_r'.
    pose proof (N.pow_nonzero 256 (N.of_nat k) ltac:(discriminate)) as NZ.
    rewrite N.mod_mul_r by (discriminate || exact NZ). reflexivity.
Qed.

Lemma getLE_putLE8 n : (n < two64)%N -> getLE (putLE 8 n) = n.
Proof.
  intros H. rewrite getLE_putLE. change (256 ^ N.of_nat 8)%N with two64.
  apply N.mod_small. exact H.
Qed.

(** ** Cache entries *)
Lemma newMember_length ts id s : length id = 32%nat ->
  length (newMember ts id s) = (40 + length s)%nat.
Proof. intros H. unfold newMember. rewrite !app_length, putLE_length, H. lia. Qed.

Lemma newMember_ts ts id s : firstn 8 (newMember ts id s) = putLE 8 ts.
Proof.
  unfold newMember. rewrite firstn_app, putLE_length. cbn [Nat.sub].
  rewrite firstn_O, app_nil_r. apply firstn_all2. rewrite putLE_length. lia.
Qed.

Lemma skipn_app_exact {A} (a b : list A) n : length a = n -> skipn n (a ++ b) = b.
Proof. intros <-. rewrite skipn_app, Nat.sub_diag, skipn_all. reflexivity. Qed.

Lemma firstn_app_exact {A} (a b : list A) n : length a = n -> firstn n (a ++ b) = a.
Proof. intros <-. rewrite firstn_app, Nat.sub_diag, firstn_O, app_nil_r. apply firstn_all. Qed.

Lemma newMember_id ts id s : length id = 32%nat ->
  firstn 32 (skipn 8 (newMember ts id s)) = id.
Proof.
  intros H. unfold newMember. rewrite (skipn_app_exact (putLE 8 ts)) by apply putLE_length.
  apply firstn_app_exact. exact H.
Qed.

Lemma newMember_serial ts id s : length id = 32%nat -> skipn 40 (newMember ts id s) = s.
Proof.
  intros H. unfold newMember. rewrite app_assoc. apply skipn_app_exact.
  rewrite app_length, putLE_length, H. reflexivity.
Qed.

Lemma newMember_inj ts id s ts' id' s' :
  (ts < two64)%N -> (ts' < two64)%N -> length id = 32%nat -> length id' = 32%nat ->
  newMember ts id s = newMember ts' id' s' -> ts = ts' /\ id = id' /\ s = s'.
Proof.
  intros T T' L L' E. split; [|split].
  - rewrite <- (getLE_putLE8 ts), <- (getLE_putLE8 ts') by assumption.
    rewrite <- (newMember_ts ts id s), <- (newMember_ts ts' id' s'), E. reflexivity.
  - rewrite <- (newMember_id ts id s), <- (newMember_id ts' id' s'), E by assumption. reflexivity.
  - rewrite <- (newMember_serial ts id s), <- (newMember_serial ts' id' s'), E by assumption. reflexivity.
Qed.

Lemma asSerial_newMember ts id s : length id = 32%nat -> asSerial (newMember ts id s) = s.
Proof.
  intros H. unfold asSerial. rewrite newMember_length by exact H.
  replace (40 + length s <? 40)%nat with false by lia. apply newMember_serial. exact H.
Qed.

Lemma isCovered_newMember m ts id s : length id = 32%nat -> (ts < two64)%N ->
  isCovered m (newMember ts id s) =
  match alookup id m with None => false | Some c => (ts <=? c)%N end.
Proof.
  intros H T. unfold isCovered. rewrite newMember_length by exact H.
  replace (40 + length s <? 40)%nat with false by lia.
  cbv zeta. rewrite newMember_ts, newMember_id, getLE_putLE8 by assumption. reflexivity.
Qed.

(** ** Cutoff map *)
Lemma cutoffMapFrom_spec k logs : forall m,
  alookup k (cutoffMapFrom m logs) =
  match find (fun l => match lg_keyID l with Some j => beq k j | None => false end) (rev logs) with
  | Some l => Some (coverageCutoff l)
  | None => alookup k m
  end.
Proof.
  induction logs as [|l logs IH]; intros m; cbn [cutoffMapFrom rev]; [reflexivity|].
  assert (F : forall (f : ctLog -> bool) a b,
    find f (a ++ [b]) = match find f a with Some x => Some x | None => if f b then Some b else None end).
  { intros f a b. induction a as [|c a IHa]; cbn [find app]; [reflexivity|].
    destruct (f c); [reflexivity|exact IHa]. }
  destruct (lg_keyID l) as [j|] eqn:E; rewrite IH, F, E.
  - destruct (find _ (rev logs)); [reflexivity|].
    destruct (beq_spec k j) as [->|N].
    + apply alookup_aset_same.
    + apply alookup_aset_other. exact N.
  - destruct (find _ (rev logs)); reflexivity.
Qed.

Lemma aremove_in {V} k (m : list (bytes * V)) x : In x (map fst (aremove k m)) -> In x (map fst m) /\ x <> k.
Proof.
  induction m as [|[j v] m IH]; cbn [aremove map fst]; [intros []|].
  destruct (beq_spec k j) as [->|N].
  - intros H. apply IH in H. cbn [In map fst]. tauto.
  - cbn [map fst In]. intros [<-|H]; [split; auto|]. apply IH in H. tauto.
Qed.

Lemma aremove_nodup {V} k (m : list (bytes * V)) : NoDup (map fst m) -> NoDup (map fst (aremove k m)).
Proof.
  induction m as [|[j v] m IH]; cbn [aremove map fst]; [auto|].
  intros H. inversion H as [|a l H1 H2]; subst.
  destruct (beq_spec k j); [auto|]. cbn [map fst]. constructor; [|auto].
  intros H3. apply aremove_in in H3. tauto.
Qed.

Lemma aset_nodup {V} k (v : V) m : NoDup (map fst m) -> NoDup (map fst (aset k v m)).
Proof.
  intros H. unfold aset. cbn [map fst]. constructor.
  - intros H1. apply aremove_in in H1. tauto.
  - apply aremove_nodup. exact H.
Qed.

Lemma cutoffMapFrom_nodup logs : forall m, NoDup (map fst m) -> NoDup (map fst (cutoffMapFrom m logs)).
Proof.
  induction logs as [|l logs IH]; intros m H; cbn [cutoffMapFrom]; [exact H|].
  destruct (lg_keyID l); apply IH; [apply aset_nodup|]; exact H.
Qed.

(** ** Order on byte strings *)
Lemma bcmp_refl x : bcmp x x = Eq.
Proof. induction x; cbn [bcmp]; [reflexivity|]. rewrite N.compare_refl. exact IHx. Qed.

Lemma bcmp_eq x : forall y, bcmp x y = Eq -> x = y.
Proof.
  induction x as [|a x IH]; intros [|b y]; cbn [bcmp]; try discriminate; [reflexivity|].
  destruct (N.compare_spec (Byte.to_N a) (Byte.to_N b)) as [E|E|E]; try discriminate.
  intros H. apply IH in H. apply to_N_inj in E. congruence.
Qed.

Lemma bcmp_anti x : forall y, bcmp y x = CompOpp (bcmp x y).
Proof.
  induction x as [|a x IH]; intros [|b y]; cbn [bcmp]; try reflexivity.
  rewrite (N.compare_antisym (Byte.to_N a) (Byte.to_N b)).
  destruct (N.compare (Byte.to_N a) (Byte.to_N b)); cbn [CompOpp]; try reflexivity. apply IH.
Qed.

Lemma bcmp_trans x : forall y z, bcmp x y = Lt -> bcmp y z = Lt -> bcmp x z = Lt.
Proof.
  induction x as [|a x IH]; intros [|b y] [|c z]; cbn [bcmp]; try discriminate; auto.
  destruct (N.compare_spec (Byte.to_N a) (Byte.to_N b)) as [E|E|E]; try discriminate;
  destruct (N.compare_spec (Byte.to_N b) (Byte.to_N c)) as [F|F|F]; try discriminate; intros H1 H2.
  - rewrite E, F, N.compare_refl. eapply IH; eassumption.
  - rewrite E. replace (Byte.to_N b ?= Byte.to_N c)%N with Lt by (symmetry; apply N.compare_lt_iff; exact F). reflexivity.
  - rewrite <- F. replace (Byte.to_N a ?= Byte.to_N b)%N with Lt by (symmetry; apply N.compare_lt_iff; exact E). reflexivity.
  - replace (Byte.to_N a ?= Byte.to_N c)%N with Lt by (symmetry; apply N.compare_lt_iff; lia). reflexivity.
Qed.

(** Strict order, as a relation. *)
Definition blt (x y : bytes) : Prop := bcmp x y = Lt.
Definition ble (x y : bytes) : Prop := bcmp x y <> Gt.

Lemma blt_irrefl x : ~ blt x x.
Proof. unfold blt. rewrite bcmp_refl. discriminate. Qed.

Lemma blt_trans x y z : blt x y -> blt y z -> blt x z.
Proof. apply bcmp_trans. Qed.

Lemma ble_cases x y : ble x y <-> x = y \/ blt x y.
Proof.
  unfold ble, blt. destruct (bcmp x y) eqn:E.
  - apply bcmp_eq in E. split; [auto|intros _; discriminate].
  - split; [auto|intros _; discriminate].
  - split; [congruence|]. intros [->|?]; [|discriminate]. rewrite bcmp_refl in E. discriminate.
Qed.

Lemma bless_blt x y : bless x y = true <-> blt x y.
Proof. unfold bless, blt. destruct (bcmp x y); split; congruence. Qed.

Lemma bless_false_ble x y : bless y x = false -> ble x y.
Proof.
  unfold bless, ble. rewrite (bcmp_anti x y). destruct (bcmp x y); cbn [CompOpp]; congruence.
Qed.

(** ** Sorting *)
Lemma insertSorted_perm x l : Permutation (insertSorted x l) (x :: l).
Proof.
  induction l as [|y l IH]; cbn [insertSorted]; [reflexivity|].
  destruct (bless y x); [|reflexivity].
  rewrite IH. apply perm_swap.
Qed.

Lemma sortSerials_perm l : Permutation (sortSerials l) l.
Proof.
  induction l as [|x l IH]; cbn [sortSerials fold_right]; [reflexivity|].
  rewrite insertSorted_perm. constructor. exact IH.
Qed.

Lemma insertSorted_sorted x l : StronglySorted ble l -> StronglySorted ble (insertSorted x l).
Proof.
  induction l as [|y l IH]; cbn [insertSorted]; intros H.
  - repeat constructor.
  - inversion H as [|a b H1 H2]; subst.
    destruct (bless y x) eqn:E.
    + constructor; [auto|].
      rewrite Forall_forall. intros z Hz.
      apply (Permutation_in _ (insertSorted_perm x l)) in Hz. destruct Hz as [<-|Hz].
      * apply ble_cases. right. apply bless_blt. exact E.
      * rewrite Forall_forall in H2. auto.
    + apply bless_false_ble in E. constructor; [exact H|].
      constructor; [exact E|]. rewrite Forall_forall in *. intros z Hz.
      apply ble_cases in E. specialize (H2 z Hz). apply ble_cases in H2. apply ble_cases.
      destruct E as [->|E]; [exact H2|]. right. destruct H2 as [<-|H2]; [exact E|].
      eapply blt_trans; eassumption.
Qed.

Lemma sortSerials_sorted l : StronglySorted ble (sortSerials l).
Proof.
  induction l; cbn [sortSerials fold_right]; [constructor|]. apply insertSorted_sorted. exact IHl.
Qed.

(** ** The in-place loop of Dedup *)

(** One step of a plain "skip if equal to the last one kept". *)
Definition keepNew (acc : list bytes) (x : bytes) : list bytes :=
  if beq x (last acc []) then acc else acc ++ [x].

Lemma setNth_length i v : forall l, length (setNth i v l) = length l.
Proof. induction i; intros [|a l]; cbn [setNth length]; auto. Qed.

Lemma nth_setNth_same i v : forall l d, (i < length l)%nat -> nth i (setNth i v l) d = v.
Proof. induction i; intros [|a l] d H; cbn [setNth nth length] in *; try lia; auto. apply IHi. lia. Qed.

Lemma nth_setNth_other i v j : forall l d, i <> j -> nth j (setNth i v l) d = nth j l d.
Proof.
  revert j; induction i; intros [|j] [|a l] d H; cbn [setNth nth]; try congruence; auto.
Qed.

Lemma firstn_setNth_snoc i v : forall l, (i < length l)%nat ->
  firstn (S i) (setNth i v l) = firstn i l ++ [v].
Proof.
  induction i; intros [|a l] H; cbn [length] in H; try lia; [reflexivity|].
  cbn [setNth]. rewrite firstn_cons, IHi by lia. reflexivity.
Qed.

Lemma last_firstn (s : list bytes) e : (1 <= e <= length s)%nat -> last (firstn e s) [] = nth (e - 1) s [].
Proof.
  revert e; induction s as [|a s IH]; intros e H; cbn [length] in H; [lia|].
  destruct e as [|[|e]]; [lia|reflexivity|].
  rewrite firstn_cons. replace (S (S e) - 1)%nat with (S e) by lia.
  destruct s as [|b s]; cbn [length] in H; [lia|].
  change (last (a :: firstn (S e) (b :: s)) []) with (last (firstn (S e) (b :: s)) []).
  rewrite IH by (cbn [length]; lia). replace (S e - 1)%nat with e by lia. reflexivity.
Qed.

Lemma keepNew_last acc x : last (keepNew acc x) [] = x.
Proof. unfold keepNew. destruct (beq_spec x (last acc [])); [auto|]. apply last_last. Qed.

(** Invariant of the loop: the first [e] cells hold what the plain loop has
    kept, cells from [i-1] on are still those of the sorted list. *)
Lemma dedupLoop_spec (s1 : list bytes) : forall k i e (s : list bytes),
  (i + k = length s1)%nat -> (1 <= e <= i)%nat -> length s = length s1 ->
  (forall j, (i - 1 <= j)%nat -> nth j s [] = nth j s1 []) ->
  last (firstn e s) [] = nth (i - 1) s1 [] ->
  let '(s2, e2) := dedupLoop k i e s in
  (e2 <= length s2)%nat /\
  firstn e2 s2 = fold_left keepNew (skipn i s1) (firstn e s).
Proof.
  induction k as [|k IH]; intros i e s Hk He Hl Hn Hlast; cbn [dedupLoop].
  - split; [lia|]. rewrite skipn_all2 by lia. reflexivity.
  - assert (SK : skipn i s1 = nth i s1 [] :: skipn (S i) s1).
    { assert (Hi : (i < length s1)%nat) by lia. clear -Hi. revert i Hi.
      induction s1 as [|a s1 IHs]; intros i Hi; cbn [length] in Hi; [lia|].
      destruct i; [reflexivity|]. cbn [skipn nth]. apply IHs. lia. }
    rewrite SK. cbn [fold_left].
    rewrite (Hn i ltac:(lia)), (Hn (i - 1)%nat ltac:(lia)).
    unfold keepNew at 2. rewrite Hlast.
    destruct (beq_spec (nth i s1 []) (nth (i - 1) s1 [])) as [E|N].
    + specialize (IH (S i) e s ltac:(lia) ltac:(lia) Hl).
      replace (S i - 1)%nat with i in IH by lia.
      apply IH.
      * intros j Hj. apply Hn. lia.
      * rewrite Hlast. symmetry. exact E.
    + specialize (IH (S i) (S e) (setNth e (nth i s1 []) s) ltac:(lia) ltac:(lia)).
      replace (S i - 1)%nat with i in IH by lia.
      rewrite firstn_setNth_snoc in IH by lia.
      apply IH.
      * rewrite setNth_length. exact Hl.
      * intros j Hj. destruct (Nat.eq_dec e j) as [<-|Ne].
        -- replace e with i in * by lia. apply nth_setNth_same. lia.
        -- rewrite nth_setNth_other by exact Ne. apply Hn. lia.
      * apply last_last.
Qed.

Lemma dedup_eq s a l : sortSerials s = a :: l -> (2 <= length s)%nat ->
  dedup s = fold_left keepNew l [a].
Proof.
  intros E H. unfold dedup. replace (length s <? 2)%nat with false by lia.
  cbv zeta. rewrite E.
  pose proof (dedupLoop_spec (a :: l) (length (a :: l) - 1) 1 1 (a :: l)) as D.
  destruct (dedupLoop _ 1 1 (a :: l)) as [s2 e2].
  apply D; cbn [length]; try lia; auto.
Qed.

Lemma keepNew_in l : forall acc x, acc <> [] ->
  (In x (fold_left keepNew l acc) <-> In x acc \/ In x l).
Proof.
  induction l as [|b l IH]; intros acc x NE; cbn [fold_left].
  - cbn [In]. tauto.
  - rewrite IH.
    + unfold keepNew. destruct (beq_spec b (last acc [])) as [->|N].
      * cbn [In]. split; [tauto|]. intros [H|[<-|H]]; auto. left.
        destruct (exists_last NE) as (a' & y & ->). rewrite last_last. apply in_or_app. right; left; reflexivity.
      * rewrite in_app_iff. cbn [In]. tauto.
    + unfold keepNew. destruct (beq b (last acc [])); [exact NE|]. destruct acc; discriminate.
Qed.

Lemma SSorted_snoc R (l : list bytes) x : StronglySorted R l -> (forall y, In y l -> R y x) ->
  StronglySorted R (l ++ [x]).
Proof.
  induction l as [|a l IH]; intros H Hx; cbn [app]; [repeat constructor|].
  inversion H as [|? ? H1 H2]; subst. constructor.
  - apply IH; [exact H1|]. intros y Hy. apply Hx. right; exact Hy.
  - rewrite Forall_app. split; [exact H2|]. constructor; [|constructor]. apply Hx. left; reflexivity.
Qed.

Lemma keepNew_sorted l : forall acc, acc <> [] ->
  StronglySorted blt acc -> (forall y, In y acc -> ble y (last acc [])) ->
  StronglySorted ble l -> (forall y, In y l -> ble (last acc []) y) ->
  StronglySorted blt (fold_left keepNew l acc).
Proof.
  induction l as [|b l IH]; intros acc NE S Hmax Sl Hl; cbn [fold_left]; [exact S|].
  inversion Sl as [|? ? Sl' Fb]; subst. rewrite Forall_forall in Fb.
  assert (Hb : ble (last acc []) b) by (apply Hl; left; reflexivity).
  apply ble_cases in Hb.
  assert (NE' : keepNew acc b <> []).
  { unfold keepNew. destruct (beq b (last acc [])); [exact NE|]. destruct acc; discriminate. }
  apply IH; [exact NE'| | |exact Sl'|].
  - unfold keepNew. destruct (beq_spec b (last acc [])) as [E|N]; [exact S|].
    apply SSorted_snoc; [exact S|]. intros y Hy.
    destruct Hb as [Hb|Hb]; [congruence|].
    specialize (Hmax y Hy). apply ble_cases in Hmax. destruct Hmax as [->|Hm]; [exact Hb|].
    eapply blt_trans; eassumption.
  - intros y Hy. rewrite keepNew_last. unfold keepNew in Hy.
    assert (C : In y acc \/ y = b).
    { destruct (beq b (last acc [])); [auto|]. apply in_app_or in Hy. destruct Hy as [?|[?|[]]]; auto. }
    apply ble_cases. destruct C as [C|C]; [|auto].
    specialize (Hmax y C). apply ble_cases in Hmax. destruct Hmax as [->|Hm]; [exact Hb|].
    destruct Hb as [<-|Hb]; [auto|]. right. eapply blt_trans; eassumption.
  - intros y Hy. rewrite keepNew_last. apply Fb. exact Hy.
Qed.

Lemma dedup_sorted s : StronglySorted blt (dedup s).
Proof.
  destruct (Nat.lt_ge_cases (length s) 2) as [L|L].
  - unfold dedup. replace (length s <? 2)%nat with true by lia.
    destruct s as [|a [|b s]]; cbn [length] in L; [constructor|repeat constructor|lia].
  - pose proof (sortSerials_sorted s) as S. pose proof (sortSerials_perm s) as P.
    destruct (sortSerials s) as [|a l] eqn:E.
    { apply Permutation_nil in P. subst s. cbn [length] in L. lia. }
    rewrite (dedup_eq s a l E L). inversion S as [|? ? S1 S2]; subst. rewrite Forall_forall in S2.
    apply keepNew_sorted; try assumption.
    + discriminate.
    + repeat constructor.
    + cbn [last]. intros y [<-|[]]. apply ble_cases. auto.
Qed.

Lemma dedup_in s x : In x (dedup s) <-> In x s.
Proof.
  destruct (Nat.lt_ge_cases (length s) 2) as [L|L].
  - unfold dedup. replace (length s <? 2)%nat with true by lia. reflexivity.
  - pose proof (sortSerials_perm s) as P.
    destruct (sortSerials s) as [|a l] eqn:E.
    { apply Permutation_nil in P. subst s. cbn [length] in L. lia. }
    rewrite (dedup_eq s a l E L), keepNew_in by discriminate.
    split; intros H.
    + apply (Permutation_in _ P). cbn [In] in *. tauto.
    + apply (Permutation_in _ (Permutation_sym P)) in H. cbn [In] in *. tauto.
Qed.

(** A strictly sorted list is determined by its set of elements. *)
Lemma blt_sorted_unique l1 : forall l2, StronglySorted blt l1 -> StronglySorted blt l2 ->
  (forall x, In x l1 <-> In x l2) -> l1 = l2.
Proof.
  induction l1 as [|a l1 IH]; intros [|b l2] S1 S2 H; [reflexivity| | |].
  - exfalso. apply (H b). left; reflexivity.
  - exfalso. apply (H a). left; reflexivity.
  - inversion S1 as [|? ? S1' F1]; subst. inversion S2 as [|? ? S2' F2]; subst.
    rewrite Forall_forall in F1, F2.
    assert (a = b).
    { destruct (proj1 (H a) (or_introl eq_refl)) as [->|Ha]; [reflexivity|].
      destruct (proj2 (H b) (or_introl eq_refl)) as [->|Hb]; [reflexivity|].
      exfalso. apply (blt_irrefl a). eapply blt_trans; [apply F1; exact Hb|apply F2; exact Ha]. }
    subst b. f_equal. apply IH; [assumption|assumption|].
    intros x. split; intros Hx.
    + destruct (proj1 (H x) (or_intror Hx)) as [<-|?]; [|assumption].
      exfalso. apply (blt_irrefl a). apply F1; exact Hx.
    + destruct (proj2 (H x) (or_intror Hx)) as [<-|?]; [|assumption].
      exfalso. apply (blt_irrefl a). apply F2; exact Hx.
Qed.

Lemma blt_sorted_nodup l : StronglySorted blt l -> NoDup l.
Proof.
  induction 1 as [|a l S IH F]; constructor; [|exact IH].
  rewrite Forall_forall in F. intros H. apply (blt_irrefl a). apply F. exact H.
Qed.

(** ** Hexadecimal *)
Definition isHex (c : byte) : bool :=
  existsb (Byte.eqb c) (B "0123456789abcdef").

Lemma hexByte_isHex b : forallb isHex (hexByte b) = true.
Proof. destruct b; vm_compute; reflexivity. Qed.

Lemma hexEncode_isHex s c : In c (hexEncode s) -> isHex c = true.
Proof.
  unfold hexEncode. intros H. apply in_flat_map in H. destruct H as (b & _ & H).
  pose proof (hexByte_isHex b) as F. rewrite forallb_forall in F. auto.
Qed.

Lemma hexByte_decode b s : hexDecode (hexByte b ++ s) =
  match hexDecode s with Some r => Some (b :: r) | None => None end.
Proof.
  destruct b; cbn [hexByte app hexDecode]; destruct (hexDecode s); vm_compute; reflexivity.
Qed.

Lemma hexDecode_encode s : hexDecode (hexEncode s) = Some s.
Proof.
  induction s as [|b s IH]; [reflexivity|].
  change (hexEncode (b :: s)) with (hexByte b ++ hexEncode s). rewrite hexByte_decode, IH. reflexivity.
Qed.

Lemma hexEncode_length s : length (hexEncode s) = (2 * length s)%nat.
Proof.
  induction s as [|b s IH]; [reflexivity|].
  change (hexEncode (b :: s)) with (hexByte b ++ hexEncode s). rewrite app_length, IH. cbn [hexByte length]. lia.
Qed.

Lemma hexDigit_isHex n : isHex (hexDigit n) = true.
Proof.
  unfold hexDigit. destruct (Nat.lt_ge_cases (N.to_nat n) 16) as [H|H].
  - remember (N.to_nat n) as k. clear Heqk. do 16 (destruct k as [|k]; [vm_compute; reflexivity|]). lia.
  - rewrite nth_overflow by (cbn; lia). reflexivity.
Qed.

Lemma hexFixed_isHex k : forall n c, In c (hexFixed k n) -> isHex c = true.
Proof.
  induction k as [|k IH]; intros n c H; cbn [hexFixed] in H; [destruct H|].
  apply in_app_or in H. destruct H as [H|[<-|[]]]; [eauto|apply hexDigit_isHex].
Qed.

Lemma hexFixed_length k : forall n, length (hexFixed k n) = k.
Proof. induction k as [|k IH]; intros n; cbn [hexFixed]; [reflexivity|]. rewrite app_length, IH. cbn; lia. Qed.

Lemma hexVal_digit n : (n < 16)%N -> hexVal (hexDigit n) = Some n.
Proof.
  intros H. assert (C : In n [0;1;2;3;4;5;6;7;8;9;10;11;12;13;14;15]%N) by (cbn [In]; lia).
  cbn [In] in C. repeat (destruct C as [<-|C]; [vm_compute; reflexivity|]). destruct C.
Qed.

Lemma hexNum_app s : forall a t,
  hexNum a (s ++ t) = match hexNum a s with Some b => hexNum b t | None => None end.
Proof.
  induction s as [|c s IH]; intros a t; cbn [hexNum app]; [reflexivity|].
  destruct (hexVal c); [|reflexivity].
  destruct (16 * a + n <? two64)%N; [apply IH|reflexivity].
Qed.

Lemma hexNum_fixed k : forall n, (n < 16 ^ N.of_nat k)%N -> (n < two64)%N -> hexNum 0 (hexFixed k n) = Some n.
Proof.
  induction k as [|k IH]; intros n H T.
  - change (16 ^ N.of_nat 0)%N with 1%N in H. cbn [hexFixed hexNum]. f_equal; lia.
  - rewrite Nat2N.inj_succ, N.pow_succ_r' in H.
    cbn [hexFixed]. rewrite hexNum_app, IH by lia.
    cbn [hexNum]. rewrite hexVal_digit by lia.
    replace (16 * (n / 16) + n mod 16)%N with n by lia.
    replace (n <? two64)%N with true by lia. reflexivity.
Qed.

Lemma hexFixed_inj k : forall n m, (n < 16 ^ N.of_nat k)%N -> (m < 16 ^ N.of_nat k)%N ->
  hexFixed k n = hexFixed k m -> n = m.
Proof.
  induction k as [|k IH]; intros n m Hn Hm E.
  - change (16 ^ N.of_nat 0)%N with 1%N in *. lia.
  - rewrite Nat2N.inj_succ, N.pow_succ_r' in Hn, Hm.
    cbn [hexFixed] in E. apply app_inj_tail in E. destruct E as [E1 E2].
    apply IH in E1; [|lia|lia].
    assert (Q : hexVal (hexDigit (n mod 16)) = hexVal (hexDigit (m mod 16))) by (rewrite E2; reflexivity).
    rewrite !hexVal_digit in Q by lia. assert (n mod 16 = m mod 16)%N by congruence. lia.
Qed.

(** ** Lines *)
Lemma splitLines_acc l : forall cur rest, ~ In nl l ->
  splitLines cur (l ++ nl :: rest) = (rev cur ++ l) :: splitLines [] rest.
Proof.
  induction l as [|c l IH]; intros cur rest H; cbn [app splitLines].
  - replace (Byte.eqb nl nl) with true by reflexivity. rewrite app_nil_r. reflexivity.
  - destruct (byte_eqb_spec c nl) as [->|N]; [exfalso; apply H; left; reflexivity|].
    rewrite IH by (intros F; apply H; right; exact F). cbn [rev]. rewrite <- app_assoc. reflexivity.
Qed.

Lemma splitLines_line l rest : ~ In nl l ->
  splitLines [] (l ++ [nl] ++ rest) = l :: splitLines [] rest.
Proof. apply (splitLines_acc l []). Qed.

Lemma dropCR_id l : ~ In cr l -> dropCR l = l.
Proof.
  intros H. unfold dropCR. destruct (rev l) as [|c r] eqn:E; [reflexivity|].
  destruct (byte_eqb_spec c cr) as [->|N]; [|reflexivity].
  exfalso. apply H. apply in_rev. rewrite E. left; reflexivity.
Qed.

Lemma hex_no c s : isHex c = false -> ~ In c (hexEncode s).
Proof. intros F H. apply hexEncode_isHex in H. congruence. Qed.

Definition clean (l : bytes) : Prop := ~ In nl l /\ ~ In cr l.

Lemma hexEncode_clean s : clean (hexEncode s).
Proof. split; apply hex_no; reflexivity. Qed.

Lemma expiryLine_chars u c : In c (expiryLine u) -> isHex c = true \/ c = "@"%byte \/ c = "-"%byte.
Proof.
  unfold expiryLine, fmt016x. intros H. apply in_app_or in H. destruct H as [H|H].
  - right; left. destruct H as [H|[]]. symmetry; exact H.
  - destruct (0 <=? u)%Z.
    + left. eapply hexFixed_isHex. exact H.
    + apply in_app_or in H. destruct H as [H|H].
      * right; right. destruct H as [H|[]]. symmetry; exact H.
      * left. eapply hexFixed_isHex. exact H.
Qed.

Lemma expiryLine_clean u : clean (expiryLine u).
Proof.
  split; intros H; apply expiryLine_chars in H; destruct H as [H|[H|H]]; discriminate H.
Qed.

Lemma expiryLine_length u : length (expiryLine u) = 17%nat.
Proof.
  unfold expiryLine, fmt016x. destruct (0 <=? u)%Z; rewrite !app_length, hexFixed_length; reflexivity.
Qed.

Lemma splitLines_serials ss : forall rest,
  splitLines [] (flat_map (fun s => hexEncode s ++ [nl]) ss ++ rest) =
  map hexEncode ss ++ splitLines [] rest.
Proof.
  induction ss as [|s ss IH]; intros rest; cbn [flat_map map app]; [reflexivity|].
  rewrite <- !app_assoc. rewrite splitLines_line by apply hexEncode_clean.
  rewrite IH. reflexivity.
Qed.

Lemma splitLines_write u ss rest :
  splitLines [] (writeSerialList u ss ++ rest) =
  expiryLine u :: map hexEncode ss ++ splitLines [] rest.
Proof.
  unfold writeSerialList. rewrite <- !app_assoc.
  rewrite splitLines_line by apply expiryLine_clean. rewrite splitLines_serials. reflexivity.
Qed.

Lemma goSerials_hex ss : (forall s, In s ss -> (N.of_nat (length s) < 32768)%N) ->
  goSerials (map hexEncode ss) = Ok ss.
Proof.
  induction ss as [|s ss IH]; intros H; cbn [map goSerials]; [reflexivity|].
  unfold tooLong at 1. rewrite hexEncode_length.
  replace (maxToken <=? N.of_nat (2 * length s))%N with false
    by (pose proof (H s (or_introl eq_refl)); unfold maxToken; lia).
  rewrite dropCR_id by apply hexEncode_clean. rewrite hexDecode_encode.
  rewrite IH by (intros x Hx; apply H; right; exact Hx). reflexivity.
Qed.

Lemma goReadFile_write u ss : (forall s, In s ss -> (N.of_nat (length s) < 32768)%N) ->
  goReadFile u (writeSerialList u ss) = Ok ss.
Proof.
  intros H. unfold goReadFile. rewrite <- (app_nil_r (writeSerialList u ss)), splitLines_write.
  cbn [splitLines]. rewrite app_nil_r.
  unfold tooLong. rewrite expiryLine_length. replace (maxToken <=? N.of_nat 17)%N with false by reflexivity.
  rewrite dropCR_id by apply expiryLine_clean. rewrite beq_refl. apply goSerials_hex. exact H.
Qed.

Lemma expiryLine_inj u v : (0 <= u < 2 ^ 63)%Z -> (0 <= v < 2 ^ 63)%Z -> expiryLine u = expiryLine v -> u = v.
Proof.
  intros Hu Hv E. unfold expiryLine, fmt016x in E.
  replace (0 <=? u)%Z with true in E by lia. replace (0 <=? v)%Z with true in E by lia.
  apply app_inv_head in E. apply hexFixed_inj in E; [lia| |];
    change (16 ^ N.of_nat 16)%N with 18446744073709551616%N; lia.
Qed.

Lemma goReadFile_other u v ss : (0 <= u < 2 ^ 63)%Z -> (0 <= v < 2 ^ 63)%Z -> u <> v ->
  goReadFile v (writeSerialList u ss) = Err.
Proof.
  intros Hu Hv N. unfold goReadFile. rewrite <- (app_nil_r (writeSerialList u ss)), splitLines_write.
  unfold tooLong. rewrite expiryLine_length. replace (maxToken <=? N.of_nat 17)%N with false by reflexivity.
  rewrite dropCR_id by apply expiryLine_clean.
  destruct (beq_spec (expiryLine u) (expiryLine v)) as [E|_]; [|reflexivity].
  exfalso. apply N. apply expiryLine_inj; assumption.
Qed.

Lemma fromStrRadix_fmt u : (0 <= u < 2 ^ 63)%Z -> fromStrRadix16 (fmt016x u) = Some (Z.to_N u).
Proof.
  intros H. unfold fmt016x. replace (0 <=? u)%Z with true by lia.
  unfold fromStrRadix16.
  pose proof (hexNum_fixed 16 (Z.to_N u)) as F.
  change (16 ^ N.of_nat 16)%N with two64 in F.
  specialize (F ltac:(unfold two64; lia) ltac:(unfold two64; lia)).
  pose proof (hexFixed_length 16 (Z.to_N u)) as L.
  destruct (hexFixed 16 (Z.to_N u)) as [|c r] eqn:E; [discriminate L|].
  destruct (byte_eqb_spec c "+"%byte) as [->|N].
  - exfalso. assert (X : isHex "+" = true) by (apply (hexFixed_isHex 16 (Z.to_N u)); rewrite E; left; reflexivity).
    discriminate X.
  - exact F.
Qed.

Lemma rustLines_cur : forall l cur rest, ~ In nl l -> rustLines cur (l ++ nl :: rest) = dropCR (rev cur ++ l) :: rustLines [] rest.
Proof.
  induction l as [|c l IH]; intros cur rest N; cbn [app rustLines].
  - rewrite app_nil_r. reflexivity.
  - destruct (byte_eqb_spec c nl) as [->|_]; [exfalso; apply N; left; reflexivity|].
    rewrite IH by (intros I; apply N; right; exact I). cbn [rev]. rewrite <- app_assoc. reflexivity.
Qed.
Lemma rustLines_line l rest : ~ In nl l -> rustLines [] (l ++ [nl] ++ rest) = dropCR l :: rustLines [] rest.
Proof. intros N. apply (rustLines_cur l [] rest N). Qed.
Lemma rustLines_last : forall l cur, ~ In nl l -> rustLines cur l = match rev cur ++ l with [] => [] | x => [x] end.
Proof.
  induction l as [|c l IH]; intros cur N; cbn [rustLines].
  - rewrite app_nil_r. destruct cur as [|c cur]; [reflexivity|]. cbn [rev]. destruct (rev cur); reflexivity.
  - destruct (byte_eqb_spec c nl) as [->|_]; [exfalso; apply N; left; reflexivity|].
    rewrite IH by (intros I; apply N; right; exact I). cbn [rev]. rewrite <- app_assoc. reflexivity.
Qed.
Lemma rustLines_write u ss rest :
  rustLines [] (writeSerialList u ss ++ rest) = expiryLine u :: map hexEncode ss ++ rustLines [] rest.
Proof.
  unfold writeSerialList. rewrite <- !app_assoc.
  rewrite rustLines_line by apply expiryLine_clean. rewrite dropCR_id by apply expiryLine_clean. f_equal.
  induction ss as [|s ss IH]; cbn [flat_map map app]; [reflexivity|].
  rewrite <- !app_assoc. rewrite rustLines_line, dropCR_id by apply hexEncode_clean. f_equal. exact IH.
Qed.

Lemma rustKnown_serials d ss rest r : rustKnown d rest = Ok r ->
  rustKnown d (map hexEncode ss ++ rest) = Ok (map (fun s => (d, hexEncode s)) ss ++ r).
Proof.
  intros H. induction ss as [|s ss IH]; cbn [map app rustKnown]; [exact H|].
  rewrite IH.
  destruct (hexEncode s) as [|c t] eqn:E; [reflexivity|].
  destruct (byte_eqb_spec c "@"%byte) as [->|N]; [|reflexivity].
  exfalso. apply (hex_no "@"%byte s); [reflexivity|]. rewrite E. left; reflexivity.
Qed.

Lemma rustKnown_expiry d u rest : (0 <= u < 2 ^ 63)%Z ->
  rustKnown d (expiryLine u :: rest) = rustKnown (Z.to_N u) rest.
Proof.
  intros H. cbn [rustKnown].
  unfold expiryLine. change (B "@") with ["@"%byte]. cbn [app].
  replace (Byte.eqb "@" "@") with true by reflexivity.
  rewrite fromStrRadix_fmt by exact H. reflexivity.
Qed.

Lemma rustKnown_lists (l : list (Z * list bytes)) : (forall u ss, In (u, ss) l -> (0 <= u < 2 ^ 63)%Z) ->
  forall d, rustKnown d (rustLines [] (flat_map (fun p => writeSerialList (fst p) (snd p)) l)) =
  Ok (flat_map (fun p => map (fun s => (Z.to_N (fst p), hexEncode s)) (snd p)) l).
Proof.
  induction l as [|[u ss] l IH]; intros H d; cbn [flat_map fst snd]; [reflexivity|].
  rewrite rustLines_write, rustKnown_expiry by (apply (H u ss); left; reflexivity).
  apply rustKnown_serials. apply IH. intros v tt Hv. apply (H v tt). right; exact Hv.
Qed.
