(** * Run identifiers: C49 *)
From Verif Require Import Base MerkleModel TimeModel TimeProofs IssuersModel FilterModel FilterProofs QueryModel TextProofs P_Query RemoteModel PublishModel.
From Coq Require Import Strings.Byte Sorting.Permutation Sorting.Sorted.

(** ** Specification: a run identifier is eight digits, a hyphen, and digits. *)
Definition runId (r : bytes) (date : bytes) (n : N) : Prop :=
  exists ds, r = date ++ "-"%byte :: ds /\ length date = 8%nat /\ forallb isDigit date = true /\ ds <> [] /\ forallb isDigit ds = true /\ valueOf ds = n.
(** A directory belongs to a run if its name begins with the identifier, in full. *)
Definition dirOf (x r : bytes) : Prop :=
  (exists date n, runId r date n) /\ exists rest, x = r ++ rest /\ match rest with [] => True | c :: _ => isDigit c = false end.

Lemma takeDigits_spec : forall s, exists rest, s = takeDigits s ++ rest /\ forallb isDigit (takeDigits s) = true /\
  match rest with [] => True | c :: _ => isDigit c = false end.
Proof.
  induction s as [|c s IH]; cbn [takeDigits]; [exists []; auto|]. destruct (isDigit c) eqn:E.
  - destruct IH as [rest [A [B0 C]]]. exists rest. cbn [app forallb]. rewrite E, B0, <- A. auto.
  - exists (c :: s). auto.
Qed.
Lemma takeDigits_app : forall ds rest, forallb isDigit ds = true -> match rest with [] => True | c :: _ => isDigit c = false end -> takeDigits (ds ++ rest) = ds.
Proof.
  induction ds as [|c ds IH]; intros rest H R; cbn [app takeDigits].
  - destruct rest as [|c rest]; [reflexivity|]. cbn [takeDigits]. rewrite R. reflexivity.
  - cbn [forallb] in H. apply andb_true_iff in H. destruct H as [H1 H2]. rewrite H1, (IH rest H2 R). reflexivity.
Qed.

Lemma identifierOf_spec x r : identifierOf x = Some r <-> dirOf x r.
Proof.
  unfold identifierOf, dirOf. split.
  - pose proof (firstn_skipn 8 x) as FS. destruct (skipn 8 x) as [|c s] eqn:S; [discriminate|].
    destruct ((length (firstn 8 x) =? 8)%nat && forallb isDigit (firstn 8 x) && Byte.eqb c "-") eqn:E; [|discriminate].
    apply andb_true_iff in E. destruct E as [E E3]. apply andb_true_iff in E. destruct E as [E1 E2]. apply Nat.eqb_eq in E1. apply Byte.byte_dec_bl in E3. subst c.
    destruct (takeDigits_spec s) as [rest [A [B0 C]]]. destruct (takeDigits s) as [|d ds] eqn:T; [discriminate|]. intros H. injection H as <-. split.
    + exists (firstn 8 x), (valueOf (d :: ds)), (d :: ds). repeat split; auto. discriminate.
    + exists rest. split; [|exact C]. rewrite <- app_assoc. cbn [app]. cbn [app] in A. rewrite <- A. symmetry. exact FS.
  - intros [[date [n [ds [-> [L [Hd [NE [Hs _]]]]]]]] [rest [-> R]]]. rewrite <- app_assoc. cbn [app].
    rewrite skipn_app, skipn_all2 by (unfold bytes in *; lia). rewrite firstn_app, firstn_all2 by (unfold bytes in *; lia). rewrite L. cbn [Nat.sub skipn firstn app].
    rewrite app_nil_r, L, Hd. cbn [Nat.eqb andb Byte.eqb]. rewrite (takeDigits_app ds rest Hs R). destruct ds; [contradiction NE; reflexivity|reflexivity].
Qed.

Lemma filterSome_in {A B} (f : A -> option B) l y : In y (filterSome f l) <-> exists x, In x l /\ f x = Some y.
Proof.
  induction l as [|a l IH]; cbn [filterSome In]; [split; [intros []|intros [x [[] _]]]|].
  destruct (f a) as [b|] eqn:E; cbn [In]; rewrite ?IH; split.
  - intros [<-|[x [I F]]]; eauto.
  - intros [x [[<-|I] F]]; [left; congruence|right; eauto].
  - intros [x [I F]]; eauto.
  - intros [x [[<-|I] F]]; [congruence|eauto].
Qed.

Lemma insertBy_perm {A} (lt : A -> A -> bool) x l : Permutation (insertBy lt x l) (x :: l).
Proof.
  induction l as [|y l IH]; cbn [insertBy]; [reflexivity|]. destruct (lt y x); [|reflexivity]. rewrite IH. apply perm_swap.
Qed.
Lemma sortBy_perm {A} (lt : A -> A -> bool) l : Permutation (sortBy lt l) l.
Proof. induction l as [|x l IH]; cbn [sortBy]; [reflexivity|]. rewrite insertBy_perm, IH. reflexivity. Qed.

(** Sorted by an order on keys: what [lt] does not put before is not before. *)
Lemma sortBy_sorted {A} (lt : A -> A -> bool) (P : A -> Prop) (R : A -> A -> Prop) :
  (forall x y, P x -> P y -> lt x y = true -> R x y) -> (forall x y, P x -> P y -> lt x y = false -> R y x) -> (forall x y z, P x -> P y -> P z -> R x y -> R y z -> R x z) ->
  forall l, Forall P l -> StronglySorted R (sortBy lt l).
Proof.
  intros T F TR. assert (INS : forall x l, P x -> Forall P l -> StronglySorted R l -> StronglySorted R (insertBy lt x l)).
  { intros x l Px Pl S. induction S as [|y l S IH HF]; cbn [insertBy]; [constructor; constructor|].
    apply Forall_cons_iff in Pl. destruct Pl as [Py Pl]. destruct (lt y x) eqn:E.
    - constructor; [apply IH; exact Pl|]. rewrite Forall_forall in *. intros z Iz. apply (Permutation_in _ (insertBy_perm lt x l)) in Iz.
      destruct Iz as [<-|Iz]; [apply T; assumption|apply HF; exact Iz].
    - constructor; [constructor; assumption|]. apply Forall_cons; [apply F; assumption|]. rewrite Forall_forall in *. intros z Iz.
      apply (TR x y z); auto. }
  induction l as [|x l IH]; intros Pl; cbn [sortBy]; [constructor|]. apply Forall_cons_iff in Pl. destruct Pl as [Px Pl].
  apply INS; [exact Px| |apply IH; exact Pl]. rewrite Forall_forall in *. intros z Iz. apply Pl. apply (Permutation_in _ (sortBy_perm lt l)). exact Iz.
Qed.

Theorem C49_identifiers : forall dirs r, In r (getRunIdentifiers dirs) <-> exists x, In x dirs /\ dirOf x r.
Proof.
  intros dirs r. unfold getRunIdentifiers. split.
  - intros I. apply (Permutation_in _ (sortBy_perm _ _)) in I. apply (proj1 (filterSome_in _ _ _)) in I. destruct I as [x [I E]]. exists x. split; [exact I|apply identifierOf_spec; exact E].
  - intros [x [I E]]. apply (Permutation_in _ (Permutation_sym (sortBy_perm _ _))). apply filterSome_in. exists x. split; [exact I|apply identifierOf_spec; exact E].
Qed.
Print Assumptions C49_identifiers.

(** ** Numbers as text *)

Lemma isDigit_digit z : (0 <= z <= 9)%Z -> isDigit (digit z) = true /\ Byte.to_N (digit z) = Z.to_N (48 + z).
Proof.
  intros H. assert (E : (z = 0 \/ z = 1 \/ z = 2 \/ z = 3 \/ z = 4 \/ z = 5 \/ z = 6 \/ z = 7 \/ z = 8 \/ z = 9)%Z) by lia.
  destruct E as [->|[->|[->|[->|[->|[->|[->|[->|[->| ->]]]]]]]]]; vm_compute; auto.
Qed.

Lemma valueOf_snoc s c : valueOf (s ++ [c]) = (10 * valueOf s + (Byte.to_N c - 48))%N.
Proof. unfold valueOf. rewrite fold_left_app. reflexivity. Qed.

Lemma natDigits_spec : forall f n, (n < 10 ^ N.of_nat f)%N -> (0 < f)%nat ->
  forallb isDigit (natDigits f n) = true /\ valueOf (natDigits f n) = n /\ (0 < length (natDigits f n))%nat /\
  (forall k, (0 < k)%nat -> (n < 10 ^ N.of_nat k)%N -> (length (natDigits f n) <= k)%nat).
Proof.
  induction f as [|f IH]; intros n H P; [lia|]. cbn [natDigits].
  assert (DG : (0 <= Z.of_N (n mod 10) <= 9)%Z) by (pose proof (N.mod_lt n 10); lia). destruct (isDigit_digit _ DG) as [D1 D2].
  assert (V : (Byte.to_N (digit (Z.of_N (n mod 10))) - 48 = n mod 10)%N) by (rewrite D2; lia).
  destruct (N.ltb_spec n 10) as [L|L].
  - cbn [app forallb length]. rewrite D1. split; [reflexivity|]. split; [|split; [lia|intros; lia]].
    change [digit (Z.of_N (n mod 10))] with ([] ++ [digit (Z.of_N (n mod 10))]). rewrite valueOf_snoc, V. change (valueOf []) with 0%N. rewrite N.mod_small; lia.
  - rewrite Nat2N.inj_succ, N.pow_succ_r' in H.
    destruct f as [|f]; [cbn in H; lia|]. destruct (IH (n / 10)%N) as [A [B0 [C E]]]; [apply N.div_lt_upper_bound; lia|lia|].
    rewrite forallb_app, A. cbn [forallb]. rewrite D1. split; [reflexivity|]. rewrite valueOf_snoc, B0, V. split; [rewrite (N.div_mod' n 10) at 3; lia|].
    rewrite app_length. cbn [length]. split; [lia|]. intros k K Hk. destruct k as [|[|k]]; [lia|cbn in Hk; lia|].
    rewrite Nat2N.inj_succ, N.pow_succ_r' in Hk. assert (G : (length (natDigits (S f) (n / 10)) <= S k)%nat) by (apply E; [lia|apply N.div_lt_upper_bound; lia]). unfold bytes in *. lia.
Qed.

Lemma decText_spec n : forallb isDigit (decText n) = true /\ valueOf (decText n) = n /\ decText n <> [] /\
  (forall k, (0 < k)%nat -> (n < 10 ^ N.of_nat k)%N -> (length (decText n) <= k)%nat).
Proof.
  unfold decText. destruct (natDigits_spec (S (N.to_nat (N.log2 n))) n) as [A [B0 [C E]]]; [|lia|].
  - rewrite Nat2N.inj_succ, N2Nat.id. destruct n as [|p]; [reflexivity|]. pose proof (N.log2_spec (N.pos p) eq_refl) as [_ L].
    apply (N.lt_le_trans _ _ _ L). apply N.pow_le_mono_l. lia.
  - split; [exact A|]. split; [exact B0|]. split; [|exact E]. intros Z. rewrite Z in C. cbn in C. lia.
Qed.

Lemma value_zeros k s : valueOf (repeat "0"%byte k ++ s) = valueOf s.
Proof.
  unfold valueOf. rewrite fold_left_app. replace (fold_left (fun n c => (10 * n + (to_N c - 48))%N) (repeat "0"%byte k) 0%N) with 0%N; [reflexivity|].
  induction k as [|k IH]; cbn [repeat fold_left]; [reflexivity|exact IH].
Qed.
Lemma pad6_spec n : (n < 1000000)%N -> length (pad6 n) = 6%nat /\ forallb isDigit (pad6 n) = true /\ valueOf (pad6 n) = n.
Proof.
  intros H. unfold pad6. destruct (decText_spec n) as [A [B0 [C E]]]. assert (L : (length (decText n) <= 6)%nat) by (apply E; [lia|exact H]).
  rewrite app_length, repeat_length. split; [lia|]. rewrite forallb_app, A, value_zeros. split; [|exact B0]. rewrite andb_true_r.
  apply forallb_forall. intros c I. apply repeat_spec in I. subst. reflexivity.
Qed.

Lemma ltb_app : forall a b x y, length a = length b -> bytesLtb (a ++ x) (b ++ y) = if bytesLtb a b then true else if beq a b then bytesLtb x y else false.
Proof.
  induction a as [|c a IH]; intros [|d b] x y L; try discriminate L; cbn [app bytesLtb beq]; [reflexivity|]. injection L as L.
  destruct (N.ltb_spec (Byte.to_N c) (Byte.to_N d)) as [H|H]; [reflexivity|]. destruct (N.ltb_spec (Byte.to_N d) (Byte.to_N c)) as [G|G].
  - destruct (byte_eqb_spec c d) as [->|]; [lia|reflexivity].
  - assert (E : c = d) by (assert (E : Byte.to_N c = Byte.to_N d) by lia; apply (f_equal Byte.of_N) in E; rewrite !Byte.of_to_N in E; congruence).
    subst d. rewrite (IH b x y L). destruct (byte_eqb_spec c c) as [_|N]; [reflexivity|congruence].
Qed.

Lemma runId_split r d n : runId r d n -> exists ds, splitOn "-" r = [d; ds] /\ ds <> [] /\ pyInt ds = Some n /\ forallb isDigit ds = true.
Proof.
  intros [ds [-> [L [Hd [NE [Hs V]]]]]]. exists ds. unfold splitOn.
  destruct (splitAt_spec "-" (d ++ "-"%byte :: ds) []) as [p [q [E [NP C]]]]. rewrite E. cbn [rev app].
  destruct C as [[_ C]|[s [C ->]]]; [exfalso; apply NP; rewrite <- C; apply in_or_app; right; left; reflexivity|].
  destruct (cut_unique "-" p d s ds NP (digits_no "-" d eq_refl Hd) (eq_sym C)) as [-> ->].
  destruct (splitAt_spec "-" ds []) as [p2 [q2 [E2 [NP2 C2]]]]. rewrite E2. cbn [rev app].
  destruct C2 as [[-> ->]|[s2 [C2 _]]]; [|exfalso; apply (digits_no "-" ds eq_refl Hs); rewrite C2; apply in_or_app; right; left; reflexivity].
  split; [reflexivity|]. split; [exact NE|]. split; [|exact Hs]. unfold pyInt. destruct p2 as [|c p2]; [contradiction NE; reflexivity|]. apply dec_value. split; [exact Hs|symmetry; exact V].
Qed.

Lemma runId_fun r d n d' n' : runId r d n -> runId r d' n' -> d = d' /\ n = n'.
Proof.
  intros H H'. destruct (runId_split r d n H) as [ds [E [_ [V _]]]]. destruct (runId_split r d' n' H') as [ds' [E' [_ [V' _]]]]. rewrite E in E'. injection E' as -> ->. split; congruence.
Qed.

Lemma normalize_runId r d n : runId r d n -> normalize r = Some (d ++ pad6 n).
Proof. intros H. destruct (runId_split r d n H) as [ds [E [_ [V _]]]]. unfold normalize. rewrite E, V. reflexivity. Qed.

Lemma dateFacts r d n : runId r d n -> length d = 8%nat /\ forallb isDigit d = true.
Proof. intros [ds H]. tauto. Qed.

Lemma keyLtb_spec r d n r' d' n' : runId r d n -> runId r' d' n' -> (n < 1000000)%N -> (n' < 1000000)%N ->
  (keyLtb r r' = true <-> (valueOf d < valueOf d' \/ valueOf d = valueOf d' /\ n < n')%N).
Proof.
  intros H H' Hn Hn'. unfold keyLtb. rewrite (normalize_runId _ _ _ H), (normalize_runId _ _ _ H').
  destruct (dateFacts _ _ _ H) as [L D]. destruct (dateFacts _ _ _ H') as [L' D'].
  destruct (pad6_spec n Hn) as [P1 [P2 P3]]. destruct (pad6_spec n' Hn') as [Q1 [Q2 Q3]].
  rewrite ltb_app by congruence. pose proof (ltb_value d d' 0%N (eq_trans L (eq_sym L')) D D') as LV. fold (valueOf d) (valueOf d') in LV.
  destruct (bytesLtb d d') eqn:E; [split; [left; apply LV; reflexivity|reflexivity]|].
  destruct (beq_spec d d') as [->|NE].
  - rewrite (ltb_value (pad6 n) (pad6 n') 0%N (eq_trans P1 (eq_sym Q1)) P2 Q2). fold (valueOf (pad6 n)) (valueOf (pad6 n')). rewrite P3, Q3. split; [auto|]. intros [X|[_ X]]; [lia|exact X].
  - split; [discriminate|]. intros [X|[X _]]; [apply LV in X; discriminate X|]. exfalso. apply NE. apply value_inj; auto. congruence.
Qed.

(** Earlier or the same run: by date, then by number. *)
Definition runLe (a b : bytes) : Prop := forall d n d' n', runId a d n -> runId b d' n' -> (valueOf d < valueOf d' \/ valueOf d = valueOf d' /\ n <= n')%N.
Definition small (r : bytes) : Prop := exists d n, runId r d n /\ (n < 1000000)%N.

(** The identifiers are listed by date and then by number, as long as the numbers
    have at most six digits. *)
Theorem C49_sorted : forall dirs, (forall r, In r (getRunIdentifiers dirs) -> small r) -> StronglySorted runLe (getRunIdentifiers dirs).
Proof.
  intros dirs H. unfold getRunIdentifiers. apply (sortBy_sorted keyLtb small runLe).
  - intros x y [d [n [Hx Sx]]] [d' [n' [Hy Sy]]] E dx nx dy ny Rx Ry.
    destruct (runId_fun _ _ _ _ _ Hx Rx) as [<- <-]. destruct (runId_fun _ _ _ _ _ Hy Ry) as [<- <-].
    apply (keyLtb_spec _ _ _ _ _ _ Hx Hy Sx Sy) in E. lia.
  - intros x y [d [n [Hx Sx]]] [d' [n' [Hy Sy]]] E dx nx dy ny Rx Ry.
    destruct (runId_fun _ _ _ _ _ Hx Ry) as [<- <-]. destruct (runId_fun _ _ _ _ _ Hy Rx) as [<- <-].
    pose proof (keyLtb_spec _ _ _ _ _ _ Hx Hy Sx Sy) as K. rewrite E in K. destruct K as [_ K].
    destruct (N.lt_total (valueOf d) (valueOf d')) as [X|[X|X]]; [exfalso; discriminate (K (or_introl X))| |left; exact X].
    right. split; [symmetry; exact X|]. apply N.le_ngt. intros Y. discriminate (K (or_intror (conj X Y))).
  - intros x y z _ [d [n [Hy _]]] _ A B0 dx nx dz nz Rx Rz. specialize (A dx nx d n Rx Hy). specialize (B0 d n dz nz Hy Rz). lia.
  - apply Forall_forall. intros r I. apply H. unfold getRunIdentifiers. apply (Permutation_in _ (Permutation_sym (sortBy_perm _ _))). exact I.
Qed.
Print Assumptions C49_sorted.

Lemma lastOf_app {A} (l : list A) x : lastOf (l ++ [x]) = Some x.
Proof. induction l as [|y l IH]; [reflexivity|]. cbn [app lastOf]. rewrite IH. destruct l; reflexivity. Qed.
Lemma lastOf_some {A} (l : list A) x : lastOf l = Some x <-> exists l', l = l' ++ [x].
Proof.
  split; [|intros [l' ->]; apply lastOf_app]. destruct l as [|y l] using rev_ind; [discriminate|]. rewrite lastOf_app. intros H. injection H as ->. eauto.
Qed.
Lemma lastOf_none {A} (l : list A) : lastOf l = None <-> l = [].
Proof. split; [|intros ->; reflexivity]. destruct l as [|y l] using rev_ind; [reflexivity|]. rewrite lastOf_app. discriminate. Qed.

Lemma sorted_last {A} (R : A -> A -> Prop) l x : StronglySorted R (l ++ [x]) -> forall y, In y l -> R y x.
Proof.
  induction l as [|z l IH]; intros S y []; cbn [app] in S; apply StronglySorted_inv in S; destruct S as [S F].
  - subst. rewrite Forall_forall in F. apply F. apply in_or_app. right. left. reflexivity.
  - apply IH; assumption.
Qed.

(** An allocated identifier is that of a run of today, not in the bucket, and
    later than every run in it, as long as no run there has a date after today
    and the numbers have at most six digits. *)
Theorem C49_fresh : forall today dirs, length today = 8%nat -> forallb isDigit today = true ->
  (forall r, In r (getRunIdentifiers dirs) -> small r) ->
  (forall r d n, In r (getRunIdentifiers dirs) -> runId r d n -> (valueOf d <= valueOf today)%N) ->
  exists r n, allocate today dirs = Val r /\ runId r today n /\ ~ In r (getRunIdentifiers dirs) /\
    forall r' d' n', In r' (getRunIdentifiers dirs) -> runId r' d' n' -> (valueOf d' < valueOf today \/ d' = today /\ n' < n)%N.
Proof.
  intros today dirs L D S T. unfold allocate.
  assert (MK : forall n, runId (today ++ "-"%byte :: decText n) today n).
  { intros n. destruct (decText_spec n) as [A [B0 [C _]]]. exists (decText n). repeat split; auto. }
  assert (FIN : forall n, (forall r' d' n', In r' (getRunIdentifiers dirs) -> runId r' d' n' -> (valueOf d' < valueOf today \/ d' = today /\ n' < n)%N) ->
     exists r k, Val (today ++ "-"%byte :: decText n) = Val r /\ runId r today k /\ ~ In r (getRunIdentifiers dirs) /\
       forall r' d' n', In r' (getRunIdentifiers dirs) -> runId r' d' n' -> (valueOf d' < valueOf today \/ d' = today /\ n' < k)%N).
  { intros n H. exists (today ++ "-"%byte :: decText n), n. split; [reflexivity|]. split; [apply MK|]. split; [|exact H].
    intros I. destruct (H _ _ _ I (MK n)) as [X|[_ X]]; lia. }
  destruct (lastOf (getRunIdentifiers dirs)) as [m|] eqn:E.
  - apply lastOf_some in E. destruct E as [l E]. pose proof (C49_sorted dirs S) as SS. rewrite E in SS.
    assert (IM : In m (getRunIdentifiers dirs)) by (rewrite E; apply in_or_app; right; left; reflexivity).
    destruct (S m IM) as [d [n [Hm Sm]]]. destruct (runId_split m d n Hm) as [ds [ES [_ [V _]]]]. rewrite ES.
    assert (MAX : forall r' d' n', In r' (getRunIdentifiers dirs) -> runId r' d' n' -> (valueOf d' < valueOf d \/ valueOf d' = valueOf d /\ n' <= n)%N).
    { intros r' d' n' I H. rewrite E in I. apply in_app_or in I. destruct I as [I|[<-|[]]].
      - exact (sorted_last _ _ _ SS r' I d' n' d n H Hm).
      - destruct (runId_fun _ _ _ _ _ Hm H) as [<- <-]. lia. }
    destruct (dateFacts _ _ _ Hm) as [Ld Dd]. destruct (beq_spec d today) as [->|NE].
    + rewrite V. apply FIN. intros r' d' n' I H. destruct (MAX r' d' n' I H) as [X|[X Y]]; [left; exact X|right]. destruct (dateFacts _ _ _ H) as [L' D'].
      split; [apply value_inj; auto; congruence|lia].
    + apply FIN. intros r' d' n' I H. left. pose proof (T m d n IM Hm) as TM. destruct (N.eq_dec (valueOf d) (valueOf today)) as [Q|Q].
      * exfalso. apply NE. apply value_inj; auto. congruence.
      * destruct (MAX r' d' n' I H) as [X|[X _]]; lia.
  - apply (proj1 (lastOf_none _)) in E. apply FIN. intros r' d' n' I. rewrite E in I. destruct I.
Qed.
Print Assumptions C49_fresh.

(** The runs of a day are numbered from 0 without gaps: the number of a new run is 0 or
    one more than that of a run of the day in the bucket. *)
Theorem C49_no_gaps : forall today dirs r n, length today = 8%nat -> forallb isDigit today = true ->
  allocate today dirs = Val r -> runId r today n ->
  n = 0%N \/ exists r' n', In r' (getRunIdentifiers dirs) /\ runId r' today n' /\ n = (n' + 1)%N.
Proof.
  intros today dirs r n L D A R. unfold allocate in A.
  assert (MK : forall k, runId (today ++ "-"%byte :: decText k) today k).
  { intros k. destruct (decText_spec k) as [X [Y [Z _]]]. exists (decText k). repeat split; auto. }
  assert (FUN : forall k, Val (today ++ "-"%byte :: decText k) = Val r -> n = k).
  { intros k E. injection E as E. rewrite <- E in R. destruct (runId_fun _ _ _ _ _ R (MK k)) as [_ X]. exact X. }
  destruct (lastOf (getRunIdentifiers dirs)) as [m|] eqn:E; [|left; apply FUN; exact A].
  apply lastOf_some in E. destruct E as [l E].
  assert (IM : In m (getRunIdentifiers dirs)) by (rewrite E; apply in_or_app; right; left; reflexivity).
  assert (RM : exists d k, runId m d k).
  { apply C49_identifiers in IM. destruct IM as [x [_ X]]. unfold dirOf in X. firstorder. }
  destruct RM as [d [k RM]]. destruct (runId_split m d k RM) as [ds [ES [_ [V _]]]]. rewrite ES in A.
  destruct (beq_spec d today) as [->|NE]; [|left; apply FUN; exact A]. rewrite V in A.
  right. exists m, k. split; [exact IM|]. split; [exact RM|]. apply FUN. exact A.
Qed.
Print Assumptions C49_no_gaps.

Example C49_example :
  getRunIdentifiers [B "20260102-10/"; B "latest/"; B "20260102-9/"; B "20251231-3/"; B "2026-1/"] = [B "20251231-3"; B "20260102-9"; B "20260102-10"] /\
  allocate (B "20260102") [B "20260102-10/"; B "latest/"; B "20260102-9/"; B "20251231-3/"] = Val (B "20260102-11") /\
  allocate (B "20260103") [B "20260102-10/"; B "20251231-3/"] = Val (B "20260103-0").
Proof. vm_compute. auto. Qed.

(** With seven digits the order breaks, and an identifier is handed out twice. *)
Theorem C49_many_runs_refuted : exists today dirs r, allocate today dirs = Val r /\ In r (getRunIdentifiers dirs).
Proof.
  exists (B "20260102"), [B "20260102-999999/"; B "20260102-1000000/"], (B "20260102-1000000").
  split; [vm_compute; reflexivity|]. apply C49_identifiers. exists (B "20260102-1000000/"). split; [right; left; reflexivity|]. apply identifierOf_spec. vm_compute. reflexivity.
Qed.
Print Assumptions C49_many_runs_refuted.

(** So it is if the bucket has a run from tomorrow. *)
Theorem C49_later_date_refuted : exists today dirs r, allocate today dirs = Val r /\ In r (getRunIdentifiers dirs) /\ forall x, In x (getRunIdentifiers dirs) -> small x.
Proof.
  exists (B "20260102"), [B "20260102-0/"; B "20260103-0/"], (B "20260102-0").
  assert (E : getRunIdentifiers [B "20260102-0/"; B "20260103-0/"] = [B "20260102-0"; B "20260103-0"]) by (vm_compute; reflexivity).
  split; [vm_compute; reflexivity|]. rewrite E. split; [left; reflexivity|].
  intros x [<-|[<-|[]]]; [exists (B "20260102"), 0%N|exists (B "20260103"), 0%N]; (split; [exists (B "0"); repeat split; discriminate|reflexivity]).
Qed.
Print Assumptions C49_later_date_refuted.
