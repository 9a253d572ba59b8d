(** * C66: the in-memory stand-in for the cache behaves like a set, as long as nothing is removed *)
From Coq Require Import Sorted Permutation.
From Verif Require Import Base SerialModel SerialProofs CtFetchModel CtFetchProofs MockModel.

(** ** Specification: what a history has put under a key *)
Definition puts (o : mop) (k v : bytes) : Prop :=
  match o with
  | MInsert k' v' => k' = k /\ v' = v
  | MInsertMany items => exists t, In (k, v, t) items
  | _ => False
  end.
Definition stored (h : list (Z * mop)) (k v : bytes) : Prop := exists now o, In (now, o) h /\ puts o k v.
(** No removal; no operation looks at the clock after a time of expiry that was ever set. *)
Definition noRemoval (h : list (Z * mop)) : Prop := forall now k vs, ~ In (now, MRemove k vs) h.
Definition noTimeout (h : list (Z * mop)) (now : Z) : Prop :=
  forall n k t, In (n, MExpire k t) h -> (forall n' o, In (n', o) h -> (n' <= t)%Z) /\ (now <= t)%Z.

(** ** Binary search in a strictly increasing list *)
Definition isSorted (l : list bytes) : Prop := StronglySorted blt l.

Lemma blt_asym x y : blt x y -> ~ blt y x.
Proof. intros H H'. apply (blt_irrefl x), (blt_trans _ _ _ H H'). Qed.
Lemma bcmp_gt x y : bcmp x y = Gt <-> blt y x.
Proof. unfold blt. rewrite (bcmp_anti x y). destruct (bcmp x y); cbn; split; congruence. Qed.

Lemma sorted_nth_lt l : isSorted l -> forall i j, i < j < length l -> blt (nth i l []) (nth j l []).
Proof.
  induction 1 as [|a l S IH F]; intros i j H; [cbn in H; lia|].
  destruct j as [|j]; [lia|]. destruct i as [|i]; cbn [nth].
  - rewrite Forall_forall in F. apply F, nth_In. cbn in H; lia.
  - apply IH. cbn in H; lia.
Qed.

Lemma position_spec e l : isSorted l ->
  position e l <= length l /\ (forall i, i < position e l -> blt (nth i l []) e) /\
  (forall i, position e l <= i < length l -> ~ blt (nth i l []) e).
Proof.
  intros S. unfold position. set (f := fun i => match bcmp e (nth i l []) with Gt => false | _ => true end).
  assert (Ff : forall i, f i = false <-> blt (nth i l []) e).
  { intros i. unfold f. rewrite <- bcmp_gt. destruct (bcmp e (nth i l [])); split; congruence. }
  assert (Mono : forall i j, (i <= j < length l)%nat -> f i = true -> f j = true).
  { intros i j H E. destruct (f j) eqn:Fj; [reflexivity|]. apply Ff in Fj. exfalso.
    destruct (Nat.eq_dec i j) as [->|N].
    - apply Ff in Fj. congruence.
    - assert (f i = false); [|congruence]. apply Ff. eapply blt_trans; [|exact Fj]. apply sorted_nth_lt; [exact S|lia]. }
  destruct (sortSearch_spec f (length l) Mono) as [A [Q P]]. split; [exact A|]. split.
  - intros i H. apply Ff, Q, H.
  - intros i H X. apply Ff in X. rewrite P in X by exact H. discriminate.
Qed.

Lemma foundAt_spec e l : isSorted l -> (foundAt e l = true <-> In e l).
Proof.
  intros S. destruct (position_spec e l S) as [A [Q P]]. unfold foundAt. set (p := position e l) in *. split.
  - intros H. apply andb_true_iff in H. destruct H as [H1 H2]. apply Nat.ltb_lt in H1.
    destruct (bcmp e (nth p l [])) eqn:E; try discriminate. apply bcmp_eq in E. rewrite E. apply nth_In, H1.
  - intros I. apply (In_nth _ _ (@nil byte : bytes)) in I. destruct I as [i [L E]].
    assert (i = p) as ->.
    { destruct (Nat.lt_trichotomy i p) as [X|[X|X]]; [|exact X|].
      - exfalso. specialize (Q i X). rewrite E in Q. apply (blt_irrefl e Q).
      - exfalso. apply (P p); [lia|]. assert (Y : p < i < length l) by (split; [exact X|exact L]). apply (sorted_nth_lt l S) in Y. rewrite E in Y. exact Y. }
    apply andb_true_iff. split; [apply Nat.ltb_lt, L|]. rewrite E, bcmp_refl. reflexivity.
Qed.

Lemma sorted_app_iff l1 : forall l2, isSorted (l1 ++ l2) <->
  isSorted l1 /\ isSorted l2 /\ forall x y, In x l1 -> In y l2 -> blt x y.
Proof.
  unfold isSorted. induction l1 as [|a l1 IH]; intros l2; cbn [app].
  - split; [intros H; split; [constructor|]; split; [exact H|intros x y []]|intros [_ [H _]]; exact H].
  - split.
    + intros H. inversion_clear H as [|? ? H1 H2]. apply IH in H1. destruct H1 as [X [Y Z]]. rewrite Forall_forall in H2.
      split; [constructor; [exact X|apply Forall_forall; intros b Hb; apply H2, in_or_app; auto]|]. split; [exact Y|].
      intros x y [<-|Hx] Hy; [apply H2, in_or_app; auto|apply Z; assumption].
    + intros [H [Y Z]]. inversion_clear H as [|? ? H1 H2]. constructor.
      * apply IH. repeat split; auto. intros x y Hx Hy. apply Z; [right|]; assumption.
      * rewrite Forall_forall in *. intros b Hb. apply in_app_or in Hb. destruct Hb as [Hb|Hb]; [apply H2, Hb|apply Z; [left; reflexivity|exact Hb]].
Qed.

Lemma insert_sorted e l : isSorted l -> ~ In e l ->
  isSorted (insertAt (position e l) e l) /\ forall v, In v (insertAt (position e l) e l) <-> v = e \/ In v l.
Proof.
  intros S N. destruct (position_spec e l S) as [A [Q P]]. set (p := position e l) in *. unfold insertAt.
  pose proof S as S'. rewrite <- (firstn_skipn p l) in S'. apply sorted_app_iff in S'. destruct S' as [S1 [S2 S3]].
  assert (L1 : forall x, In x (firstn p l) -> blt x e).
  { intros x Hx. apply (In_nth _ _ (@nil byte : bytes)) in Hx. destruct Hx as [i [Li <-]]. rewrite firstn_length in Li.
    replace (nth i (firstn p l) []) with (nth i l []); [apply Q; lia|].
    rewrite <- (firstn_skipn p l) at 1. apply app_nth1. rewrite firstn_length. lia. }
  assert (L2 : forall y, In y (skipn p l) -> blt e y).
  { intros y Hy. apply (In_nth _ _ (@nil byte : bytes)) in Hy. destruct Hy as [i [Li Ey]]. rewrite skipn_length in Li.
    assert (nth (p + i) l [] = y) as E.
    { rewrite <- Ey. rewrite <- (firstn_skipn p l) at 1. rewrite app_nth2; rewrite firstn_length; [f_equal; lia|lia]. }
    specialize (P (p + i)). rewrite E in P. assert (~ blt y e) as NB by (apply P; lia).
    unfold blt in *. destruct (bcmp e y) eqn:C; [|reflexivity|].
    - apply bcmp_eq in C. exfalso. apply N. rewrite C, <- E. apply nth_In. lia.
    - exfalso. apply NB. rewrite (bcmp_anti e y), C. reflexivity. }
  split.
  - apply sorted_app_iff. split; [exact S1|]. split.
    + constructor; [exact S2|]. apply Forall_forall. exact L2.
    + intros x y Hx [<-|Hy]; [apply L1, Hx|apply S3; assumption].
  - intros v. rewrite in_app_iff. cbn [In]. rewrite <- (firstn_skipn p l) at 3. rewrite in_app_iff. intuition congruence.
Qed.

(** ** The invariant *)
Section Inv.
  Variable mem : bytes -> bytes -> Prop.   (* what has been stored *)
  Definition holds (s : mock) : Prop := forall k,
    isSorted (setOf s k) /\ (forall v, In v (setOf s k) <-> mem k v) /\ (alookup k (mk_data s) <> Some []).
End Inv.

Lemma insert_holds (mem : bytes -> bytes -> Prop) k v s : holds mem s ->
  fst (mInsert k v s) = negb (foundAt v (setOf s k)) /\ mk_exp (snd (mInsert k v s)) = mk_exp s /\
  holds (fun k' v' => mem k' v' \/ (k' = k /\ v' = v)) (snd (mInsert k v s)).
Proof.
  intros H. destruct (H k) as [S [M _]]. unfold mInsert. pose proof (foundAt_spec v _ S) as F.
  destruct (foundAt v (setOf s k)) eqn:E; cbn [fst snd negb mk_exp]; split; try reflexivity; split; try reflexivity; intros k'.
  - destruct (H k') as [S' [M' N']]. split; [exact S'|]. split; [|exact N']. intros v'. rewrite M'.
    split; [auto|]. intros [X|[-> ->]]; [exact X|]. apply M, F. reflexivity.
  - destruct (H k') as [S' [M' N']].
    assert (NI : ~ In v (setOf s k)) by (intros I; apply F in I; discriminate).
    destruct (insert_sorted v _ S NI) as [IS II]. set (l' := insertAt (position v (setOf s k)) v (setOf s k)) in *.
    destruct (bytes_eq_dec k' k) as [->|D].
    + assert (SO : setOf (mkMock (aset k l' (mk_data s)) (mk_exp s)) k = l').
      { unfold setOf. cbn [mk_data]. rewrite alookup_aset_same. reflexivity. }
      rewrite SO. cbn [mk_data]. rewrite alookup_aset_same. split; [exact IS|]. split.
      * intros v'. rewrite II, M. intuition auto.
      * intros X. unfold l', insertAt in X. destruct (firstn _ _); discriminate.
    + assert (SO : setOf (mkMock (aset k l' (mk_data s)) (mk_exp s)) k' = setOf s k').
      { unfold setOf at 1. cbn [mk_data]. rewrite alookup_aset_other by exact D. reflexivity. }
      rewrite SO. cbn [mk_data]. rewrite alookup_aset_other by exact D. split; [exact S'|]. split; [|exact N'].
      intros v'. rewrite M'. split; [auto|]. intros [X|[X _]]; [exact X|contradiction].
Qed.

Lemma holds_ext (m1 m2 : bytes -> bytes -> Prop) s : (forall k v, m1 k v <-> m2 k v) -> holds m1 s -> holds m2 s.
Proof. intros E H k. destruct (H k) as [A [Q P]]. split; [exact A|]. split; [|exact P]. intros v. rewrite Q. apply E. Qed.

Lemma insertMany_holds items : forall (mem : bytes -> bytes -> Prop) s, holds mem s ->
  mk_exp (mInsertMany items s) = mk_exp s /\
  holds (fun k v => mem k v \/ exists t, In (k, v, t) items) (mInsertMany items s).
Proof.
  induction items as [|[[k v] t] items IH]; intros mem s H; cbn [mInsertMany fold_left].
  - split; [reflexivity|]. eapply holds_ext; [|exact H]. intros k v. split; [auto|]. intros [X|[t []]]. exact X.
  - cbn [fst snd]. destruct (insert_holds mem k v s H) as [_ [E H']]. destruct (IH _ _ H') as [E' H'']. unfold mInsertMany in E', H''.
    split; [rewrite E'; exact E|]. eapply holds_ext; [|exact H'']. intros k' v'. cbn [In]. split.
    + intros [[X|[-> ->]]|[t' X]]; [auto|right; exists t; auto|right; exists t'; auto].
    + intros [X|[t' [X|X]]]; [auto| |right; exists t'; exact X]. left. right. split; congruence.
Qed.

Lemma cleanup_id now s : (forall k t, alookup k (mk_exp s) = Some t -> (now <= t)%Z) -> cleanup now s = s.
Proof.
  intros H. destruct s as [d e]. unfold cleanup.
  assert (T : forall k, timedOut now (mkMock d e) k = false).
  { intros k. unfold timedOut. destruct (alookup k _) as [t|] eqn:A; [|reflexivity]. apply H in A. lia. }
  assert (FT : forall X (l : list (bytes * X)), filter (fun x => negb (timedOut now (mkMock d e) (fst x))) l = l).
  { intros X l. induction l as [|[a b] l IH]; [reflexivity|]. cbn [filter fst]. rewrite T. cbn [negb]. rewrite IH. reflexivity. }
  rewrite !FT. reflexivity.
Qed.

Lemma stored_snoc h now o k v : stored (h ++ [(now, o)]) k v <-> stored h k v \/ puts o k v.
Proof.
  unfold stored. split.
  - intros [n [o' [I P]]]. apply in_app_or in I. destruct I as [I|[I|[]]]; [left; eauto|]. injection I as <- <-. auto.
  - intros [[n [o' [I P]]]|P]; [exists n, o'; split; [apply in_or_app; auto|exact P]|].
    exists now, o. split; [apply in_or_app; right; left; reflexivity|exact P].
Qed.

Definition lifetimes (h : list (Z * mop)) (s : mock) : Prop :=
  forall k t, alookup k (mk_exp s) = Some t -> exists n, In (n, MExpire k t) h.

Lemma mruns_snoc h e s : mruns (h ++ [e]) s = snd (mstep (fst e) (snd e) (mruns h s)).
Proof. unfold mruns. rewrite fold_left_app. reflexivity. Qed.

Lemma history h : noRemoval h -> (forall now, In now (map fst h) -> noTimeout h now) ->
  holds (stored h) (mruns h mockEmpty) /\ lifetimes h (mruns h mockEmpty).
Proof.
  induction h as [|[now o] h IH] using rev_ind; intros R T.
  - split; [|intros k t X; discriminate]. intros k. split; [constructor|]. split; [|discriminate].
    intros v. cbn. split; [intros []|intros [n [o [[] _]]]].
  - assert (R' : noRemoval h) by (intros n k vs I; apply (R n k vs), in_or_app; auto).
    assert (T' : forall n, In n (map fst h) -> noTimeout h n).
    { intros n I n' k t I'. destruct (T n) with (n := n') (k := k) (t := t) as [A Q].
      - rewrite map_app. apply in_or_app; auto.
      - apply in_or_app; auto.
      - split; [|exact Q]. intros n'' o' I''. apply (A n'' o'), in_or_app; auto. }
    destruct (IH R' T') as [H L]. clear IH R' T'. rewrite mruns_snoc. cbn [fst snd].
    set (s := mruns h mockEmpty) in *.
    assert (CL : cleanup now s = s).
    { apply cleanup_id. intros k t A. destruct (L k t A) as [n I].
      destruct (T now) with (n := n) (k := k) (t := t) as [_ Q]; [rewrite map_app; apply in_or_app; right; left; reflexivity|apply in_or_app; auto|exact Q]. }
    assert (LS : lifetimes (h ++ [(now, o)]) s).
    { intros k t A. destruct (L k t A) as [n I]. exists n. apply in_or_app; auto. }
    assert (same : (forall k v, ~ puts o k v) -> holds (stored (h ++ [(now, o)])) s).
    { intros NP. eapply holds_ext; [|exact H]. intros k v. rewrite stored_snoc. specialize (NP k v). tauto. }
    destruct o as [k v|items|k vs|k v|k|k|k|k t]; cbn [mstep].
    + destruct (insert_holds _ k v s H) as [_ [E H']]. destruct (mInsert k v s) as [b s']. cbn [snd] in *. split.
      * eapply holds_ext; [|exact H']. intros k' v'. rewrite stored_snoc. cbn [puts]. intuition congruence.
      * intros k' t A. rewrite E in A. apply (LS k' t A).
    + cbn [snd]. destruct (insertMany_holds items _ s H) as [E H']. split.
      * eapply holds_ext; [|exact H']. intros k' v'. rewrite stored_snoc. reflexivity.
      * intros k' t A. rewrite E in A. apply (LS k' t A).
    + exfalso. apply (R now k vs), in_or_app. right; left; reflexivity.
    + cbn [snd]. rewrite CL. split; [apply same; cbn; auto|exact LS].
    + cbn [snd]. rewrite CL. split; [apply same; cbn; auto|exact LS].
    + cbn [snd]. split; [apply same; cbn; auto|exact LS].
    + cbn [snd]. rewrite CL. split; [apply same; cbn; auto|exact LS].
    + cbn [snd]. split; [exact (same ltac:(cbn; auto))|]. intros k' t' A. cbn [mk_exp] in A.
      destruct (bytes_eq_dec k' k) as [->|D].
      * rewrite alookup_aset_same in A. injection A as <-. exists now. apply in_or_app. right; left; reflexivity.
      * rewrite alookup_aset_other in A by exact D. apply (LS k' t' A).
Qed.

(** After any history without removals and without expired keys: insertion says whether the
    value is new, membership is exact, a listing gives every stored value once in order, the
    cardinality is its length, and a key exists exactly if something is stored under it. *)
Theorem C66_like_a_set : forall h now k v,
  noRemoval h -> (forall n, In n (map fst h) -> noTimeout h n) -> noTimeout h now ->
  let s := mruns h mockEmpty in
  (exists b, fst (mstep now (MInsert k v) s) = MBool b /\ (b = true <-> ~ stored h k v)) /\
  (exists b, fst (mstep now (MContains k v) s) = MBool b /\ (b = true <-> stored h k v)) /\
  (exists l, fst (mstep now (MList k) s) = MSet l /\ fst (mstep now (MCard k) s) = MNum (length l) /\
             NoDup l /\ StronglySorted blt l /\ forall x, In x l <-> stored h k x) /\
  (exists b, fst (mstep now (MExists k) s) = MBool b /\ (b = true <-> exists x, stored h k x)).
Proof.
  intros h now k v R T N s. destruct (history h R T) as [H L]. fold s in H, L. destruct (H k) as [S [M NE]].
  assert (CL : cleanup now s = s).
  { apply cleanup_id. intros k' t A. destruct (L k' t A) as [n I]. apply (N n k' t I). }
  pose proof (foundAt_spec v _ S) as F. cbn [mstep]. rewrite CL. split; [|split; [|split]].
  - destruct (insert_holds _ k v s H) as [E _]. destruct (mInsert k v s) as [b s']. cbn [fst] in *. exists b. split; [reflexivity|].
    rewrite E. rewrite <- M. destruct (foundAt v (setOf s k)); cbn [negb].
    + split; [discriminate|]. intros X. exfalso. apply X, F. reflexivity.
    + split; [|reflexivity]. intros _ X. apply F in X. discriminate.
  - exists (foundAt v (setOf s k)). split; [reflexivity|]. rewrite F. apply M.
  - exists (setOf s k). split; [reflexivity|]. split; [reflexivity|]. split; [|split; [exact S|exact M]].
    clear - S. unfold isSorted in S. induction S as [|a l S IH Fa]; constructor; [|exact IH].
    intros I. rewrite Forall_forall in Fa. apply (blt_irrefl a), Fa, I.
  - eexists. split; [reflexivity|]. unfold setOf in M. destruct (alookup k (mk_data s)) as [[|x l]|].
    + contradiction NE. reflexivity.
    + split; [|reflexivity]. intros _. exists x. apply M. left; reflexivity.
    + split; [discriminate|]. intros [x X]. apply M in X. destruct X.
Qed.
Print Assumptions C66_like_a_set.

(** ** The first removal *)
Lemma sorted_nodup l : isSorted l -> NoDup l.
Proof.
  unfold isSorted. induction 1 as [|a l S IH Fa]; constructor; [|exact IH].
  intros I. rewrite Forall_forall in Fa. apply (blt_irrefl a), Fa, I.
Qed.
Lemma position_found e l : isSorted l -> In e l -> exists a b, l = a ++ e :: b /\ length a = position e l.
Proof.
  intros S I. pose proof (proj2 (foundAt_spec e l S) I) as F. unfold foundAt in F. apply andb_true_iff in F. destruct F as [F1 F2].
  apply Nat.ltb_lt in F1. destruct (bcmp e (nth (position e l) l [])) eqn:E; try discriminate. apply bcmp_eq in E.
  destruct (nth_split l [] F1) as (a & b & X & L). exists a, b. split; [rewrite E; exact X|exact L].
Qed.
Lemma setNth_mid (a : list bytes) (x y : bytes) b : setNth (length a) x (a ++ y :: b) = a ++ x :: b.
Proof. induction a as [|z a IH]; cbn [setNth app length]; [reflexivity|]. rewrite IH. reflexivity. Qed.
Lemma swapped (e : bytes) (l a b : list bytes) : l = a ++ e :: b ->
  Permutation (firstn (length l - 1) (setNth (length a) (nth (length l - 1) l []) l)) (a ++ b).
Proof.
  intros ->. rewrite setNth_mid. destruct b as [|z b] using rev_ind.
  - assert (L : length (a ++ [e]) - 1 = length a) by (rewrite app_length; cbn [length]; lia).
    rewrite L, firstn_app, firstn_all, Nat.sub_diag. cbn [firstn]. apply Permutation_refl.
  - clear IHb. assert (L : length (a ++ e :: b ++ [z]) - 1 = length (a ++ e :: b)) by (rewrite !app_length; cbn [length]; rewrite app_length; cbn [length]; lia).
    assert (Z : nth (length (a ++ e :: b)) (a ++ e :: b ++ [z]) [] = z).
    { replace (a ++ e :: b ++ [z]) with ((a ++ e :: b) ++ [z]) by (rewrite <- app_assoc; reflexivity).
      rewrite app_nth2, Nat.sub_diag by lia. reflexivity. }
    rewrite L, Z. clear L Z.
    replace (length (a ++ e :: b)) with (length (a ++ z :: b)) by (rewrite !app_length; reflexivity).
    assert (Q : a ++ z :: b ++ [z] = (a ++ z :: b) ++ [z]) by (rewrite <- app_assoc; reflexivity). rewrite Q.
    rewrite firstn_app, firstn_all, Nat.sub_diag. cbn [firstn]. rewrite app_nil_r.
    apply Permutation_app_head. apply Permutation_cons_append.
Qed.

(** The first removal of one value takes this value out of this set and does nothing else;
    only the order of the set is lost. *)
Theorem C66_first_removal : forall h now k v,
  noRemoval h -> (forall n, In n (map fst h) -> noTimeout h n) -> noTimeout h now ->
  let s := mruns h mockEmpty in let s' := snd (mstep now (MRemove k [v]) s) in
  (exists l, fst (mstep now (MList k) s') = MSet l /\ fst (mstep now (MCard k) s') = MNum (length l) /\
             NoDup l /\ forall x, In x l <-> stored h k x /\ x <> v) /\
  (exists b, fst (mstep now (MExists k) s') = MBool b /\ (b = true <-> exists x, stored h k x /\ x <> v)) /\
  (forall k', k' <> k -> fst (mstep now (MList k') s') = fst (mstep now (MList k') s)).
Proof.
  intros h now k v R T N s s'. destruct (history h R T) as [H L]. fold s in H, L. destruct (H k) as [S [M NE]].
  assert (LE : forall k' t, alookup k' (mk_exp s) = Some t -> (now <= t)%Z).
  { intros k' t A. destruct (L k' t A) as [n I]. apply (N n k' t I). }
  assert (ES : mk_exp (mRemove1 k s v) = mk_exp s) by (unfold mRemove1; destruct (foundAt v _); [destruct (_ =? 1)|]; reflexivity).
  assert (CL : cleanup now s = s) by (apply cleanup_id; exact LE).
  assert (E' : s' = mRemove1 k s v) by (unfold s'; cbn [mstep fold_left snd]; apply cleanup_id; rewrite ES; exact LE).
  assert (CL' : cleanup now s' = s') by (apply cleanup_id; rewrite E', ES; exact LE).
  cbn [mstep]. rewrite CL, CL'. cbn [fst]. rewrite E'. clear E' CL CL' s' ES LE T R N L.
  pose proof (foundAt_spec v _ S) as F. unfold mRemove1.
  assert (OTHER : forall d k', k' <> k -> alookup k' d = alookup k' (mk_data s) ->
            MSet (setOf (mkMock d (mk_exp s)) k') = MSet (setOf s k')) by (intros d k' D X; unfold setOf; cbn [mk_data]; rewrite X; reflexivity).
  destruct (foundAt v (setOf s k)) eqn:FA.
  - destruct (position_found v _ S (proj1 F eq_refl)) as (a & b & X & LA). pose proof (sorted_nodup _ S) as ND.
    assert (MEM : forall x, In x (a ++ b) <-> stored h k x /\ x <> v).
    { intros x. rewrite <- M, X. rewrite X in ND. pose proof (NoDup_remove_2 _ _ _ ND) as NV. split.
      - intros I. split; [apply in_app_or in I; apply in_or_app; destruct I; [left|right; right]; assumption|intros ->; contradiction].
      - intros [I D]. apply in_app_or in I. apply in_or_app. destruct I as [I|[I|I]]; [left; exact I|congruence|right; exact I]. }
    assert (ND' : NoDup (a ++ b)) by (rewrite X in ND; apply (NoDup_remove_1 _ _ _ ND)).
    destruct (length (setOf s k) =? 1) eqn:L1.
    + apply Nat.eqb_eq in L1. rewrite X, app_length in L1. cbn [length] in L1.
      destruct a; [|cbn [length] in L1; lia]. destruct b; [|cbn [length] in L1; lia]. cbn [app] in MEM.
      unfold setOf at 1 2. cbn [mk_data]. rewrite alookup_aremove_same. split; [|split].
      * exists []. split; [reflexivity|]. split; [reflexivity|]. split; [constructor|exact MEM].
      * exists false. split; [reflexivity|]. split; [discriminate|]. intros [x Hx]. apply MEM in Hx. destruct Hx.
      * intros k' D. apply OTHER; [exact D|]. apply alookup_aremove_other. exact D.
    + set (l' := firstn _ _). assert (P : Permutation l' (a ++ b)) by (unfold l'; rewrite <- LA; apply (swapped v); exact X).
      unfold setOf at 1 2. cbn [mk_data]. rewrite alookup_aset_same. split; [|split].
      * exists l'. split; [reflexivity|]. split; [reflexivity|]. split; [apply (Permutation_NoDup (Permutation_sym P) ND')|].
        intros x. rewrite <- MEM. split; apply Permutation_in; [exact P|apply Permutation_sym, P].
      * exists true. split; [reflexivity|]. split; [intros _|reflexivity]. apply Nat.eqb_neq in L1. rewrite X, app_length in L1. cbn [length] in L1.
        destruct (a ++ b) as [|x r] eqn:Y; [apply app_eq_nil in Y; destruct Y as [-> ->]; cbn [length] in L1; lia|].
        exists x. apply MEM. left. reflexivity.
      * intros k' D. apply OTHER; [exact D|]. apply alookup_aset_other. exact D.
  - assert (NI : forall x, stored h k x -> x <> v) by (intros x Sx ->; apply M in Sx; apply F in Sx; discriminate).
    split; [|split].
    + exists (setOf s k). split; [reflexivity|]. split; [reflexivity|]. split; [apply sorted_nodup, S|]. intros x. rewrite M. split; [intros Y; split; [exact Y|apply NI, Y]|tauto].
    + eexists. split; [reflexivity|]. unfold setOf in M. destruct (alookup k (mk_data s)) as [[|x l]|].
      * contradiction NE. reflexivity.
      * split; [|reflexivity]. intros _. exists x. assert (stored h k x) by (apply M; left; reflexivity). auto.
      * split; [discriminate|]. intros [x [Y _]]. apply M in Y. destruct Y.
    + intros k' D. reflexivity.
Qed.
Print Assumptions C66_first_removal.

(** ** What does not hold *)

Definition kx : bytes := B "serials::2026::x".
Definition four : list (Z * mop) := map (fun v => (0%Z, MInsert kx v)) [B "a"; B "b"; B "c"; B "d"].

(** Removing everything that is in a set leaves something in it: a removal puts the last
    element in the place of the removed one, and then the binary search misses. *)
Theorem C66_removal_refuted : exists h k l,
  fst (mstep 0 (MList k) (mruns h mockEmpty)) = MSet l /\
  fst (mstep 0 (MCard k) (mruns (h ++ [(0%Z, MRemove k l)]) mockEmpty)) <> MNum 0.
Proof. exists four, kx, [B "a"; B "b"; B "c"; B "d"]. vm_compute. split; [reflexivity|discriminate]. Qed.

(** An element can be listed and denied, and be inserted a second time. *)
Theorem C66_duplicate_refuted : exists h k v l,
  fst (mstep 0 (MList k) (mruns h mockEmpty)) = MSet l /\ In v l /\
  fst (mstep 0 (MContains k v) (mruns h mockEmpty)) = MBool false /\
  fst (mstep 0 (MInsert k v) (mruns h mockEmpty)) = MBool true.
Proof.
  exists (four ++ [(0%Z, MRemove kx [B "a"])]), kx, (B "b"), [B "d"; B "b"; B "c"]. vm_compute.
  split; [reflexivity|]. split; [auto|]. split; reflexivity.
Qed.

(** What is inserted under a key that has expired is lost, and a key that was emptied and
    filled again keeps its old time of expiry; Redis forgets it. *)
Theorem C66_expired_refuted : exists k v,
  let h := [(0%Z, MInsert k (B "a")); (0%Z, MExpire k 5)] in
  fst (mstep 6 (MContains k v) (mruns (h ++ [(6%Z, MInsert k v)]) mockEmpty)) = MBool false /\
  fst (mstep 6 (MContains k v) (mruns (h ++ [(1%Z, MRemove k [B "a"]); (2%Z, MInsert k v)]) mockEmpty)) = MBool false.
Proof. exists kx, (B "z"). vm_compute. split; reflexivity. Qed.

Print Assumptions C66_removal_refuted.
Print Assumptions C66_duplicate_refuted.
Print Assumptions C66_expired_refuted.

Example C66_example :
  let h := [(0%Z, MInsert kx (B "m")); (1%Z, MExpire kx 9); (2%Z, MInsertMany [(kx, B "a", 3%Z); (kx, B "m", 3%Z); (B "other", B "q", 3%Z)])] in
  noRemoval h /\ (forall n, In n (map fst h) -> noTimeout h n) /\ noTimeout h 9 /\
  fst (mstep 9 (MList kx) (mruns h mockEmpty)) = MSet [B "a"; B "m"].
Proof.
  cbv zeta. split; [|split; [|split]].
  - intros now k vs I. cbn in I. intuition congruence.
  - intros n I n' k t I'. cbn [In map fst] in I, I'.
    assert (t = 9%Z) as -> by (intuition congruence). split; [|intuition lia].
    intros n'' o I''. cbn [In] in I''. assert (n'' = 0 \/ n'' = 1 \/ n'' = 2)%Z by (intuition congruence). lia.
  - intros n' k t I'. cbn [In] in I'. assert (t = 9%Z) as -> by (intuition congruence). split; [|lia].
    intros n'' o I''. cbn [In] in I''. assert (n'' = 0 \/ n'' = 1 \/ n'' = 2)%Z by (intuition congruence). lia.
  - vm_compute. reflexivity.
Qed.

(** The first removal from a set of four: "a" goes, the last value takes its place. *)
Example C66_first_removal_example :
  noRemoval four /\ (forall n, In n (map fst four) -> noTimeout four n) /\ noTimeout four 0 /\
  fst (mstep 0 (MList kx) (snd (mstep 0 (MRemove kx [B "a"]) (mruns four mockEmpty)))) = MSet [B "d"; B "b"; B "c"].
Proof.
  split; [|split; [|split]].
  - intros now k vs I. cbn in I. repeat (destruct I as [I|I]; [discriminate I|]). exact I.
  - intros n _ n' k t I. exfalso. cbn in I. repeat (destruct I as [I|I]; [discriminate I|]). exact I.
  - intros n' k t I. exfalso. cbn in I. repeat (destruct I as [I|I]; [discriminate I|]). exact I.
  - vm_compute. reflexivity.
Qed.
