(** * C83: commands sent more than once by the Redis client *)
From Verif Require Import Base SerialModel PublishModel EpochModel RetryModel P_Epoch.
From Coq Require Import Strings.Byte.
Local Open Scope Z_scope.

(** ** What can be observed: the answers to whatever is asked later *)
Fixpoint answers (h : list (Z * cmd)) (s : store) : list reply :=
  match h with
  | [] => []
  | (now, c) :: h' => let (r, s') := exec now c s in r :: answers h' s'
  end.
(** The clock does not go back. *)
Fixpoint from (t : Z) (h : list (Z * cmd)) : Prop :=
  match h with
  | [] => True
  | (now, _) :: h' => t <= now /\ from now h'
  end.
Definition alike (t : Z) (s1 s2 : store) : Prop := forall h, from t h -> answers h s1 = answers h s2.

Definition same (t : Z) (s1 s2 : store) : Prop := forall t' k, t <= t' -> live t' k s1 = live t' k s2.

Lemma live_aset_same t k v e s : live t k (aset k (v, e) s) = match e with Some x => if t <=? x then Some (v, Some x) else None | None => Some (v, None) end.
Proof. unfold live. rewrite alookup_aset_same. destruct e; reflexivity. Qed.
Lemma live_aset_other t k k' x s : k <> k' -> live t k (aset k' x s) = live t k s.
Proof. intros N. unfold live. rewrite alookup_aset_other by exact N. reflexivity. Qed.
Lemma live_aremove_same t k s : live t k (aremove k s) = None.
Proof. unfold live. rewrite alookup_aremove_same. reflexivity. Qed.
Lemma live_aremove_other t k k' s : k <> k' -> live t k (aremove k' s) = live t k s.
Proof. intros N. unfold live. rewrite alookup_aremove_other by exact N. reflexivity. Qed.
Lemma live_earlier t1 t2 k s x : t1 <= t2 -> live t2 k s = Some x -> live t1 k s = Some x.
Proof.
  unfold live. intros L. destruct (alookup k s) as [[v [e|]]|]; auto. destruct (Z.leb_spec t2 e); [|discriminate]. destruct (Z.leb_spec t1 e); [auto|lia].
Qed.
Lemma live_gone t1 t2 k s : t1 <= t2 -> live t1 k s = None -> live t2 k s = None.
Proof. intros L H. destruct (live t2 k s) eqn:E; [|reflexivity]. rewrite (live_earlier t1 t2 k s _ L E) in H. discriminate H. Qed.
Lemma live_expiry t k s v e : live t k s = Some (v, e) -> match e with Some x => t <= x | None => True end.
Proof. unfold live. destruct (alookup k s) as [[w [x|]]|]; [| |discriminate]; [destruct (Z.leb_spec t x); [|discriminate]|]; intros Q; injection Q as <- <-; auto. Qed.
(** Later the key is as it was, or gone because of its expiry. *)
Lemma live_later t1 t2 k s v e : t1 <= t2 -> live t1 k s = Some (v, e) -> live t2 k s = match e with Some x => if t2 <=? x then Some (v, e) else None | None => Some (v, e) end.
Proof.
  unfold live. intros L. destruct (alookup k s) as [[w [x|]]|]; [| |discriminate].
  - destruct (Z.leb_spec t1 x); [|discriminate]. intros H0. injection H0 as <- <-. reflexivity.
  - intros H. injection H as <- <-. reflexivity.
Qed.

Lemma same_refl t s : same t s s. Proof. intros ? ? _. reflexivity. Qed.
Lemma same_later t t' s1 s2 : t <= t' -> same t s1 s2 -> same t' s1 s2.
Proof. intros L H t0 k L0. apply H. lia. Qed.
Lemma same_aset t k x s1 s2 : same t s1 s2 -> same t (aset k x s1) (aset k x s2).
Proof. intros H t' k' L. destruct x as [v e]. destruct (beq_spec k' k) as [->|N]; [rewrite !live_aset_same; reflexivity|rewrite !live_aset_other by exact N; apply H; exact L]. Qed.
Lemma same_aremove t k s1 s2 : same t s1 s2 -> same t (aremove k s1) (aremove k s2).
Proof. intros H t' k' L. destruct (beq_spec k' k) as [->|N]; [rewrite !live_aremove_same; reflexivity|rewrite !live_aremove_other by exact N; apply H; exact L]. Qed.
Lemma same_exec now c s1 s2 : same now s1 s2 -> fst (exec now c s1) = fst (exec now c s2) /\ same now (snd (exec now c s1)) (snd (exec now c s2)).
Proof.
  intros H. assert (A := fun k => H now k (Z.le_refl now)).
  destruct c as [k v|k t|k vs|k v|k|k v|k v ttl|k|k]; cbn [exec]; try rewrite (A k);
    try (destruct (live now k s2) as [[[b|l] e]|]);
    repeat match goal with |- context [if ?b then _ else _] => destruct b | |- context [match ?x with [] => _ | _ :: _ => _ end] => destruct x | |- context [match incr ?x with _ => _ end] => destruct (incr x) end;
    cbn [fst snd]; (split; [reflexivity|]); auto using same_aset, same_aremove.
Qed.
Lemma same_alike t s1 s2 : same t s1 s2 -> alike t s1 s2.
Proof.
  intros H h. revert t s1 s2 H. induction h as [|[now c] h IH]; intros t s1 s2 H F; [reflexivity|]. destruct F as [L F]. cbn [answers].
  destruct (same_exec now c s1 s2 (same_later _ _ _ _ L H)) as [E S]. destruct (exec now c s1) as [r1 s1'], (exec now c s2) as [r2 s2']. cbn [fst snd] in *. subst r2. f_equal. exact (IH now s1' s2' S F).
Qed.

(** ** Commands that may be repeated *)
Definition repeatable (c : cmd) : Prop := match c with SetNX _ _ _ | Incr _ | ExpireAt _ _ => False | _ => True end.

Lemma mem_In x l : mem x l = true <-> In x l.
Proof.
  unfold mem. rewrite existsb_exists. split.
  - intros [y [I E]]. destruct (beq_spec x y) as [->|]; [exact I|discriminate E].
  - intros I. exists x. split; [exact I|apply beq_refl].
Qed.
Lemma same_by k t s1 s2 : (forall t', t <= t' -> live t' k s1 = live t' k s2) -> (forall t' k', k' <> k -> live t' k' s1 = live t' k' s2) -> same t s1 s2.
Proof. intros A C t' k' L. destruct (beq_spec k' k) as [->|N]; auto. Qed.
Definition keyOf (c : cmd) : bytes := match c with SAdd k _ | ExpireAt k _ | SRem k _ | SIsMember k _ | Get k | Put k _ | SetNX k _ _ | Incr k | Del k => k end.
Lemma exec_other now c s t k' : k' <> keyOf c -> live t k' (snd (exec now c s)) = live t k' s.
Proof.
  intros N. destruct c as [k v|k x|k vs|k v|k|k v|k v ttl|k|k]; cbn [exec keyOf] in *;
    try (destruct (live now k s) as [[[b|l] e]|]);
    repeat match goal with |- context [if ?b then _ else _] => destruct b | |- context [match ?x with [] => _ | _ :: _ => _ end] => destruct x | |- context [match incr ?x with _ => _ end] => destruct (incr x) end;
    cbn [snd]; rewrite ?(live_aset_other t k' k _ s N), ?(live_aremove_other t k' k s N); reflexivity.
Qed.
Lemma twice c t1 t2 s : repeatable c -> t1 <= t2 -> same t2 (snd (exec t2 c (snd (exec t1 c s)))) (snd (exec t2 c s)).
Proof.
  intros R L. apply (same_by (keyOf c)).
  2:{ intros t' k' N. rewrite !exec_other by exact N. reflexivity. }
  intros t' L'. destruct c as [k v|k x|k vs|k v|k|k v|k v ttl|k|k]; cbn [keyOf]; try contradiction.
  - (* SADD *) destruct (live t1 k s) as [[[b|l] e]|] eqn:E1.
    + assert (Q : snd (exec t1 (SAdd k v) s) = s) by (cbn [exec]; rewrite E1; reflexivity). rewrite Q. reflexivity.
    + assert (E2 := live_later t1 t2 k s _ _ L E1). destruct (mem v l) eqn:M; [assert (Q : snd (exec t1 (SAdd k v) s) = s) by (cbn [exec]; rewrite E1, M; reflexivity); rewrite Q; reflexivity|].
      assert (Q : snd (exec t1 (SAdd k v) s) = aset k (VSet (v :: l), e) s) by (cbn [exec]; rewrite E1, M; reflexivity). rewrite Q. clear Q. cbn [exec]. rewrite E2, live_aset_same.
      assert (MV : mem v (v :: l) = true) by (apply mem_In; left; reflexivity).
      destruct e as [x|]; [destruct (t2 <=? x)|]; rewrite ?MV, ?M; cbn [snd]; rewrite ?live_aset_same; reflexivity.
    + assert (E2 := live_gone t1 t2 k s L E1). assert (Q : snd (exec t1 (SAdd k v) s) = aset k (VSet [v], None) s) by (cbn [exec]; rewrite E1; reflexivity). rewrite Q. clear Q. cbn [exec]. rewrite E2, live_aset_same.
      assert (MV : mem v [v] = true) by (apply mem_In; left; reflexivity). rewrite MV. reflexivity.
  - (* SREM *) destruct (live t1 k s) as [[[b|l] e]|] eqn:E1.
    + assert (Q : snd (exec t1 (SRem k vs) s) = s) by (cbn [exec]; rewrite E1; reflexivity). rewrite Q. reflexivity.
    + assert (E2 := live_later t1 t2 k s _ _ L E1). assert (E3 := live_later t1 t' k s _ _ (Z.le_trans _ _ _ L L') E1).
      destruct (filter (fun x => negb (mem x vs)) l) as [|y l'] eqn:F.
      * assert (Q : snd (exec t1 (SRem k vs) s) = aremove k s) by (cbn [exec]; rewrite E1, F; reflexivity). rewrite Q. clear Q. cbn [exec]. rewrite E2, live_aremove_same. cbn [snd]. rewrite live_aremove_same.
        destruct e as [x|]; [destruct (Z.leb_spec t2 x); [|cbn [snd]; rewrite E3; destruct (Z.leb_spec t' x); [lia|reflexivity]]|]; rewrite F; cbn [snd]; rewrite live_aremove_same; reflexivity.
      * assert (Q : snd (exec t1 (SRem k vs) s) = aset k (VSet (y :: l'), e) s) by (cbn [exec]; rewrite E1, F; reflexivity). rewrite Q. clear Q. cbn [exec]. rewrite E2, live_aset_same.
        assert (FF : filter (fun x => negb (mem x vs)) (y :: l') = y :: l').
        { rewrite <- F. clear. induction l as [|z l IH]; [reflexivity|]. cbn [filter]. destruct (negb (mem z vs)) eqn:Z0; [cbn [filter]; rewrite Z0, IH; reflexivity|exact IH]. }
        destruct e as [x|]; [destruct (Z.leb_spec t2 x)|]; [rewrite FF, F; cbn [snd]; rewrite !live_aset_same; reflexivity| |rewrite FF, F; cbn [snd]; rewrite !live_aset_same; reflexivity].
        cbn [snd]. rewrite E3, live_aset_same. destruct (Z.leb_spec t' x); [lia|reflexivity].
    + assert (Q : snd (exec t1 (SRem k vs) s) = s) by (cbn [exec]; rewrite E1; reflexivity). rewrite Q. reflexivity.
  - assert (Q : snd (exec t1 (SIsMember k v) s) = s) by (cbn [exec]; destruct (live t1 k s) as [[[]]|]; reflexivity). rewrite Q. reflexivity.
  - assert (Q : snd (exec t1 (Get k) s) = s) by (cbn [exec]; destruct (live t1 k s) as [[[]]|]; reflexivity). rewrite Q. reflexivity.
  - cbn [exec snd]. rewrite !live_aset_same. reflexivity.
  - cbn [exec snd]. rewrite !live_aremove_same. reflexivity.
Qed.

(** Nobody else does anything between the attempts. *)
Definition quiet (l : list attempt) : Prop := forall a, In a l -> at_others a = [].
Fixpoint clock (t : Z) (l : list attempt) : Prop :=
  match l with
  | [] => True
  | a :: l' => t <= at_now a /\ clock (at_now a) l'
  end.
(** The effect of all attempts. *)
Fixpoint effects (c : cmd) (l : list attempt) (s : store) : store :=
  match l with
  | [] => s
  | a :: l' => effects c l' (if at_done a then snd (exec (at_now a) c s) else s)
  end.
Lemma deliver_effects c l : forall ans s, quiet l -> snd (deliver c l ans s) = effects c l s.
Proof.
  induction l as [|a l IH]; intros ans s Q; [reflexivity|]. cbn [deliver effects]. rewrite (Q a (or_introl eq_refl)). cbn [execs]. destruct l as [|b l].
  - destruct (at_done a); [|reflexivity]. cbn [effects]. destruct (exec (at_now a) c s). reflexivity.
  - apply IH. intros x I. apply Q. right. exact I.
Qed.
Lemma effects_none c l s : (forall a, In a l -> at_done a = false) -> effects c l s = s.
Proof. revert s. induction l as [|a l IH]; intros s H; [reflexivity|]. cbn [effects]. rewrite (H a (or_introl eq_refl)). apply IH. intros x I. apply H. right. exact I. Qed.
Lemma clock_last t l1 a l2 : clock t (l1 ++ a :: l2) -> t <= at_now a.
Proof. revert t. induction l1 as [|b l1 IH]; intros t [L C]; [exact L|]. apply IH in C. lia. Qed.
Lemma same_trans t s1 s2 s3 : same t s1 s2 -> same t s2 s3 -> same t s1 s3.
Proof. intros A C t' k L. rewrite (A t' k L). apply C. exact L. Qed.

(** However often a command reaches the server before the client is satisfied or gives up,
    nobody can later tell that from its reaching the server once, the last time. *)
Theorem C83_repeat : forall c l1 a l2 ans s t, repeatable c -> quiet (l1 ++ a :: l2) -> clock t (l1 ++ a :: l2) ->
  at_done a = true -> (forall b, In b l2 -> at_done b = false) ->
  alike (at_now a) (snd (deliver c (l1 ++ a :: l2) ans s)) (snd (exec (at_now a) c s)).
Proof.
  intros c l1 a l2 ans s t R Q C D N. apply same_alike. rewrite deliver_effects by exact Q. clear Q ans. revert t s C. induction l1 as [|b l1 IH]; intros t s C; cbn [app effects] in *.
  - rewrite D, effects_none by exact N. apply same_refl.
  - destruct C as [L C]. specialize (IH (at_now b) (if at_done b then snd (exec (at_now b) c s) else s) C). destruct (at_done b); [|exact IH].
    eapply same_trans; [exact IH|]. apply twice; [exact R|]. exact (clock_last _ _ _ _ C).
Qed.
Print Assumptions C83_repeat.

(** Nothing got through: nothing happened. *)
Theorem C83_unsent : forall c l ans s, quiet l -> (forall a, In a l -> at_done a = false) -> deliver c l ans s = (None, s).
Proof.
  intros c l ans s. induction l as [|a l IH]; intros Q N; [reflexivity|]. cbn [deliver]. rewrite (Q a (or_introl eq_refl)), (N a (or_introl eq_refl)). cbn [execs]. destruct l as [|b l]; [reflexivity|].
  apply IH; intros x I; [apply Q|apply N]; right; exact I.
Qed.
Print Assumptions C83_unsent.

(** An answer is the answer to the last attempt. *)
Lemma answered_last c l r s s' : deliver c l true s = (Some r, s') -> exists l0 a s0, l = l0 ++ [a] /\ at_done a = true /\ exec (at_now a) c s0 = (r, s').
Proof.
  revert s. induction l as [|a l IH]; intros s; [discriminate|]. cbn [deliver]. destruct l as [|b l].
  - destruct (at_done a) eqn:D; [|discriminate]. destruct (exec (at_now a) c (execs (at_others a) s)) as [r0 s0] eqn:E. intros Q. exists [], a, (execs (at_others a) s). split; [reflexivity|]. split; [exact D|congruence].
  - intros Q. destruct (IH _ Q) as [l0 [a0 [s0 [E R]]]]. exists (a :: l0), a0, s0. rewrite E. split; [reflexivity|exact R].
Qed.
Definition timeOf (l : list attempt) : Z := match rev l with a :: _ => at_now a | [] => 0 end.
Lemma timeOf_last l a : timeOf (l ++ [a]) = at_now a.
Proof. unfold timeOf. rewrite rev_app_distr. reflexivity. Qed.

(** Whatever other clients did between the attempts: an entry whose insertion was answered is
    there, and an entry whose removal was answered is not. *)
Theorem C83_inserted : forall k v l b s s', deliver (SAdd k v) l true s = (Some (RBool b), s') ->
  fst (exec (timeOf l) (SIsMember k v) s') = RBool true.
Proof.
  intros k v l b s s' H. destruct (answered_last _ _ _ _ _ H) as [l0 [a [s0 [-> [_ E]]]]]. rewrite timeOf_last. cbn [exec] in *.
  destruct (live (at_now a) k s0) as [[[x|m] e]|] eqn:L0; [discriminate E| |].
  - destruct (mem v m) eqn:M.
    + injection E as _ <-. rewrite L0. cbn [fst]. rewrite M. reflexivity.
    + injection E as _ <-. rewrite live_aset_same. assert (X := live_expiry _ _ _ _ _ L0). assert (MV : mem v (v :: m) = true) by (apply mem_In; left; reflexivity).
      destruct e as [x|]; [destruct (Z.leb_spec (at_now a) x); [|lia]|]; cbn [fst]; rewrite MV; reflexivity.
  - injection E as _ <-. rewrite live_aset_same. cbn [fst]. assert (MV : mem v [v] = true) by (apply mem_In; left; reflexivity). rewrite MV. reflexivity.
Qed.
Print Assumptions C83_inserted.
Theorem C83_removed : forall k vs v l s s', deliver (SRem k vs) l true s = (Some ROk, s') -> In v vs ->
  fst (exec (timeOf l) (SIsMember k v) s') = RBool false.
Proof.
  intros k vs v l s s' H I. destruct (answered_last _ _ _ _ _ H) as [l0 [a [s0 [-> [_ E]]]]]. rewrite timeOf_last. cbn [exec] in *.
  destruct (live (at_now a) k s0) as [[[x|m] e]|] eqn:L0; [discriminate E| |injection E as <-; rewrite L0; reflexivity].
  assert (F : mem v (filter (fun x => negb (mem x vs)) m) = false).
  { destruct (mem v (filter (fun x => negb (mem x vs)) m)) eqn:M; [|reflexivity]. apply mem_In in M. apply filter_In in M. destruct M as [_ M]. apply mem_In in I. rewrite I in M. discriminate M. }
  destruct (filter (fun x => negb (mem x vs)) m) as [|y m'].
  - injection E as <-. rewrite live_aremove_same. reflexivity.
  - injection E as <-. rewrite live_aset_same. destruct e as [x|]; [destruct (at_now a <=? x)|]; cbn [fst]; rewrite ?F; reflexivity.
Qed.
Print Assumptions C83_removed.

(** ** The batch insertion *)

(** The key is used for a set that ends at [x], by everybody. *)
Definition inserting (k : bytes) (x : Z) (h : list (Z * cmd)) : Prop :=
  forall t c, In (t, c) h -> keyOf c = k -> t < x /\ match c with SAdd _ _ | SIsMember _ _ => True | ExpireAt _ y => y = x | _ => False end.
Definition asSet (k : bytes) (x : Z) (s : store) : Prop :=
  match alookup k s with None => True | Some (VSet _, e) => e = None \/ e = Some x | Some (VStr _, _) => False end.
(** The set holds [v]; [b]: and will end at [x]. *)
Definition kept (k v : bytes) (x : Z) (b : bool) (s : store) : Prop :=
  exists l e, alookup k s = Some (VSet l, e) /\ In v l /\ (e = Some x \/ b = false /\ e = None).

Lemma exec_alookup_other now c s k' : k' <> keyOf c -> alookup k' (snd (exec now c s)) = alookup k' s.
Proof.
  intros N. destruct c as [k v|k x|k vs|k v|k|k v|k v ttl|k|k]; cbn [exec keyOf] in *;
    try (destruct (live now k s) as [[[b|l] e]|]);
    repeat match goal with |- context [if ?b then _ else _] => destruct b | |- context [match ?x with [] => _ | _ :: _ => _ end] => destruct x | |- context [match incr ?x with _ => _ end] => destruct (incr x) end;
    cbn [snd]; rewrite ?alookup_aset_other, ?alookup_aremove_other by exact N; reflexivity.
Qed.
Lemma live_set now k x s : asSet k x s -> now < x -> live now k s = alookup k s.
Proof.
  unfold asSet, live. intros A L. destruct (alookup k s) as [[[b|l] [y|]]|]; try contradiction; try reflexivity. destruct A as [A|A]; [discriminate A|]. injection A as ->. destruct (Z.leb_spec now x); [reflexivity|lia].
Qed.
Definition allowed (k : bytes) (x now : Z) (c : cmd) : Prop := keyOf c = k -> now < x /\ match c with SAdd _ _ | SIsMember _ _ => True | ExpireAt _ y => y = x | _ => False end.
Lemma set_step k x now c s : asSet k x s -> allowed k x now c -> asSet k x (snd (exec now c s)).
Proof.
  intros A W. destruct (beq_spec k (keyOf c)) as [Q|N]; [|unfold asSet; rewrite exec_alookup_other by exact N; exact A].
  destruct (W (eq_sym Q)) as [L W']. destruct c as [k0 v|k0 y|k0 vs|k0 v|k0|k0 v|k0 v ttl|k0|k0]; cbn [keyOf] in Q; subst k0; try contradiction; cbn [exec]; rewrite (live_set now k x s A L).
  - unfold asSet in *. destruct (alookup k s) as [[[b|l] e]|] eqn:E; [contradiction| |].
    + destruct (mem v l); cbn [snd]; rewrite ?alookup_aset_same, ?E; exact A.
    + cbn [snd]. rewrite alookup_aset_same. left. reflexivity.
  - subst y. unfold asSet in *. destruct (alookup k s) as [[[b|l] e]|] eqn:E; [contradiction| |cbn [snd]; rewrite E; exact I].
    cbn [snd]. destruct (Z.leb_spec x now); [lia|]. rewrite alookup_aset_same. right. reflexivity.
  - unfold asSet in *. destruct (alookup k s) as [[[b|l] e]|] eqn:E; cbn [snd]; rewrite ?E; assumption.
Qed.
Lemma kept_step k v x b now c s : asSet k x s -> allowed k x now c -> kept k v x b s -> kept k v x b (snd (exec now c s)).
Proof.
  intros A W [l [e [E [I X]]]]. destruct (beq_spec k (keyOf c)) as [Q|N]; [|exists l, e; rewrite exec_alookup_other by exact N; auto].
  destruct (W (eq_sym Q)) as [L W']. destruct c as [k0 w|k0 y|k0 vs|k0 w|k0|k0 w|k0 w ttl|k0|k0]; cbn [keyOf] in Q; subst k0; try contradiction; cbn [exec]; rewrite (live_set now k x s A L), E.
  - destruct (mem w l); cbn [snd]; [exists l, e; auto|]. exists (w :: l), e. rewrite alookup_aset_same. split; [reflexivity|]. split; [right; exact I|exact X].
  - subst y. cbn [snd]. destruct (Z.leb_spec x now); [lia|]. exists l, (Some x). rewrite alookup_aset_same. auto.
  - cbn [snd]. exists l, e. auto.
Qed.
Lemma added k v x now s : asSet k x s -> now < x -> kept k v x false (snd (exec now (SAdd k v) s)).
Proof.
  intros A L. cbn [exec]. rewrite (live_set now k x s A L). unfold asSet in A. destruct (alookup k s) as [[[b|l] e]|] eqn:E; [contradiction| |].
  - destruct (mem v l) eqn:M; cbn [snd].
    + exists l, e. rewrite E. split; [reflexivity|]. split; [apply mem_In; exact M|]. destruct A as [->| ->]; auto.
    + exists (v :: l), e. rewrite alookup_aset_same. split; [reflexivity|]. split; [left; reflexivity|]. destruct A as [->| ->]; auto.
  - exists [v], None. cbn [snd]. rewrite alookup_aset_same. split; [reflexivity|]. split; [left; reflexivity|auto].
Qed.
Lemma dated k v x now s : asSet k x s -> now < x -> kept k v x false s -> kept k v x true (snd (exec now (ExpireAt k x) s)).
Proof.
  intros A L [l [e [E [I _]]]]. cbn [exec]. rewrite (live_set now k x s A L), E. cbn [snd]. destruct (Z.leb_spec x now); [lia|]. exists l, (Some x). rewrite alookup_aset_same. auto.
Qed.
Lemma run_set k x h : forall s, inserting k x h -> asSet k x s -> asSet k x (execs h s).
Proof.
  induction h as [|[now c] h IH]; intros s W A; [exact A|]. cbn [execs]. apply IH; [intros t c' I; apply W; right; exact I|]. apply set_step; [exact A|]. intros Q. exact (W now c (or_introl eq_refl) Q).
Qed.
Lemma run_kept k v x b h : forall s, inserting k x h -> asSet k x s -> kept k v x b s -> kept k v x b (execs h s).
Proof.
  induction h as [|[now c] h IH]; intros s W A K; [exact K|]. assert (W1 : allowed k x now c) by (intros Q; exact (W now c (or_introl eq_refl) Q)).
  cbn [execs]. apply IH; [intros t c' I; apply W; right; exact I|apply set_step; assumption|apply kept_step; assumption].
Qed.
Lemma execs_app h1 h2 s : execs (h1 ++ h2) s = execs h2 (execs h1 s).
Proof. revert s. induction h1 as [|[now c] h1 IH]; intros s; [reflexivity|apply IH]. Qed.
Lemma own_split h l1 c l2 : own h = l1 ++ c :: l2 -> exists h1 now h2, h = h1 ++ (true, (now, c)) :: h2 /\ own h2 = l2.
Proof.
  revert l1. induction h as [|[b [now c0]] h IH]; intros l1 E; [destruct l1; discriminate E|]. destruct b.
  - unfold own in E. cbn [filter fst map snd] in E. destruct l1 as [|d l1]; cbn [app] in E.
    + injection E as -> E. exists [], now, h. split; [reflexivity|exact E].
    + injection E as -> E. destruct (IH l1 E) as [h1 [n [h2 [-> R]]]]. exists ((true, (now, d)) :: h1), n, h2. split; [reflexivity|exact R].
  - destruct (IH l1 E) as [h1 [n [h2 [-> R]]]]. exists ((false, (now, c0)) :: h1), n, h2. split; [reflexivity|exact R].
Qed.
Lemma pipeline_split items k v x : In (k, v, x) items -> exists l1 l2, pipeline items = l1 ++ SAdd k v :: ExpireAt k x :: l2.
Proof.
  induction items as [|i items IH]; [intros []|]. intros [->|I].
  - exists [], (pipeline items). reflexivity.
  - destruct (IH I) as [l1 [l2 E]]. exists (SAdd (fst (fst i)) (snd (fst i)) :: ExpireAt (fst (fst i)) (snd i) :: l1), l2. unfold pipeline in *. cbn [flat_map app]. rewrite E. reflexivity.
Qed.
Lemma inserting_app k x h1 h2 : inserting k x (h1 ++ h2) -> inserting k x h1 /\ inserting k x h2.
Proof. intros W. split; intros t c I; apply W; apply in_or_app; [left|right]; exact I. Qed.

(** A batch whose last attempt was answered is there, with its end, however the attempts before
    it broke off and whatever was inserted by others in between. *)
Theorem C83_batch : forall items failed last s k v x, sent (pipeline items) failed last -> In (k, v, x) items ->
  asSet k x s -> inserting k x (carried (concat failed ++ last)) ->
  forall t, let s' := execs (carried (concat failed ++ last)) s in
  fst (exec t (SIsMember k v) s') = RBool (t <=? x).
Proof.
  intros items failed last s k v x [_ O] I A W t s'.
  destruct (pipeline_split items k v x I) as [l1 [l2 P]]. rewrite P in O. destruct (own_split _ _ _ _ O) as [h1 [n1 [h2 [-> O2]]]]. destruct (own_split h2 [] _ _ O2) as [h3 [n2 [h4 [-> _]]]].
  assert (K : kept k v x true s').
  { unfold s'. clear s'. unfold carried in *. rewrite !map_app in *. cbn [map snd] in *. rewrite !map_app in *. cbn [map snd] in *. apply inserting_app in W. destruct W as [W0 W]. apply inserting_app in W. destruct W as [W1 W].
    assert (L1 : n1 < x) by (apply (W n1 (SAdd k v)); [left; reflexivity|reflexivity]).
    apply (inserting_app k x [(n1, SAdd k v)]) in W. destruct W as [_ W]. apply inserting_app in W. destruct W as [W3 W].
    assert (L2 : n2 < x) by (apply (W n2 (ExpireAt k x)); [left; reflexivity|reflexivity]).
    apply (inserting_app k x [(n2, ExpireAt k x)]) in W. destruct W as [_ W4].
    rewrite execs_app, execs_app. cbn [execs]. rewrite execs_app. cbn [execs].
    set (s1 := execs (map snd h1) (execs (map snd (concat failed)) s)). assert (A1 : asSet k x s1) by (apply run_set; [exact W1|apply run_set; assumption]).
    assert (WA : forall now c, now < x -> match c with SAdd k' _ => k' = k | ExpireAt k' y => k' = k /\ y = x | _ => False end -> allowed k x now c).
    { intros now c L C Q. split; [exact L|]. destruct c; try contradiction; [exact Logic.I|exact (proj2 C)]. }
    assert (A2 : asSet k x (snd (exec n1 (SAdd k v) s1))) by (apply set_step; [exact A1|apply WA; [exact L1|reflexivity]]).
    assert (K2 := added k v x n1 s1 A1 L1). set (s2 := snd (exec n1 (SAdd k v) s1)) in *.
    assert (A3 := run_set k x _ s2 W3 A2). assert (K3 := run_kept k v x false _ s2 W3 A2 K2). set (s3 := execs (map snd h3) s2) in *.
    assert (A4 : asSet k x (snd (exec n2 (ExpireAt k x) s3))) by (apply set_step; [exact A3|apply WA; [exact L2|split; reflexivity]]).
    assert (K4 := dated k v x n2 s3 A3 L2 K3). apply run_kept; assumption. }
  destruct K as [l [e [E [IN [->|[Q _]]]]]]; [|discriminate Q]. cbn [exec]. unfold live. rewrite E. destruct (t <=? x); [|reflexivity]. cbn [fst]. apply mem_In in IN. rewrite IN. reflexivity.
Qed.
Print Assumptions C83_batch.

(** And nothing else comes in. *)
Lemma member_from h : forall s k w l e, alookup k (execs h s) = Some (VSet l, e) -> In w l ->
  (exists l0 e0, alookup k s = Some (VSet l0, e0) /\ In w l0) \/ exists t, In (t, SAdd k w) h.
Proof.
  induction h as [|[now c] h IH]; intros s k w l e E IN; [left; exists l, e; auto|]. cbn [execs] in E.
  destruct (IH _ _ _ _ _ E IN) as [[l1 [e1 [E1 I1]]]|[t I1]]; [|right; exists t; right; exact I1].
  destruct (beq_spec k (keyOf c)) as [Q|N]; [|rewrite exec_alookup_other in E1 by exact N; left; exists l1, e1; auto].
  assert (LV : forall v0 e0, live now k s = Some (v0, e0) -> alookup k s = Some (v0, e0)).
  { intros v0 e0. unfold live. destruct (alookup k s) as [[v1 [y|]]|]; auto. destruct (now <=? y); [auto|discriminate]. }
  destruct c as [k0 v|k0 y|k0 vs|k0 v|k0|k0 v|k0 v ttl|k0|k0]; cbn [keyOf] in Q; subst k0; cbn [exec] in E1.
  - destruct (live now k s) as [[[b|m] e0]|] eqn:L0.
    + left. exists l1, e1. auto.
    + destruct (mem v m); cbn [snd] in E1; [left; exists l1, e1; auto|]. rewrite alookup_aset_same in E1. injection E1 as <- _. destruct I1 as [->|I1]; [right; exists now; left; reflexivity|left; exists m, e0; auto].
    + cbn [snd] in E1. rewrite alookup_aset_same in E1. injection E1 as <- _. destruct I1 as [->|[]]. right. exists now. left. reflexivity.
  - left. destruct (live now k s) as [[v0 e0]|] eqn:L0; cbn [snd] in E1; [|exists l1, e1; auto]. destruct (y <=? now); [rewrite alookup_aremove_same in E1; discriminate E1|]. rewrite alookup_aset_same in E1. injection E1 as -> _. exists l1, e0. auto.
  - left. destruct (live now k s) as [[[b|m] e0]|] eqn:L0; [exists l1, e1; auto| |exists l1, e1; auto]. destruct (filter (fun x => negb (mem x vs)) m) as [|z m'] eqn:F; cbn [snd] in E1; [rewrite alookup_aremove_same in E1; discriminate E1|].
    rewrite alookup_aset_same in E1. injection E1 as <- _. rewrite <- F in I1. apply filter_In in I1. exists m, e0. split; [auto|tauto].
  - left. destruct (live now k s) as [[[]]|]; exists l1, e1; auto.
  - left. destruct (live now k s) as [[[]]|]; exists l1, e1; auto.
  - cbn [snd] in E1. rewrite alookup_aset_same in E1. discriminate E1.
  - left. destruct (live now k s); cbn [snd] in E1; [exists l1, e1; auto|]. rewrite alookup_aset_same in E1. discriminate E1.
  - left. destruct (live now k s) as [[[b|m] e0]|]; [destruct (incr (Some b))| |destruct (incr None)]; cbn [snd] in E1; try (rewrite alookup_aset_same in E1; discriminate E1); exists l1, e1; auto.
  - cbn [snd] in E1. rewrite alookup_aremove_same in E1. discriminate E1.
Qed.
Lemma own_In h t c b : In (b, (t, c)) h -> b = true -> In c (own h).
Proof. intros I ->. unfold own. change c with ((fun e : bool * (Z * cmd) => snd (snd e)) (true, (t, c))). apply in_map. apply filter_In. split; [exact I|reflexivity]. Qed.
Lemma pipeline_In items k w : In (SAdd k w) (pipeline items) -> exists x, In (k, w, x) items.
Proof.
  unfold pipeline. intros I. apply in_flat_map in I. destruct I as [[[k0 w0] x] [I [E|[E|[]]]]]; cbn [fst snd] in E; [|discriminate E]. injection E as -> ->. exists x. exact I.
Qed.
Theorem C83_batch_only : forall items failed last s k w t, sent (pipeline items) failed last ->
  fst (exec t (SIsMember k w) (execs (carried (concat failed ++ last)) s)) = RBool true ->
  (exists t0, fst (exec t0 (SIsMember k w) s) = RBool true) \/ (exists x, In (k, w, x) items) \/ exists t0, In (false, (t0, SAdd k w)) (concat failed ++ last).
Proof.
  intros items failed last s k w t [S1 S2] M. cbn [exec] in M. destruct (live t k (execs (carried (concat failed ++ last)) s)) as [[[b|l] e]|] eqn:L; try discriminate M.
  cbn [fst] in M. assert (M' : mem w l = true) by congruence. apply mem_In in M'.
  assert (E : alookup k (execs (carried (concat failed ++ last)) s) = Some (VSet l, e)).
  { unfold live in L. destruct (alookup k (execs (carried (concat failed ++ last)) s)) as [[v1 [y|]]|]; try (exact L). destruct (t <=? y); [exact L|discriminate L]. }
  destruct (member_from _ _ _ _ _ _ E M') as [[l0 [e0 [E0 I0]]]|[t0 I0]].
  - left. apply mem_In in I0. exists (match e0 with Some y => y | None => 0 end). cbn [exec]. unfold live. rewrite E0. destruct e0 as [y|]; [destruct (Z.leb_spec y y); [|lia]|]; cbn [fst]; rewrite I0; reflexivity.
  - right. unfold carried in I0. apply in_map_iff in I0. destruct I0 as [[b [t1 c]] [Q I0]]. cbn [snd] in Q. injection Q as -> ->. destruct b; [|right; exists t0; exact I0]. left.
    apply (pipeline_In items). apply in_app_or in I0. destruct I0 as [I0|I0].
    + apply in_concat in I0. destruct I0 as [h [Ih I0]]. destruct (S1 h Ih) as [n O]. assert (O' := own_In h _ _ _ I0 eq_refl). rewrite O in O'. rewrite <- (firstn_skipn n (pipeline items)). apply in_or_app. left. exact O'.
    + rewrite <- S2. exact (own_In last _ _ _ I0 eq_refl).
Qed.
Print Assumptions C83_batch_only.

(** Two items of one day, the first attempt cut after three commands, the insertion of another
    client in between. *)
Definition twoItems : list (bytes * bytes * Z) := [(B "serials::2026-11-30::X", B "a", 900); (B "serials::2026-11-30::X", B "b", 900)].
Definition K1 := B "serials::2026-11-30::X".
Definition cutOff : list (bool * (Z * cmd)) := [(true, (10, SAdd K1 (B "a"))); (true, (10, ExpireAt K1 900)); (true, (11, SAdd K1 (B "b")))].
Definition answered2 : list (bool * (Z * cmd)) :=
  [(true, (40, SAdd K1 (B "a"))); (false, (40, SAdd K1 (B "c"))); (true, (41, ExpireAt K1 900)); (true, (41, SAdd K1 (B "b"))); (true, (41, ExpireAt K1 900))].
Example C83_batch_example :
  sent (pipeline twoItems) [cutOff] answered2 /\ asSet K1 900 [] /\ inserting K1 900 (carried (concat [cutOff] ++ answered2)) /\
  (forall t, fst (exec t (SIsMember K1 (B "b")) (execs (carried (concat [cutOff] ++ answered2)) [])) = RBool (t <=? 900)).
Proof.
  assert (S : sent (pipeline twoItems) [cutOff] answered2).
  { split; [|reflexivity]. intros h [<-|[]]. exists 3%nat. reflexivity. }
  assert (W : inserting K1 900 (carried (concat [cutOff] ++ answered2))).
  { intros t c I _. cbv in I. repeat destruct I as [I|I]; try contradiction; injection I as <- <-; split; (lia || reflexivity || exact Logic.I). }
  split; [exact S|]. split; [exact Logic.I|]. split; [exact W|].
  intros t. apply (C83_batch twoItems [cutOff] answered2 [] K1 (B "b") 900 S); [right; left; reflexivity|exact Logic.I|exact W].
Qed.

(** ** The epoch *)

(** What other clients do between the attempts is about other keys. *)
Definition away (k : bytes) (l : list attempt) : Prop := forall a t c, In a l -> In (t, c) (at_others a) -> keyOf c <> k.
Definition times (l : list attempt) : nat := length (filter at_done l).
Lemma execs_away h : forall s k, (forall t c, In (t, c) h -> keyOf c <> k) -> alookup k (execs h s) = alookup k s.
Proof.
  induction h as [|[now c] h IH]; intros s k A; [reflexivity|]. cbn [execs]. rewrite IH by (intros t c' I; apply (A t c'); right; exact I). apply exec_alookup_other. intros Q. exact (A now c (or_introl eq_refl) (eq_sym Q)).
Qed.
(** The stored epoch is [n] and has no end. *)
Definition epochIs (n : N) (s : store) : Prop := alookup epochKey s = None /\ n = 0%N \/ alookup epochKey s = Some (VStr (decText n), None).
Lemma epochIs_holds n s t : epochIs n s -> holds (epochText t s) n.
Proof. unfold epochIs, holds, epochText, live. intros [[-> ->]| ->]; auto. Qed.
Lemma incr_step n s t : (n < 2 ^ 63 - 1)%N -> epochIs n s -> fst (exec t (Incr epochKey) s) = ROk /\ epochIs (n + 1) (snd (exec t (Incr epochKey) s)).
Proof.
  intros L E. assert (H := incr_spec (epochText t s) n (epochIs_holds n s t E)). destruct (N.ltb_spec n (2 ^ 63 - 1)); [|lia].
  cbn [exec]. unfold epochIs, epochText, live in *. destruct E as [[E ->]|E]; rewrite E in *; rewrite H; cbn [fst snd]; (split; [reflexivity|]); right; apply alookup_aset_same.
Qed.
Lemma incrs l : forall ans s n, away epochKey l -> epochIs n s -> (n + N.of_nat (times l) < 2 ^ 63)%N ->
  epochIs (n + N.of_nat (times l)) (snd (deliver (Incr epochKey) l ans s)) /\ (forall r, fst (deliver (Incr epochKey) l ans s) = Some r -> r = ROk).
Proof.
  induction l as [|a l IH]; intros ans s n A E L.
  - cbn. rewrite N.add_0_r. split; [exact E|discriminate].
  - assert (E1 : epochIs n (execs (at_others a) s)) by (unfold epochIs; rewrite execs_away; [exact E|intros t c I; exact (A a t c (or_introl eq_refl) I)]).
    assert (A' : away epochKey l) by (intros b t c I; apply A; right; exact I).
    cbn [deliver]. unfold times in L |- *. cbn [filter] in L |- *. destruct (at_done a) eqn:D.
    + cbn [length] in L |- *. assert (ST := incr_step n (execs (at_others a) s) (at_now a) ltac:(lia) E1). destruct (exec (at_now a) (Incr epochKey) (execs (at_others a) s)) as [r s2]. cbn [fst snd] in ST. destruct ST as [-> E2].
      destruct l as [|b l].
      * cbn [filter length fst snd]. split; [exact E2|]. destruct ans; [intros r Q; congruence|discriminate].
      * replace (n + N.of_nat (S (length (filter at_done (b :: l)))))%N with (n + 1 + N.of_nat (times (b :: l)))%N by (unfold times; lia).
        apply IH; [exact A'|exact E2|unfold times; lia].
    + destruct l as [|b l]; [cbn [filter length fst snd]; rewrite N.add_0_r; split; [exact E1|discriminate]|]. apply IH; assumption.
Qed.
(** The epoch goes up by as many as the server saw of the increments. *)
Theorem C83_epoch : forall l ans s n t, away epochKey l -> epochIs n s -> (n + N.of_nat (times l) < 2 ^ 63)%N ->
  cacheEpoch (epochText t (snd (nextEpoch l ans s))) = Some (n + N.of_nat (times l))%N.
Proof.
  intros l ans s n t A E L. destruct (incrs l ans s n A E L) as [H _]. unfold nextEpoch. destruct (deliver (Incr epochKey) l ans s) as [r s']. cbn [fst snd] in *.
  apply holds_says; [lia|]. apply epochIs_holds. exact H.
Qed.
Print Assumptions C83_epoch.
(** With the file of the commit written: the next commit is admitted exactly if the server saw
    one increment; otherwise commits are refused until the next start, which repairs it. *)
Theorem C83_epoch_commit : forall l s n t, away epochKey l -> epochIs n s -> (n + N.of_nat (times l) < 2 ^ 63)%N ->
  fst (nextEpoch l true s) = true ->
  let e := mkEp (Some (decText n ++ [nl])) (epochText t (snd (nextEpoch l true s))) in
  (admitted e = Some (n + 1)%N <-> times l = 1%nat) /\ (times l <> 1%nat -> admitted e = None) /\
  exists e', ensure e = Some e' /\ admitted e' = Some (n + 1)%N.
Proof.
  intros l s n t A E L OK e.
  assert (T : times l <> 0%nat).
  { unfold nextEpoch in OK. destruct (deliver (Incr epochKey) l true s) as [r s'] eqn:D. destruct r as [r|]; [|discriminate OK]. destruct (answered_last _ _ _ _ _ D) as [l0 [a [s0 [-> [Da _]]]]].
    unfold times. rewrite filter_app, app_length. cbn [filter]. rewrite Da. cbn [length]. lia. }
  assert (C := C83_epoch l true s n t A E L). assert (F := C80_file n ltac:(lia)).
  assert (TG : forall m, together m n = (m =? n + 1)%N || ((m =? 0)%N && (n =? 0)%N)) by (intros m; unfold together; rewrite N.mod_small by lia; reflexivity).
  assert (AD : admitted e = if Nat.eqb (times l) 1 then Some (n + 1)%N else None).
  { unfold admitted, e. cbn [e_file e_cache]. rewrite F, C, TG. destruct (Nat.eqb_spec (times l) 1) as [Q|Q].
    - rewrite Q. change (N.of_nat 1) with 1%N. rewrite N.eqb_refl. reflexivity.
    - destruct (N.eqb_spec (n + N.of_nat (times l)) (n + 1)); [lia|]. destruct (N.eqb_spec (n + N.of_nat (times l)) 0); [lia|]. reflexivity. }
  split; [|split].
  - rewrite AD. destruct (Nat.eqb_spec (times l) 1); split; try discriminate; try reflexivity; try congruence; auto.
  - intros N1. rewrite AD. destruct (Nat.eqb_spec (times l) 1); [congruence|reflexivity].
  - destruct (Nat.eqb_spec (times l) 1) as [Q|Q].
    + exists e. split; [|exact AD]. unfold ensure, e. cbn [e_file e_cache]. rewrite F, C, TG, Q. change (N.of_nat 1) with 1%N. rewrite N.eqb_refl. reflexivity.
    + exists (mkEp (Some (decText n ++ [nl])) (Some (decText (n + 1)))). split.
      * unfold ensure, e. cbn [e_file e_cache]. rewrite F, C, TG. destruct (N.eqb_spec (n + N.of_nat (times l)) (n + 1)); [lia|]. destruct (N.eqb_spec (n + N.of_nat (times l)) 0); [lia|]. cbn [andb orb]. rewrite N.mod_small by lia. reflexivity.
      * unfold admitted. cbn [e_file e_cache]. rewrite F. rewrite (holds_says (Some (decText (n + 1))) (n + 1)); [|lia|right; reflexivity]. rewrite TG, N.eqb_refl. reflexivity.
Qed.
Print Assumptions C83_epoch_commit.
(** So a commit that reports success can leave the next one refused. *)
Definition seen (now : Z) : attempt := mkAttempt [] now true.
Theorem C83_epoch_refuted : exists l s n, away epochKey l /\ epochIs n s /\ fst (nextEpoch l true s) = true /\
  admitted (mkEp (Some (decText n ++ [nl])) (epochText (timeOf l) (snd (nextEpoch l true s)))) = None.
Proof.
  exists [seen 100; seen 105], [(epochKey, (VStr (B "41"), None))], 41%N. split; [intros a t c [<-|[<-|[]]] []|]. split; [right; reflexivity|]. split; reflexivity.
Qed.
Print Assumptions C83_epoch_refuted.
Example C83_epoch_example : fst (nextEpoch [mkAttempt [] 100 false; seen 105] true [(epochKey, (VStr (B "41"), None))]) = true /\
  admitted (mkEp (Some (B "41" ++ [nl])) (epochText 105 (snd (nextEpoch [mkAttempt [] 100 false; seen 105] true [(epochKey, (VStr (B "41"), None))])))) = Some 42%N.
Proof. split; reflexivity. Qed.

(** ** The commit lock *)
Definition held (b : bytes) (x : Z) (s : store) : Prop := alookup lockKey s = Some (VStr b, Some x).
Lemma held_has b x s t : held b x s -> t <= x -> hasLock t b s = true.
Proof. unfold held, hasLock. cbn [exec]. unfold live. intros -> L. destruct (Z.leb_spec t x); [|lia]. cbn [fst]. apply beq_refl. Qed.
Lemma refused l : forall ans s b x token, away lockKey l -> held b x s -> (forall a, In a l -> at_now a <= x) ->
  (fst (deliver (SetNX lockKey token lockTime) l ans s) = None \/ fst (deliver (SetNX lockKey token lockTime) l ans s) = Some (RBool false)) /\
  held b x (snd (deliver (SetNX lockKey token lockTime) l ans s)).
Proof.
  induction l as [|a l IH]; intros ans s b x token A H T; [split; [left; reflexivity|exact H]|].
  assert (H1 : held b x (execs (at_others a) s)) by (unfold held; rewrite execs_away; [exact H|intros t c I; exact (A a t c (or_introl eq_refl) I)]).
  assert (EX : exec (at_now a) (SetNX lockKey token lockTime) (execs (at_others a) s) = (RBool false, execs (at_others a) s)).
  { cbn [exec]. unfold live. rewrite H1. assert (L := T a (or_introl eq_refl)). destruct (Z.leb_spec (at_now a) x); [reflexivity|lia]. }
  cbn [deliver]. rewrite EX. cbn [snd]. destruct l as [|c l].
  - destruct (at_done a); cbn [fst snd]; [split; [destruct ans; auto|exact H1]|split; [left; reflexivity|exact H1]].
  - replace (if at_done a then execs (at_others a) s else execs (at_others a) s) with (execs (at_others a) s) by (destruct (at_done a); reflexivity).
    apply IH; [intros d t e I; apply A; right; exact I|exact H1|intros d I; apply T; right; exact I].
Qed.

(** A token that is handed out is the token in the lock, for four hours, and during that time
    nobody else gets one, however often they ask and however often the asking is repeated. *)
Theorem C83_lock : forall token l s tk s', acquire token l true s = (Some tk, s') ->
  tk = token /\ (forall t, t <= timeOf l + 14400 -> hasLock t token s' = true) /\
  forall token2 l2 ans, away lockKey l2 -> (forall a, In a l2 -> at_now a <= timeOf l + 14400) ->
    fst (acquire token2 l2 ans s') = None /\ forall t, t <= timeOf l + 14400 -> hasLock t token (snd (acquire token2 l2 ans s')) = true.
Proof.
  intros token l s tk s' H. unfold acquire in H. destruct (deliver (SetNX lockKey token lockTime) l true s) as [r s1] eqn:D.
  destruct r as [[| | |[]|]|]; try discriminate H. assert (tk = token) by congruence. assert (s1 = s') by congruence. subst tk s1.
  destruct (answered_last _ _ _ _ _ D) as [l0 [a [s0 [-> [_ E]]]]]. rewrite timeOf_last.
  assert (HD : held token (at_now a + 14400) s').
  { cbn [exec] in E. destruct (live (at_now a) lockKey s0); [discriminate E|]. assert (Q : s' = aset lockKey (VStr token, Some (at_now a + lockTime)) s0) by congruence. rewrite Q. unfold held. apply alookup_aset_same. }
  split; [reflexivity|]. split; [intros t L; exact (held_has _ _ _ _ HD L)|].
  intros token2 l2 ans A T. destruct (refused l2 ans s' token (at_now a + 14400) token2 A HD T) as [R HD2]. unfold acquire. destruct (deliver (SetNX lockKey token2 lockTime) l2 ans s') as [r2 s2]. cbn [fst snd] in *.
  split; [destruct R as [->| ->]; reflexivity|]. intros t L. exact (held_has _ _ _ _ HD2 L).
Qed.
Print Assumptions C83_lock.

Lemma skip c k l1 : forall a l2 ans s, away k l1 -> (forall b, In b l1 -> at_done b = false) ->
  exists s1, alookup k s1 = alookup k s /\ deliver c (l1 ++ a :: l2) ans s = deliver c (a :: l2) ans s1.
Proof.
  induction l1 as [|b l1 IH]; intros a l2 ans s A N; [exists s; auto|].
  destruct (IH a l2 ans (execs (at_others b) s)) as [s1 [E D]]; [intros d t e I; apply A; right; exact I|intros d I; apply N; right; exact I|].
  exists s1. split; [rewrite E; apply execs_away; intros t e I; exact (A b t e (or_introl eq_refl) I)|]. rewrite <- D. cbn [app deliver]. rewrite (N b (or_introl eq_refl)). destruct (l1 ++ a :: l2) eqn:Q; [destruct l1; discriminate Q|reflexivity].
Qed.
Lemma undone c k l : forall ans s, away k l -> (forall b, In b l -> at_done b = false) -> fst (deliver c l ans s) = None /\ alookup k (snd (deliver c l ans s)) = alookup k s.
Proof.
  induction l as [|b l IH]; intros ans s A N; [auto|]. cbn [deliver]. rewrite (N b (or_introl eq_refl)). assert (E : alookup k (execs (at_others b) s) = alookup k s) by (apply execs_away; intros t e I; exact (A b t e (or_introl eq_refl) I)).
  destruct l as [|d l]; [auto|]. rewrite <- E. apply IH; [intros f t e I; apply A; right; exact I|intros f I; apply N; right; exact I].
Qed.
Lemma first_done l : (forall b, In b l -> at_done b = false) \/ exists l1 a l2, l = l1 ++ a :: l2 /\ (forall b, In b l1 -> at_done b = false) /\ at_done a = true.
Proof.
  induction l as [|b l IH]; [left; intros b []|]. destruct (at_done b) eqn:D; [right; exists [], b, l; split; [reflexivity|split; [intros d []|exact D]]|].
  destruct IH as [N|[l1 [a [l2 [-> [N Da]]]]]]; [left; intros d [<-|I]; auto|]. right. exists (b :: l1), a, l2. split; [reflexivity|]. split; [intros d [<-|I]; auto|exact Da].
Qed.
Lemma times_none l : (forall b, In b l -> at_done b = false) <-> times l = 0%nat.
Proof.
  unfold times. induction l as [|b l IH]; [split; [reflexivity|intros _ b []]|]. cbn [filter]. destruct (at_done b) eqn:D.
  - split; [intros N; rewrite (N b (or_introl eq_refl)) in D; discriminate D|discriminate].
  - rewrite <- IH. split; [intros N d I; apply N; right; exact I|intros N d [<-|I]; auto].
Qed.
Lemma times_app l1 l2 : times (l1 ++ l2) = (times l1 + times l2)%nat.
Proof. unfold times. rewrite filter_app, app_length. reflexivity. Qed.
Lemma timeOf_In l : l <> [] -> exists a, In a l /\ timeOf l = at_now a.
Proof. intros N. destruct (exists_last N) as [l0 [a ->]]. exists a. rewrite timeOf_last. split; [apply in_or_app; right; left; reflexivity|reflexivity]. Qed.

(** A free lock that one client asks for: as soon as the server sees the request the lock has
    the client's token.  The client is given it exactly if the server saw the request once and
    that time the answer came back. *)
Theorem C83_lock_asked : forall token l ans s t, away lockKey l -> clock t l -> live t lockKey s = None -> l <> [] ->
  (forall a b, In a l -> In b l -> at_now b <= at_now a + 14400) ->
  (fst (acquire token l ans s) = Some token <-> ans = true /\ times l = 1%nat /\ exists l0 a, l = l0 ++ [a] /\ at_done a = true) /\
  ((times l > 0)%nat -> hasLock (timeOf l) token (snd (acquire token l ans s)) = true) /\
  (times l = 0%nat -> live (timeOf l) lockKey (snd (acquire token l ans s)) = None).
Proof.
  intros token l ans s t A C F NE T. unfold acquire. destruct (first_done l) as [N|[l1 [a [l2 [-> [N D]]]]]].
  - assert (T0 := proj1 (times_none l) N). destruct (undone (SetNX lockKey token lockTime) lockKey l ans s A N) as [U1 U2]. destruct (deliver (SetNX lockKey token lockTime) l ans s) as [r s'] eqn:E. cbn [fst snd] in *. subst r.
    split; [split; [discriminate|intros [_ [Q _]]; rewrite T0 in Q; discriminate Q]|]. split; [lia|]. intros _. unfold live. rewrite U2. fold (live (timeOf l) lockKey s).
    destruct (exists_last NE) as [l0 [b ->]]. rewrite timeOf_last. apply (live_gone t); [exact (clock_last _ _ _ _ C)|exact F].
  - assert (A1 : away lockKey l1) by (intros b t0 e I; apply A; apply in_or_app; left; exact I).
    destruct (skip (SetNX lockKey token lockTime) lockKey l1 a l2 ans s A1 N) as [s1 [E1 ->]].
    assert (E2 : alookup lockKey (execs (at_others a) s1) = alookup lockKey s) by (rewrite execs_away; [exact E1|intros t0 e I; apply (A a t0 e); [apply in_or_app; right; left; reflexivity|exact I]]).
    assert (F2 : live (at_now a) lockKey (execs (at_others a) s1) = None).
    { unfold live. rewrite E2. fold (live (at_now a) lockKey s). apply (live_gone t); [exact (clock_last _ _ _ _ C)|exact F]. }
    assert (EX : exec (at_now a) (SetNX lockKey token lockTime) (execs (at_others a) s1) = (RBool true, aset lockKey (VStr token, Some (at_now a + lockTime)) (execs (at_others a) s1))) by (cbn [exec]; rewrite F2; reflexivity).
    assert (TA : times (l1 ++ a :: l2) = S (times l2)).
    { rewrite times_app, (proj1 (times_none l1) N). unfold times. cbn [filter]. rewrite D. reflexivity. }
    set (s2 := aset lockKey (VStr token, Some (at_now a + lockTime)) (execs (at_others a) s1)) in *.
    assert (HD : held token (at_now a + 14400) s2) by (unfold held, s2; apply alookup_aset_same).
    assert (LT : timeOf (l1 ++ a :: l2) <= at_now a + 14400).
    { destruct (timeOf_In (l1 ++ a :: l2) NE) as [b [Ib ->]]. apply T; [apply in_or_app; right; left; reflexivity|exact Ib]. }
    cbn [deliver]. rewrite D, EX. cbn [snd]. rewrite TA. destruct l2 as [|b l2].
    + cbn [fst snd]. split; [|split; [intros _; exact (held_has _ _ _ _ HD LT)|discriminate]].
      destruct ans; (split; [intros Q|intros [Q _]]); try discriminate Q; [|reflexivity]. split; [reflexivity|]. split; [reflexivity|]. exists l1, a. auto.
    + destruct (refused (b :: l2) ans s2 token (at_now a + 14400) token) as [R HD2].
      { intros d t0 e I. apply A. apply in_or_app. right. right. exact I. }
      { exact HD. }
      { intros d I. apply T; [apply in_or_app; right; left; reflexivity|apply in_or_app; right; right; exact I]. }
      destruct (deliver (SetNX lockKey token lockTime) (b :: l2) ans s2) as [r s']. cbn [fst snd] in *. split; [|split; [intros _; exact (held_has _ _ _ _ HD2 LT)|discriminate]].
      split; [destruct R as [->| ->]; discriminate|]. intros [_ [Q [l0 [z [E Dz]]]]]. exfalso. assert (Q0 : times (b :: l2) = 0%nat) by lia. assert (N2 := proj2 (times_none (b :: l2)) Q0).
      assert (NE2 : b :: l2 <> []) by discriminate. destruct (exists_last NE2) as [l3 [y E3]]. rewrite E3 in E. change (l1 ++ a :: l3 ++ [y]) with (l1 ++ (a :: l3) ++ [y]) in E. rewrite app_assoc in E. apply app_inj_tail in E. destruct E as [_ <-].
      rewrite (N2 y) in Dz; [discriminate Dz|]. rewrite E3. apply in_or_app. right. left. reflexivity.
Qed.
Print Assumptions C83_lock_asked.
(** So a client can be refused the lock although no other client ever asked for it, and then
    nobody gets it, that client included, for four hours. *)
Theorem C83_orphan_refuted : exists token l s, away lockKey l /\ clock 0 l /\ live 0 lockKey s = None /\
  let (r, s') := acquire token l true s in r = None /\
  (forall token2 t, t <= 14500 -> fst (acquire token2 [seen t] true s') = None) /\
  (forall token2 t, 14500 < t -> fst (acquire token2 [seen t] true s') = Some token2).
Proof.
  exists (B "mine"), [seen 100; seen 105], []. split; [intros a t c [<-|[<-|[]]] []|]. split; [cbn; lia|]. split; [reflexivity|].
  assert (E : acquire (B "mine") [seen 100; seen 105] true [] = (None, [(lockKey, (VStr (B "mine"), Some 14500))])) by reflexivity. rewrite E. split; [reflexivity|].
  assert (G : forall token2 t, fst (acquire token2 [seen t] true [(lockKey, (VStr (B "mine"), Some 14500))]) = if t <=? 14500 then None else Some token2).
  { intros token2 t. unfold acquire, seen. cbn [deliver at_others at_now at_done execs exec]. replace (live t lockKey [(lockKey, (VStr (B "mine"), Some 14500))]) with (if t <=? 14500 then Some (VStr (B "mine"), Some 14500) else None) by reflexivity. destruct (t <=? 14500); reflexivity. }
  split; intros token2 t L; rewrite G; destruct (Z.leb_spec t 14500); try lia; reflexivity.
Qed.
Print Assumptions C83_orphan_refuted.

(** A client is told that it has the lock exactly if the server holds it with that token
    and it is not over. *)
Theorem C83_look : forall token now s, hasLock now token s = true <-> exists e, alookup lockKey s = Some (VStr token, e) /\ forall x, e = Some x -> now <= x.
Proof.
  intros token now s. unfold hasLock, exec, live. destruct (alookup lockKey s) as [[v e]|] eqn:L.
  2:{ split; [discriminate|]. intros [e [E _]]. discriminate E. }
  destruct e as [x|].
  - destruct (Z.leb_spec now x) as [LE|GT].
    + destruct v as [b|l]; cbn [fst].
      * destruct (beq_spec b token) as [->|NE]; (split; [intros H; try discriminate H|intros [e [E H]]; try reflexivity]).
        -- exists (Some x). split; [reflexivity|]. intros y E. injection E as <-. exact LE.
        -- congruence.
      * split; [discriminate|]. intros [e [E _]]. discriminate E.
    + split; [discriminate|]. intros [e [E H]]. injection E as _ <-. specialize (H x eq_refl). lia.
  - destruct v as [b|l]; cbn [fst].
    + destruct (beq_spec b token) as [->|NE]; (split; [intros H; try discriminate H|intros [e [E H]]; try reflexivity]).
      * exists None. split; [reflexivity|]. intros y E. discriminate E.
      * congruence.
    + split; [discriminate|]. intros [e [E _]]. discriminate E.
Qed.
Print Assumptions C83_look.
Example C83_look_example : hasLock 100 (B "a") [] = false /\ hasLock 100 (B "a") [(lockKey, (VStr (B "a"), Some 100))] = true /\ hasLock 101 (B "a") [(lockKey, (VStr (B "a"), Some 100))] = false /\ hasLock 1 (B "a") [(lockKey, (VStr (B "b"), None))] = false.
Proof. vm_compute. auto. Qed.

(** Giving the lock back: with nobody at the lock between the attempts it is free, and a lock
    that is not the client's own stays as it is. *)
Theorem C83_release : forall token now l s, away lockKey l ->
  (hasLock now token s = true -> (times l > 0)%nat -> forall t, live t lockKey (release token now l s) = None) /\
  (hasLock now token s = false -> release token now l s = s).
Proof.
  intros token now l s A. unfold release. split; intros H; rewrite H; [|reflexivity]. intros TM t.
  assert (G : forall l0 ans s0, away lockKey l0 -> (times l0 > 0)%nat \/ alookup lockKey s0 = None -> alookup lockKey (snd (deliver (Del lockKey) l0 ans s0)) = None).
  { clear. induction l0 as [|a l0 IH]; intros ans s0 A C; [destruct C as [C|C]; [cbn in C; lia|exact C]|].
    assert (E : alookup lockKey (execs (at_others a) s0) = alookup lockKey s0) by (apply execs_away; intros t e I; exact (A a t e (or_introl eq_refl) I)).
    cbn [deliver exec snd]. unfold times in C. cbn [filter] in C. destruct l0 as [|b l0].
    - destruct (at_done a); cbn [snd]; [apply alookup_aremove_same|]. rewrite E. destruct C as [C|C]; [cbn in C; lia|exact C].
    - apply IH; [intros d t e I; apply A; right; exact I|]. destruct (at_done a); [right; apply alookup_aremove_same|]. rewrite E. exact C. }
  unfold live. rewrite (G l true s A (or_introl TM)). reflexivity.
Qed.
Print Assumptions C83_release.
(** With somebody at the lock it can be their lock that is removed: the request was carried out
    but not answered, they took the lock, and the request is repeated. *)
Theorem C83_release_refuted : exists tokenA tokenB tokenC s, tokenB <> tokenC /\ hasLock 100 tokenA s = true /\
  (let (r, s2) := acquire tokenB [seen 102] true (snd (exec 101 (Del lockKey) s)) in r = Some tokenB /\ hasLock 110 tokenB s2 = true) /\
  fst (acquire tokenC [seen 110] true (release tokenA 100 [seen 101; mkAttempt [(102, SetNX lockKey tokenB lockTime)] 105 true] s)) = Some tokenC.
Proof.
  exists (B "a"), (B "b"), (B "c"), [(lockKey, (VStr (B "a"), Some 9000))]. split; [discriminate|]. split; [reflexivity|]. split; [|reflexivity]. split; reflexivity.
Qed.
Print Assumptions C83_release_refuted.

(** ** Cases *)
Example C83_repeat_example :
  repeatable (SAdd K1 (B "a")) /\ quiet [seen 5; mkAttempt [] 7 false; seen 9] /\ clock 0 [seen 5; mkAttempt [] 7 false; seen 9] /\
  deliver (SAdd K1 (B "a")) [seen 5; mkAttempt [] 7 false; seen 9] true [] = (Some (RBool false), [(K1, (VSet [B "a"], None))]) /\
  snd (exec 9 (SAdd K1 (B "a")) []) = [(K1, (VSet [B "a"], None))].
Proof.
  split; [exact Logic.I|]. split; [intros a [<-|[<-|[<-|[]]]]; reflexivity|]. split; [cbn; lia|]. split; reflexivity.
Qed.
Example C83_lock_example :
  acquire (B "a") [mkAttempt [] 5 false; seen 9] true [] = (Some (B "a"), [(lockKey, (VStr (B "a"), Some 14409))]) /\
  release (B "a") 20 [seen 21; seen 24] [(lockKey, (VStr (B "a"), Some 14409))] = [].
Proof. split; reflexivity. Qed.
