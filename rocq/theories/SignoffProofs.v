(** * Invariants of the sign-off system (for P_Signoff.v) *)
From Verif Require Import Base SignoffModel.

Section Proofs.
  Variable R : Type.
  Variable kinds : nat -> kind.
  Notation st := (state R).

  Lemma setProc_same g i p : setProc g i p i = p.
  Proof. unfold setProc. rewrite Nat.eqb_refl. reflexivity. Qed.
  Lemma setProc_other g i p j : j <> i -> setProc g i p j = g j.
  Proof. intros N. unfold setProc. destruct (Nat.eqb_spec j i); [contradiction|reflexivity]. Qed.

  Lemma changeRecs_ver (r : R) d c : (c_ver c <= c_ver (changeRecs r d c))%N.
  Proof. unfold changeRecs; cbn [c_ver]. destruct (c_status c) as [s|]; [destruct (beq s sWip)|]; lia. Qed.
  Lemma changeRecs_ver_strict (r : R) d c : c_status c <> Some sWip -> (c_ver c < c_ver (changeRecs r d c))%N.
  Proof.
    unfold changeRecs; cbn [c_ver]. destruct (c_status c) as [s|]; [|lia].
    destruct (beq_spec s sWip) as [->|]; [congruence|lia].
  Qed.
  Lemma setStatus_ver s d (c : coll R) : (c_ver c < c_ver (setStatus s d c))%N.
  Proof. unfold setStatus; cbn [c_ver]. lia. Qed.

  Lemma review_not_wip : sToReview <> sWip. Proof. discriminate. Qed.

  (** The version never goes back; a collection that is not in work and keeps its version is untouched. *)
  Lemma step_ver a (s : st) : (c_ver (g_coll s) <= c_ver (g_coll (step kinds a s)))%N.
  Proof.
    destruct a as [r d|x d|i f|i f d]; cbn [step].
    - apply changeRecs_ver.
    - apply N.lt_le_incl, setStatus_ver.
    - destruct (g_procs s i); cbn [g_coll]; lia.
    - destruct (g_procs s i) as [|v n|]; try lia.
      destruct (patchStep v n (g_coll s) f) as [p [|]]; cbn [g_coll]; [apply N.lt_le_incl, setStatus_ver|lia].
  Qed.

  Lemma step_same a (s : st) : c_status (g_coll s) <> Some sWip ->
    c_ver (g_coll (step kinds a s)) = c_ver (g_coll s) -> g_coll (step kinds a s) = g_coll s /\ g_log (step kinds a s) = g_log s.
  Proof.
    intros W. destruct a as [r d|x d|i f|i f d]; cbn [step].
    - intros E. pose proof (changeRecs_ver_strict r d _ W) as L. cbn [g_coll] in E. lia.
    - intros E. pose proof (setStatus_ver x d (g_coll s)) as L. cbn [g_coll] in E. lia.
    - destruct (g_procs s i); intros _; split; reflexivity.
    - destruct (g_procs s i) as [|v n|]; [split; reflexivity| |split; reflexivity].
      destruct (patchStep v n (g_coll s) f) as [p [|]]; cbn [g_coll].
      + intros E. pose proof (setStatus_ver (asksFor (kinds i)) d (g_coll s)) as L. lia.
      + intros _; split; reflexivity.
  Qed.

  Lemma runs_cons a l (s : st) : runs kinds (a :: l) s = runs kinds l (step kinds a s).
  Proof. reflexivity. Qed.
  Lemma runs_app l1 l2 (s : st) : runs kinds (l1 ++ l2) s = runs kinds l2 (runs kinds l1 s).
  Proof. unfold runs. apply fold_left_app. Qed.

  Lemma runs_ver l : forall s : st, (c_ver (g_coll s) <= c_ver (g_coll (runs kinds l s)))%N.
  Proof.
    induction l as [|a l IH]; intros s; [cbn; lia|]. rewrite runs_cons.
    pose proof (step_ver a s). pose proof (IH (step kinds a s)). lia.
  Qed.

  Lemma runs_same l : forall s : st, c_status (g_coll s) <> Some sWip ->
    c_ver (g_coll (runs kinds l s)) = c_ver (g_coll s) -> g_coll (runs kinds l s) = g_coll s /\ g_log (runs kinds l s) = g_log s.
  Proof.
    induction l as [|a l IH]; intros s W E; [split; reflexivity|]. rewrite runs_cons in *.
    pose proof (step_ver a s) as V1. pose proof (runs_ver l (step kinds a s)) as V2.
    destruct (step_same a s W) as [C L]; [lia|].
    destruct (IH (step kinds a s)) as [C' L']; [rewrite C; exact W|rewrite E, C; reflexivity|].
    rewrite C', L', C, L. split; reflexivity.
  Qed.

  (** Every signature of a process stands right after the review of the same records. *)
  Fixpoint reviewed (l : list (event R)) : Prop :=
    match l with
    | [] => True
    | e :: t => match e with Signed (Some _) r => exists t', t = Review r :: t' | _ => True end /\ reviewed t
    end.
  Definition signedBy (i : nat) (e : event R) : Prop := exists r, e = Signed (Some i) r.
  Fixpoint onceEach (l : list (event R)) : Prop :=
    match l with
    | [] => True
    | e :: t => (forall i, signedBy i e -> forall e', In e' t -> ~ signedBy i e') /\ onceEach t
    end.

  Record inv (s : st) : Prop := mkInv {
    i_head : c_status (g_coll s) = Some sToReview -> exists l, g_log s = Review (c_recs (g_coll s)) :: l;
    i_got : forall i v n, g_procs s i = Got v n ->
            (v <= c_ver (g_coll s))%N /\ (v = c_ver (g_coll s) -> kinds i = KSign -> c_status (g_coll s) = Some sToReview);
    i_rev : reviewed (g_log s);
    i_once : onceEach (g_log s);
    i_mine : forall i e, In e (g_log s) -> signedBy i e ->
             g_procs s i <> Start /\ forall v n, g_procs s i = Got v n -> (v < c_ver (g_coll s))%N
  }.

  Lemma status_signed who x (r : R) i : signedBy i (statusEvent who x r) -> who = Some i /\ x = sToSign.
  Proof.
    unfold statusEvent. intros [r' E]. destruct (beq_spec x sToReview); [discriminate|].
    destruct (beq_spec x sToSign); [|discriminate]. injection E as -> ->. auto.
  Qed.

  Lemma inv_init c : inv (init c).
  Proof.
    unfold init. constructor; cbn [g_coll g_procs g_log].
    - intros ->. destruct (beq_spec sToReview sToReview); [eexists; reflexivity|contradiction].
    - discriminate.
    - destruct (c_status c) as [x|]; [destruct (beq x sToReview)|]; cbn; auto.
    - destruct (c_status c) as [x|]; [destruct (beq x sToReview)|]; cbn; auto.
    - intros i e I [r ->]. destruct (c_status c) as [x|]; [destruct (beq x sToReview)|]; cbn in I; intuition discriminate.
  Qed.

  Lemma reviewed_app l1 : forall l2 i r, reviewed (l1 ++ Signed (Some i) r :: l2) -> exists l3, l2 = Review r :: l3.
  Proof. induction l1 as [|e l1 IH]; cbn; [intros l2 i r [H _]; exact H|intros l2 i r [_ H]; eauto]. Qed.

  (** The status after a change of it is "to-review" exactly if that was asked for. *)
  Lemma setStatus_review x d (c : coll R) : c_status (setStatus x d c) = Some sToReview -> x = sToReview.
  Proof. unfold setStatus; cbn [c_status]. destruct (beq x sToSign); [discriminate|congruence]. Qed.

  Lemma inv_status who x d (s : st) g :
    inv s ->
    (forall i v n, g i = Got v n -> g_procs s i = Got v n) ->
    (forall i, g_procs s i <> Start -> g i <> Start) ->
    (forall i, who = Some i -> x = sToSign ->
       c_status (g_coll s) = Some sToReview /\ g i <> Start /\ (forall v n, g i = Got v n -> v = c_ver (g_coll s)) /\
       forall e, In e (g_log s) -> ~ signedBy i e) ->
    inv (mkState (setStatus x d (g_coll s)) g (statusEvent who x (c_recs (g_coll s)) :: g_log s)).
  Proof.
    intros I G G' W. pose proof (setStatus_ver x d (g_coll s)) as L. constructor; cbn [g_coll g_procs g_log].
    - intros E. apply setStatus_review in E. subst x. unfold statusEvent.
      destruct (beq_spec sToReview sToReview); [|contradiction]. exists (g_log s). reflexivity.
    - intros i v n E. destruct (i_got _ I i v n (G _ _ _ E)) as [V _]. split; [lia|]. intros ->. lia.
    - split; [|apply I]. destruct (statusEvent who x (c_recs (g_coll s))) as [|a|[i|] r|y] eqn:E; try exact Logic.I.
      destruct (status_signed who x (c_recs (g_coll s)) i) as [-> ->]; [exists r; exact E|].
      destruct (W i eq_refl eq_refl) as [T _]. destruct (i_head _ I T) as [l Hl]. exists l.
      assert (r = c_recs (g_coll s)) as ->; [|exact Hl].
      unfold statusEvent in E. destruct (beq sToSign sToReview); [discriminate|]. destruct (beq sToSign sToSign); congruence.
    - split; [|apply I]. intros i S e' In'. destruct (status_signed _ _ _ _ S) as [-> ->].
      destruct (W i eq_refl eq_refl) as [_ [_ [_ N]]]. apply N, In'.
    - intros i e [<-|In'] S.
      + destruct (status_signed _ _ _ _ S) as [-> ->]. destruct (W i eq_refl eq_refl) as [_ [Q [Q' _]]].
        split; [exact Q|]. intros v n E. rewrite (Q' v n E). exact L.
      + destruct (i_mine _ I i e In' S) as [Q Q']. split; [apply G', Q|]. intros v n E. specialize (Q' v n (G _ _ _ E)). lia.
  Qed.

  Lemma inv_step a (s : st) : inv s -> inv (step kinds a s).
  Proof.
    intros I. destruct a as [r d|x d|i f|i f d]; cbn [step].
    - constructor; cbn [g_coll g_procs g_log].
      + intros E. unfold changeRecs in E; cbn [c_status] in E. discriminate.
      + intros i v n E. destruct (i_got _ I i v n E) as [V V']. pose proof (changeRecs_ver r d (g_coll s)) as L. split; [lia|].
        intros Ev K. exfalso. assert (c_status (g_coll s) <> Some sWip) as W.
        { rewrite V' by (try exact K; lia). discriminate. }
        pose proof (changeRecs_ver_strict r d _ W). lia.
      + split; [exact Logic.I|apply I].
      + split; [|apply I]. intros i [r' E]; discriminate.
      + intros i e [<-|In'] S; [destruct S; discriminate|]. destruct (i_mine _ I i e In' S) as [Q Q']. split; [exact Q|].
        intros v n E. specialize (Q' v n E). pose proof (changeRecs_ver r d (g_coll s)). lia.
    - apply inv_status; auto. intros i D; discriminate.
    - destruct (g_procs s i) as [| |] eqn:P; try exact I.
      constructor; cbn [g_coll g_procs g_log]; try apply I.
      + intros j v n E. destruct (Nat.eq_dec j i) as [->|J]; [|rewrite setProc_other in E by exact J; apply (i_got _ I j v n E)].
        rewrite setProc_same in E. unfold afterGet in E. destruct f; try discriminate.
        destruct (c_status (g_coll s)) as [y|] eqn:Y; [|discriminate].
        destruct (beq_spec y (looksFor (kinds i))) as [->|]; [|discriminate]. injection E as <- <-.
        split; [lia|]. intros _ ->. reflexivity.
      + intros j e In' S. destruct (i_mine _ I j e In' S) as [Q Q'].
        destruct (Nat.eq_dec j i) as [->|J]; [contradiction|]. rewrite setProc_other by exact J. auto.
    - destruct (g_procs s i) as [|v n|] eqn:P; try exact I.
      destruct (patchStep v n (g_coll s) f) as [p applied] eqn:F.
      assert (p <> Start /\ (forall v' n', p = Got v' n' -> v' = v) /\ (applied = true -> v = c_ver (g_coll s))) as [PS [PG PA]].
      { unfold patchStep in F. destruct f as [|b|b]; destruct (N.eqb_spec v (c_ver (g_coll s))) as [Ev|Nv];
          try (destruct n); injection F as <- <-; repeat split; try discriminate; intros; try congruence;
          destruct b; try discriminate; auto. }
      assert (KS : forall j v' n', setProc (g_procs s) i p j = Got v' n' -> exists n0, g_procs s j = Got v' n0).
      { intros j v' n' E. destruct (Nat.eq_dec j i) as [->|J].
        - rewrite setProc_same in E. rewrite (PG _ _ E). eauto.
        - rewrite setProc_other in E by exact J. eauto. }
      assert (KN : forall j, g_procs s j <> Start -> setProc (g_procs s) i p j <> Start).
      { intros j Q. destruct (Nat.eq_dec j i) as [->|J]; [rewrite setProc_same; exact PS|rewrite setProc_other by exact J; exact Q]. }
      destruct applied; cbn iota.
      + (* the collection has the version that was read *)
        specialize (PA eq_refl).
        assert (I' : inv (mkState (g_coll s) (setProc (g_procs s) i p) (g_log s))).
        { constructor; cbn [g_coll g_procs g_log]; try apply I.
          - intros j v' n' E. destruct (KS _ _ _ E) as [n0 E0]. apply (i_got _ I j v' n0 E0).
          - intros j e In' S. destruct (i_mine _ I j e In' S) as [Q Q']. split; [apply KN, Q|].
            intros v' n' E. destruct (KS _ _ _ E) as [n0 E0]. apply (Q' _ _ E0). }
        apply (inv_status (Some i) (asksFor (kinds i)) d _ (setProc (g_procs s) i p)) in I'; auto.
        intros j D A. injection D as <-. cbn [g_coll g_procs g_log].
        assert (kinds i = KSign) as K by (destruct (kinds i); [discriminate|reflexivity]).
        split; [apply (proj2 (i_got _ I i v n P) PA K)|]. rewrite setProc_same. split; [exact PS|].
        split; [intros v' n' E; rewrite (PG _ _ E); exact PA|].
        intros e In' S. destruct (i_mine _ I i e In' S) as [_ Q']. specialize (Q' v n P). lia.
      + constructor; cbn [g_coll g_procs g_log]; try apply I.
        * intros j v' n' E. destruct (KS _ _ _ E) as [n0 E0]. apply (i_got _ I j v' n0 E0).
        * intros j e In' S. destruct (i_mine _ I j e In' S) as [Q Q']. split; [apply KN, Q|].
          intros v' n' E. destruct (KS _ _ _ E) as [n0 E0]. apply (Q' _ _ E0).
  Qed.

  Lemma inv_runs l : forall s : st, inv s -> inv (runs kinds l s).
  Proof. induction l as [|a l IH]; intros s I; [exact I|]. rewrite runs_cons. apply IH, inv_step, I. Qed.

  (** How a process came to be where it is. *)
  Lemma log_grows a (s : st) : exists l, g_log (step kinds a s) = l ++ g_log s.
  Proof.
    destruct a as [r d|x d|i f|i f d]; cbn [step].
    - eexists [_]; reflexivity.
    - eexists [_]; reflexivity.
    - destruct (g_procs s i); exists []; reflexivity.
    - destruct (g_procs s i) as [|v n|]; try (exists []; reflexivity).
      destruct (patchStep v n (g_coll s) f) as [p [|]]; [eexists [_]; reflexivity|exists []; reflexivity].
  Qed.
End Proofs.
