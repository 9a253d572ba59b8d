(** * The three passes of [publishCtlogs] *)
From Verif Require Import Base RemoteModel RemoteProofs CtlogsModel.
From Coq Require Import Permutation.

Lemma distinct_spec l : distinct l = true <-> NoDup l.
Proof.
  induction l as [|x l IH]; cbn [distinct]; [split; [constructor|reflexivity]|].
  rewrite andb_true_iff, negb_true_iff, NoDup_cons_iff, IH.
  assert (E : existsb (beq x) l = false <-> ~ In x l); [|rewrite E; reflexivity].
  rewrite <- not_true_iff_false, existsb_exists. split; intros N H; apply N.
  - exists x. split; [exact H|apply beq_refl].
  - destruct H as [y [I E]]. apply (proj1 (beq_eq _ _)) in E. subst y. exact I.
Qed.
Lemma lookupLog_none {A} id (l : list (bytes * A)) : lookupLog id l = None <-> ~ In id (map fst l).
Proof.
  induction l as [|[k a] l IH]; cbn [lookupLog map fst]; [split; [intros _ []|reflexivity]|].
  destruct (beq id k) eqn:E.
  - apply (proj1 (beq_eq _ _)) in E. subst k. split; [discriminate|]. intros N. exfalso. apply N. left. reflexivity.
  - rewrite IH. split; intros N H; apply N; [|right; exact H]. destruct H as [<-|H]; [rewrite beq_refl in E; discriminate E|exact H].
Qed.
Lemma lookupLog_in {A} id (l : list (bytes * A)) a : lookupLog id l = Some a -> In (id, a) l.
Proof.
  induction l as [|[k b] l IH]; cbn [lookupLog]; [discriminate|]. destruct (beq id k) eqn:E; [|right; auto].
  apply (proj1 (beq_eq _ _)) in E. subst k. intros H. injection H as ->. left. reflexivity.
Qed.
Lemma lookupLog_some {A} id (l : list (bytes * A)) a : NoDup (map fst l) -> In (id, a) l -> lookupLog id l = Some a.
Proof.
  intros N I. destruct (lookupLog id l) as [b|] eqn:E.
  - apply lookupLog_in in E. pose proof (g_nodup_inj fst l _ _ N I E eq_refl) as Q. injection Q as ->. reflexivity.
  - apply lookupLog_none in E. exfalso. apply E. apply (in_map fst) in I. exact I.
Qed.

Lemma optEq_spec {A} (eq : A -> A -> bool) (S : forall x y, eq x y = true <-> x = y) x y : optEq eq x y = true <-> x = y.
Proof. destruct x, y; cbn; [rewrite S; split; congruence|split; discriminate|split; discriminate|split; reflexivity]. Qed.
Lemma needsUpdate_spec u k : needsUpdate u k = false <->
  g_description u = g_description k /\ g_key u = g_key k /\ g_url u = g_url k /\ g_mmd u = g_mmd k /\ g_admissible u = g_admissible k /\ g_operator u = g_operator k /\ g_tiled u = g_tiled k.
Proof.
  assert (EB : forall x y, Bool.eqb x y = true <-> x = y) by (intros; apply eqb_true_iff).
  unfold needsUpdate. rewrite negb_false_iff, !andb_true_iff, !(optEq_spec _ beq_eq), (optEq_spec _ Z.eqb_eq), !(optEq_spec _ EB). tauto.
Qed.

Definition logOf (r : lrec) : option bytes := g_logID (r_data r).
Lemma knownLogs_spec l : match knownLogs l with
  | Val m => map snd m = l /\ (forall id r, In (id, r) m -> logOf r = Some id) /\ map (fun p => Some (fst p)) m = map logOf l
  | Exc e => e = EOther /\ exists r, In r l /\ logOf r = None
  end.
Proof.
  induction l as [|r l IH]; cbn [knownLogs]; [cbn; repeat split; intros id r []|]. fold (logOf r). destruct (logOf r) as [id|] eqn:E; [|split; [reflexivity|exists r; split; [left; reflexivity|exact E]]].
  destruct (knownLogs l) as [m|e]; cbn [pbind].
  - destruct IH as [A [B0 C]]. cbn [map snd fst]. repeat split; [f_equal; exact A| |rewrite E; f_equal; exact C]. intros i x [H|H]; [injection H as <- <-; exact E|apply B0; exact H].
  - destruct IH as [A [x [I N]]]. split; [exact A|]. exists x. split; [right; exact I|exact N].
Qed.

Lemma Forall2_weaken {A B} (P Q : A -> B -> Prop) l l' : (forall a b, P a b -> Q a b) -> Forall2 P l l' -> Forall2 Q l l'.
Proof. intros H F. induction F; constructor; auto. Qed.

Section Passes.
  Variable fresh : list lrec -> bytes.
  Variable listing : list lrec -> list lrec.
  Variable ok : fault -> Prop.
  Hypothesis Fresh : forall l, ~ In (fresh l) (map r_id l).
  Let wpp {A} (p : prog clog A) := wp fresh listing ok p.
  Notation clean := (clean ok).

  (** How a pass leaves the reviews and the status. *)
  Definition kept (s s' : server clog) : Prop := sv_reviews s' = sv_reviews s /\ (s' = s \/ sv_wip s' = true).
  Lemma kept_refl s : kept s s. Proof. split; auto. Qed.
  Lemma kept_change s l : kept s (change s l). Proof. split; auto. Qed.
  Lemma kept_trans s1 s2 s3 : kept s1 s2 -> kept s2 s3 -> kept s1 s3.
  Proof. intros [A B0] [C D]. split; [congruence|]. destruct D as [->|D]; auto. Qed.

  Lemma wp_attempt c (s s1 : server clog) : exec fresh listing c s = (RDone, s1) ->
    wpp (attempt (unitCall c)) (fun o s' => (s' = s \/ s' = s1) /\ (clean -> o = Done tt /\ s' = s1)) s.
  Proof.
    intros E. apply wp_catch. eapply wp_mono; [|exact (gwp_unit _ _ _ ok _ _ _ E)]. intros o s' [H [C R]].
    destruct o as [[]|[]|]; try (split; [exact H|intros K; specialize (C K); discriminate C]).
    split; [exact H|auto].
  Qed.
  Lemma wp_attempt_create a (s : server clog) : let s1 := change s (mkRecord (fresh (sv_recs s)) a None :: sv_recs s) in
    wpp (attempt (seq (createRecord a) (fun _ => Ret tt))) (fun o s' => (s' = s \/ s' = s1) /\ (clean -> o = Done tt /\ s' = s1)) s.
  Proof.
    intros s1. apply wp_catch. apply wp_seq. eapply wp_mono; [|exact (gwp_create _ _ _ ok a s)]. fold s1. intros o s' [H [C R]].
    destruct o as [id|[]|]; try (split; [exact H|intros K; specialize (C K); discriminate C]).
    cbn. split; [exact H|]. intros _. split; [reflexivity|tauto].
  Qed.

  (** New logs. *)
  Definition Added (known : list (bytes * lrec)) (up : list (bytes * clog)) (s : server clog) (full : Prop) (s' : server clog) : Prop :=
    kept s s' /\ exists news, sv_recs s' = news ++ sv_recs s /\ NoDup (map r_id (sv_recs s')) /\ NoDup (map logOf news) /\
      (forall r, In r news -> exists id, In (id, r_data r) up /\ lookupLog id known = None) /\
      (full -> forall id u, In (id, u) up -> lookupLog id known = None -> exists r, In r news /\ r_data r = u).
  Lemma wp_add known : forall up (s : server clog), NoDup (map fst up) -> (forall id u, In (id, u) up -> g_logID u = Some id) -> NoDup (map r_id (sv_recs s)) ->
    wpp (addLogs false known up) (fun o s' => Added known up s clean s' /\ (clean -> o = Done tt)) s.
  Proof.
    induction up as [|[id u] up IH]; intros s NU KU ND; cbn [addLogs].
    - cbn. split; [|auto]. split; [apply kept_refl|]. exists []. cbn. repeat split; [exact ND|constructor|intros r []|intros _ i u []].
    - cbn [map fst] in NU. apply NoDup_cons_iff in NU. destruct NU as [NI NU].
      assert (KU' : forall i v, In (i, v) up -> g_logID v = Some i) by (intros i v I; apply KU; right; exact I).
      destruct (lookupLog id known) as [kr|] eqn:LK.
      + eapply wp_mono; [|apply (IH s NU KU' ND)]. intros o s' [[K [news [E [N1 [N2 [H1 H2]]]]]] C]. split; [|exact C]. split; [exact K|]. exists news. split; [exact E|]. split; [exact N1|]. split; [exact N2|]. split.
        * intros r I. destruct (H1 r I) as [i [A B0]]. exists i. split; [right; exact A|exact B0].
        * intros F i v [Q|I] L; [injection Q as <- <-; congruence|]. exact (H2 F i v I L).
      + apply wp_seq. eapply wp_mono; [|apply wp_attempt_create]. set (r0 := mkRecord (fresh (sv_recs s)) u None). set (s1 := change s (r0 :: sv_recs s)).
        intros o s' [H C].
        assert (ND1 : NoDup (map r_id (sv_recs s1))) by (cbn; constructor; [apply Fresh|exact ND]).
        (* from the state with the new record *)
        assert (G1 : forall (full : Prop) t, Added known up s1 full t -> Added known ((id, u) :: up) s full t).
        { intros full t [K [news [E [N1 [N2 [H1 H2]]]]]]. split; [exact (kept_trans _ _ _ (kept_change s _) K)|]. exists (news ++ [r0]). cbn [s1 change sv_recs] in E. rewrite <- app_assoc. split; [exact E|]. split; [exact N1|]. split; [|split].
          - rewrite map_app. cbn [map]. apply (Permutation_NoDup (l := logOf r0 :: map logOf news)); [apply Permutation_cons_append|]. constructor; [|exact N2].
            intros I. apply in_map_iff in I. destruct I as [x [Q I]]. destruct (H1 x I) as [i [A B0]]. unfold logOf in Q. rewrite (KU' i _ A) in Q. cbn [r0 r_data] in Q. rewrite (KU id u (or_introl eq_refl)) in Q. injection Q as ->. apply NI. apply (in_map fst) in A. exact A.
          - intros r I. apply in_app_or in I. destruct I as [I|[<-|[]]]; [destruct (H1 r I) as [i [A B0]]; exists i; split; [right; exact A|exact B0]|]. exists id. split; [left; reflexivity|exact LK].
          - intros F i v [Q|I] L; [injection Q as <- <-; exists r0; split; [apply in_or_app; right; left; reflexivity|reflexivity]|]. destruct (H2 F i v I L) as [r [A B0]]. exists r. split; [apply in_or_app; left; exact A|exact B0]. }
        (* from the state without it, after a failure *)
        assert (G0 : ~ clean -> forall t, Added known up s clean t -> Added known ((id, u) :: up) s clean t).
        { intros F t [K [news [E [N1 [N2 [H1 H2]]]]]]. split; [exact K|]. exists news. split; [exact E|]. split; [exact N1|]. split; [exact N2|]. split; [|intros C0; contradiction].
          intros r I. destruct (H1 r I) as [i [A B0]]. exists i. split; [right; exact A|exact B0]. }
        assert (BASE : forall t : server clog, NoDup (map r_id (sv_recs t)) -> Added known up t (~ True) t).
        { intros t N. split; [apply kept_refl|]. exists []. cbn. repeat split; [exact N|constructor|intros r []|intros F; destruct (F I)]. }
        assert (IMP : ~ clean -> forall t t', Added known ((id, u) :: up) t (~ True) t' -> Added known ((id, u) :: up) t clean t').
        { intros F t t' [K [news [E [N1 [N2 [H1 H2]]]]]]. split; [exact K|]. exists news. split; [exact E|]. split; [exact N1|]. split; [exact N2|]. split; [exact H1|intros C0; contradiction]. }
        assert (STOP : ~ clean -> s' = s \/ s' = s1 -> Added known ((id, u) :: up) s clean s').
        { intros F [->| ->]; apply (IMP F); [|apply G1; apply BASE; exact ND1]. split; [apply kept_refl|]. exists []. cbn. repeat split; [exact ND|constructor|intros r []|intros X; destruct (X I)]. }
        destruct o as [[]|e|].
        * destruct H as [-> | ->].
          -- assert (F : ~ clean). { intros F. destruct (C F) as [_ Q]. apply (f_equal (fun t => length (sv_recs t))) in Q. cbn in Q. lia. }
             eapply wp_mono; [|apply (IH s NU KU' ND)]. intros o s'' [A C2]. split; [apply (G0 F); exact A|intros X; contradiction].
          -- eapply wp_mono; [|apply (IH s1 NU KU' ND1)]. intros o s'' [A C2]. split; [apply G1; exact A|exact C2].
        * assert (F : ~ clean) by (intros F; destruct (C F); discriminate). split; [apply STOP; assumption|intros X; contradiction].
        * assert (F : ~ clean) by (intros F; destruct (C F); discriminate). split; [apply STOP; assumption|intros X; contradiction].
  Qed.

  (** Logs that are gone. *)
  Definition Deleted (up : list (bytes * clog)) (known : list (bytes * lrec)) (s : server clog) (full : Prop) (s' : server clog) : Prop :=
    kept s s' /\ NoDup (map r_id (sv_recs s')) /\ NoDup (map logOf (sv_recs s')) /\
      (forall r, In r (sv_recs s') -> In r (sv_recs s)) /\
      (forall r, In r (sv_recs s) -> In r (sv_recs s') \/ exists id kr, In (id, kr) known /\ r_id kr = r_id r /\ lookupLog id up = None) /\
      (full -> forall id kr r, In (id, kr) known -> lookupLog id up = None -> In r (sv_recs s') -> r_id r <> r_id kr).
  Lemma wp_del up : forall known (s : server clog), NoDup (map r_id (sv_recs s)) -> NoDup (map logOf (sv_recs s)) -> NoDup (map r_id (map snd known)) ->
    (forall id kr, In (id, kr) known -> In (r_id kr) (map r_id (sv_recs s))) ->
    wpp (deleteLogs false up known) (fun o s' => Deleted up known s clean s' /\ (clean -> o = Done tt)) s.
  Proof.
    induction known as [|[id kr] known IH]; intros s ND NL NK IK; cbn [deleteLogs].
    - cbn. split; [|auto]. split; [apply kept_refl|]. repeat split; [exact ND|exact NL|auto|auto|intros _ i k r []].
    - cbn [map snd] in NK. apply NoDup_cons_iff in NK. destruct NK as [NI NK].
      assert (IK' : forall i k, In (i, k) known -> In (r_id k) (map r_id (sv_recs s))) by (intros i k I; apply (IK i); right; exact I).
      destruct (lookupLog id up) as [u|] eqn:LK.
      + eapply wp_mono; [|apply (IH s ND NL NK IK')]. intros o s' [[K [N1 [N2 [H1 [H2 H3]]]]] C]. split; [|exact C]. split; [exact K|]. split; [exact N1|]. split; [exact N2|]. split; [exact H1|]. split.
        * intros r I. destruct (H2 r I) as [A|[i [k [A B0]]]]; [left; exact A|right]. exists i, k. split; [right; exact A|exact B0].
        * intros F i k r [Q|I] L IR; [injection Q as <- <-; congruence|]. exact (H3 F i k r I L IR).
      + apply wp_seq. set (s1 := change s (filter (fun r => negb (hasId (r_id kr) r)) (sv_recs s))).
        assert (EX : exec fresh listing (CDelete (r_id kr)) s = (RDone, s1)).
        { cbn [exec]. rewrite (proj2 (g_existsb _ (r_id kr) (sv_recs s))) by (apply (IK id); left; reflexivity). reflexivity. }
        eapply wp_mono; [|exact (wp_attempt _ _ _ EX)]. intros o s' [H C].
        assert (ND1 : NoDup (map r_id (sv_recs s1))) by (apply g_nodup_filter; exact ND).
        assert (NL1 : NoDup (map logOf (sv_recs s1))) by (apply g_nodup_filter; exact NL).
        assert (IK1 : forall i k, In (i, k) known -> In (r_id k) (map r_id (sv_recs s1))).
        { intros i k I. destruct (proj1 (in_map_iff _ _ _) (IK' i k I)) as [x [E J]]. apply in_map_iff. exists x. split; [exact E|]. apply g_in_filter. split; [exact J|]. rewrite E. intros Q. apply NI. rewrite <- Q. apply (in_map snd) in I. apply (in_map r_id) in I. exact I. }
        assert (G1 : forall (full : Prop) t, Deleted up known s1 full t -> Deleted up ((id, kr) :: known) s full t).
        { intros full t [K [N1 [N2 [H1 [H2 H3]]]]]. split; [exact (kept_trans _ _ _ (kept_change s _) K)|]. split; [exact N1|]. split; [exact N2|]. split; [|split].
          - intros r I. apply H1 in I. apply g_in_filter in I. tauto.
          - intros r I. destruct (list_eq_dec Byte.byte_eq_dec (r_id r) (r_id kr)) as [Q|Q]; [right; exists id, kr; split; [left; reflexivity|]; split; [symmetry; exact Q|exact LK]|].
            destruct (H2 r) as [A|[i [k [A B0]]]]; [apply g_in_filter; tauto|left; exact A|right; exists i, k; split; [right; exact A|exact B0]].
          - intros F i k r [Q|I] L IR; [injection Q as <- <-|exact (H3 F i k r I L IR)]. apply H1 in IR. apply g_in_filter in IR. tauto. }
        assert (G0 : ~ clean -> forall t, Deleted up known s clean t -> Deleted up ((id, kr) :: known) s clean t).
        { intros F t [K [N1 [N2 [H1 [H2 H3]]]]]. split; [exact K|]. split; [exact N1|]. split; [exact N2|]. split; [exact H1|]. split; [|intros X; contradiction].
          intros r I. destruct (H2 r I) as [A|[i [k [A B0]]]]; [left; exact A|right]. exists i, k. split; [right; exact A|exact B0]. }
        assert (BASE : ~ clean -> forall t : server clog, NoDup (map r_id (sv_recs t)) -> NoDup (map logOf (sv_recs t)) -> Deleted up known t clean t).
        { intros F t N N2. split; [apply kept_refl|]. repeat split; [exact N|exact N2|auto|auto|intros X; contradiction]. }
        assert (STOP : ~ clean -> Deleted up ((id, kr) :: known) s clean s').
        { intros F. destruct H as [-> | ->]; [apply (G0 F); apply (BASE F); assumption|apply G1; apply (BASE F); assumption]. }
        destruct o as [[]|e|].
        * assert (CASES : (s' = s1) \/ (s' = s /\ ~ clean)).
          { destruct H as [-> | ->]; [|auto]. right. split; [reflexivity|]. intros F. destruct (C F) as [_ Q].
            destruct (proj1 (in_map_iff _ _ _) (IK id kr (or_introl eq_refl))) as [x [E J]]. rewrite Q in J. apply g_in_filter in J. tauto. }
          destruct CASES as [-> |[-> F]].
          -- eapply wp_mono; [|apply (IH s1 ND1 NL1 NK IK1)]. intros o s'' [A C2]. split; [apply G1; exact A|exact C2].
          -- eapply wp_mono; [|apply (IH s ND NL NK IK')]. intros o s'' [A C2]. split; [apply (G0 F); exact A|exact C2].
        * assert (F : ~ clean) by (intros F; destruct (C F); discriminate). split; [apply STOP; assumption|intros X; contradiction].
        * assert (F : ~ clean) by (intros F; destruct (C F); discriminate). split; [apply STOP; assumption|intros X; contradiction].
  Qed.

  (** Logs that changed. *)
  Definition renewed (up : list (bytes * clog)) (known : list (bytes * lrec)) (r r' : lrec) : Prop :=
    exists id kr u e, In (id, kr) known /\ r_id kr = r_id r /\ lookupLog id up = Some u /\ g_enrolled (r_data kr) = Some e /\ needsUpdate u (r_data kr) = true /\ r' = mkRecord (r_id r) (withEnrolled u e) None.
  Definition step (up : list (bytes * clog)) (known : list (bytes * lrec)) (r r' : lrec) : Prop := r_id r' = r_id r /\ (r' = r \/ renewed up known r r').
  Definition due (up : list (bytes * clog)) (known : list (bytes * lrec)) (r r' : lrec) : Prop :=
    forall id kr u, In (id, kr) known -> r_id kr = r_id r -> lookupLog id up = Some u -> needsUpdate u (r_data kr) = true -> renewed up known r r'.
  Definition Updated (up : list (bytes * clog)) (known : list (bytes * lrec)) (s : server clog) (full : Prop) (s' : server clog) : Prop :=
    kept s s' /\ Forall2 (step up known) (sv_recs s) (sv_recs s') /\ (full -> Forall2 (due up known) (sv_recs s) (sv_recs s')).
  Lemma renewed_cons up x known r r' : renewed up known r r' -> renewed up (x :: known) r r'.
  Proof. intros (i & k & u & e & A & H). exists i, k, u, e. split; [right; exact A|exact H]. Qed.
  Lemma step_cons up x known r r' : step up known r r' -> step up (x :: known) r r'.
  Proof. intros [A [B0|B0]]; (split; [exact A|]); [auto|right; apply renewed_cons; exact B0]. Qed.
  Lemma step_refl up known l : Forall2 (step up known) l l.
  Proof. induction l; constructor; [split; auto|assumption]. Qed.
  Definition flagged (up : list (bytes * clog)) (known : list (bytes * lrec)) : Prop := forall id kr u, In (id, kr) known -> lookupLog id up = Some u -> g_enrolled (r_data kr) <> None.
  Lemma wp_upd up : forall known (s : server clog), NoDup (map r_id (map snd known)) ->
    (forall id kr u, In (id, kr) known -> lookupLog id up = Some u -> In (r_id kr) (map r_id (sv_recs s))) ->
    let full := clean /\ flagged up known in
    wpp (updateLogs false up known) (fun o s' => Updated up known s full s' /\ (full -> o = Done tt)) s.
  Proof.
    induction known as [|[id kr] known IH]; intros s NK IK; cbn zeta in *; cbn [updateLogs].
    - cbn. split; [|auto]. split; [apply kept_refl|]. split; [apply step_refl|]. intros _. clear IK. induction (sv_recs s) as [|r l IL]; [constructor|]. constructor; [|exact IL]. intros i k u [].
    - cbn [map snd] in NK. apply NoDup_cons_iff in NK. destruct NK as [NI NK].
      assert (IK' : forall i k u, In (i, k) known -> lookupLog i up = Some u -> In (r_id k) (map r_id (sv_recs s))) by (intros i k u I L; apply (IK i k u); [right; exact I|exact L]).
      set (full := clean /\ flagged up ((id, kr) :: known)).
      assert (FF : full -> clean /\ flagged up known) by (intros [A B0]; split; [exact A|]; intros i k u I; apply (B0 i k u); right; exact I).
      specialize (fun t => IH t NK). set (full' := clean /\ flagged up known) in *.
      assert (SKIP : forall t, (forall u, lookupLog id up = Some u -> needsUpdate u (r_data kr) = false) -> Updated up known s full' t -> Updated up ((id, kr) :: known) s full t).
      { intros t Q [K [F2 F3]]. split; [exact K|]. split; [eapply Forall2_weaken; [|exact F2]; intros r r'; apply step_cons|]. intros F. eapply Forall2_weaken; [|exact (F3 (FF F))]. intros r r' D i k u [E|I] EI L N.
        - injection E as <- <-. rewrite (Q u L) in N. discriminate N.
        - apply renewed_cons. exact (D i k u I EI L N). }
      destruct (lookupLog id up) as [u|] eqn:LK.
      2:{ eapply wp_mono; [|apply (IH s IK')]. intros o s' [U C]. split; [apply SKIP; [intros v Q; discriminate Q|exact U]|auto]. }
      destruct (g_enrolled (r_data kr)) as [e|] eqn:EE.
      2:{ assert (F : ~ full) by (intros [_ F]; apply (F id kr u (or_introl eq_refl) LK EE)). cbn. split; [|intros X; contradiction]. split; [apply kept_refl|]. split; [apply step_refl|intros X; contradiction]. }
      destruct (needsUpdate u (r_data kr)) eqn:NU.
      2:{ eapply wp_mono; [|apply (IH s IK')]. intros o s' [U C]. split; [apply SKIP; [intros v Q; injection Q as <-; exact NU|exact U]|auto]. }
      apply wp_seq. set (upd := fun r : lrec => if hasId (r_id kr) r then mkRecord (r_id r) (withEnrolled u e) None else r). set (s1 := change s (map upd (sv_recs s))).
      assert (EX : exec fresh listing (CUpdate (r_id kr) (withEnrolled u e) None) s = (RDone, s1)).
      { cbn [exec]. rewrite (proj2 (g_existsb _ (r_id kr) (sv_recs s))) by (apply (IK id kr u (or_introl eq_refl) LK)). reflexivity. }
      assert (IDU : forall r, r_id (upd r) = r_id r) by (intros r; unfold upd; destruct (hasId (r_id kr) r); reflexivity).
      assert (IDS : map r_id (sv_recs s1) = map r_id (sv_recs s)) by (cbn; rewrite map_map; apply map_ext; exact IDU).
      eapply wp_mono; [|exact (wp_attempt _ _ _ EX)]. intros o s' [H C].
      assert (DIFF : forall (r : lrec) i k, In (i, k) known -> r_id k = r_id r -> r_id kr <> r_id r).
      { intros r i k I E Q. apply NI. rewrite Q, <- E. apply (in_map snd) in I. apply (in_map r_id) in I. exact I. }
      assert (S1 : forall l l', Forall2 (step up known) (map upd l) l' -> Forall2 (step up ((id, kr) :: known)) l l').
      { induction l as [|r l IL]; intros l' F; inversion F as [|a y b l2 [A B0] FR]; subst; constructor; [|apply IL; assumption]. rewrite IDU in A. split; [exact A|].
        destruct B0 as [->|B0].
        - unfold upd, hasId. destruct (beq (r_id kr) (r_id r)) eqn:Q; [|auto]. apply (proj1 (beq_eq _ _)) in Q. right. exists id, kr, u, e. repeat split; auto. left. reflexivity.
        - right. destruct B0 as (i & k & v & e' & I & EI & B0). exists i, k, v, e'. rewrite IDU in *. split; [right; exact I|]. tauto. }
      assert (S2 : forall l l', Forall2 (step up known) (map upd l) l' -> Forall2 (due up known) (map upd l) l' -> Forall2 (due up ((id, kr) :: known)) l l').
      { induction l as [|r l IL]; intros l' F G; inversion F as [|a y b l2 [A B0] FR]; subst; inversion G as [|a y' b l3 B1 GR]; subst; constructor; [|apply IL; assumption].
        intros i k v [E|I] EI L N.
        - injection E as <- <-. assert (EU : upd r = mkRecord (r_id r) (withEnrolled u e) None) by (unfold upd, hasId; rewrite EI, beq_refl; reflexivity).
          destruct B0 as [->|(i & k & w & e' & I & EI' & _)]; [exists id, kr, u, e; rewrite EU; repeat split; auto; left; reflexivity|]. rewrite IDU in EI'. destruct (DIFF r i k I EI' EI).
        - assert (Q : upd r = r) by (unfold upd, hasId; destruct (beq (r_id kr) (r_id r)) eqn:Q; [apply (proj1 (beq_eq _ _)) in Q; destruct (DIFF r i k I EI Q)|reflexivity]).
          rewrite Q in B1. apply renewed_cons. exact (B1 i k v I EI L N). }
      assert (G1 : forall t, Updated up known s1 full' t -> Updated up ((id, kr) :: known) s full t).
      { intros t [K [F2 F3]]. split; [exact (kept_trans _ _ _ (kept_change s _) K)|]. split; [apply S1; exact F2|]. intros F. apply S2; [exact F2|exact (F3 (FF F))]. }
      assert (G0 : (clean -> s = s1) -> forall t, Updated up known s full' t -> Updated up ((id, kr) :: known) s full t).
      { intros X t U. split; [apply U|]. split; [destruct U as [_ [F2 _]]; eapply Forall2_weaken; [|exact F2]; intros r r'; apply step_cons|]. intros F. rewrite (X (proj1 F)) in U. apply (G1 t U). exact F. }
      assert (STOP : ~ clean -> forall t, Updated up known t full' t) by (intros F t; split; [apply kept_refl|]; split; [apply step_refl|intros [X _]; contradiction]).
      destruct o as [[]|x|].
      + destruct H as [-> | ->].
        * eapply wp_mono; [|apply (IH s IK')]. intros o s' [U C2]. split; [apply G0; [intros F; apply (C F)|exact U]|auto].
        * eapply wp_mono; [|apply (IH s1); intros i k v I L; rewrite IDS; exact (IK' i k v I L)]. intros o s' [U C2]. split; [apply G1; exact U|auto].
      + assert (F : ~ clean) by (intros F; destruct (C F); discriminate). split; [|intros [X _]; contradiction]. destruct H as [-> | ->]; [apply G0; [intros X; contradiction|apply (STOP F)]|apply G1; apply (STOP F)].
      + assert (F : ~ clean) by (intros F; destruct (C F); discriminate). split; [|intros [X _]; contradiction]. destruct H as [-> | ->]; [apply G0; [intros X; contradiction|apply (STOP F)]|apply G1; apply (STOP F)].
  Qed.
End Passes.
