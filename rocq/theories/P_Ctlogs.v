(** * C46: the list of CT logs follows the upstream list, and never changes an enrolment *)
From Verif Require Import Base RemoteModel RemoteProofs CtlogsModel CtlogsProofs.
From Coq Require Import Permutation.

(** ** Specification *)
(** [w] is a log of operator [o] in the upstream list; [t]: among the tiled logs. *)
Definition listed (ops : list operator) (o : operator) (t : bool) (w : rawLog) : Prop := In o ops /\ In w (if t then o_tiled o else o_logs o).
(** Record contents [d] say what the upstream list says about the log. *)
Definition describes (o : operator) (t : bool) (w : rawLog) (d : clog) : Prop :=
  g_logID d = Some (w_logID w) /\ g_key d = Some (w_key w) /\ g_description d = Some (w_description w) /\ g_url d = Some (w_url w) /\ g_mmd d = Some (w_mmd w) /\
  g_operator d = Some (o_name o) /\ g_tiled d = Some t /\
  exists b, g_admissible d = Some b /\ (b = true <-> In (B "qualified") (w_state w) \/ In (B "usable") (w_state w) \/ In (B "readonly") (w_state w) \/ In (B "retired") (w_state w)).
(** The enrolment flag is the one found before; a new log is enrolled. *)
Definition flagFrom (recs : list lrec) (d : clog) : Prop :=
  (exists r, In r recs /\ g_logID (r_data r) = g_logID d /\ g_enrolled (r_data r) = g_enrolled d) \/
  ((forall r, In r recs -> g_logID (r_data r) <> g_logID d) /\ g_enrolled d = Some true).
(** Each log occurs once, under the hash of its key. *)
Definition goodList (idOfKey : bytes -> option bytes) (ops : list operator) : Prop :=
  NoDup (flat_map (fun o => map w_logID (o_logs o ++ o_tiled o)) ops) /\ forall o t w, listed ops o t w -> idOfKey (w_key w) = Some (w_logID w).
(** The records have an id, a log id and a flag each. *)
Definition goodRecs (recs : list lrec) : Prop :=
  NoDup (map r_id recs) /\ NoDup (map (fun r => g_logID (r_data r)) recs) /\ forall r, In r recs -> g_logID (r_data r) <> None /\ g_enrolled (r_data r) <> None.

(** ** Auxiliary facts *)
Lemma describes_translate o t w : describes o t w (translate o t w).
Proof.
  unfold describes, translate. cbn [g_logID g_key g_description g_url g_mmd g_operator g_tiled g_admissible]. repeat split.
  exists (existsb (fun st => existsb (beq st) (w_state w)) admissibleStates). split; [reflexivity|].
  assert (M : forall st, existsb (beq st) (w_state w) = true <-> In st (w_state w)).
  { intros st. rewrite existsb_exists. split; [intros [x [I E]]; apply (proj1 (beq_eq _ _)) in E; subst x; exact I|intros I; exists st; split; [exact I|apply beq_refl]]. }
  unfold admissibleStates. cbn [existsb]. rewrite !orb_true_iff, !M. split; [intros [H|[H|[H|[H|H]]]]; [tauto|tauto|tauto|tauto|discriminate H]|tauto].
Qed.
Lemma describes_flag o t w e : describes o t w (withEnrolled (translate o t w) e).
Proof. exact (describes_translate o t w). Qed.
Lemma in_upstream ops id u : In (id, u) (upstream ops) <-> exists o t w, listed ops o t w /\ id = w_logID w /\ u = translate o t w.
Proof.
  unfold upstream. rewrite in_flat_map. split.
  - intros [o [I H]]. apply in_app_or in H. destruct H as [H|H]; apply in_map_iff in H; destruct H as [w [E IW]]; injection E as <- <-; [exists o, false, w|exists o, true, w]; repeat split; auto.
  - intros (o & t & w & [I IW] & -> & ->). exists o. split; [exact I|]. apply in_or_app. destruct t; [right|left]; apply in_map_iff; exists w; auto.
Qed.
Lemma upstream_ids ops : map fst (upstream ops) = flat_map (fun o => map w_logID (o_logs o ++ o_tiled o)) ops.
Proof.
  induction ops as [|o ops IH]; [reflexivity|]. unfold upstream in *. cbn [flat_map]. rewrite !map_app, IH, !map_map. reflexivity.
Qed.
Lemma checkIds_spec idOfKey up : match checkIds idOfKey up with
  | Val _ => forall id u, In (id, u) up -> exists k, g_key u = Some k /\ idOfKey k = Some id
  | Exc _ => exists id u, In (id, u) up /\ forall k, g_key u = Some k -> idOfKey k <> Some id
  end.
Proof.
  induction up as [|[id u] up IH]; cbn [checkIds]; [intros id u []|].
  destruct (g_key u) as [k|] eqn:K; [|exists id, u; split; [left; reflexivity|intros k Q; congruence]].
  destruct (idOfKey k) as [h|] eqn:H; [|exists id, u; split; [left; reflexivity|intros k' Q; congruence]].
  destruct (beq h id) eqn:E.
  - apply (proj1 (beq_eq _ _)) in E. subst h. destruct (checkIds idOfKey up).
    + intros i v [Q|I]; [injection Q as <- <-; exists k; auto|auto].
    + destruct IH as [i [v [I Q]]]. exists i, v. split; [right; exact I|exact Q].
  - exists id, u. split; [left; reflexivity|]. intros k' Q1 Q2. assert (k' = k) by congruence. subst k'. rewrite H in Q2. injection Q2 as ->. rewrite beq_refl in E. discriminate E.
Qed.
Lemma NoDup_map_Some {A} (l : list A) : NoDup (map Some l) <-> NoDup l.
Proof.
  induction l as [|x l IH]; [split; constructor|]. cbn [map]. rewrite !NoDup_cons_iff, IH.
  assert (E : In (Some x) (map Some l) <-> In x l); [|tauto]. rewrite in_map_iff. split; [intros [y [E I]]; injection E as ->; exact I|intros I; exists x; auto].
Qed.
Lemma Forall2_inr {A B} (P : A -> B -> Prop) l l' b : Forall2 P l l' -> In b l' -> exists a, In a l /\ P a b.
Proof. induction 1; intros I; [destruct I|]. destruct I as [<-|I]; [exists x; split; [left; reflexivity|assumption]|]. destruct (IHForall2 I) as [a [A1 A2]]. exists a. split; [right; exact A1|exact A2]. Qed.
Lemma Forall2_inl {A B} (P : A -> B -> Prop) l l' a : Forall2 P l l' -> In a l -> exists b, In b l' /\ P a b.
Proof. induction 1; intros I; [destruct I|]. destruct I as [<-|I]; [exists y; split; [left; reflexivity|assumption]|]. destruct (IHForall2 I) as [b [A1 A2]]. exists b. split; [right; exact A1|exact A2]. Qed.
Lemma Forall2_conj {A B} (P Q : A -> B -> Prop) l l' : Forall2 P l l' -> Forall2 Q l l' -> Forall2 (fun a b => P a b /\ Q a b) l l'.
Proof. induction 1; intros F; inversion F; subst; constructor; auto. Qed.
Lemma Forall2_maps {A B C} (P : A -> B -> Prop) (f : A -> C) (g : B -> C) l l' : (forall a b, P a b -> f a = g b) -> Forall2 P l l' -> map f l = map g l'.
Proof. intros H. induction 1; cbn; [reflexivity|f_equal; auto]. Qed.
Lemma Forall2_in {A B} (P : A -> B -> Prop) l l' : Forall2 P l l' -> Forall2 (fun a b => In a l /\ P a b) l l'.
Proof. induction 1; constructor; [split; [left; reflexivity|assumption]|]. eapply Forall2_weaken; [|exact IHForall2]. intros a b [I Q]. split; [right; exact I|exact Q]. Qed.

Section C46.
  Variable idOfKey : bytes -> option bytes.
  Variable fresh : list lrec -> bytes.
  Variable listing : list lrec -> list lrec.
  Hypothesis Fresh : forall l, ~ In (fresh l) (map r_id l).
  Hypothesis Listing : forall l, Permutation (listing l) l.
  Notation publish := (publishCtlogs idOfKey).

  (** What a run leaves behind, [full]: nothing failed. *)
  Definition Synced (ops : list operator) (recs : list lrec) (full : Prop) (recs' : list lrec) : Prop :=
    goodRecs recs' /\
    (forall r', In r' recs' -> In r' recs \/ exists o t w, listed ops o t w /\ describes o t w (r_data r') /\ flagFrom recs (r_data r')) /\
    (forall r o t w, In r recs -> listed ops o t w -> g_logID (r_data r) = Some (w_logID w) ->
       exists r', In r' recs' /\ r_id r' = r_id r /\ g_logID (r_data r') = Some (w_logID w) /\ g_enrolled (r_data r') = g_enrolled (r_data r)) /\
    (full -> (forall o t w, listed ops o t w -> exists r', In r' recs' /\ describes o t w (r_data r') /\ flagFrom recs (r_data r')) /\
             (forall r', In r' recs' -> exists o t w, listed ops o t w /\ describes o t w (r_data r'))).

  Lemma synced_of ops (s s1 s2 s3 : server clog) known (f1 f2 f3 full : Prop) :
    let up := upstream ops in
    goodRecs (sv_recs s) -> NoDup (map fst up) -> Permutation (map snd known) (sv_recs s) -> (forall id r, In (id, r) known -> logOf r = Some id) ->
    (full -> f1 /\ f2 /\ f3) ->
    Added known up s f1 s1 -> Deleted up known s1 f2 s2 -> Updated up known s2 f3 s3 -> Synced ops (sv_recs s) full (sv_recs s3).
  Proof.
    intros up [G1 [G2 G3]] NU PK KL FULL [_ [news [E1 [N1 [NN [A1 A2]]]]]] [_ [N2 [NL2 [D1 [D2 D3]]]]] [_ [U1 U2]].
    assert (KU : forall id u, In (id, u) up -> g_logID u = Some id) by (intros id u I; apply in_upstream in I; destruct I as (o & t & w & _ & -> & ->); reflexivity).
    assert (KN : forall r, In r (sv_recs s) -> exists id, In (id, r) known /\ logOf r = Some id).
    { intros r I. apply (Permutation_in _ (Permutation_sym PK)) in I. apply in_map_iff in I. destruct I as [[id x] [E I]]. cbn in E. subst x. exists id. split; [exact I|]. exact (KL id r I). }
    assert (NK : forall id r, In (id, r) known -> In r (sv_recs s)) by (intros id r I; apply (Permutation_in _ PK); apply (in_map snd) in I; exact I).
    assert (LOOK : forall id, lookupLog id known = None <-> forall r, In r (sv_recs s) -> logOf r <> Some id).
    { intros id. rewrite lookupLog_none. split.
      - intros N r I E. destruct (KN r I) as [i [K Q]]. assert (i = id) by congruence. subst i. apply N. apply (in_map fst) in K. exact K.
      - intros N I. apply in_map_iff in I. destruct I as [[i r] [E K]]. cbn in E. subst i. exact (N r (NK _ _ K) (KL _ _ K)). }
    (* the kinds of records after two passes *)
    assert (NEW : forall r, In r news -> exists id o t w, listed ops o t w /\ id = w_logID w /\ r_data r = translate o t w /\ lookupLog id known = None).
    { intros r I. destruct (A1 r I) as [id [J L]]. apply in_upstream in J. destruct J as (o & t & w & LI & E & Q). exists id, o, t, w. auto. }
    assert (SPLIT : forall r, In r (sv_recs s2) -> In r news \/ In r (sv_recs s)) by (intros r I; apply D1 in I; rewrite E1 in I; apply in_app_or in I; exact I).
    assert (IDS : forall r x, In r news -> In x (sv_recs s) -> r_id r <> r_id x).
    { intros r x I J Q. rewrite E1, map_app in N1. apply in_split in I. destruct I as [a [b ->]]. rewrite map_app in N1. cbn [map] in N1. rewrite <- app_assoc in N1. apply NoDup_remove_2 in N1. apply N1. apply in_or_app. right. apply in_or_app. right. rewrite Q. apply in_map. exact J. }
    assert (OLD : forall kr x, In kr (sv_recs s) -> In x (sv_recs s1) -> r_id kr = r_id x -> x = kr).
    { intros kr x I J Q. rewrite E1 in J. apply in_app_or in J. destruct J as [J|J]; [destruct (IDS x kr J I (eq_sym Q))|]. symmetry. exact (g_nodup_inj r_id _ _ _ G1 I J Q). }
    (* an update keeps log id and flag *)
    assert (REN : forall r r', In r (sv_recs s2) -> renewed up known r r' -> In r (sv_recs s) /\ exists id o t w e, listed ops o t w /\ id = w_logID w /\ logOf r = Some id /\ g_enrolled (r_data r) = Some e /\ needsUpdate (translate o t w) (r_data r) = true /\ r' = mkRecord (r_id r) (withEnrolled (translate o t w) e) None).
    { intros r r' I (id & kr & u & e & K & EI & L & EE & NU' & ->). assert (r = kr) by (apply OLD; [exact (NK _ _ K)|apply D1; exact I|exact EI]). subst kr. split; [exact (NK _ _ K)|].
      apply lookupLog_in in L. apply in_upstream in L. destruct L as (o & t & w & LI & -> & ->). exists (w_logID w), o, t, w, e. split; [exact LI|]. split; [reflexivity|]. split; [exact (KL _ _ K)|]. auto. }
    assert (STEP : Forall2 (fun r r' => In r (sv_recs s2) /\ step up known r r') (sv_recs s2) (sv_recs s3)) by (apply Forall2_in; exact U1).
    assert (SAME : forall r r', In r (sv_recs s2) /\ step up known r r' -> logOf r = logOf r' /\ g_enrolled (r_data r) = g_enrolled (r_data r') /\ r_id r = r_id r').
    { intros r r' [I [Q [->|R]]]; [auto|]. destruct (REN r r' I R) as [_ (id & o & t & w & e & LI & -> & LO & EE & _ & ->)]. unfold logOf in *. cbn [r_data withEnrolled g_logID translate g_enrolled r_id]. auto. }
    assert (FLAG : forall r d, In r (sv_recs s) -> g_logID d = logOf r -> g_enrolled d = g_enrolled (r_data r) -> flagFrom (sv_recs s) d) by (intros r d I Q1 Q2; left; exists r; auto).
    split; [|split; [|split]].
    - split; [|split].
      + rewrite <- (Forall2_maps _ r_id r_id _ _ (fun a b H => proj2 (proj2 (SAME a b H))) STEP). exact N2.
      + change (NoDup (map logOf (sv_recs s3))). rewrite <- (Forall2_maps _ logOf logOf _ _ (fun a b H => proj1 (SAME a b H)) STEP). exact NL2.
      + intros r' I'. destruct (Forall2_inr _ _ _ _ STEP I') as [r [I Q]]. pose proof (SAME r r' Q) as [Q1 [Q2 _]]. fold (logOf r'). rewrite <- Q1, <- Q2.
        destruct (SPLIT r I) as [J|J]; [|apply G3; exact J]. destruct (NEW r J) as (id & o & t & w & _ & _ & E & _). unfold logOf. rewrite E. split; discriminate.
    - intros r' I'. destruct (Forall2_inr _ _ _ _ STEP I') as [r [I [_ [Q1 Q2]]]]. destruct Q2 as [->|R].
      + destruct (SPLIT r I) as [J|J]; [|left; exact J]. right. destruct (NEW r J) as (id & o & t & w & LI & -> & E & L). exists o, t, w. rewrite E. split; [exact LI|]. split; [apply describes_translate|]. right. split; [|reflexivity]. apply LOOK. exact L.
      + right. destruct (REN r r' I R) as [J (id & o & t & w & e & LI & -> & LO & EE & _ & ->)]. exists o, t, w. split; [exact LI|]. split; [apply describes_flag|]. apply (FLAG r); [exact J|symmetry; exact LO|symmetry; exact EE].
    - intros r o t w I LI LO. destruct (D2 r) as [J|[id [kr [K [EI L]]]]]; [rewrite E1; apply in_or_app; right; exact I| |].
      + destruct (Forall2_inl _ _ _ _ STEP J) as [r' [I' Q]]. exists r'. split; [exact I'|]. destruct (SAME r r' Q) as [Q1 [Q2 Q3]]. repeat split; [symmetry; exact Q3|fold (logOf r'); rewrite <- Q1; exact LO|symmetry; exact Q2].
      + exfalso. assert (kr = r) by (exact (g_nodup_inj r_id _ _ _ G1 (NK _ _ K) I EI)). subst kr. assert (id = w_logID w) by (pose proof (KL _ _ K) as Q; unfold logOf in Q; congruence). subst id.
        apply lookupLog_none in L. apply L. apply (in_map fst (upstream ops) (w_logID w, translate o t w)). apply in_upstream. exists o, t, w. auto.
    - intros F. destruct (FULL F) as [F1 [F2 F3]]. pose proof (Forall2_conj _ _ _ _ STEP (U2 F3)) as ST. cbv beta in ST.
      (* an old record of a listed log ends up as described *)
      assert (DESC : forall r r' o t w, In r (sv_recs s2) /\ step up known r r' -> due up known r r' -> In r (sv_recs s) -> listed ops o t w -> logOf r = Some (w_logID w) -> describes o t w (r_data r') /\ flagFrom (sv_recs s) (r_data r')).
      { intros r r' o t w Q DUE J LI LO. destruct (KN r J) as [id [K LO']]. assert (id = w_logID w) by congruence. subst id.
        assert (LU : lookupLog (w_logID w) up = Some (translate o t w)) by (apply lookupLog_some; [exact NU|]; apply in_upstream; exists o, t, w; auto).
        destruct (SAME r r' Q) as [Q1 [Q2 _]]. destruct Q as [I [_ Q]]. destruct (needsUpdate (translate o t w) (r_data r)) eqn:ND.
        - pose proof (DUE _ _ _ K eq_refl LU ND) as (i & kr & u & e & K' & EI & L' & EE & _ & ->).
          assert (r = kr) by (apply OLD; [exact (NK _ _ K')|apply D1; exact I|exact EI]). subst kr. assert (i = w_logID w) by (pose proof (KL _ _ K'); congruence). subst i. rewrite LU in L'. injection L' as <-.
          split; [apply describes_flag|]. apply (FLAG r); [exact J|symmetry; exact LO|symmetry; exact EE].
        - assert (r' = r) as ->.
          { destruct Q as [Q|Q]; [exact Q|]. destruct Q as (i & kr & u & e & K' & EI & L' & EE & NU' & _). assert (r = kr) by (apply OLD; [exact (NK _ _ K')|apply D1; exact I|exact EI]). subst kr. assert (i = w_logID w) by (pose proof (KL _ _ K'); congruence). subst i. rewrite LU in L'. injection L' as <-. congruence. }
          split; [|apply (FLAG r); [exact J|reflexivity|reflexivity]]. apply needsUpdate_spec in ND. destruct ND as (B1 & B2 & B3 & B4 & B5 & B6 & B7).
          destruct (describes_translate o t w) as (_ & T2 & T3 & T4 & T5 & T6 & T7 & T8). unfold describes. unfold logOf in LO. rewrite <- B1, <- B2, <- B3, <- B4, <- B5, <- B6, <- B7. auto 10. }
      split.
      + intros o t w LI. set (id := w_logID w). assert (IU : In (id, translate o t w) up) by (apply in_upstream; exists o, t, w; auto).
        destruct (lookupLog id known) as [r|] eqn:LK.
        * apply lookupLog_in in LK. pose proof (NK _ _ LK) as J. pose proof (KL _ _ LK) as LO.
          destruct (D2 r) as [I|[i [kr [K [EI L]]]]]; [rewrite E1; apply in_or_app; right; exact J| |].
          -- destruct (Forall2_inl _ _ _ _ ST I) as [r' [I' [Q DUE]]]. exists r'. split; [exact I'|]. exact (DESC r r' o t w Q DUE J LI LO).
          -- exfalso. assert (kr = r) by (exact (g_nodup_inj r_id _ _ _ G1 (NK _ _ K) J EI)). subst kr. assert (i = id) by (pose proof (KL _ _ K); congruence). subst i. apply lookupLog_none in L. apply L. apply (in_map fst) in IU. exact IU.
        * destruct (A2 F1 id _ IU LK) as [r [I E]]. destruct (D2 r) as [J|[i [kr [K [EI _]]]]]; [rewrite E1; apply in_or_app; left; exact I| |destruct (IDS r kr I (NK _ _ K) (eq_sym EI))].
          destruct (Forall2_inl _ _ _ _ ST J) as [r' [I' [[_ [Q1 Q2]] _]]]. exists r'. split; [exact I'|]. destruct Q2 as [->|R]; [|destruct (REN r r' J R) as [Z _]; destruct (IDS r r I Z eq_refl)].
          rewrite E. split; [apply describes_translate|]. right. split; [apply LOOK; exact LK|reflexivity].
      + intros r' I'. destruct (Forall2_inr _ _ _ _ ST I') as [r [I [Q DUE]]]. destruct (SPLIT r I) as [J|J].
        * destruct Q as [_ [_ [->|R]]]; [|destruct (REN r r' I R) as [Z _]; destruct (IDS r r J Z eq_refl)]. destruct (NEW r J) as (id & o & t & w & LI & _ & E & _). exists o, t, w. rewrite E. split; [exact LI|apply describes_translate].
        * destruct (KN r J) as [id [K LO]]. destruct (lookupLog id up) as [u|] eqn:LU; [|destruct (D3 F2 id r r K LU I eq_refl)].
          apply lookupLog_in in LU. apply in_upstream in LU. destruct LU as (o & t & w & LI & -> & ->). exists o, t, w. split; [exact LI|]. exact (proj1 (DESC r r' o t w Q DUE J LI LO)).
  Qed.

  Lemma nodup_app {A} (l l' : list A) : NoDup l -> NoDup l' -> (forall x, In x l -> ~ In x l') -> NoDup (l ++ l').
  Proof.
    induction l as [|x l IH]; intros N N' D; [exact N'|]. apply NoDup_cons_iff in N. destruct N as [NI N]. cbn. constructor.
    - intros I. apply in_app_or in I. destruct I as [I|I]; [contradiction|]. exact (D x (or_introl eq_refl) I).
    - apply IH; [exact N|exact N'|]. intros y I. apply D. right. exact I.
  Qed.
  Lemma goodList_iff ops : goodList idOfKey ops <-> distinct (map fst (upstream ops)) = true /\ checkIds idOfKey (upstream ops) = Val tt.
  Proof.
    unfold goodList. rewrite distinct_spec, upstream_ids. pose proof (checkIds_spec idOfKey (upstream ops)) as CS. split; intros [A H]; (split; [exact A|]).
    - destruct (checkIds idOfKey (upstream ops)) as [[]|e]; [reflexivity|]. exfalso. destruct CS as [id [u [I N]]]. apply in_upstream in I. destruct I as (o & t & w & LI & -> & ->). exact (N (w_key w) eq_refl (H o t w LI)).
    - rewrite H in CS. intros o t w LI. destruct (CS (w_logID w) (translate o t w)) as [k [K1 K2]]; [apply in_upstream; exists o, t, w; auto|]. injection K1 as <-. exact K2.
  Qed.

  Lemma wp_ctlogs ok ops (s : server clog) : goodRecs (sv_recs s) ->
    wp fresh listing ok (publish false ops) (fun o s' => Synced ops (sv_recs s) (clean ok /\ goodList idOfKey ops) (sv_recs s') /\
      (clean ok /\ goodList idOfKey ops -> o = Done tt /\ sv_wip s' = false /\ (s' = s \/ sv_reviews s' = sv_recs s' :: sv_reviews s))) s.
  Proof.
    intros G. set (full := clean ok /\ goodList idOfKey ops).
    assert (STAY : ~ full -> Synced ops (sv_recs s) full (sv_recs s)).
    { intros F. split; [exact G|]. split; [auto|]. split; [intros r o t w I _ LO; exists r; auto|intros X; contradiction]. }
    assert (OUT : forall (o : outcome unit) s', ~ full -> s' = s -> Synced ops (sv_recs s) full (sv_recs s') /\ (full -> o = Done tt /\ sv_wip s' = false /\ (s' = s \/ sv_reviews s' = sv_recs s' :: sv_reviews s))).
    { intros o s' F ->. split; [apply STAY; exact F|intros X; contradiction]. }
    unfold publishCtlogs. set (up := upstream ops).
    destruct (distinct (map fst up)) eqn:DU; cbn [negb].
    2:{ cbn. apply OUT; [|reflexivity]. intros [_ X]. apply goodList_iff in X. fold up in X. destruct X. congruence. }
    destruct (checkIds idOfKey up) as [[]|e] eqn:CK; cbn [ofPy seq].
    2:{ cbn. apply OUT; [|reflexivity]. intros [_ X]. apply goodList_iff in X. fold up in X. destruct X. congruence. }
    assert (GL : goodList idOfKey ops) by (apply goodList_iff; auto). apply distinct_spec in DU.
    apply wp_seq. eapply wp_mono; [|apply gwp_get]. intros o s' [-> [C1 H]].
    destruct o as [l|e|]; [|apply OUT; [|reflexivity]; intros [X _]; specialize (C1 X); discriminate C1|apply OUT; [|reflexivity]; intros [X _]; specialize (C1 X); discriminate C1].
    subst l. pose proof (Listing (sv_recs s)) as PL. pose proof G as [G1 [G2 G3]].
    pose proof (knownLogs_spec (listing (sv_recs s))) as KS. destruct (knownLogs (listing (sv_recs s))) as [known|e]; cbn [ofPy seq].
    2:{ exfalso. destruct KS as [_ [r [I N]]]. apply (Permutation_in _ PL) in I. exact (proj1 (G3 r I) N). }
    destruct KS as [K1 [K2 K3]].
    assert (PK : Permutation (map snd known) (sv_recs s)) by (rewrite K1; exact PL).
    assert (DK : distinct (map fst known) = true).
    { apply distinct_spec. apply NoDup_map_Some. rewrite map_map, K3. apply (Permutation_NoDup (l := map logOf (sv_recs s))); [apply Permutation_map; symmetry; exact PL|exact G2]. }
    rewrite DK. cbn [negb].
    assert (NIK : NoDup (map r_id (map snd known))) by (apply (Permutation_NoDup (l := map r_id (sv_recs s))); [apply Permutation_map; symmetry; exact PK|exact G1]).
    assert (KIN : forall id r, In (id, r) known -> In r (sv_recs s)) by (intros id r I; apply (Permutation_in _ PK); apply (in_map snd) in I; exact I).
    apply wp_seq. eapply wp_mono; [|apply (wp_add fresh listing ok Fresh known up s DU); [intros id u I; apply in_upstream in I; destruct I as (o & t & w & _ & -> & ->); reflexivity|exact G1]].
    intros o s1 [A C2].
    assert (PR : NoDup (map r_id (sv_recs s1)) /\ NoDup (map logOf (sv_recs s1)) /\ (forall id kr, In (id, kr) known -> In kr (sv_recs s1))).
    { destruct A as [_ [news [E [N1 [NN [A1 _]]]]]]. split; [exact N1|]. rewrite E. split; [|intros id kr I; apply in_or_app; right; exact (KIN id kr I)].
      rewrite map_app. apply nodup_app; [exact NN|exact G2|]. intros x I J. apply in_map_iff in I. destruct I as [r [<- I]]. apply in_map_iff in J. destruct J as [k [Q J]].
      destruct (A1 r I) as [id [IU LN]]. apply in_upstream in IU. destruct IU as (o' & t & w & _ & E1 & E2). unfold logOf in Q. rewrite E2 in Q. cbn [translate g_logID] in Q. rewrite <- E1 in Q.
      apply (Permutation_in _ (Permutation_sym PK)) in J. apply in_map_iff in J. destruct J as [[i k'] [E3 J]]. cbn in E3. subst k'. pose proof (K2 _ _ J) as Q'. unfold logOf in Q'. assert (i = id) by congruence. subst i. apply lookupLog_none in LN. apply LN. apply (in_map fst) in J. exact J. }
    destruct PR as [N1 [NL1 KIN1]].
    assert (D0 : Deleted up known s1 False s1) by (split; [apply kept_refl|]; repeat split; [exact N1|exact NL1|auto|auto|intros []]).
    assert (U0 : forall t, Updated up known t False t) by (intros t; split; [apply kept_refl|]; split; [apply step_refl|intros []]).
    assert (S1 : ~ full -> Synced ops (sv_recs s) full (sv_recs s1)).
    { intros F. apply (synced_of ops s s1 s1 s1 known (clean ok) False False full G DU PK K2); [intros X; contradiction|exact A|exact D0|apply U0]. }
    destruct o as [[]|e|].
    2:{ assert (F : ~ full) by (intros [X _]; specialize (C2 X); discriminate C2). split; [exact (S1 F)|intros X; contradiction]. }
    2:{ assert (F : ~ full) by (intros [X _]; specialize (C2 X); discriminate C2). split; [exact (S1 F)|intros X; contradiction]. }
    apply wp_seq. eapply wp_mono; [|apply (wp_del fresh listing ok up known s1 N1 NL1 NIK)]; [|intros id kr I; apply in_map; exact (KIN1 id kr I)].
    intros o s2 [D C3].
    assert (S2 : ~ full -> Synced ops (sv_recs s) full (sv_recs s2)).
    { intros F. apply (synced_of ops s s1 s2 s2 known (clean ok) (clean ok) False full G DU PK K2); [intros X; contradiction|exact A|exact D|apply U0]. }
    destruct o as [[]|e|].
    2:{ assert (F : ~ full) by (intros [X _]; specialize (C3 X); discriminate C3). split; [exact (S2 F)|intros X; contradiction]. }
    2:{ assert (F : ~ full) by (intros [X _]; specialize (C3 X); discriminate C3). split; [exact (S2 F)|intros X; contradiction]. }
    assert (KIN2 : forall id kr u, In (id, kr) known -> lookupLog id up = Some u -> In (r_id kr) (map r_id (sv_recs s2))).
    { intros id kr u I L. destruct D as [_ [_ [_ [_ [D2 _]]]]]. destruct (D2 kr (KIN1 id kr I)) as [J|[i [k [J [E LN]]]]]; [apply in_map; exact J|]. exfalso.
      assert (k = kr) by (exact (g_nodup_inj r_id _ _ _ G1 (KIN _ _ J) (KIN _ _ I) E)). subst k. assert (i = id) by (pose proof (K2 _ _ I); pose proof (K2 _ _ J); congruence). subst i. congruence. }
    apply wp_seq. eapply wp_mono; [|apply (wp_upd fresh listing ok up known s2 NIK KIN2)]. intros o s3 [U C4].
    assert (FL : flagged up known) by (intros id kr u I _; exact (proj2 (G3 kr (KIN id kr I)))).
    assert (S3 : Synced ops (sv_recs s) full (sv_recs s3)).
    { apply (synced_of ops s s1 s2 s3 known (clean ok) (clean ok) (clean ok /\ flagged up known) full G DU PK K2); [intros [X _]; auto|exact A|exact D|exact U]. }
    assert (KEPT : kept s s3) by (apply (kept_trans s s1 s3); [apply A|]; apply (kept_trans s1 s2 s3); [apply D|apply U]).
    destruct o as [[]|e|]; [|split; [exact S3|intros [X _]; specialize (C4 (conj X FL)); discriminate C4]|split; [exact S3|intros [X _]; specialize (C4 (conj X FL)); discriminate C4]].
    eapply wp_mono; [|apply gwp_review]. intros o s4 [E [_ [C5 R]]]. rewrite E. split; [exact S3|]. intros [X _]. specialize (C5 X). subst o. split; [reflexivity|].
    destruct KEPT as [KR KW]. destruct (sv_wip s3) eqn:W.
    - destruct R as [R1 R2]. split; [exact R1|]. right. rewrite R2, KR. reflexivity.
    - subst s4. split; [exact W|]. destruct KW as [->|KW]; [left; reflexivity|congruence].
  Qed.

  (** ** Theorems *)
  (** When nothing fails, the collection afterwards says what the upstream list says, log by log, and the enrolment of a log already there is what it was.
      A review is asked for if anything had to change or was still to be reviewed. *)
  Theorem C46_synchronised ops (s : server clog) : goodList idOfKey ops -> goodRecs (sv_recs s) ->
    exists s', run fresh listing (publish false ops) s [] = (Done tt, s') /\
      (forall o t w, listed ops o t w -> exists r, In r (sv_recs s') /\ describes o t w (r_data r) /\ flagFrom (sv_recs s) (r_data r)) /\
      (forall r, In r (sv_recs s') -> exists o t w, listed ops o t w /\ describes o t w (r_data r)) /\
      goodRecs (sv_recs s') /\ sv_wip s' = false /\ (s' = s \/ sv_reviews s' = sv_recs s' :: sv_reviews s).
  Proof.
    intros GL G. pose proof (wp_run _ _ _ _ _ _ s [] (wp_ctlogs (fun f => f = FOk) ops s G) (Forall_nil _)) as [[S1 [_ [_ S4]]] R].
    assert (F : clean (fun f => f = FOk) /\ goodList idOfKey ops) by (split; [intros f X; exact X|exact GL]).
    destruct (R F) as [E [W V]]. destruct (S4 F) as [A1 A2].
    exists (snd (run fresh listing (publish false ops) s [])). rewrite <- E at 1. split; [apply surjective_pairing|]. auto.
  Qed.

  (** Whatever fails: a record is as it was, or says what the list says with the enrolment it had; a log still listed is still there, under the same id
      and with the same enrolment; and the collection is still well formed, so that a later run can repair it. *)
  Theorem C46_any_faults ops (s : server clog) fs : goodRecs (sv_recs s) ->
    let s' := snd (run fresh listing (publish false ops) s fs) in
    (forall r', In r' (sv_recs s') -> In r' (sv_recs s) \/ exists o t w, listed ops o t w /\ describes o t w (r_data r') /\ flagFrom (sv_recs s) (r_data r')) /\
    (forall r o t w, In r (sv_recs s) -> listed ops o t w -> g_logID (r_data r) = Some (w_logID w) ->
       exists r', In r' (sv_recs s') /\ r_id r' = r_id r /\ g_logID (r_data r') = Some (w_logID w) /\ g_enrolled (r_data r') = g_enrolled (r_data r)) /\
    goodRecs (sv_recs s').
  Proof.
    intros G s'. pose proof (wp_run _ _ _ _ _ _ s fs (wp_ctlogs (fun _ => True) ops s G)) as H. destruct H as [[S1 [S2 [S3 _]]] _]; [apply Forall_forall; auto|]. auto.
  Qed.

  (** Any number of runs, each with its own upstream list and its own failures. *)
  Fixpoint runs (s : server clog) (h : list (list operator * list fault)) : server clog :=
    match h with
    | [] => s
    | (ops, fs) :: h' => runs (snd (run fresh listing (publish false ops) s fs)) h'
    end.
  Theorem C46_enrolment_kept (h : list (list operator * list fault)) : forall (s : server clog) id e, goodRecs (sv_recs s) ->
    (forall ops fs, In (ops, fs) h -> exists o t w, listed ops o t w /\ w_logID w = id) ->
    (exists r, In r (sv_recs s) /\ g_logID (r_data r) = Some id /\ g_enrolled (r_data r) = Some e) ->
    exists r, In r (sv_recs (runs s h)) /\ g_logID (r_data r) = Some id /\ g_enrolled (r_data r) = Some e /\
      (forall r2, In r2 (sv_recs (runs s h)) -> g_logID (r_data r2) = Some id -> r2 = r).
  Proof.
    induction h as [|[ops fs] h IH]; intros s id e G HL [r [I [L E]]]; cbn [runs].
    - exists r. repeat split; auto. intros r2 I2 L2. destruct G as [_ [G2 _]]. apply (g_nodup_inj (fun r => g_logID (r_data r)) _ _ _ G2 I2 I). congruence.
    - destruct (C46_any_faults ops s fs G) as [_ [H2 G']]. apply IH; [exact G'|intros ops' fs' I'; apply (HL ops' fs'); right; exact I'|].
      destruct (HL ops fs (or_introl eq_refl)) as (o & t & w & LI & <-). destruct (H2 r o t w I LI L) as [r' [A [_ [B1 B2]]]]. exists r'. split; [exact A|]. split; [exact B1|congruence].
  Qed.

  (** Inconsistent input is refused, without any effect. *)
  Theorem C46_refused noop ops (s : server clog) fs :
    ~ goodList idOfKey ops \/ ~ NoDup (map (fun r => g_logID (r_data r)) (sv_recs s)) \/ (exists r, In r (sv_recs s) /\ g_logID (r_data r) = None) ->
    snd (run fresh listing (publish noop ops) s fs) = s /\ fst (run fresh listing (publish noop ops) s fs) <> Done tt.
  Proof.
    intros H. apply (wp_run _ _ _ (fun _ => True) (publish noop ops) (fun o s' => s' = s /\ o <> Done tt)); [|apply Forall_forall; auto].
    unfold publishCtlogs. set (up := upstream ops). destruct (distinct (map fst up)) eqn:DU; cbn [negb]; [|cbn; split; [reflexivity|discriminate]].
    destruct (checkIds idOfKey up) as [[]|e] eqn:CK; cbn [ofPy seq]; [|cbn; split; [reflexivity|discriminate]].
    assert (GL : goodList idOfKey ops) by (apply goodList_iff; auto).
    apply wp_seq. eapply wp_mono; [|apply gwp_get]. intros o s' [-> [_ Q]]. destruct o as [l|e|]; [|split; [reflexivity|discriminate]|split; [reflexivity|discriminate]]. subst l.
    pose proof (Listing (sv_recs s)) as PL. pose proof (knownLogs_spec (listing (sv_recs s))) as KS. destruct (knownLogs (listing (sv_recs s))) as [known|e]; cbn [ofPy seq]; [|cbn; split; [reflexivity|discriminate]].
    destruct KS as [K1 [K2 K3]]. destruct (distinct (map fst known)) eqn:DK; cbn [negb]; [|cbn; split; [reflexivity|discriminate]]. exfalso.
    destruct H as [H|[H|[r [I N]]]]; [contradiction| |].
    - apply H. apply distinct_spec in DK. apply NoDup_map_Some in DK. rewrite map_map, K3 in DK. apply (Permutation_NoDup (l := map logOf (listing (sv_recs s)))); [apply Permutation_map; exact PL|exact DK].
    - apply (Permutation_in _ (Permutation_sym PL)) in I. rewrite <- K1 in I. apply in_map_iff in I. destruct I as [[i r'] [E I]]. cbn in E. subst r'. pose proof (K2 _ _ I) as Q. unfold logOf in Q. congruence.
  Qed.

  (** With --noop nothing is changed. *)
  Lemma noop_add known up : addLogs true known up = Ret tt.
  Proof. induction up as [|[id u] up IH]; [reflexivity|]. cbn [addLogs]. destruct (lookupLog id known); exact IH. Qed.
  Lemma noop_del up known : deleteLogs true up known = Ret tt.
  Proof. induction known as [|[id u] known IH]; [reflexivity|]. cbn [deleteLogs]. destruct (lookupLog id up); exact IH. Qed.
  Lemma noop_upd up known : updateLogs true up known = Ret tt \/ updateLogs true up known = Raise EOther.
  Proof.
    induction known as [|[id u] known IH]; [left; reflexivity|]. cbn [updateLogs]. destruct (lookupLog id up) as [v|]; [|exact IH]. destruct (g_enrolled (r_data u)); [|right; reflexivity].
    destruct (needsUpdate v (r_data u)); exact IH.
  Qed.
  Theorem C46_dry_run ops (s : server clog) fs : snd (run fresh listing (publish true ops) s fs) = s.
  Proof.
    apply (wp_run _ _ _ (fun _ => True) (publish true ops) (fun _ s' => s' = s)); [|apply Forall_forall; auto].
    unfold publishCtlogs. set (up := upstream ops). destruct (negb (distinct (map fst up))); [reflexivity|]. destruct (checkIds idOfKey up) as [u|e]; cbn [ofPy seq]; [|reflexivity].
    apply wp_seq. eapply wp_mono; [|apply gwp_get]. intros o s' [-> _]. destruct o as [l|e|]; [|reflexivity|reflexivity].
    destruct (knownLogs l) as [known|e]; cbn [ofPy seq]; [|reflexivity]. destruct (negb (distinct (map fst known))); [reflexivity|].
    rewrite noop_add, noop_del. cbn [seq]. destruct (noop_upd up known) as [-> | ->]; reflexivity.
  Qed.
End C46.
Print Assumptions C46_synchronised.
Print Assumptions C46_any_faults.
Print Assumptions C46_enrolment_kept.
Print Assumptions C46_refused.
Print Assumptions C46_dry_run.

(** ** A concrete case, and a weakness *)
Section Concrete.
  Definition freshLog (l : list lrec) : bytes := concat (map r_id l) ++ B "x".
  Lemma freshLog_new : forall l, ~ In (freshLog l) (map r_id l).
  Proof.
    intros l I. assert (G : forall m : list bytes, forall x, In x m -> (length x <= length (concat m))%nat).
    { induction m as [|y m IH]; intros x J; [destruct J|]. cbn [concat]. rewrite app_length. destruct J as [->|J]; [lia|]. specialize (IH x J). lia. }
    apply G in I. unfold freshLog in I. rewrite app_length in I. cbn in I. lia.
  Qed.
  Let listingEx (l : list lrec) := l.
  (* a stand-in for base64(sha256(...)) *)
  Let hash (k : bytes) : option bytes := Some (B "hash of " ++ k).
  Let w1 := mkRaw (B "log one") (B "k1") (B "hash of k1") 86400 [B "usable"] (B "https://one/").
  Let w2 := mkRaw (B "log two") (B "k2") (B "hash of k2") 86400 [B "rejected"] (B "https://two/").
  Let w3 := mkRaw (B "log three") (B "k3") (B "hash of k3") 60 [B "qualified"] (B "https://three/").
  Let ops := [mkOperator (B "Op A") [w1; w2] []; mkOperator (B "Op B") [] [w3]].
  (* log one is known under an old URL and not enrolled; log two is known and unchanged; a fourth one is gone *)
  Let k1 : lrec := mkRecord (B "r1") (mkLog (Some true) (Some false) (Some (B "log one")) (Some (B "k1")) (Some (B "hash of k1")) (Some 86400%Z) (Some (B "Op A")) None (Some (B "https://old/"))) None.
  Let k2 : lrec := mkRecord (B "r2") (mkLog (Some false) (Some false) (Some (B "log two")) (Some (B "k2")) (Some (B "hash of k2")) (Some 86400%Z) (Some (B "Op A")) (Some false) (Some (B "https://two/"))) None.
  Let k4 : lrec := mkRecord (B "r4") (mkLog (Some true) (Some true) (Some (B "log four")) (Some (B "k4")) (Some (B "hash of k4")) (Some 86400%Z) (Some (B "Op C")) (Some false) (Some (B "https://four/"))) None.
  Let s0 : server clog := mkServer [k1; k2; k4] false [].

  Example C46_example : goodList hash ops /\ goodRecs (sv_recs s0) /\ map (fun r : lrec => (g_description (r_data r), g_url (r_data r), g_enrolled (r_data r), g_admissible (r_data r), g_tiled (r_data r)))
      (sv_recs (snd (run freshLog listingEx (publishCtlogs hash false ops) s0 []))) =
    [ (Some (B "log three"), Some (B "https://three/"), Some true, Some true, Some true);
      (Some (B "log one"), Some (B "https://one/"), Some false, Some true, Some false);
      (Some (B "log two"), Some (B "https://two/"), Some false, Some false, Some false) ].
  Proof.
    split; [|split].
    - split; [apply distinct_spec; reflexivity|]. intros o t w [[<-|[<-|[]]] I]; destruct t; cbn in I; intuition (subst; reflexivity).
    - assert (N : forall l : list bytes, distinct l = true -> NoDup l) by (intros l; apply distinct_spec). split; [apply N; reflexivity|]. split.
      + change (map (fun r : record clog => g_logID (r_data r)) (sv_recs s0)) with (map (@Some bytes) [B "hash of k1"; B "hash of k2"; B "hash of k4"]). apply NoDup_map_Some. apply N. reflexivity.
      + intros r [<-|[<-|[<-|[]]]]; split; discriminate.
    - vm_compute. reflexivity.
  Qed.
  (** A failed call is only logged: the script goes on, reports success and asks for a review of a collection in which a listed log is missing. *)
  Theorem C46_review_refuted : exists fs (s' : server clog), run freshLog listingEx (publishCtlogs hash false ops) s0 fs = (Done tt, s') /\
    sv_reviews s' = [sv_recs s'] /\ forall r, In r (sv_recs s') -> g_logID (r_data r) <> Some (w_logID w3).
  Proof.
    exists [FOk; FKinto false], (snd (run freshLog listingEx (publishCtlogs hash false ops) s0 [FOk; FKinto false])).
    split; [vm_compute; reflexivity|]. split; [vm_compute; reflexivity|]. intros r I. vm_compute in I. destruct I as [<-|[<-|[]]]; vm_compute; discriminate.
  Qed.
End Concrete.
Print Assumptions C46_review_refuted.
