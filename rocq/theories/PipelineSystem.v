(** * The pipeline over time: the bucket between and during runs *)
From Verif Require Import Base MerkleModel SerialModel SerialProofs IssuersModel FilterModel FilterProofs TimeModel TimeProofs QueryModel TextProofs P_Query RemoteModel PublishModel P_RunIds PublishProofs PublishProofs2 PipelineModel PipelineProofs.
From Coq Require Import Strings.Byte Sorting.Permutation Sorting.Sorted.

Definition sAll := B "clubcard-all".
Definition sPriority := B "clubcard-priority".
Definition sCompleted := B "completed".
Definition revsetOf (r : bytes) : path := [r; sAll; B "revset.bin"].

Section System.
  Variables (F : Type) (has : F -> bytes -> bool) (buildCascade : N -> N -> list bytes -> list bytes -> option bytes).
  Variable buildClubcard : bytes -> list (bytes * list bytes * N) -> list (bytes * list (bytes * bool)) -> option bytes.
  Variable fromBytes : bytes -> res (option F).
  Variable order : list bytes -> list bytes.
  Variable listdir : folder -> folder.
  Variable reasons : reasonSet -> dir -> dir -> bytes.
  Variable marker : bytes.
  Variable parseTime : bytes -> option Z.

  Let generate := generate F has buildCascade buildClubcard fromBytes order listdir reasons marker.
  Let buildDir := buildDir F has buildCascade buildClubcard fromBytes order reasons.

  (** ** The system *)

  (** The directory of a run before the filters are built: no name twice, no file
      that the pipeline writes itself later, and the timestamp that
      0-allocate_identifier leaves there. *)
  Definition goodTree (t : tree) : Prop :=
    tidy t /\
    (forall d f, In (d, f) t -> match d with [] => ~ In sCompleted (map fst f) | x :: _ => x <> sAll /\ x <> sPriority end) /\
    exists c z, fileAt t [B "timestamp"] c /\ parseTime c = Some z.
  (** A run may start: the date is a date and not before those of the runs started
      so far, of which there are less than a million. *)
  Definition goodWorld (ws : list world) (w : world) : Prop :=
    length (w_today w) = 8%nat /\ forallb isDigit (w_today w) = true /\
    (forall w', In w' ws -> (valueOf (w_today w') <= valueOf (w_today w))%N) /\
    (forall t, w_tree w = Some t -> goodTree t) /\
    (N.of_nat (length ws) < 1000000)%N.
  (** [all] is a record of everything that was ever uploaded. *)
  Definition took (f : gfault) : bool := match f with Works => true | Fails d => d | Dies d => d end.
  Definition uploaded (p : gprog) (f : gfault) (all : objects) : objects := match p with GPut q c _ => if took f then pput q c all else all | _ => all end.
  Definition under (r : bytes) (p : path) : bool := match p with x :: _ => beq r x | [] => false end.

  (** One run after the other, each stopped by any failure; old runs are deleted,
      the oldest first and never the newest, and so are files in latest/, at any
      time; the directory of runs on the machine may lose or gain anything. *)
  Inductive pstep : list world -> objects -> status -> pst -> list world -> objects -> status -> pst -> Prop :=
  | p_run ws all st s w : (forall p, st <> Running p) -> goodWorld ws w -> pstep ws all st s (w :: ws) all (Running (generate w)) s
  | p_call ws all p s f : pstep ws all (Running p) s ws (uploaded p f all) (fst (gstep p s f)) (snd (gstep p s f))
  | p_delete ws all st s r r2 l : ids (p_objs s) = r :: r2 :: l ->
      pstep ws all st s ws all st (mkP (filter (fun e => negb (under r (fst e))) (p_objs s)) (p_local s))
  | p_forget ws all st s keep :
      pstep ws all st s ws all st (mkP (filter (fun e => negb (under latest (fst e)) || keep (fst e)) (p_objs s)) (p_local s))
  | p_machine ws all st s l : pstep ws all st s ws all st (mkP (p_objs s) l).
  Inductive reach : list world -> objects -> status -> pst -> Prop :=
  | reach_start : reach [] [] (Ended true) (mkP [] [])
  | reach_step ws all st s ws' all' st' s' : reach ws all st s -> pstep ws all st s ws' all' st' s' -> reach ws' all' st' s'.

  (** ** Specification of a completed run *)

  Definition built (w : world) (prev1 prev2 : option bytes) (t a p : tree) : Prop :=
    w_tree w = Some t /\ buildDir RAll (w_outAll w) prev1 t = Ok a /\ buildDir RPriority (w_outPriority w) prev2 t = Ok p /\ hasFilter a = true.
  (** The objects of a run. *)
  Definition objectsOf (t a p : tree) (q : path) (c : bytes) : Prop :=
    fileAt t q c \/ (exists q', q = sAll :: q' /\ fileAt a q' c) \/ (exists q', q = sPriority :: q' /\ fileAt p q' c) \/ (q = [sCompleted] /\ c = marker).
  Definition done (o : objects) (r : bytes) : Prop := plookup [r; sCompleted] o <> None.
  (** [x] is nothing, or the revoked set of the run just before [r], if that was completed. *)
  Definition prevOk (all : objects) (r : bytes) (x : option bytes) : Prop :=
    forall r0, In r0 (ids all) -> before r0 r -> (forall r', In r' (ids all) -> before r' r -> r' = r0 \/ before r' r0) -> done all r0 ->
      x = None \/ x = plookup (revsetOf r0) all.
  Definition finished (ws : list world) (all : objects) (r : bytes) : Prop :=
    exists w t p1 p2 a p, In w ws /\ (exists n, runId r (w_today w) n) /\ goodTree t /\ built w p1 p2 t a p /\
      (forall q c, plookup (r :: q) all = Some c <-> objectsOf t a p q c) /\ prevOk all r p1 /\ prevOk all r p2.

  (** ** Invariant *)

  Definition dated (ws : list world) (r : bytes) : Prop := exists d n, runId r d n /\ In d (map w_today ws) /\ (n < N.of_nat (length ws))%N.
  Definition newest (all : objects) (r : bytes) : Prop := forall r', In r' (ids all) -> r' = r \/ before r' r.

  Record frame (ws : list world) (all o : objects) : Prop := mkFrame {
    f_len : (N.of_nat (length ws) <= 1000000)%N;
    f_named : named (dated ws) all;
    f_apart : forall r r', In r (ids all) -> In r' (ids all) -> r = r' \/ before r r' \/ before r' r;
    f_sub : forall p, plookup p o <> None -> plookup p all <> None;
    f_same : forall r q, In r (ids o) -> plookup (r :: q) o = plookup (r :: q) all;
    f_upper : forall r r', In r (ids all) -> In r' (ids o) -> before r' r -> In r (ids o);
    f_top : forall r, In r (ids all) -> exists r', In r' (ids o) /\ (r = r' \/ before r r');
    f_latest : plookup (latestRevset) o = None \/ plookup latestRevset o = plookup latestRevset all }.

  Record inv (ws : list world) (all o : objects) : Prop := mkInv {
    i_frame : frame ws all o;
    i_done : forall r, In r (ids all) -> done all r -> finished ws all r;
    i_last : forall r, In r (ids all) -> newest all r -> done all r -> plookup latestRevset all = None \/ plookup latestRevset all = plookup (revsetOf r) all }.

  (** ** The frame *)

  Lemma dated_run ws r : dated ws r -> isRun r.
  Proof. intros [d [n [H _]]]. exists d, n. exact H. Qed.
  Lemma named_run ws o : named (dated ws) o -> named isRun o.
  Proof. intros N p H. destruct (N p H) as [x [y [q [E [C|C]]]]]; exists x, y, q; (split; [exact E|]); [left; exact C|right; eapply dated_run; exact C]. Qed.
  Lemma frame_named_o ws all o : frame ws all o -> named (dated ws) o.
  Proof. intros Fr p H. apply (f_named _ _ _ Fr). apply (f_sub _ _ _ Fr). exact H. Qed.
  Lemma named_put run o x y q c : named run o -> (x = latest \/ run x) -> named run (pput (x :: y :: q) c o).
  Proof.
    intros N X p. rewrite plookup_put. destruct (peq p (x :: y :: q)) eqn:E; [|apply N]. apply peq_eq in E. subst p. intros _. exists x, y, q. auto.
  Qed.
  Lemma ids_put o x y q c r : named isRun o -> (x = latest \/ isRun x) -> (In r (ids (pput (x :: y :: q) c o)) <-> In r (ids o) \/ (r = x /\ x <> latest)).
  Proof.
    intros N X. rewrite (in_ids _ _ (named_put _ _ _ _ _ _ N X)), (in_ids _ _ N). split.
    - intros [R [y' [q' H]]]. rewrite plookup_put in H. destruct (peq (r :: y' :: q') (x :: y :: q)) eqn:E.
      + apply peq_eq in E. injection E as -> _ _. right. split; [reflexivity|apply run_no_latest; exact R].
      + left. split; [exact R|]. exists y', q'. exact H.
    - intros [[R [y' [q' H]]]|[-> NL]].
      + split; [exact R|]. exists y', q'. rewrite plookup_put. destruct (peq (r :: y' :: q') (x :: y :: q)); [discriminate|exact H].
      + destruct X as [X|X]; [contradiction|]. split; [exact X|]. exists y, q. rewrite plookup_put, peq_refl. discriminate.
  Qed.
  Lemma ids_run_of ws all o r : frame ws all o -> In r (ids all) -> dated ws r.
  Proof.
    intros Fr I. apply (in_ids _ _ (named_run _ _ (f_named _ _ _ Fr))) in I. destruct I as [R [y [q H]]]. destruct (f_named _ _ _ Fr _ H) as [x [y' [q' [E [C|C]]]]]; injection E as <- _ _; [|exact C].
    exfalso. exact (run_no_latest r R C).
  Qed.
  Lemma ids_sub ws all o r : frame ws all o -> In r (ids o) -> In r (ids all).
  Proof.
    intros Fr I. pose proof (named_run _ _ (frame_named_o _ _ _ Fr)) as NO. pose proof (named_run _ _ (f_named _ _ _ Fr)) as NA.
    apply (in_ids _ _ NO) in I. apply (in_ids _ _ NA). destruct I as [R [y [q H]]]. split; [exact R|]. exists y, q. apply (f_sub _ _ _ Fr). exact H.
  Qed.
  Lemma newest_in ws all o r : frame ws all o -> newest all r -> In r (ids all) -> In r (ids o).
  Proof.
    intros Fr N I. destruct (f_top _ _ _ Fr r I) as [r' [I' [E|E]]]; [subst; exact I'|]. exfalso. destruct (N r' (ids_sub _ _ _ _ Fr I')) as [X|X]; [subst r'; exact (before_irrefl r E)|exact (before_asym _ _ E X)].
  Qed.
  Lemma absent ws all o r q : frame ws all o -> isRun r -> ~ In r (ids all) -> plookup (r :: q) all = None.
  Proof.
    intros Fr R N. destruct (plookup (r :: q) all) eqn:E; [|reflexivity]. exfalso. assert (H : plookup (r :: q) all <> None) by (rewrite E; discriminate).
    destruct (f_named _ _ _ Fr _ H) as [x [y [q' [E' _]]]]. injection E' as <- ->. apply N. apply (in_ids _ _ (named_run _ _ (f_named _ _ _ Fr))). split; [exact R|]. exists y, q'. exact H.
  Qed.
  Lemma put_other p q (c : bytes) o : p <> q -> plookup p (pput q c o) = plookup p o.
  Proof. intros N. rewrite plookup_put. destruct (peq p q) eqn:E; [apply peq_eq in E; contradiction|reflexivity]. Qed.

  Lemma frame_put_run ws all o id y q c : frame ws all o -> dated ws id -> newest all id -> frame ws (pput (id :: y :: q) c all) (pput (id :: y :: q) c o).
  Proof.
    intros Fr D NW. pose proof (dated_run _ _ D) as R. pose proof (run_no_latest id R) as NL.
    pose proof (named_run _ _ (f_named _ _ _ Fr)) as NA. pose proof (named_run _ _ (frame_named_o _ _ _ Fr)) as NO.
    assert (IA : forall r, In r (ids (pput (id :: y :: q) c all)) <-> In r (ids all) \/ r = id) by (intros r; rewrite (ids_put _ _ _ _ _ _ NA (or_intror R)); tauto).
    assert (IO : forall r, In r (ids (pput (id :: y :: q) c o)) <-> In r (ids o) \/ r = id) by (intros r; rewrite (ids_put _ _ _ _ _ _ NO (or_intror R)); tauto).
    constructor.
    - apply (f_len _ _ _ Fr).
    - apply named_put; [apply (f_named _ _ _ Fr)|right; exact D].
    - intros r r' I I'. apply IA in I, I'. destruct I as [I|I], I' as [I'|I']; subst; [apply (f_apart _ _ _ Fr); assumption| | |left; reflexivity].
      + destruct (NW r I) as [E|E]; auto.
      + destruct (NW r' I') as [E|E]; auto.
    - intros p. rewrite !plookup_put. destruct (peq p (id :: y :: q)); [auto|apply (f_sub _ _ _ Fr)].
    - intros r q' I. rewrite !plookup_put. destruct (peq (r :: q') (id :: y :: q)) eqn:E; [reflexivity|]. apply IO in I. destruct (in_dec bytes_eq_dec r (ids o)) as [J|J]; [apply (f_same _ _ _ Fr); exact J|].
      destruct I as [I|I]; [contradiction|]. subst r. assert (NI : ~ In id (ids all)) by (intros X; apply J; apply (newest_in _ _ _ _ Fr NW X)).
      rewrite (absent _ _ _ _ q' Fr R NI). destruct (plookup (id :: q') o) eqn:X; [|reflexivity]. exfalso. apply (f_sub _ _ _ Fr (id :: q')); [rewrite X; discriminate|apply (absent _ _ _ _ q' Fr R NI)].
    - intros r r' I I' H. apply IA in I. apply IO in I'. apply IO. destruct I as [I|I]; [|right; exact I]. destruct I' as [I'|I']; [left; apply (f_upper _ _ _ Fr r r'); assumption|].
      subst r'. exfalso. destruct (NW r I) as [E|E]; [subst r; exact (before_irrefl id H)|exact (before_asym _ _ H E)].
    - intros r I. apply IA in I. destruct I as [I|I]; [|exists id; split; [apply IO; right; reflexivity|left; exact I]]. destruct (f_top _ _ _ Fr r I) as [r' [J K]]. exists r'. split; [apply IO; left; exact J|exact K].
    - rewrite !put_other by (intros E; injection E as E _; apply NL; symmetry; exact E). apply (f_latest _ _ _ Fr).
  Qed.
  Lemma frame_put_latest ws all o y q c : frame ws all o -> frame ws (pput (latest :: y :: q) c all) (pput (latest :: y :: q) c o).
  Proof.
    intros Fr. pose proof (named_run _ _ (f_named _ _ _ Fr)) as NA. pose proof (named_run _ _ (frame_named_o _ _ _ Fr)) as NO.
    assert (IA : forall r, In r (ids (pput (latest :: y :: q) c all)) <-> In r (ids all)) by (intros r; rewrite (ids_put _ _ _ _ _ _ NA (or_introl eq_refl)); tauto).
    assert (IO : forall r, In r (ids (pput (latest :: y :: q) c o)) <-> In r (ids o)) by (intros r; rewrite (ids_put _ _ _ _ _ _ NO (or_introl eq_refl)); tauto).
    constructor.
    - apply (f_len _ _ _ Fr).
    - apply named_put; [apply (f_named _ _ _ Fr)|left; reflexivity].
    - intros r r' I I'. apply IA in I, I'. apply (f_apart _ _ _ Fr); assumption.
    - intros p. rewrite !plookup_put. destruct (peq p (latest :: y :: q)); [auto|apply (f_sub _ _ _ Fr)].
    - intros r q' I. rewrite !plookup_put. destruct (peq (r :: q') (latest :: y :: q)); [reflexivity|]. apply (f_same _ _ _ Fr). apply IO. exact I.
    - intros r r' I I' H. apply IO. apply (f_upper _ _ _ Fr r r'); [apply IA; exact I|apply IO; exact I'|exact H].
    - intros r I. destruct (f_top _ _ _ Fr r (proj1 (IA r) I)) as [r' [J K]]. exists r'. split; [apply IO; exact J|exact K].
    - rewrite !plookup_put. destruct (peq latestRevset (latest :: y :: q)); [right; reflexivity|apply (f_latest _ _ _ Fr)].
  Qed.
  Lemma frame_more ws all o w : frame ws all o -> (N.of_nat (length ws) < 1000000)%N -> frame (w :: ws) all o.
  Proof.
    intros [L N A S1 S2 U T LA] H. constructor; auto; [cbn [length]; lia|]. intros p X. destruct (N p X) as [x [y [q [E C]]]]. exists x, y, q. split; [exact E|]. destruct C as [C|[d [n [C1 [C2 C3]]]]]; [left; exact C|right].
    exists d, n. split; [exact C1|]. split; [right; exact C2|cbn [length]; lia].
  Qed.
  Lemma small_ids ws all o r : frame ws all o -> In r (ids all) -> small r.
  Proof. intros Fr I. destruct (ids_run_of _ _ _ _ Fr I) as [d [n [H [_ L]]]]. exists d, n. split; [exact H|]. pose proof (f_len _ _ _ Fr). lia. Qed.
  Lemma all_sorted ws all o : frame ws all o -> StronglySorted before (ids all).
  Proof. intros Fr. apply ids_sorted; [apply (named_run _ _ (f_named _ _ _ Fr))|intros r; apply (small_ids _ _ _ _ Fr)|apply (f_apart _ _ _ Fr)]. Qed.
  Lemma o_sorted ws all o : frame ws all o -> StronglySorted before (ids o).
  Proof.
    intros Fr. apply ids_sorted; [apply (named_run _ _ (frame_named_o _ _ _ Fr))| |].
    - intros r I. apply (small_ids _ _ _ _ Fr). apply (ids_sub _ _ _ _ Fr I).
    - intros r r' I I'. apply (f_apart _ _ _ Fr); apply (ids_sub _ _ _ _ Fr); assumption.
  Qed.
  Lemma frame_tail ws all o : frame ws all o -> exists old, ids all = old ++ ids o.
  Proof.
    intros Fr. destruct (ids o) as [|x l] eqn:E.
    - exists []. cbn [app]. destruct (ids all) as [|r m] eqn:A; [reflexivity|]. exfalso. destruct (f_top _ _ _ Fr r) as [r' [I _]]; [rewrite A; left; reflexivity|]. rewrite E in I. destruct I.
    - rewrite <- E. apply sorted_tail; [apply (all_sorted _ _ _ Fr)|apply (o_sorted _ _ _ Fr)|rewrite E; discriminate|intros r; apply (ids_sub _ _ _ _ Fr)|apply (f_upper _ _ _ Fr)].
  Qed.

  Lemma frame_delete ws all o r r2 l : frame ws all o -> ids o = r :: r2 :: l -> frame ws all (filter (fun e => negb (under r (fst e))) o).
  Proof.
    intros Fr E. pose proof (named_run _ _ (frame_named_o _ _ _ Fr)) as NO. pose proof (o_sorted _ _ _ Fr) as SO.
    assert (LK : forall p, plookup p (filter (fun e => negb (under r (fst e))) o) = if negb (under r p) then plookup p o else None) by (intros p; apply (plookup_filter (fun p => negb (under r p)))).
    set (o' := filter _ o) in *.
    assert (Ir : In r (ids o)) by (rewrite E; left; reflexivity). assert (Rr : isRun r) by (apply (in_ids _ _ NO) in Ir; apply Ir).
    assert (N' : named isRun o').
    { intros p H. apply NO. rewrite LK in H. destruct (negb (under r p)); [exact H|contradiction H; reflexivity]. }
    assert (IO : forall r', In r' (ids o') <-> In r' (ids o) /\ r' <> r).
    { intros r'. rewrite (in_ids _ _ N'), (in_ids _ _ NO). split.
      - intros [R' [y [q H]]]. rewrite LK in H. cbn [under] in H. destruct (beq_spec r r') as [X|X]; [contradiction H; reflexivity|]. cbn [negb] in H. split; [split; [exact R'|exists y, q; exact H]|congruence].
      - intros [[R' [y [q H]]] X]. split; [exact R'|]. exists y, q. rewrite LK. cbn [under]. destruct (beq_spec r r') as [Y|Y]; [congruence|exact H]. }
    rewrite E in SO. apply StronglySorted_inv in SO. destruct SO as [SO FO]. rewrite Forall_forall in FO.
    assert (MIN : forall r', In r' (ids o) -> r' = r \/ before r r') by (intros r' I; rewrite E in I; destruct I as [I|I]; [left; congruence|right; apply FO; exact I]).
    assert (H2 : In r2 (ids o') /\ before r r2).
    { assert (B2 : before r r2) by (apply FO; left; reflexivity). split; [|exact B2]. apply IO. split; [rewrite E; right; left; reflexivity|]. intros X. subst r2. exact (before_irrefl r B2). }
    constructor.
    - apply (f_len _ _ _ Fr).
    - apply (f_named _ _ _ Fr).
    - apply (f_apart _ _ _ Fr).
    - intros p H. apply (f_sub _ _ _ Fr). rewrite LK in H. destruct (negb (under r p)); [exact H|contradiction H; reflexivity].
    - intros r' q I. apply IO in I. destruct I as [I X]. rewrite LK. cbn [under]. destruct (beq_spec r r') as [Y|Y]; [congruence|]. cbn [negb]. apply (f_same _ _ _ Fr). exact I.
    - intros a b0 I I' H. apply IO in I'. apply IO. destruct I' as [I' X]. split; [apply (f_upper _ _ _ Fr a b0); assumption|]. intros Y. subst a. destruct (MIN b0 I') as [Z|Z]; [contradiction|exact (before_asym _ _ H Z)].
    - intros a I. destruct (f_top _ _ _ Fr a I) as [r' [J K]]. destruct (bytes_eq_dec r' r) as [X|X]; [|exists r'; split; [apply IO; auto|exact K]].
      subst r'. exists r2. split; [apply H2|]. right. destruct K as [K|K]; [subst a; apply H2|]. apply (before_trans a r r2 K). apply H2.
    - rewrite LK. unfold latestRevset at 1 3. cbn [under]. fold latest. destruct (beq_spec r latest) as [X|X]; [exfalso; exact (run_no_latest r Rr X)|]. cbn [negb]. apply (f_latest _ _ _ Fr).
  Qed.
  Lemma frame_forget ws all o keep : frame ws all o -> frame ws all (filter (fun e => negb (under latest (fst e)) || keep (fst e)) o).
  Proof.
    intros Fr. pose proof (named_run _ _ (frame_named_o _ _ _ Fr)) as NO.
    assert (LK : forall p, plookup p (filter (fun e => negb (under latest (fst e)) || keep (fst e)) o) = if negb (under latest p) || keep p then plookup p o else None) by (intros p; apply (plookup_filter (fun p => negb (under latest p) || keep p))).
    set (o' := filter _ o) in *.
    assert (N' : named isRun o').
    { intros p H. apply NO. rewrite LK in H. destruct (negb (under latest p) || keep p); [exact H|contradiction H; reflexivity]. }
    assert (RL : forall r q, isRun r -> plookup (r :: q) o' = plookup (r :: q) o).
    { intros r q R. rewrite LK. cbn [under]. destruct (beq_spec latest r) as [X|X]; [exfalso; apply (run_no_latest r R); congruence|reflexivity]. }
    assert (IO : forall r', In r' (ids o') <-> In r' (ids o)).
    { intros r'. rewrite (in_ids _ _ N'), (in_ids _ _ NO). split; intros [R' [y [q H]]]; (split; [exact R'|]); exists y, q; [rewrite <- RL by exact R'|rewrite RL by exact R']; exact H. }
    constructor.
    - apply (f_len _ _ _ Fr).
    - apply (f_named _ _ _ Fr).
    - apply (f_apart _ _ _ Fr).
    - intros p H. apply (f_sub _ _ _ Fr). rewrite LK in H. destruct (negb (under latest p) || keep p); [exact H|contradiction H; reflexivity].
    - intros r q I. apply IO in I. rewrite RL; [apply (f_same _ _ _ Fr); exact I|]. apply (in_ids _ _ NO) in I. apply I.
    - intros a b0 I I' H. apply IO. apply (f_upper _ _ _ Fr a b0); [exact I|apply IO; exact I'|exact H].
    - intros a I. destruct (f_top _ _ _ Fr a I) as [r' [J K]]. exists r'. split; [apply IO; exact J|exact K].
    - rewrite LK. destruct (negb (under latest latestRevset) || keep latestRevset); [apply (f_latest _ _ _ Fr)|left; reflexivity].
  Qed.

  (** ** Uploads keep what is there *)

  Lemma lookup_put_run all id y q c r p : r <> id -> plookup (r :: p) (pput (id :: y :: q) c all) = plookup (r :: p) all.
  Proof. intros N. apply put_other. intros E. injection E as E _. contradiction. Qed.
  Lemma prevOk_put_run ws all o id y q c r x : frame ws all o -> isRun id -> newest all id -> r = id \/ before r id -> prevOk all r x -> prevOk (pput (id :: y :: q) c all) r x.
  Proof.
    intros Fr R NW O P r0 I B0 C D. pose proof (named_run _ _ (f_named _ _ _ Fr)) as NA.
    assert (IA : forall r, In r (ids (pput (id :: y :: q) c all)) <-> In r (ids all) \/ (r = id /\ id <> latest)) by (intros r'; apply (ids_put _ _ _ _ _ _ NA (or_intror R))).
    assert (N0 : r0 <> id) by (intros E; subst r0; destruct O as [O|O]; [subst r; exact (before_irrefl id B0)|exact (before_asym _ _ B0 O)]).
    apply IA in I. destruct I as [I|[I _]]; [|contradiction]. unfold done in D. unfold revsetOf. rewrite lookup_put_run in * by exact N0.
    apply (P r0 I B0); [|exact D]. intros r' I'. apply C. apply IA. left. exact I'.
  Qed.
  Lemma prevOk_put_latest ws all o y q c r x : frame ws all o -> prevOk all r x -> prevOk (pput (latest :: y :: q) c all) r x.
  Proof.
    intros Fr P r0 I B0 C D. pose proof (named_run _ _ (f_named _ _ _ Fr)) as NA.
    assert (IA : forall r, In r (ids (pput (latest :: y :: q) c all)) <-> In r (ids all) \/ (r = latest /\ latest <> latest)) by (intros r'; apply (ids_put _ _ _ _ _ _ NA (or_introl eq_refl))).
    assert (N0 : r0 <> latest) by (apply run_no_latest; apply (before_isRun _ _ B0)).
    apply IA in I. destruct I as [I|[I _]]; [|contradiction]. unfold done in D. unfold revsetOf. rewrite lookup_put_run in * by exact N0.
    apply (P r0 I B0); [|exact D]. intros r' I'. apply C. apply IA. left. exact I'.
  Qed.

  Lemma inv_put_run ws all o id y q c : inv ws all o -> dated ws id -> newest all id -> ~ done all id ->
    (done (pput (id :: y :: q) c all) id -> finished ws (pput (id :: y :: q) c all) id /\
       (plookup latestRevset all = None \/ plookup latestRevset all = plookup (revsetOf id) (pput (id :: y :: q) c all))) ->
    inv ws (pput (id :: y :: q) c all) (pput (id :: y :: q) c o).
  Proof.
    intros [Fr ID IL] D NW ND H. pose proof (dated_run _ _ D) as R. pose proof (named_run _ _ (f_named _ _ _ Fr)) as NA.
    assert (IA : forall r, In r (ids (pput (id :: y :: q) c all)) <-> In r (ids all) \/ (r = id /\ id <> latest)) by (intros r'; apply (ids_put _ _ _ _ _ _ NA (or_intror R))).
    pose proof (run_no_latest id R) as NL.
    assert (LL : plookup latestRevset (pput (id :: y :: q) c all) = plookup latestRevset all) by (apply lookup_put_run; intros E; apply NL; symmetry; exact E).
    constructor.
    - apply frame_put_run; assumption.
    - intros r I DN. destruct (bytes_eq_dec r id) as [->|N]; [apply H; exact DN|]. apply IA in I. destruct I as [I|[I _]]; [|contradiction].
      unfold done in DN. rewrite lookup_put_run in DN by exact N. destruct (ID r I DN) as [w [t [p1 [p2 [a [p [H1 [H2 [H3 [H4 [H5 [H6 H7]]]]]]]]]]]].
      assert (O : r = id \/ before r id) by (apply NW; exact I).
      exists w, t, p1, p2, a, p. split; [exact H1|]. split; [exact H2|]. split; [exact H3|]. split; [exact H4|]. split; [intros q' c'; rewrite lookup_put_run by exact N; apply H5|].
      split; apply (prevOk_put_run ws all o); assumption.
    - intros r I N DN. rewrite LL. destruct (bytes_eq_dec r id) as [->|NE]; [apply H; exact DN|]. exfalso. assert (Iid : In id (ids (pput (id :: y :: q) c all))) by (apply IA; right; auto).
      apply IA in I. destruct I as [I|[I _]]; [|contradiction]. destruct (N id Iid) as [X|X]; [congruence|]. destruct (NW r I) as [Y|Y]; [contradiction|exact (before_asym _ _ X Y)].
  Qed.
  Lemma inv_put_latest ws all o id y q c : inv ws all o -> In id (ids all) -> newest all id -> ~ done all id -> inv ws (pput (latest :: y :: q) c all) (pput (latest :: y :: q) c o).
  Proof.
    intros [Fr ID IL] II NW ND. pose proof (named_run _ _ (f_named _ _ _ Fr)) as NA.
    assert (IA : forall r, In r (ids (pput (latest :: y :: q) c all)) <-> In r (ids all)) by (intros r'; rewrite (ids_put _ _ _ _ _ _ NA (or_introl eq_refl)); tauto).
    assert (NL : forall r, In r (ids all) -> r <> latest) by (intros r I; apply run_no_latest; apply (in_ids _ _ NA) in I; apply I).
    constructor.
    - apply frame_put_latest; assumption.
    - intros r I DN. apply IA in I. pose proof (NL r I) as N. unfold done in DN. rewrite lookup_put_run in DN by exact N.
      destruct (ID r I DN) as [w [t [p1 [p2 [a [p [H1 [H2 [H3 [H4 [H5 [H6 H7]]]]]]]]]]]].
      exists w, t, p1, p2, a, p. split; [exact H1|]. split; [exact H2|]. split; [exact H3|]. split; [exact H4|]. split; [intros q' c'; rewrite lookup_put_run by exact N; apply H5|].
      split; apply (prevOk_put_latest ws all o); assumption.
    - intros r I N DN. exfalso. apply IA in I. unfold done in DN. rewrite lookup_put_run in DN by (apply NL; exact I).
      destruct (NW r I) as [Y|Y]; [subst r; exact (ND DN)|]. destruct (N id (proj2 (IA id) II)) as [X|X]; [subst r; exact (before_irrefl _ Y)|exact (before_asym _ _ X Y)].
  Qed.

  (** ** The stages of a run *)

  Hypothesis Listdir : forall f, Permutation (listdir f) f.

  Definition rest2 (w : world) (id : bytes) (t : tree) : gprog :=
    GGet latestRevset (fun p1 =>
      match buildDir RAll (w_outAll w) p1 t with
      | Ok a => GGet latestRevset (fun p2 =>
                  match buildDir RPriority (w_outPriority w) p2 t with
                  | Ok p => if w_upload w then upload3 listdir marker id a p else GEnd true
                  | _ => GEnd false
                  end)
      | _ => GEnd false
      end).
  Definition rest1 (w : world) (id : bytes) : gprog :=
    match w_tree w with
    | None => GEnd false
    | Some t => putAll (if w_upload w then treePuts listdir [id] t else []) (rest2 w id t)
    end.
  Lemma generate_eq w : generate w = GList (fun dirs => match allocate (w_today w) dirs with Exc _ => GEnd false | Val id => GMkdir id (rest1 w id) end).
  Proof. reflexivity. Qed.

  Definition contents (all : objects) (id : bytes) (l : list (path * bytes)) : Prop := forall q c, plookup (id :: q) all = Some c <-> In (id :: q, c) l.
  Definition puts3 (id : bytes) (a p : tree) : list (path * bytes) := allPuts listdir id a ++ treePuts listdir [id; sPriority] p ++ [([id; sCompleted], marker)].
  (** The run [id] of [w] is the one that is going on. *)
  Record going (ws : list world) (all : objects) (w : world) (id : bytes) : Prop := mkGoing {
    g_in : In w ws; g_id : exists n, runId id (w_today w) n; g_dated : dated ws id; g_newest : newest all id; g_tree : forall t, w_tree w = Some t -> goodTree t }.
  Inductive stage (ws : list world) (all : objects) : gprog -> Prop :=
  | st_start w : In w ws -> length (w_today w) = 8%nat -> forallb isDigit (w_today w) = true -> (forall w', In w' ws -> (valueOf (w_today w') <= valueOf (w_today w))%N) ->
      (forall t, w_tree w = Some t -> goodTree t) -> (forall r d n, In r (ids all) -> runId r d n -> (n + 1 < N.of_nat (length ws))%N) -> stage ws all (generate w)
  | st_dir w id : going ws all w id -> ~ In id (ids all) -> stage ws all (GMkdir id (rest1 w id))
  | st_up w id t l1 l2 : going ws all w id -> w_tree w = Some t -> l1 ++ l2 = (if w_upload w then treePuts listdir [id] t else []) -> contents all id l1 ->
      prevOk all id (plookup latestRevset all) -> stage ws all (putAll l2 (rest2 w id t))
  | st_second w id t p1 a : going ws all w id -> w_tree w = Some t -> contents all id (if w_upload w then treePuts listdir [id] t else []) ->
      prevOk all id (plookup latestRevset all) -> prevOk all id p1 -> buildDir RAll (w_outAll w) p1 t = Ok a ->
      stage ws all (GGet latestRevset (fun p2 =>
                  match buildDir RPriority (w_outPriority w) p2 t with
                  | Ok p => if w_upload w then upload3 listdir marker id a p else GEnd true
                  | _ => GEnd false
                  end))
  | st_last w id t p1 p2 a p l1 l2 : going ws all w id -> built w p1 p2 t a p -> prevOk all id p1 -> prevOk all id p2 -> l2 <> [] ->
      l1 ++ l2 = puts3 id a p -> contents all id (treePuts listdir [id] t ++ l1) -> (forall c, In (latestRevset, c) l1 -> plookup latestRevset all = Some c) ->
      stage ws all (putAll l2 (GEnd true))
  | st_end b : stage ws all (GEnd b).

  (** What is uploaded under one name is always the same. *)
  Definition functional (l : list (path * bytes)) : Prop := forall p c c', In (p, c) l -> In (p, c') l -> c = c'.

  Lemma fileAt_nonempty t q c : fileAt t q c -> q <> [].
  Proof. intros [d [f [n [-> _]]]] E. destruct d; discriminate E. Qed.
  Lemma goodTree_names t q c : goodTree t -> fileAt t q c -> q <> [sCompleted] /\ (forall q', q' <> [] -> q <> sAll :: q' /\ q <> sPriority :: q').
  Proof.
    intros [_ [G _]] [d [f [n [-> [I J]]]]]. specialize (G _ _ I). split.
    - intros E. destruct d as [|x d]; [|destruct d; discriminate E]. injection E as ->. apply G. apply in_map_iff. exists (sCompleted, Plain c). auto.
    - intros q' NE. destruct d as [|x d]; cbn [app].
      + split; intros E; injection E as _ E; symmetry in E; contradiction.
      + destruct G as [G1 G2]. split; intros E; injection E as E _; contradiction.
  Qed.
  Lemma in_written id t a p q c : isRun id -> (In (id :: q, c) (treePuts listdir [id] t ++ puts3 id a p) <-> objectsOf t a p q c).
  Proof.
    intros R. unfold puts3, objectsOf. rewrite !in_app_iff, !in_treePuts, in_allPuts by exact Listdir. cbn [app In]. split.
    - intros [[q' [E H]]|[[q' [[E|E] H]]|[[q' [E H]]|[E|[]]]]].
      + injection E as ->. left. exact H.
      + injection E as ->. right. left. exists q'. auto.
      + exfalso. injection E as E _. exact (run_no_latest id R E).
      + injection E as ->. right. right. left. exists q'. auto.
      + injection E as <- <-. right. right. right. auto.
    - intros [H|[[q' [-> H]]|[[q' [-> H]]|[-> ->]]]].
      + left. exists q. auto.
      + right. left. exists q'. auto.
      + right. right. left. exists q'. auto.
      + right. right. right. left. reflexivity.
  Qed.
  Lemma objectsOf_fun t a p q c c' : goodTree t -> tidy a -> tidy p -> objectsOf t a p q c -> objectsOf t a p q c' -> c = c'.
  Proof.
    intros G TA TP H H'. assert (T : tidy t) by apply G.
    assert (NA : sAll <> sPriority) by (vm_compute; discriminate). assert (NC : sAll <> sCompleted) by (vm_compute; discriminate). assert (NP : sPriority <> sCompleted) by (vm_compute; discriminate).
    destruct H as [H|[[x [-> H]]|[[x [-> H]]|[-> ->]]]], H' as [H'|[[x' [E H']]|[[x' [E H']]|[E E']]]]; try (subst q); try (injection E as E; subst x'); try congruence.
    - exact (fileAt_fun _ _ _ _ T H H').
    - exfalso. destruct (proj2 (goodTree_names _ _ _ G H) x' (fileAt_nonempty _ _ _ H')) as [Z1 Z2]; congruence.
    - exfalso. destruct (proj2 (goodTree_names _ _ _ G H) x' (fileAt_nonempty _ _ _ H')) as [Z1 Z2]; congruence.
    - exfalso. apply (proj1 (goodTree_names _ _ _ G H)). reflexivity.
    - exfalso. destruct (proj2 (goodTree_names _ _ _ G H') x (fileAt_nonempty _ _ _ H)) as [Z1 Z2]; congruence.
    - exact (fileAt_fun _ _ _ _ TA H H').
    - exfalso. destruct (proj2 (goodTree_names _ _ _ G H') x (fileAt_nonempty _ _ _ H)) as [Z1 Z2]; congruence.
    - exact (fileAt_fun _ _ _ _ TP H H').
    - exfalso. apply (proj1 (goodTree_names _ _ _ G H')). reflexivity.
  Qed.

  Lemma contents_put all id l y q c : contents all id l -> functional (l ++ [(id :: y :: q, c)]) -> contents (pput (id :: y :: q) c all) id (l ++ [(id :: y :: q, c)]).
  Proof.
    intros C FU q' c'. rewrite plookup_put, in_app_iff. destruct (peq (id :: q') (id :: y :: q)) eqn:E.
    - apply peq_eq in E. injection E as ->. split; [intros H; injection H as ->; right; left; reflexivity|]. intros H. f_equal.
      apply (FU (id :: y :: q)); apply in_or_app; [right; left; reflexivity|]. exact H.
    - rewrite (C q' c'). split; [left; assumption|]. intros [H|[H|[]]]; [exact H|]. injection H as H _. subst q'. rewrite peq_refl in E. discriminate E.
  Qed.
  Lemma contents_put_latest all id l q c : isRun id -> contents all id l -> contents (pput (latest :: q) c all) id (l ++ [(latest :: q, c)]).
  Proof.
    intros R C q' c'. assert (NL := run_no_latest id R). rewrite put_other by (intros E; injection E as E _; contradiction). rewrite in_app_iff, (C q' c'). split; [left; assumption|].
    intros [H|[H|[]]]; [exact H|]. injection H as H _. exfalso. apply NL. symmetry. exact H.
  Qed.

  (** What the builder leaves. *)
  Lemma alookup_in {A} k (l : list (bytes * A)) v : alookup k l = Some v -> In (k, v) l.
  Proof. induction l as [|[x y] l IH]; cbn [alookup]; [discriminate|]. destruct (beq_spec k x) as [->|N]; intros H; [injection H as ->; left; reflexivity|right; apply IH; exact H]. Qed.
  Lemma plainOf_nodup f : NoDup (map fst f) -> NoDup (map fst (plainOf f)).
  Proof.
    induction f as [|[n e] f IH]; intros ND; [constructor|]. cbn [map fst] in ND. apply NoDup_cons_iff in ND. destruct ND as [NI ND].
    unfold plainOf in *. cbn [flat_map snd fst]. destruct e as [c|]; [|apply IH; exact ND]. cbn [app map fst]. constructor; [|apply IH; exact ND].
    intros I. apply NI. apply in_map_iff in I. destruct I as [[m d] [E I]]. cbn [fst] in E. subst m. apply (proj1 (in_plainOf _ _ _)) in I. apply in_map_iff. exists (n, Plain d). auto.
  Qed.
  Lemma built_tidy set out prev t a : tidy t -> buildDir set out prev t = Ok a -> tidy a.
  Proof.
    intros [T1 T2] H. unfold buildDir, PipelineModel.buildDir in H. destruct out; cbn [negb] in H; [|injection H as <-; split; [constructor|intros d f []]].
    assert (EMP : tidy [([], []); ([B "delta"], [])]).
    { split; [cbn [map fst]; constructor; [intros [E|[]]; discriminate E|constructor; [intros []|constructor]]|]. intros d f [E|[E|[]]]; injection E as <- <-; constructor. }
    destruct (plookup [B "known"] t) as [kn|] eqn:KN; [|injection H as <-; exact EMP]. destruct (plookup [B "revoked"] t) as [rv|]; [|injection H as <-; exact EMP].
    destruct (match plookup [] t with Some f => fileIn (B "ct-logs.json") f | None => None end) as [ct|]; [|injection H as <-; exact EMP].
    apply bind_ok in H. destruct H as [o [HB H]]. injection H as <-. unfold buildRun in HB.
    apply bind_ok in HB. destruct HB as [st [_ HB]]. apply bind_ok in HB. destruct HB as [fl [_ HB]]. apply bind_ok in HB. destruct HB as [rd [HR HB]].
    apply bind_ok in HB. destruct HB as [stash [_ HB]]. apply bind_ok in HB. destruct HB as [dst [_ HB]]. apply bind_ok in HB. destruct HB as [df [_ HB]]. injection HB as <-.
    apply delta_nodup in HR; [|apply plainOf_nodup; apply (T2 [B "known"]); apply plookup_some; exact KN].
    split; [cbn [outTree map fst]; constructor; [intros [E|[]]; discriminate E|constructor; [intros []|constructor]]|].
    intros d f [E|[E|[]]]; injection E as <- <-.
    - cbn [o_filter o_deltaFilter o_revset o_stash]. assert (ND : NoDup [B "reason_codes.csv"; B "filter"; B "revset.bin"; B "filter.stash"; B "filter.delta"]).
      { repeat (constructor; [intros I; cbn [In] in I; repeat (destruct I as [I|I]; [discriminate I|]); exact I|]). constructor. }
      destruct fl as [x|], df as [y|]; cbn [map fst app]; [exact ND| | |].
      + apply (NoDup_remove_1 [B "reason_codes.csv"; B "filter"; B "revset.bin"; B "filter.stash"] [] (B "filter.delta")). exact ND.
      + apply (NoDup_remove_1 [B "reason_codes.csv"] [B "revset.bin"; B "filter.stash"; B "filter.delta"] (B "filter")). exact ND.
      + apply (NoDup_remove_1 [B "reason_codes.csv"] [B "revset.bin"; B "filter.stash"] (B "filter")). apply (NoDup_remove_1 [B "reason_codes.csv"; B "filter"; B "revset.bin"; B "filter.stash"] [] (B "filter.delta")). exact ND.
    - cbn [o_delta]. rewrite map_map. cbn [fst]. exact HR.
  Qed.
  Lemma hasFilter_run set out prev t a : buildDir set out prev t = Ok a -> hasFilter a = true ->
    exists kn rv ct o, plookup [B "known"] t = Some kn /\ plookup [B "revoked"] t = Some rv /\ fileAt t [B "ct-logs.json"] ct /\
      buildRun F has buildCascade (buildClubcard ct) fromBytes order Clubcard set set (prevSet prev) (plainOf rv) (plainOf kn) = Ok o /\ a = outTree order reasons set (plainOf rv) (plainOf kn) o.
  Proof.
    intros H HF. unfold buildDir, PipelineModel.buildDir in H. destruct out; cbn [negb] in H; [|injection H as <-; discriminate HF].
    destruct (plookup [B "known"] t) as [kn|] eqn:KN; [|injection H as <-; discriminate HF]. destruct (plookup [B "revoked"] t) as [rv|]; [|injection H as <-; discriminate HF].
    destruct (plookup [] t) as [f|] eqn:RT; [|injection H as <-; discriminate HF]. destruct (fileIn (B "ct-logs.json") f) as [ct|] eqn:CT; [|injection H as <-; discriminate HF].
    apply bind_ok in H. destruct H as [o [HB H]]. injection H as <-. exists kn, rv, ct, o. split; [reflexivity|]. split; [reflexivity|]. split; [|auto].
    exists [], f, (B "ct-logs.json"). split; [reflexivity|]. split; [apply plookup_some; exact RT|]. apply in_plainOf. unfold fileIn in CT. apply alookup_in. exact CT.
  Qed.

  (** ** Every step keeps the invariant *)

  Lemma functional_prefix l m n : l ++ m = n -> functional n -> functional l.
  Proof. intros <- H p c c' I I'. apply (H p); apply in_or_app; left; assumption. Qed.
  Lemma written_fun id t a p : isRun id -> goodTree t -> tidy a -> tidy p -> functional (treePuts listdir [id] t ++ puts3 id a p).
  Proof.
    intros R G TA TP q c c' I I'.
    assert (K : (exists q', q = id :: q') \/ exists q', q = latest :: q').
    { unfold puts3 in I. rewrite !in_app_iff, !in_treePuts, in_allPuts in I by exact Listdir. cbn [app In] in I.
      destruct I as [[x [-> _]]|[[x [[-> | ->] _]]|[[x [-> _]]|[E|[]]]]]; [left; eexists; reflexivity|left; eexists; reflexivity|right; eexists; reflexivity|left; eexists; reflexivity|injection E as <- _; left; eexists; reflexivity]. }
    destruct K as [[q' ->]|[q' ->]].
    - apply (in_written id t a p q' _ R) in I, I'. exact (objectsOf_fun _ _ _ _ _ _ G TA TP I I').
    - assert (L : forall x, In (latest :: q', x) (treePuts listdir [id] t ++ puts3 id a p) -> fileAt a q' x).
      { intros x J. pose proof (run_no_latest id R) as NL. unfold puts3 in J. rewrite !in_app_iff, !in_treePuts, in_allPuts in J by exact Listdir. cbn [app In] in J.
        destruct J as [[y [E _]]|[[y [[E|E] H]]|[[y [E _]]|[E|[]]]]]; try (injection E as E _; exfalso; apply NL; congruence). injection E as <-. exact H. }
      apply (fileAt_fun a q'); [exact TA|apply L; exact I|apply L; exact I'].
  Qed.
  Lemma tree_fun id t : goodTree t -> functional (treePuts listdir [id] t).
  Proof.
    intros [T _] q c c' I I'. apply (in_treePuts listdir Listdir) in I, I'. destruct I as [x [-> H]], I' as [x' [E H']]. apply app_inv_head in E. subst x'. exact (fileAt_fun _ _ _ _ T H H').
  Qed.
  Lemma not_done_tree all id t l : isRun id -> goodTree t -> contents all id l -> (forall e, In e l -> In e (treePuts listdir [id] t)) -> ~ done all id.
  Proof.
    intros R G C S D. unfold done in D. destruct (plookup [id; sCompleted] all) as [c|] eqn:E; [|contradiction D; reflexivity]. apply (C [sCompleted] c) in E. apply S in E.
    apply (in_treePuts listdir Listdir) in E. destruct E as [x [E H]]. cbn [app] in E. injection E as <-. apply (proj1 (goodTree_names _ _ _ G H)). reflexivity.
  Qed.

  Lemma start_newest ws all o w dirs id n : frame ws all o -> dirs = dirsOf o -> In w ws -> allocate (w_today w) dirs = Val id -> runId id (w_today w) n ->
    (forall r d k, In r (ids o) -> runId r d k -> (valueOf d < valueOf (w_today w) \/ d = w_today w /\ k < n)%N) ->
    (forall r d k, In r (ids all) -> runId r d k -> (k + 1 < N.of_nat (length ws))%N) ->
    dated ws id /\ newest all id /\ ~ In id (ids all).
  Proof.
    intros Fr -> IW A R LT NB.
    assert (BO : forall r, In r (ids o) -> before r id).
    { intros r I. destruct (ids_run_of _ _ _ _ Fr (ids_sub _ _ _ _ Fr I)) as [d [k [H _]]]. exists d, k, (w_today w), n. split; [exact H|]. split; [exact R|]. destruct (LT r d k I H) as [X|[-> X]]; auto. }
    assert (BA : forall r, In r (ids all) -> before r id).
    { intros r I. destruct (f_top _ _ _ Fr r I) as [r' [I' [->|X]]]; [apply BO; exact I'|]. apply (before_trans r r' id X). apply BO. exact I'. }
    split; [|split; [intros r I; right; apply BA; exact I|intros I; exact (before_irrefl id (BA id I))]].
    exists (w_today w), n. split; [exact R|]. split; [apply in_map; exact IW|].
    assert (LW : (0 < length ws)%nat) by (destruct ws; [destruct IW|cbn [length]; lia]).
    destruct (allocate_number _ _ _ _ _ A R) as [->|[m [e [k [I [H ->]]]]]]; [lia|]. apply (NB m e k); [apply (ids_sub _ _ _ _ Fr I)|exact H].
  Qed.

  Lemma going_put_run ws all o w id y q c : frame ws all o -> going ws all w id -> going ws (pput (id :: y :: q) c all) w id.
  Proof.
    intros Fr [A B0 C D E]. constructor; [exact A|exact B0|exact C| |exact E]. intros r I. apply (ids_put _ _ _ _ _ _ (named_run _ _ (f_named _ _ _ Fr)) (or_intror (dated_run _ _ C))) in I.
    destruct I as [I|[I _]]; [apply D; exact I|left; exact I].
  Qed.
  Lemma going_put_latest ws all o w id y q c : frame ws all o -> going ws all w id -> going ws (pput (latest :: y :: q) c all) w id.
  Proof.
    intros Fr [A B0 C D E]. constructor; [exact A|exact B0|exact C| |exact E]. intros r I. apply (ids_put _ _ _ _ _ _ (named_run _ _ (f_named _ _ _ Fr)) (or_introl eq_refl)) in I.
    destruct I as [I|[_ I]]; [apply D; exact I|contradiction I; reflexivity].
  Qed.

  Lemma inv_put ws all s q c f : inv ws all (p_objs s) -> inv ws (pput q c all) (pput q c (p_objs s)) -> inv ws (if took f then pput q c all else all) (p_objs (put q c (took f) s)).
  Proof. intros H H'. unfold put. destruct (took f); [exact H'|exact H]. Qed.
  Lemma gstep_put q c k s f : snd (gstep (GPut q c k) s f) = put q c (took f) s /\ (forall p', fst (gstep (GPut q c k) s f) = Running p' -> f = Works /\ p' = k).
  Proof. destruct f as [|d|d]; cbn [gstep fst snd took]; (split; [reflexivity|]); intros p' E; [injection E as <-; auto|discriminate E|discriminate E]. Qed.

  (** Where a run may write. *)
  Definition open (all : objects) (q : path) : Prop :=
    (exists y x, q = latest :: y :: x) \/ exists id y x, q = id :: y :: x /\ isRun id /\ newest all id /\ ~ done all id.
  Lemma step_inv ws all p s f : inv ws all (p_objs s) -> stage ws all p ->
    inv ws (uploaded p f all) (p_objs (snd (gstep p s f))) /\ (forall p', fst (gstep p s f) = Running p' -> stage ws (uploaded p f all) p') /\
    (forall q c k, p = GPut q c k -> open all q).
  Proof.
    intros IV ST. pose proof (i_frame _ _ _ IV) as Fr.
    assert (NP : (forall q c k, p <> GPut q c k) -> inv ws (uploaded p f all) (p_objs (snd (gstep p s f))) /\ (forall p', fst (gstep p s f) = Running p' -> stage ws (uploaded p f all) p') ->
      inv ws (uploaded p f all) (p_objs (snd (gstep p s f))) /\ (forall p', fst (gstep p s f) = Running p' -> stage ws (uploaded p f all) p') /\ (forall q c k, p = GPut q c k -> open all q)).
    { intros N [A B0]. split; [exact A|]. split; [exact B0|]. intros q c k E. exfalso. exact (N q c k E). }
    destruct ST as [w IW L8 DG MONO GT NB|w id G NI|w id t l1 l2 G WT EL C P|w id t p1 a G WT C P P1 BA|w id t p1 p2 a p l1 l2 G BU P1 P2 NE EL C LR|b].
    - (* list *)
      apply NP; [rewrite generate_eq; discriminate|]. clear NP. rewrite generate_eq. cbn [gstep uploaded]. destruct f as [|d|d]; cbn [fst snd]; (split; [exact IV|]); intros p' E; try discriminate E. injection E as <-.
      destruct (C49_fresh (w_today w) (dirsOf (p_objs s)) L8 DG) as [id [n [A [R [_ LT]]]]].
      { intros r I. apply (small_ids _ _ _ _ Fr). apply (ids_sub _ _ _ _ Fr I). }
      { intros r d n I H. destruct (ids_run_of _ _ _ _ Fr (ids_sub _ _ _ _ Fr I)) as [d' [n' [H' [I' _]]]]. destruct (runId_fun _ _ _ _ _ H H') as [-> ->]. apply in_map_iff in I'. destruct I' as [w' [<- I']]. apply MONO. exact I'. }
      rewrite A. destruct (start_newest ws all (p_objs s) w _ id n Fr eq_refl IW A R LT NB) as [D [NW NI]]. apply st_dir; [|exact NI]. constructor; [exact IW|exists n; exact R|exact D|exact NW|exact GT].
    - (* mkdir *)
      apply NP; [discriminate|]. clear NP.
      assert (INV : forall d, inv ws all (p_objs (made id d s))) by (intros d; unfold made; destruct (d && negb (memb id (p_local s))); exact IV).
      assert (RUN : stage ws all (rest1 w id)).
      { unfold rest1. destruct (w_tree w) as [t|] eqn:WT; [|apply st_end]. apply st_up with (l1 := []); [exact G|exact WT|reflexivity| |].
        - intros q c. rewrite (absent _ _ _ _ q Fr (dated_run _ _ (g_dated _ _ _ _ G)) NI). split; [discriminate|intros []].
        - intros r0 I B0 CL D. apply (i_last _ _ _ IV r0 I); [|exact D]. intros r' I'. destruct (g_newest _ _ _ _ G r' I') as [->|X]; [contradiction|]. apply CL; assumption. }
      cbn [gstep uploaded]. destruct f as [|d|d]; [destruct (memb id (p_local s))| |]; cbn [fst snd]; (split; [apply INV || exact IV|]); intros p' E; try discriminate E. injection E as <-. exact RUN.
    - (* upload of the inputs, then the first download *)
      pose proof G as G0; destruct G0 as [IW [n RN] D NW GT]. pose proof (dated_run _ _ D) as R. specialize (GT t WT).
      destruct l2 as [|[q c] l2]; cbn [putAll].
      + apply NP; [discriminate|]. clear NP. rewrite app_nil_r in EL. subst l1. unfold rest2. cbn [gstep uploaded].
        assert (NX : forall x, x = None \/ x = plookup latestRevset (p_objs s) -> stage ws all
           match buildDir RAll (w_outAll w) x t with
           | Ok a => GGet latestRevset (fun p2 => match buildDir RPriority (w_outPriority w) p2 t with Ok p => if w_upload w then upload3 listdir marker id a p else GEnd true | _ => GEnd false end)
           | _ => GEnd false
           end).
        { intros x X. destruct (buildDir RAll (w_outAll w) x t) as [a| |] eqn:BA; [|apply st_end|apply st_end]. apply st_second with (p1 := x); [exact G|exact WT|exact C|exact P| |exact BA].
          destruct X as [-> | ->]; [left; reflexivity|]. destruct (f_latest _ _ _ Fr) as [X|X]; rewrite X; [left; reflexivity|exact P]. }
        destruct f as [|d|d]; cbn [fst snd]; (split; [exact IV|]); intros p' E; try discriminate E; injection E as <-; apply NX; auto.
      + assert (UP : w_upload w = true) by (destruct (w_upload w); [reflexivity|destruct l1; discriminate EL]). rewrite UP in EL.
        assert (Iq : In (q, c) (treePuts listdir [id] t)) by (rewrite <- EL; apply in_or_app; right; left; reflexivity).
        pose proof Iq as Iq'. apply (in_treePuts listdir Listdir) in Iq'. destruct Iq' as [x [-> FA]]. destruct x as [|y x]; [exfalso; exact (fileAt_nonempty _ _ _ FA eq_refl)|]. cbn [app] in *.
        assert (FU : functional (l1 ++ [(id :: y :: x, c)])).
        { eapply functional_prefix; [rewrite <- app_assoc; exact EL|apply tree_fun; exact GT]. }
        pose proof (contents_put all id l1 y x c C FU) as C'.
        assert (SUB : forall e, In e (l1 ++ [(id :: y :: x, c)]) -> In e (treePuts listdir [id] t)).
        { intros e I. rewrite <- EL. apply in_app_iff in I. apply in_or_app. destruct I as [I|[<-|[]]]; [left; exact I|right; left; reflexivity]. }
        assert (IV' : inv ws (pput (id :: y :: x) c all) (pput (id :: y :: x) c (p_objs s))).
        { apply inv_put_run; [exact IV|exact D|exact NW| |].
          - apply (not_done_tree all id t l1 R GT C). intros e I. apply SUB. apply in_or_app. left. exact I.
          - intros DN. exfalso. exact (not_done_tree _ id t _ R GT C' SUB DN). }
        destruct (gstep_put (id :: y :: x) c (putAll l2 (rest2 w id t)) s f) as [ES NX]. rewrite ES. cbn [uploaded]. split; [apply inv_put; assumption|]. split; cycle 1.
        { intros q0 c0 k0 E. injection E as <- _ _. right. exists id, y, x. split; [reflexivity|]. split; [exact R|]. split; [exact NW|]. apply (not_done_tree all id t l1 R GT C). intros e I. apply SUB. apply in_or_app. left. exact I. }
        intros p' E. destruct (NX p' E) as [-> ->]. cbn [took]. apply st_up with (l1 := l1 ++ [(id :: y :: x, c)]).
        * apply (going_put_run ws all (p_objs s)); [exact Fr|exact G].
        * exact WT.
        * rewrite UP, <- app_assoc. exact EL.
        * exact C'.
        * rewrite put_other by (intros X; injection X as X _; apply (run_no_latest id R); symmetry; exact X). apply (prevOk_put_run ws all (p_objs s)); [exact Fr|exact R|exact NW|left; reflexivity|exact P].
    - (* the second download *)
      apply NP; [discriminate|]. clear NP.
      pose proof G as G0; destruct G0 as [IW [n RN] D NW GT]. specialize (GT t WT). cbn [gstep uploaded].
      assert (NX : forall x, x = None \/ x = plookup latestRevset (p_objs s) -> stage ws all
         match buildDir RPriority (w_outPriority w) x t with Ok p => if w_upload w then upload3 listdir marker id a p else GEnd true | _ => GEnd false end).
      { intros x X. destruct (buildDir RPriority (w_outPriority w) x t) as [p| |] eqn:BP; [|apply st_end|apply st_end]. destruct (w_upload w) eqn:UP; [|apply st_end].
        unfold upload3. destruct (hasFilter a) eqn:HF; [|apply st_end]. fold sPriority sCompleted. fold (puts3 id a p). apply st_last with (w := w) (id := id) (t := t) (p1 := p1) (p2 := x) (a := a) (p := p) (l1 := []).
        - exact G.
        - repeat split; assumption.
        - exact P1.
        - destruct X as [-> | ->]; [intros r0 _ _ _ _; left; reflexivity|]. destruct (f_latest _ _ _ Fr) as [X|X]; rewrite X; [intros r0 _ _ _ _; left; reflexivity|exact P].
        - unfold puts3. intros E. apply app_eq_nil in E. destruct E as [_ E]. apply app_eq_nil in E. destruct E as [_ E]. discriminate E.
        - reflexivity.
        - rewrite app_nil_r. exact C.
        - intros c []. }
      destruct f as [|d|d]; cbn [fst snd]; (split; [exact IV|]); intros p' E; try discriminate E; injection E as <-; apply NX; auto.
    - (* upload of the filters *)
      pose proof G as G0; destruct G0 as [IW [n RN] D NW GT]. pose proof (dated_run _ _ D) as R. pose proof BU as BU0. destruct BU as [WT [BA [BP HF]]]. specialize (GT t WT).
      assert (TA : tidy a) by (apply (built_tidy _ _ _ _ _ (proj1 GT) BA)). assert (TP : tidy p) by (apply (built_tidy _ _ _ _ _ (proj1 GT) BP)).
      pose proof (written_fun id t a p R GT TA TP) as WF.
      (* the run is listed *)
      assert (LI : In id (ids all)).
      { destruct GT as [_ [_ [c0 [z [FA _]]]]]. apply (in_ids _ _ (named_run _ _ (f_named _ _ _ Fr))). split; [exact R|]. exists (B "timestamp"), [].
        assert (X : plookup [id; B "timestamp"] all = Some c0) by (apply C; apply in_or_app; left; apply (in_treePuts listdir Listdir); exists [B "timestamp"]; auto). rewrite X. discriminate. }
      (* not yet completed *)
      assert (LAST : exists l3, puts3 id a p = l3 ++ [([id; sCompleted], marker)] /\ forall c0, ~ In ([id; sCompleted], c0) (treePuts listdir [id] t ++ l3)).
      { exists (allPuts listdir id a ++ treePuts listdir [id; sPriority] p). split; [unfold puts3; rewrite app_assoc; reflexivity|]. intros c0 I. rewrite !in_app_iff, !in_treePuts, in_allPuts in I by exact Listdir. cbn [app] in I.
        destruct I as [[x [E H]]|[[x [[E|E] H]]|[x [E H]]]].
        - injection E as <-. apply (proj1 (goodTree_names _ _ _ GT H)). reflexivity.
        - injection E. vm_compute. discriminate.
        - injection E as E _. exact (run_no_latest id R E).
        - injection E. vm_compute. discriminate. }
      destruct LAST as [l3 [EL3 NC]].
      destruct l2 as [|[q c] l2]; [contradiction NE; reflexivity|]. cbn [putAll].
      assert (PRE : exists l4, l3 = l1 ++ l4).
      { clear -EL EL3. rewrite EL3 in EL. destruct (exists_last (l := (q, c) :: l2)) as [m [e Em]]; [discriminate|]. rewrite Em, app_assoc in EL. apply app_inj_tail in EL. destruct EL as [EL _]. exists m. congruence. }
      destruct PRE as [l4 PRE].
      assert (ND : ~ done all id).
      { unfold done. destruct (plookup [id; sCompleted] all) as [c0|] eqn:E; [|intros X; apply X; reflexivity]. exfalso. apply (C [sCompleted] c0) in E. apply (NC c0). rewrite PRE, app_assoc. apply in_or_app. left. exact E. }
      assert (Iq : In (q, c) (treePuts listdir [id] t ++ puts3 id a p)) by (apply in_or_app; right; rewrite <- EL; apply in_or_app; right; left; reflexivity).
      assert (FU : functional ((treePuts listdir [id] t ++ l1) ++ [(q, c)])).
      { eapply functional_prefix; [|exact WF]. rewrite <- EL, <- !app_assoc. reflexivity. }
      assert (K : (exists y x, q = id :: y :: x) \/ exists y x, q = latest :: y :: x).
      { assert (Iq3 : In (q, c) (puts3 id a p)) by (rewrite <- EL; apply in_or_app; right; left; reflexivity). unfold puts3 in Iq3. rewrite !in_app_iff, in_treePuts, in_allPuts in Iq3 by exact Listdir. cbn [app In] in Iq3.
        destruct Iq3 as [[x [[-> | ->] H]]|[[x [-> H]]|[E|[]]]]; [left; eexists; eexists; reflexivity| |left; eexists; eexists; reflexivity|injection E as <- _; left; eexists; eexists; reflexivity].
        right. destruct x as [|y x]; [exfalso; exact (fileAt_nonempty _ _ _ H eq_refl)|]. exists y, x. reflexivity. }
      destruct (gstep_put q c (putAll l2 (GEnd true)) s f) as [ES NX]. rewrite ES. cbn [uploaded].
      match goal with |- ?X /\ ?Y /\ ?Z => cut (X /\ Y) end.
      { intros [A B0]. split; [exact A|]. split; [exact B0|]. intros q0 c0 k0 E. injection E as <- _ _. destruct K as [[y [x ->]]|[y [x ->]]]; [right; exists id, y, x; auto|left; exists y, x; reflexivity]. }
      destruct K as [[y [x ->]]|[y [x ->]]].
      + pose proof (contents_put all id _ y x c C FU) as C'. rewrite <- app_assoc in C'.
        assert (LP : plookup latestRevset (pput (id :: y :: x) c all) = plookup latestRevset all) by (apply put_other; intros X; injection X as X _; apply (run_no_latest id R); symmetry; exact X).
        assert (P1' : prevOk (pput (id :: y :: x) c all) id p1) by (apply (prevOk_put_run ws all (p_objs s)); [exact Fr|exact R|exact NW|left; reflexivity|exact P1]).
        assert (P2' : prevOk (pput (id :: y :: x) c all) id p2) by (apply (prevOk_put_run ws all (p_objs s)); [exact Fr|exact R|exact NW|left; reflexivity|exact P2]).
        split.
        * apply inv_put; [exact IV|]. apply inv_put_run; [exact IV|exact D|exact NW|exact ND|]. intros DN.
          assert (E2 : l2 = []).
          { destruct l2 as [|e l2]; [reflexivity|]. exfalso. unfold done in DN. destruct (plookup [id; sCompleted] (pput (id :: y :: x) c all)) as [c0|] eqn:E; [|contradiction DN; reflexivity].
            apply (C' [sCompleted] c0) in E. apply (NC c0). rewrite EL3 in EL. destruct (exists_last (l := e :: l2)) as [m [e' Em]]; [discriminate|]. rewrite Em in EL.
            assert (EQ : (l1 ++ (id :: y :: x, c) :: m) ++ [e'] = l3 ++ [([id; sCompleted], marker)]) by (rewrite <- EL, <- app_assoc; reflexivity). apply app_inj_tail in EQ. destruct EQ as [EQ _].
            rewrite <- EQ. rewrite !in_app_iff in *. cbn [In] in *. tauto. }
          subst l2. assert (CF : contents (pput (id :: y :: x) c all) id (treePuts listdir [id] t ++ puts3 id a p)) by (rewrite <- EL; exact C'). clear C'. rename CF into C'. split.
          -- exists w, t, p1, p2, a, p. split; [exact IW|]. split; [exists n; exact RN|]. split; [exact GT|]. split; [exact BU0|]. split; [|split; assumption].
             intros q' c'. rewrite (C' q' c'). apply in_written. exact R.
          -- right. destruct (hasFilter_run _ _ _ _ _ BA HF) as [kn [rv [ct [o [_ [_ [_ [_ EA]]]]]]]].
             assert (FA : fileAt a [B "revset.bin"] (enRevset (order (o_revset o)))).
             { rewrite EA. unfold outTree. eexists [], _, (B "revset.bin"). split; [reflexivity|]. split; [left; reflexivity|]. right. apply in_or_app. right. left. reflexivity. }
             rewrite <- LP. transitivity (Some (enRevset (order (o_revset o)))).
             ++ rewrite LP. apply LR. assert (I3 : In (latestRevset, enRevset (order (o_revset o))) (puts3 id a p)) by (apply in_or_app; left; apply (in_allPuts listdir Listdir); exists [B "revset.bin"]; auto).
                rewrite <- EL in I3. apply in_app_iff in I3. destruct I3 as [I3|[I3|[]]]; [exact I3|]. exfalso. injection I3 as I3 _. exact (run_no_latest id R I3).
             ++ symmetry. apply C'. apply in_or_app. right. apply in_or_app. left. apply (in_allPuts listdir Listdir). exists [B "revset.bin"]. auto.
        * intros p' E. destruct (NX p' E) as [-> ->]. cbn [took]. destruct l2 as [|e l2]; [apply st_end|].
          apply st_last with (w := w) (id := id) (t := t) (p1 := p1) (p2 := p2) (a := a) (p := p) (l1 := l1 ++ [(id :: y :: x, c)]); [apply (going_put_run ws all (p_objs s)); [exact Fr|exact G]|exact BU0|exact P1'|exact P2'|discriminate|rewrite <- app_assoc; exact EL|exact C'|].
          intros c0 I. rewrite LP. apply LR. apply in_app_iff in I. destruct I as [I|[I|[]]]; [exact I|]. exfalso. injection I as I _. exact (run_no_latest id R I).
      + pose proof (contents_put_latest all id _ (y :: x) c R C) as C'. rewrite <- app_assoc in C'. split.
        * apply inv_put; [exact IV|]. apply (inv_put_latest ws all (p_objs s) id); assumption.
        * intros p' E. destruct (NX p' E) as [-> ->]. cbn [took]. destruct l2 as [|e l2]; [apply st_end|].
          apply st_last with (w := w) (id := id) (t := t) (p1 := p1) (p2 := p2) (a := a) (p := p) (l1 := l1 ++ [(latest :: y :: x, c)]);
            [apply (going_put_latest ws all (p_objs s)); [exact Fr|exact G]|exact BU0|apply (prevOk_put_latest ws all (p_objs s)); assumption|apply (prevOk_put_latest ws all (p_objs s)); assumption|discriminate|rewrite <- app_assoc; exact EL|exact C'|].
          intros c0 I. rewrite plookup_put. destruct (peq latestRevset (latest :: y :: x)) eqn:EQ.
          -- apply peq_eq in EQ. f_equal. apply (FU latestRevset); [rewrite EQ; apply in_or_app; right; left; reflexivity|]. rewrite <- app_assoc. apply in_or_app. right. exact I.
          -- apply LR. apply in_app_iff in I. destruct I as [I|[I|[]]]; [exact I|]. pose proof (f_equal fst I) as I'. cbn [fst] in I'. rewrite I', peq_refl in EQ. discriminate EQ.
    - (* end *)
      apply NP; [discriminate|]. clear NP. cbn [gstep uploaded fst snd]. split; [exact IV|]. intros p' E. discriminate E.
  Qed.

  Lemma reach_inv ws all st s : reach ws all st s -> inv ws all (p_objs s) /\ forall p, st = Running p -> stage ws all p.
  Proof.
    induction 1 as [|ws all st s ws' all' st' s' H [IV ST] PS]; [|destruct PS as [ws all st s w NR GW|ws all p s f|ws all st s r r2 l E|ws all st s keep|ws all st s l]].
    - split; [|discriminate]. cbn [p_objs]. constructor; [constructor| |]; first [solve [cbn; lia] | solve [left; reflexivity] | solve [intros ? H; contradiction H; reflexivity] | solve [intros ? []] | solve [intros ? ? []] | auto].
    - destruct GW as [L8 [DG [MO [GT LW]]]]. split.
      + destruct IV as [Fr ID IL]. constructor; [apply frame_more; assumption| |exact IL]. intros r I D. destruct (ID r I D) as [w' [t [p1 [p2 [a [p [H1 H2]]]]]]]. exists w', t, p1, p2, a, p. split; [right; exact H1|exact H2].
      + intros p E. injection E as <-. apply st_start; [left; reflexivity|exact L8|exact DG| |exact GT|].
        * intros w' [<-|I]; [lia|apply MO; exact I].
        * intros r d n I R. destruct (ids_run_of _ _ _ _ (i_frame _ _ _ IV) I) as [d' [n' [R' [_ L]]]]. destruct (runId_fun _ _ _ _ _ R R') as [-> ->]. cbn [length]. lia.
    - destruct (step_inv ws all p s f IV (ST p eq_refl)) as [A [B0 _]]. auto.
    - split; [|exact ST]. destruct IV as [Fr ID IL]. constructor; [cbn [p_objs]; eapply frame_delete; eassumption|exact ID|exact IL].
    - split; [|exact ST]. destruct IV as [Fr ID IL]. constructor; [cbn [p_objs]; apply frame_forget; exact Fr|exact ID|exact IL].
    - split; [exact IV|exact ST].
  Qed.
End System.
