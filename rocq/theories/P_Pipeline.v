(** * C59-C61: what the pipeline leaves in the bucket, run after run, and what is
    published from it *)
From Verif Require Import Base MerkleModel SerialModel SerialProofs IssuersModel FilterModel FilterProofs TimeModel TimeProofs QueryModel TextProofs P_Query P_Filter RemoteModel PublishModel P_RunIds PublishProofs PublishProofs2 P_Publish PublishProofs3 PublishProofs4 P_Recover PipelineModel PipelineProofs PipelineSystem.
From Coq Require Import Strings.Byte Sorting.Permutation Sorting.Sorted.

(** ** Specification *)

(** The certificates that a directory of known certificates holds, as keys. *)
Definition keys (ks : knownSrc) : list bytes := flat_map (fun e => flat_map (fun b => map (app (fst e)) (snd b)) (snd e)) ks.
(** A directory of a run holds the known certificates [ks] and the revocations [rs]
    as the two aggregation programs write them. *)
Definition inputs (t : tree) (ks : knownSrc) (rs : revokedSrc) : Prop :=
  exists kn rv, plookup [B "known"] t = Some kn /\ plookup [B "revoked"] t = Some rv /\
    plainOf kn = goKnown ks /\ plainOf rv = goRevoked rs /\ goodKnown ks /\ goodRevoked rs /\ fits (keys ks).

Lemma in_keys ks k : In k (keys ks) <-> exists d s, k = d ++ s /\ knownCert ks d s.
Proof.
  unfold keys, knownCert. rewrite in_flat_map. split.
  - intros [[d bins] [I J]]. apply in_flat_map in J. destruct J as [[u ss] [J K]]. apply in_map_iff in K. destruct K as [s [<- K]]. exists d, s. split; [reflexivity|]. exists bins, u, ss. auto.
  - intros [d [s [-> [bins [u [ss [I [J K]]]]]]]]. exists (d, bins). split; [exact I|]. apply in_flat_map. exists (u, ss). split; [exact J|]. apply in_map. exact K.
Qed.
Lemma knownCert_dec ks d s : knownCert ks d s \/ ~ knownCert ks d s.
Proof.
  unfold knownCert. destruct (existsb (fun k => beq d (fst k) && existsb (fun p => memb s (snd p)) (snd k)) ks) eqn:X.
  - left. apply existsb_exists in X. destruct X as [[d' bins] [I X]]. cbn [fst snd] in X. apply andb_true_iff in X. destruct X as [X Y]. apply beq_eq in X. subst d'.
    apply existsb_exists in Y. destruct Y as [[u ss] [J Y]]. apply memb_in in Y. exists bins, u, ss; auto.
  - right. intros [bins [u [ss [I [J K]]]]]. apply not_true_iff_false in X. apply X. apply existsb_exists. exists (d, bins). split; [exact I|]. cbn [fst snd].
    rewrite beq_refl. apply existsb_exists. exists (u, ss). split; [exact J|]. apply memb_in. exact K.
Qed.
Lemma known_key ks ks' d s d' s' : goodKnown ks -> goodKnown ks' -> knownCert ks d s -> knownCert ks' d' s' -> d ++ s = d' ++ s' -> d = d' /\ s = s'.
Proof.
  intros [_ G] [_ G'] [bins [u [ss [I _]]]] [bins' [u' [ss' [I' _]]]] E. destruct (G _ _ I) as [L _]. destruct (G' _ _ I') as [L' _]. rewrite <- L' in L.
  split.
  - apply (f_equal (firstn (length d))) in E. rewrite !firstn_app, Nat.sub_diag, L, Nat.sub_diag, firstn_all, <- L, firstn_all in E. cbn [firstn] in E. rewrite !app_nil_r in E. exact E.
  - apply (f_equal (skipn (length d))) in E. rewrite !skipn_app, Nat.sub_diag, L, Nat.sub_diag, skipn_all, <- L, skipn_all in E. exact E.
Qed.

(** A program with the given outcomes of its calls. *)
Fixpoint exec (fs : list gfault) (st : status) (s : pst) : status * pst :=
  match fs, st with
  | f :: fs', Running p => exec fs' (fst (gstep p s f)) (snd (gstep p s f))
  | _, _ => (st, s)
  end.

Section Pipeline.
  Variables (F : Type) (has : F -> bytes -> bool) (buildCascade : N -> N -> list bytes -> list bytes -> option bytes).
  Variable buildClubcard : bytes -> list (bytes * list bytes * N) -> list (bytes * list (bytes * bool)) -> option bytes.
  Variable fromBytes : bytes -> res (option F).
  Variable order : list bytes -> list bytes.
  Variable listdir : folder -> folder.
  Variable reasons : reasonSet -> dir -> dir -> bytes.
  Variable marker : bytes.
  Variable parseTime : bytes -> option Z.
  Hypothesis Listdir : forall f, Permutation (listdir f) f.
  Hypothesis Order : forall l, Permutation (order l) l.

  Let reach := PipelineSystem.reach F has buildCascade buildClubcard fromBytes order listdir reasons marker parseTime.
  Let pstep := PipelineSystem.pstep F has buildCascade buildClubcard fromBytes order listdir reasons marker parseTime.
  Let built := PipelineSystem.built F has buildCascade buildClubcard fromBytes order reasons.
  Let inv := PipelineSystem.inv F has buildCascade buildClubcard fromBytes order reasons marker parseTime.
  Let finished := PipelineSystem.finished F has buildCascade buildClubcard fromBytes order reasons marker parseTime.
  Let generate := PipelineModel.generate F has buildCascade buildClubcard fromBytes order listdir reasons marker.
  Let stage := PipelineSystem.stage F has buildCascade buildClubcard fromBytes order listdir reasons marker parseTime.

  Lemma reach_inv' ws all st s : reach ws all st s -> inv ws all (p_objs s) /\ forall p, st = Running p -> stage ws all p.
  Proof. apply (PipelineSystem.reach_inv F has buildCascade buildClubcard fromBytes order listdir reasons marker parseTime Listdir). Qed.

  Lemma done_listed ws all s r : inv ws all (p_objs s) -> isRun r -> done (p_objs s) r -> In r (ids (p_objs s)).
  Proof.
    intros IV R D. pose proof (i_frame _ _ _ _ _ _ _ _ _ _ _ _ IV) as Fr. apply (in_ids _ _ (named_run _ _ (frame_named_o _ _ _ Fr))). split; [exact R|]. exists sCompleted, []. exact D.
  Qed.

  (** ** C59: completed runs are whole *)

  Theorem C59_whole : forall ws all st s r, reach ws all st s -> isRun r -> done (p_objs s) r ->
    exists w n t p1 p2 a p, In w ws /\ runId r (w_today w) n /\ built w p1 p2 t a p /\
      forall q c, plookup (r :: q) (p_objs s) = Some c <-> objectsOf marker t a p q c.
  Proof.
    intros ws all st s r H R D. destruct (reach_inv' _ _ _ _ H) as [IV _]. pose proof (done_listed _ _ _ _ IV R D) as I. destruct IV as [Fr ID _].
    pose proof (ids_sub _ _ _ _ Fr I) as IA. destruct (ID r IA) as [w [t [p1 [p2 [a [p [A [[n B0] [_ [C [E _]]]]]]]]]]].
    { unfold done. rewrite <- (f_same _ _ _ Fr r _ I). exact D. }
    exists w, n, t, p1, p2, a, p. split; [exact A|]. split; [exact B0|]. split; [exact C|]. intros q c. rewrite (f_same _ _ _ Fr r q I). apply E.
  Qed.

  (** A completed run is never changed; it can only be deleted, and then nothing of
      it is left. *)
  Theorem C59_unchanged : forall ws all st s ws' all' st' s' r, reach ws all st s -> pstep ws all st s ws' all' st' s' -> isRun r -> done (p_objs s) r ->
    (forall q, plookup (r :: q) (p_objs s') = plookup (r :: q) (p_objs s)) \/ (forall q, plookup (r :: q) (p_objs s') = None).
  Proof.
    intros ws all st s ws' all' st' s' r H PS R D. destruct (reach_inv' _ _ _ _ H) as [IV ST]. pose proof (done_listed _ _ _ _ IV R D) as I.
    pose proof (i_frame _ _ _ _ _ _ _ _ _ _ _ _ IV) as Fr. assert (DA : done all r) by (unfold done; rewrite <- (f_same _ _ _ Fr r _ I); exact D).
    destruct PS as [ws all st s w NR GW|ws all p s f|ws all st s r' r2 l E|ws all st s keep|ws all st s l]; [left; reflexivity| | | |left; reflexivity].
    - left. intros q.
      destruct (PipelineSystem.step_inv F has buildCascade buildClubcard fromBytes order listdir reasons marker parseTime Listdir ws all p s f IV (ST p eq_refl)) as [_ [_ OP]].
      destruct p as [b|k|q0 k|q0 c0 k|id k]; cbn [gstep].
      + reflexivity.
      + destruct f; reflexivity.
      + destruct f; reflexivity.
      + assert (P : forall d, plookup (r :: q) (p_objs (put q0 c0 d s)) = plookup (r :: q) (p_objs s)).
        { intros d. unfold put. destruct d; [|reflexivity]. cbn [p_objs]. apply put_other. intros E. destruct (OP q0 c0 k eq_refl) as [[y [x ->]]|[id [y [x [-> [_ [_ ND]]]]]]].
          - injection E as E _. exact (run_no_latest r R E).
          - injection E as E _. subst id. exact (ND DA). }
        destruct f as [|d|d]; apply P.
      + destruct f as [|d|d]; [destruct (memb id (p_local s))| |]; cbn [fst snd]; unfold made; try destruct (_ && _); reflexivity.
    - assert (LK : forall p, plookup p (filter (fun e => negb (under r' (fst e))) (p_objs s)) = if negb (under r' p) then plookup p (p_objs s) else None) by (intros p; apply (plookup_filter (fun p => negb (under r' p)))).
      cbn [p_objs]. destruct (beq r' r) eqn:B0; [right|left]; intros q; rewrite LK; cbn [under]; rewrite B0; reflexivity.
    - assert (LK : forall p, plookup p (filter (fun e => negb (under latest (fst e)) || keep (fst e)) (p_objs s)) = if negb (under latest p) || keep p then plookup p (p_objs s) else None) by (intros p; apply (plookup_filter (fun p => negb (under latest p) || keep p))).
      cbn [p_objs]. left. intros q. rewrite LK. cbn [under]. destruct (beq latest r) eqn:B0; [apply beq_eq in B0; subst r; contradiction (run_no_latest latest R); reflexivity|reflexivity].
  Qed.

  (** A run in which every call works. *)
  Fixpoint smooth (p : gprog) (s : pst) : bool * pst :=
    match p with
    | GEnd ok => (ok, s)
    | GList k => smooth (k (dirsOf (p_objs s))) s
    | GGet q k => smooth (k (plookup q (p_objs s))) s
    | GPut q c k => smooth k (put q c true s)
    | GMkdir r k => if memb r (p_local s) then (false, s) else smooth k (made r true s)
    end.
  Lemma smooth_reach ws p : forall all s, reach ws all (Running p) s -> exists all', reach ws all' (Ended (fst (smooth p s))) (snd (smooth p s)).
  Proof.
    induction p as [ok|k IH|q k IH|q c k IH|r k IH]; intros all s H.
    - exists all. pose proof (p_call F has buildCascade buildClubcard fromBytes order listdir reasons marker parseTime ws all (GEnd ok) s Works) as P. exact (reach_step _ _ _ _ _ _ _ _ _ _ _ _ _ _ _ _ _ _ H P).
    - apply (IH _ all). pose proof (p_call F has buildCascade buildClubcard fromBytes order listdir reasons marker parseTime ws all (GList k) s Works) as P. exact (reach_step _ _ _ _ _ _ _ _ _ _ _ _ _ _ _ _ _ _ H P).
    - apply (IH _ all). pose proof (p_call F has buildCascade buildClubcard fromBytes order listdir reasons marker parseTime ws all (GGet q k) s Works) as P. exact (reach_step _ _ _ _ _ _ _ _ _ _ _ _ _ _ _ _ _ _ H P).
    - apply (IH (pput q c all)). pose proof (p_call F has buildCascade buildClubcard fromBytes order listdir reasons marker parseTime ws all (GPut q c k) s Works) as P. exact (reach_step _ _ _ _ _ _ _ _ _ _ _ _ _ _ _ _ _ _ H P).
    - pose proof (p_call F has buildCascade buildClubcard fromBytes order listdir reasons marker parseTime ws all (GMkdir r k) s Works) as P. pose proof (reach_step _ _ _ _ _ _ _ _ _ _ _ _ _ _ _ _ _ _ H P) as H'.
      cbn [smooth]. cbn [gstep] in H'. destruct (memb r (p_local s)); cbn [fst snd uploaded] in H'; [exists all; exact H'|apply (IH all); exact H'].
  Qed.
  Lemma smooth_puts l k : forall s, smooth (putAll l k) s = smooth k (fold_left (fun s e => put (fst e) (snd e) true s) l s).
  Proof. induction l as [|[q c] l IH]; intros s; [reflexivity|]. cbn [putAll smooth fold_left fst snd]. apply IH. Qed.
  Lemma puts_lookup l : forall s q, plookup q (p_objs (fold_left (fun s e => put (fst e) (snd e) true s) l s)) <> None <-> In q (map fst l) \/ plookup q (p_objs s) <> None.
  Proof.
    induction l as [|[x c] l IH]; intros s q; cbn [fold_left fst snd map In]; [tauto|]. rewrite IH. cbn [put p_objs]. rewrite plookup_put. destruct (peq q x) eqn:E.
    - apply peq_eq in E. subst x. split; [auto|intros _; right; discriminate].
    - split; [tauto|]. intros [[X|X]|X]; [subst x; rewrite peq_refl in E; discriminate E|auto|auto].
  Qed.

  Lemma puts_other l : forall s q, (forall e, In e l -> fst e <> q) -> plookup q (p_objs (fold_left (fun s e => put (fst e) (snd e) true s) l s)) = plookup q (p_objs s).
  Proof.
    induction l as [|[x c] l IH]; intros s q H; cbn [fold_left fst snd]; [reflexivity|]. rewrite IH by (intros e I; apply H; right; exact I). cbn [put p_objs]. apply put_other. intros E. exact (H (x, c) (or_introl eq_refl) (eq_sym E)).
  Qed.

  Lemma puts_in l : forall s q c, plookup q (p_objs (fold_left (fun s e => put (fst e) (snd e) true s) l s)) = Some c -> In (q, c) l \/ plookup q (p_objs s) = Some c.
  Proof.
    induction l as [|[x c0] l IH]; intros s q c H; cbn [fold_left fst snd] in H; [right; exact H|]. apply IH in H. destruct H as [H|H]; [left; right; exact H|].
    cbn [put p_objs] in H. rewrite plookup_put in H. destruct (peq q x) eqn:E; [|right; exact H]. apply peq_eq in E. subst x. injection H as <-. left. left. reflexivity.
  Qed.
  (** The uploads of a run without failures. *)
  Lemma smooth_run ws all st s w t a p : reach ws all st s -> (forall p, st <> Running p) -> goodWorld parseTime ws w ->
    w_tree w = Some t -> w_upload w = true -> (forall r n, In r (p_local s) -> ~ runId r (w_today w) n) ->
    PipelineModel.buildDir F has buildCascade buildClubcard fromBytes order reasons RAll (w_outAll w) (plookup latestRevset (p_objs s)) t = Ok a -> hasFilter a = true ->
    PipelineModel.buildDir F has buildCascade buildClubcard fromBytes order reasons RPriority (w_outPriority w) (plookup latestRevset (p_objs s)) t = Ok p ->
    exists id n l, runId id (w_today w) n /\ (forall r', In r' (ids (p_objs s)) -> before r' id) /\
      (forall q c, In (q, c) l -> (exists x, q = id :: x /\ objectsOf marker t a p x c) \/ (exists x, q = latest :: x /\ fileAt a x c)) /\ In [id; sCompleted] (map fst l) /\
      smooth (generate w) s = (true, fold_left (fun s e => put (fst e) (snd e) true s) l (made id true s)).
  Proof.
    intros H NR GW WT UP LO EA HF EP. pose proof GW as [L8 [DG [MO [GT LW]]]]. destruct (reach_inv' _ _ _ _ H) as [IV _]. pose proof (i_frame _ _ _ _ _ _ _ _ _ _ _ _ IV) as Fr.
    destruct (C49_fresh (w_today w) (dirsOf (p_objs s)) L8 DG) as [id [n [A [R [_ LT]]]]].
    { intros r I. apply (small_ids parseTime _ _ _ _ Fr). apply (ids_sub _ _ _ _ Fr I). }
    { intros r d n I R. destruct (ids_run_of _ _ _ _ Fr (ids_sub _ _ _ _ Fr I)) as [d' [n' [R' [I' _]]]]. destruct (runId_fun _ _ _ _ _ R R') as [-> ->]. apply in_map_iff in I'. destruct I' as [w' [<- I']]. apply MO. exact I'. }
    assert (IR : isRun id) by (exists (w_today w), n; exact R).
    assert (NEW : forall r', In r' (ids (p_objs s)) -> before r' id).
    { intros r' I. destruct (ids_run_of _ _ _ _ Fr (ids_sub _ _ _ _ Fr I)) as [d [k [R' _]]]. exists d, k, (w_today w), n. split; [exact R'|]. split; [exact R|]. destruct (LT r' d k I R') as [X|[-> X]]; auto. }
    unfold generate. rewrite generate_eq. cbn [smooth]. rewrite A. cbn [smooth]. destruct (memb id (p_local s)) eqn:M; [apply memb_in in M; contradiction (LO id n M R)|].
    unfold rest1. rewrite WT, UP, smooth_puts. unfold rest2. cbn [smooth].
    rewrite puts_other. 2:{ intros [q c] I E. cbn [fst] in E. subst q. apply (in_treePuts listdir Listdir) in I. destruct I as [x [E _]]. injection E as E _. exact (run_no_latest id IR (eq_sym E)). }
    assert (MO' : p_objs (made id true s) = p_objs s) by (unfold made; destruct (_ && _); reflexivity). rewrite MO'. rewrite EA. cbn [smooth].
    rewrite puts_other. 2:{ intros [q c] I E. cbn [fst] in E. subst q. apply (in_treePuts listdir Listdir) in I. destruct I as [x [E _]]. injection E as E _. exact (run_no_latest id IR (eq_sym E)). }
    rewrite MO'. rewrite EP, UP. unfold upload3. rewrite HF, smooth_puts, <- fold_left_app. cbn [smooth].
    exists id, n. eexists. split; [exact R|]. split; [exact NEW|]. split; [|split; [|reflexivity]].
    - intros q c I. rewrite !in_app_iff in I. rewrite !(in_treePuts listdir Listdir), (in_allPuts listdir Listdir) in I. cbn [app In] in I. unfold objectsOf.
      destruct I as [[x [-> FA]]|[[x [[-> | ->] FA]]|[[x [-> FA]]|[E|[]]]]].
      + left. exists x. auto.
      + left. exists (B "clubcard-all" :: x). split; [reflexivity|]. right. left. exists x. auto.
      + right. exists x. auto.
      + left. exists (B "clubcard-priority" :: x). split; [reflexivity|]. right. right. left. exists x. auto.
      + left. exists [sCompleted]. injection E as <- <-. split; [reflexivity|]. right. right. right. auto.
    - rewrite !map_app, !in_app_iff. right. right. right. left. reflexivity.
  Qed.

  (** Without failures, a run whose inputs are there and from which filters can be
      built is completed, as the newest of all. *)
  Theorem C59_completes : forall ws all st s w t, reach ws all st s -> (forall p, st <> Running p) -> goodWorld parseTime ws w ->
    w_tree w = Some t -> w_upload w = true -> (forall r n, In r (p_local s) -> ~ runId r (w_today w) n) ->
    (exists a, PipelineModel.buildDir F has buildCascade buildClubcard fromBytes order reasons RAll (w_outAll w) (plookup latestRevset (p_objs s)) t = Ok a /\ hasFilter a = true) ->
    (exists p, PipelineModel.buildDir F has buildCascade buildClubcard fromBytes order reasons RPriority (w_outPriority w) (plookup latestRevset (p_objs s)) t = Ok p) ->
    exists r n s', smooth (generate w) s = (true, s') /\ runId r (w_today w) n /\ (forall r', In r' (ids (p_objs s)) -> before r' r) /\ lastOf (ids (p_objs s')) = Some r /\ done (p_objs s') r.
  Proof.
    intros ws all st s w t H NR GW WT UP LO [a [EA HF]] [p EP]. pose proof GW as [L8 [DG [MO [GT LW]]]]. destruct (reach_inv' _ _ _ _ H) as [IV _]. pose proof (i_frame _ _ _ _ _ _ _ _ _ _ _ _ IV) as Fr.
    assert (H2 : reach (w :: ws) all (Running (generate w)) s) by (eapply reach_step; [exact H|apply p_run; assumption]).
    destruct (smooth_reach _ _ _ _ H2) as [all' H3].
    destruct (smooth_run _ _ _ _ _ _ _ _ H NR GW WT UP LO EA HF EP) as [id [n [l [R [NEW [LW0 [LC SM]]]]]]].
    assert (IR : isRun id) by (exists (w_today w), n; exact R).
    assert (LW' : forall q c, In (q, c) l -> exists x q', q = x :: q' /\ (x = id \/ x = latest)).
    { intros q c I. destruct (LW0 q c I) as [[x [E _]]|[x [E _]]]; [exists id, x; auto|exists latest, x; auto]. }
    rewrite SM in H3. cbn [fst snd] in H3. destruct (reach_inv' _ _ _ _ H3) as [IV3 _]. pose proof (i_frame _ _ _ _ _ _ _ _ _ _ _ _ IV3) as Fr3.
    set (s' := fold_left (fun s e => put (fst e) (snd e) true s) l (made id true s)) in *.
    assert (MO' : p_objs (made id true s) = p_objs s) by (unfold made; destruct (_ && _); reflexivity).
    assert (LK : forall q, plookup q (p_objs s') <> None <-> In q (map fst l) \/ plookup q (p_objs s) <> None) by (intros q; unfold s'; rewrite puts_lookup, MO'; tauto).
    assert (D : done (p_objs s') id) by (apply LK; left; exact LC).
    exists id, n, s'. split; [exact SM|]. split; [exact R|]. split; [exact NEW|]. split; [|exact D].
    pose proof (o_sorted parseTime _ _ _ Fr3) as SO.
    assert (II : In id (ids (p_objs s'))) by (apply (done_listed _ _ _ _ IV3 IR D)).
    assert (TOP : forall r', In r' (ids (p_objs s')) -> r' = id \/ before r' id).
    { intros r' I. apply (in_ids _ _ (named_run _ _ (frame_named_o _ _ _ Fr3))) in I. destruct I as [R' [y [q I]]]. apply LK in I. destruct I as [I|I].
      - apply in_map_iff in I. destruct I as [[q0 c] [E I]]. cbn [fst] in E. subst q0. destruct (LW' _ _ I) as [x [q' [E X]]]. injection E as <- _. destruct X as [->| ->]; [left; reflexivity|]. contradiction (run_no_latest latest R'). reflexivity.
      - right. apply NEW. apply (in_ids _ _ (named_run _ _ (frame_named_o _ _ _ Fr))). split; [exact R'|]. exists y, q. exact I. }
    destruct (exists_last (l := ids (p_objs s'))) as [m [y Em]]; [intros E; rewrite E in II; destruct II|]. rewrite Em in *. apply lastOf_some. exists m. f_equal. f_equal.
    apply in_app_iff in II. destruct II as [II|[II|[]]]; [|exact II]. exfalso.
    assert (B1 : before id y).
    { clear -SO II. induction m as [|z m IH]; [destruct II|]. cbn [app] in SO. apply StronglySorted_inv in SO. destruct SO as [S1 S2]. destruct II as [->|II]; [|apply IH; assumption]. rewrite Forall_forall in S2. apply S2. apply in_or_app. right. left. reflexivity. }
    destruct (TOP y) as [E|E]; [apply in_or_app; right; left; reflexivity|subst y; exact (before_irrefl id B1)|exact (before_asym _ _ B1 E)].
  Qed.

  Lemma exec_over fs st s : (forall p, st <> Running p) -> exec fs st s = (st, s).
  Proof using Type. intros H. destruct fs as [|f fs]; [reflexivity|]. destruct st as [p| |]; [contradiction (H p); reflexivity|reflexivity|reflexivity]. Qed.
  Lemma exec_puts l k s' : forall fs s, exec fs (Running (putAll l k)) s = (Ended true, s') ->
    exists fs', exec fs' (Running k) (fold_left (fun s e => put (fst e) (snd e) true s) l s) = (Ended true, s').
  Proof using Type.
    induction l as [|[q c] l IH]; intros fs s H; [exists fs; exact H|]. cbn [putAll fold_left fst snd] in *.
    destruct fs as [|f fs]; [discriminate H|]. cbn [exec gstep] in H. destruct f as [|d|d]; cbn [fst snd] in H.
    - apply (IH fs). exact H.
    - rewrite exec_over in H by (intros; discriminate). discriminate H.
    - rewrite exec_over in H by (intros; discriminate). discriminate H.
  Qed.
  Lemma exec_end fs ok s s' : exec fs (Running (GEnd ok)) s = (Ended true, s') -> ok = true /\ s' = s.
  Proof using Type.
    intros H. destruct fs as [|f fs]; [discriminate H|]. cbn [exec gstep fst snd] in H. rewrite exec_over in H by (intros; discriminate). injection H as -> ->. auto.
  Qed.

  (** A run that ends with success, whatever failed on the way, has completed a run
      later than all others; if it is not to upload, it has left the bucket alone. *)
  Theorem C59_success : forall ws all st s w fs s', reach ws all st s -> (forall p, st <> Running p) -> goodWorld parseTime ws w ->
    exec fs (Running (generate w)) s = (Ended true, s') ->
    (w_upload w = true -> exists r n, runId r (w_today w) n /\ (forall r', In r' (ids (p_objs s)) -> before r' r) /\ done (p_objs s') r) /\
    (w_upload w = false -> p_objs s' = p_objs s).
  Proof using Listdir.
    intros ws all st s w fs s' H NR GW EX. pose proof GW as [L8 [DG [MO [GT LW]]]]. destruct (reach_inv' _ _ _ _ H) as [IV _]. pose proof (i_frame _ _ _ _ _ _ _ _ _ _ _ _ IV) as Fr.
    destruct (C49_fresh (w_today w) (dirsOf (p_objs s)) L8 DG) as [id [n [A [R [_ LT]]]]].
    { intros r I. apply (small_ids parseTime _ _ _ _ Fr). apply (ids_sub _ _ _ _ Fr I). }
    { intros r d n I R. destruct (ids_run_of _ _ _ _ Fr (ids_sub _ _ _ _ Fr I)) as [d' [n' [R' [I' _]]]]. destruct (runId_fun _ _ _ _ _ R R') as [-> ->]. apply in_map_iff in I'. destruct I' as [w' [<- I']]. apply MO. exact I'. }
    assert (NEW : forall r', In r' (ids (p_objs s)) -> before r' id).
    { intros r' I. destruct (ids_run_of _ _ _ _ Fr (ids_sub _ _ _ _ Fr I)) as [d [k [R' _]]]. exists d, k, (w_today w), n. split; [exact R'|]. split; [exact R|]. destruct (LT r' d k I R') as [X|[-> X]]; auto. }
    unfold generate in EX. rewrite generate_eq in EX. destruct fs as [|f fs]; [discriminate EX|]. cbn [exec gstep] in EX.
    assert (ST : forall st0 s0 g, (forall p, st0 <> Running p) -> st0 <> Ended true -> exec g st0 s0 <> (Ended true, s')) by (intros st0 s0 g N1 N2 E; rewrite exec_over in E by exact N1; congruence).
    destruct f as [|d|d]; cbn [fst snd] in EX; [|exfalso; revert EX; apply ST; [intros; discriminate|discriminate]|exfalso; revert EX; apply ST; [intros; discriminate|discriminate]].
    rewrite A in EX. destruct fs as [|f fs]; [discriminate EX|]. cbn [exec gstep] in EX.
    destruct f as [|d|d]; cbn [fst snd] in EX; [|exfalso; revert EX; apply ST; [intros; discriminate|discriminate]|exfalso; revert EX; apply ST; [intros; discriminate|discriminate]].
    destruct (memb id (p_local s)); cbn [fst snd] in EX; [exfalso; revert EX; apply ST; [intros; discriminate|discriminate]|].
    assert (MO' : p_objs (made id true s) = p_objs s) by (unfold made; destruct (_ && _); reflexivity).
    unfold rest1 in EX. destruct (w_tree w) as [t|]; [|apply exec_end in EX; destruct EX; discriminate].
    apply exec_puts in EX. destruct EX as [fs' EX]. unfold rest2 in EX.
    set (s1 := fold_left _ _ (made id true s)) in EX.
    assert (GETS : forall q k g s0, exec g (Running (GGet q k)) s0 = (Ended true, s') -> exists v g', exec g' (Running (k v)) s0 = (Ended true, s')).
    { intros q k g s0 E. destruct g as [|x g]; [discriminate E|]. cbn [exec gstep] in E. destruct x as [|d|d]; cbn [fst snd] in E; [eexists _, g; exact E|exists None, g; exact E|].
      exfalso; revert E; apply ST; [intros; discriminate|discriminate]. }
    apply GETS in EX. destruct EX as [v1 [fs1 EX]]. cbv beta in EX. destruct (PipelineModel.buildDir _ _ _ _ _ _ _ RAll _ v1 t) as [a| |]; [|apply exec_end in EX; destruct EX; discriminate|apply exec_end in EX; destruct EX; discriminate].
    apply GETS in EX. destruct EX as [v2 [fs2 EX]]. cbv beta in EX. destruct (PipelineModel.buildDir _ _ _ _ _ _ _ RPriority _ v2 t) as [p| |]; [|apply exec_end in EX; destruct EX; discriminate|apply exec_end in EX; destruct EX; discriminate].
    destruct (w_upload w); (split; intros UP; try discriminate UP).
    - unfold upload3 in EX. destruct (hasFilter a); [|apply exec_end in EX; destruct EX; discriminate]. apply exec_puts in EX. destruct EX as [fs3 EX]. apply exec_end in EX. destruct EX as [_ ->].
      exists id, n. split; [exact R|]. split; [exact NEW|]. apply puts_lookup. left. rewrite !map_app, !in_app_iff. right. right. left. reflexivity.
    - apply exec_end in EX. destruct EX as [_ ->]. exact MO'.
  Qed.

  (** ** C60: a delta is a delta to the run before *)

  Lemma fileAt_top (f : folder) (l : tree) n c : (forall d g, In (d, g) l -> d <> []) -> (fileAt (([], f) :: l) [n] c <-> In (n, Plain c) f).
  Proof.
    intros N. split.
    - intros [d [g [m [E [I J]]]]]. destruct d as [|x d]; [|destruct d; discriminate E]. injection E as ->. destruct I as [I|I]; [injection I as <-; exact J|]. contradiction (N [] g I). reflexivity.
    - intros I. exists [], f, n. split; [reflexivity|]. split; [left; reflexivity|exact I].
  Qed.

  (** The files of a build. *)
  Lemma build_of out p1 t a : PipelineModel.buildDir F has buildCascade buildClubcard fromBytes order reasons RAll out p1 t = Ok a -> hasFilter a = true ->
    exists kn rv ct o, plookup [B "known"] t = Some kn /\ plookup [B "revoked"] t = Some rv /\
      buildRun F has buildCascade (buildClubcard ct) fromBytes order Clubcard RAll RAll (prevSet p1) (plainOf rv) (plainOf kn) = Ok o /\
      (forall c, fileAt a [B "filter"] c -> o_filter o = Some c) /\ (forall c, fileAt a [B "filter.delta"] c <-> o_deltaFilter o = Some c) /\
      fileAt a [B "revset.bin"] (enRevset (order (o_revset o))).
  Proof.
    intros BA HF. destruct (hasFilter_run F has buildCascade buildClubcard fromBytes order reasons _ _ _ _ _ BA HF) as [kn [rv [ct [o [KN [RV [CT [BR EA]]]]]]]].
    assert (TF : forall nm c, fileAt a [nm] c <-> In (nm, Plain c) ((B "reason_codes.csv", Plain (reasons RAll (plainOf rv) (plainOf kn))) ::
          match o_filter o with Some d => [(B "filter", Plain d)] | None => [] end ++
          [(B "revset.bin", Plain (enRevset (order (o_revset o)))); (B "filter.stash", Plain (o_stash o))] ++
          match o_deltaFilter o with Some d => [(B "filter.delta", Plain d)] | None => [] end)).
    { intros nm c. rewrite EA. apply fileAt_top. intros d g [E|[]]. injection E as <- _. discriminate. }
    exists kn, rv, ct, o. split; [exact KN|]. split; [exact RV|]. split; [exact BR|]. split; [|split].
    - intros c H. apply TF in H. destruct H as [E|H]; [exfalso; injection E as E _; revert E; vm_compute; discriminate|]. apply in_app_iff in H. destruct H as [H|H].
      + destruct (o_filter o) as [d|]; [|destruct H]. destruct H as [E|[]]. injection E as ->. reflexivity.
      + exfalso. apply in_app_iff in H. destruct H as [[E|[E|[]]]|H]; [injection E as E _; revert E; vm_compute; discriminate|injection E as E _; revert E; vm_compute; discriminate|].
        destruct (o_deltaFilter o) as [d|]; [|destruct H]. destruct H as [E|[]]. injection E as E _. revert E. vm_compute. discriminate.
    - intros c. rewrite TF. split.
      + intros H. destruct H as [E|H]; [exfalso; injection E as E _; revert E; vm_compute; discriminate|]. apply in_app_iff in H. destruct H as [H|H].
        * exfalso. destruct (o_filter o) as [d|]; [|destruct H]. destruct H as [E|[]]. injection E as E _. revert E. vm_compute. discriminate.
        * apply in_app_iff in H. destruct H as [[E|[E|[]]]|H]; [exfalso; injection E as E _; revert E; vm_compute; discriminate|exfalso; injection E as E _; revert E; vm_compute; discriminate|].
          destruct (o_deltaFilter o) as [d|]; [|destruct H]. destruct H as [E|[]]. injection E as ->. reflexivity.
      + intros ->. right. apply in_or_app. right. right. right. left. reflexivity.
    - apply TF. right. apply in_or_app. right. left. reflexivity.
  Qed.

  Lemma all_files all r t a p : goodTree parseTime t -> (forall q c, plookup (r :: q) all = Some c <-> objectsOf marker t a p q c) -> forall nm c, plookup [r; sAll; nm] all = Some c <-> fileAt a [nm] c.
  Proof.
    intros GT OB nm c. rewrite OB. split.
    - intros [H|[[q' [E H]]|[[q' [E H]]|[E _]]]].
      + exfalso. destruct (goodTree_names parseTime _ _ _ GT H) as [_ X]. destruct (X [nm]) as [Y _]; [discriminate|]. apply Y. reflexivity.
      + injection E as <-. exact H.
      + exfalso. injection E as E _. revert E. vm_compute. discriminate.
      + discriminate E.
    - intros H. right. left. exists [nm]. auto.
  Qed.

  Lemma run_of ws all r : finished ws all r ->
    exists w t n kn rv ct o p1, In w ws /\ w_tree w = Some t /\ runId r (w_today w) n /\ plookup [B "known"] t = Some kn /\ plookup [B "revoked"] t = Some rv /\
      buildRun F has buildCascade (buildClubcard ct) fromBytes order Clubcard RAll RAll (prevSet p1) (plainOf rv) (plainOf kn) = Ok o /\
      (forall c, plookup [r; sAll; B "filter"] all = Some c -> o_filter o = Some c) /\
      (forall c, plookup [r; sAll; B "filter.delta"] all = Some c -> o_deltaFilter o = Some c) /\
      plookup (revsetOf r) all = Some (enRevset (order (o_revset o))) /\ prevOk all r p1.
  Proof.
    intros [w [t [p1 [p2 [a [p [IW [[n RN] [GT [[WT [BA [BP HF]]] [OB [P1 P2]]]]]]]]]]]].
    destruct (build_of _ _ _ _ BA HF) as [kn [rv [ct [o [KN [RV [BR [E1 [E2 E3]]]]]]]]]. pose proof (all_files _ _ _ _ _ GT OB) as TOP.
    exists w, t, n, kn, rv, ct, o, p1. split; [exact IW|]. split; [exact WT|]. split; [exact RN|]. split; [exact KN|]. split; [exact RV|]. split; [exact BR|]. split; [|split; [|split; [|exact P1]]].
    - intros c H. apply E1, TOP. exact H.
    - intros c H. apply E2, TOP. exact H.
    - apply TOP. exact E3.
  Qed.

  Lemma revset_fits ct t set prev ks rs kn rv o : inputs t ks rs -> plookup [B "known"] t = Some kn -> plookup [B "revoked"] t = Some rv ->
    buildRun F has buildCascade (buildClubcard ct) fromBytes order Clubcard set set prev (plainOf rv) (plainOf kn) = Ok o ->
    fits (order (o_revset o)) /\ forall k, In k (o_revset o) <-> exists d s, k = d ++ s /\ knownCert ks d s /\ revokedCert set rs d s.
  Proof.
    intros [kn' [rv' [K [R [EK [ER [GK [GR FI]]]]]]]] KN RV BR. rewrite KN in K. injection K as <-. rewrite RV in R. injection R as <-. rewrite EK, ER in BR.
    destruct (C38_run_is_exact F has buildCascade (buildClubcard ct) fromBytes order Clubcard set set prev rs ks o GK GR BR) as [_ [_ RS]]. split; [|exact RS].
    assert (ND : NoDup (o_revset o)).
    { unfold buildRun in BR. apply bind_ok in BR. destruct BR as [st [_ BR]]. apply bind_ok in BR. destruct BR as [f [_ BR]]. rewrite (writeRevset_go prev set rs ks GK) in BR. cbn [bind fst snd] in BR.
      apply bind_ok in BR. destruct BR as [x1 [_ BR]]. apply bind_ok in BR. destruct BR as [x2 [_ BR]]. apply bind_ok in BR. destruct BR as [x3 [_ BR]]. injection BR as <-. cbn [o_revset]. apply fold_setAdd_nodup. constructor. }
    assert (SUB : forall k, In k (o_revset o) -> In k (keys ks)).
    { intros k I. apply RS in I. destruct I as [d [s [E [K _]]]]. apply in_keys. exists d, s. auto. }
    destruct FI as [F1 F2]. split.
    - pose proof (NoDup_incl_length ND SUB). rewrite (Permutation_length (Order _)). lia.
    - intros k I. apply F2, SUB. apply (Permutation_in _ (Order _)). exact I.
  Qed.

  Lemma difference ks rs ks0 rs0 f prev o0 : goodKnown ks -> goodKnown ks0 -> fits (order (o_revset o0)) ->
    (forall k, In k (o_revset o0) <-> exists d s, k = d ++ s /\ knownCert ks0 d s /\ revokedCert RAll rs0 d s) -> prev = Some (enRevset (order (o_revset o0))) ->
    (forall d s, knownCert ks d s -> (has f (d ++ s) = true <-> revokedCert RAll rs d s /\ ~ In (d ++ s) (prevSet prev))) ->
    forall d s, knownCert ks d s -> (has f (d ++ s) = true <-> revokedCert RAll rs d s /\ ~ (knownCert ks0 d s /\ revokedCert RAll rs0 d s)).
  Proof.
    intros GK GK0 FI0 RV0' -> EX d s Kn. rewrite (EX d s Kn). cbn [prevSet]. pose proof (de_en (order (o_revset o0)) [] FI0) as DE0. rewrite app_nil_r in DE0. rewrite DE0.
    assert (X : In (d ++ s) (order (o_revset o0)) <-> knownCert ks0 d s /\ revokedCert RAll rs0 d s).
    { split.
      - intros I. apply (Permutation_in _ (Order _)) in I. apply RV0' in I. destruct I as [d' [s' [E [K' R']]]]. destruct (known_key ks ks0 d s d' s' GK GK0 Kn K' E) as [-> ->]. auto.
      - intros [K' R']. apply (Permutation_in _ (Permutation_sym (Order _))). apply RV0'. exists d, s. auto. }
    rewrite X. reflexivity.
  Qed.

  (** The previous set that a run used. *)
  Lemma prev_of ws all r r0 : finished ws all r -> finished ws all r0 -> In r0 (ids all) -> before r0 r -> (forall r', In r' (ids all) -> before r' r -> r' = r0 \/ before r' r0) -> done all r0 ->
    exists w t w0 t0, In w ws /\ w_tree w = Some t /\ In w0 ws /\ w_tree w0 = Some t0 /\ (exists n, runId r (w_today w) n) /\ (exists n, runId r0 (w_today w0) n) /\
    forall ks rs ks0 rs0 data, inputs t ks rs -> inputs t0 ks0 rs0 -> plookup [r; sAll; B "filter.delta"] all = Some data ->
      exists f, fromBytes data = Ok (Some f) /\
        ((forall d s, knownCert ks d s -> (has f (d ++ s) = true <-> revokedCert RAll rs d s)) \/
         (forall d s, knownCert ks d s -> (has f (d ++ s) = true <-> revokedCert RAll rs d s /\ ~ (knownCert ks0 d s /\ revokedCert RAll rs0 d s)))).
  Proof.
    intros Fi Fi0 I0 B0 CL D0. destruct (run_of _ _ _ Fi) as [w [t [n [kn [rv [ct [o [p1 [IW [WT [RN [KN [RV [BR [_ [DE [_ P1]]]]]]]]]]]]]]]]].
    destruct (run_of _ _ _ Fi0) as [w0 [t0 [n0 [kn0 [rv0 [ct0 [o0 [p0 [IW0 [WT0 [RN0 [KN0 [RV0 [BR0 [_ [_ [RS0 _]]]]]]]]]]]]]]]]].
    exists w, t, w0, t0. split; [exact IW|]. split; [exact WT|]. split; [exact IW0|]. split; [exact WT0|]. split; [exists n; exact RN|]. split; [exists n0; exact RN0|].
    intros ks rs ks0 rs0 data IN IN0 LK. apply DE in LK. pose proof (revset_fits _ _ _ _ _ _ _ _ _ IN0 KN0 RV0 BR0) as [FI0 RV0'].
    destruct IN as [kn' [rv' [K [R [EK [ER [GK [GR FI]]]]]]]]. rewrite KN in K. injection K as <-. rewrite RV in R. injection R as <-. rewrite EK, ER in BR.
    destruct (C38_run_is_exact F has buildCascade (buildClubcard ct) fromBytes order Clubcard RAll RAll (prevSet p1) rs ks o GK GR BR) as [_ [DX _]].
    destruct (DX data LK) as [f [PF EX]]. exists f. split; [exact PF|]. destruct IN0 as [kn0' [rv0' [_ [_ [_ [_ [GK0 _]]]]]]].
    destruct (P1 r0 I0 B0 CL D0) as [-> | ->].
    - left. intros d s Kn. rewrite (EX d s Kn). cbn [prevSet In]. tauto.
    - right. intros d s Kn. exact (difference ks rs ks0 rs0 f _ o0 GK GK0 FI0 RV0' RS0 EX d s Kn).
  Qed.

  Theorem C60_delta : forall ws all st s r0 r, reach ws all st s -> isRun r0 -> isRun r -> done (p_objs s) r0 -> done (p_objs s) r ->
    before r0 r -> (forall r', In r' (ids (p_objs s)) -> before r' r -> r' = r0 \/ before r' r0) ->
    exists w t w0 t0, In w ws /\ w_tree w = Some t /\ In w0 ws /\ w_tree w0 = Some t0 /\ (exists n, runId r (w_today w) n) /\ (exists n, runId r0 (w_today w0) n) /\
    forall ks rs ks0 rs0 data, inputs t ks rs -> inputs t0 ks0 rs0 -> plookup [r; sAll; B "filter.delta"] (p_objs s) = Some data ->
      exists f, fromBytes data = Ok (Some f) /\
        ((forall d s, knownCert ks d s -> (has f (d ++ s) = true <-> revokedCert RAll rs d s)) \/
         (forall d s, knownCert ks d s -> (has f (d ++ s) = true <-> revokedCert RAll rs d s /\ ~ (knownCert ks0 d s /\ revokedCert RAll rs0 d s)))).
  Proof.
    intros ws all st s r0 r H R0 R D0 D B0 CL. destruct (reach_inv' _ _ _ _ H) as [IV _]. pose proof (done_listed _ _ _ _ IV R D) as I. pose proof (done_listed _ _ _ _ IV R0 D0) as I0. destruct IV as [Fr ID _].
    pose proof (ids_sub _ _ _ _ Fr I) as IA. pose proof (ids_sub _ _ _ _ Fr I0) as IA0.
    assert (DA : done all r) by (unfold done; rewrite <- (f_same _ _ _ Fr r _ I); exact D). assert (DA0 : done all r0) by (unfold done; rewrite <- (f_same _ _ _ Fr r0 _ I0); exact D0).
    rewrite (f_same _ _ _ Fr r _ I). apply (prev_of ws all r r0 (ID r IA DA) (ID r0 IA0 DA0) IA0 B0); [|exact DA0].
    intros r' I' B'. destruct (f_apart _ _ _ Fr r' r0 I' IA0) as [E|[E|E]]; [left; exact E|right; exact E|]. apply CL; [|exact B']. apply (f_upper _ _ _ Fr r' r0); assumption.
  Qed.

  Lemma all_below all r t a p : goodTree parseTime t -> (forall q c, plookup (r :: q) all = Some c <-> objectsOf marker t a p q c) -> forall q c, q <> [] -> (plookup (r :: sAll :: q) all = Some c <-> fileAt a q c).
  Proof using Type.
    intros GT OB q c NE. rewrite OB. split.
    - intros [H|[[q' [E H]]|[[q' [E H]]|[E _]]]].
      + exfalso. destruct (goodTree_names parseTime _ _ _ GT H) as [_ X]. destruct (X q NE) as [Y _]. apply Y. reflexivity.
      + injection E as <-. exact H.
      + exfalso. injection E as E _. revert E. vm_compute. discriminate.
      + exfalso. injection E as E _. revert E. vm_compute. discriminate.
    - intros H. right. left. exists q. auto.
  Qed.

  (** The same for the delta directory and the stash of a run: exactly the certificates
      that are revoked, or that are so and were not in the run before. *)
  Theorem C60_stash : forall ws all st s r0 r, reach ws all st s -> isRun r0 -> isRun r -> done (p_objs s) r0 -> done (p_objs s) r ->
    before r0 r -> (forall r', In r' (ids (p_objs s)) -> before r' r -> r' = r0 \/ before r' r0) ->
    exists w t w0 t0, In w ws /\ w_tree w = Some t /\ In w0 ws /\ w_tree w0 = Some t0 /\ (exists n, runId r (w_today w) n) /\ (exists n, runId r0 (w_today w0) n) /\
    forall ks rs ks0 rs0, inputs t ks rs -> inputs t0 ks0 rs0 ->
      exists dl, goodRevoked dl /\ (forall name data, plookup [r; sAll; B "delta"; name] (p_objs s) = Some data <-> In (name, data) (goRevoked dl)) /\
        ((forall d x, (exists l c, In (d, l) dl /\ In (x, c) l) <-> knownCert ks d x /\ revokedCert RAll rs d x) \/
         (forall d x, (exists l c, In (d, l) dl /\ In (x, c) l) <-> knownCert ks d x /\ revokedCert RAll rs d x /\ ~ (knownCert ks0 d x /\ revokedCert RAll rs0 d x))) /\
        ((forall d bins, In (d, bins) ks -> (N.of_nat (length (knownLines bins)) < 2 ^ 32)%N /\ forall u ss x, In (u, ss) bins -> In x ss -> (length x < 256)%nat) ->
         exists data l, plookup [r; sAll; B "filter.stash"] (p_objs s) = Some data /\ stashOf l data /\ (forall l', stashOf l' data -> l' = l) /\
           forall d x, (exists ss, In (d, ss) l /\ In x ss) <-> exists l c, In (d, l) dl /\ In (x, c) l).
  Proof using Listdir Order.
    intros ws all st s r0 r H R0 R D0 D B0 CL0. destruct (reach_inv' _ _ _ _ H) as [IV _]. pose proof (done_listed _ _ _ _ IV R D) as I. pose proof (done_listed _ _ _ _ IV R0 D0) as I0. destruct IV as [Fr ID _].
    pose proof (ids_sub _ _ _ _ Fr I) as IA. pose proof (ids_sub _ _ _ _ Fr I0) as IA0.
    assert (DA : done all r) by (unfold done; rewrite <- (f_same _ _ _ Fr r _ I); exact D). assert (DA0 : done all r0) by (unfold done; rewrite <- (f_same _ _ _ Fr r0 _ I0); exact D0).
    assert (CL : forall r', In r' (ids all) -> before r' r -> r' = r0 \/ before r' r0).
    { intros r' I' B'. destruct (f_apart _ _ _ Fr r' r0 I' IA0) as [E|[E|E]]; [left; exact E|right; exact E|]. apply CL0; [|exact B']. apply (f_upper _ _ _ Fr r' r0); assumption. }
    destruct (run_of _ _ _ (ID r0 IA0 DA0)) as [w0 [t0 [n0 [kn0 [rv0 [ct0 [o0 [p0 [IW0 [WT0 [RN0 [KN0 [RV0 [BR0 [_ [_ [RS0 _]]]]]]]]]]]]]]]]].
    destruct (ID r IA DA) as [w [t [p1 [p2 [a [p [IW [[n RN] [GT [[WT [BA [BP HF]]] [OB [P1 P2]]]]]]]]]]]].
    destruct (hasFilter_run F has buildCascade buildClubcard fromBytes order reasons _ _ _ _ _ BA HF) as [kn [rv [ct [o [KN [RV [CT [BR EA]]]]]]]].
    pose proof (all_below _ _ _ _ _ GT OB) as BEL.
    exists w, t, w0, t0. split; [exact IW|]. split; [exact WT|]. split; [exact IW0|]. split; [exact WT0|]. split; [exists n; exact RN|]. split; [exists n0; exact RN0|].
    intros ks rs ks0 rs0 IN IN0. pose proof (revset_fits _ _ _ _ _ _ _ _ _ IN0 KN0 RV0 BR0) as [FI0 RV0'].
    destruct IN as [kn' [rv' [K [RR [EK [ER [GK [GR FI]]]]]]]]. rewrite KN in K. injection K as <-. rewrite RV in RR. injection RR as <-. rewrite EK, ER in BR.
    destruct IN0 as [kn0' [rv0' [_ [_ [_ [_ [GK0 _]]]]]]].
    destruct (C34_output F has buildCascade (buildClubcard ct) fromBytes order Clubcard RAll RAll (prevSet p1) rs ks o GK GR BR) as [_ [_ [dl [ED [GD [DL _]]]]]].
    exists dl. split; [exact GD|]. split; [|split].
    - intros name data. rewrite (f_same _ _ _ Fr r _ I), BEL by discriminate. rewrite EA. unfold fileAt, outTree. split.
      + intros [d [f [m [E [J1 J2]]]]]. destruct d as [|x d]; [discriminate E|]. destruct d as [|y d]; [|destruct d; discriminate E]. injection E as <- <-.
        destruct J1 as [J1|[J1|[]]]; [discriminate J1|]. injection J1 as <-. apply in_map_iff in J2. destruct J2 as [[nm c] [E J2]]. cbn [fst snd] in E. injection E as <- <-. rewrite <- ED. exact J2.
      + intros J. exists [B "delta"], (map (fun e : bytes * bytes => (fst e, Plain (snd e))) (o_delta o)), name. split; [reflexivity|]. split; [right; left; reflexivity|].
        rewrite ED. apply in_map_iff. exists (name, data). auto.
    - destruct (P1 r0 IA0 B0 CL DA0) as [E | E].
      + left. intros d x. rewrite DL, E. cbn [prevSet In]. tauto.
      + right. intros d x. rewrite DL, E, RS0. cbn [prevSet]. pose proof (de_en (order (o_revset o0)) [] FI0) as DE0. rewrite app_nil_r in DE0. rewrite DE0.
        split; intros [Kn [Rv NI]]; (split; [exact Kn|]; split; [exact Rv|]; intros X; apply NI).
        * destruct X as [K' R']. apply (Permutation_in _ (Permutation_sym (Order _))). apply RV0'. exists d, x. auto.
        * apply (Permutation_in _ (Order _)) in X. apply RV0' in X. destruct X as [d' [x' [E' [K' R']]]]. destruct (known_key ks ks0 d x d' x' GK GK0 Kn K' E') as [-> ->]. auto.
    - intros HB. destruct (C36_stash_output F has buildCascade (buildClubcard ct) fromBytes order Clubcard RAll RAll (prevSet p1) rs ks o Order GK GR HB BR) as [l [S1 [S2 S3]]].
      exists (o_stash o), l. split; [|split; [exact S1|split; [exact S2|]]].
      + rewrite (f_same _ _ _ Fr r _ I). apply BEL; [discriminate|]. rewrite EA. eexists [], _, (B "filter.stash"). split; [reflexivity|]. split; [left; reflexivity|].
        right. apply in_or_app. right. right. left. reflexivity.
      + intros d x. rewrite S3, DL. reflexivity.
  Qed.

  (** Without failures the update of a run says no more than needed: exactly what is
      revoked and was not so in the run before, if that was completed and the shared
      set was not deleted. *)
  Theorem C60_difference : forall ws all st s w t r0 ks rs, reach ws all st s -> (forall p, st <> Running p) -> goodWorld parseTime ws w ->
    w_tree w = Some t -> w_upload w = true -> (forall r n, In r (p_local s) -> ~ runId r (w_today w) n) ->
    (exists a, PipelineModel.buildDir F has buildCascade buildClubcard fromBytes order reasons RAll (w_outAll w) (plookup latestRevset (p_objs s)) t = Ok a /\ hasFilter a = true) ->
    (exists p, PipelineModel.buildDir F has buildCascade buildClubcard fromBytes order reasons RPriority (w_outPriority w) (plookup latestRevset (p_objs s)) t = Ok p) ->
    lastOf (ids (p_objs s)) = Some r0 -> done (p_objs s) r0 -> plookup latestRevset (p_objs s) <> None -> inputs t ks rs ->
    exists r n s' w0 t0, smooth (generate w) s = (true, s') /\ runId r (w_today w) n /\ lastOf (ids (p_objs s')) = Some r /\ done (p_objs s') r /\
      In w0 ws /\ w_tree w0 = Some t0 /\ (exists n0, runId r0 (w_today w0) n0) /\
      forall ks0 rs0 data, inputs t0 ks0 rs0 -> plookup [r; sAll; B "filter.delta"] (p_objs s') = Some data ->
        exists f, fromBytes data = Ok (Some f) /\
          forall d s, knownCert ks d s -> (has f (d ++ s) = true <-> revokedCert RAll rs d s /\ ~ (knownCert ks0 d s /\ revokedCert RAll rs0 d s)).
  Proof.
    intros ws all st s w t r0 ks rs H NR GW WT UP LO BA BP LA D0 LN IN. destruct (C59_completes ws all st s w t H NR GW WT UP LO BA BP) as [r [n [s' [SM [R [NEW [LR DR]]]]]]].
    destruct BA as [a [EA HF]]. destruct BP as [p EP]. destruct (smooth_run _ _ _ _ _ _ _ _ H NR GW WT UP LO EA HF EP) as [id [n' [l [R' [NEW' [LW [LC SM']]]]]]].
    assert (ES : s' = fold_left (fun s e => put (fst e) (snd e) true s) l (made id true s)) by congruence.
    destruct (reach_inv' _ _ _ _ H) as [IV _]. pose proof IV as [Fr ID IL]. pose proof (frame_named_o _ _ _ Fr) as NO.
    assert (MO' : p_objs (made id true s) = p_objs s) by (unfold made; destruct (_ && _); reflexivity).
    assert (EI : r = id).
    { unfold done in DR. destruct (plookup [r; sCompleted] (p_objs s')) as [c|] eqn:E; [|contradiction DR; reflexivity]. rewrite ES in E. apply puts_in in E. destruct E as [E|E].
      - destruct (LW _ _ E) as [[x [X _]]|[x [X _]]]; injection X as X _; [exact X|]. exfalso. apply (run_no_latest r); [exists (w_today w), n; exact R|exact X].
      - exfalso. rewrite MO' in E. apply (before_irrefl r). apply NEW. apply (in_ids _ _ (named_run _ _ NO)). split; [exists (w_today w), n; exact R|]. exists sCompleted, []. rewrite E. discriminate. }
    subst id. assert (R0 : In r0 (ids (p_objs s))) by (apply lastOf_some in LA; destruct LA as [m ->]; apply in_or_app; right; left; reflexivity).
    pose proof (ids_sub _ _ _ _ Fr R0) as R0A. assert (D0A : done all r0) by (unfold done; rewrite <- (f_same _ _ _ Fr r0 _ R0); exact D0).
    destruct (run_of _ _ _ (ID r0 R0A D0A)) as [w0 [t0 [n0 [kn0 [rv0 [ct0 [o0 [p0 [IW0 [WT0 [RN0 [KN0 [RV0 [BR0 [_ [_ [RS0 _]]]]]]]]]]]]]]]]].
    exists r, n, s', w0, t0. split; [exact SM|]. split; [exact R|]. split; [exact LR|]. split; [exact DR|]. split; [exact IW0|]. split; [exact WT0|]. split; [exists n0; exact RN0|].
    intros ks0 rs0 data IN0 LK. destruct (build_of _ _ _ _ EA HF) as [kn [rv [ct [o [KN [RV [BR [_ [E2 _]]]]]]]]].
    assert (DE : o_deltaFilter o = Some data).
    { apply E2. rewrite ES in LK. apply puts_in in LK. destruct LK as [LK|LK].
      - destruct (LW _ _ LK) as [[x [X OB]]|[x [X _]]].
        + injection X as <-. destruct OB as [OB|[[q' [E OB]]|[[q' [E _]]|[E _]]]].
          * exfalso. destruct GW as [_ [_ [_ [GT _]]]]. destruct (goodTree_names parseTime _ _ _ (GT t WT) OB) as [_ X]. destruct (X [B "filter.delta"]) as [Y _]; [discriminate|]. apply Y. reflexivity.
          * injection E as <-. exact OB.
          * exfalso. injection E as E _. revert E. vm_compute. discriminate.
          * discriminate E.
        + exfalso. injection X as X _. apply (run_no_latest r); [exists (w_today w), n; exact R|exact X].
      - exfalso. rewrite MO' in LK. apply (before_irrefl r). apply NEW. apply (in_ids _ _ (named_run _ _ NO)). split; [exists (w_today w), n; exact R|]. exists sAll, [B "filter.delta"]. rewrite LK. discriminate. }
    assert (NW : newest all r0).
    { intros r' I'. destruct (f_top _ _ _ Fr r' I') as [r1 [I1 X]]. pose proof (o_sorted parseTime _ _ _ Fr) as SO. apply lastOf_some in LA. destruct LA as [m EM]. unfold bytes in *. rewrite EM in SO, I1.
      assert (Y : r1 = r0 \/ before r1 r0).
      { apply in_app_iff in I1. destruct I1 as [I1|[I1|[]]]; [|left; symmetry; exact I1]. right. clear -SO I1. induction m as [|z m IH]; [destruct I1|]. cbn [app] in SO. apply StronglySorted_inv in SO. destruct SO as [S1 S2]. destruct I1 as [->|I1]; [|apply IH; assumption]. rewrite Forall_forall in S2. apply S2. apply in_or_app. right. left. reflexivity. }
      destruct X as [->|X]; [exact Y|]. right. destruct Y as [->|Y]; [exact X|]. exact (before_trans _ _ _ X Y). }
    assert (EL : plookup latestRevset (p_objs s) = Some (enRevset (order (o_revset o0)))).
    { destruct (f_latest _ _ _ Fr) as [X|X]; [contradiction|]. rewrite X in *. destruct (IL r0 R0A NW D0A) as [Y|Y]; [contradiction|]. rewrite Y. exact RS0. }
    pose proof (revset_fits _ _ _ _ _ _ _ _ _ IN0 KN0 RV0 BR0) as [FI0 RV0']. destruct IN as [kn' [rv' [K [Q [EK [ER [GK [GR FI]]]]]]]]. rewrite KN in K. injection K as <-. rewrite RV in Q. injection Q as <-. rewrite EK, ER in BR.
    destruct (C38_run_is_exact F has buildCascade (buildClubcard ct) fromBytes order Clubcard RAll RAll _ rs ks o GK GR BR) as [_ [DX _]].
    destruct (DX data DE) as [f [PF EX]]. exists f. split; [exact PF|]. destruct IN0 as [kn0' [rv0' [_ [_ [_ [_ [GK0 _]]]]]]].
    exact (difference ks rs ks0 rs0 f _ o0 GK GK0 FI0 RV0' EL EX).
  Qed.

  Lemma hasFilter_file set out prev t a : PipelineModel.buildDir F has buildCascade buildClubcard fromBytes order reasons set out prev t = Ok a -> hasFilter a = true -> exists c, fileAt a [B "filter"] c.
  Proof.
    intros BA HF. destruct (hasFilter_run F has buildCascade buildClubcard fromBytes order reasons _ _ _ _ _ BA HF) as [kn [rv [ct [o [_ [_ [_ [_ EA]]]]]]]]. subst a.
    destruct (o_filter o) as [c|] eqn:EF.
    - exists c. apply fileAt_top; [intros d g [E|[]]; injection E as <- _; discriminate|]. rewrite EF. right. left. reflexivity.
    - exfalso. unfold hasFilter, outTree in HF. rewrite EF in HF. destruct (o_deltaFilter o); discriminate HF.
  Qed.

  (** ** C61: what clients get *)

  (** Every run that got as far as building had inputs of the expected form. *)
  Definition allInputs (ws : list world) : Prop := forall w t, In w ws -> w_tree w = Some t -> exists ks rs, inputs t ks rs.

  Lemma run_keys ws all r : allInputs ws -> finished ws all r ->
    exists L w t n, plookup (revsetOf r) all = Some (enRevset L) /\ fits L /\ In w ws /\ w_tree w = Some t /\ runId r (w_today w) n /\
      (forall ks rs, inputs t ks rs -> forall k, In k L <-> exists d s, k = d ++ s /\ knownCert ks d s /\ revokedCert RAll rs d s) /\
      (forall c, plookup [r; sAll; B "filter"] all = Some c -> exists f, fromBytes c = Ok (Some f) /\ (forall k, In k L -> has f k = true) /\
         forall ks rs, inputs t ks rs -> forall d s, has f (d ++ s) = true -> revokedCert RAll rs d s \/ ~ knownCert ks d s) /\
      (forall c, plookup [r; sAll; B "filter.delta"] all = Some c -> exists p1 f, prevOk all r p1 /\ fromBytes c = Ok (Some f) /\ (forall k, In k L -> ~ In k (prevSet p1) -> has f k = true) /\
         forall ks rs, inputs t ks rs -> forall d s, has f (d ++ s) = true -> revokedCert RAll rs d s \/ ~ knownCert ks d s).
  Proof.
    intros AI Fi. destruct (run_of _ _ _ Fi) as [w [t [n [kn [rv [ct [o [p1 [IW [WT [RN [KN [RV [BR [FL [DE [RS P1]]]]]]]]]]]]]]]]].
    destruct (AI w t IW WT) as [ks0 [rs0 IN0]]. destruct (revset_fits _ _ _ _ _ _ _ _ _ IN0 KN RV BR) as [FI _].
    exists (order (o_revset o)), w, t, n. split; [exact RS|]. split; [exact FI|]. split; [exact IW|]. split; [exact WT|]. split; [exact RN|].
    assert (EXACT : forall ks rs, inputs t ks rs ->
      (forall data, o_filter o = Some data -> exists f, fromBytes data = Ok (Some f) /\ forall d s, knownCert ks d s -> (has f (d ++ s) = true <-> revokedCert RAll rs d s)) /\
      (forall data, o_deltaFilter o = Some data -> exists f, fromBytes data = Ok (Some f) /\ forall d s, knownCert ks d s -> (has f (d ++ s) = true <-> revokedCert RAll rs d s /\ ~ In (d ++ s) (prevSet p1))) /\
      (forall k, In k (order (o_revset o)) <-> exists d s, k = d ++ s /\ knownCert ks d s /\ revokedCert RAll rs d s)).
    { intros ks rs [kn' [rv' [K [R [EK [ER [GK [GR _]]]]]]]]. rewrite KN in K. injection K as <-. rewrite RV in R. injection R as <-. pose proof BR as BR'. rewrite EK, ER in BR'.
      destruct (C38_run_is_exact F has buildCascade (buildClubcard ct) fromBytes order Clubcard RAll RAll (prevSet p1) rs ks o GK GR BR') as [X1 [X2 X3]]. split; [exact X1|]. split; [exact X2|].
      intros k. rewrite <- X3. split; apply Permutation_in; [apply Order|apply Permutation_sym, Order]. }
    destruct (EXACT ks0 rs0 IN0) as [X1 [X2 X3]]. split; [intros ks rs IN k; apply (EXACT ks rs IN)|]. split.
    - intros c H. apply FL in H. destruct (X1 c H) as [f [PF EX]]. exists f. split; [exact PF|]. split.
      + intros k I. apply X3 in I. destruct I as [d [s [-> [K R]]]]. apply EX; assumption.
      + intros ks rs IN d s HS. destruct (EXACT ks rs IN) as [Y1 _]. destruct (Y1 c H) as [f' [PF' EX']]. rewrite PF in PF'. injection PF' as <-. destruct (knownCert_dec ks d s) as [K|K]; [left; apply (EX' d s K); exact HS|right; exact K].
    - intros c H. apply DE in H. destruct (X2 c H) as [f [PF EX]]. exists p1, f. split; [exact P1|]. split; [exact PF|]. split.
      + intros k I NI. apply X3 in I. destruct I as [d [s [-> [K R]]]]. apply EX; auto.
      + intros ks rs IN d s HS. destruct (EXACT ks rs IN) as [_ [Y2 _]]. destruct (Y2 c H) as [f' [PF' EX']]. rewrite PF in PF'. injection PF' as <-. destruct (knownCert_dec ks d s) as [K|K]; [left; apply (proj1 (EX' d s K)); exact HS|right; exact K].
  Qed.

  (** [all0] is an earlier record of what was uploaded. *)
  Definition older (all0 all : objects) : Prop :=
    (forall r, In r (ids all0) -> In r (ids all)) /\
    (forall r, In r (ids all0) -> done all0 r -> forall q, plookup (r :: q) all = plookup (r :: q) all0) /\
    (forall r, In r (ids all) -> In r (ids all0) \/ forall r', In r' (ids all0) -> before r' r).
  Lemma older_refl all : older all all.
  Proof. split; [auto|]. split; auto. Qed.
  Lemma older_step ws all st s ws' all' st' s' all0 : reach ws all st s -> pstep ws all st s ws' all' st' s' -> older all0 all -> older all0 all'.
  Proof.
    intros H PS OL. destruct (reach_inv' _ _ _ _ H) as [IV ST]. destruct PS as [ws all st s w NR GW|ws all p s f|ws all st s r' r2 l E|ws all st s keep|ws all st s l]; try exact OL.
    destruct (PipelineSystem.step_inv F has buildCascade buildClubcard fromBytes order listdir reasons marker parseTime Listdir ws all p s f IV (ST p eq_refl)) as [_ [_ OP]].
    pose proof (i_frame _ _ _ _ _ _ _ _ _ _ _ _ IV) as Fr. pose proof (named_run _ _ (f_named _ _ _ Fr)) as NA.
    destruct p as [b|k|q0 k|q0 c0 k|id k]; try exact OL. cbn [uploaded]. destruct (took f); [|exact OL]. destruct OL as [O1 [O2 O3]].
    destruct (OP q0 c0 k eq_refl) as [[y [x ->]]|[id [y [x [-> [R [NW ND]]]]]]].
    - assert (IX : forall r, In r (ids (pput (latest :: y :: x) c0 all)) <-> In r (ids all)) by (intros r; rewrite (ids_put _ _ _ _ _ _ NA (or_introl eq_refl)); tauto).
      split; [intros r I; apply IX; auto|]. split; [|intros r I; apply O3; apply IX; exact I].
      intros r I D q. rewrite put_other; [apply O2; assumption|]. intros E. injection E as -> _. apply O1 in I. apply (in_ids _ _ NA) in I. exact (run_no_latest latest (proj1 I) eq_refl).
    - assert (IX : forall r, In r (ids (pput (id :: y :: x) c0 all)) <-> In r (ids all) \/ r = id).
      { intros r. rewrite (ids_put _ _ _ _ _ _ NA (or_intror R)). pose proof (run_no_latest id R). tauto. }
      split; [intros r I; apply IX; auto|]. split.
      + intros r I D q. rewrite put_other; [apply O2; assumption|]. intros E. injection E as -> _. apply ND. unfold done. rewrite (O2 id I D). exact D.
      + intros r I. apply IX in I. destruct I as [I|I]; [apply O3; exact I|]. subst r. destruct (in_dec bytes_eq_dec id (ids all)) as [J|J]; [apply O3; exact J|].
        right. intros r' I'. destruct (NW r' (O1 r' I')) as [->|X]; [|exact X]. contradiction (J (O1 id I')).
  Qed.

  Lemma bucket_timely ws all o : inv ws all o -> timely (bucketOf parseTime all).
  Proof.
    intros IV. pose proof (i_frame _ _ _ _ _ _ _ _ _ _ _ _ IV) as Fr. split; [apply (all_sorted parseTime _ _ _ Fr)|]. intros r I. cbn [bucketOf b_ids b_ready b_time] in *. fold (ids all) in I.
    split; [apply (in_ids _ _ (named_run _ _ (f_named _ _ _ Fr))) in I; apply I|]. intros RD.
    destruct (i_done _ _ _ _ _ _ _ _ _ _ _ _ IV r I) as [w [t [p1 [p2 [a [p [_ [_ [GT [_ [OB _]]]]]]]]]]].
    { unfold done, sCompleted. destruct (plookup [r; B "completed"] all); [discriminate|discriminate RD]. }
    destruct GT as [_ [_ [c [z [FA PT]]]]]. exists z. assert (E : plookup [r; B "timestamp"] all = Some c) by (apply OB; left; exact FA). rewrite E. exact PT.
  Qed.
  Lemma bucket_tail ws all o : inv ws all o -> tailOf (bucketOf parseTime o) (bucketOf parseTime all).
  Proof.
    intros IV. pose proof (i_frame _ _ _ _ _ _ _ _ _ _ _ _ IV) as Fr. split; [apply (frame_tail parseTime _ _ _ Fr)|]. cbn [bucketOf b_ids b_ready b_time b_filter b_delta]. intros r I. fold (ids o) in I.
    rewrite !(f_same _ _ _ Fr r _ I). split; [reflexivity|]. intros _. split; [reflexivity|]. intros d. rewrite !(f_same _ _ _ Fr r _ I). auto.
  Qed.
  Lemma bucket_grows all0 all : older all0 all -> grows (fun r => In r (ids all0)) (bucketOf parseTime all0) (bucketOf parseTime all).
  Proof.
    intros [O1 [O2 O3]] r I. cbn [bucketOf b_ids b_ready b_time b_filter b_delta] in *. fold (ids all) in I. fold (ids all0). destruct (O3 r I) as [J|J]; [left|right; exact J]. split; [exact J|]. intros RD.
    assert (D : done all0 r) by (unfold done, sCompleted; destruct (plookup [r; B "completed"] all0); [discriminate|discriminate RD]).
    rewrite !(O2 r J D). split; [exact RD|]. split; [reflexivity|]. intros d. rewrite !(O2 r J D). auto.
  Qed.

  Section Publisher.
    Variables (fresh : list frec -> bytes) (listing : list frec -> list frec) (ch : channel).
    Hypothesis Fresh : forall l, ~ In (fresh l) (map r_id l).
    Hypothesis Listing : forall l, Permutation (listing l) l.
    Hypothesis PlainC : plain ch.
    Hypothesis AllC : c_dir ch = sAll.

    (** The pipeline and the publisher of a channel over the same bucket.  The
        publisher runs at any time, with any failures; while it runs the bucket
        stays as it is. *)
    Inductive joint : list world -> objects -> status -> pst -> server attrs -> Prop :=
    | j_start sv : chan ch (sv_recs sv) = [] -> NoDup (map r_id (sv_recs sv)) -> joint [] [] (Ended true) (mkP [] []) sv
    | j_pipeline ws all st s sv ws' all' st' s' : joint ws all st s sv -> pstep ws all st s ws' all' st' s' -> joint ws' all' st' s' sv
    | j_publish ws all st s sv fs : joint ws all st s sv ->
        joint ws all st s (snd (run fresh listing (publishCrlite false (bucketOf parseTime (p_objs s)) ch) sv fs))
    | j_other ws all st s sv sv' : joint ws all st s sv -> chan ch (sv_recs sv') = chan ch (sv_recs sv) -> NoDup (map r_id (sv_recs sv')) -> joint ws all st s sv'.

    Lemma joint_inv ws all st s sv : joint ws all st s sv -> reach ws all st s /\
      exists seen all0, history fresh listing ch seen (bucketOf parseTime all0) sv /\ (forall r, seen r <-> In r (ids all0)) /\ older all0 all.
    Proof.
      induction 1 as [sv C ND|ws all st s sv ws' all' st' s' J [RE [seen [all0 [H [SE OL]]]]] PS|ws all st s sv fs J [RE [seen [all0 [H [SE OL]]]]]|ws all st s sv sv' J [RE [seen [all0 [H [SE OL]]]]] C ND].
      - split; [apply reach_start|]. exists (fun _ => False), []. split; [apply HStart; [reflexivity|exact C|exact ND]|]. split; [intros r; split; [intros []|intros []]|]. apply older_refl.
      - split; [eapply reach_step; [exact RE|exact PS]|]. exists seen, all0. split; [exact H|]. split; [exact SE|]. exact (older_step _ _ _ _ _ _ _ _ _ RE PS OL).
      - split; [exact RE|]. destruct (reach_inv' _ _ _ _ RE) as [IV _]. eexists _, all. split; [|split; [|apply older_refl]].
        + apply (HRun fresh listing ch seen (bucketOf parseTime all0) sv (bucketOf parseTime all) (bucketOf parseTime (p_objs s)) fs H).
          * exact (bucket_timely _ _ _ IV).
          * intros r I. destruct (bucket_grows _ _ OL r I) as [X|X]; [left; exact X|right]. intros r' S'. apply X. apply SE. exact S'.
          * exact (bucket_tail _ _ _ IV).
        + intros r. cbn [bucketOf b_ids]. fold (ids all). rewrite SE. destruct OL as [O1 _]. split; [intros [X|X]; auto|auto].
      - split; [exact RE|]. exists seen, all0. split; [apply (HOther fresh listing ch seen _ sv sv' H C ND)|auto].
    Qed.

    Lemma sound_seen seen b recs xs : recoverable seen b ch recs -> sound b ch recs xs -> forall x, In x xs -> seen (itemRun x).
    Proof.
      intros [_ [AT _]] [l [P [PU FA]]] x Ix. destruct (publishes_runs ch l xs PlainC) as [RO [_ [HL _]]]; [apply FA|exact PU|].
      assert (I : In (itemRun x) (map itemRun xs)) by (apply in_map; exact Ix). revert I. generalize (itemRun x). intros r I.
      assert (X : exists z, In z l /\ runOf z r).
      { clear -RO I. revert I. induction RO as [|z q l m H F IH]; intros I; [destruct I|]. destruct I as [<-|I]; [exists z; split; [left; reflexivity|exact H]|]. destruct (IH I) as [w [J K]]. exists w. split; [right; exact J|exact K]. }
      destruct X as [z [Iz Rz]]. destruct (AT z (Permutation_in _ P Iz)) as [_ [_ [C|[run [C1 [C2 C3]]]]]]; [exfalso; destruct (HL z Iz) as [_ [HL2 _]]; exact (HL2 C)|].
      assert (r = run) by (eapply runOf_fun; [exact Rz|apply C3]). subst run. exact C2.
    Qed.

    Definition reports (xs : list item) (k : bytes) : Prop := exists x f, In x xs /\ fromBytes (snd x) = Ok (Some f) /\ has f k = true.

    Lemma sorted_split (l m : list item) x : StronglySorted before (map itemRun (l ++ x :: m)) -> (forall y, In y l -> before (itemRun y) (itemRun x)) /\ (forall y, In y m -> before (itemRun x) (itemRun y)).
    Proof.
      induction l as [|z l IH]; cbn [app map]; intros S; apply StronglySorted_inv in S; destruct S as [S1 S2].
      - split; [intros y []|]. intros y I. rewrite Forall_forall in S2. apply S2. apply in_map. exact I.
      - destruct (IH S1) as [A B0]. split; [|exact B0]. intros y [<-|I]; [|apply A; exact I]. rewrite Forall_forall in S2. apply S2. apply in_map. apply in_or_app. right. left. reflexivity.
    Qed.

    Lemma chain_reports ws all0 all o xs : allInputs ws -> inv ws all o -> older all0 all -> faithful (bucketOf parseTime all0) ch xs -> (forall x, In x xs -> In (itemRun x) (ids all0)) ->
      forall p x rest L, xs = p ++ x :: rest -> plookup (revsetOf (itemRun x)) all = Some (enRevset L) -> fits L -> forall k, In k L -> reports (p ++ [x]) k.
    Proof.
      intros AI IV [O1 [O2 O3]] FA LI. destruct FA as [SO [_ FA]].
      assert (BASE : forall x, In x xs -> b_ready (bucketOf parseTime all0) (itemRun x) = true -> done all0 (itemRun x) /\ finished ws all (itemRun x)).
      { intros x I RD. assert (D : done all0 (itemRun x)) by (unfold done, sCompleted; cbn [bucketOf b_ready] in RD; destruct (plookup [itemRun x; B "completed"] all0); [discriminate|discriminate RD]).
        split; [exact D|]. apply (i_done _ _ _ _ _ _ _ _ _ _ _ _ IV); [apply O1, LI, I|]. unfold done. rewrite (O2 _ (LI x I) D). exact D. }
      induction p as [|x' p IH] using rev_ind; intros x rest L E RS FI k K.
      - cbn [app] in *. subst xs. destruct FA as [G1 _]. destruct (G1 (LI x (or_introl eq_refl))) as [RD [_ BF]]. destruct (BASE x (or_introl eq_refl) RD) as [D Fi].
        destruct (run_keys _ _ _ AI Fi) as [L' [w [t [n [RS' [FI' [_ [_ [_ [_ [FL _]]]]]]]]]]]. assert (EL : enRevset L = enRevset L') by congruence.
        assert (L = L') by (pose proof (de_en L [] FI) as A; pose proof (de_en L' [] FI') as B0; rewrite app_nil_r in A, B0; rewrite EL in A; congruence). subst L'.
        destruct (FL (snd x)) as [f [PF [HS _]]].
        { rewrite (O2 _ (LI x (or_introl eq_refl)) D). cbn [bucketOf b_filter] in BF. rewrite AllC in BF. exact BF. }
        exists x, f. split; [left; reflexivity|]. split; [exact PF|]. apply HS. exact K.
      - rewrite <- app_assoc in E. cbn [app] in E.
        assert (Ix : In x xs) by (rewrite E; apply in_or_app; right; right; left; reflexivity). assert (Ix' : In x' xs) by (rewrite E; apply in_or_app; right; left; reflexivity).
        assert (DEL : In x (tl xs)).
        { rewrite E. destruct p as [|x0 p]; cbn [app tl]; [left; reflexivity|]. apply in_or_app. right. right. left. reflexivity. }
        assert (RD' : b_ready (bucketOf parseTime all0) (itemRun x') = true).
        { destruct xs as [|x0 xs]; [destruct Ix'|]. destruct FA as [G1 [G2 _]]. destruct Ix' as [->|I]; [apply G1, LI; left; reflexivity|apply (G2 x' I), LI; right; exact I]. }
        assert (RB : b_ready (bucketOf parseTime all0) (itemRun x) = true /\ b_delta (bucketOf parseTime all0) (itemRun x) (c_dir ch) = Some (snd x)).
        { destruct xs as [|x0 xs]; [destruct Ix|]. destruct FA as [_ [G2 _]]. destruct (G2 x DEL (LI x Ix)) as [A [_ B0]]. auto. }
        destruct RB as [RD BD]. destruct (BASE x Ix RD) as [D Fi]. destruct (BASE x' Ix' RD') as [D' Fi'].
        destruct (run_keys _ _ _ AI Fi) as [L1 [w [t [n [RS1 [FI1 [_ [_ [_ [_ [_ DL]]]]]]]]]]]. assert (EL : enRevset L = enRevset L1) by congruence.
        assert (L = L1) by (pose proof (de_en L [] FI) as A; pose proof (de_en L1 [] FI1) as B0; rewrite app_nil_r in A, B0; rewrite EL in A; congruence). subst L1.
        destruct (DL (snd x)) as [p1 [f [P1 [PF [HS _]]]]].
        { rewrite (O2 _ (LI x Ix) D). cbn [bucketOf b_delta] in BD. rewrite AllC in BD. exact BD. }
        destruct (in_dec bytes_eq_dec k (prevSet p1)) as [IP|IP].
        2:{ exists x, f. split; [apply in_or_app; right; left; reflexivity|]. split; [exact PF|]. apply HS; assumption. }
        destruct (run_keys _ _ _ AI Fi') as [L' [w' [t' [n' [RS' [FI' _]]]]]].
        rewrite E in SO. pose proof (sorted_split p (x :: rest) x' SO) as [S1 S2].
        pose proof (sorted_split (p ++ [x']) rest x) as S3. rewrite <- app_assoc in S3. specialize (S3 SO). destruct S3 as [S3 S4].
        destruct (P1 (itemRun x')) as [N|N].
        + apply O1, LI, Ix'.
        + apply S2. left. reflexivity.
        + intros r' I' B'. assert (J : In r' (ids all0)).
          { destruct (O3 r' I') as [J|J]; [exact J|]. exfalso. exact (before_asym _ _ B' (J _ (LI x Ix))). }
          destruct (f_apart _ _ _ (i_frame _ _ _ _ _ _ _ _ _ _ _ _ IV) r' (itemRun x') I' (O1 _ (LI x' Ix'))) as [X|[X|X]]; [left; exact X|right; exact X|]. exfalso.
          (* a run between two neighbours of the chain *)
          assert (IN : In r' (map itemRun xs)).
          { rewrite E in *. clear E. destruct (p ++ x' :: x :: rest) as [|x0 xs'] eqn:E0; [destruct p; discriminate E0|]. destruct FA as [_ [_ G3]].
            destruct (exists_last (l := x0 :: xs')) as [m [y Em]]; [discriminate|].
            apply (G3 r' y); [rewrite Em; apply lastOf_some; exists m; reflexivity|exact J| |].
            - intros Y. assert (Z : itemRun x0 = itemRun x' \/ before (itemRun x0) (itemRun x')).
              { destruct p as [|z p]; cbn [app] in E0; injection E0 as <- _; [left; reflexivity|right; apply S1; left; reflexivity]. }
              destruct Z as [Z|Z]; [rewrite Z in Y; exact (before_asym _ _ X Y)|exact (before_irrefl _ (before_trans _ _ _ (before_trans _ _ _ Y Z) X))].
            - intros Y. assert (Z : itemRun y = itemRun x \/ before (itemRun x) (itemRun y)).
              { rewrite Em in E0. destruct rest as [|z rest] using rev_ind; [|clear IHrest].
                - left. assert (E1 : (p ++ [x']) ++ [x] = m ++ [y]) by (rewrite <- app_assoc; exact E0). apply app_inj_tail in E1. destruct E1 as [_ ->]. reflexivity.
                - right. assert (E1 : (p ++ x' :: x :: rest) ++ [z] = m ++ [y]) by (rewrite <- app_assoc; exact E0). apply app_inj_tail in E1. destruct E1 as [_ ->]. apply S4. apply in_or_app. right. left. reflexivity. }
              destruct Z as [Z|Z]; [rewrite Z in Y; exact (before_asym _ _ B' Y)|exact (before_irrefl _ (before_trans _ _ _ (before_trans _ _ _ B' Z) Y))]. }
          rewrite E, map_app in IN. apply in_app_iff in IN. cbn [map In] in IN. destruct IN as [IN|[IN|[IN|IN]]].
          * apply in_map_iff in IN. destruct IN as [z [<- Iz]]. exact (before_asym _ _ X (S1 z Iz)).
          * subst r'. exact (before_irrefl _ X).
          * subst r'. exact (before_irrefl _ B').
          * apply in_map_iff in IN. destruct IN as [z [<- Iz]]. exact (before_asym _ _ B' (S4 z Iz)).
        + unfold done. rewrite (O2 _ (LI x' Ix') D'). exact D'.
        + subst p1. destruct IP.
        + rewrite N, RS' in IP. cbn [prevSet] in IP. pose proof (de_en L' [] FI') as DE. rewrite app_nil_r in DE. rewrite DE in IP.
          destruct (IH x' (x :: rest) L' E RS' FI' k IP) as [z [g [Iz Hz]]]. exists z, g. split; [|exact Hz]. apply in_or_app. left. exact Iz.
    Qed.

    (** Every record holds a filter that was built from the inputs of a run and that
        does not report a certificate that is known there and not revoked. *)
    Lemma chain_exact ws all0 all o xs : allInputs ws -> inv ws all o -> older all0 all -> faithful (bucketOf parseTime all0) ch xs -> (forall x, In x xs -> In (itemRun x) (ids all0)) ->
      forall x, In x xs -> exists w t n f, In w ws /\ w_tree w = Some t /\ runId (itemRun x) (w_today w) n /\ fromBytes (snd x) = Ok (Some f) /\
        forall ks rs, inputs t ks rs -> forall d s, has f (d ++ s) = true -> revokedCert RAll rs d s \/ ~ knownCert ks d s.
    Proof.
      intros AI IV [O1 [O2 O3]] [SO [_ FA]] LI x Ix.
      assert (BASE : b_ready (bucketOf parseTime all0) (itemRun x) = true -> done all0 (itemRun x) /\ finished ws all (itemRun x)).
      { intros RD. assert (D : done all0 (itemRun x)) by (unfold done, sCompleted; cbn [bucketOf b_ready] in RD; destruct (plookup [itemRun x; B "completed"] all0); [discriminate|discriminate RD]).
        split; [exact D|]. apply (i_done _ _ _ _ _ _ _ _ _ _ _ _ IV); [apply O1, LI, Ix|]. unfold done. rewrite (O2 _ (LI x Ix) D). exact D. }
      assert (K : b_ready (bucketOf parseTime all0) (itemRun x) = true /\ (b_filter (bucketOf parseTime all0) (itemRun x) (c_dir ch) = Some (snd x) \/ b_delta (bucketOf parseTime all0) (itemRun x) (c_dir ch) = Some (snd x))).
      { destruct xs as [|x0 xs]; [destruct Ix|]. destruct FA as [G1 [G2 _]]. pose proof (LI x Ix) as J. destruct Ix as [->|I]; [destruct (G1 J) as [A [_ B0]]; auto|destruct (G2 x I J) as [A [_ B0]]; auto]. }
      destruct K as [RD K]. destruct (BASE RD) as [D Fi]. destruct (run_keys _ _ _ AI Fi) as [L [w [t [n [_ [_ [IW [WT [RN [_ [FL DL]]]]]]]]]]].
      destruct K as [K|K]; cbn [bucketOf b_filter b_delta] in K; rewrite AllC, <- (O2 _ (LI x Ix) D) in K.
      - destruct (FL _ K) as [f [PF [_ EX]]]. exists w, t, n, f. auto.
      - destruct (DL _ K) as [p1 [f [_ [PF [_ EX]]]]]. exists w, t, n, f. auto.
    Qed.

    (** What a client that takes all records of the channel can tell. *)
    Definition clientReports (recs : list frec) (k : bytes) : Prop :=
      exists r name data f, In r (chan ch recs) /\ r_att r = Some (name, data) /\ fromBytes data = Ok (Some f) /\ has f k = true.
    (** The newest run that the records of the channel are from. *)
    Definition upTo (recs : list frec) (run : bytes) : Prop :=
      (exists r, In r (chan ch recs) /\ runOf r run) /\ forall r run', In r (chan ch recs) -> runOf r run' -> run' = run \/ before run' run.

    Lemma publishes_att l xs : Forall isRun (map itemRun xs) -> publishes ch l xs ->
      (forall x, In x xs -> exists r nm, In r l /\ r_att r = Some (nm, snd x)) /\ (forall r, In r l -> exists x nm, In x xs /\ r_att r = Some (nm, snd x) /\ runOf r (itemRun x)).
    Proof.
      assert (G : forall xs l id, Forall isRun (map itemRun xs) -> deltas ch id l xs ->
        (forall x, In x xs -> exists r nm, In r l /\ r_att r = Some (nm, snd x)) /\ (forall r, In r l -> exists x nm, In x xs /\ r_att r = Some (nm, snd x) /\ runOf r (itemRun x))).
      { clear xs l. induction xs as [|x xs IH]; intros [|r l] id FR H; cbn [deltas] in H; try contradiction; [split; intros ? []|]. destruct H as [RO H]. cbn [map] in FR. apply Forall_cons_iff in FR. destruct FR as [R0 FR].
        pose proof (recordOf_facts _ _ _ _ _ PlainC R0 RO) as [_ [_ [_ [_ [_ RF]]]]]. destruct RO as [_ A]. destruct (IH _ _ FR H) as [B1 B2]. split.
        - intros y [<-|I]; [eexists r, _; split; [left; reflexivity|exact A]|]. destruct (B1 y I) as [r' [nm [J K]]]. exists r', nm. split; [right; exact J|exact K].
        - intros r' [<-|I]; [eexists x, _; split; [left; reflexivity|split; [exact A|exact RF]]|]. destruct (B2 r' I) as [y [nm [J K]]]. exists y, nm. split; [right; exact J|exact K]. }
      destruct l as [|r l], xs as [|x xs]; cbn [publishes]; try contradiction. intros FR [RO H]. cbn [map] in FR. apply Forall_cons_iff in FR. destruct FR as [R0 FR].
      pose proof (recordOf_facts _ _ _ _ _ PlainC R0 RO) as [_ [_ [_ [_ [_ RF]]]]]. destruct RO as [_ A]. destruct (G _ _ _ FR H) as [B1 B2]. split.
      - intros y [<-|I]; [eexists r, _; split; [left; reflexivity|exact A]|]. destruct (B1 y I) as [r' [nm [J K]]]. exists r', nm. split; [right; exact J|exact K].
      - intros r' [<-|I]; [eexists x, _; split; [left; reflexivity|split; [exact A|exact RF]]|]. destruct (B2 r' I) as [y [nm [J K]]]. exists y, nm. split; [right; exact J|exact K].
    Qed.

    Lemma sound_upTo b recs xs y : sound b ch recs xs -> lastOf xs = Some y -> upTo recs (itemRun y).
    Proof.
      intros [l [P [PU FA]]] LY. destruct FA as [SO [RU _]]. apply (proj1 (lastOf_some _ _)) in LY. destruct LY as [m Em]. destruct (publishes_runs ch l xs PlainC RU PU) as [RO _].
      assert (Iy : In y xs) by (rewrite Em; apply in_or_app; right; left; reflexivity).
      assert (LR : forall x, In x xs -> exists r, In r l /\ runOf r (itemRun x)).
      { intros x I. apply (in_map itemRun) in I. revert I. generalize (itemRun x). clear -RO. intros q. induction RO as [|z q0 l m H G IH]; intros I; [destruct I|]. destruct I as [<-|I]; [exists z; split; [left; reflexivity|exact H]|]. destruct (IH I) as [v [J K]]. exists v. split; [right; exact J|exact K]. }
      assert (RL : forall r, In r l -> exists x, In x xs /\ runOf r (itemRun x)) by (intros r I; destruct (proj2 (publishes_att _ _ RU PU) r I) as [x [nm [Ix [_ K]]]]; exists x; auto).
      split.
      - destruct (LR y Iy) as [r [I J]]. exists r. split; [apply (Permutation_in _ P); exact I|exact J].
      - intros r run' I J. apply (Permutation_in _ (Permutation_sym P)) in I. destruct (RL r I) as [x [Ix K]]. rewrite (runOf_fun _ _ _ J K). rewrite Em in Ix, SO. destruct (sorted_split m [] y SO) as [S1 _].
        apply in_app_iff in Ix. destruct Ix as [Ix|[<-|[]]]; [right; apply S1; exact Ix|left; reflexivity].
    Qed.

    Lemma sound_client ws all0 all o (seen : bytes -> Prop) recs xs : allInputs ws -> inv ws all o -> older all0 all -> (forall r, seen r -> In r (ids all0)) -> recoverable seen (bucketOf parseTime all0) ch recs ->
      sound (bucketOf parseTime all0) ch recs xs ->
      (exists y w t n, lastOf xs = Some y /\ upTo recs (itemRun y) /\ In w ws /\ w_tree w = Some t /\ runId (itemRun y) (w_today w) n /\
        forall ks rs, inputs t ks rs -> forall d s, knownCert ks d s -> revokedCert RAll rs d s -> clientReports recs (d ++ s)) /\
      (forall r name data, In r (chan ch recs) -> r_att r = Some (name, data) -> exists f w t run n, fromBytes data = Ok (Some f) /\ runOf r run /\ In w ws /\ w_tree w = Some t /\ runId run (w_today w) n /\
        forall ks rs, inputs t ks rs -> forall d s, has f (d ++ s) = true -> revokedCert RAll rs d s \/ ~ knownCert ks d s).
    Proof.
      intros AI IV OL SE RC SD. assert (LI : forall x, In x xs -> In (itemRun x) (ids all0)) by (intros x I; apply SE; exact (sound_seen _ _ _ _ RC SD x I)).
      destruct SD as [l [P [PU FA]]]. pose proof FA as [SO [RU _]]. destruct (publishes_att _ _ RU PU) as [A1 A2]. destruct (publishes_runs ch l xs PlainC RU PU) as [RO _].
      split.
      - destruct (exists_last (l := xs)) as [m [y Em]]; [intros ->; destruct l; exact PU|].
        assert (Iy : In y xs) by (rewrite Em; apply in_or_app; right; left; reflexivity).
        assert (Fi : exists L w t n, plookup (revsetOf (itemRun y)) all = Some (enRevset L) /\ fits L /\ In w ws /\ w_tree w = Some t /\ runId (itemRun y) (w_today w) n /\
          (forall ks rs, inputs t ks rs -> forall k, In k L <-> exists d s, k = d ++ s /\ knownCert ks d s /\ revokedCert RAll rs d s)).
        { destruct OL as [O1 [O2 O3]]. destruct FA as [_ [_ FA]].
          assert (RD : b_ready (bucketOf parseTime all0) (itemRun y) = true).
          { destruct xs as [|x0 xs]; [destruct Iy|]. destruct FA as [G1 [G2 _]]. pose proof (LI y Iy) as J. destruct Iy as [->|I]; [apply (G1 J)|apply (G2 y I J)]. }
          assert (D : done all0 (itemRun y)) by (unfold done, sCompleted; cbn [bucketOf b_ready] in RD; destruct (plookup [itemRun y; B "completed"] all0); [discriminate|discriminate RD]).
          assert (FF : finished ws all (itemRun y)) by (apply (i_done _ _ _ _ _ _ _ _ _ _ _ _ IV); [apply O1, LI, Iy|unfold done; rewrite (O2 _ (LI y Iy) D); exact D]).
          destruct (run_keys _ _ _ AI FF) as [L [w [t [n [X1 [X2 [X3 [X4 [X5 [X6 _]]]]]]]]]]. exists L, w, t, n. repeat (split; [assumption|]). assumption. }
        destruct Fi as [L [w [t [n [X1 [X2 [X3 [X4 [X5 X6]]]]]]]]]. exists y, w, t, n. split; [rewrite Em; apply lastOf_some; exists m; reflexivity|]. split; [|split; [exact X3|]; split; [exact X4|]; split; [exact X5|]].
        + apply (sound_upTo (bucketOf parseTime all0) recs xs y); [exists l; auto|rewrite Em; apply lastOf_some; exists m; reflexivity].
        + intros ks rs IN d s K R. assert (KL : In (d ++ s) L) by (apply (X6 ks rs IN); exists d, s; auto).
          destruct (chain_reports ws all0 all o xs AI IV OL FA LI m y [] L Em X1 X2 (d ++ s) KL) as [x [f [Ix [PF HS]]]]. rewrite <- Em in Ix. destruct (A1 x Ix) as [r [nm [Ir AT]]].
          exists r, nm, (snd x), f. split; [apply (Permutation_in _ P); exact Ir|]. auto.
      - intros r nm data Ir AT. apply (Permutation_in _ (Permutation_sym P)) in Ir.
        destruct (A2 r Ir) as [x [nm' [Ix [AT' RF]]]]. rewrite AT in AT'. injection AT' as -> ->.
        destruct (chain_exact ws all0 all o xs AI IV OL FA LI x Ix) as [w [t [n [f [IW [WT [RN [PF EX]]]]]]]]. exists f, w, t, (itemRun x), n. split; [exact PF|]. split; [exact RF|]. auto.
    Qed.

    (** At any time, records of the channel that form a chain report every revocation
        of the newest run they are from, whether or not that run, or the ones before
        it, are still in the bucket. *)
    Theorem C61_nothing_is_lost : forall ws all st s sv, joint ws all st s sv -> allInputs ws -> verifyRecords ch (sv_recs sv) = Val tt ->
      chan ch (sv_recs sv) = [] \/
      exists run w t n, upTo (sv_recs sv) run /\ In w ws /\ w_tree w = Some t /\ runId run (w_today w) n /\
        forall ks rs, inputs t ks rs -> forall d s, knownCert ks d s -> revokedCert RAll rs d s -> clientReports (sv_recs sv) (d ++ s).
    Proof.
      intros ws all st s sv J AI V. destruct (joint_inv _ _ _ _ _ J) as [RE [seen [all0 [H [SE OL]]]]]. destruct (reach_inv' _ _ _ _ RE) as [IV _].
      destruct (C45_accepted_is_sound fresh listing ch Fresh Listing PlainC _ _ _ H V) as [E|[xs SD]]; [left; exact E|right].
      pose proof (history_recoverable fresh listing ch Fresh Listing PlainC _ _ _ H) as RC.
      destruct (sound_client ws all0 all (p_objs s) seen (sv_recs sv) xs AI IV OL (fun r => proj1 (SE r)) RC SD) as [[y [w [t [n [_ [A [B0 [C [D E]]]]]]]]] _]. exists (itemRun y), w, t, n. auto.
    Qed.
    Theorem C61_nothing_is_invented : forall ws all st s sv, joint ws all st s sv -> allInputs ws -> verifyRecords ch (sv_recs sv) = Val tt ->
      forall r name data, In r (chan ch (sv_recs sv)) -> r_att r = Some (name, data) ->
      exists f w t run n, fromBytes data = Ok (Some f) /\ runOf r run /\ In w ws /\ w_tree w = Some t /\ runId run (w_today w) n /\
        forall ks rs, inputs t ks rs -> forall d s, has f (d ++ s) = true -> revokedCert RAll rs d s \/ ~ knownCert ks d s.
    Proof.
      intros ws all st s sv J AI V r name data I AT. destruct (joint_inv _ _ _ _ _ J) as [RE [seen [all0 [H [SE OL]]]]]. destruct (reach_inv' _ _ _ _ RE) as [IV _].
      destruct (C45_accepted_is_sound fresh listing ch Fresh Listing PlainC _ _ _ H V) as [E|[xs SD]]; [rewrite E in I; destruct I|].
      pose proof (history_recoverable fresh listing ch Fresh Listing PlainC _ _ _ H) as RC.
      destruct (sound_client ws all0 all (p_objs s) seen (sv_recs sv) xs AI IV OL (fun r => proj1 (SE r)) RC SD) as [_ K]. apply (K r name data I AT).
    Qed.
    (** And a run of the publisher without failures, at any time, brings the records
        up to the newest run of the bucket, if that is completed. *)
    Theorem C61_up_to_date : forall ws all st s sv new, joint ws all st s sv -> lastOf (ids (p_objs s)) = Some new -> done (p_objs s) new ->
      (forall r, isRun r -> done (p_objs s) r -> plookup [r; sAll; B "filter.delta"] (p_objs s) <> None) ->
      exists v sv', run fresh listing (publishCrlite false (bucketOf parseTime (p_objs s)) ch) sv [] = (Done v, sv') /\ verifyRecords ch (sv_recs sv') = Val tt /\ upTo (sv_recs sv') new.
    Proof.
      intros ws all st s sv new J L D DE. pose proof (j_publish _ _ _ _ _ [] J) as J'. destruct (joint_inv _ _ _ _ _ J) as [RE [seen [all0 [H [SE OL]]]]]. destruct (reach_inv' _ _ _ _ RE) as [IV _].
      pose proof (i_frame _ _ _ _ _ _ _ _ _ _ _ _ IV) as Fr.
      destruct (C45_recovers fresh listing ch Fresh Listing PlainC seen (bucketOf parseTime all0) sv (bucketOf parseTime all) (bucketOf parseTime (p_objs s)) new H) as [v [sv' [E [[xs [y [SD [LY EY]]]] _]]]].
      - exact (bucket_timely _ _ _ IV).
      - intros r I. destruct (bucket_grows _ _ OL r I) as [X|X]; [left; exact X|right]. intros r' S'. apply X. apply SE. exact S'.
      - exact (bucket_tail _ _ _ IV).
      - intros r I RD. cbn [bucketOf b_ids b_ready b_filter b_delta] in *. fold (ids (p_objs s)) in I. rewrite AllC.
        assert (DR : done (p_objs s) r) by (unfold done, sCompleted; destruct (plookup [r; B "completed"] (p_objs s)); [discriminate|discriminate RD]).
        assert (R : isRun r) by (apply (in_ids _ _ (named_run _ _ (frame_named_o _ _ _ Fr))) in I; apply I). split; [|apply DE; assumption].
        destruct (C59_whole _ _ _ _ _ RE R DR) as [w [n [t [p1 [p2 [a [p [_ [_ [[_ [BA [_ HF]]] OB]]]]]]]]]].
        destruct (hasFilter_file _ _ _ _ _ BA HF) as [c FA].
        assert (E : plookup [r; sAll; B "filter"] (p_objs s) = Some c) by (apply OB; right; left; exists [B "filter"]; auto). rewrite E. discriminate.
      - exact L.
      - cbn [bucketOf b_ready]. unfold done, sCompleted in D. destruct (plookup [new; B "completed"] (p_objs s)); [reflexivity|contradiction D; reflexivity].
      - exists v, sv'. split; [exact E|]. split; [|rewrite <- EY; apply (sound_upTo _ _ _ _ SD LY)].
        rewrite E in J'. cbn [snd] in J'. destruct (joint_inv _ _ _ _ _ J') as [_ [seen' [all' [H' _]]]]. pose proof (history_recoverable fresh listing ch Fresh Listing PlainC _ _ _ H') as [ND _].
        apply C43_accepts. right. destruct SD as [l [P [PU [_ [RU _]]]]]. destruct (publishes_runs ch l xs PlainC RU PU) as [_ [CH [AT _]]]. exists l. split; [exact P|]. split; [exact CH|]. split; [|intros r I; apply (AT r I)].
        apply (Permutation_NoDup (Permutation_map r_id (Permutation_sym P))). clear -ND. unfold chan. induction (sv_recs sv') as [|r m IH]; [constructor|]. cbn [map] in ND. apply NoDup_cons_iff in ND. destruct ND as [N ND]. cbn [filter]. destruct (inChannel ch r); [|apply IH; exact ND].
        cbn [map]. constructor; [|apply IH; exact ND]. intros I. apply N. apply in_map_iff in I. destruct I as [z [<- I]]. apply filter_In in I. apply in_map. apply I.
    Qed.
  End Publisher.
End Pipeline.
Print Assumptions C59_whole.
Print Assumptions C59_unchanged.
Print Assumptions C59_completes.
Print Assumptions C59_success.
Print Assumptions C60_delta.
Print Assumptions C60_stash.
Print Assumptions C60_difference.
Print Assumptions C61_nothing_is_lost.
Print Assumptions C61_nothing_is_invented.
Print Assumptions C61_up_to_date.

(** ** Examples, and what does not hold *)

Definition toyClub (ct : bytes) := toyClubcard.
Definition toyTime (b : bytes) : option Z := Some (Z.of_N (valueOf b)).
Definition toyReasons (set : reasonSet) (revoked known : dir) : bytes := B "reason".
Definition toyReach := reach (list bytes) toyHas toyCascade toyClub toyFromBytes (fun l => l) (fun f => f) toyReasons (B "now") toyTime.
Definition toyPstep := pstep (list bytes) toyHas toyCascade toyClub toyFromBytes (fun l => l) (fun f => f) toyReasons (B "now") toyTime.
Definition toyGenerate := generate (list bytes) toyHas toyCascade toyClub toyFromBytes (fun l => l) (fun f => f) toyReasons (B "now").
Definition toyJoint := joint (list bytes) toyHas toyCascade toyClub toyFromBytes (fun l => l) (fun f => f) toyReasons (B "now") toyTime.

Definition filesOf (d : dir) : folder := map (fun e => (fst e, Plain (snd e))) d.
Definition xTree (time : bytes) (rs : revokedSrc) : tree :=
  [([], [(B "timestamp", Plain time); (B "ct-logs.json", Plain (B "[]")); (B "enrolled.json", Plain (B "[]"))]);
   ([B "known"], filesOf (goKnown zKs)); ([B "revoked"], filesOf (goRevoked rs)); ([B "log"], [(B "aggregate-crls.INFO", Link)])].
Lemma plain_filesOf d : plainOf (filesOf d) = d.
Proof. unfold plainOf, filesOf. induction d as [|[n c] d IH]; [reflexivity|]. cbn [map flat_map fst snd app]. rewrite IH. reflexivity. Qed.
Fixpoint nodupb {A} (eq : A -> A -> bool) (l : list A) : bool := match l with [] => true | x :: l' => negb (existsb (eq x) l') && nodupb eq l' end.
Lemma nodupb_spec {A} (eq : A -> A -> bool) : (forall x, eq x x = true) -> forall l, nodupb eq l = true -> NoDup l.
Proof.
  intros R. induction l as [|x l IH]; intros H; [constructor|]. cbn [nodupb] in H. apply andb_true_iff in H. destruct H as [H1 H2]. constructor; [|apply IH; exact H2].
  intros I. apply negb_true_iff in H1. apply not_true_iff_false in H1. apply H1. apply existsb_exists. exists x. auto.
Qed.
Lemma xGood time rs : In rs [zRs; zRs1; zRs2] -> goodTree toyTime (xTree time rs).
Proof.
  intros I. assert (ND : NoDup (map fst (filesOf (goRevoked rs)))) by (destruct I as [<-|[<-|[<-|[]]]]; apply (nodupb_spec beq beq_refl); vm_compute; reflexivity).
  split; [|split].
  - split; [apply (nodupb_spec peq peq_refl); vm_compute; reflexivity|]. intros d f [E|[E|[E|[E|[]]]]]; injection E as <- <-; [apply (nodupb_spec beq beq_refl); vm_compute; reflexivity|apply (nodupb_spec beq beq_refl); vm_compute; reflexivity|exact ND|apply (nodupb_spec beq beq_refl); vm_compute; reflexivity].
  - intros d f [E|[E|[E|[E|[]]]]]; injection E as <- <-; [|split; vm_compute; discriminate|split; vm_compute; discriminate|split; vm_compute; discriminate].
    cbn [map fst In]. intros [X|[X|[X|[]]]]; revert X; vm_compute; discriminate.
  - exists time, (Z.of_N (valueOf time)). split; [|reflexivity]. eexists [], _, (B "timestamp"). split; [reflexivity|]. split; [left; reflexivity|]. left. reflexivity.
Qed.
Lemma xInputs time rs : In rs [zRs; zRs1; zRs2] -> inputs (xTree time rs) zKs rs.
Proof.
  intros I. exists (filesOf (goKnown zKs)), (filesOf (goRevoked rs)). split; [reflexivity|]. split; [reflexivity|]. rewrite !plain_filesOf. split; [reflexivity|]. split; [reflexivity|]. split; [apply zGood|]. split.
  - destruct I as [<-|[<-|[<-|[]]]]; [apply zGood|apply zGood2|apply zGood2].
  - split; [vm_compute; reflexivity|]. intros k X. repeat (destruct X as [<-|X]; [vm_compute; reflexivity|]). destruct X.
Qed.
Lemma xAll ws : (forall w, In w ws -> exists time rs, In rs [zRs; zRs1; zRs2] /\ w_tree w = Some (xTree time rs)) -> allInputs ws.
Proof. intros H w t I E. destruct (H w I) as [time [rs [J E']]]. rewrite E in E'. injection E' as ->. exists zKs, rs. apply xInputs. exact J. Qed.

(** Calls with the given failures, and without any once these are used up. *)
Fixpoint drive (fuel : nat) (fs : list gfault) (all : objects) (st : status) (s : pst) : objects * status * pst :=
  match fuel, st with
  | S n, Running p => let f := hd Works fs in drive n (tl fs) (uploaded p f all) (fst (gstep p s f)) (snd (gstep p s f))
  | _, _ => (all, st, s)
  end.
Lemma drive_reach ws : forall fuel fs all st s, toyReach ws all st s -> toyReach ws (fst (fst (drive fuel fs all st s))) (snd (fst (drive fuel fs all st s))) (snd (drive fuel fs all st s)).
Proof.
  induction fuel as [|fuel IH]; intros fs all st s H; [exact H|]. cbn [drive]. destruct st as [p|b|]; [|exact H|exact H]. apply IH. eapply reach_step; [exact H|]. apply p_call.
Qed.
Definition w1 := mkWorld (B "20260101") (Some (xTree (B "1000") zRs)) true true true.
Definition w2 := mkWorld (B "20260101") (Some (xTree (B "2000") zRs1)) true true true.
Definition w3 := mkWorld (B "20260102") (Some (xTree (B "3000") zRs2)) true true true.
Definition after (x : objects * status * pst) (w : world) (fs : list gfault) := drive 100 fs (fst (fst x)) (Running (toyGenerate w)) (snd x).
Definition x0 : objects * status * pst := ([], Ended true, mkP [] []).
Definition x1 := after x0 w1 [].
(** The second run dies during the upload of its inputs. *)
Definition x2 := after x1 w2 [Works; Works; Works; Works; Dies true].
Definition x3 := after x2 w3 [].
(** The second run goes well. *)
Definition y2 := after x1 w2 [].
Definition at_ (ws : list world) (x : objects * status * pst) : Prop := toyReach ws (fst (fst x)) (snd (fst x)) (snd x).
Lemma at0 : at_ [] x0.
Proof. apply reach_start. Qed.
Lemma at_after ws x w fs : at_ ws x -> (forall p, snd (fst x) <> Running p) -> goodWorld toyTime ws w -> at_ (w :: ws) (after x w fs).
Proof. intros H N G. unfold at_, after. apply drive_reach. eapply reach_step; [exact H|]. apply p_run; assumption. Qed.
Lemma good1 : goodWorld toyTime [] w1.
Proof. split; [reflexivity|]. split; [reflexivity|]. split; [intros w' []|]. split; [|vm_compute; reflexivity]. intros t E. injection E as <-. apply xGood. cbn; auto. Qed.
Lemma good2 : goodWorld toyTime [w1] w2.
Proof. split; [reflexivity|]. split; [reflexivity|]. split; [intros w' [<-|[]]; vm_compute; discriminate|]. split; [|vm_compute; reflexivity]. intros t E. injection E as <-. apply xGood. cbn; auto. Qed.
Lemma good3 : goodWorld toyTime [w2; w1] w3.
Proof. split; [reflexivity|]. split; [reflexivity|]. split; [intros w' [<-|[<-|[]]]; vm_compute; discriminate|]. split; [|vm_compute; reflexivity]. intros t E. injection E as <-. apply xGood. cbn; auto. Qed.
Lemma at1 : at_ [w1] x1.
Proof. apply at_after; [exact at0|intros p; discriminate|exact good1]. Qed.
Lemma at2 : at_ [w2; w1] x2.
Proof. apply at_after; [exact at1|intros p; vm_compute; discriminate|exact good2]. Qed.
Lemma at3 : at_ [w3; w2; w1] x3.
Proof. apply at_after; [exact at2|intros p; vm_compute; discriminate|exact good3]. Qed.
Lemma aty2 : at_ [w2; w1] y2.
Proof. apply at_after; [exact at1|intros p; vm_compute; discriminate|exact good2]. Qed.

Definition k1 := B "20260101-0".
Definition k2 := B "20260101-1".
Definition k3 := B "20260102-0".
Definition objs (x : objects * status * pst) := p_objs (snd x).
Example C59_example :
  at_ [w3; w2; w1] x3 /\ ids (objs x3) = [k1; k2; k3] /\ done (objs x3) k1 /\ ~ done (objs x3) k2 /\ done (objs x3) k3 /\
  snd (fst x2) = Dead /\ map fst (filter (fun e => under k2 (fst e)) (objs x3)) = [[k2; B "enrolled.json"]; [k2; B "ct-logs.json"]; [k2; B "timestamp"]] /\
  plookup [k3; B "timestamp"] (objs x3) = Some (B "3000") /\ plookup [k3; sAll; B "filter"] (objs x3) <> None.
Proof.
  split; [exact at3|]. split; [vm_compute; reflexivity|]. split; [vm_compute; discriminate|]. split; [intros H; apply H; vm_compute; reflexivity|]. split; [vm_compute; discriminate|]. split; [vm_compute; reflexivity|]. split; [vm_compute; reflexivity|].
  split; [vm_compute; reflexivity|vm_compute; discriminate].
Qed.
(** The theorem that runs are completed applies to the third run. *)
Example C59_completes_example : exists r n s', smooth (toyGenerate w3) (mkP (p_objs (snd x2)) []) = (true, s') /\ runId r (w_today w3) n /\ lastOf (ids (p_objs s')) = Some r /\ done (p_objs s') r.
Proof.
  assert (H : toyReach [w2; w1] (fst (fst x2)) (snd (fst x2)) (mkP (p_objs (snd x2)) [])) by (eapply reach_step; [exact at2|apply p_machine]).
  destruct (C59_completes (list bytes) toyHas toyCascade toyClub toyFromBytes (fun l => l) (fun f => f) toyReasons (B "now") toyTime (fun f => Permutation_refl f) _ _ _ _ w3 (xTree (B "3000") zRs2) H) as [r [n [s' [A [B0 [_ [C D]]]]]]].
  - intros p; vm_compute; discriminate.
  - exact good3.
  - reflexivity.
  - reflexivity.
  - intros r n [].
  - eexists. split; vm_compute; reflexivity.
  - eexists. vm_compute. reflexivity.
  - exists r, n, s'. auto.
Qed.

Example C60_example :
  at_ [w2; w1] y2 /\ ids (objs y2) = [k1; k2] /\ done (objs y2) k1 /\ done (objs y2) k2 /\ before k1 k2 /\
  plookup [k1; sAll; B "filter.delta"] (objs y2) = Some (dA ++ B "2" ++ dA ++ B "3") /\
  plookup [k2; sAll; B "filter"] (objs y2) = Some (dA ++ B "2" ++ dA ++ B "3" ++ dB ++ B "9") /\
  plookup [k2; sAll; B "filter.delta"] (objs y2) = Some (dB ++ B "9").
Proof.
  split; [exact aty2|]. split; [vm_compute; reflexivity|]. split; [vm_compute; discriminate|]. split; [vm_compute; discriminate|]. split; [|vm_compute; repeat split; reflexivity].
  exists (B "20260101"), 0%N, (B "20260101"), 1%N. split; [eexists; repeat split; try reflexivity; discriminate|]. split; [eexists; repeat split; try reflexivity; discriminate|]. vm_compute; auto.
Qed.

Example C59_success_example :
  at_ [] x0 /\ goodWorld toyTime [] w1 /\ exists s', exec (Works :: Works :: Works :: repeat Works 40) (Running (toyGenerate w1)) (snd x0) = (Ended true, s') /\ done (p_objs s') k1.
Proof.
  split; [exact at0|]. split; [exact good1|].
  exists (snd (exec (Works :: Works :: Works :: repeat Works 40) (Running (toyGenerate w1)) (snd x0))). split; vm_compute; [reflexivity|discriminate].
Qed.

Example C60_stash_example :
  plookup [k2; sAll; B "delta"; StoreModel.issuerID dB] (objs y2) = Some (AggModel.revokedFile [(B "9", 4%N)]) /\
  plookup [k2; sAll; B "delta"; StoreModel.issuerID dA] (objs y2) = Some [] /\
  plookup [k2; sAll; B "filter.stash"] (objs y2) = Some (["001"; "000"; "000"; "000"; "032"]%byte ++ dB ++ ["001"%byte] ++ B "9").
Proof. vm_compute. auto. Qed.

Example C60_difference_example : exists r n s' w0 t0, smooth (toyGenerate w2) (mkP (objs x1) []) = (true, s') /\ runId r (w_today w2) n /\ In w0 [w1] /\ w_tree w0 = Some t0 /\
  forall ks0 rs0 data, inputs t0 ks0 rs0 -> plookup [r; sAll; B "filter.delta"] (p_objs s') = Some data -> exists f, toyFromBytes data = Ok (Some f) /\
    forall d s, knownCert zKs d s -> (toyHas f (d ++ s) = true <-> revokedCert RAll zRs1 d s /\ ~ (knownCert ks0 d s /\ revokedCert RAll rs0 d s)).
Proof.
  assert (H : toyReach [w1] (fst (fst x1)) (snd (fst x1)) (mkP (objs x1) [])) by (eapply reach_step; [exact at1|apply p_machine]).
  destruct (C60_difference (list bytes) toyHas toyCascade toyClub toyFromBytes (fun l => l) (fun f => f) toyReasons (B "now") toyTime (fun f => Permutation_refl f) (fun l => Permutation_refl l) _ _ _ _ w2 (xTree (B "2000") zRs1) k1 zKs zRs1 H) as [r [n [s' [w0 [t0 [A [B0 [_ [_ [C [D [_ E]]]]]]]]]]]].
  - intros p; vm_compute; discriminate.
  - exact good2.
  - reflexivity.
  - reflexivity.
  - intros r n [].
  - eexists. split; vm_compute; reflexivity.
  - eexists. vm_compute. reflexivity.
  - vm_compute. reflexivity.
  - vm_compute. discriminate.
  - vm_compute. discriminate.
  - apply xInputs. cbn; auto.
  - exists r, n, s', w0, t0. auto.
Qed.

(** Two runs, each published; then the first one is deleted.  The records of the
    channel are the full filter of the first run and the update of the second. *)
Section Published.
  Let fresh (l : list frec) : bytes := concat (map r_id l) ++ B "x".
  Let listing (l : list frec) := l.
  Let ch := mkChannel (B "default") sAll (B "filter.delta") 45 true.
  Let sv0 := mkServer [] false [] : server attrs.
  Let sv1 := snd (run fresh listing (publishCrlite false (bucketOf toyTime (objs x1)) ch) sv0 []).
  Let sv2 := snd (run fresh listing (publishCrlite false (bucketOf toyTime (objs y2)) ch) sv1 []).
  Let gone := mkP (filter (fun e => negb (under k1 (fst e))) (objs y2)) (p_local (snd y2)).

  Lemma drive_joint fr li c ws sv : forall fuel fs all st s, toyJoint fr li c ws all st s sv -> toyJoint fr li c ws (fst (fst (drive fuel fs all st s))) (snd (fst (drive fuel fs all st s))) (snd (drive fuel fs all st s)) sv.
  Proof.
    induction fuel as [|fuel IH]; intros fs all st s H; [exact H|]. cbn [drive]. destruct st as [p|b|]; [|exact H|exact H]. apply IH. eapply j_pipeline; [exact H|]. apply p_call.
  Qed.
  Lemma xJoint : toyJoint fresh listing ch [w2; w1] (fst (fst y2)) (snd (fst y2)) gone sv2.
  Proof.
    assert (J1 : toyJoint fresh listing ch [w1] (fst (fst x1)) (snd (fst x1)) (snd x1) sv0).
    { apply drive_joint. eapply j_pipeline; [apply j_start; [reflexivity|constructor]|]. apply p_run; [intros p; discriminate|exact good1]. }
    assert (J2 : toyJoint fresh listing ch [w2; w1] (fst (fst y2)) (snd (fst y2)) (snd y2) sv1).
    { apply drive_joint. eapply j_pipeline; [apply j_publish; exact J1|]. apply p_run; [intros p; vm_compute; discriminate|exact good2]. }
    eapply j_pipeline; [apply j_publish; exact J2|]. apply (p_delete _ _ _ _ _ _ _ _ _ _ _ _ _ (snd y2) k1 k2 []). vm_compute. reflexivity.
  Qed.
  Example C61_example : toyJoint fresh listing ch [w2; w1] (fst (fst y2)) (snd (fst y2)) gone sv2 /\ allInputs [w2; w1] /\ verifyRecords ch (sv_recs sv2) = Val tt /\
    ids (p_objs gone) = [k2] /\
    map (fun r : frec => r_att r) (sv_recs sv2) = [Some (B "20260101-1-default.filter.delta", dB ++ B "9"); Some (B "20260101-0-default.filter", dA ++ B "2" ++ dA ++ B "3")].
  Proof.
    split; [exact xJoint|]. split; [|repeat split; vm_compute; reflexivity].
    apply xAll. intros w [<-|[<-|[]]]; eexists _, _; (split; [|reflexivity]); cbn; auto.
  Qed.
End Published.

(** A completed run need not have a priority filter: if the output directory of the
    second builder cannot be made, the builder ends with status 0. *)
Definition wNoPriority := mkWorld (B "20260101") (Some (xTree (B "1000") zRs)) true true false.
Theorem C59_priority_refuted : exists ws all st s r, toyReach ws all st s /\ isRun r /\ done (p_objs s) r /\ forall q, plookup (r :: sPriority :: q) (p_objs s) = None.
Proof.
  exists [wNoPriority]. set (x := after x0 wNoPriority []). exists (fst (fst x)), (snd (fst x)), (snd x), k1. split; [|split; [|split]].
  - apply (at_after [] x0 wNoPriority []); [exact at0|intros p; discriminate|]. split; [reflexivity|]. split; [reflexivity|]. split; [intros w' []|]. split; [|vm_compute; reflexivity]. intros t E. injection E as <-. apply xGood. cbn; auto.
  - exists (B "20260101"), 0%N, (B "0"). repeat split; discriminate.
  - vm_compute. discriminate.
  - intros q. destruct (plookup (k1 :: sPriority :: q) (p_objs (snd x))) as [c|] eqn:E; [|reflexivity]. exfalso.
    assert (E' : In (k1 :: sPriority :: q) (map fst (p_objs (snd x)))) by (apply plookup_in; rewrite E; discriminate).
    assert (A : forallb (fun e => negb (peq (firstn 2 e) [k1; sPriority])) (map fst (p_objs (snd x))) = true) by (vm_compute; reflexivity).
    rewrite forallb_forall in A. specialize (A _ E'). vm_compute in A. discriminate A.
Qed.
Print Assumptions C59_priority_refuted.

(** If a run ends before its first upload, its directory on the machine stays and
    its number is not taken: as long as the directory is there, no other run of that
    day gets anywhere. *)
Theorem C59_blocked_refuted : exists ws all st s today, toyReach ws all st s /\ (forall p, st <> Running p) /\
  forall w fs, w_today w = today -> p_objs (snd (exec fs (Running (toyGenerate w)) s)) = p_objs s /\ fst (exec fs (Running (toyGenerate w)) s) <> Ended true.
Proof.
  exists [w1]. set (x := after x0 w1 [Works; Works; Fails false]). exists (fst (fst x)), (snd (fst x)), (snd x), (B "20260101"). split; [|split].
  - apply (at_after [] x0 w1); [exact at0|intros p; discriminate|exact good1].
  - intros p. vm_compute. discriminate.
  - assert (EX : snd x = mkP [] [k1]) by (vm_compute; reflexivity). rewrite EX. clear EX x.
    intros w fs ET. unfold toyGenerate. rewrite generate_eq. rewrite ET.
    destruct fs as [|f fs]; [split; [reflexivity|discriminate]|]. destruct f as [|d|d]; cbn [exec gstep fst snd]; [|destruct fs; (split; [reflexivity|discriminate])|destruct fs; (split; [reflexivity|discriminate])].
    assert (EA : allocate (B "20260101") (dirsOf (p_objs (mkP [] [k1]))) = Val k1) by (vm_compute; reflexivity). rewrite EA.
    destruct fs as [|f fs]; [split; [reflexivity|discriminate]|].
    assert (M : memb k1 (p_local (mkP [] [k1])) = true) by (vm_compute; reflexivity).
    destruct f as [|d|d]; cbn [exec gstep]; rewrite ?M; unfold made; rewrite ?M, ?andb_false_r; destruct fs; (split; [reflexivity|discriminate]).
Qed.
Print Assumptions C59_blocked_refuted.
