(** * Facts about the pipeline: the bucket, the runs in it, files *)
From Verif Require Import Base MerkleModel SerialModel SerialProofs IssuersModel FilterModel FilterProofs TimeModel TimeProofs QueryModel TextProofs P_Query RemoteModel PublishModel P_RunIds PublishProofs PublishProofs2 PipelineModel.
From Coq Require Import Strings.Byte Sorting.Permutation Sorting.Sorted.

(** ** Lookup *)

Lemma peq_eq a b : peq a b = true <-> a = b.
Proof.
  revert b. induction a as [|x a IH]; intros [|y b]; cbn [peq]; try (split; [discriminate|discriminate || auto]); [split; reflexivity|].
  rewrite andb_true_iff, beq_eq, IH. split; [intros [-> ->]; reflexivity|intros E; injection E as -> ->; auto].
Qed.
Lemma peq_refl a : peq a a = true.
Proof. apply peq_eq. reflexivity. Qed.
Lemma plookup_put p q c o : plookup p (pput q c o) = if peq p q then Some c else plookup p o.
Proof.
  unfold pput. cbn [plookup]. destruct (peq p q) eqn:E; [reflexivity|]. induction o as [|[x d] o IH]; [reflexivity|]. cbn [filter fst plookup].
  destruct (peq q x) eqn:Q; cbn [negb plookup]; rewrite IH.
  - apply peq_eq in Q. subst x. rewrite E. reflexivity.
  - reflexivity.
Qed.
Lemma plookup_in {A} p (o : list (path * A)) : plookup p o <> None <-> In p (map fst o).
Proof.
  induction o as [|[x d] o IH]; cbn [plookup map In fst]; [split; [intros H; contradiction H; reflexivity|intros []]|].
  destruct (peq p x) eqn:E.
  - apply peq_eq in E. subst x. split; [left; reflexivity|discriminate].
  - rewrite IH. split; [right; assumption|intros [->|H]; [rewrite peq_refl in E; discriminate E|exact H]].
Qed.
Lemma plookup_filter (f : path -> bool) p (o : objects) : plookup p (filter (fun e => f (fst e)) o) = if f p then plookup p o else None.
Proof.
  induction o as [|[x d] o IH]; cbn [filter plookup fst]; [destruct (f p); reflexivity|]. destruct (f x) eqn:F; cbn [plookup].
  - destruct (peq p x) eqn:E; [|exact IH]. apply peq_eq in E. subst x. rewrite F. reflexivity.
  - destruct (peq p x) eqn:E; [|exact IH]. apply peq_eq in E. subst x. rewrite F in *. exact IH.
Qed.
Lemma plookup_nodup {A} p (c : A) o : NoDup (map fst o) -> In (p, c) o -> plookup p o = Some c.
Proof.
  induction o as [|[x d] o IH]; intros ND I; [destruct I|]. cbn [map fst] in ND. apply NoDup_cons_iff in ND. destruct ND as [NI ND]. cbn [plookup].
  destruct I as [I|I]; [injection I as -> ->; rewrite peq_refl; reflexivity|].
  destruct (peq p x) eqn:E; [|apply IH; assumption]. apply peq_eq in E. subst x. exfalso. apply NI. apply in_map_iff. exists (p, c). auto.
Qed.
Lemma plookup_some {A} p (c : A) o : plookup p o = Some c -> In (p, c) o.
Proof.
  induction o as [|[x d] o IH]; cbn [plookup]; [discriminate|]. destruct (peq p x) eqn:E; intros H; [|right; apply IH; exact H].
  apply peq_eq in E. subst x. injection H as ->. left. reflexivity.
Qed.

(** ** The runs in a bucket *)

Definition ids (o : objects) : list bytes := getRunIdentifiers (dirsOf o).
Definition latest : bytes := B "latest".

Lemma latest_no_run x r : x = latest -> ~ dirOf (x ++ B "/") r.
Proof.
  intros -> [[d [n [ds [-> [L [D _]]]]]] [rest [E _]]]. destruct d as [|c d]; [discriminate L|]. cbn [forallb] in D. apply andb_true_iff in D. destruct D as [D _].
  injection E as E _. subst c. discriminate D.
Qed.
Lemma run_no_latest r : isRun r -> r <> latest.
Proof.
  intros [d [n [ds [-> [L [D _]]]]]] E. destruct d as [|c d]; [discriminate L|]. cbn [forallb] in D. apply andb_true_iff in D. destruct D as [D _].
  injection E as E _. subst c. discriminate D.
Qed.
Lemma dirOf_self r : isRun r -> dirOf (r ++ B "/") r.
Proof. intros H. split; [exact H|]. exists (B "/"). split; [reflexivity|reflexivity]. Qed.
Lemma dirOf_fun x r r' : dirOf x r -> dirOf x r' -> r = r'.
Proof. intros H H'. apply identifierOf_spec in H, H'. congruence. Qed.

(** Every object is in a run or in latest/. *)
Definition named (run : bytes -> Prop) (o : objects) : Prop :=
  forall p, plookup p o <> None -> exists x y q, p = x :: y :: q /\ (x = latest \/ run x).

Lemma in_dirsOf o x : In x (dirsOf o) <-> exists r y q, x = r ++ B "/" /\ plookup (r :: y :: q) o <> None.
Proof.
  unfold dirsOf. rewrite in_map_iff. split.
  - intros [r [<- I]]. apply nodup_In in I. apply in_flat_map in I. destruct I as [[p c] [I J]]. unfold topOf in J. cbn [fst] in J.
    destruct p as [|a [|y q]]; [destruct J|destruct J|]. destruct J as [<-|[]]. exists a, y, q. split; [reflexivity|]. apply plookup_in. apply in_map_iff. exists (a :: y :: q, c). auto.
  - intros [r [y [q [-> H]]]]. exists r. split; [reflexivity|]. apply nodup_In. apply plookup_in in H. apply in_map_iff in H. destruct H as [[p c] [E I]]. cbn [fst] in E. subst p.
    apply in_flat_map. exists (r :: y :: q, c). split; [exact I|left; reflexivity].
Qed.
Lemma in_ids o r : named isRun o -> (In r (ids o) <-> isRun r /\ exists y q, plookup (r :: y :: q) o <> None).
Proof.
  intros N. unfold ids. rewrite C49_identifiers. split.
  - intros [x [I D]]. apply in_dirsOf in I. destruct I as [a [y [q [-> H]]]]. destruct (N _ H) as [a' [y' [q' [E C]]]]. injection E as <- <- <-.
    destruct C as [C|C]; [exfalso; exact (latest_no_run a r C D)|]. assert (r = a) by (apply (dirOf_fun _ _ _ D); apply dirOf_self; exact C). subst a. split; [exact C|]. exists y, q. exact H.
  - intros [R [y [q H]]]. exists (r ++ B "/"). split; [apply in_dirsOf; exists r, y, q; auto|apply dirOf_self; exact R].
Qed.
Lemma ids_nodup o : named isRun o -> NoDup (ids o).
Proof.
  intros N. unfold ids, getRunIdentifiers. eapply Permutation_NoDup; [apply Permutation_sym; apply sortBy_perm|]. unfold dirsOf.
  assert (A : forall x, In x (nodup bytes_eq_dec (flat_map topOf o)) -> x = latest \/ isRun x).
  { intros x I. assert (J : In (x ++ B "/") (dirsOf o)) by (unfold dirsOf; apply in_map_iff; exists x; auto).
    apply in_dirsOf in J. destruct J as [r [y [q [E H]]]]. apply app_inv_tail in E. subst r. destruct (N _ H) as [a [y' [q' [E C]]]]. injection E as <- _ _. exact C. }
  pose proof (NoDup_nodup bytes_eq_dec (flat_map topOf o)) as ND. revert A ND. generalize (nodup bytes_eq_dec (flat_map topOf o)). intros l A ND.
  induction ND as [|x l NI ND IH]; cbn [map filterSome]; [constructor|].
  assert (IH' : NoDup (filterSome identifierOf (map (fun y => y ++ B "/") l))) by (apply IH; intros y I; apply A; right; exact I).
  destruct (identifierOf (x ++ B "/")) as [r|] eqn:E; [|exact IH']. apply identifierOf_spec in E.
  destruct (A x (or_introl eq_refl)) as [X|X]; [exfalso; exact (latest_no_run x r X E)|].
  assert (r = x) by (apply (dirOf_fun _ _ _ E); apply dirOf_self; exact X). subst r. constructor; [|exact IH'].
  intros I. apply filterSome_in in I. destruct I as [z [I F]]. apply in_map_iff in I. destruct I as [y [<- I]]. apply identifierOf_spec in F.
  destruct (A y (or_intror I)) as [Y|Y]; [exact (latest_no_run y x Y F)|]. assert (x = y) by (apply (dirOf_fun _ _ _ F); apply dirOf_self; exact Y). subst y. contradiction.
Qed.

(** Runs that can be compared are listed in order. *)
Lemma ids_sorted o : named isRun o -> (forall r, In r (ids o) -> small r) ->
  (forall r r', In r (ids o) -> In r' (ids o) -> r = r' \/ before r r' \/ before r' r) -> StronglySorted before (ids o).
Proof.
  intros N S A. pose proof (C49_sorted (dirsOf o) S) as SS. pose proof (ids_nodup o N) as ND. fold (ids o) in SS. revert A ND. induction SS as [|x l SS IH F]; intros A ND; [constructor|].
  apply NoDup_cons_iff in ND. destruct ND as [NI ND]. constructor; [apply IH; [intros r I; apply S; right; exact I|intros r r' I I'; apply A; right; assumption|exact ND]|].
  rewrite Forall_forall in *. intros y I. destruct (A x y (or_introl eq_refl) (or_intror I)) as [E|[E|E]]; [subst y; contradiction|exact E|].
  exfalso. destruct E as [d [n [d' [n' [H [H' L]]]]]]. specialize (F y I d' n' d n H' H). lia.
Qed.
(** An upper part of such a list is its tail. *)
Lemma sorted_apart l : StronglySorted before l -> forall a b, In a l -> In b l -> a = b \/ before a b \/ before b a.
Proof. induction 1 as [|z l S IH F]; intros a b I J; [destruct I|]. rewrite Forall_forall in F. destruct I as [<-|I], J as [<-|J]; auto. Qed.
Lemma sorted_nodup l : StronglySorted before l -> NoDup l.
Proof. induction 1 as [|y l S IH F]; constructor; [|exact IH]. intros J. rewrite Forall_forall in F. exact (before_irrefl y (F y J)). Qed.
Lemma sorted_tail : forall l m, StronglySorted before l -> StronglySorted before m -> m <> [] -> (forall r, In r m -> In r l) -> (forall r r', In r l -> In r' m -> before r' r -> In r m) ->
  exists old, l = old ++ m.
Proof.
  induction l as [|x l IH]; intros m SL SM NE SUB UP.
  - destruct m as [|y m]; [contradiction NE; reflexivity|destruct (SUB y (or_introl eq_refl))].
  - pose proof SL as SX. apply StronglySorted_inv in SL. destruct SL as [SL F]. rewrite Forall_forall in F. destruct (in_dec bytes_eq_dec x m) as [I|NI].
    + exists []. cbn [app]. apply (sorted_perm_unique before (x :: l) m); [exact SX|exact SM| |intros a b _ _ H G; exfalso; exact (before_asym a b H G)].
      apply NoDup_Permutation; [apply sorted_nodup; exact SX|apply sorted_nodup; exact SM|].
      intros r. split; [|apply SUB]. intros [<-|J]; [exact I|]. apply (UP r x); [right; exact J|exact I|apply F; exact J].
    + destruct (IH m SL SM NE) as [old E]; [| |exists (x :: old); cbn [app]; rewrite <- E; reflexivity].
      * intros r J. destruct (SUB r J) as [E|J']; [subst r; contradiction|exact J'].
      * intros r r' J J' H. apply (UP r r'); [right; exact J|exact J'|exact H].
Qed.

(** The number of an allocated run. *)
Lemma allocate_number today dirs r d n : allocate today dirs = Val r -> runId r d n -> (n = 0 \/ exists m e k, In m (getRunIdentifiers dirs) /\ runId m e k /\ n = k + 1)%N.
Proof.
  assert (DT : forall k, runId (today ++ "-"%byte :: decText k) d n -> n = k).
  { intros k H. destruct (decText_spec k) as [A [B0 [C _]]]. destruct H as [ds [E [L [D [NE [Ds V]]]]]].
    assert (S3 : forall x y u v : bytes, x ++ "-"%byte :: y = u ++ "-"%byte :: v -> ~ In "-"%byte y -> ~ In "-"%byte v -> y = v).
    { clear. intros x y u v E Y V. apply (f_equal (@rev byte)) in E. rewrite !rev_app_distr in E. cbn [rev] in E. rewrite <- !app_assoc in E. cbn [app] in E.
      destruct (cut_unique "-" (rev y) (rev v) (rev x) (rev u)) as [E1 _]; [intros I; apply in_rev in I; contradiction|intros I; apply in_rev in I; contradiction|exact E|].
      apply (f_equal (@rev byte)) in E1. rewrite !rev_involutive in E1. exact E1. }
    rewrite <- V, <- (S3 today (decText k) d ds E (digits_no "-" _ eq_refl A) (digits_no "-" _ eq_refl Ds)). exact B0. }
  unfold allocate. destruct (lastOf (getRunIdentifiers dirs)) as [m|] eqn:L.
  - pose proof L as L'. apply lastOf_some in L'. destruct L' as [l' E']. assert (IM : In m (getRunIdentifiers dirs)) by (rewrite E'; apply in_or_app; right; left; reflexivity).
    pose proof IM as IM'. apply C49_identifiers in IM'. destruct IM' as [x [_ [[e [k RM]] _]]]. destruct (runId_split m e k RM) as [ds [ES [_ [V _]]]]. rewrite ES.
    destruct (beq e today).
    + rewrite V. intros E H. injection E as <-. right. exists m, e, k. split; [exact IM|]. split; [exact RM|]. apply DT. exact H.
    + intros E H. injection E as <-. left. apply DT. exact H.
  - intros E H. injection E as <-. left. apply DT. exact H.
Qed.

(** ** Revoked sets as files *)

Definition fits (l : list bytes) : Prop := (N.of_nat (length l) < 2 ^ 64)%N /\ forall k, In k l -> (N.of_nat (length k) < 2 ^ 64)%N.
Lemma firstn_app_exact {A} n (l m : list A) : length l = n -> firstn n (l ++ m) = l /\ skipn n (l ++ m) = m.
Proof. intros <-. rewrite firstn_app, skipn_app, Nat.sub_diag, firstn_all, skipn_all. cbn [firstn skipn app]. rewrite app_nil_r. auto. Qed.
Lemma deItems_en : forall l fuel rest, (forall k, In k l -> (N.of_nat (length k) < 2 ^ 64)%N) -> (length l <= fuel)%nat ->
  deItems fuel (N.of_nat (length l)) (flat_map (fun k => putLE 8 (N.of_nat (length k)) ++ k) l ++ rest) = Some l.
Proof.
  induction l as [|k l IH]; intros fuel rest S LF; [destruct fuel; reflexivity|]. destruct fuel as [|fuel]; [cbn [length] in LF; lia|].
  cbn [deItems]. destruct (N.eqb_spec (N.of_nat (length (k :: l))) 0) as [E|_]; [cbn [length] in E; lia|].
  cbn [flat_map]. rewrite <- !app_assoc. set (tl0 := flat_map _ l ++ rest).
  destruct (firstn_app_exact 8 (putLE 8 (N.of_nat (length k))) (k ++ tl0) (putLE_length 8 _)) as [F1 F2]. rewrite F1, F2.
  destruct (Nat.ltb_spec (length (putLE 8 (N.of_nat (length k)) ++ k ++ tl0)) 8) as [X|_]; [rewrite app_length, putLE_length in X; lia|].
  rewrite getLE_putLE8 by (apply S; left; reflexivity).
  destruct (N.ltb_spec (N.of_nat (length (k ++ tl0))) (N.of_nat (length k))) as [X|_]; [rewrite app_length in X; lia|].
  rewrite Nat2N.id. destruct (firstn_app_exact (length k) k tl0 eq_refl) as [G1 G2]. rewrite G1, G2.
  replace (N.of_nat (length (k :: l)) - 1)%N with (N.of_nat (length l)) by (cbn [length]; lia).
  unfold tl0. rewrite IH; [reflexivity|intros k' I; apply S; right; exact I|cbn [length] in LF; lia].
Qed.
Lemma de_en l rest : fits l -> deRevset (enRevset l ++ rest) = Some l.
Proof.
  intros [S1 S2]. unfold deRevset, enRevset. rewrite <- !app_assoc. destruct (firstn_app_exact 8 (putLE 8 (N.of_nat (length l))) (flat_map (fun k => putLE 8 (N.of_nat (length k)) ++ k) l ++ rest) (putLE_length 8 _)) as [F1 F2].
  rewrite F1, F2. destruct (Nat.ltb_spec (length (putLE 8 (N.of_nat (length l)) ++ flat_map (fun k => putLE 8 (N.of_nat (length k)) ++ k) l ++ rest)) 8) as [X|_]; [rewrite app_length, putLE_length in X; lia|].
  rewrite getLE_putLE8 by exact S1. apply deItems_en; [exact S2|]. rewrite !app_length, putLE_length.
  assert (G : forall l : list bytes, (length l <= length (flat_map (fun k => putLE 8 (N.of_nat (length k)) ++ k) l))%nat).
  { clear. induction l as [|k l IH]; [cbn; lia|]. cbn [flat_map length]. rewrite !app_length, putLE_length. unfold bytes in *. lia. }
  specialize (G l). unfold bytes in *. lia.
Qed.

(** ** Lists of uploads *)

(** The file at [q] in the tree [t]. *)
Definition fileAt (t : tree) (q : path) (c : bytes) : Prop := exists d f n, q = d ++ [n] /\ In (d, f) t /\ In (n, Plain c) f.
Definition tidy (t : tree) : Prop := NoDup (map fst t) /\ forall d f, In (d, f) t -> NoDup (map fst f).

Lemma fileAt_fun t q c c' : tidy t -> fileAt t q c -> fileAt t q c' -> c = c'.
Proof.
  intros [N1 N2] [d [f [n [-> [I J]]]]] [d' [f' [n' [E [I' J']]]]]. apply app_inj_tail in E. destruct E as [-> ->].
  assert (f = f').
  { apply plookup_nodup in I; [|exact N1]. apply plookup_nodup in I'; [|exact N1]. congruence. }
  subst f'. specialize (N2 _ _ I). clear -N2 J J'. induction f as [|[m x] f IH]; [destruct J|]. cbn [map fst] in N2. apply NoDup_cons_iff in N2. destruct N2 as [NI N2].
  destruct J as [J|J], J' as [J'|J']; [congruence| | |apply IH; assumption].
  - exfalso. injection J as -> ->. apply NI. apply in_map_iff. exists (n', Plain c'). auto.
  - exfalso. injection J' as -> ->. apply NI. apply in_map_iff. exists (n', Plain c). auto.
Qed.
Lemma in_plainOf n c f : In (n, c) (plainOf f) <-> In (n, Plain c) f.
Proof.
  unfold plainOf. rewrite in_flat_map. split.
  - intros [[m e] [I J]]. cbn [fst snd] in J. destruct e as [x|]; [|destruct J]. destruct J as [J|[]]. injection J as -> ->. exact I.
  - intros I. exists (n, Plain c). split; [exact I|left; reflexivity].
Qed.

Section Puts.
  Variable listdir : folder -> folder.
  Hypothesis Listdir : forall f, Permutation (listdir f) f.

  Lemma in_filePuts remote f p c : In (p, c) (filePuts listdir remote f) <-> exists n, p = remote ++ [n] /\ In (n, Plain c) f.
  Proof.
    unfold filePuts. rewrite in_map_iff. split.
    - intros [[n x] [E I]]. cbn [fst snd] in E. injection E as <- <-. apply (proj1 (in_plainOf _ _ _)) in I. exists n. split; [reflexivity|]. apply (Permutation_in _ (Listdir f)). exact I.
    - intros [n [-> I]]. exists (n, c). split; [reflexivity|]. apply in_plainOf. apply (Permutation_in _ (Permutation_sym (Listdir f))). exact I.
  Qed.
  Lemma in_treePuts remote t p c : In (p, c) (treePuts listdir remote t) <-> exists q, p = remote ++ q /\ fileAt t q c.
  Proof.
    unfold treePuts. rewrite in_flat_map. split.
    - intros [[d f] [I J]]. cbn [fst snd] in J. apply (proj1 (in_filePuts _ _ _ _)) in J. destruct J as [n [-> J]]. exists (d ++ [n]). rewrite app_assoc. split; [reflexivity|]. exists d, f, n. auto.
    - intros [q [-> [d [f [n [-> [I J]]]]]]]. exists (d, f). split; [exact I|]. cbn [fst snd]. apply in_filePuts. exists n. rewrite app_assoc. auto.
  Qed.
  Lemma in_allPuts id t p c : In (p, c) (allPuts listdir id t) <-> exists q, (p = id :: B "clubcard-all" :: q \/ p = latest :: q) /\ fileAt t q c.
  Proof.
    unfold allPuts. rewrite in_flat_map. split.
    - intros [[d f] [I J]]. cbn [fst snd] in J. apply in_app_iff in J. destruct J as [J|J]; apply (proj1 (in_filePuts _ _ _ _)) in J; destruct J as [n [-> J]]; exists (d ++ [n]); cbn [app]; (split; [auto|]); exists d, f, n; auto.
    - intros [q [E [d [f [n [-> [I J]]]]]]]. exists (d, f). split; [exact I|]. cbn [fst snd]. apply in_app_iff.
      destruct E as [-> | ->]; [left|right]; apply in_filePuts; exists n; cbn [app]; auto.
  Qed.
End Puts.

(** ** What the builder leaves is tidy *)

Lemma mapRes_delta (g : bytes * option bytes * bytes -> res (dir * list bytes)) :
  (forall p x, g p = Ok x -> map fst (fst x) = [] \/ map fst (fst x) = [fst (fst p)]) ->
  forall l m, mapRes g l = Ok m -> NoDup (map (fun p => fst (fst p)) l) -> NoDup (map fst (flat_map fst m)) /\ forall n, In n (map fst (flat_map fst m)) -> In n (map (fun p => fst (fst p)) l).
Proof.
  intros G. induction l as [|p l IH]; intros m H ND; cbn [mapRes] in H; [injection H as <-; cbn; split; [constructor|intros n []]|].
  apply bind_ok in H. destruct H as [x [HX H]]. apply bind_ok in H. destruct H as [m' [HM H]]. injection H as <-. cbn [map] in ND. apply NoDup_cons_iff in ND. destruct ND as [NI ND].
  destruct (IH m' HM ND) as [A B0]. cbn [flat_map]. rewrite map_app. destruct (G p x HX) as [E|E]; unfold dir in *; rewrite E; cbn [app map].
  - split; [exact A|]. intros n I. right. apply B0. exact I.
  - split; [constructor; [intros I; apply NI; apply B0; exact I|exact A]|]. intros n [<-|I]; [left; reflexivity|right; apply B0; exact I].
Qed.
Lemma delta_nodup prev revoked known set rd : writeRevsetAndDelta prev revoked known set = Ok rd -> NoDup (map fst known) -> NoDup (map fst (snd rd)).
Proof.
  intros H ND. unfold writeRevsetAndDelta in H. apply bind_ok in H. destruct H as [l [HL H]]. injection H as <-. cbn [snd].
  apply (mapRes_delta _) in HL; [apply HL| |].
  - intros [[name r] k] x E. destruct r as [d|]; [|injection E as <-; left; reflexivity].
    apply bind_ok in E. destruct E as [i [_ E]]. apply bind_ok in E. destruct E as [rv [_ E]]. apply bind_ok in E. destruct E as [kn [_ E]]. apply bind_ok in E. destruct E as [y [_ E]]. injection E as <-. right. reflexivity.
  - unfold filePairs. rewrite map_map. cbn [fst]. exact ND.
Qed.
