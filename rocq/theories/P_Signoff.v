(** * C63, C64: signing off on what the publisher has uploaded *)
From Verif Require Import Base SignoffModel SignoffProofs.

Section C63.
  Variable R : Type.
  Variable kinds : nat -> kind.
  (** A state that a collection and its processes can get into. *)
  Definition after (c : coll R) (acts : list (action R)) : state R := runs kinds acts (init c).

  (** Whatever is going on at the same time: if process [i] of the sign-off tool had the
      collection signed, the last thing that happened to the collection before is that a
      review of exactly those records was asked for. *)
  Theorem C63_signed_as_reviewed : forall c acts i r later earlier,
    g_log (after c acts) = later ++ Signed (Some i) r :: earlier ->
    exists before, earlier = Review r :: before.
  Proof.
    intros c acts i r l1 l2 E. apply (reviewed_app R l1 l2 i r). rewrite <- E.
    apply (i_rev R kinds), inv_runs, inv_init.
  Qed.

  Lemma onceEach_app l1 : forall l2 i r, onceEach R (l1 ++ Signed (Some i) r :: l2) ->
    forall r', ~ In (Signed (Some i) r') (l1 ++ l2).
  Proof.
    induction l1 as [|e l1 IH]; cbn; intros l2 i r [H1 H2] r' In'.
    - apply (H1 i (ex_intro _ r eq_refl) _ In'). exists r'; reflexivity.
    - destruct In' as [->|In']; [|apply (IH _ _ _ H2 _ In')].
      apply (H1 i (ex_intro _ r' eq_refl) (Signed (Some i) r)); [|exists r; reflexivity].
      apply in_or_app. right. left. reflexivity.
  Qed.

  (** One run of the tool signs at most once, even if answers get lost and the request
      is sent again. *)
  Theorem C63_once : forall c acts i r later earlier,
    g_log (after c acts) = later ++ Signed (Some i) r :: earlier ->
    forall r', ~ In (Signed (Some i) r') (later ++ earlier).
  Proof.
    intros c acts i r l1 l2 E. apply (onceEach_app l1 l2 i r). rewrite <- E.
    apply (i_once R kinds), inv_runs, inv_init.
  Qed.

  (** What a process has seen and done, by where it is. *)
  Definition wrote (i : nat) (r : R) : event R := match kinds i with KSign => Signed (Some i) r | KReview => Review r end.
  Definition waits (k : kind) : bytes := match k with KSign => B "to-review" | KReview => B "work-in-progress" end.

  Lemma after_snoc c acts a : after c (acts ++ [a]) = step kinds a (after c acts).
  Proof. unfold after. rewrite runs_app. reflexivity. Qed.

  Definition looked (c : coll R) (acts : list (action R)) (i : nat) (a1 a2 : list (action R)) : Prop :=
    acts = a1 ++ AGet i GOk :: a2 /\ g_procs (after c a1) i = Start.

  Lemma looked_snoc c acts i a1 a2 a : looked c acts i a1 a2 -> looked c (acts ++ [a]) i a1 (a2 ++ [a]).
  Proof. intros [-> P]. split; [rewrite <- app_assoc; reflexivity|exact P]. Qed.

  Lemma history c i : forall acts,
    match g_procs (after c acts) i with
    | Start => True
    | Got v _ => exists a1 a2, looked c acts i a1 a2 /\ c_status (g_coll (after c a1)) = Some (waits (kinds i)) /\
                               c_ver (g_coll (after c a1)) = v
    | Done n => n = 0%N -> exists a1 a2, looked c acts i a1 a2 /\
        ((exists st, c_status (g_coll (after c a1)) = Some st /\ st <> waits (kinds i)) \/
         (exists r, In (wrote i r) (g_log (after c acts))))
    end.
  Proof.
    intros acts. induction acts as [|a acts IH] using rev_ind; [exact I|]. rewrite after_snoc.
    assert (OLD : g_procs (step kinds a (after c acts)) i = g_procs (after c acts) i ->
      match g_procs (step kinds a (after c acts)) i with
      | Start => True
      | Got v _ => exists a1 a2, looked c (acts ++ [a]) i a1 a2 /\ c_status (g_coll (after c a1)) = Some (waits (kinds i)) /\
                                 c_ver (g_coll (after c a1)) = v
      | Done n => n = 0%N -> exists a1 a2, looked c (acts ++ [a]) i a1 a2 /\
          ((exists st, c_status (g_coll (after c a1)) = Some st /\ st <> waits (kinds i)) \/
           (exists r, In (wrote i r) (g_log (step kinds a (after c acts)))))
      end).
    { intros ->. destruct (g_procs (after c acts) i) as [|v n|n]; [exact I| |].
      - destruct IH as [a1 [a2 [L H]]]. exists a1, (a2 ++ [a]). split; [apply looked_snoc, L|exact H].
      - intros Z. destruct (IH Z) as [a1 [a2 [L H]]]. exists a1, (a2 ++ [a]). split; [apply looked_snoc, L|].
        destruct H as [H|[r H]]; [left; exact H|right]. exists r. destruct (log_grows R kinds a (after c acts)) as [l ->].
        apply in_or_app. right. exact H. }
    destruct a as [r d|x d|j f|j f d]; try (apply OLD; reflexivity); cbn [step] in *.
    - destruct (g_procs (after c acts) j) as [| |] eqn:P; try (apply OLD; reflexivity).
      destruct (Nat.eq_dec i j) as [<-|J]; [|apply OLD; cbn [g_procs]; apply setProc_other, J].
      cbn [g_procs g_log]. rewrite setProc_same. unfold afterGet.
      assert (W : looksFor (kinds i) = waits (kinds i)) by (destruct (kinds i); reflexivity). rewrite W.
      destruct f; try discriminate.
      destruct (c_status (g_coll (after c acts))) as [y|] eqn:Y; [|discriminate].
      destruct (beq_spec y (waits (kinds i))) as [->|N].
      + exists acts, []. repeat split; auto.
      + intros _. exists acts, []. split; [repeat split; auto|]. left. exists y. auto.
    - destruct (g_procs (after c acts) j) as [|v n|] eqn:P; try (apply OLD; reflexivity).
      destruct (patchStep v n (g_coll (after c acts)) f) as [p applied] eqn:F.
      destruct (Nat.eq_dec i j) as [<-|J]; [|apply OLD; destruct applied; cbn [g_procs]; apply setProc_other, J].
      rewrite P in IH. destruct IH as [a1 [a2 [L [S V]]]].
      assert (g_procs (if applied
           then mkState (setStatus (asksFor (kinds i)) d (g_coll (after c acts))) (setProc (g_procs (after c acts)) i p)
                (statusEvent (Some i) (asksFor (kinds i)) (c_recs (g_coll (after c acts))) :: g_log (after c acts))
           else mkState (g_coll (after c acts)) (setProc (g_procs (after c acts)) i p) (g_log (after c acts))) i = p) as PP.
      { destruct applied; cbn [g_procs]; apply setProc_same. }
      rewrite PP. destruct p as [|v' n'|code]; [exact I| |].
      + exists a1, (a2 ++ [APatch i f d]). split; [apply looked_snoc, L|]. split; [exact S|].
        rewrite V. unfold patchStep in F. destruct f; destruct (v =? _)%N; destruct n; congruence.
      + intros ->. exists a1, (a2 ++ [APatch i f d]). split; [apply looked_snoc, L|]. right.
        exists (c_recs (g_coll (after c acts))).
        assert (applied = true) as -> by (unfold patchStep in F; destruct f; destruct (v =? _)%N; destruct n; congruence).
        cbn [g_log]. left. unfold wrote, statusEvent, asksFor. destruct (kinds i); reflexivity.
  Qed.

  (** A run that ends with exit status 0 has signed (or, the publisher's, has asked for
      the review), or has read the collection and found it in another status. *)
  Theorem C63_exit : forall c acts i, g_procs (after c acts) i = Done 0 ->
    exists a1 a2, acts = a1 ++ AGet i GOk :: a2 /\
      ((exists st, c_status (g_coll (after c a1)) = Some st /\
                   st <> match kinds i with KSign => B "to-review" | KReview => B "work-in-progress" end) \/
       (exists r, In match kinds i with KSign => Signed (Some i) r | KReview => Review r end (g_log (after c acts)))).
  Proof.
    intros c acts i D. pose proof (history c i acts) as H. rewrite D in H.
    destruct (H eq_refl) as [a1 [a2 [[E _] H']]]. exists a1, a2. split; [exact E|]. destruct H' as [H'|H']; [left|right]; exact H'.
  Qed.

  (** Between the look at the collection and the signature nothing has changed: the
      collection that is signed is the one that was seen to be up for review. *)
  Theorem C63_as_seen : forall c acts i f d r,
    g_log (step kinds (APatch i f d) (after c acts)) = Signed (Some i) r :: g_log (after c acts) ->
    exists a1 a2, acts = a1 ++ AGet i GOk :: a2 /\
      g_coll (after c acts) = g_coll (after c a1) /\ g_log (after c acts) = g_log (after c a1) /\
      c_status (g_coll (after c a1)) = Some (B "to-review") /\ c_recs (g_coll (after c a1)) = r.
  Proof.
    intros c acts i f d r E. pose proof (history c i acts) as H. cbn [step] in E.
    assert (NO : forall (l : list (event R)) e, l = e :: l -> False).
    { intros l e X. apply (f_equal (@length _)) in X. cbn in X. lia. }
    destruct (g_procs (after c acts) i) as [|v n|] eqn:P; try (exfalso; apply (NO _ _ E)).
    destruct (patchStep v n (g_coll (after c acts)) f) as [p applied] eqn:F.
    destruct applied; [|exfalso; cbn [g_log] in E; apply (NO _ _ E)].
    assert (v = c_ver (g_coll (after c acts))) as V.
    { unfold patchStep in F. destruct (N.eqb_spec v (c_ver (g_coll (after c acts)))) as [Q|Q]; [exact Q|].
      destruct f as [|b|b]; try (destruct b); cbn in F; congruence. }
    cbn [g_log] in E.
    assert (statusEvent (Some i) (asksFor (kinds i)) (c_recs (g_coll (after c acts))) = Signed (Some i) r) as E' by congruence.
    assert (kinds i = KSign /\ c_recs (g_coll (after c acts)) = r) as [K Hr].
    { unfold statusEvent, asksFor in E'. destruct (kinds i); cbn in E'; [discriminate|split; congruence]. }
    destruct H as [a1 [a2 [[A Q] [S V']]]]. exists a1, a2. split; [exact A|].
    assert (G : after c acts = runs kinds (AGet i GOk :: a2) (after c a1)) by (rewrite A; unfold after; apply runs_app).
    destruct (runs_same R kinds (AGet i GOk :: a2) (after c a1)) as [C L].
    - rewrite S, K. discriminate.
    - rewrite <- G. congruence.
    - rewrite <- G in C, L. rewrite K in S. split; [exact C|]. split; [exact L|]. split; [exact S|]. congruence.
  Qed.

  (** Neither the tool nor the review request changes a record. *)
  Theorem C63_records : forall c acts i a,
    (exists f, a = AGet i f) \/ (exists f d, a = APatch i f d) ->
    c_recs (g_coll (step kinds a (after c acts))) = c_recs (g_coll (after c acts)) /\
    (kinds i = KSign -> g_coll (step kinds a (after c acts)) = g_coll (after c acts) \/
       c_status (g_coll (step kinds a (after c acts))) = Some (B "signed") /\
       exists before, g_log (after c acts) = Review (c_recs (g_coll (after c acts))) :: before).
  Proof.
    intros c acts i a H. pose proof (inv_runs R kinds acts _ (inv_init R kinds c)) as I. fold (after c acts) in I.
    destruct H as [[f ->]|[f [d ->]]]; cbn [step].
    - destruct (g_procs (after c acts) i); cbn [g_coll]; auto.
    - destruct (g_procs (after c acts) i) as [|v n|] eqn:P; cbn [g_coll]; auto.
      destruct (patchStep v n (g_coll (after c acts)) f) as [p [|]] eqn:F; cbn [g_coll]; auto.
      split; [reflexivity|]. intros K. right. split; [rewrite K; reflexivity|].
      apply (i_head R kinds _ I). apply (proj2 (i_got R kinds _ I i v n P)); [|exact K].
      unfold patchStep in F. destruct (N.eqb_spec v (c_ver (g_coll (after c acts)))) as [Q|Q]; [exact Q|].
      destruct f as [|b|b]; try (destruct b); cbn in F; congruence.
  Qed.

  (** A collection that is not up for it is left alone, and this is no error. *)
  Theorem C63_nothing_to_do : forall c acts i st,
    g_procs (after c acts) i = Start -> c_status (g_coll (after c acts)) = Some st ->
    st <> match kinds i with KSign => B "to-review" | KReview => B "work-in-progress" end ->
    let s := after c (acts ++ [AGet i GOk]) in
    g_procs s i = Done 0 /\ g_coll s = g_coll (after c acts) /\ g_log s = g_log (after c acts).
  Proof.
    intros c acts i st P S N s. unfold s, after. rewrite runs_app. fold (after c acts). rewrite runs_cons. unfold runs; cbn [fold_left].
    cbn [step]. rewrite P. cbn [g_procs g_coll g_log]. rewrite setProc_same. unfold afterGet. rewrite S.
    destruct (beq_spec st (looksFor (kinds i))) as [E|_]; [|repeat split]. exfalso. apply N. rewrite E. destruct (kinds i); reflexivity.
  Qed.

  (** And if nobody interferes, the tool does its work: the records up for review get
      signed, also if the server is in trouble up to five times without doing anything. *)
  Theorem C63_signs : forall c acts i d fs,
    kinds i = KSign -> g_procs (after c acts) i = Start -> c_status (g_coll (after c acts)) = Some (B "to-review") ->
    length fs <= 5 ->
    let s := after c (acts ++ AGet i GOk :: map (fun d' => APatch i (PError false) d') fs ++ [APatch i POk d]) in
    g_procs s i = Done 0 /\ c_status (g_coll s) = Some (B "signed") /\
    g_log s = Signed (Some i) (c_recs (g_coll (after c acts))) :: g_log (after c acts).
  Proof.
    intros c acts i d fs K P S L s.
    assert (T : forall fs n (t : state R), length fs <= n -> g_coll t = g_coll (after c acts) -> g_log t = g_log (after c acts) ->
      g_procs t i = Got (c_ver (g_coll (after c acts))) n ->
      let s := runs kinds (map (fun d' => APatch i (PError false) d') fs ++ [APatch i POk d]) t in
      g_procs s i = Done 0 /\ c_status (g_coll s) = Some (B "signed") /\
      g_log s = Signed (Some i) (c_recs (g_coll (after c acts))) :: g_log (after c acts)).
    { clear fs L s. intros fs. induction fs as [|e fs IH]; intros n t L C G Q; cbn [map app].
      - unfold runs. cbn [fold_left]. cbn [step]. rewrite Q. unfold patchStep. rewrite C, N.eqb_refl. cbn [g_procs g_coll g_log].
        rewrite setProc_same, K, G. repeat split; reflexivity.
      - destruct n as [|n]; [cbn in L; lia|]. rewrite runs_cons. apply IH with (n := n).
        + cbn in L; lia.
        + cbn [step]. rewrite Q. unfold patchStep. cbn [g_coll andb]. exact C.
        + cbn [step]. rewrite Q. unfold patchStep. cbn [g_log andb]. exact G.
        + cbn [step]. rewrite Q. unfold patchStep. cbn [g_procs andb]. apply setProc_same. }
    unfold s, after. rewrite runs_app. fold (after c acts). rewrite runs_cons.
    apply T with (n := 5); try exact L.
    - cbn [step]. rewrite P. reflexivity.
    - cbn [step]. rewrite P. reflexivity.
    - cbn [step]. rewrite P. cbn [g_procs]. rewrite setProc_same. unfold afterGet. rewrite S, K. reflexivity.
  Qed.
End C63.

Print Assumptions C63_signed_as_reviewed.
Print Assumptions C63_once.
Print Assumptions C63_exit.
Print Assumptions C63_as_seen.
Print Assumptions C63_records.
Print Assumptions C63_nothing_to_do.
Print Assumptions C63_signs.

(** Two publishers and two runs of the tool at once.  The first tool sees records 7 up for
    review; then somebody changes them to 8 and a review is asked for; its PATCH is refused
    (exit status 1).  The second one signs 8; the answer gets lost and its second PATCH is
    refused. *)
Example C63_example :
  let kinds := fun i => if Nat.ltb i 2 then KReview else KSign in
  let s := after nat kinds (mkColl 7 (Some (B "work-in-progress")) 100)
    [AGet 0 GOk; APatch 0 POk 0; AGet 2 GOk; AChange 8 0; AGet 1 GOk; AGet 3 GOk; APatch 1 POk 4;
     AGet 4 GOk; APatch 2 POk 0; APatch 4 (PError true) 0; APatch 4 POk 0] in
  g_log s = [Signed (Some 4) 8; Review 8; Changed 8; Review 7] /\
  map (g_procs s) [0; 1; 2; 3; 4; 5] = [Done 0; Done 0; Done 1; Done 0; Done 1; Start] /\
  c_status (g_coll s) = Some (B "signed").
Proof. vm_compute. repeat split. Qed.

(** ** C64: the guard on the size of the filter *)

(** The collections on which the script runs the tool. *)
Definition signsOff (bucket : bytes) (size : option N) (max : N) (name : bytes) : Prop :=
  In name (fst (signoffScript bucket size max)).
Definition ourBucket (bucket : bytes) : Prop :=
  In bucket [B "crlite-filters-prod"; B "crlite-filters-stage"; B "crlite-filters-dev"].

Lemma ourBucket_spec bucket :
  reflect (ourBucket bucket)
    (orb (beq bucket (B "crlite-filters-prod"))
         (orb (beq bucket (B "crlite-filters-stage")) (beq bucket (B "crlite-filters-dev")))).
Proof.
  unfold ourBucket.
  destruct (beq_spec bucket (B "crlite-filters-prod")) as [->|]; [constructor; left; reflexivity|].
  destruct (beq_spec bucket (B "crlite-filters-stage")) as [->|]; [constructor; right; left; reflexivity|].
  destruct (beq_spec bucket (B "crlite-filters-dev")) as [->|]; constructor; [right; right; left; reflexivity|].
  intros [X|[X|[X|[]]]]; congruence.
Qed.

(** With a filter on disk, the revocations are signed off exactly if its size is within the
    limit and the bucket is one of the three known ones; too large a filter gives exit
    status 1; nothing but the two collections is ever signed off. *)
Theorem C64_size_guard : forall bucket n max,
  (signsOff bucket (Some n) max (B "cert-revocations") <-> ourBucket bucket /\ (n <= max)%N) /\
  ((max < n)%N -> snd (signoffScript bucket (Some n) max) = Some 1%N).
Proof.
  intros bucket n max. unfold signsOff, signoffScript. destruct (ourBucket_spec bucket) as [O|O].
  - destruct (N.ltb_spec max n) as [L|L]; cbn [fst snd]; split.
    + split; [intros [X|[]]; discriminate|intros [_ X]; lia].
    + auto.
    + split; [auto|intros _; right; left; reflexivity].
    + lia.
  - cbn [fst snd]. split; [split; [intros []|intros [X _]; contradiction]|auto].
Qed.

Theorem C64_unknown_bucket : forall bucket size max, ~ ourBucket bucket -> signoffScript bucket size max = ([], Some 1%N).
Proof. intros bucket size max H. unfold signoffScript. destruct (ourBucket_spec bucket); [contradiction|reflexivity]. Qed.

(** The tool itself contacts the server for one of the two collections only, and never
    with "--noop" or with KINTO_NOOP set. *)
Theorem C64_tool_start : forall arg flag env t, toolStart arg flag env = inr t ->
  arg = match t with TRevocations => B "cert-revocations" | TIntermediates => B "intermediates" end /\
  flag = false /\ (env = None \/ env = Some []).
Proof.
  intros arg flag env t. unfold toolStart.
  destruct (beq_spec arg (B "cert-revocations")) as [->|]; [|destruct (beq_spec arg (B "intermediates")) as [->|]; [|discriminate]];
  destruct flag; try discriminate; destruct env as [[|]|]; try discriminate; cbn; intros E; injection E as <-; auto.
Qed.

(** For the two collections it does contact the server otherwise; for no other name, and
    then it ends with status 1; if told to do nothing it ends with status 0. *)
Theorem C64_tool_status : forall arg flag env,
  (forall t, toolStart (match t with TRevocations => B "cert-revocations" | TIntermediates => B "intermediates" end) false None = inr t) /\
  (~ In arg [B "cert-revocations"; B "intermediates"] -> toolStart arg flag env = inl 1%N) /\
  (In arg [B "cert-revocations"; B "intermediates"] -> flag = true \/ (exists c v, env = Some (c :: v)) -> toolStart arg flag env = inl 0%N).
Proof.
  intros arg flag env. split; [intros []; reflexivity|]. unfold toolStart. split.
  - intros N. destruct (beq_spec arg (B "cert-revocations")) as [->|]; [contradiction N; left; reflexivity|].
    destruct (beq_spec arg (B "intermediates")) as [->|]; [contradiction N; right; left; reflexivity|reflexivity].
  - intros I Q. assert (NO : orb flag match env with Some (_ :: _) => true | _ => false end = true).
    { destruct Q as [->|[c [v ->]]]; [reflexivity|apply orb_true_r]. } rewrite NO.
    destruct I as [<-|[<-|[]]]; reflexivity.
Qed.
Print Assumptions C64_tool_status.

(** False for the script as it is: the guard says nothing about a filter that is not
    there.  Whatever the limit, the revocations are signed off without a look at a
    filter.  (No program of the repository writes crlite_db/crlite.filter.) *)
Theorem C64_no_filter_refuted : exists bucket max, max = 0%N /\
  signsOff bucket None max (B "cert-revocations") /\ snd (signoffScript bucket None max) = None.
Proof. exists (B "crlite-filters-prod"), 0%N. vm_compute. auto. Qed.

Print Assumptions C64_size_guard.
Print Assumptions C64_unknown_bucket.
Print Assumptions C64_tool_start.
Print Assumptions C64_no_filter_refuted.

Example C64_example :
  signsOff (B "crlite-filters-stage") (Some 9000000%N) 10485760 (B "cert-revocations") /\
  ~ signsOff (B "crlite-filters-stage") (Some 10485761%N) 10485760 (B "cert-revocations") /\
  signsOff (B "crlite-filters-stage") (Some 10485761%N) 10485760 (B "intermediates") /\
  ~ ourBucket (B "crlite_filters_staging") /\
  toolStart (B "intermediates") false (Some []) = inr TIntermediates /\
  toolStart (B "cert-revocations") false (Some (B "false")) = inl 0%N.
Proof. vm_compute. repeat split; intuition discriminate. Qed.
