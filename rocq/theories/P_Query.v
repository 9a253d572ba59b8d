(** * The query tool: C40 to C42 and C57 *)
From Verif Require Import Base MerkleModel SerialModel P_SerialFile IssuersModel P_Issuers FilterModel FilterProofs QueryModel TextProofs.
From Coq Require Import Strings.Byte Sorting.Permutation.

Section QueryProofs.
  Variable F : Type.
  Variable contains : F -> bytes -> bytes -> list (bytes * N) -> filterStatus.
  Variable parseCert : bytes -> option cert.
  Variable pemParse : bytes -> option bytes.
  Variable verify : cert -> bytes -> bool.
  Variable sha : bytes -> bytes.
  Variable fromBytes : bytes -> option F.
  Local Notation query := (query F contains parseCert verify sha).
  Local Notation queryLoop := (queryLoop F contains).
  Local Notation db := (db F).

  (** ** C40: verdicts *)

  (** Specification.  [issuedBy]: the database has a certificate of the issuer with
      this key under which the signature verifies, none before it does.  [says]: a
      filter's own answer about the certificate. *)
  Definition issuedBy (d : db) (c : cert) (spki : bytes) : Prop :=
    exists l1 der l2 i, alookup (ct_issuer c) (db_ints F d) = Some (l1 ++ der :: l2) /\ parseCert der = Some i /\
      ct_spki i = spki /\ verify c spki = true /\ forall x j, In x l1 -> parseCert x = Some j -> verify c (ct_spki j) = false.
  Definition says (c : cert) (spki : bytes) (a : filterStatus) (f : F) : Prop := contains f (sha spki) (ct_serial c) (ct_scts c) = a.

  Lemma firstIssuer_some c : forall ders spki, firstIssuer parseCert verify c ders = Some spki <->
    exists l1 der l2 i, ders = l1 ++ der :: l2 /\ parseCert der = Some i /\
      ct_spki i = spki /\ verify c spki = true /\ forall x j, In x l1 -> parseCert x = Some j -> verify c (ct_spki j) = false.
  Proof.
    induction ders as [|x ders IH]; intros spki; cbn [firstIssuer].
    - split; [discriminate|]. intros [l1 [der [l2 [i [E _]]]]]. destruct l1; discriminate E.
    - destruct (parseCert x) as [i|] eqn:P; [destruct (verify c (ct_spki i)) eqn:V|].
      + split.
        * intros H. injection H as <-. exists [], x, ders, i. split; [reflexivity|]. split; [exact P|]. split; [reflexivity|]. split; [exact V|]. intros y j [].
        * intros [l1 [der [l2 [j [E [Pj [<- [Vj N]]]]]]]]. destruct l1 as [|y l1]; cbn [app] in E; injection E as -> E.
          -- rewrite P in Pj. injection Pj as ->. reflexivity.
          -- exfalso. rewrite (N y i (or_introl eq_refl) P) in V. discriminate V.
      + rewrite IH. split.
        * intros [l1 [der [l2 [j [-> [Pj [E [Vj N]]]]]]]]. exists (x :: l1), der, l2, j. split; [reflexivity|]. split; [exact Pj|]. split; [exact E|]. split; [exact Vj|].
          intros y k [->|I] Pk; [congruence|apply (N y k I Pk)].
        * intros [l1 [der [l2 [j [E [Pj [Q [Vj N]]]]]]]]. destruct l1 as [|y l1]; cbn [app] in E; injection E as -> E.
          -- exfalso. rewrite P in Pj. injection Pj as ->. congruence.
          -- exists l1, der, l2, j. split; [exact E|]. split; [exact Pj|]. split; [exact Q|]. split; [exact Vj|]. intros z k I. apply N. right; exact I.
      + rewrite IH. split.
        * intros [l1 [der [l2 [j [-> [Pj [E [Vj N]]]]]]]]. exists (x :: l1), der, l2, j. split; [reflexivity|]. split; [exact Pj|]. split; [exact E|]. split; [exact Vj|].
          intros y k [->|I] Pk; [congruence|apply (N y k I Pk)].
        * intros [l1 [der [l2 [j [E [Pj [Q [Vj N]]]]]]]]. destruct l1 as [|y l1]; cbn [app] in E; injection E as -> E.
          -- congruence.
          -- exists l1, der, l2, j. split; [exact E|]. split; [exact Pj|]. split; [exact Q|]. split; [exact Vj|]. intros z k I. apply N. right; exact I.
  Qed.

  Lemma lookup_issued d c spki : lookupSpki parseCert verify (db_ints F d) c = Some spki <-> issuedBy d c spki.
  Proof.
    unfold lookupSpki, issuedBy. destruct (alookup (ct_issuer c) (db_ints F d)) as [ders|].
    - rewrite firstIssuer_some. split; intros [l1 [der [l2 [i [E H]]]]]; exists l1, der, l2, i; (split; [congruence|exact H]).
    - split; [discriminate|]. intros [l1 [der [l2 [i [E _]]]]]. discriminate E.
  Qed.

  Lemma queryLoop_spec c spki : forall fs g n,
    match queryLoop fs (sha spki) c g n with
    | Revoked => Exists (says c spki FRevoked) fs
    | Good => ~ Exists (says c spki FRevoked) fs /\ (g = true \/ Exists (says c spki FGood) fs)
    | NotEnrolled => ~ Exists (says c spki FRevoked) fs /\ ~ Exists (says c spki FGood) fs /\ g = false /\ (n = true \/ Exists (says c spki FNotEnrolled) fs)
    | NotCovered => Forall (says c spki FNotCovered) fs /\ g = false /\ n = false
    | Expired => False
    end.
  Proof.
    induction fs as [|f fs IH]; intros g n.
    - cbn [QueryModel.queryLoop]. assert (N : forall P, ~ Exists P (@nil F)) by (intros P H; inversion H).
      destruct g; [split; [apply N|left; reflexivity]|]. destruct n; [split; [apply N|]; split; [apply N|]; auto|auto].
    - cbn [QueryModel.queryLoop]. unfold has. destruct (contains f (sha spki) (ct_serial c) (ct_scts c)) eqn:E.
      + specialize (IH true n). destruct (queryLoop fs (sha spki) c true n); try (destruct IH as [A IH]).
        * contradiction.
        * split; [intros H; inversion H; subst; [unfold says in *; congruence|contradiction]|]. right. left. exact E.
        * destruct IH as [X _]; discriminate X.
        * destruct IH as [_ [X _]]; discriminate X.
        * right. exact IH.
      + specialize (IH g n). destruct (queryLoop fs (sha spki) c g n); try (destruct IH as [A IH]).
        * contradiction.
        * split; [intros H; inversion H; subst; [unfold says in *; congruence|contradiction]|]. destruct IH as [IH|IH]; [left; exact IH|right; right; exact IH].
        * split; [constructor; [exact E|exact A]|exact IH].
        * destruct IH as [A2 [A3 IH]]. split; [intros H; inversion H; subst; [unfold says in *; congruence|contradiction]|].
          split; [intros H; inversion H; subst; [unfold says in *; congruence|contradiction]|]. split; [exact A3|]. destruct IH as [IH|IH]; [left; exact IH|right; right; exact IH].
        * right. exact IH.
      + specialize (IH g true). destruct (queryLoop fs (sha spki) c g true); try (destruct IH as [A IH]).
        * contradiction.
        * split; [intros H; inversion H; subst; [unfold says in *; congruence|contradiction]|]. destruct IH as [IH|IH]; [left; exact IH|right; right; exact IH].
        * destruct IH as [_ X]; discriminate X.
        * destruct IH as [A2 [A3 IH]]. split; [intros H; inversion H; subst; [unfold says in *; congruence|contradiction]|].
          split; [intros H; inversion H; subst; [unfold says in *; congruence|contradiction]|]. split; [exact A3|]. right. left. exact E.
        * right. exact IH.
      + left. exact E.
  Qed.

  (** The verdict, for every database and certificate. *)
  Theorem C40_verdict : forall d c,
    (query d c = Revoked <-> exists spki, issuedBy d c spki /\ ct_valid c = true /\ Exists (says c spki FRevoked) (db_filters F d)) /\
    (query d c = Good <-> exists spki, issuedBy d c spki /\ ct_valid c = true /\
       ~ Exists (says c spki FRevoked) (db_filters F d) /\ Exists (says c spki FGood) (db_filters F d)) /\
    (query d c = NotEnrolled <-> (forall spki, ~ issuedBy d c spki) \/
       exists spki, issuedBy d c spki /\ ct_valid c = true /\ ~ Exists (says c spki FRevoked) (db_filters F d) /\
         ~ Exists (says c spki FGood) (db_filters F d) /\ Exists (says c spki FNotEnrolled) (db_filters F d)) /\
    (query d c = NotCovered <-> exists spki, issuedBy d c spki /\ ct_valid c = true /\ Forall (says c spki FNotCovered) (db_filters F d)) /\
    (query d c = Expired <-> exists spki, issuedBy d c spki /\ ct_valid c = false).
  Proof.
    intros d c. unfold QueryModel.query. destruct (lookupSpki parseCert verify (db_ints F d) c) as [spki|] eqn:L.
    - apply lookup_issued in L.
      assert (U : forall s, issuedBy d c s -> s = spki).
      { intros s H. apply lookup_issued in H. apply lookup_issued in L. congruence. }
      destruct (ct_valid c) eqn:V.
      + pose proof (queryLoop_spec c spki (db_filters F d) false false) as Q.
        assert (X : forall P Q : F -> Prop, (forall f, P f -> Q f -> False) -> Forall P (db_filters F d) -> Exists Q (db_filters F d) -> False).
        { intros P Q0 HPQ HF HE. apply Exists_exists in HE. destruct HE as [f [I H]]. rewrite Forall_forall in HF. apply (HPQ f (HF f I) H). }
        assert (NE : forall a b, a <> b -> forall f, says c spki a f -> says c spki b f -> False) by (unfold says; congruence).
        destruct (queryLoop (db_filters F d) (sha spki) c false false) eqn:R.
        * destruct Q.
        * destruct Q as [Q1 [Q2|Q2]]; [discriminate Q2|].
          split; [split; [discriminate|]; intros [s [I [_ H]]]; rewrite (U s I) in H; contradiction|].
          split; [split; [intros _; exists spki; auto|reflexivity]|].
          split; [split; [discriminate|]; intros [H|[s [I [_ [_ [H _]]]]]]; [destruct (H spki L)|rewrite (U s I) in H; contradiction]|].
          split; [split; [discriminate|]; intros [s [I [_ H]]]; rewrite (U s I) in H; exfalso; apply (X _ _ (NE FNotCovered FGood ltac:(discriminate)) H Q2)|].
          split; [discriminate|]. intros [s [_ H]]; discriminate H.
        * destruct Q as [Q1 _].
          split; [split; [discriminate|]; intros [s [I [_ H]]]; rewrite (U s I) in H; exfalso; apply (X _ _ (NE FNotCovered FRevoked ltac:(discriminate)) Q1 H)|].
          split; [split; [discriminate|]; intros [s [I [_ [_ H]]]]; rewrite (U s I) in H; exfalso; apply (X _ _ (NE FNotCovered FGood ltac:(discriminate)) Q1 H)|].
          split; [split; [discriminate|]; intros [H|[s [I [_ [_ [_ H]]]]]]; [destruct (H spki L)|rewrite (U s I) in H; exfalso; apply (X _ _ (NE FNotCovered FNotEnrolled ltac:(discriminate)) Q1 H)]|].
          split; [split; [intros _; exists spki; auto|reflexivity]|].
          split; [discriminate|]. intros [s [_ H]]; discriminate H.
        * destruct Q as [Q1 [Q2 [_ [Q3|Q3]]]]; [discriminate Q3|].
          split; [split; [discriminate|]; intros [s [I [_ H]]]; rewrite (U s I) in H; contradiction|].
          split; [split; [discriminate|]; intros [s [I [_ [_ H]]]]; rewrite (U s I) in H; contradiction|].
          split; [split; [intros _; right; exists spki; auto|reflexivity]|].
          split; [split; [discriminate|]; intros [s [I [_ H]]]; rewrite (U s I) in H; exfalso; apply (X _ _ (NE FNotCovered FNotEnrolled ltac:(discriminate)) H Q3)|].
          split; [discriminate|]. intros [s [_ H]]; discriminate H.
        * split; [split; [intros _; exists spki; auto|reflexivity]|].
          split; [split; [discriminate|]; intros [s [I [_ [H _]]]]; rewrite (U s I) in H; contradiction|].
          split; [split; [discriminate|]; intros [H|[s [I [_ [H _]]]]]; [destruct (H spki L)|rewrite (U s I) in H; contradiction]|].
          split; [split; [discriminate|]; intros [s [I [_ H]]]; rewrite (U s I) in H; exfalso; apply (X _ _ (NE FNotCovered FRevoked ltac:(discriminate)) H Q)|].
          split; [discriminate|]. intros [s [_ H]]; discriminate H.
      + repeat (split; [split; [discriminate|]|]).
        * intros [s [_ [H _]]]; discriminate H.
        * intros [s [_ [H _]]]; discriminate H.
        * intros [H|[s [_ [H _]]]]; [destruct (H spki L)|discriminate H].
        * intros [s [_ [H _]]]; discriminate H.
        * split; [intros _; exists spki; auto|reflexivity].
    - assert (N : forall s, ~ issuedBy d c s) by (intros s H; apply lookup_issued in H; congruence).
      split; [split; [discriminate|]; intros [s [H _]]; destruct (N s H)|].
      split; [split; [discriminate|]; intros [s [H _]]; destruct (N s H)|].
      split; [split; [intros _; left; exact N|reflexivity]|].
      split; [split; [discriminate|]; intros [s [H _]]; destruct (N s H)|].
      split; [discriminate|]; intros [s [H _]]; destruct (N s H).
  Qed.

  (** The order in which the filters are loaded does not matter. *)
  Theorem C40_order_irrelevant : forall fs fs' ints c, Permutation fs fs' -> query (mkDb F fs ints) c = query (mkDb F fs' ints) c.
  Proof.
    intros fs fs' ints c P. unfold QueryModel.query. cbn [db_ints db_filters]. destruct (lookupSpki parseCert verify ints c) as [spki|]; [|reflexivity].
    destruct (ct_valid c); [|reflexivity].
    assert (E : forall Q, Exists Q fs <-> Exists Q fs').
    { intros Q. rewrite !Exists_exists. split; intros [f [I H]]; exists f; (split; [|exact H]); [apply (Permutation_in _ P I)|apply (Permutation_in _ (Permutation_sym P) I)]. }
    assert (EF : forall Q, Forall Q fs <-> Forall Q fs').
    { intros Q. rewrite !Forall_forall. split; intros H f I; apply H; [apply (Permutation_in _ (Permutation_sym P) I)|apply (Permutation_in _ P I)]. }
    assert (X : forall l (P Q : F -> Prop), (forall f, P f -> Q f -> False) -> Forall P l -> Exists Q l -> False).
    { intros l P0 Q0 HPQ HF HE. apply Exists_exists in HE. destruct HE as [f [I H]]. rewrite Forall_forall in HF. apply (HPQ f (HF f I) H). }
    pose proof (queryLoop_spec c spki fs false false) as A. pose proof (queryLoop_spec c spki fs' false false) as B.
    assert (NE : forall a b, a <> b -> forall f, says c spki a f -> says c spki b f -> False) by (unfold says; congruence).
    destruct (queryLoop fs (sha spki) c false false), (queryLoop fs' (sha spki) c false false); try reflexivity; exfalso;
      rewrite <- ?E, <- ?EF in B;
      repeat match goal with
      | H : False |- _ => destruct H
      | H : _ /\ _ |- _ => destruct H
      | H : false = true \/ _ |- _ => destruct H as [H|H]; [discriminate H|]
      end; try contradiction;
      match goal with
      | H : Forall (says c spki ?a) fs, H' : Exists (says c spki ?b) fs |- _ => exact (X fs _ _ (NE a b ltac:(discriminate)) H H')
      end.
  Qed.

  (** More filters: a verdict only moves up the order NotCovered, NotEnrolled,
      Good, Revoked (and the other two verdicts stay). *)
  Definition rank (s : status) : nat := match s with NotCovered => 0 | NotEnrolled => 1 | Good => 2 | Revoked => 3 | Expired => 4 end.
  Theorem C40_more_filters : forall fs fs' ints c, incl fs fs' ->
    (rank (query (mkDb F fs ints) c) <= rank (query (mkDb F fs' ints) c))%nat /\
    (query (mkDb F fs ints) c = Expired <-> query (mkDb F fs' ints) c = Expired).
  Proof.
    intros fs fs' ints c P. unfold QueryModel.query. cbn [db_ints db_filters]. destruct (lookupSpki parseCert verify ints c) as [spki|]; [|split; [lia|tauto]].
    destruct (ct_valid c); [|split; [lia|tauto]].
    assert (E : forall Q, Exists Q fs -> Exists Q fs').
    { intros Q. rewrite !Exists_exists. intros [f [I H]]; exists f; (split; [apply P; exact I|exact H]). }
    assert (X : forall l (P Q : F -> Prop), (forall f, P f -> Q f -> False) -> Forall P l -> Exists Q l -> False).
    { intros l P0 Q0 HPQ HF HE. apply Exists_exists in HE. destruct HE as [f [I H]]. rewrite Forall_forall in HF. apply (HPQ f (HF f I) H). }
    pose proof (queryLoop_spec c spki fs false false) as A. pose proof (queryLoop_spec c spki fs' false false) as B.
    assert (NE : forall a b, a <> b -> forall f, says c spki a f -> says c spki b f -> False) by (unfold says; congruence).
    destruct (queryLoop fs (sha spki) c false false), (queryLoop fs' (sha spki) c false false); cbn [rank];
      repeat match goal with
      | H : False |- _ => destruct H
      | H : _ /\ _ |- _ => destruct H
      | H : false = true \/ _ |- _ => destruct H as [H|H]; [discriminate H|]
      end; (split; [|split; discriminate]); try lia; exfalso;
      repeat match goal with H : Exists ?Q fs |- _ => apply E in H end; try contradiction;
      match goal with
      | H : Forall (says c spki ?a) fs', H' : Exists (says c spki ?b) fs' |- _ => exact (X fs' _ _ (NE a b ltac:(discriminate)) H H')
      end.
  Qed.

  (** The tables: the certificates kept for a name are exactly those of the list
      that can be read and have this subject, in order. *)
  Theorem C40_intermediates : forall pems name,
    (match alookup name (fromEnrolled parseCert pemParse pems) with Some l => l | None => [] end) =
    flat_map (fun p => match pemParse p with
                       | Some der => match parseCert der with Some i => if beq name (ct_subject i) then [der] else [] | None => [] end
                       | None => []
                       end) pems.
  Proof.
    intros pems name. unfold fromEnrolled.
    assert (G : forall m, (match alookup name (fold_left (addIntermediate parseCert pemParse) pems m) with Some l => l | None => [] end) =
      (match alookup name m with Some l => l | None => [] end) ++ flat_map (fun p => match pemParse p with
                       | Some der => match parseCert der with Some i => if beq name (ct_subject i) then [der] else [] | None => [] end
                       | None => [] end) pems).
    { induction pems as [|p pems IH]; intros m; cbn [fold_left flat_map]; [rewrite app_nil_r; reflexivity|]. rewrite IH, app_assoc. f_equal.
      unfold addIntermediate. destruct (pemParse p) as [der|]; [|rewrite app_nil_r; reflexivity]. destruct (parseCert der) as [i|]; [|rewrite app_nil_r; reflexivity].
      destruct (beq_spec name (ct_subject i)) as [->|NE].
      - rewrite alookup_aset_same. reflexivity.
      - rewrite alookup_aset_other by exact NE. rewrite app_nil_r. reflexivity. }
    rewrite (G []). reflexivity.
  Qed.

  Lemma load_perm : forall sorted fs l, (forall x, Permutation (sorted x) x) ->
    loadFilters F fromBytes sorted fs = Ok l ->
    exists l', Permutation l l' /\ Forall2 (fun e f => fromBytes (snd e) = Some f) (filter (fun e => isFilterName (fst e)) fs) l'.
  Proof.
    intros sorted fs l SP H. unfold loadFilters in H. apply bind_ok in H. destruct H as [x [H E]]. injection E as <-.
    exists (map snd x). split; [apply Permutation_map; apply SP|]. apply mapRes_ok in H. revert H. generalize (filter (fun e : bytes * bytes => isFilterName (fst e)) fs).
    intros y H. induction H as [|e b y x H _ IH]; cbn [map]; [constructor|]. constructor; [|exact IH].
    destruct (fromBytes (snd e)); [|discriminate H]. injection H as <-. reflexivity.
  Qed.

  (** Loading succeeds if every file with a filter name can be read as a filter,
      and then the filters are those of these files. *)
  Theorem C40_load : forall sorted fs, (forall x, Permutation (sorted x) x) ->
    ((exists l, loadFilters F fromBytes sorted fs = Ok l) <-> forall name data, In (name, data) fs -> filterFile name -> fromBytes data <> None) /\
    (forall l, loadFilters F fromBytes sorted fs = Ok l ->
       forall f, In f l <-> exists name data, In (name, data) fs /\ filterFile name /\ fromBytes data = Some f).
  Proof.
    intros sorted fs SP. split.
    - split.
      + intros [l H] name data I FN. destruct (load_perm sorted fs l SP H) as [l' [_ A]]. apply isFilterName_spec in FN.
        assert (IN : In (name, data) (filter (fun e => isFilterName (fst e)) fs)) by (apply filter_In; auto).
        revert IN. clear -A. induction A as [|e f y x E _ IH]; [intros []|]. intros [->|I]; [cbn [snd] in E; congruence|auto].
      + intros H. unfold loadFilters. assert (G : exists x, mapRes (fun e => match fromBytes (snd e) with Some f => Ok (fst e, f) | None => Err end) (filter (fun e => isFilterName (fst e)) fs) = Ok x).
        { assert (H' : forall e, In e (filter (fun e => isFilterName (fst e)) fs) -> fromBytes (snd e) <> None).
          { intros [n d] I. apply filter_In in I. destruct I as [I FN]. apply (H n d I). apply isFilterName_spec. exact FN. }
          revert H'. clear. generalize (filter (fun e : bytes * bytes => isFilterName (fst e)) fs). intros l. induction l as [|e l IH]; intros H; [exists []; reflexivity|].
          destruct IH as [x X]; [intros e' I; apply H; right; exact I|]. cbn [mapRes]. destruct (fromBytes (snd e)) as [f|] eqn:E; [|destruct (H e (or_introl eq_refl) E)].
          cbn [bind]. rewrite X. exists ((fst e, f) :: x). reflexivity. }
        destruct G as [x ->]. exists (map snd (sorted x)). reflexivity.
    - intros l H f. destruct (load_perm sorted fs l SP H) as [l' [P A]].
      assert (G : In f l' <-> exists name data, In (name, data) (filter (fun e => isFilterName (fst e)) fs) /\ fromBytes data = Some f).
      { clear -A. induction A as [|[n d] g y x E _ IH]; [split; [intros []|intros (? & ? & [] & _)]|]. cbn [In]. rewrite IH. cbn [snd] in E. split.
        - intros [->|(n' & d' & I & Q)]; [exists n, d; auto|exists n', d'; auto].
        - intros (n' & d' & [I|I] & Q); [injection I as <- <-; left; congruence|right; exists n', d'; auto]. }
      split.
      + intros I. apply (Permutation_in _ P) in I. apply G in I. destruct I as (n & d & I & Q). apply filter_In in I. destruct I as [I FN]. exists n, d. split; [exact I|]. split; [apply isFilterName_spec; exact FN|exact Q].
      + intros (n & d & I & FN & Q). apply (Permutation_in _ (Permutation_sym P)). apply G. exists n, d. split; [|exact Q]. apply filter_In. split; [exact I|]. apply isFilterName_spec. exact FN.
  Qed.

  (** ** C41: exit codes *)

  Local Notation queryBytes := (queryBytes F contains parseCert pemParse verify sha).

  Lemma certsLoop_spec d : forall files b, certsLoop F contains parseCert pemParse verify sha d files b = true <->
    b = true \/ exists input, In (Some input) files /\ queryBytes d input = Ok Revoked.
  Proof.
    induction files as [|[input|] files IH]; intros b; cbn [certsLoop].
    - split; [auto|]. intros [H|[i [[] _]]]; exact H.
    - assert (R : (exists i, In (Some i) (Some input :: files) /\ queryBytes d i = Ok Revoked) <->
                  queryBytes d input = Ok Revoked \/ exists i, In (Some i) files /\ queryBytes d i = Ok Revoked).
      { split.
        - intros [i [[E|I] H]]; [injection E as ->; left; exact H|right; exists i; auto].
        - intros [H|[i [I H]]]; [exists input; split; [left; reflexivity|exact H]|exists i; split; [right; exact I|exact H]]. }
      rewrite R. destruct (queryBytes d input) as [s| |] eqn:Q; rewrite IH.
      + destruct s; cbn [isRevoked]; try (split; [intros [H|H]; auto|intros [H|[H|H]]; auto; discriminate H]).
      + split; [intros [H|H]; auto|intros [H|[H|H]]; auto; discriminate H].
      + split; [intros [H|H]; auto|intros [H|[H|H]]; auto; discriminate H].
    - rewrite IH. split; (intros [H|[i [I H]]]; [auto|right; exists i; split; [|exact H]]); [right; exact I|destruct I as [I|I]; [discriminate I|exact I]].
  Qed.

  (** The certificate in an input: PEM, or else DER. *)
  Definition presented (input : bytes) (c : cert) : Prop :=
    exists der, (pemParse input = Some der \/ pemParse input = None /\ der = input) /\ parseCert der = Some c.
  Lemma queryBytes_spec d input s : queryBytes d input = Ok s <-> exists c, presented input c /\ query d c = s.
  Proof.
    unfold QueryModel.queryBytes, presented. split.
    - intros H. destruct (parseCert match pemParse input with Some x => x | None => input end) as [c|] eqn:E; [|discriminate H]. injection H as <-.
      exists c. split; [|reflexivity]. destruct (pemParse input) as [der|]; [exists der|exists input]; auto.
    - intros [c [[der [[H|[H ->]] P]] <-]]; rewrite H, P; reflexivity.
  Qed.

  Lemma files_bytes : forall d files,
    (exitCode (queryCerts F contains parseCert pemParse verify sha d files) = 1%N <-> exists input, In (Some input) files /\ queryBytes d input = Ok Revoked) /\
    (exitCode (queryCerts F contains parseCert pemParse verify sha d files) = 0%N <-> ~ exists input, In (Some input) files /\ queryBytes d input = Ok Revoked).
  Proof.
    intros d files. unfold queryCerts. pose proof (certsLoop_spec d files false) as H.
    destruct (certsLoop F contains parseCert pemParse verify sha d files false); cbn [resultOf exitCode].
    - assert (X : exists input, In (Some input) files /\ queryBytes d input = Ok Revoked) by (destruct (proj1 H eq_refl) as [Y|Y]; [discriminate Y|exact Y]).
      split; (split; [intros Y|intros Y]; try tauto; try discriminate Y). 
    - assert (X : ~ exists input, In (Some input) files /\ queryBytes d input = Ok Revoked) by (intros Y; discriminate (proj2 H (or_intror Y))).
      split; (split; [intros Y|intros Y]; try tauto; try discriminate Y).
  Qed.

  (** Certificates in files: exit status 1 exactly if one of the files that can be
      read and parsed holds a revoked certificate. *)
  Theorem C41_files : forall d files,
    let revoked := exists input c, In (Some input) files /\ presented input c /\ query d c = Revoked in
    (exitCode (queryCerts F contains parseCert pemParse verify sha d files) = 1%N <-> revoked) /\
    (exitCode (queryCerts F contains parseCert pemParse verify sha d files) = 0%N <-> ~ revoked).
  Proof.
    intros d files revoked. assert (E : (exists input, In (Some input) files /\ queryBytes d input = Ok Revoked) <-> revoked).
    { unfold revoked. split.
      - intros [i [I H]]. apply queryBytes_spec in H. destruct H as [c [P Q]]. exists i, c. auto.
      - intros (i & c & I & P & Q). exists i. split; [exact I|]. apply queryBytes_spec. exists c. auto. }
    rewrite <- E. apply files_bytes.
  Qed.

  Variable addrs : bytes -> N -> option (list N).
  Variable leaf : bytes -> N -> bool -> option bytes.
  Local Notation queryHost := (queryHost F contains parseCert verify sha addrs leaf).
  Local Notation queryHosts := (queryHosts F contains parseCert verify sha addrs leaf).

  (** Specification of one host: the answers at its addresses in the order of the
      attempts; the first that yields a certificate counts. *)
  Definition answers (host : bytes) (l : list N) : list (option cert) :=
    flat_map (fun a => map (fun b => match leaf host a b with Some der => parseCert der | None => None end) [false; true]) l.
  Definition hostCert (s : bytes) (c : cert) : Prop :=
    exists host port l pre post, namesHost s host port /\ addrs host port = Some l /\
      answers host l = pre ++ Some c :: post /\ forall x, In x pre -> x = None.
  Definition hostCert' (s : bytes) (c : cert) : Prop :=
    exists host port p l pre post, hostPort s = (host, port) /\ parseUint 65535 port = Some p /\ addrs host p = Some l /\
      answers host l = pre ++ Some c :: post /\ forall x, In x pre -> x = None.
  Lemma hostCert_iff s c : hostCert' s c <-> hostCert s c.
  Proof.
    unfold hostCert', hostCert. split.
    - intros (host & port & p & l & pre & post & H1 & H2 & H3). exists host, p, l, pre, post. split; [|exact H3]. apply hostPort_spec. exists port. auto.
    - intros (host & port & l & pre & post & H1 & H3). apply hostPort_spec in H1. destruct H1 as [p [H1 H2]]. exists host, p, port, l, pre, post. auto.
  Qed.

  Lemma addrLoop_spec d host : forall l r, addrLoop F contains parseCert verify sha leaf d host l = r ->
    match r with
    | Ok x => exists c pre post, answers host l = pre ++ Some c :: post /\ (forall y, In y pre -> y = None) /\ x = resultOf (isRevoked (query d c))
    | _ => forall y, In y (answers host l) -> y = None
    end.
  Proof.
    induction l as [|a l IH]; intros r H; cbn [addrLoop] in H.
    - subst r. intros y [].
    - change (answers host (a :: l)) with ((match leaf host a false with Some der => parseCert der | None => None end) ::
        (match leaf host a true with Some der => parseCert der | None => None end) :: answers host l).
      unfold queryAddr in H.
      assert (T : forall x, addrLoop F contains parseCert verify sha leaf d host l = x -> match x with
         | Ok x => exists c pre post, None :: None :: answers host l = pre ++ Some c :: post /\ (forall y, In y pre -> y = None) /\ x = resultOf (isRevoked (query d c))
         | _ => forall y, In y (None :: None :: answers host l) -> y = None end).
      { intros x Hx. specialize (IH x Hx). destruct x as [x| |].
        - destruct IH as [c [pre [post [E [N R]]]]]. exists c, (None :: None :: pre), post. rewrite E. split; [reflexivity|]. split; [|exact R].
          intros y [<-|[<-|I]]; [reflexivity|reflexivity|apply N; exact I].
        - intros y [<-|[<-|I]]; [reflexivity|reflexivity|apply IH; exact I].
        - intros y [<-|[<-|I]]; [reflexivity|reflexivity|apply IH; exact I]. }
      destruct (match leaf host a false with Some der => parseCert der | None => None end) as [c|] eqn:E1.
      + destruct (leaf host a false) as [der|]; [|discriminate E1]. rewrite E1 in H. subst r. eexists c, [], _. split; [reflexivity|]. split; [intros y []|reflexivity].
      + assert (H1 : match match leaf host a false with Some der => match parseCert der with Some c => Ok (resultOf (isRevoked (query d c))) | None => Err end | None => Err end with Ok r => Ok r | _ => Err end = @Err cmdResult).
        { destruct (leaf host a false) as [der|]; [|reflexivity]. rewrite E1. reflexivity. }
        destruct (match leaf host a false with Some der => match parseCert der with Some c => Ok (resultOf (isRevoked (query d c))) | None => Err end | None => Err end) eqn:Q1; [discriminate H1| |].
        * destruct (match leaf host a true with Some der => parseCert der | None => None end) as [c|] eqn:E2.
          -- destruct (leaf host a true) as [der|]; [|discriminate E2]. rewrite E2 in H. subst r. eexists c, [None], _. split; [reflexivity|].
             split; [intros y [<-|[]]; reflexivity|reflexivity].
          -- apply T. destruct (leaf host a true) as [der|]; [rewrite E2 in H|]; exact H.
        * exfalso. destruct (leaf host a false); [destruct (parseCert b)|]; discriminate Q1.
  Qed.

  Lemma queryHost_spec' d s :
    (forall r, queryHost d s = Ok r <-> exists c, hostCert' s c /\ r = resultOf (isRevoked (query d c))) /\
    ((forall r, queryHost d s <> Ok r) <-> forall c, ~ hostCert' s c).
  Proof.
    assert (U : forall c c', hostCert' s c -> hostCert' s c' -> c = c').
    { intros c c' [h [po [p [l [pre [post [A [B0 [C [D E]]]]]]]]]] [h' [po' [p' [l' [pre' [post' [A' [B' [C' [D' E']]]]]]]]]].
      rewrite A in A'. injection A' as <- <-. rewrite B0 in B'. injection B' as <-. rewrite C in C'. injection C' as <-. rewrite D in D'. clear -D' E E'.
      revert pre' D' E'. induction pre as [|x pre IH]; intros [|y pre'] D' E'; cbn [app] in D'; injection D' as D1 D2.
      - assumption.
      - subst y. discriminate (E' _ (or_introl eq_refl)).
      - subst x. discriminate (E _ (or_introl eq_refl)).
      - apply (IH ltac:(intros z I; apply E; right; exact I) pre' D2). intros z I; apply E'; right; exact I. }
    assert (S : match queryHost d s with Ok r => exists c, hostCert' s c /\ r = resultOf (isRevoked (query d c)) | _ => forall c, ~ hostCert' s c end).
    { unfold QueryModel.queryHost. destruct (hostPort s) as [host port] eqn:HP.
      destruct (parseUint 65535 port) as [p|] eqn:PP.
      2: { intros c [h [po [p [l [pre [post [A [B0 _]]]]]]]]. rewrite HP in A. injection A as <- <-. congruence. }
      destruct (addrs host p) as [l|] eqn:AA.
      2: { intros c [h [po [p' [l [pre [post [A [B0 [C _]]]]]]]]]. rewrite HP in A. injection A as <- <-. rewrite PP in B0. injection B0 as <-. congruence. }
      pose proof (addrLoop_spec d host l _ eq_refl) as L. destruct (addrLoop F contains parseCert verify sha leaf d host l) as [r| |].
      - destruct L as [c [pre [post [E [N R]]]]]. exists c. split; [|exact R]. exists host, port, p, l, pre, post. auto.
      - intros c [h [po [p' [l' [pre [post [A [B0 [C [D E]]]]]]]]]]. rewrite HP in A. injection A as <- <-. rewrite PP in B0. injection B0 as <-. rewrite AA in C. injection C as <-.
        rewrite D in L. discriminate (L (Some c) (in_elt _ _ _)).
      - intros c [h [po [p' [l' [pre [post [A [B0 [C [D E]]]]]]]]]]. rewrite HP in A. injection A as <- <-. rewrite PP in B0. injection B0 as <-. rewrite AA in C. injection C as <-.
        rewrite D in L. discriminate (L (Some c) (in_elt _ _ _)). }
    destruct (queryHost d s) as [r0| |].
    - destruct S as [c [H ->]]. split.
      + intros r. split; [intros E; injection E as <-; exists c; auto|]. intros [c' [H' ->]]. rewrite (U c c' H H'). reflexivity.
      + split; [intros E; destruct (E _ eq_refl)|]. intros N. destruct (N c H).
    - split; [intros r; split; [discriminate|intros [c [H _]]; destruct (S c H)]|]. split; [intros _; exact S|intros _ r; discriminate].
    - split; [intros r; split; [discriminate|intros [c [H _]]; destruct (S c H)]|]. split; [intros _; exact S|intros _ r; discriminate].
  Qed.

  Lemma queryHost_spec d s :
    (forall r, queryHost d s = Ok r <-> exists c, hostCert s c /\ r = resultOf (isRevoked (query d c))) /\
    ((forall r, queryHost d s <> Ok r) <-> forall c, ~ hostCert s c).
  Proof.
    destruct (queryHost_spec' d s) as [A B0]. split.
    - intros r. rewrite A. split; intros [c [H R]]; exists c; (split; [apply hostCert_iff; exact H|exact R]).
    - rewrite B0. split; intros H c K; apply (H c); apply hostCert_iff; exact K.
  Qed.

  (** Hosts: exit status 0 exactly if each host yields a certificate and none of
      these is revoked. *)
  Theorem C41_hosts : forall d hosts,
    exitCode (queryHosts d hosts) = 0%N <-> forall s, In s hosts -> exists c, hostCert s c /\ query d c <> Revoked.
  Proof.
    intros d hosts. unfold QueryModel.queryHosts.
    assert (G : forall b, exitCode (hostsLoop F contains parseCert verify sha addrs leaf d hosts b) = 0%N <->
              b = false /\ forall s, In s hosts -> exists c, hostCert s c /\ query d c <> Revoked).
    { induction hosts as [|h hosts IH]; intros b; cbn [hostsLoop].
      - destruct b; cbn [resultOf exitCode]; (split; [intros H|intros [H _]]); try discriminate H; try reflexivity. split; [reflexivity|intros s []].
      - destruct (queryHost_spec d h) as [A NA]. destruct (queryHost d h) as [r| |] eqn:Q; cbn [bind].
        + destruct (proj1 (A r) eq_refl) as [c [HC R]]. rewrite IH. subst r. split.
          * intros [E H]. destruct (query d c) eqn:V; cbn [isRevoked resultOf] in E; try discriminate E;
              (split; [exact E|]; intros s [<-|I]; [exists c; split; [exact HC|congruence]|apply H; exact I]).
          * intros [-> H]. split; [|intros s I; apply H; right; exact I]. destruct (H h (or_introl eq_refl)) as [c' [HC' V]].
            assert (E : resultOf (isRevoked (query d c)) = resultOf (isRevoked (query d c'))).
            { assert (X : Ok (resultOf (isRevoked (query d c))) = Ok (resultOf (isRevoked (query d c')))) by (apply (A (resultOf (isRevoked (query d c')))); exists c'; auto).
              injection X; auto. }
            rewrite E. destruct (query d c'); cbn [isRevoked resultOf]; congruence.
        + split; [discriminate|]. intros [_ H]. destruct (H h (or_introl eq_refl)) as [c [HC _]]. exfalso. apply ((proj1 NA) ltac:(discriminate) c HC).
        + split; [discriminate|]. intros [_ H]. destruct (H h (or_introl eq_refl)) as [c [HC _]]. exfalso. apply ((proj1 NA) ltac:(discriminate) c HC). }
    rewrite G. tauto.
  Qed.
End QueryProofs.
Print Assumptions C40_verdict.
Print Assumptions C40_order_irrelevant.
Print Assumptions C40_more_filters.
Print Assumptions C40_intermediates.
Print Assumptions C40_load.
Print Assumptions C41_files.
Print Assumptions C41_hosts.

(** The other two commands: the exit status is 0 exactly if the download worked
    and the answer is not "revoked". *)
Theorem C41_other_commands : forall F contains parseCert pemParse verify sha addrs leaf d,
  (forall reply, exitCode (queryCrtsh F contains parseCert pemParse verify sha d reply) = 0%N <->
     exists b c, reply = Some b /\ presented parseCert pemParse b c /\ query F contains parseCert verify sha d c <> Revoked) /\
  (forall text, exitCode (signoff F contains parseCert verify sha addrs leaf d text) = 0%N <->
     exists t, text = Some t /\ forall s, listed t s -> exists c, hostCert parseCert addrs leaf s c /\ query F contains parseCert verify sha d c <> Revoked).
Proof.
  intros F contains parseCert pemParse verify sha addrs leaf d. split.
  - intros reply. assert (EQ : (exists b c, reply = Some b /\ presented parseCert pemParse b c /\ query F contains parseCert verify sha d c <> Revoked) <->
      exists b s, reply = Some b /\ queryBytes F contains parseCert pemParse verify sha d b = Ok s /\ s <> Revoked).
    { split.
      - intros (b & c & H1 & H2 & H3). exists b, (query F contains parseCert verify sha d c). split; [exact H1|]. split; [|exact H3]. apply queryBytes_spec. exists c. auto.
      - intros (b & s & H1 & H2 & H3). apply queryBytes_spec in H2. destruct H2 as [c [P Q]]. exists b, c. rewrite Q. auto. }
    rewrite EQ. clear EQ. revert reply.
    intros [b|]; cbn [queryCrtsh]; [|split; [discriminate|intros [b [s [E _]]]; discriminate E]].
    destruct (queryBytes F contains parseCert pemParse verify sha d b) as [s| |] eqn:Q; cbn [bind].
    + split.
      * intros H. exists b, s. split; [reflexivity|]. split; [exact Q|]. intros ->. discriminate H.
      * intros [b' [s' [E [Q' N]]]]. injection E as <-. rewrite Q in Q'. injection Q' as <-. destruct s; cbn; congruence.
    + split; [discriminate|]. intros [b' [s' [E [Q' N]]]]. injection E as <-. congruence.
    + split; [discriminate|]. intros [b' [s' [E [Q' N]]]]. injection E as <-. congruence.
  - intros [t|]; cbn [signoff]; [|split; [discriminate|intros [t [E _]]; discriminate E]].
    rewrite C41_hosts. split; [intros H; exists t; split; [reflexivity|]; intros s L; apply H, hostLines_spec, L|]. intros [t' [E H]] s L. injection E as <-. apply H, hostLines_spec, L.
Qed.
Print Assumptions C41_other_commands.

(** Two filters that know one issuer: the older answers by its first key, the
    delta adds a serial. *)
Definition qContains (f : list bytes) (k s : bytes) (ts : list (bytes * N)) : filterStatus :=
  if beq k (B "K") then (if memb s f then FRevoked else match ts with [] => FNotCovered | _ => FGood end) else FNotEnrolled.
Definition qLeaf (s k : bytes) (v : bool) (t : list (bytes * N)) : cert := mkCert (B "leaf") (B "CA") s k v t.
Definition qParse (d : bytes) : option cert :=
  match d with
  | [] => None
  | c :: s => if Byte.eqb c "i" then Some (mkCert (B "CA") (B "root") [] s true []) else Some (mkCert (B "leaf") (B "CA") s (B "K") true [(B "log", 5%N)])
  end.
Definition qVerify (c : cert) (k : bytes) : bool := beq (ct_spki c) k.
Definition qDb : db (list bytes) := mkDb _ [[B "1"]; [B "2"]] (fromEnrolled qParse (fun p => Some p) [B "iJ"; B "iK"; []]).
Example C40_example :
  let q := query (list bytes) qContains qParse qVerify (fun k => k) qDb in
  q (qLeaf (B "2") (B "K") true [(B "log", 5%N)]) = Revoked /\ q (qLeaf (B "3") (B "K") true [(B "log", 5%N)]) = Good /\
  q (qLeaf (B "3") (B "K") true []) = NotCovered /\ q (qLeaf (B "2") (B "X") true []) = NotEnrolled /\ q (qLeaf (B "2") (B "J") true []) = NotEnrolled /\ q (qLeaf (B "2") (B "K") false []) = Expired.
Proof. vm_compute. repeat split. Qed.
Example C41_example :
  exitCode (queryCerts (list bytes) qContains qParse (fun _ => None) qVerify (fun k => k) qDb [Some (B "c3"); None; Some (B "c2")]) = 1%N /\
  exitCode (queryCerts (list bytes) qContains qParse (fun _ => None) qVerify (fun k => k) qDb [Some (B "c3"); None; Some []]) = 0%N /\
  hostLines (B "  example.org " ++ [nl] ++ B "# x" ++ [cr; nl; nl] ++ B "b:8443") = [B "example.org"; B "b:8443"] /\
  exitCode (queryHosts (list bytes) qContains qParse qVerify (fun k => k) (fun h p => if (p =? 443)%N then Some [7%N] else Some [])
     (fun h a second => if second then Some (B "c3") else None) qDb [B "example.org"]) = 0%N /\
  exitCode (queryHosts (list bytes) qContains qParse qVerify (fun k => k) (fun h p => if (p =? 443)%N then Some [7%N] else Some [])
     (fun h a second => if second then Some (B "c3") else None) qDb [B "example.org"; B "b:8443"]) = 1%N.
Proof. vm_compute. repeat split. Qed.

(** ** C42: updating *)

Section Update.
  Variable sha : bytes -> bytes.
  Variable removes : bytes -> bool.
  Variable fetch : bytes -> option bytes.
  Variable readable : bytes -> bool.
  Variable writes : bytes -> bytes -> writeResult.
  Local Notation updateDb := (updateDb sha removes fetch readable writes).
  Local Notation fetchLoop := (fetchLoop sha fetch readable writes).

  (** What the published records demand of the directory. *)
  Definition published (ch : channel) (rs : list revRecord) (r : revRecord) : Prop :=
    In r rs /\ (rc_channel r = Some ch \/ (rc_channel r = None /\ ch = ChDefault)).
  Definition holds (fs : dir) (r : revRecord) : Prop :=
    exists data, alookup (rc_filename r) fs = Some data /\ spells (sha data) (rc_hash r).

  Lemma ofChannel_spec ch rs r : In r (filter (ofChannel ch) rs) <-> published ch rs r.
  Proof.
    rewrite filter_In. unfold published, ofChannel. destruct (rc_channel r) as [[]|]; destruct ch; cbn [channelEqb];
      (split; [intros [A B]; try discriminate B; auto|intros [A [B|[B C]]]; try discriminate B; try discriminate C; auto]).
  Qed.

  Lemma fetchLoop_ok : forall l fs fs', fetchLoop fs l = (Ok tt, fs') ->
    (forall r r', In r l -> In r' l -> rc_filename r = rc_filename r' -> rc_hash r = rc_hash r') ->
    (forall r, In r l -> holds fs' r) /\
    (forall n, (forall r, In r l -> rc_filename r <> n) -> alookup n fs' = alookup n fs) /\
    (forall n d, alookup n fs' = Some d -> alookup n fs = Some d \/ exists r, In r l /\ rc_filename r = n /\ fetch (rc_location r) = Some d).
  Proof.
    induction l as [|r l IH]; intros fs fs' H U.
    - cbn in H. injection H as <-. split; [intros r []|]. split; [reflexivity|auto].
    - cbn [QueryModel.fetchLoop] in H. destruct (hexDecode (rc_hash r)) as [ex|] eqn:HX; [|discriminate H].
      assert (STEP : forall fs1, fetchLoop fs1 l = (Ok tt, fs') -> holds fs1 r -> (forall n, n <> rc_filename r -> alookup n fs1 = alookup n fs) ->
         (forall d, alookup (rc_filename r) fs1 = Some d -> alookup (rc_filename r) fs = Some d \/ fetch (rc_location r) = Some d) ->
         (forall r0, In r0 (r :: l) -> holds fs' r0) /\ (forall n, (forall r0, In r0 (r :: l) -> rc_filename r0 <> n) -> alookup n fs' = alookup n fs) /\
         (forall n d, alookup n fs' = Some d -> alookup n fs = Some d \/ exists r0, In r0 (r :: l) /\ rc_filename r0 = n /\ fetch (rc_location r0) = Some d)).
      { intros fs1 H1 HR K1 K2. destruct (IH fs1 fs' H1) as [A [B0 C]]; [intros a b Ia Ib; apply U; right; assumption|]. split; [|split].
        - intros r0 [<-|I]; [|apply A; exact I].
          destruct (in_dec bytes_eq_dec (rc_filename r) (map rc_filename l)) as [D|D].
          + apply in_map_iff in D. destruct D as [r1 [E I]]. destruct (A r1 I) as [d [L X]]. exists d. rewrite E in L. split; [exact L|].
            rewrite (U r r1 (or_introl eq_refl) (or_intror I) (eq_sym E)). exact X.
          + destruct HR as [d [L X]]. exists d. split; [|exact X]. rewrite B0; [exact L|]. intros r1 I E. apply D. apply in_map_iff. exists r1; auto.
        - intros n N. rewrite B0 by (intros r0 I; apply N; right; exact I). apply K1. intros E. apply (N r (or_introl eq_refl)). auto.
        - intros n d L. destruct (C n d L) as [Q|[r0 [I Q]]]; [|right; exists r0; split; [right; exact I|exact Q]].
          destruct (bytes_eq_dec n (rc_filename r)) as [->|NE].
          + destruct (K2 d Q) as [Q'|Q']; [left; exact Q'|right; exists r; split; [left; reflexivity|]; auto].
          + left. rewrite K1 in Q by exact NE. exact Q. }
      assert (DL : match fetch (rc_location r) with
              | None => (Err, fs)
              | Some b =>
                  if beq ex (sha b) then
                    match writes (rc_filename r) b with
                    | WOk => fetchLoop (aset (rc_filename r) b fs) l
                    | WFail (Some x) => (Err, aset (rc_filename r) x fs)
                    | WFail None => (Err, fs)
                    end
                  else (Err, fs)
              end = (Ok tt, fs') -> (forall r0, In r0 (r :: l) -> holds fs' r0) /\ (forall n, (forall r0, In r0 (r :: l) -> rc_filename r0 <> n) -> alookup n fs' = alookup n fs) /\
         (forall n d, alookup n fs' = Some d -> alookup n fs = Some d \/ exists r0, In r0 (r :: l) /\ rc_filename r0 = n /\ fetch (rc_location r0) = Some d)).
      { intros D. destruct (fetch (rc_location r)) as [b|] eqn:FB; [|discriminate D]. destruct (beq_spec ex (sha b)) as [->|]; [|discriminate D].
        destruct (writes (rc_filename r) b) as [|[x|]]; try discriminate D. apply (STEP _ D).
        - exists b. split; [apply alookup_aset_same|apply spells_decode; exact HX].
        - intros n NE. apply alookup_aset_other. exact NE.
        - intros d L. rewrite alookup_aset_same in L. injection L as <-. right; reflexivity. }
      destruct (alookup (rc_filename r) fs) as [cur|] eqn:L; [|apply DL; exact H].
      destruct (readable (rc_filename r)); [|discriminate H]. destruct (beq_spec ex (sha cur)) as [->|]; [|apply DL; exact H].
      apply (STEP fs H); [exists cur; split; [exact L|apply spells_decode; exact HX]|reflexivity|]. intros d Ld. left. congruence.
  Qed.

  Lemma sweep_in fs ex e : In e (sweep removes fs ex) <-> In e fs /\ (isFilterName (fst e) = true -> In (fst e) ex \/ removes (fst e) = false).
  Proof.
    unfold sweep. rewrite filter_In. split.
    - intros [I H]. split; [exact I|]. intros N. rewrite N in H. cbn [andb] in H. destruct (memb (fst e) ex) eqn:M; [left; apply memb_in; exact M|].
      cbn [negb andb] in H. destruct (removes (fst e)); [discriminate H|right; reflexivity].
    - intros [I H]. split; [exact I|]. destruct (isFilterName (fst e)); [|reflexivity]. cbn [andb]. destruct (H eq_refl) as [A|A].
      + apply memb_in in A. rewrite A. reflexivity.
      + rewrite A. rewrite andb_false_r. reflexivity.
  Qed.

  Lemma alookup_in_keys {V} (m : list (bytes * V)) k : alookup k m <> None <-> In k (map fst m).
  Proof.
    induction m as [|[k' v] m IH]; cbn [alookup map fst In]; [tauto|]. destruct (beq_spec k k') as [->|NE].
    - split; [auto|discriminate].
    - rewrite IH. split; [auto|]. intros [E|H]; [congruence|exact H].
  Qed.

  (** After a successful update: there is exactly one published full filter; every
      published file is there with the published digest; every other filter or
      delta is gone, unless it could not be removed; other files are as they were. *)
  Theorem C42_updated : forall fs ch rs fs', NoDup (map fst fs) ->
    updateDb fs ch (Some rs) = (Ok tt, fs') ->
    (forall r r', published ch rs r -> published ch rs r' -> rc_filename r = rc_filename r' -> rc_hash r = rc_hash r') ->
    (exists r, published ch rs r /\ rc_incremental r = false) /\
    (forall r, published ch rs r -> holds fs' r) /\
    (forall name, filterFile name -> (exists d, alookup name fs' = Some d) ->
       (exists r, published ch rs r /\ rc_filename r = name) \/ (removes name = false /\ alookup name fs' = alookup name fs)) /\
    (forall name, (forall r, published ch rs r -> rc_filename r <> name) -> ~ filterFile name -> alookup name fs' = alookup name fs).
  Proof.
    intros fs ch rs fs' ND H U. cbn [QueryModel.updateDb] in H.
    destruct (length (filter (fun r => negb (rc_incremental r)) (filter (ofChannel ch) rs)) =? 1)%nat eqn:L; [|discriminate H].
    apply Nat.eqb_eq in L.
    destruct (fetchLoop_ok _ _ _ H) as [A [B0 _]]; [intros r r' I I'; apply U; apply ofChannel_spec; assumption|].
    assert (NS : NoDup (map fst (sweep removes fs (map rc_filename (filter (ofChannel ch) rs))))).
    { unfold sweep. clear -ND. induction fs as [|e fs IH]; [constructor|]. cbn [map] in ND. apply NoDup_cons_iff in ND. destruct ND as [N ND]. cbn [filter].
      destruct (negb _); [|apply IH; exact ND]. cbn [map]. constructor; [|apply IH; exact ND]. intros I. apply N. apply in_map_iff in I. destruct I as [x [E I]].
      apply filter_In in I. apply in_map_iff. exists x. tauto. }
    assert (SW : forall n d, alookup n (sweep removes fs (map rc_filename (filter (ofChannel ch) rs))) = Some d <->
              alookup n fs = Some d /\ (isFilterName n = true -> In n (map rc_filename (filter (ofChannel ch) rs)) \/ removes n = false)).
    { intros n d. rewrite (alookup_nodup _ n d NS), sweep_in, <- (alookup_nodup fs n d ND). reflexivity. }
    split; [|split; [|split]].
    - destruct (filter (fun r => negb (rc_incremental r)) (filter (ofChannel ch) rs)) as [|r [|]] eqn:E; try discriminate L.
      assert (I : In r (filter (fun r => negb (rc_incremental r)) (filter (ofChannel ch) rs))) by (rewrite E; left; reflexivity).
      apply filter_In in I. destruct I as [I N]. apply ofChannel_spec in I. exists r. split; [exact I|]. destruct (rc_incremental r); [discriminate N|reflexivity].
    - intros r P. apply A. apply ofChannel_spec. exact P.
    - intros name FN [d D]. apply isFilterName_spec in FN. destruct (in_dec bytes_eq_dec name (map rc_filename (filter (ofChannel ch) rs))) as [I|I].
      + left. apply in_map_iff in I. destruct I as [r [E I]]. exists r. split; [apply ofChannel_spec; exact I|exact E].
      + right. assert (X : forall r, In r (filter (ofChannel ch) rs) -> rc_filename r <> name) by (intros r Ir E; apply I; apply in_map_iff; exists r; auto).
        rewrite (B0 name X) in D |- *. pose proof (proj1 (SW name d) D) as [D1 D2]. destruct (D2 FN) as [Y|Y]; [contradiction|]. split; [exact Y|]. congruence.
    - intros name X FN. apply isFilterName_false in FN. rewrite B0 by (intros r I; apply X; apply ofChannel_spec; exact I).
      destruct (alookup name fs) as [d|] eqn:D.
      + apply SW. split; [exact D|]. rewrite FN. discriminate.
      + destruct (alookup name (sweep removes fs (map rc_filename (filter (ofChannel ch) rs)))) as [d|] eqn:D2; [|reflexivity].
        apply SW in D2. destruct D2 as [D2 _]. congruence.
  Qed.

  (** From any directory, in particular one left by a failed update: if exactly one
      full filter is published, the digests are right for what the server sends, and
      the file system works, then the update succeeds. *)
  Theorem C42_retry : forall fs ch rs,
    length (filter (fun r => negb (rc_incremental r)) (filter (ofChannel ch) rs)) = 1%nat ->
    (forall r, published ch rs r -> exists b, fetch (rc_location r) = Some b /\ spells (sha b) (rc_hash r)) ->
    (forall n, readable n = true) -> (forall n b, writes n b = WOk) ->
    exists fs', updateDb fs ch (Some rs) = (Ok tt, fs').
  Proof.
    intros fs ch rs L HF HR HW. cbn [QueryModel.updateDb]. rewrite L. cbn [Nat.eqb].
    assert (HF' : forall r, In r (filter (ofChannel ch) rs) -> exists b, fetch (rc_location r) = Some b /\ hexDecode (rc_hash r) = Some (sha b))
      by (intros r I; apply ofChannel_spec in I; destruct (HF r I) as [b [E X]]; exists b; split; [exact E|apply spells_decode; exact X]).
    generalize (sweep removes fs (map rc_filename (filter (ofChannel ch) rs))). revert HF'. generalize (filter (ofChannel ch) rs).
    induction l as [|r l IH]; intros HF' g; [exists g; reflexivity|]. cbn [QueryModel.fetchLoop].
    destruct (HF' r (or_introl eq_refl)) as [b [E1 E2]]. rewrite E1, E2, HR, beq_refl, HW.
    assert (IH' : forall g, exists fs', fetchLoop g l = (Ok tt, fs')) by (intros g0; apply IH; intros x I; apply HF'; right; exact I).
    destruct (alookup (rc_filename r) g) as [cur|]; [destruct (beq (sha b) (sha cur))|]; apply IH'.
  Qed.
End Update.
Print Assumptions C42_updated.
Print Assumptions C42_retry.

(** An update that replaces a filter, fetches a delta, keeps a good file and
    drops a stale one. *)
Definition uSha (b : bytes) : bytes := rev b.
Definition uRecs : list revRecord :=
  [mkRec (hexEncode (uSha (B "F2"))) (B "20260102-0-default.filter") (B "loc1") false None;
   mkRec (hexEncode (uSha (B "D3"))) (B "20260103-0-default.filter.delta") (B "loc2") true (Some ChDefault);
   mkRec (hexEncode (uSha (B "P"))) (B "20260102-0-compat.filter") (B "loc3") false (Some ChCompat)].
Definition uFetch (l : bytes) : option bytes := if beq l (B "loc1") then Some (B "F2") else if beq l (B "loc2") then Some (B "D3") else None.
Example C42_example :
  updateDb uSha (fun _ => true) uFetch (fun _ => true) (fun _ _ => WOk)
    [(B "20260101-0-default.filter", B "F1"); (B "20260103-0-default.filter.delta", B "cut"); (B "crlite.intermediates", B "i"); (B ".filter", B "x")]
    ChDefault (Some uRecs) =
  (Ok tt, [(B "20260103-0-default.filter.delta", B "D3"); (B "20260102-0-default.filter", B "F2"); (B "crlite.intermediates", B "i"); (B ".filter", B "x")]).
Proof. vm_compute. reflexivity. Qed.

(** Two published records with one name: only the last is on disk. *)
Theorem C42_same_name_refuted : exists fs rs fs' r, NoDup (map fst fs) /\
  updateDb uSha (fun _ => true) uFetch (fun _ => true) (fun _ _ => WOk) fs ChDefault (Some rs) = (Ok tt, fs') /\
  published ChDefault rs r /\ ~ holds uSha fs' r.
Proof.
  set (rs := [mkRec (hexEncode (uSha (B "F2"))) (B "a.filter") (B "loc1") false None; mkRec (hexEncode (uSha (B "D3"))) (B "a.filter") (B "loc2") true None]).
  exists [], rs, [(B "a.filter", B "D3")], (mkRec (hexEncode (uSha (B "F2"))) (B "a.filter") (B "loc1") false None).
  split; [constructor|]. split; [vm_compute; reflexivity|]. split; [split; [left; reflexivity|right; auto]|].
  intros [d [E X]]. cbn in E. injection E as <-. apply spells_decode in X. vm_compute in X. discriminate X.
Qed.
Print Assumptions C42_same_name_refuted.

(** A failed update is not undone: the old filter is gone, the new one is not
    there, and a certificate that was reported revoked no longer is. *)
Theorem C42_failed_update_refuted : exists fs rs fs' c,
  let read := fun b => Some (splitOn ","%byte b) in
  let q := fun fl => query (list bytes) qContains qParse qVerify (fun k => k) (mkDb _ fl (fromEnrolled qParse (fun p => Some p) [B "iK"])) c in
  exists l l', loadFilters (list bytes) read (fun x => x) fs = Ok l /\ q l = Revoked /\
  updateDb uSha (fun _ => true) (fun _ => None) (fun _ => true) (fun _ _ => WOk) fs ChDefault (Some rs) = (Err, fs') /\
  loadFilters (list bytes) read (fun x => x) fs' = Ok l' /\ q l' = NotCovered.
Proof.
  exists [(B "20260101-0-default.filter", B "1,2")], uRecs, [], (qLeaf (B "2") (B "K") true [(B "log", 5%N)]). cbv zeta.
  exists [[B "1"; B "2"]], []. vm_compute. repeat split.
Qed.
Print Assumptions C42_failed_update_refuted.

(** ** C57: the intermediates are those of the newest run on disk *)

Lemma fold_bounds : forall s acc, forallb isDigit s = true ->
  (fold_left (fun n c => 10 * n + (Byte.to_N c - 48))%N s acc < (acc + 1) * 10 ^ N.of_nat (length s) /\
   acc * 10 ^ N.of_nat (length s) <= fold_left (fun n c => 10 * n + (Byte.to_N c - 48))%N s acc)%N.
Proof.
  induction s as [|c s IH]; intros acc H; cbn [fold_left length forallb] in *.
  - change (10 ^ N.of_nat 0)%N with 1%N. lia.
  - apply andb_true_iff in H. destruct H as [D H]. unfold isDigit in D. apply andb_true_iff in D. destruct D as [D1 D2]. apply N.leb_le in D1, D2.
    destruct (IH (10 * acc + (Byte.to_N c - 48))%N H) as [A B]. rewrite Nat2N.inj_succ, N.pow_succ_r'.
    set (p := (10 ^ N.of_nat (length s))%N) in *. assert (0 < p)%N by (unfold p; apply N.neq_0_lt_0; apply N.pow_nonzero; lia). nia.
Qed.

(** On texts of digits of one length the bytewise order is the numeric one. *)
Lemma ltb_value : forall a b acc, length a = length b -> forallb isDigit a = true -> forallb isDigit b = true ->
  (bytesLtb a b = true <-> (fold_left (fun n c => 10 * n + (Byte.to_N c - 48))%N a acc < fold_left (fun n c => 10 * n + (Byte.to_N c - 48))%N b acc)%N).
Proof.
  induction a as [|x a IH]; intros [|y b] acc L Ha Hb; try discriminate L; cbn [bytesLtb fold_left].
  - split; [discriminate|lia].
  - cbn [forallb] in Ha, Hb. apply andb_true_iff in Ha, Hb. destruct Ha as [Dx Ha], Hb as [Dy Hb]. cbn [length] in L. injection L as L.
    unfold isDigit in Dx, Dy. apply andb_true_iff in Dx, Dy. destruct Dx as [X1 X2], Dy as [Y1 Y2]. apply N.leb_le in X1, X2, Y1, Y2.
    destruct (fold_bounds a (10 * acc + (Byte.to_N x - 48))%N Ha) as [A1 A2]. destruct (fold_bounds b (10 * acc + (Byte.to_N y - 48))%N Hb) as [B1 B2].
    rewrite L in A1, A2. assert (P : (0 < 10 ^ N.of_nat (length b))%N) by (apply N.neq_0_lt_0; apply N.pow_nonzero; lia).
    destruct (N.ltb_spec (Byte.to_N x) (Byte.to_N y)) as [XY|XY].
    + split; [intros _|reflexivity]. set (p := (10 ^ N.of_nat (length b))%N) in *. nia.
    + destruct (N.ltb_spec (Byte.to_N y) (Byte.to_N x)) as [YX|YX].
      * split; [discriminate|]. set (p := (10 ^ N.of_nat (length b))%N) in *. nia.
      * assert (E : Byte.to_N x = Byte.to_N y) by lia. rewrite E in *. apply (IH b _ L Ha Hb).
Qed.

(** The file names that belong to run [n] of [date]: eight digits, a hyphen, the
    number, and then the end or another hyphen. *)
Definition ofRun (name date : bytes) (n : N) : Prop :=
  exists sign ds rest, name = date ++ "-"%byte :: sign ++ ds ++ rest /\ (sign = [] \/ sign = ["+"%byte]) /\
    (rest = [] \/ exists r, rest = "-"%byte :: r) /\ ds <> [] /\ forallb isDigit ds = true /\ valueOf ds = n /\ (n < 2 ^ 32)%N /\
    length date = 8%nat /\ forallb isDigit date = true.

Lemma splitAt_spec c : forall s acc, exists p q, splitAt c acc s = (rev acc ++ p) :: q /\ ~ In c p /\
  (q = [] /\ s = p \/ exists s', s = p ++ c :: s' /\ q = splitAt c [] s').
Proof.
  induction s as [|x s IH]; intros acc; cbn [splitAt].
  - exists [], []. rewrite app_nil_r. split; [reflexivity|]. split; [intros []|left; auto].
  - destruct (Byte.eqb x c) eqn:E.
    + apply Byte.byte_dec_bl in E. subst x. exists [], (splitAt c [] s). rewrite app_nil_r. split; [reflexivity|]. split; [intros []|]. right. exists s. auto.
    + assert (NE : x <> c) by (intros ->; rewrite (Byte.byte_dec_lb (x := c) (y := c) eq_refl) in E; discriminate E).
      destruct (IH (x :: acc)) as [p [q [A [B0 C]]]]. exists (x :: p), q. cbn [rev] in A. rewrite <- app_assoc in A. split; [exact A|]. split; [intros [D|D]; auto|].
      destruct C as [[C1 C2]|[s' [C1 C2]]]; [left; subst; auto|right; exists s'; subst; auto].
Qed.

Lemma digits_no (c : byte) ds : isDigit c = false -> forallb isDigit ds = true -> ~ In c ds.
Proof. intros C H I. rewrite forallb_forall in H. rewrite (H c I) in C. discriminate C. Qed.

Lemma extract_spec name date n : extractRunId name = Some (date, n) <-> ofRun name date n.
Proof.
  unfold extractRunId, splitOn, ofRun. destruct (splitAt_spec "-" name []) as [p [q [E [NP C]]]]. rewrite E. cbn [rev app].
  destruct C as [[-> ->]|[s [-> ->]]].
  - split; [discriminate|]. intros [sg [ds [rest [A _]]]]. exfalso. apply NP. rewrite A. apply in_or_app. right. left. reflexivity.
  - destruct (splitAt_spec "-" s []) as [p2 [q2 [E2 [NP2 C2]]]]. rewrite E2. cbn [rev app].
    assert (S : exists rest, s = p2 ++ rest /\ (rest = [] \/ exists r, rest = "-"%byte :: r)).
    { destruct C2 as [[_ ->]|[s' [-> _]]]; [exists []; rewrite app_nil_r; auto|]. exists ("-"%byte :: s'). split; [reflexivity|]. right. eauto. }
    destruct S as [rest [S1 S2]].
    assert (UQ : forall dt sg ds rs, p ++ "-"%byte :: s = dt ++ "-"%byte :: sg ++ ds ++ rs -> (sg = [] \/ sg = ["+"%byte]) ->
       (rs = [] \/ exists r, rs = "-"%byte :: r) -> forallb isDigit ds = true -> forallb isDigit dt = true -> dt = p /\ p2 = sg ++ ds).
    { intros dt sg ds rs A B0 R Hd Ht. destruct (cut_unique "-" p dt s (sg ++ ds ++ rs) NP (digits_no "-" dt eq_refl Ht) A) as [-> A2]. split; [reflexivity|].
      assert (NI : ~ In "-"%byte (sg ++ ds)).
      { intros I. apply in_app_or in I. destruct I as [I|I]; [|exact (digits_no "-" ds eq_refl Hd I)]. destruct B0 as [->| ->]; [exact I|]. destruct I as [I|[]]. discriminate I. }
      rewrite S1 in A2. rewrite app_assoc in A2. clear -A2 NI NP2 S2 R.
      destruct S2 as [->|[r ->]], R as [->|[r' ->]].
      - rewrite !app_nil_r in A2. exact A2.
      - exfalso. rewrite app_nil_r in A2. apply NP2. rewrite A2. apply in_or_app. right. left. reflexivity.
      - exfalso. rewrite app_nil_r in A2. apply NI. rewrite <- A2. apply in_or_app. right. left. reflexivity.
      - destruct (cut_unique "-" p2 (sg ++ ds) r r' NP2 NI A2) as [-> _]. reflexivity. }
    change 4294967295%N with (2 ^ 32 - 1)%N. split.
    + destruct (parseUint (2 ^ 32 - 1) p2) as [k|] eqn:K; [|discriminate].
      destruct ((length p =? 8)%nat && forallb isDigit p) eqn:L; [|discriminate]. intros H. injection H as <- <-.
      apply andb_true_iff in L. destruct L as [L1 L2]. apply Nat.eqb_eq in L1. apply (proj1 (parseUint_spec _ _ _)) in K.
      destruct K as [sg [ds [K1 [K2 [K3 [K4 [K5 K6]]]]]]]. exists sg, ds, rest. rewrite S1, K1, <- app_assoc. repeat split; auto. change (2 ^ 32)%N with 4294967296%N. change (2 ^ 32 - 1)%N with 4294967295%N in K6. lia.
    + intros [sg [ds [rs [A [B0 [R [C [Hd [V [W [L Ht]]]]]]]]]]]. destruct (UQ date sg ds rs A B0 R Hd Ht) as [-> P2].
      rewrite (proj2 (parseUint_spec (2 ^ 32 - 1) p2 n)).
      * rewrite L, Ht. reflexivity.
      * exists sg, ds. repeat split; auto. change (2 ^ 32)%N with 4294967296%N in W. change (2 ^ 32 - 1)%N with 4294967295%N. lia.
Qed.

(** Later run: a later date, or the same date and a larger number. *)
Definition notLater (a b : bytes * N) : Prop := (valueOf (fst a) < valueOf (fst b) \/ valueOf (fst a) = valueOf (fst b) /\ snd a <= snd b)%N.

Lemma value_inj a b : length a = length b -> forallb isDigit a = true -> forallb isDigit b = true -> valueOf a = valueOf b -> a = b.
Proof.
  intros L Ha Hb V.
  assert (G : forall x y : bytes, length x = length y -> bytesLtb x y = false -> bytesLtb y x = false -> x = y).
  { clear. induction x as [|c x IH]; intros [|d y] L; try discriminate L; cbn [bytesLtb]; [reflexivity|].
    destruct (N.ltb_spec (Byte.to_N c) (Byte.to_N d)); [discriminate|]. destruct (N.ltb_spec (Byte.to_N d) (Byte.to_N c)); [discriminate|].
    intros A B0. injection L as L. rewrite (IH y L A B0). f_equal. assert (E : Byte.to_N c = Byte.to_N d) by lia.
    apply (f_equal Byte.of_N) in E. rewrite !Byte.of_to_N in E. congruence. }
  apply G; [exact L| |].
  - destruct (bytesLtb a b) eqn:E; [|reflexivity]. apply (ltb_value a b 0%N L Ha Hb) in E. unfold valueOf in V. lia.
  - destruct (bytesLtb b a) eqn:E; [|reflexivity]. apply (ltb_value b a 0%N (eq_sym L) Hb Ha) in E. unfold valueOf in V. lia.
Qed.

Lemma runLeb_spec a b : length (fst a) = length (fst b) -> forallb isDigit (fst a) = true -> forallb isDigit (fst b) = true ->
  (runLeb a b = true <-> notLater a b).
Proof.
  intros L Ha Hb. unfold runLeb, notLater. rewrite orb_true_iff, andb_true_iff, N.leb_le, (ltb_value _ _ 0%N L Ha Hb). unfold valueOf.
  rewrite beq_eq. split.
  - intros [H|[E H]]; [auto|]. right. rewrite E. auto.
  - intros [H|[H H']]; [auto|]. right. split; [apply value_inj; auto|exact H'].
Qed.

Lemma latestRun_spec : forall (fs : dir) (best : option (bytes * N)),
  (forall b : bytes * N, best = Some b -> length (fst b) = 8%nat /\ forallb isDigit (fst b) = true) ->
  match latestRun best fs with
  | None => best = None /\ forall e d n, In e fs -> ~ ofRun (fst e) d n
  | Some r => (best = Some r \/ exists e, In e fs /\ ofRun (fst e) (fst r) (snd r)) /\
      (forall b : bytes * N, best = Some b -> notLater b r) /\ (forall e d n, In e fs -> ofRun (fst e) d n -> notLater (d, n) r) /\
      length (fst r) = 8%nat /\ forallb isDigit (fst r) = true
  end.
Proof.
  induction fs as [|e fs IH]; intros best W; cbn [latestRun].
  - destruct best as [b|]; [|split; [reflexivity|intros e d n []]]. split; [auto|]. split; [|split; [intros e d n []|apply W; reflexivity]].
    intros b' H. injection H as <-. right. split; [reflexivity|apply N.le_refl].
  - destruct (extractRunId (fst e)) as [[d n]|] eqn:E.
    + apply (proj1 (extract_spec _ _ _)) in E. assert (WE : length d = 8%nat /\ forallb isDigit d = true).
      { destruct E as [sg [ds [rest E]]]. tauto. }
      match goal with |- context [latestRun (Some ?x) fs] => set (best' := x) end.
      assert (TR : forall a b c, notLater a b -> notLater b c -> notLater a c) by (unfold notLater; intros a b c [H1|[H1 H1']] [H2|[H2 H2']]; lia).
      assert (B1 : notLater (d, n) best' /\ (best' = (d, n) \/ best = Some best') /\ (forall b, best = Some b -> notLater b best') /\ length (fst best') = 8%nat /\ forallb isDigit (fst best') = true).
      { assert (RF : forall x, notLater x x) by (intros x; right; split; [reflexivity|apply N.le_refl]).
        unfold best'. destruct best as [b|].
        - destruct (W b eq_refl) as [Lb Db]. destruct (runLeb b (d, n)) eqn:Q.
          + apply runLeb_spec in Q; cbn [fst] in *; [|unfold bytes in *; lia|exact Db|tauto]. split; [apply RF|]. split; [auto|]. split; [intros x H; injection H as <-; exact Q|tauto].
          + split.
            * unfold notLater in *. assert (NQ : ~ notLater b (d, n)) by (intros H; apply runLeb_spec in H; cbn [fst]; [congruence|unfold bytes in *; lia|exact Db|tauto]). unfold notLater in NQ. lia.
            * split; [auto|]. split; [intros x H; injection H as <-; apply RF|auto].
        - split; [apply RF|]. split; [auto|]. split; [discriminate|exact WE]. }
      destruct B1 as [B1 [B2 [B3 B4]]]. specialize (IH (Some best')). destruct (latestRun (Some best') fs) as [r|].
      * destruct IH as [A1 [A2 [A3 A4]]]; [intros b H; injection H as <-; exact B4|]. specialize (A2 best' eq_refl). split; [|split; [|split; [|exact A4]]].
        -- destruct A1 as [A1|[x [I X]]]; [|right; exists x; split; [right; exact I|exact X]]. injection A1 as <-.
           destruct B2 as [->|B2]; [right; exists e; split; [left; reflexivity|exact E]|left; exact B2].
        -- intros b H. apply (TR _ best'); [apply B3; exact H|exact A2].
        -- intros x d' n' [<-|I] X; [|apply (A3 x); assumption]. apply (TR _ best'); [|exact A2].
           apply (proj2 (extract_spec _ _ _)) in X. apply (proj2 (extract_spec _ _ _)) in E. rewrite E in X. injection X as <- <-. exact B1.
      * destruct IH as [A1 _]; [intros b H; injection H as <-; exact B4|discriminate A1].
    + assert (NE : forall d n, ~ ofRun (fst e) d n) by (intros d n X; apply (proj2 (extract_spec _ _ _)) in X; congruence).
      specialize (IH best W). destruct (latestRun best fs) as [r|].
      * destruct IH as [A1 [A2 [A3 A4]]]. split; [|split; [exact A2|split; [|exact A4]]].
        -- destruct A1 as [A1|[x [I X]]]; [left; exact A1|right; exists x; split; [right; exact I|exact X]].
        -- intros x d n [<-|I] X; [exfalso; exact (NE d n X)|apply (A3 x); assumption].
      * destruct IH as [A1 A2]. split; [exact A1|]. intros x d n [<-|I]; [apply NE|apply A2; exact I].
Qed.

(** The intermediates stored are those enrolled in the newest run that a file in
    the directory belongs to; with no such file, or none published, nothing is
    stored. *)
Theorem C57_newest_run : forall parseCert pemParse enrolledJson fs,
  match updateIntermediates parseCert pemParse enrolledJson fs with
  | Ok ints => exists date n pems, (exists name data, In (name, data) fs /\ ofRun name date n) /\
      (forall name data d k, In (name, data) fs -> ofRun name d k -> notLater (d, k) (date, n)) /\
      enrolledJson date n = Some pems /\ ints = fromEnrolled parseCert pemParse pems
  | _ => (forall name data d k, In (name, data) fs -> ~ ofRun name d k) \/
      exists date n, (forall name data d k, In (name, data) fs -> ofRun name d k -> notLater (d, k) (date, n)) /\ enrolledJson date n = None
  end.
Proof.
  intros parseCert pemParse enrolledJson fs. unfold updateIntermediates. assert (H := latestRun_spec fs None ltac:(discriminate)).
  destruct (latestRun None fs) as [[date n]|]; cbv beta iota in H; cbn [fst snd] in H.
  - destruct H as [[H|[[name data] [I X]]] [_ [A _]]]; [discriminate H|].
    destruct (enrolledJson date n) as [pems|] eqn:E.
    + exists date, n, pems. split; [exists name, data; auto|]. split; [|auto]. intros nm dt d k Ik Xk. exact (A (nm, dt) d k Ik Xk).
    + right. exists date, n. split; [|exact E]. intros nm dt d k Ik Xk. exact (A (nm, dt) d k Ik Xk).
  - destruct H as [_ H]. left. intros nm dt d k I. exact (H (nm, dt) d k I).
Qed.
Print Assumptions C57_newest_run.

Example C57_example :
  updateIntermediates qParse (fun p => Some p) (fun d n => if beq d (B "20260131") && (n =? 10)%N then Some [B "iK"] else None)
    [(B "20260131-9-default.filter", []); (B "crlite.intermediates", []); (B "20260131-10-default.filter.delta", []); (B "2026013-99", []); (B "20260130-55-default.filter", [])]
  = Ok (fromEnrolled qParse (fun p => Some p) [B "iK"]).
Proof. vm_compute. reflexivity. Qed.
