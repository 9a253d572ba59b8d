(** * The issuer table: C32, C33, C54 *)
From Verif Require Import Base MerkleModel SerialModel StoreModel StoreProofs IssuersModel.
From Coq Require Import Strings.Byte Sorting.Permutation.

(** ** C33: sets of CRL URLs *)

Lemma setAdd_in s x y : In y (setAdd s x) <-> In y s \/ y = x.
Proof.
  unfold setAdd. destruct (existsb (beq x) s) eqn:E.
  - split; [auto|]. intros [H| ->]; [exact H|]. apply existsb_exists in E. destruct E as [z [I E]]. apply beq_eq in E. subst z. exact I.
  - rewrite in_app_iff. cbn [In]. split; intros [H|H]; auto; destruct H as [H|[]]; auto.
Qed.

Lemma setAdd_all l : forall s y, In y (fold_left setAdd l s) <-> In y s \/ In y l.
Proof.
  induction l as [|x l IH]; intros s y; cbn [fold_left In]; [tauto|]. rewrite IH, setAdd_in. split; intros H; intuition.
Qed.

Lemma setAdd_nodup s x : NoDup s -> NoDup (setAdd s x).
Proof.
  intros ND. unfold setAdd. destruct (existsb (beq x) s) eqn:E; [exact ND|].
  apply (Permutation_NoDup (l := x :: s)); [apply Permutation_cons_append|]. constructor; [|exact ND].
  intros I. assert (existsb (beq x) s = true) by (apply existsb_exists; exists x; split; [exact I|apply beq_refl]). congruence.
Qed.

Lemma crlsOf_aset i l m j : crlsOf (aset i l m) j = if beq j i then l else crlsOf m j.
Proof.
  unfold crlsOf. destruct (beq_spec j i) as [->|N]; [rewrite alookup_aset_same|rewrite alookup_aset_other by exact N]; reflexivity.
Qed.

(** The pairs (issuer, URL) of a map; a Go map has each key once. *)
Definition hasUrl (m : crlMap) (i u : bytes) : Prop := exists l, In (i, l) m /\ In u l.

Lemma alookup_nodup {V} (m : list (bytes * V)) i v : NoDup (map fst m) -> (alookup i m = Some v <-> In (i, v) m).
Proof.
  induction m as [|[k w] m IH]; intros ND; cbn [alookup In].
  - split; [discriminate|intros []].
  - cbn [map fst] in ND. apply NoDup_cons_iff in ND. destruct ND as [N ND]. destruct (beq_spec i k) as [->|NE].
    + split; [intros H; injection H as ->; left; reflexivity|]. intros [H|H]; [congruence|]. exfalso. apply N. apply (in_map fst) in H. exact H.
    + rewrite IH by exact ND. split; [auto|]. intros [H|H]; [congruence|exact H].
Qed.

Lemma in_crlsOf m i u : NoDup (map fst m) -> (In u (crlsOf m i) <-> hasUrl m i u).
Proof.
  intros ND. unfold crlsOf, hasUrl. split.
  - destruct (alookup i m) as [l|] eqn:E; [|intros []]. intros I. exists l. split; [apply alookup_nodup; assumption|exact I].
  - intros [l [I J]]. apply (alookup_nodup m i l ND) in I. rewrite I. exact J.
Qed.

Lemma aremove_keys {V} (m : list (bytes * V)) i j : In j (map fst (aremove i m)) <-> In j (map fst m) /\ j <> i.
Proof.
  induction m as [|[k v] m IH]; cbn [aremove map fst In]; [tauto|]. destruct (beq_spec i k) as [->|N].
  - rewrite IH. split; [tauto|]. intros [[->|H] H2]; [congruence|auto].
  - cbn [map fst In]. rewrite IH. split; [intros [<-|[H H2]]; [split; [auto|congruence]|auto]|tauto].
Qed.

Lemma aset_nodup {V} (m : list (bytes * V)) i v : NoDup (map fst m) -> NoDup (map fst (aset i v m)).
Proof.
  intros ND. unfold aset. cbn [map fst]. constructor; [intros I; apply aremove_keys in I; tauto|].
  induction m as [|[k w] m IH]; [constructor|]. cbn [map fst] in ND. apply NoDup_cons_iff in ND. destruct ND as [N ND].
  cbn [aremove]. destruct (beq i k); [apply IH; exact ND|]. cbn [map fst]. constructor; [|apply IH; exact ND].
  intros I. apply N. apply aremove_keys in I. apply I.
Qed.

(** Merging gives, for each issuer, the union of both URL sets. *)
Theorem C33_merge_is_union : forall self other,
  NoDup (map fst self) -> NoDup (map fst other) ->
  NoDup (map fst (mergeCrls self other)) /\
  (forall i u, hasUrl (mergeCrls self other) i u <-> hasUrl self i u \/ hasUrl other i u) /\
  (forall i, In i (map fst (mergeCrls self other)) <-> In i (map fst self) \/ In i (map fst other)).
Proof.
  intros self other NS _. unfold mergeCrls. revert self NS.
  induction other as [|[i l] other IH]; intros self NS; cbn [fold_left].
  - split; [exact NS|]. split; [|cbn; tauto]. intros i u. split; [auto|]. intros [H|[l [[] _]]]; exact H.
  - assert (N1 : NoDup (map fst (mergeOne self (i, l)))) by (apply aset_nodup; exact NS).
    destruct (IH _ N1) as [A [Bq C]]. split; [exact A|]. split.
    + intros j u. rewrite Bq. rewrite <- (in_crlsOf (mergeOne self (i, l)) j u N1). unfold mergeOne. rewrite crlsOf_aset. cbn [fst snd].
      unfold hasUrl at 3. cbn [In]. destruct (beq_spec j i) as [->|N].
      * rewrite setAdd_all, in_crlsOf by exact NS. split.
        -- intros [[H|H]|[l' [H1 H2]]]; [auto|right; exists l; auto|right; exists l'; auto].
        -- intros [H|[l' [[H1|H1] H2]]]; [auto|injection H1 as ->; auto|right; exists l'; auto].
      * rewrite in_crlsOf by exact NS. split.
        -- intros [H|[l' [H1 H2]]]; [auto|right; exists l'; auto].
        -- intros [H|[l' [[H1|H1] H2]]]; [auto|congruence|right; exists l'; auto].
    + intros j. rewrite C. unfold mergeOne, aset. cbn [map fst In]. rewrite aremove_keys.
      destruct (bytes_eq_dec j i); intuition congruence.
Qed.
Print Assumptions C33_merge_is_union.

Example C33_merge_example :
  let m := mergeCrls [(B "A", [B "u"; B "v"]); (B "C", [])] [(B "A", [B "v"; B "w"]); (B "D", [B "x"])] in
  crlsOf m (B "A") = [B "u"; B "v"; B "w"] /\ crlsOf m (B "C") = [] /\ crlsOf m (B "D") = [B "x"] /\
  mergeCrls m m = rev m.
Proof. vm_compute. auto. Qed.

(** ** C32: the table *)

Section Table.
  Variables (Cert : Type) (sha256 : bytes -> bytes) (spki rawSubject subject toPEM : Cert -> bytes) (ofPEM : bytes -> option Cert).
  Local Notation idOf := (idOf Cert sha256 spki).
  Local Notation insertIssuer := (insertIssuer Cert sha256 spki).
  Local Notation moz := (moz Cert).
  Local Notation idata := (idata Cert).

  Definition ins (m : moz) (x : Cert * list bytes * bool) : moz := insertIssuer m (fst (fst x)) (snd (fst x)) (snd x).
  (** The certificate has the public key whose identifier is [i]. *)
  Definition for_ (i : bytes) (x : Cert * list bytes * bool) : bool := beq (issuerID (sha256 (spki (fst (fst x))))) i.

  Lemma table_from : forall xs m i,
    alookup i (m_issuers (fold_left ins xs m)) =
    match alookup i (m_issuers m), filter (for_ i) xs with
    | Some v, l => Some (mkData (id_certs v ++ map (fun x => fst (fst x)) l) (id_part v))
    | None, [] => None
    | None, (x :: _) as l => Some (mkData (map (fun x => fst (fst x)) l) (snd x))
    end.
  Proof using Type.
    induction xs as [|[[c us] p] xs IH]; intros m i; cbn [fold_left filter].
    - destruct (alookup i (m_issuers m)) as [[cs p]|]; cbn [id_certs id_part map]; [rewrite app_nil_r|]; reflexivity.
    - rewrite IH. change (for_ i (c, us, p)) with (beq (idOf c) i). unfold ins at 1, IssuersModel.insertIssuer. cbn [fst snd m_issuers].
      destruct (beq_spec (idOf c) i) as [<-|N].
      + rewrite alookup_aset_same. destruct (alookup (idOf c) (m_issuers m)) as [[cs q]|]; cbn [id_certs id_part map fst snd].
        * rewrite <- app_assoc. reflexivity.
        * reflexivity.
      + rewrite alookup_aset_other by congruence. reflexivity.
  Qed.

  Lemma crls_from : forall xs m i u,
    In u (crlsOf (m_crls (fold_left ins xs m)) i) <->
    In u (crlsOf (m_crls m) i) \/ exists c us p, In (c, us, p) xs /\ idOf c = i /\ In u us.
  Proof using Type.
    induction xs as [|[[c us] p] xs IH]; intros m i u; cbn [fold_left].
    - split; [auto|]. intros [H|[c [us [p [[] _]]]]]; exact H.
    - rewrite IH. unfold ins at 1, IssuersModel.insertIssuer. cbn [fst snd m_crls]. rewrite crlsOf_aset. cbn [In].
      destruct (beq_spec i (idOf c)) as [E|N].
      + subst i. rewrite setAdd_all. split.
        * intros [[H|H]|[c' [us' [p' [H1 H2]]]]]; [auto|right; exists c, us, p; auto|right; exists c', us', p'; auto].
        * intros [H|[c' [us' [p' [[H1|H1] H2]]]]]; [auto| |right; exists c', us', p'; auto].
          injection H1 as -> -> ->. left; right; apply H2.
      + split.
        * intros [H|[c' [us' [p' [H1 H2]]]]]; [auto|right; exists c', us', p'; auto].
        * intros [H|[c' [us' [p' [[H1|H1] H2]]]]]; [auto| |right; exists c', us', p'; auto].
          injection H1 as -> -> ->. exfalso. apply N. symmetry. apply H2.
  Qed.

  (** After any sequence of insertions: an issuer (a public key) is in the
      program exactly if a certificate with that key was inserted; all of them
      are kept in order, the flag is that of the first one, and the CRL URLs are
      the union of those of all. *)
  Theorem C32_table_exact : forall xs i,
    let m := fold_left ins xs emptyMoz in
    (inProgram Cert m i = true <-> exists c us p, In (c, us, p) xs /\ issuerID (sha256 (spki c)) = i) /\
    (forall v, alookup i (m_issuers m) = Some v -> id_certs v = map (fun x => fst (fst x)) (filter (for_ i) xs)) /\
    (forall c us p pre post, xs = pre ++ (c, us, p) :: post -> issuerID (sha256 (spki c)) = i ->
       (forall x, In x pre -> for_ i x = false) -> certFor Cert m i = Some c /\ partFor Cert m i = Some p) /\
    (forall u, In u (crlsOf (m_crls m) i) <-> exists c us p, In (c, us, p) xs /\ issuerID (sha256 (spki c)) = i /\ In u us).
  Proof using Type.
    intros xs i m.
    pose proof (table_from xs emptyMoz i) as T. cbn [emptyMoz m_issuers alookup] in T. fold m in T.
    split; [|split; [|split]].
    - unfold inProgram. rewrite T. destruct (filter (for_ i) xs) as [|[[c us] p] l] eqn:F.
      + split; [discriminate|]. intros [c [us [p [I E]]]].
        assert (X : In (c, us, p) (filter (for_ i) xs)).
        { apply filter_In. split; [exact I|]. unfold for_. cbn [fst]. unfold IssuersModel.idOf. rewrite E. apply beq_refl. }
        rewrite F in X. destruct X.
      + split; [|reflexivity]. intros _. assert (X : In (c, us, p) (filter (for_ i) xs)) by (rewrite F; left; reflexivity).
        apply filter_In in X. destruct X as [I E]. exists c, us, p. split; [exact I|]. apply beq_eq in E. exact E.
    - intros v E. rewrite T in E. destruct (filter (for_ i) xs) as [|x l]; [discriminate|]. injection E as <-. reflexivity.
    - intros c us p pre post -> E N.
      assert (F : filter (for_ i) (pre ++ (c, us, p) :: post) = (c, us, p) :: filter (for_ i) post).
      { rewrite filter_app. replace (filter (for_ i) pre) with (@nil (Cert * list bytes * bool)).
        - cbn [app filter]. unfold for_ at 1. cbn [fst]. fold (idOf c). unfold IssuersModel.idOf. rewrite E, beq_refl. reflexivity.
        - clear -N. induction pre as [|x pre IH]; [reflexivity|]. cbn [filter]. rewrite (N x (or_introl eq_refl)).
          apply IH. intros y I. apply N. right; exact I. }
      rewrite F in T. unfold certFor, partFor. rewrite T. split; reflexivity.
    - intros u. unfold m. rewrite crls_from. cbn [emptyMoz m_crls]. unfold crlsOf at 1. cbn [alookup].
      split; [intros [[]|H]; exact H|auto].
  Qed.

  (** *** Save and load *)

  Definition wf (m : moz) : Prop :=
    NoDup (map fst (m_issuers m)) /\
    forall i v, In (i, v) (m_issuers m) -> id_certs v <> [] /\ forall c, In c (id_certs v) -> idOf c = i.

  Lemma insert_wf m c us p : wf m -> wf (insertIssuer m c us p).
  Proof using Type.
    intros [ND W]. unfold IssuersModel.insertIssuer. split; cbn [m_issuers]; [apply aset_nodup; exact ND|].
    intros i v I. apply alookup_nodup in I; [|apply aset_nodup; exact ND].
    destruct (beq_spec i (idOf c)) as [->|N].
    - rewrite alookup_aset_same in I. injection I as <-. destruct (alookup (idOf c) (m_issuers m)) as [v|] eqn:E.
      + apply alookup_nodup in E; [|exact ND]. destruct (W _ _ E) as [_ W2]. cbn [id_certs]. split.
        * intros X. apply app_eq_nil in X. destruct X; discriminate.
        * intros c' I'. apply in_app_or in I'. destruct I' as [I'|[<-|[]]]; [apply W2; exact I'|reflexivity].
      + cbn [id_certs]. split; [discriminate|]. intros c' [<-|[]]. reflexivity.
    - rewrite alookup_aset_other in I by exact N. apply alookup_nodup in I; [|exact ND]. apply W in I. exact I.
  Qed.

  Lemma inserts_wf : forall xs m, wf m -> wf (fold_left ins xs m).
  Proof using Type. induction xs as [|x xs IH]; intros m W; [exact W|]. apply IH. apply insert_wf. exact W. Qed.

  Local Notation toEnrolled := (toEnrolled Cert sha256 spki rawSubject subject toPEM).
  Local Notation saveList := (saveList Cert sha256 spki rawSubject subject toPEM).
  Local Notation loadList := (loadList Cert sha256 spki ofPEM).

  Lemma loadList_ext : forall l l' m, map (fun e => (en_pem e, en_part e)) l = map (fun e => (en_pem e, en_part e)) l' ->
    loadList m l = loadList m l'.
  Proof using Type.
    induction l as [|e l IH]; intros [|e' l'] m E; try discriminate E; [reflexivity|]. cbn [map] in E. injection E as E1 E2 E3.
    cbn [IssuersModel.loadList]. rewrite E1, E2. destruct (ofPEM (en_pem e')); [|reflexivity]. apply IH. exact E3.
  Qed.

  Lemma loadList_ins : (forall c, ofPEM (toPEM c) = Some c) -> forall (l : list (bytes * idata)) m,
    loadList m (saveList l) = (fold_left ins (flat_map (fun e => map (fun c => (c, @nil bytes, id_part (snd e))) (id_certs (snd e))) l) m, true).
  Proof using Type.
    intros R l. unfold IssuersModel.saveList.
    assert (G : forall p cs rest m, loadList m (map (toEnrolled p) cs ++ rest) =
              loadList (fold_left ins (map (fun c => (c, @nil bytes, p)) cs) m) rest).
    { induction cs as [|c cs IH]; intros rest m; [reflexivity|]. cbn [map app IssuersModel.loadList fold_left].
      unfold IssuersModel.toEnrolled at 1. cbn [en_pem]. rewrite R. apply IH. }
    induction l as [|[i v] l IH]; intros m; cbn [flat_map]; [reflexivity|]. rewrite G, IH, fold_left_app. reflexivity.
  Qed.

  Variables (encode : list enrolled -> bytes) (decode : bytes -> option (list enrolled)).

  (** Saving the table, in whatever order the map is listed, and loading it into
      an empty one gives the same issuers, each with the same certificates in the
      same order and the same flag.  The JSON coding need only preserve the two
      fields that loading uses, for the list that is saved ([C77_issuers_file] discharges this). *)
  Theorem C32_save_load : forall xs order,
    (forall c, ofPEM (toPEM c) = Some c) ->
    (exists l', decode (encode (saveList order)) = Some l' /\
       map (fun e => (en_pem e, en_part e)) l' = map (fun e => (en_pem e, en_part e)) (saveList order)) ->
    let m := fold_left ins xs emptyMoz in
    Permutation order (m_issuers m) ->
    let '(m', ok) := loadEnrolled Cert sha256 spki ofPEM decode emptyMoz
                       (Some (saveIssuers Cert sha256 spki rawSubject subject toPEM encode order)) in
    ok = true /\ forall i, alookup i (m_issuers m') = alookup i (m_issuers m) /\ crlsOf (m_crls m') i = [].
  Proof using Type.
    intros xs order RP RJ m PM. unfold IssuersModel.loadEnrolled, IssuersModel.saveIssuers.
    destruct RJ as [l' [D E]]. rewrite D. rewrite (loadList_ext _ _ _ E), (loadList_ins RP). split; [reflexivity|].
    assert (W : wf m). { apply inserts_wf. split; [constructor|intros i v []]. } destruct W as [ND W].
    assert (NDo : NoDup (map fst order)) by (apply (Permutation_NoDup (Permutation_map fst (Permutation_sym PM))); exact ND).
    assert (Wo : forall i v, In (i, v) order -> id_certs v <> [] /\ forall c, In c (id_certs v) -> idOf c = i).
    { intros i v I. apply W. apply (Permutation_in _ PM). exact I. }
    intros i. split.
    - rewrite table_from. cbn [emptyMoz m_issuers alookup].
      replace (alookup i (m_issuers m)) with (alookup i order).
      2:{ destruct (alookup i order) as [v|] eqn:A.
          - symmetry. apply alookup_nodup; [exact ND|]. apply (Permutation_in _ PM). apply alookup_nodup; assumption.
          - destruct (alookup i (m_issuers m)) as [v|] eqn:A'; [|reflexivity]. exfalso.
            apply alookup_nodup in A'; [|exact ND]. apply (Permutation_in _ (Permutation_sym PM)) in A'.
            apply alookup_nodup in A'; [|exact NDo]. congruence. }
      clear -NDo Wo. induction order as [|[j v] order IH]; [reflexivity|]. cbn [flat_map alookup snd].
      cbn [map fst] in NDo. apply NoDup_cons_iff in NDo. destruct NDo as [NI NDo].
      assert (Wo' : forall i v, In (i, v) order -> id_certs v <> [] /\ forall c, In c (id_certs v) -> idOf c = i) by (intros ? ? ?; apply Wo; right; assumption).
      specialize (IH NDo Wo'). destruct (Wo j v (or_introl eq_refl)) as [NE ID].
      rewrite filter_app. destruct (beq_spec i j) as [->|N].
      + assert (F2 : filter (for_ j) (flat_map (fun e => map (fun c => (c, @nil bytes, id_part (snd e))) (id_certs (snd e))) order) = []).
        { clear -NI Wo'. induction order as [|[k w] order IH]; [reflexivity|]. cbn [flat_map snd]. rewrite filter_app.
          rewrite IH; [|intros X; apply NI; right; exact X|intros ? ? ?; apply Wo'; right; assumption]. rewrite app_nil_r.
          destruct (Wo' k w (or_introl eq_refl)) as [_ ID]. clear -ID NI.
          assert (k <> j) by (intros ->; apply NI; left; reflexivity).
          induction (id_certs w) as [|c cs IH]; [reflexivity|]. cbn [map filter]. unfold for_ at 1. cbn [fst]. fold (idOf c).
          rewrite (ID c (or_introl eq_refl)). destruct (beq_spec k j); [congruence|]. apply IH. intros c' I. apply ID. right; exact I. }
        assert (F1 : filter (for_ j) (map (fun c => (c, @nil bytes, id_part v)) (id_certs v)) = map (fun c => (c, @nil bytes, id_part v)) (id_certs v)).
        { clear -ID. induction (id_certs v) as [|c cs IH]; [reflexivity|]. cbn [map filter]. unfold for_ at 1. cbn [fst]. fold (idOf c).
          rewrite (ID c (or_introl eq_refl)), beq_refl. f_equal. apply IH. intros c' I. apply ID. right; exact I. }
        rewrite F1, F2, app_nil_r. destruct v as [cs p]. cbn [id_certs id_part] in *. destruct cs as [|c cs]; [congruence|]. cbn [map fst snd].
        f_equal. f_equal. f_equal. rewrite map_map. cbn [fst]. apply map_id.
      + assert (F1 : filter (for_ i) (map (fun c => (c, @nil bytes, id_part v)) (id_certs v)) = []).
        { clear -ID N. induction (id_certs v) as [|c cs IH]; [reflexivity|]. cbn [map filter]. unfold for_ at 1. cbn [fst]. fold (idOf c).
          rewrite (ID c (or_introl eq_refl)). destruct (beq_spec j i); [congruence|]. apply IH. intros c' I. apply ID. right; exact I. }
        rewrite F1. exact IH.
    - destruct (crlsOf _ i) as [|u us] eqn:C; [reflexivity|]. exfalso.
      assert (I : In u (crlsOf (m_crls (fold_left ins (flat_map (fun e => map (fun c => (c, @nil bytes, id_part (snd e))) (id_certs (snd e))) order) emptyMoz)) i))
        by (rewrite C; left; reflexivity).
      apply crls_from in I. destruct I as [[]|[c [us' [p [I [_ J]]]]]].
      apply in_flat_map in I. destruct I as [e [_ I]]. apply in_map_iff in I. destruct I as [c' [Q _]]. injection Q as _ <- _. destruct J.
  Qed.

  (** Loading succeeds exactly if the file is there, decodes and all its certificates
      parse.  Then the issuers are those before and those of the file; otherwise some
      of these. *)
  Theorem C32_load : forall m file,
    let '(m', ok) := loadEnrolled Cert sha256 spki ofPEM decode m file in
    let listed i := exists data l e c, file = Some data /\ decode data = Some l /\ In e l /\ ofPEM (en_pem e) = Some c /\ issuerID (sha256 (spki c)) = i in
    (ok = true <-> exists data l, file = Some data /\ decode data = Some l /\ forall e, In e l -> ofPEM (en_pem e) <> None) /\
    (forall i, inProgram Cert m i = true -> inProgram Cert m' i = true) /\
    (forall i, inProgram Cert m' i = true -> inProgram Cert m i = true \/ listed i) /\
    (ok = true -> forall i, listed i -> inProgram Cert m' i = true).
  Proof using Type.
    assert (INS : forall m c p i, inProgram Cert (insertIssuer m c [] p) i = true <-> inProgram Cert m i = true \/ idOf c = i).
    { intros m c p i. unfold inProgram, IssuersModel.insertIssuer. cbn [m_issuers]. destruct (beq_spec i (idOf c)) as [->|N].
      - rewrite alookup_aset_same. split; auto.
      - rewrite alookup_aset_other by exact N. split; [auto|]. intros [H|H]; [exact H|congruence]. }
    assert (LL : forall l m, let '(m', ok) := loadList m l in
      (ok = true <-> forall e, In e l -> ofPEM (en_pem e) <> None) /\
      (forall i, inProgram Cert m i = true -> inProgram Cert m' i = true) /\
      (forall i, inProgram Cert m' i = true -> inProgram Cert m i = true \/ exists e c, In e l /\ ofPEM (en_pem e) = Some c /\ idOf c = i) /\
      (ok = true -> forall i, (exists e c, In e l /\ ofPEM (en_pem e) = Some c /\ idOf c = i) -> inProgram Cert m' i = true)).
    { induction l as [|e l IH]; intros m; cbn [IssuersModel.loadList].
      - split; [split; [intros _ e []|reflexivity]|]. split; [auto|]. split; [auto|]. intros _ i [e [c [[] _]]].
      - destruct (ofPEM (en_pem e)) as [c|] eqn:P.
        + specialize (IH (insertIssuer m c [] (en_part e))). destruct (loadList (insertIssuer m c [] (en_part e)) l) as [m' ok]. destruct IH as [I1 [I2 [I3 I4]]]. split; [|split; [|split]].
          * rewrite I1. split; [intros H x [<-|I]; [rewrite P; discriminate|apply H; exact I]|]. intros H x I. apply H. right. exact I.
          * intros i H. apply I2, INS. left. exact H.
          * intros i H. apply I3 in H. destruct H as [H|[x [y [I H]]]]; [|right; exists x, y; split; [right; exact I|exact H]]. apply INS in H. destruct H as [H|H]; [left; exact H|]. right. exists e, c. split; [left; reflexivity|auto].
          * intros OK i [x [y [[<-|I] [PX EX]]]].
            -- rewrite P in PX. injection PX as <-. apply I2, INS. right. exact EX.
            -- apply (I4 OK). exists x, y. auto.
        + split; [split; [discriminate|intros H; contradiction (H e (or_introl eq_refl) P)]|]. split; [auto|]. split; [auto|]. discriminate. }
    intros m file. unfold IssuersModel.loadEnrolled. destruct file as [data|].
    2:{ cbv zeta. split; [split; [discriminate|intros [d [l [E _]]]; discriminate E]|]. split; [auto|]. split; [auto|]. discriminate. }
    destruct (decode data) as [l|] eqn:D.
    2:{ cbv zeta. split; [split; [discriminate|intros [d [l [E [E' _]]]]; congruence]|]. split; [auto|]. split; [auto|]. discriminate. }
    specialize (LL l m). destruct (loadList m l) as [m' ok]. destruct LL as [I1 [I2 [I3 I4]]]. cbv zeta. split; [|split; [|split]].
    - rewrite I1. split; [intros H; exists data, l; auto|]. intros [d [l' [E [E' H]]]]. injection E as <-. rewrite D in E'. injection E' as <-. exact H.
    - exact I2.
    - intros i H. apply I3 in H. destruct H as [H|[e [c H]]]; [left; exact H|]. right. exists data, l, e, c. auto.
    - intros OK i [d [l' [e [c [E [E' H]]]]]]. injection E as <-. rewrite D in E'. injection E' as <-. apply (I4 OK). exists e, c. exact H.
  Qed.
End Table.
Print Assumptions C32_load.
Print Assumptions C32_table_exact.
Print Assumptions C32_save_load.

(** A certificate here is a byte for the key and a byte for the name. *)
Definition xc (k n : byte) : bytes := [k; n].
Definition xSpki (c : bytes) : bytes := firstn 1 c.
Definition xIns := ins bytes (fun x => x) xSpki.
Example C32_example :
  let m := fold_left xIns [(xc "k" "1", [B "u"], true); (xc "l" "2", [], false); (xc "k" "3", [B "v"], false)] emptyMoz in
  let i := issuerID (B "k") in
  inProgram bytes m i = true /\ certFor bytes m i = Some (xc "k" "1") /\ partFor bytes m i = Some true /\
  crlsOf (m_crls m) i = [B "u"; B "v"] /\ inProgram bytes m (issuerID (B "z")) = false.
Proof. vm_compute. auto. Qed.

(** The JSON hypothesis of [C32_save_load] can be met, here by a simple coding of
    the two fields. *)
Definition xEnc (l : list enrolled) : bytes :=
  flat_map (fun e => (if en_part e then "1" else "0")%byte :: flat_map (fun c => ["x"%byte; c]) (en_pem e) ++ ["."%byte]) l.
Fixpoint xDec (st : option (bool * bytes)) (s : bytes) {struct s} : option (list enrolled) :=
  match st, s with
  | None, [] => Some []
  | None, f :: s' => xDec (Some (Byte.eqb f "1", [])) s'
  | Some (p, acc), d :: s' =>
      if Byte.eqb d "." then match xDec None s' with Some l => Some (mkEnr [] [] [] (rev acc) p :: l) | None => None end
      else match s' with [] => None | c :: s'' => xDec (Some (p, c :: acc)) s'' end
  | Some _, [] => None
  end.
Lemma C32_json_can_be_met : forall l, exists l', xDec None (xEnc l) = Some l' /\
  map (fun e => (en_pem e, en_part e)) l' = map (fun e => (en_pem e, en_part e)) l.
Proof.
  assert (G : forall x p acc rest, xDec (Some (p, acc)) (flat_map (fun c => ["x"%byte; c]) x ++ "."%byte :: rest) =
                match xDec None rest with Some l => Some (mkEnr [] [] [] (rev acc ++ x) p :: l) | None => None end).
  { induction x as [|c x IH]; intros p acc rest.
    - rewrite app_nil_r. reflexivity.
    - cbn [flat_map app xDec]. change (Byte.eqb "x" ".") with false. cbn iota. rewrite IH. cbn [rev]. rewrite <- app_assoc. reflexivity. }
  induction l as [|[a b c pem p] l [l' [E1 E2]]]; [exists []; split; reflexivity|].
  exists (mkEnr [] [] [] pem p :: l'). cbn [map en_pem en_part]. rewrite E2. split; [|reflexivity].
  unfold xEnc. cbn [flat_map en_part en_pem app]. rewrite <- app_assoc. cbn [app xDec]. rewrite G. fold (xEnc l). cbn [app rev].
  rewrite E1. destruct p; reflexivity.
Qed.
Example C32_save_example :
  let m := fold_left xIns [(xc "k" "1", [B "u"], true); (xc "l" "2", [], false); (xc "k" "3", [B "v"], false)] emptyMoz in
  let saved := saveList bytes (fun x => x) xSpki (fun c => c) (fun c => c) (fun c => c) (rev (m_issuers m)) in
  map en_part saved = [false; true; true] /\
  let '(m', ok) := loadList bytes (fun x => x) xSpki Some emptyMoz saved in
  ok = true /\ alookup (issuerID (B "k")) (m_issuers m') = Some (mkData [xc "k" "1"; xc "k" "3"] true).
Proof. vm_compute. auto. Qed.

(** A list of two certificates, none, and a list with a certificate that does not parse. *)
Example C32_load_example :
  let load := loadEnrolled bytes (fun x => x) xSpki (fun c => match c with [_; _] => Some c | _ => None end) (xDec None) emptyMoz in
  let file l := Some (xEnc (map (fun c => mkEnr [] [] [] c true) l)) in
  let '(m1, ok1) := load (file [xc "k" "1"; xc "l" "2"]) in
  let '(m2, ok2) := load (file [xc "k" "1"; B "bad"; xc "l" "2"]) in
  ok1 = true /\ inProgram bytes m1 (issuerID (B "l")) = true /\
  ok2 = false /\ inProgram bytes m2 (issuerID (B "k")) = true /\ inProgram bytes m2 (issuerID (B "l")) = false /\
  load None = (emptyMoz, false) /\ snd (load (Some (B "1x"))) = false.
Proof. vm_compute. auto 8. Qed.

(** The flag of an issuer with several certificates depends on the order in which
    they are inserted, and LoadFromDisk inserts them in the order of a Go map. *)
Theorem C32_flag_depends_on_order_refuted : exists x y i,
  partFor bytes (fold_left xIns [x; y] emptyMoz) i = Some true /\
  partFor bytes (fold_left xIns [y; x] emptyMoz) i = Some false.
Proof.
  exists (xc "k" "1", [B "u"], true), (xc "k" "3", [B "v"], false), (issuerID (B "k")). vm_compute. auto.
Qed.
Print Assumptions C32_flag_depends_on_order_refuted.

(** ** C33: LoadFromDisk *)

Section Load.
  Variables (Cert : Type) (sha256 : bytes -> bytes) (spki : Cert -> bytes) (rawOfPEM : bytes -> option bytes)
            (ctParse : bytes -> option Cert) (chains : list bytes -> list bytes -> bytes -> bool)
            (upper : bytes -> bytes) (parseUrl : bytes -> option (bytes * bytes)).
  Local Notation fpOf := (fpOf sha256 upper).
  Local Notation scanRow := (scanRow sha256 rawOfPEM upper parseUrl).
  Local Notation scanRows := (scanRows sha256 rawOfPEM upper parseUrl).
  Local Notation insertOne := (insertOne Cert sha256 spki ctParse chains).
  Local Notation loadFromDisk := (loadFromDisk Cert sha256 spki rawOfPEM ctParse chains upper parseUrl).

  (** What a row of the report says, read off the header directly: the value below
      the last column with that name. *)
  Fixpoint under (name : bytes) (cols row : list bytes) : option bytes :=
    match cols, row with
    | c :: cols', v :: row' =>
        match under name cols' row' with
        | Some w => Some w
        | None => if beq name c then Some v else None
        end
    | _, _ => None
    end.

  (** A certificate record of the report that is not revoked: its bytes, and the
      two CRL columns. *)
  Record entry := mkEntry { e_raw : bytes; e_full : bytes; e_part : bytes }.
  Definition entryOf (type : bytes) (cols row : list bytes) : list entry :=
    match under colPem cols row, under colType cols row, under colRevoked cols row, under colFull cols row, under colPart cols row with
    | Some pem, Some ty, Some rv, Some full, Some part =>
        match rawOfPEM pem with
        | Some raw => if beq ty type && (beq rv (B "Not Revoked") || beq rv []) then [mkEntry raw full part] else []
        | None => []
        end
    | _, _, _, _, _ => []
    end.

  (** The entries whose fingerprint does not occur earlier. *)
  Fixpoint firsts (seen : list bytes) (l : list entry) : list entry :=
    match l with
    | [] => []
    | e :: l' => if existsb (beq (fpOf (e_raw e))) seen then firsts seen l' else e :: firsts (fpOf (e_raw e) :: seen) l'
    end.

  Lemma firsts_seen : forall l s s', (forall x, In x s <-> In x s') -> firsts s l = firsts s' l.
  Proof.
    induction l as [|e l IH]; intros s s' E; [reflexivity|]. cbn [firsts].
    replace (existsb (beq (fpOf (e_raw e))) s') with (existsb (beq (fpOf (e_raw e))) s).
    - destruct (existsb _ s); [apply IH; exact E|]. f_equal. apply IH. intros x. cbn [In]. rewrite E. tauto.
    - apply eq_iff_eq_true. rewrite !existsb_exists. split; intros [x [I Q]]; exists x; (split; [apply E; exact I|exact Q]).
  Qed.

  (** The columns of a row. *)
  Lemma under_columns : forall cols row k m name, length cols = length row ->
    match under name cols row with
    | Some v => exists j, alookup name (columnMap k m cols) = Some (k + j)%nat /\ nth_error row j = Some v
    | None => alookup name (columnMap k m cols) = alookup name m /\ ~ In name cols
    end.
  Proof.
    induction cols as [|c cols IH]; intros [|v row] k m name L; try discriminate L; cbn [under columnMap In]; [split; [reflexivity|tauto]|].
    cbn [length] in L. injection L as L. specialize (IH row (S k) (aset c k m) name L).
    destruct (under name cols row) as [w|].
    - destruct IH as [j [A N]]. exists (S j). rewrite A. split; [f_equal; lia|exact N].
    - destruct IH as [A N]. rewrite A. destruct (beq_spec name c) as [->|NE].
      + exists 0%nat. rewrite alookup_aset_same. split; [f_equal; lia|reflexivity].
      + rewrite alookup_aset_other by exact NE. split; [reflexivity|]. intros [H|H]; [congruence|tauto].
  Qed.

  Lemma columnMap_len : forall cols k m, (length (columnMap k m cols) <= length m + length cols)%nat.
  Proof.
    assert (R : forall i (m : list (bytes * nat)), (length (aremove i m) <= length m)%nat).
    { induction m as [|[k v] m IH]; [apply le_n|]. cbn [aremove]. destruct (beq i k); cbn [length]; lia. }
    induction cols as [|c cols IH]; intros k m; cbn [columnMap length]; [lia|].
    specialize (IH (S k) (aset c k m)). specialize (R c m).
    assert (length (aset c k m) <= S (length m))%nat by (unfold aset; cbn [length]; lia). lia.
  Qed.

  Definition required := [colPem; colType; colRevoked; colFull; colPart].

  Lemma field_under cols row name : length cols = length row -> In name cols ->
    field (columnMap 0 [] cols) name row = under name cols row /\ under name cols row <> None.
  Proof.
    intros L I. pose proof (under_columns cols row 0%nat [] name L) as U. unfold field.
    destruct (under name cols row) as [v|]; [|destruct U; tauto]. destruct U as [j [A N]]. rewrite A. cbn [Nat.add]. split; [exact N|discriminate].
  Qed.

  Lemma required_in cols :
    forallb (fun n => match alookup n (columnMap 0 [] cols) with Some _ => true | None => false end) required = true <->
    forall n, In n required -> In n cols.
  Proof.
    rewrite forallb_forall. split; intros H n I; specialize (H n I).
    - pose proof (under_columns cols cols 0%nat [] n eq_refl) as U. destruct (in_dec bytes_eq_dec n cols) as [J|J]; [exact J|].
      destruct (under n cols cols) eqn:E.
      + exfalso. apply J. clear -E. revert E. generalize cols at 2 as row. intros row. revert row b. induction cols as [|c cols IH]; intros [|v row] b; cbn [under]; try discriminate.
        destruct (under n cols row) eqn:E; [intros _; right; eapply IH; exact E|]. destruct (beq_spec n c) as [->|]; [left; reflexivity|discriminate].
      + destruct U as [U _]. rewrite U in H. discriminate H.
    - pose proof (under_columns cols cols 0%nat [] n eq_refl) as U. destruct (under n cols cols); [destruct U as [j [A _]]; rewrite A; reflexivity|].
      destruct U; tauto.
  Qed.

  Definition tyRoot := B "Root Certificate".
  Definition tyInter := B "Intermediate Certificate".

  Lemma scanRows_spec cols : (forall n, In n required -> In n cols) ->
    forall rows s, (forall r, In r rows -> length r = length cols) ->
    map fst (sc_crls s) = map fst (sc_certs s) -> map fst (sc_part s) = map fst (sc_certs s) ->
    let fs := firsts (map fst (sc_certs s)) (flat_map (entryOf tyInter cols) rows) in
    scanRows (columnMap 0 [] cols) s rows =
    Ok (mkScan (sc_roots s ++ map e_raw (flat_map (entryOf tyRoot cols) rows))
               (sc_inters s ++ map e_raw fs)
               (rev (map (fun e => (fpOf (e_raw e), e_raw e)) fs) ++ sc_certs s)
               (rev (map (fun e => (fpOf (e_raw e), fst (decodeCrls parseUrl (e_full e) (e_part e)))) fs) ++ sc_crls s)
               (rev (map (fun e => (fpOf (e_raw e), snd (decodeCrls parseUrl (e_full e) (e_part e)))) fs) ++ sc_part s)).
  Proof.
    intros RQ. induction rows as [|row rows IH]; intros s L K1 K2; cbn [flat_map firsts map rev app].
    - rewrite !app_nil_r. destruct s; reflexivity.
    - cbn [IssuersModel.scanRows]. unfold IssuersModel.scanRow.
      pose proof (L row (or_introl eq_refl)) as LR. assert (LR' : length cols = length row) by (symmetry; exact LR).
      assert (L' : forall r, In r rows -> length r = length cols) by (intros r I; apply L; right; exact I).
      pose proof (columnMap_len cols 0%nat []) as CL. cbn [length Nat.add] in CL.
      replace (length row <? length (columnMap 0 [] cols))%nat with false by (symmetry; apply Nat.ltb_ge; lia).
      destruct (field_under cols row colPem LR' (RQ colPem ltac:(cbn; tauto))) as [F1 N1].
      destruct (field_under cols row colType LR' (RQ colType ltac:(cbn; tauto))) as [F2 N2].
      destruct (field_under cols row colRevoked LR' (RQ colRevoked ltac:(cbn; tauto))) as [F3 N3].
      destruct (field_under cols row colFull LR' (RQ colFull ltac:(cbn; tauto))) as [F4 N4].
      destruct (field_under cols row colPart LR' (RQ colPart ltac:(cbn; tauto))) as [F5 N5].
      rewrite F1, F2, F3, F4, F5. unfold entryOf at 1 3 5 7 9.
      destruct (under colPem cols row) as [pem|]; [|congruence].
      destruct (under colType cols row) as [ty|]; [|congruence].
      destruct (under colRevoked cols row) as [rv|]; [|congruence].
      destruct (under colFull cols row) as [full|]; [|congruence].
      destruct (under colPart cols row) as [part|]; [|congruence].
      destruct (rawOfPEM pem) as [raw|]; [|cbn [app]; apply IH; assumption].
      rewrite <- negb_orb. destruct (beq rv (B "Not Revoked") || beq rv []); cbn [negb].
      2:{ rewrite !andb_false_r. cbn [app]. apply IH; assumption. }
      rewrite !andb_true_r. fold tyRoot tyInter. destruct (beq_spec ty tyRoot) as [->|NR].
      + replace (beq tyRoot tyInter) with false by reflexivity. cbn iota. rewrite IH by assumption. cbn [sc_roots sc_inters sc_certs sc_crls sc_part app map e_raw].
        rewrite <- app_assoc. reflexivity.
      + destruct (beq_spec ty tyInter) as [->|NI]; [|cbn [app]; apply IH; assumption].
        cbn [app]. cbn [firsts e_raw].
        destruct (alookup (fpOf raw) (sc_certs s)) as [x|] eqn:A.
        * replace (existsb (beq (fpOf raw)) (map fst (sc_certs s))) with true; [apply IH; assumption|].
          symmetry. apply existsb_exists. exists (fpOf raw). split; [|apply beq_refl].
          clear -A. induction (sc_certs s) as [|[k v] m IHm]; [discriminate A|]. cbn [alookup] in A. cbn [map fst In].
          destruct (beq_spec (fpOf raw) k) as [E|E]; [left; symmetry; exact E|right; apply IHm; exact A].
        * assert (NK : ~ In (fpOf raw) (map fst (sc_certs s))).
          { clear -A. induction (sc_certs s) as [|[k v] m IHm]; [intros []|]. cbn [alookup] in A. cbn [map fst In].
            destruct (beq_spec (fpOf raw) k) as [E|E]; [discriminate A|]. intros [H|H]; [congruence|]. exact (IHm A H). }
          replace (existsb (beq (fpOf raw)) (map fst (sc_certs s))) with false.
          2:{ symmetry. apply not_true_iff_false. intros X. apply existsb_exists in X. destruct X as [y [I E]]. apply beq_eq in E. subst y. exact (NK I). }
          assert (AS : forall {V} (v : V) m, map fst m = map fst (sc_certs s) -> aset (fpOf raw) v m = (fpOf raw, v) :: m).
          { intros V v m E. unfold aset. f_equal. rewrite <- E in NK. clear -NK. induction m as [|[k w] m IHm]; [reflexivity|].
            cbn [aremove]. cbn [map fst In] in NK. destruct (beq_spec (fpOf raw) k) as [E|E]; [exfalso; apply NK; left; symmetry; exact E|].
            f_equal. apply IHm. tauto. }
          destruct (decodeCrls parseUrl full part) as [crls pb] eqn:D.
          rewrite (AS _ raw (sc_certs s) eq_refl), (AS _ crls _ K1), (AS _ pb _ K2).
          rewrite IH; cbn [sc_roots sc_inters sc_certs sc_crls sc_part map fst]; [|assumption|f_equal; assumption|f_equal; assumption].
          cbn [app map rev e_raw e_full e_part]. rewrite D. cbn [fst snd]. rewrite <- !app_assoc. reflexivity.
  Qed.

  Lemma firsts_fresh : forall l seen e, In e (firsts seen l) -> ~ In (fpOf (e_raw e)) seen.
  Proof.
    induction l as [|x l IH]; intros seen e; cbn [firsts]; [intros []|]. destruct (existsb (beq (fpOf (e_raw x))) seen) eqn:E; [apply IH|].
    intros [<-|I].
    - intros J. assert (existsb (beq (fpOf (e_raw x))) seen = true) by (apply existsb_exists; eexists; split; [exact J|apply beq_refl]). congruence.
    - apply IH in I. intros J. apply I. right; exact J.
  Qed.

  Lemma firsts_nodup : forall l seen, NoDup (map (fun e => fpOf (e_raw e)) (firsts seen l)).
  Proof.
    induction l as [|x l IH]; intros seen; cbn [firsts]; [constructor|]. destruct (existsb _ seen); [apply IH|]. cbn [map]. constructor; [|apply IH].
    intros I. apply in_map_iff in I. destruct I as [e [E I]]. apply firsts_fresh in I. apply I. left. symmetry; exact E.
  Qed.

  Lemma alookup_rev_map {V} (f : entry -> V) : forall l e, NoDup (map (fun e => fpOf (e_raw e)) l) -> In e l ->
    alookup (fpOf (e_raw e)) (rev (map (fun e => (fpOf (e_raw e), f e)) l) ++ []) = Some (f e).
  Proof.
    intros l e ND I. rewrite app_nil_r. apply alookup_nodup.
    - rewrite map_rev, map_map. cbn [fst]. apply NoDup_rev. exact ND.
    - apply in_rev. rewrite rev_involutive. apply in_map_iff. exists e. split; [reflexivity|exact I].
  Qed.

  (** The issuer table after loading a report.  [cands] are the unrevoked
      intermediates of the report, a repeated certificate counting where it occurs
      first.  An issuer is enrolled exactly if one of them has its key, converts
      and chains to an unrevoked root, and its CRLs are the union of those listed
      for these; the order of the Go map does not matter for that. *)
  Theorem C33_load_exact : forall order cols rows,
    (forall l, Permutation (order l) l) ->
    (forall n, In n required -> In n cols) -> (forall r, In r rows -> length r = length cols) ->
    let roots := map e_raw (flat_map (entryOf tyRoot cols) rows) in
    let cands := firsts [] (flat_map (entryOf tyInter cols) rows) in
    let accepted i e := In e cands /\ chains roots (map e_raw cands) (e_raw e) = true /\
                        exists c, ctParse (e_raw e) = Some c /\ issuerID (sha256 (spki c)) = i in
    exists m, loadFromDisk order (Some cols) (Some rows) = Ok m /\
      forall i, (inProgram Cert m i = true <-> exists e, accepted i e) /\
        (forall u, In u (crlsOf (m_crls m) i) <-> exists e, accepted i e /\ In u (fst (decodeCrls parseUrl (e_full e) (e_part e)))) /\
        (forall b, partFor Cert m i = Some b -> exists e, accepted i e /\ snd (decodeCrls parseUrl (e_full e) (e_part e)) = b).
  Proof.
    intros order cols rows PO RQ L roots cands accepted. unfold IssuersModel.loadFromDisk.
    fold required. rewrite (proj2 (required_in cols) RQ).
    rewrite (scanRows_spec cols RQ rows (mkScan [] [] [] [] []) L eq_refl eq_refl). cbn [sc_roots sc_inters sc_certs sc_crls sc_part map app].
    fold cands. fold roots. set (s := mkScan roots _ _ _ _).
    eexists; split; [reflexivity|]. intros i.
    set (toIns := fun e : bytes * bytes => if chains (sc_roots s) (sc_inters s) (snd e) then
                   match ctParse (snd e) with None => [] | Some c => [(c, crlsOf (sc_crls s) (fst e), match alookup (fst e) (sc_part s) with Some b => b | None => false end)] end else []).
    assert (FE : forall l m, fold_left (insertOne s) l m = fold_left (ins Cert sha256 spki) (flat_map toIns l) m).
    { induction l as [|e l IH]; intros m; [reflexivity|]. cbn [fold_left flat_map]. rewrite fold_left_app, IH. f_equal.
      unfold IssuersModel.insertOne, toIns. destruct (chains _ _ _); [|reflexivity]. destruct (ctParse (snd e)); reflexivity. }
    rewrite FE. set (xs := flat_map toIns (order _)). assert (XE : xs = flat_map toIns (order (sc_certs s))) by reflexivity. clearbody xs.
    assert (IN : forall c us p, In (c, us, p) xs <->
              exists e, In e cands /\ chains roots (map e_raw cands) (e_raw e) = true /\ ctParse (e_raw e) = Some c /\
                        (us, p) = decodeCrls parseUrl (e_full e) (e_part e)).
    { assert (ND : NoDup (map (fun e => fpOf (e_raw e)) cands)) by apply firsts_nodup.
      intros c us p. rewrite XE. rewrite in_flat_map. split.
      - intros [k [I J]]. apply (Permutation_in _ (PO _)) in I. cbn [s sc_certs] in I. rewrite app_nil_r in I. apply in_rev in I.
        apply in_map_iff in I. destruct I as [e [<- I]]. exists e. split; [exact I|]. unfold toIns in J. cbn [fst snd s sc_roots sc_inters sc_crls sc_part] in J.
        destruct (chains roots (map e_raw cands) (e_raw e)); [|destruct J]. split; [reflexivity|].
        destruct (ctParse (e_raw e)) as [c'|]; [|destruct J]. destruct J as [J|[]].
        unfold crlsOf in J. rewrite !(alookup_rev_map (fun e => fst (decodeCrls parseUrl (e_full e) (e_part e))) cands e ND I) in J.
        rewrite !(alookup_rev_map (fun e => snd (decodeCrls parseUrl (e_full e) (e_part e))) cands e ND I) in J.
        injection J as -> <- <-. split; [reflexivity|]. symmetry. apply surjective_pairing.
      - intros [e [I [CH [CP D]]]]. exists (fpOf (e_raw e), e_raw e). split.
        + apply (Permutation_in _ (Permutation_sym (PO _))). cbn [s sc_certs]. rewrite app_nil_r. apply in_rev. rewrite rev_involutive.
          apply in_map_iff. exists e. split; [reflexivity|exact I].
        + unfold toIns. cbn [fst snd s sc_roots sc_inters sc_crls sc_part]. rewrite CH, CP. left. unfold crlsOf.
          rewrite !(alookup_rev_map (fun e => fst (decodeCrls parseUrl (e_full e) (e_part e))) cands e ND I).
          rewrite !(alookup_rev_map (fun e => snd (decodeCrls parseUrl (e_full e) (e_part e))) cands e ND I).
          rewrite <- D. reflexivity. }
    destruct (C32_table_exact Cert sha256 spki xs i) as [T1 [_ [_ T4]]].
    split; [|split].
    - rewrite T1. split.
      + intros [c [us [p [I E]]]]. apply IN in I. destruct I as [e [I [CH [CP D]]]]. exists e. split; [exact I|]. split; [exact CH|]. exists c; auto.
      + intros [e [I [CH [c [CP E]]]]]. destruct (decodeCrls parseUrl (e_full e) (e_part e)) as [us p] eqn:D. exists c, us, p. split; [|exact E].
        apply IN. exists e. rewrite D. auto.
    - intros u. rewrite T4. split.
      + intros [c [us [p [I [E U]]]]]. apply IN in I. destruct I as [e [I [CH [CP D]]]]. exists e. rewrite <- D. split; [|exact U].
        split; [exact I|]. split; [exact CH|]. exists c; auto.
      + intros [e [[I [CH [c [CP E]]]] U]]. destruct (decodeCrls parseUrl (e_full e) (e_part e)) as [us p] eqn:D. exists c, us, p. split; [|split; [exact E|exact U]].
        apply IN. exists e. rewrite D. auto.
    - intros b Hb. unfold partFor in Hb. rewrite table_from in Hb. cbn [emptyMoz m_issuers alookup] in Hb.
      destruct (filter (for_ Cert sha256 spki i) xs) as [|[[c us] p] l] eqn:F; [discriminate Hb|]. cbn [id_part snd] in Hb. injection Hb as <-.
      assert (X : In (c, us, p) (filter (for_ Cert sha256 spki i) xs)) by (rewrite F; left; reflexivity).
      apply filter_In in X. destruct X as [I E]. apply beq_eq in E. cbn [fst] in E. apply IN in I. destruct I as [e [I [CH [CP D]]]].
      exists e. rewrite <- D. split; [|reflexivity]. split; [exact I|]. split; [exact CH|]. exists c; auto.
  Qed.

  (** A report without one of the columns used is refused. *)
  Theorem C33_missing_column : forall order cols rows n,
    In n required -> ~ In n cols -> loadFromDisk order (Some cols) rows = Err.
  Proof.
    intros order cols rows n I N. unfold IssuersModel.loadFromDisk. fold required.
    destruct (forallb _ required) eqn:E; [|reflexivity]. exfalso. apply N. apply (proj1 (required_in cols) E). exact I.
  Qed.
End Load.
Print Assumptions C33_load_exact.
Print Assumptions C33_missing_column.

(** A small report: certificates are single bytes, the first CSV column repeats. *)
Definition ycols := [B "x"; colPem; colType; colRevoked; colFull; colPart].
Definition yrow (pem ty rv full part : bytes) := [B "?"; pem; ty; rv; full; part].
Definition yurl (s : bytes) : option (bytes * bytes) :=
  if beq (firstn 4 s) (B "http") then Some (B "http", s) else if beq (firstn 4 s) (B "ldap") then Some (B "ldap", s) else None.
Definition yrows := [
  yrow (B "R1") tyRoot (B "Not Revoked") [] [];
  yrow (B "a1") tyInter [] (B " http://full ") [];
  yrow (B "a2") tyInter (B "Not Revoked") [] (B "[""http://p1"",""http://p2""]");
  yrow (B "a1") tyInter [] (B "http://again") [];
  yrow (B "b1") tyInter (B "Revoked") (B "http://b") [];
  yrow [] tyInter [] (B "http://c") []].
Example C33_example :
  match loadFromDisk bytes (fun x => x) (firstn 1) (fun p => match p with [] => None | _ => Some p end) Some
          (fun _ _ _ => true) (fun x => x) yurl (fun l => l) (Some ycols) (Some yrows) with
  | Ok m => crlsOf (m_crls m) (issuerID (B "a")) = [B "http://p1"; B "http://p2"; B "http://full"] /\
            inProgram bytes m (issuerID (B "b")) = false /\ length (m_issuers m) = 1%nat
  | _ => False
  end /\ (forall n, In n required -> In n ycols) /\ (forall r, In r yrows -> length r = length ycols).
Proof.
  split; [vm_compute; auto|]. split; [intros n H; cbn in H |- *; tauto|]. intros r H. cbn [yrows In] in H.
  repeat (destruct H as [<-|H]; [reflexivity|]). destruct H.
Qed.

(** Of a certificate listed twice only the first row's CRLs are used. *)
Theorem C33_repeated_certificate_refuted : exists rows,
  In (yrow (B "a1") tyInter [] (B "http://again") []) rows /\
  match loadFromDisk bytes (fun x => x) (firstn 1) Some Some (fun _ _ _ => true) (fun x => x) yurl (fun l => l) (Some ycols) (Some rows) with
  | Ok m => inProgram bytes m (issuerID (B "a")) = true /\ ~ In (B "http://again") (crlsOf (m_crls m) (issuerID (B "a")))
  | _ => False
  end.
Proof.
  exists yrows. split; [cbn [yrows In]; auto 10|]. vm_compute. split; [reflexivity|]. intros H.
  repeat (destruct H as [H|H]; [discriminate H|]). exact H.
Qed.
Print Assumptions C33_repeated_certificate_refuted.

(** ** C54: the CRL columns *)

Lemma dropWhile_all p w x : forallb p w = true -> dropWhile p (w ++ x) = dropWhile p x.
Proof.
  induction w as [|c w IH]; [reflexivity|]. cbn [forallb app dropWhile]. intros H. apply andb_true_iff in H. destruct H as [-> H]. apply IH; exact H.
Qed.

Definition startsNot (p : byte -> bool) (x : bytes) : Prop := match x with [] => True | c :: _ => p c = false end.

Lemma dropWhile_id p x : startsNot p x -> dropWhile p x = x.
Proof. destruct x as [|c x]; [reflexivity|]. cbn [startsNot dropWhile]. intros ->. reflexivity. Qed.

Lemma trim_around p w1 x w2 : forallb p w1 = true -> forallb p w2 = true -> startsNot p x -> startsNot p (rev x) ->
  trim p (w1 ++ x ++ w2) = x.
Proof.
  intros H1 H2 S1 S2. unfold trim. rewrite dropWhile_all by exact H1.
  assert (R : forallb p (rev w2) = true).
  { apply forallb_forall. intros c I. apply in_rev in I. apply (proj1 (forallb_forall p w2) H2). exact I. }
  destruct x as [|c x].
  - cbn [app]. rewrite <- (app_nil_r w2), dropWhile_all by exact H2. reflexivity.
  - rewrite (dropWhile_id p ((c :: x) ++ w2)) by exact S1. rewrite rev_app_distr, dropWhile_all by exact R.
    rewrite dropWhile_id by exact S2. apply rev_involutive.
Qed.

(** JSON's way of writing a list of strings (none of which needs an escape):
    white space is allowed around each element and around the whole. *)
Record item := mkItem { it_before : bytes; it_url : bytes; it_after : bytes }.
Definition itemText (t : item) : bytes := it_before t ++ [x22] ++ it_url t ++ [x22] ++ it_after t.
Fixpoint joinComma (l : list bytes) : bytes :=
  match l with [] => [] | [x] => x | x :: l' => x ++ x2c :: joinComma l' end.
Definition arrayText (before inner after : bytes) (ts : list item) : bytes :=
  before ++ [x5b] ++ match ts with [] => inner | _ => joinComma (map itemText ts) end ++ [x5d] ++ after.

(** Tab, line feed, vertical tab, form feed, carriage return, blank. *)
Definition blank (c : byte) : Prop := In c [x09; x0a; x0b; x0c; x0d; x20].
Definition spaces (w : bytes) : Prop := forall c, In c w -> blank c.
(** No white space at the ends. *)
Definition edged (u : bytes) : Prop := (forall c v, u = c :: v -> ~ blank c) /\ (forall c v, u = v ++ [c] -> ~ blank c).
Lemma blank_b c : blank c <-> isSpace c = true.
Proof.
  split.
  - intros [<-|[<-|[<-|[<-|[<-|[<-|[]]]]]]]; reflexivity.
  - unfold blank. destruct c; try discriminate; intros _; cbn [In]; tauto.
Qed.
Lemma spaces_b w : spaces w -> forallb isSpace w = true.
Proof. intros H. apply forallb_forall. intros c I. apply blank_b, H, I. Qed.
Lemma edged_b u : edged u -> startsNot isSpace u /\ startsNot isSpace (rev u).
Proof.
  intros [H1 H2]. split.
  - destruct u as [|c v]; [exact Logic.I|]. cbn [startsNot]. destruct (isSpace c) eqn:E; [|reflexivity]. apply blank_b in E. contradiction (H1 c v eq_refl E).
  - destruct (rev u) as [|c v] eqn:R; [exact Logic.I|]. cbn [startsNot]. destruct (isSpace c) eqn:E; [|reflexivity]. apply blank_b in E.
    assert (EU : u = rev v ++ [c]) by (rewrite <- (rev_involutive u), R; reflexivity). contradiction (H2 c (rev v) EU E).
Qed.
(** A URL as it can stand between the quotes. *)
Definition plainUrl (u : bytes) : Prop := u <> [] /\ ~ In x22 u /\ ~ In x2c u.
Definition okItem (t : item) : Prop := spaces (it_before t) /\ spaces (it_after t) /\ plainUrl (it_url t).

Lemma split_no_comma : forall x acc, ~ In comma x -> splitComma acc x = [rev acc ++ x].
Proof.
  induction x as [|c x IH]; intros acc N; cbn [splitComma]; [rewrite app_nil_r; reflexivity|].
  destruct (Byte.eqb c comma) eqn:E; [apply Byte.byte_dec_bl in E; subst c; exfalso; apply N; left; reflexivity|].
  rewrite IH by (intros I; apply N; right; exact I). cbn [rev]. rewrite <- app_assoc. reflexivity.
Qed.

Lemma split_comma : forall x acc rest, ~ In comma x -> splitComma acc (x ++ comma :: rest) = (rev acc ++ x) :: splitComma [] rest.
Proof.
  induction x as [|c x IH]; intros acc rest N; cbn [splitComma app].
  - replace (Byte.eqb comma comma) with true by reflexivity. rewrite app_nil_r. reflexivity.
  - destruct (Byte.eqb c comma) eqn:E; [apply Byte.byte_dec_bl in E; subst c; exfalso; apply N; left; reflexivity|].
    rewrite IH by (intros I; apply N; right; exact I). cbn [rev]. rewrite <- app_assoc. reflexivity.
Qed.

Lemma split_join : forall l, l <> [] -> (forall x, In x l -> ~ In comma x) -> splitComma [] (joinComma l) = l.
Proof.
  induction l as [|x l IH]; intros NE N; [congruence|]. destruct l as [|y l].
  - cbn [joinComma]. rewrite split_no_comma by (apply N; left; reflexivity). reflexivity.
  - change (joinComma (x :: y :: l)) with (x ++ comma :: joinComma (y :: l)). rewrite split_comma by (apply N; left; reflexivity).
    cbn [rev app]. f_equal. apply IH; [discriminate|]. intros z I. apply N. right; exact I.
Qed.

Lemma space_not_comma w : spaces w -> ~ In comma w.
Proof. intros H I. apply H, blank_b in I. discriminate I. Qed.

Lemma item_no_comma t : okItem t -> ~ In comma (itemText t).
Proof.
  intros [S1 [S2 [_ [_ N]]]] I. unfold itemText in I. rewrite !in_app_iff in I.
  destruct I as [I|[[I|[]]|[I|[[I|[]]|I]]]]; try discriminate I; [exact (space_not_comma _ S1 I)|tauto|exact (space_not_comma _ S2 I)].
Qed.

Lemma not_in_starts (p : byte -> bool) x : (forall c, In c x -> p c = false) -> startsNot p x.
Proof. destruct x as [|c x]; [intros _; exact Logic.I|]. intros H. apply H. left; reflexivity. Qed.

Lemma item_value t : okItem t -> trim isQuote (trim isSpace (itemText t)) = it_url t.
Proof.
  intros [S1 [S2 [NE [NQ _]]]]. unfold itemText.
  replace (it_before t ++ [x22] ++ it_url t ++ [x22] ++ it_after t) with (it_before t ++ ([x22] ++ it_url t ++ [x22]) ++ it_after t)
    by (rewrite <- !app_assoc; reflexivity).
  rewrite trim_around; [| apply spaces_b; exact S1|apply spaces_b; exact S2|reflexivity|].
  - apply trim_around; try reflexivity; apply not_in_starts; intros c I; (destruct (isQuote c) eqn:E; [|reflexivity]);
      apply Byte.byte_dec_bl in E; subst c; exfalso; apply NQ; [exact I|apply in_rev; exact I].
  - rewrite !rev_app_distr. reflexivity.
Qed.

(** The text of an item neither starts nor ends with a bracket. *)
Lemma space_bracket w : spaces w -> forall c, In c w -> isBracket c = false.
Proof.
  intros H c I. apply H, blank_b in I. destruct (isBracket c) eqn:E; [|reflexivity].
  unfold isBracket in E. apply orb_true_iff in E. destruct E as [E|E]; apply Byte.byte_dec_bl in E; subst c; discriminate I.
Qed.

Lemma item_start t rest : okItem t -> startsNot isBracket (itemText t ++ rest).
Proof.
  intros [S1 _]. unfold itemText. destruct (it_before t) as [|c w] eqn:E; [reflexivity|].
  cbn [app startsNot]. apply (space_bracket _ S1). left; reflexivity.
Qed.

Lemma item_end t rest : okItem t -> startsNot isBracket (rev (itemText t) ++ rest).
Proof.
  intros [_ [S2 _]]. unfold itemText. rewrite !rev_app_distr. cbn [rev app]. rewrite <- !app_assoc.
  destruct (rev (it_after t)) as [|c w] eqn:E; [reflexivity|]. cbn [app startsNot]. apply (space_bracket _ S2).
  apply in_rev. rewrite E. left; reflexivity.
Qed.

Lemma join_start : forall ts, (forall t, In t ts -> okItem t) -> startsNot isBracket (joinComma (map itemText ts)).
Proof.
  intros [|t [|t2 ts]] H; [exact Logic.I| |]; cbn [map joinComma].
  - rewrite <- (app_nil_r (itemText t)). apply item_start. apply H. left; reflexivity.
  - apply item_start. apply H. left; reflexivity.
Qed.

Lemma join_end : forall ts, (forall t, In t ts -> okItem t) -> startsNot isBracket (rev (joinComma (map itemText ts))).
Proof.
  induction ts as [|t ts IH]; intros H; [exact Logic.I|]. destruct ts as [|t2 ts].
  - cbn [map joinComma]. rewrite <- (app_nil_r (rev (itemText t))). apply item_end. apply H. left; reflexivity.
  - change (joinComma (map itemText (t :: t2 :: ts))) with (itemText t ++ comma :: joinComma (map itemText (t2 :: ts))).
    assert (H' : forall t, In t (t2 :: ts) -> okItem t) by (intros z I; apply H; right; exact I). specialize (IH H').
    rewrite rev_app_distr. cbn [rev]. destruct (rev (joinComma (map itemText (t2 :: ts)))) as [|c w]; [reflexivity|]. exact IH.
Qed.

Definition webUrl (parseUrl : bytes -> option (bytes * bytes)) (u : bytes) : list bytes :=
  match parseUrl u with
  | Some (scheme, str) => if in_dec bytes_eq_dec scheme [B "http"; B "https"] then [str] else []
  | None => []
  end.

Lemma keep_web parseUrl u : keepUrl parseUrl u = webUrl parseUrl u.
Proof.
  unfold keepUrl, webUrl. destruct (parseUrl u) as [[sc st]|]; [|reflexivity].
  destruct (beq_spec sc (B "http")) as [->|N1]; cbn [orb].
  - destruct (in_dec bytes_eq_dec (B "http") _) as [_|N]; [reflexivity|exfalso; apply N; left; reflexivity].
  - destruct (beq_spec sc (B "https")) as [->|N2].
    + destruct (in_dec bytes_eq_dec (B "https") _) as [_|N]; [reflexivity|exfalso; apply N; right; left; reflexivity].
    + destruct (in_dec bytes_eq_dec sc _) as [[E|[E|[]]]|_]; [congruence|congruence|reflexivity].
Qed.

Lemma quote_not_space u : u <> [] -> ~ In quote u -> (startsNot isQuote u /\ startsNot isQuote (rev u)).
Proof.
  intros _ NQ. split; apply not_in_starts; intros c I; (destruct (isQuote c) eqn:E; [|reflexivity]);
    apply Byte.byte_dec_bl in E; subst c; exfalso; apply NQ; [exact I|apply in_rev; exact I].
Qed.

(** A list of URLs written as a JSON array is read back exactly: the web URLs of
    the list, in order, after the single URL of the other column if there is one;
    the flag says whether the list has an element. *)
Theorem C54_reads_the_array : forall parseUrl fullText full before inner after ts,
  (full = None /\ spaces fullText \/
   exists u w1 w2, full = Some u /\ plainUrl u /\ spaces w1 /\ spaces w2 /\ edged u /\
                   (fullText = w1 ++ u ++ w2 \/ fullText = w1 ++ ([x22] ++ u ++ [x22]) ++ w2)) ->
  spaces before -> spaces inner -> spaces after -> (forall t, In t ts -> okItem t) ->
  decodeCrls parseUrl fullText (arrayText before inner after ts) =
  (match full with Some u => webUrl parseUrl u | None => [] end ++ flat_map (fun t => webUrl parseUrl (it_url t)) ts,
   negb (Nat.eqb (length ts) 0)).
Proof.
  intros parseUrl fullText full before inner after ts F SB SI SA OK. unfold decodeCrls.
  set (ft := trim isQuote (trim isSpace fullText)).
  assert (FT : ft = match full with Some u => u | None => [] end).
  { subst ft. destruct F as [[-> S]|[u [w1 [w2 [-> [[NE [NQ _]] [S1 [S2 [T E]]]]]]]]].
    - pose proof (trim_around isSpace fullText [] [] (spaces_b _ S) eq_refl Logic.I Logic.I) as TI. cbn [app] in TI. rewrite app_nil_r in TI.
      rewrite TI. reflexivity.
    - destruct (quote_not_space u NE NQ) as [Q1 Q2]. destruct (edged_b u T) as [T1 T2]. apply spaces_b in S1, S2. destruct E as [-> | ->].
      + rewrite trim_around by assumption. rewrite <- (app_nil_r u) at 1. change (u ++ []) with ([] ++ u ++ []). apply trim_around; auto.
      + rewrite trim_around; [|assumption|assumption|reflexivity|rewrite !rev_app_distr; reflexivity]. apply trim_around; auto. }
  assert (FC : match ft with [] => [] | _ => keepUrl parseUrl ft end = match full with Some u => webUrl parseUrl u | None => [] end).
  { rewrite FT. destruct F as [[-> _]|[u [w1 [w2 [-> [[NE _] _]]]]]]; [reflexivity|]. destruct u; [congruence|]. apply keep_web. }
  set (body := match ts with [] => inner | _ => joinComma (map itemText ts) end).
  assert (TB : trim isBracket (trim isSpace (arrayText before inner after ts)) = body).
  { assert (AT : arrayText before inner after ts = before ++ (["["%byte] ++ body ++ ["]"%byte]) ++ after)
      by (unfold arrayText, body; rewrite <- !app_assoc; reflexivity).
    rewrite AT.
    rewrite (trim_around isSpace before (["["%byte] ++ body ++ ["]"%byte]) after); [|apply spaces_b; exact SB|apply spaces_b; exact SA|reflexivity|rewrite !rev_app_distr; reflexivity].
    apply (trim_around isBracket ["["%byte] body ["]"%byte]); [reflexivity|reflexivity| |]; unfold body; destruct ts as [|t ts].
    - apply not_in_starts. apply space_bracket. exact SI.
    - apply join_start. exact OK.
    - apply not_in_starts. intros c I. apply (space_bracket inner SI). apply in_rev. exact I.
    - apply join_end. exact OK. }
  rewrite TB.
  assert (PT : filter (fun s => negb (beq s [])) (map (fun s => trim isQuote (trim isSpace s)) (splitComma [] body)) = map it_url ts).
  { unfold body. destruct ts as [|t ts].
    - rewrite split_no_comma by (apply space_not_comma; exact SI). cbn [rev app map].
      pose proof (trim_around isSpace inner [] [] (spaces_b _ SI) eq_refl Logic.I Logic.I) as TI. cbn [app] in TI. rewrite app_nil_r in TI.
      rewrite TI. reflexivity.
    - rewrite split_join; [|discriminate|].
      + clear -OK. induction (t :: ts) as [|x l IH]; [reflexivity|]. cbn [map filter].
        rewrite item_value by (apply OK; left; reflexivity).
        destruct (OK x (or_introl eq_refl)) as [_ [_ [NE _]]]. destruct (beq_spec (it_url x) []) as [E|_]; [congruence|]. cbn [negb].
        f_equal. apply IH. intros z I. apply OK. right; exact I.
      + intros x I. apply in_map_iff in I. destruct I as [z [<- I]]. apply item_no_comma. apply OK. exact I. }
  rewrite PT, FC. f_equal.
  - f_equal. clear. induction ts as [|t ts IH]; [reflexivity|]. cbn [map flat_map]. rewrite keep_web, IH. reflexivity.
  - destruct ts; reflexivity.
Qed.
Print Assumptions C54_reads_the_array.

(** Whatever the columns contain, only http and https URLs come out. *)
Theorem C54_only_web_urls : forall parseUrl full part u, In u (fst (decodeCrls parseUrl full part)) ->
  exists s scheme, parseUrl s = Some (scheme, u) /\ (scheme = B "http" \/ scheme = B "https").
Proof.
  intros parseUrl full part u H. unfold decodeCrls in H. cbn [fst] in H.
  assert (K : forall s, In u (keepUrl parseUrl s) -> exists s scheme, parseUrl s = Some (scheme, u) /\ (scheme = B "http" \/ scheme = B "https")).
  { intros s. unfold keepUrl. destruct (parseUrl s) as [[sc st]|] eqn:E; [|intros []].
    destruct (beq_spec sc (B "http")) as [->|]; [|destruct (beq_spec sc (B "https")) as [->|]]; cbn [orb].
    - intros [<-|[]]. exists s, (B "http"). auto.
    - intros [<-|[]]. exists s, (B "https"). auto.
    - intros []. }
  apply in_app_or in H. destruct H as [H|H].
  - destruct (trim isQuote (trim isSpace full)); [destruct H|]. apply K in H. exact H.
  - apply in_flat_map in H. destruct H as [s [_ H]]. apply K in H. exact H.
Qed.
Print Assumptions C54_only_web_urls.

Example C54_example :
  decodeCrls yurl (B " http://f ") (B " [ ""http://a"" , ""ldap://b"",""http://c""] ") = ([B "http://f"; B "http://a"; B "http://c"], true) /\
  arrayText (B " ") [] (B " ") [mkItem (B " ") (B "http://a") (B " "); mkItem (B " ") (B "ldap://b") []; mkItem [] (B "http://c") []] =
    B " [ ""http://a"" , ""ldap://b"",""http://c""] " /\
  decodeCrls yurl [] (B "[]") = ([], false) /\ decodeCrls yurl (B """http://f""") [] = ([B "http://f"], false).
Proof. vm_compute. auto. Qed.

(** A URL with a comma, which JSON allows, is torn apart: the URL of the array is
    not fetched, an unlisted one is, and no error is raised. *)
Theorem C54_comma_refuted : exists u,
  fst (decodeCrls yurl [] (B "[""" ++ u ++ B """]")) <> [u] /\ webUrl yurl u = [u] /\
  exists v, v <> u /\ In v (fst (decodeCrls yurl [] (B "[""" ++ u ++ B """]"))).
Proof.
  exists (B "http://a?x=1,2"). split; [vm_compute; discriminate|]. split; [rewrite <- keep_web; reflexivity|].
  exists (B "http://a?x=1"). split; [discriminate|]. vm_compute. auto.
Qed.
Print Assumptions C54_comma_refuted.

(** An element that is not a web URL is left out silently, so the list can say
    "partitioned" while having no URL at all. *)
Theorem C54_silent_drop_refuted : exists part, decodeCrls yurl [] part = ([], true).
Proof. exists (B "[""ldap://b""]"). reflexivity. Qed.
Print Assumptions C54_silent_drop_refuted.
