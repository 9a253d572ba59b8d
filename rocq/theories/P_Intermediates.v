(** * C47: the published intermediates are checked before a review is asked for *)
From Verif Require Import Base Base64 RemoteModel RemoteProofs IntermediatesModel.
From Coq Require Import Permutation.

Lemma same_eq u v : same u v = true <-> u = v.
Proof.
  unfold same. destruct u as [a b c], v as [a' b' c']. cbn. rewrite !andb_true_iff, !beq_eq. split; [intros [[-> ->] ->]; reflexivity|intros E; injection E; auto].
Qed.
Lemma same_refl u : same u u = true. Proof. apply same_eq. reflexivity. Qed.
Lemma assoc_in {A} u (l : list (pinfo * A)) a : assoc u l = Some a -> In (u, a) l.
Proof.
  induction l as [|[v b] l IH]; cbn [assoc]; [discriminate|]. destruct (same u v) eqn:E; [|right; auto]. apply same_eq in E. subst v. intros H. injection H as ->. left. reflexivity.
Qed.
Lemma present_in {A} u (l : list (pinfo * A)) : present u l = true <-> In u (map fst l).
Proof.
  unfold present. induction l as [|[v b] l IH]; cbn [assoc map fst]; [split; [discriminate|intros []]|]. destruct (same u v) eqn:E.
  - apply same_eq in E. subst v. split; [left; reflexivity|reflexivity].
  - rewrite IH. split; [intros H; right; exact H|]. intros [->|H]; [rewrite same_refl in E; discriminate E|exact H].
Qed.
Lemma assoc_some {A} u a (l : list (pinfo * A)) : NoDup (map fst l) -> In (u, a) l -> assoc u l = Some a.
Proof.
  intros N I. destruct (assoc u l) as [b|] eqn:E.
  - apply assoc_in in E. pose proof (g_nodup_inj fst l _ _ N I E eq_refl) as Q. injection Q as ->. reflexivity.
  - pose proof (proj2 (present_in u l)) as P. unfold present in P. rewrite E in P. specialize (P (in_map fst _ _ I)). discriminate P.
Qed.
Lemma keyOf_spec {A} u (l : list (pinfo * A)) : keyOf u l = if present u l then Some u else None.
Proof.
  unfold keyOf, present. induction l as [|[v b] l IH]; cbn [find assoc fst]; [reflexivity|]. destruct (same u v) eqn:E; [apply same_eq in E; subst v; reflexivity|exact IH].
Qed.

Section Spec.
  Variable parsePem : bytes -> pem.
  Variable decode64 : bytes -> option bytes.

  (** ** Specification *)
  (** A text of a hash agrees with a hash: it is the hash, or is empty. *)
  Definition agrees (t : bytes) (h : bytes) : Prop := decode64 t = Some h \/ decode64 t = Some [].
  Definition agreesOpt (t : option bytes) (h : bytes) : Prop := match t with None => True | Some x => agrees x h end.
  (** Record [r] publishes the certificate [u]: its file is the certificate and its fields agree with it. *)
  Definition holds (r : irec) (u : pinfo) : Prop :=
    exists name text dh, r_att r = Some (name, text) /\ parsePem text = PemOk u /\ i_derHash (r_data r) = Some dh /\ agrees dh (p_der u) /\ agreesOpt (i_pubKeyHash (r_data r)) (p_spki u).
  (** [u] is a certificate of enrolled.json. *)
  Definition wanted (entries : list entry) (u : pinfo) : Prop :=
    exists e text pk sj, In e entries /\ e_pem e = Some text /\ e_pubKeyHash e = Some pk /\ e_subject e = Some sj /\ parsePem text = PemOk u /\ agrees pk (p_spki u) /\ agreesOpt (e_derHash e) (p_der u).
  (** The collection holds these certificates, once each, and nothing else. *)
  Definition exact (entries : list entry) (recs : list irec) : Prop :=
    (forall r, In r recs -> exists u, holds r u /\ wanted entries u) /\
    (forall u, wanted entries u -> exists r, In r recs /\ holds r u) /\
    (forall r r' u, In r recs -> In r' recs -> holds r u -> holds r' u -> r = r').
  (** The hashes of certificates have 32 bytes. *)
  Definition hashes32 : Prop := forall t u, parsePem t = PemOk u -> length (p_spki u) = 32%nat /\ length (p_der u) = 32%nat.

  (** ** Reading *)
  Hypothesis H32 : hashes32.
  Lemma setPem_ok pk dh text u : setPem parsePem pk dh text = Ok u <-> parsePem text = PemOk u /\ (dh = [] \/ dh = p_der u) /\ (pk = [] \/ pk = p_spki u).
  Proof.
    unfold setPem. destruct (parsePem text) as [v| |]; [|split; [discriminate|intros [X _]; discriminate X]|split; [discriminate|intros [X _]; discriminate X]].
    assert (N : forall a b, negb (beq a []) && negb (beq a b) = true <-> ~ (a = [] \/ a = b)).
    { intros a b. rewrite andb_true_iff, !negb_true_iff, <- !not_true_iff_false, !beq_eq. tauto. }
    destruct (negb (beq dh []) && negb (beq dh (p_der v))) eqn:E1; [apply N in E1; split; [discriminate|intros [X [Y _]]; injection X as ->; contradiction]|].
    assert (F1 : dh = [] \/ dh = p_der v). { destruct (list_eq_dec Byte.byte_eq_dec dh []); [auto|]. destruct (list_eq_dec Byte.byte_eq_dec dh (p_der v)); [auto|]. rewrite (proj2 (N dh (p_der v))) in E1; [discriminate E1|tauto]. }
    destruct (negb (beq pk []) && negb (beq pk (p_spki v))) eqn:E2; [apply N in E2; split; [discriminate|intros [X [_ Y]]; injection X as ->; contradiction]|].
    assert (F2 : pk = [] \/ pk = p_spki v). { destruct (list_eq_dec Byte.byte_eq_dec pk []); [auto|]. destruct (list_eq_dec Byte.byte_eq_dec pk (p_spki v)); [auto|]. rewrite (proj2 (N pk (p_spki v))) in E2; [discriminate E2|tauto]. }
    split; [intros X; injection X as ->; auto|intros [X _]; injection X as ->; reflexivity].
  Qed.
  Lemma hashField_agrees t h : length h = 32%nat -> agreesOpt t h <-> exists f, hashField decode64 t = Some f /\ (f = [] \/ f = h).
  Proof.
    intros L. unfold hashField, agreesOpt, agrees. destruct t as [t|]; [|split; [intros _; exists []; auto|auto]].
    destruct (decode64 t) as [x|]; [|split; [intros [X|X]; discriminate X|intros [f [X _]]; discriminate X]].
    destruct (beq x []) eqn:E; [apply (proj1 (beq_eq _ _)) in E; subst x; split; [intros _; exists []; auto|intros _; auto]|].
    assert (NE : x <> []) by (intros ->; rewrite beq_refl in E; discriminate E).
    destruct (length x =? 32)%nat eqn:EL.
    - split; [intros [X|X]; injection X as X; [exists x; auto|contradiction]|intros [f [X Y]]; injection X as ->; destruct Y as [->| ->]; [contradiction|auto]].
    - apply Nat.eqb_neq in EL. split; [intros [X|X]; injection X as X; [subst x; contradiction|contradiction]|intros [f [X _]]; discriminate X].
  Qed.
  Lemma remoteInt_ok r u : remoteInt parsePem decode64 r = Ok u <-> holds r u.
  Proof.
    unfold remoteInt, holds. destruct (r_att r) as [[name text]|]; [|split; [discriminate|intros (n & t & d & X & _); discriminate X]].
    destruct (i_derHash (r_data r)) as [dh|]; [|split; [discriminate|intros (n & t & d & _ & _ & X & _); discriminate X]]. split.
    - destruct (hashField decode64 (i_pubKeyHash (r_data r))) as [k|] eqn:EK; [|discriminate]. destruct (hashField decode64 (Some dh)) as [d|] eqn:ED; [|discriminate].
      intros S. apply setPem_ok in S. destruct S as [P [D K]]. destruct (H32 _ _ P) as [L1 L2]. exists name, text, dh. repeat split; [exact P| |].
      + apply (hashField_agrees (Some dh) _ L2). exists d. auto.
      + apply (hashField_agrees _ _ L1). exists k. auto.
    - intros (n & t & d & X & P & Y & A1 & A2). injection X as -> ->. injection Y as ->. destruct (H32 _ _ P) as [L1 L2].
      apply (hashField_agrees (Some d) _ L2) in A1. destruct A1 as [f [-> F]]. apply (hashField_agrees _ _ L1) in A2. destruct A2 as [k [-> K]]. apply setPem_ok. auto.
  Qed.
  Lemma localInt_ok e u : localInt parsePem decode64 e = Ok u <-> exists text pk sj, e_pem e = Some text /\ e_pubKeyHash e = Some pk /\ e_subject e = Some sj /\ parsePem text = PemOk u /\ agrees pk (p_spki u) /\ agreesOpt (e_derHash e) (p_der u).
  Proof.
    unfold localInt. destruct (e_pem e) as [text|]; [|split; [discriminate|intros (t & p & s & X & _); discriminate X]].
    destruct (e_pubKeyHash e) as [pk|]; [|split; [discriminate|intros (t & p & s & _ & X & _); discriminate X]].
    destruct (e_subject e) as [sj|]; [|split; [discriminate|intros (t & p & s & _ & _ & X & _); discriminate X]]. split.
    - destruct (hashField decode64 (Some pk)) as [k|] eqn:EK; [|discriminate]. destruct (hashField decode64 (e_derHash e)) as [d|] eqn:ED; [|discriminate].
      intros S. apply setPem_ok in S. destruct S as [P [D K]]. destruct (H32 _ _ P) as [L1 L2]. exists text, pk, sj. repeat split; [exact P| |].
      + apply (hashField_agrees (Some pk) _ L1). exists k. auto.
      + apply (hashField_agrees _ _ L2). exists d. auto.
    - intros (t & p & s & X & Y & _ & P & A1 & A2). injection X as ->. injection Y as ->. destruct (H32 _ _ P) as [L1 L2].
      apply (hashField_agrees (Some p) _ L1) in A1. destruct A1 as [f [-> F]]. apply (hashField_agrees _ _ L2) in A2. destruct A2 as [k [-> K]]. apply setPem_ok. auto.
  Qed.
  Lemma holds_fun r u v : holds r u -> holds r v -> u = v.
  Proof. intros A C. apply remoteInt_ok in A. apply remoteInt_ok in C. congruence. Qed.

  Lemma loadLocal_spec : forall l acc, NoDup (map fst acc) -> match loadLocal parsePem decode64 acc l with
    | None => exists e, In e l /\ localInt parsePem decode64 e = Crash
    | Some loc => NoDup (map fst loc) /\ (forall u, In u (map fst loc) <-> In u (map fst acc) \/ wanted l u) /\ (forall u t, In (u, t) loc -> In (u, t) acc \/ parsePem t = PemOk u)
    end.
  Proof.
    induction l as [|e l IH]; intros acc N; cbn [loadLocal].
    - split; [exact N|]. split; [|auto]. intros u. split; [auto|]. intros [H|(e & t & p & s & [] & _)]. exact H.
    - assert (W : forall u, wanted (e :: l) u <-> localInt parsePem decode64 e = Ok u \/ wanted l u).
      { intros u. rewrite localInt_ok. unfold wanted. split.
        - intros (x & t & p & s & [->|I] & H); [left; exists t, p, s; exact H|right; exists x, t, p, s; auto].
        - intros [(t & p & s & H)|(x & t & p & s & I & H)]; [exists e, t, p, s; split; [left; reflexivity|exact H]|exists x, t, p, s; split; [right; exact I|exact H]]. }
      destruct (localInt parsePem decode64 e) as [u| |] eqn:E.
      + destruct (present u acc) eqn:PR.
        * specialize (IH acc N). destruct (loadLocal parsePem decode64 acc l) as [loc|]; [|destruct IH as [x [I C]]; exists x; split; [right; exact I|exact C]].
          destruct IH as [N' [K T]]. split; [exact N'|]. split; [|exact T]. intros v. rewrite K, W. apply present_in in PR. split; [tauto|]. intros [H|[H|H]]; [auto|injection H as <-; auto|auto].
        * set (acc' := (u, match e_pem e with Some t => t | None => [] end) :: acc).
          assert (N2 : NoDup (map fst acc')) by (cbn; constructor; [|exact N]; intros I; apply present_in in I; congruence).
          specialize (IH acc' N2). destruct (loadLocal parsePem decode64 acc' l) as [loc|]; [|destruct IH as [x [I C]]; exists x; split; [right; exact I|exact C]].
          destruct IH as [N' [K T]]. split; [exact N'|]. split.
          -- intros v. rewrite K, W. cbn. split; [intros [[->|H]|H]; auto|intros [H|[H|H]]; [auto|injection H as <-; auto|auto]].
          -- intros v t I. destruct (T v t I) as [[H|H]|H]; [|auto|auto]. injection H as <- <-. right. apply localInt_ok in E. destruct E as (t & p & s & -> & _ & _ & P & _). exact P.
      + specialize (IH acc N). destruct (loadLocal parsePem decode64 acc l) as [loc|]; [|destruct IH as [x [I C]]; exists x; split; [right; exact I|exact C]].
        destruct IH as [N' [K T]]. split; [exact N'|]. split; [|exact T]. intros v. rewrite K, W. split; [tauto|]. intros [H|[H|H]]; [auto|discriminate H|auto].
      + exists e. split; [left; reflexivity|exact E].
  Qed.

  Lemma loadRemote_spec : forall l rem bad, NoDup (map fst rem) -> (forall u r, In (u, r) rem -> holds r u) -> match loadRemote parsePem decode64 rem bad l with
    | None => exists r, In r l /\ remoteInt parsePem decode64 r = Crash
    | Some (rem', bad') => NoDup (map fst rem') /\ (forall u r, In (u, r) rem' -> holds r u) /\ Permutation (map snd rem' ++ bad') (map snd rem ++ bad ++ l) /\
        (forall u, In u (map fst rem') <-> In u (map fst rem) \/ exists r, In r l /\ holds r u) /\
        ((forall r, In r l -> exists u, holds r u /\ ~ In u (map fst rem)) -> (forall r r' u, In r l -> In r' l -> holds r u -> holds r' u -> r_id r = r_id r') -> NoDup (map r_id l) -> bad' = bad)
    end.
  Proof.
    induction l as [|r l IH]; intros rem bad N HR; cbn [loadRemote].
    - rewrite app_nil_r. repeat split; auto. intros [H|[r [[] _]]]. exact H.
    - assert (EX : forall u, (exists x, In x (r :: l) /\ holds x u) <-> holds r u \/ exists x, In x l /\ holds x u).
      { intros u. split; [intros [x [[<-|I] H]]; [auto|right; exists x; auto]|intros [H|[x [I H]]]; [exists r; split; [left; reflexivity|exact H]|exists x; split; [right; exact I|exact H]]]. }
      destruct (remoteInt parsePem decode64 r) as [u| |] eqn:E.
      + apply remoteInt_ok in E. destruct (present u rem) eqn:PR.
        * specialize (IH rem (r :: bad) N HR). destruct (loadRemote parsePem decode64 rem (r :: bad) l) as [[rem' bad']|]; [|destruct IH as [x [I C]]; exists x; split; [right; exact I|exact C]].
          destruct IH as [A1 [A2 [A3 [A4 A5]]]]. split; [exact A1|]. split; [exact A2|]. split; [|split].
          -- etransitivity; [exact A3|]. apply Permutation_app_head. cbn [app]. apply Permutation_middle.
          -- intros v. rewrite A4, EX. apply present_in in PR. split; [tauto|]. intros [H|[H|H]]; [auto| |auto]. rewrite <- (holds_fun _ _ _ E H). auto.
          -- intros H1 _ _. exfalso. destruct (H1 r (or_introl eq_refl)) as [v [Hv Nv]]. apply Nv. rewrite <- (holds_fun _ _ _ E Hv). apply present_in. exact PR.
        * assert (N2 : NoDup (map fst ((u, r) :: rem))) by (cbn; constructor; [|exact N]; intros I; apply present_in in I; congruence).
          assert (HR2 : forall v x, In (v, x) ((u, r) :: rem) -> holds x v) by (intros v x [H|H]; [injection H as <- <-; exact E|auto]).
          specialize (IH ((u, r) :: rem) bad N2 HR2). destruct (loadRemote parsePem decode64 ((u, r) :: rem) bad l) as [[rem' bad']|]; [|destruct IH as [x [I C]]; exists x; split; [right; exact I|exact C]].
          destruct IH as [A1 [A2 [A3 [A4 A5]]]]. split; [exact A1|]. split; [exact A2|]. split; [|split].
          -- etransitivity; [exact A3|]. cbn [map snd app]. rewrite !app_assoc. apply Permutation_middle.
          -- intros v. rewrite A4, EX. cbn. split; [intros [[->|H]|H]; auto|intros [H|[H|H]]; [auto| |auto]]. rewrite (holds_fun _ _ _ E H). auto.
          -- intros H1 H2 ND. cbn [map] in ND. apply NoDup_cons_iff in ND. destruct ND as [NI ND]. apply A5; [|intros x x' v I I'; apply H2; right; assumption|exact ND].
             intros x I. destruct (H1 x (or_intror I)) as [v [Hv Nv]]. exists v. split; [exact Hv|]. cbn. intros [<-|K]; [|contradiction]. apply NI. rewrite (H2 r x u (or_introl eq_refl) (or_intror I) E Hv). apply in_map. exact I.
      + specialize (IH rem (r :: bad) N HR). destruct (loadRemote parsePem decode64 rem (r :: bad) l) as [[rem' bad']|]; [|destruct IH as [x [I C]]; exists x; split; [right; exact I|exact C]].
        assert (NH : forall v, ~ holds r v) by (intros v H; apply remoteInt_ok in H; congruence).
        destruct IH as [A1 [A2 [A3 [A4 A5]]]]. split; [exact A1|]. split; [exact A2|]. split; [|split].
        * etransitivity; [exact A3|]. apply Permutation_app_head. cbn [app]. apply Permutation_middle.
        * intros v. rewrite A4, EX. split; [tauto|]. intros [H|[H|H]]; [auto|destruct (NH v H)|auto].
        * intros H1 _ _. exfalso. destruct (H1 r (or_introl eq_refl)) as [v [Hv _]]. exact (NH v Hv).
      + exists r. split; [left; reflexivity|exact E].
  Qed.
End Spec.

Lemma Forall2_r_in {A B} (P : A -> B -> Prop) l l' b : Forall2 P l l' -> In b l' -> exists a, In a l /\ P a b.
Proof. induction 1; intros I; [destruct I|]. destruct I as [<-|I]; [exists x; split; [left; reflexivity|assumption]|]. destruct (IHForall2 I) as [a [A1 A2]]. exists a. split; [right; exact A1|exact A2]. Qed.
Lemma Forall2_l_in {A B} (P : A -> B -> Prop) l l' a : Forall2 P l l' -> In a l -> exists b, In b l' /\ P a b.
Proof. induction 1; intros I; [destruct I|]. destruct I as [<-|I]; [exists y; split; [left; reflexivity|assumption]|]. destruct (IHForall2 I) as [b [A1 A2]]. exists b. split; [right; exact A1|exact A2]. Qed.
Lemma Forall2_unique {A B} (P Q : A -> B -> Prop) l l' : Forall2 P l l' -> NoDup l -> (forall u r, P u r -> Q u r) -> (forall u v r, Q u r -> Q v r -> u = v) ->
  forall u r r', In r l' -> In r' l' -> Q u r -> Q u r' -> r = r'.
Proof.
  intros F N PQ QF. induction F as [|a b l l' H F IH]; intros u r r' I I' HU HU'; [destruct I|]. apply NoDup_cons_iff in N. destruct N as [NI N].
  assert (OUT : forall x, In x l' -> ~ Q a x) by (intros x IX HX; destruct (Forall2_r_in _ _ _ _ F IX) as [c [IC PC]]; rewrite (QF _ _ _ HX (PQ _ _ PC)) in NI; contradiction).
  destruct I as [<-|I], I' as [<-|I']; [reflexivity| | |exact (IH N u r r' I I' HU HU')]; exfalso.
  - rewrite (QF _ _ _ HU (PQ _ _ H)) in HU'. exact (OUT r' I' HU').
  - rewrite (QF _ _ _ HU' (PQ _ _ H)) in HU. exact (OUT r I HU).
Qed.
Lemma nodup_disjoint {A} (l l' : list A) x : NoDup (l ++ l') -> In x l -> ~ In x l'.
Proof.
  induction l as [|y l IH]; intros N I J; [destruct I|]. cbn in N. apply NoDup_cons_iff in N. destruct N as [NI N]. destruct I as [->|I]; [apply NI; apply in_or_app; right; exact J|exact (IH N I J)].
Qed.

(** ** The passes *)
Section Passes.
  Variable fresh : list irec -> bytes.
  Variable listing : list irec -> list irec.
  Variable ok : fault -> Prop.
  Hypothesis Fresh : forall l, ~ In (fresh l) (map r_id l).
  Let wpp {A} (p : prog idata A) := wp fresh listing ok p.
  Notation clean := (clean ok).

  Definition kept (s s' : server idata) : Prop := sv_reviews s' = sv_reviews s /\ (s' = s \/ sv_wip s' = true).
  Lemma kept_refl s : kept s s. Proof. split; auto. Qed.
  Lemma kept_change s l : kept s (change s l). Proof. split; auto. Qed.
  Lemma kept_trans s1 s2 s3 : kept s1 s2 -> kept s2 s3 -> kept s1 s3.
  Proof. intros [A B0] [C D]. split; [congruence|]. destruct D as [->|D]; auto. Qed.

  (** [r] is left over after the deletion of some of [ids]; of all of them, if nothing fails. *)
  Definition Del (ids : list bytes) (s s' : server idata) : Prop :=
    kept s s' /\ (NoDup (map r_id (sv_recs s)) -> NoDup (map r_id (sv_recs s'))) /\ (forall r, In r (sv_recs s') -> In r (sv_recs s)) /\ (forall r, In r (sv_recs s) -> In r (sv_recs s') \/ In (r_id r) ids).
  Lemma wp_deleteIds : forall ids (s : server idata),
    wpp (deleteIds ids) (fun o s' => Del ids s s' /\ (clean -> o = Done tt /\ forall r, In r (sv_recs s') -> ~ In (r_id r) ids)) s.
  Proof.
    induction ids as [|id ids IH]; intros s; cbn [deleteIds].
    - cbn. split; [|auto]. split; [apply kept_refl|auto].
    - apply wp_seq. apply wp_catch. set (s1 := change s (filter (fun r => negb (hasId id r)) (sv_recs s))).
      assert (D1 : Del [id] s s1).
      { split; [apply kept_change|]. split; [apply g_nodup_filter|]. split; [intros r I; apply g_in_filter in I; tauto|]. intros r I.
        destruct (list_eq_dec Byte.byte_eq_dec (r_id r) id) as [<-|N]; [right; left; reflexivity|left; apply g_in_filter; auto]. }
      assert (D0 : Del [id] s s) by (split; [apply kept_refl|]; auto).
      assert (CONS : forall t t', Del [id] s t -> Del ids t t' -> Del (id :: ids) s t').
      { intros t t' [K1 [N1 [A1 B1]]] [K2 [N2 [A2 B2]]]. split; [exact (kept_trans _ _ _ K1 K2)|]. split; [auto|]. split; [auto|].
        intros r I. destruct (B1 r I) as [J|[J|[]]]; [|right; left; exact J]. destruct (B2 r J) as [J'|J']; [auto|right; right; exact J']. }
      assert (REFL : forall t, Del ids t t) by (intros t; split; [apply kept_refl|auto]).
      assert (REST : forall t, Del [id] s t -> (clean -> forall r, In r (sv_recs t) -> r_id r <> id) ->
        wpp (deleteIds ids) (fun o s' => Del (id :: ids) s s' /\ (clean -> o = Done tt /\ forall r, In r (sv_recs s') -> ~ In (r_id r) (id :: ids))) t).
      { intros t DT CT. eapply wp_mono; [|apply (IH t)]. intros o s' [D C]. split; [exact (CONS t s' DT D)|]. intros K. destruct (C K) as [E H]. split; [exact E|].
        intros r I [Q|J]; [|exact (H r I J)]. destruct D as [_ [_ [D _]]]. exact (CT K r (D r I) (eq_sym Q)). }
      assert (NOT : forall t : server idata, (forall r, In r (sv_recs t) -> r_id r <> id) -> Del [id] s t -> Del [id] s t /\ (clean -> forall r, In r (sv_recs t) -> r_id r <> id)) by auto.
      destruct (existsb (hasId id) (sv_recs s)) eqn:EX.
      + assert (E : exec fresh listing (CDelete id) s = (RDone, s1)) by (cbn [exec]; rewrite EX; reflexivity).
        eapply wp_mono; [|exact (gwp_unit _ _ _ ok _ _ _ E)]. intros o s' [H [C R]].
        assert (DS : Del [id] s s') by (destruct H as [->| ->]; assumption).
        assert (C1 : s' = s1 -> forall r, In r (sv_recs s') -> r_id r <> id) by (intros -> r I; apply g_in_filter in I; tauto).
        destruct o as [[]|e|].
        * subst s'. apply REST; [exact DS|auto].
        * assert (F : ~ clean) by (intros F; specialize (C F); discriminate C). destruct e; [apply REST; [exact DS|intros X; contradiction]|split; [exact (CONS s' s' DS (REFL s'))|intros X; contradiction]|split; [exact (CONS s' s' DS (REFL s'))|intros X; contradiction]].
        * assert (F : ~ clean) by (intros F; specialize (C F); discriminate C). split; [exact (CONS s' s' DS (REFL s'))|intros X; contradiction].
      + assert (NI : forall r, In r (sv_recs s) -> r_id r <> id).
        { intros r I Q. assert (X : existsb (hasId id) (sv_recs s) = true) by (apply g_existsb; rewrite <- Q; apply in_map; exact I). congruence. }
        assert (E : exec fresh listing (CDelete id) s = (RExc EKinto, s)) by (cbn [exec]; rewrite EX; reflexivity).
        assert (EF : forall x, effect fresh listing x (CDelete id) s = s) by (intros []; unfold effect; rewrite ?E; reflexivity).
        unfold wpp, unitCall. cbn [wp]. rewrite E. cbn [fst snd wp]. split; [apply REST; auto|].
        split; [|split]; intros x O; rewrite EF; [apply REST; auto|split; [exact (CONS s s D0 (REFL s))|]|split; [exact (CONS s s D0 (REFL s))|]]; intros F; specialize (F _ O); discriminate F.
  Qed.

  (** Publication of one certificate. *)
  Definition newRec (u : pinfo) (text : bytes) (r : irec) : Prop := r_data r = attributes u /\ exists name, r_att r = Some (name, text).
  Lemma wp_addToKinto u text (s : server idata) :
    wpp (addToKinto u text) (fun o s' => kept s s' /\ (sv_recs s' = sv_recs s \/ exists r, sv_recs s' = r :: sv_recs s /\ r_id r = fresh (sv_recs s)) /\
      (clean -> o = Done tt /\ exists r, sv_recs s' = r :: sv_recs s /\ r_id r = fresh (sv_recs s) /\ newRec u text r)) s.
  Proof.
    unfold wpp, addToKinto. apply wp_seq. set (id := fresh (sv_recs s)). set (s1 := change s (mkRecord id (attributes u) None :: sv_recs s)).
    set (name := b64encode urlAlphabet (p_spki u) ++ B ".pem"). set (s2 := change s1 (mkRecord id (attributes u) (Some (name, text)) :: sv_recs s)).
    set (P := fun s' : server idata => kept s s' /\ (sv_recs s' = sv_recs s \/ exists r, sv_recs s' = r :: sv_recs s /\ r_id r = id)).
    assert (P0 : P s) by (split; [apply kept_refl|auto]).
    assert (P1 : P s1) by (split; [apply kept_change|]; right; eexists; split; reflexivity).
    assert (P2 : P s2) by (split; [split; [reflexivity|right; reflexivity]|]; right; eexists; split; reflexivity).
    eapply wp_mono; [|exact (gwp_create _ _ _ ok (attributes u) s)]. fold id. fold s1. intros o s' [H [C R]].
    destruct o as [i|e|].
    2:{ assert (F : ~ clean) by (intros F; specialize (C F); discriminate C). assert (P s') by (destruct H as [-> | ->]; assumption). destruct H0 as [X Y]. split; [exact X|]. split; [exact Y|intros Z; contradiction]. }
    2:{ assert (F : ~ clean) by (intros F; specialize (C F); discriminate C). assert (P s') by (destruct H as [-> | ->]; assumption). destruct H0 as [X Y]. split; [exact X|]. split; [exact Y|intros Z; contradiction]. }
    destruct R as [-> ->]. apply wp_catch.
    assert (HA : hasId id (mkRecord id (attributes u) None) = true) by (unfold hasId; cbn [r_id]; apply beq_refl).
    assert (EX : exec fresh listing (CAttach id name text) s1 = (RDone, s2)).
    { cbn [exec]. rewrite (proj2 (g_existsb _ id (sv_recs s1))) by (left; reflexivity). f_equal. cbn [s1 change sv_recs map]. rewrite HA. cbn [r_id r_data]. rewrite (g_map_other _ id); [reflexivity|apply Fresh]. }
    eapply wp_mono; [|exact (gwp_unit _ _ _ ok _ _ _ EX)]. clear H C. intros o s' [H [C R]].
    assert (PS : P s') by (destruct H as [-> | ->]; assumption).
    destruct o as [[]|e|].
    - subst s'. destruct PS as [X Y]. split; [exact X|]. split; [exact Y|]. intros _. split; [reflexivity|]. eexists. split; [reflexivity|]. split; [reflexivity|]. split; [reflexivity|]. exists name. reflexivity.
    - assert (F : ~ clean) by (intros F; specialize (C F); discriminate C). destruct e; [|destruct PS as [X Y]; split; [exact X|]; split; [exact Y|intros Z; contradiction]|destruct PS as [X Y]; split; [exact X|]; split; [exact Y|intros Z; contradiction]].
      apply wp_seq. set (t1 := change s' (sv_recs s)).
      assert (IN : In id (map r_id (sv_recs s'))) by (destruct H as [-> | ->]; left; reflexivity).
      assert (ED : exec fresh listing (CDelete id) s' = (RDone, t1)).
      { cbn [exec]. rewrite (proj2 (g_existsb _ id (sv_recs s')) IN). f_equal. unfold t1. f_equal.
        assert (W : forall a, filter (fun r => negb (hasId id r)) (mkRecord id (attributes u) a :: sv_recs s) = sv_recs s).
        { intros a. cbn [filter]. unfold hasId at 1. cbn [r_id]. rewrite beq_refl. cbn [negb]. assert (N : ~ In id (map r_id (sv_recs s))) by apply Fresh. clearbody id. clear - N. induction (sv_recs s) as [|r l IL]; [reflexivity|].
          cbn [filter]. unfold hasId at 1. destruct (beq id (r_id r)) eqn:E; [apply (proj1 (beq_eq _ _)) in E; exfalso; apply N; left; symmetry; exact E|]. cbn [negb]. f_equal. apply IL. intros I. apply N. right. exact I. }
        destruct H as [-> | ->]; apply W. }
      assert (PT : P t1) by (split; [split; [destruct PS as [[K _] _]; exact K|right; reflexivity]|left; reflexivity]).
      eapply wp_mono; [|exact (gwp_unit _ _ _ ok _ _ _ ED)]. intros o t [HT _]. assert (PP : P t) by (destruct HT as [-> | ->]; assumption).
      destruct o; (destruct PP as [X Y]; split; [exact X|]; split; [exact Y|intros Z; contradiction]).
    - assert (F : ~ clean) by (intros F; specialize (C F); discriminate C). destruct PS as [X Y]. split; [exact X|]. split; [exact Y|intros Z; contradiction].
  Qed.

  Definition Add (s s' : server idata) : Prop := kept s s' /\ exists news, sv_recs s' = news ++ sv_recs s /\ (NoDup (map r_id (sv_recs s)) -> NoDup (map r_id (sv_recs s'))).
  Lemma wp_addAll loc : forall us (s : server idata), (forall u, In u us -> assoc u loc <> None) ->
    wpp (addAll loc us) (fun o s' => Add s s' /\
      (clean -> o = Done tt /\ exists news, sv_recs s' = news ++ sv_recs s /\ Forall2 (fun u r => exists text, assoc u loc = Some text /\ newRec u text r) us (rev news))) s.
  Proof.
    induction us as [|u us IH]; intros s AL; cbn [addAll].
    - cbn. split; [split; [apply kept_refl|]; exists []; auto|]. intros _. split; [reflexivity|]. exists []. split; [reflexivity|constructor].
    - assert (AL' : forall v, In v us -> assoc v loc <> None) by (intros v I; apply AL; right; exact I).
      destruct (assoc u loc) as [text|] eqn:EA; [|exfalso; exact (AL u (or_introl eq_refl) EA)].
      apply wp_seq. apply wp_catch. eapply wp_mono; [|apply (wp_addToKinto u text s)]. intros o s' [K [H C]].
      assert (ND : NoDup (map r_id (sv_recs s)) -> NoDup (map r_id (sv_recs s'))).
      { intros N. destruct H as [-> |[r [-> E]]]; [exact N|]. cbn [map]. constructor; [rewrite E; apply Fresh|exact N]. }
      assert (A1 : Add s s') by (split; [exact K|]; destruct H as [H|[r [H E]]]; [exists []; auto|exists [r]; auto]).
      assert (CONS : forall t, Add s' t -> Add s t).
      { intros t [K' [news [E N]]]. split; [exact (kept_trans _ _ _ K K')|]. destruct H as [H|[r [H _]]]; [exists news|exists (news ++ [r])]; (split; [rewrite E, H, <- ?app_assoc; reflexivity|auto]). }
      assert (REST : wpp (addAll loc us) (fun o t => Add s t /\ (clean -> o = Done tt /\ exists news, sv_recs t = news ++ sv_recs s /\ Forall2 (fun u r => exists text, assoc u loc = Some text /\ newRec u text r) (u :: us) (rev news))) s').
      { eapply wp_mono; [|apply (IH s' AL')]. intros o' t [A C']. split; [exact (CONS t A)|]. intros F. destruct (C' F) as [E [news [EN F2]]]. split; [exact E|]. destruct (C F) as [_ [r [ER [_ NR]]]]. exists (news ++ [r]). rewrite EN, ER, <- app_assoc. split; [reflexivity|].
        rewrite rev_app_distr. cbn [rev app]. constructor; [exists text; auto|exact F2]. }
      destruct o as [[]|e|]; [exact REST| |].
      + assert (F : ~ clean) by (intros F; destruct (C F) as [X _]; discriminate X). destruct e; [exact REST|split; [exact A1|intros X; contradiction]|split; [exact A1|intros X; contradiction]].
      + assert (F : ~ clean) by (intros F; destruct (C F) as [X _]; discriminate X). split; [exact A1|intros X; contradiction].
  Qed.
End Passes.

Section C47.
  Variable parsePem : bytes -> pem.
  Variable decode64 : bytes -> option bytes.
  Variable order : list pinfo -> list pinfo.
  Variable fresh : list irec -> bytes.
  Variable listing : list irec -> list irec.
  Hypothesis H32 : hashes32 parsePem.
  Hypothesis Order : forall l, Permutation (order l) l.
  Hypothesis Fresh : forall l, ~ In (fresh l) (map r_id l).
  Hypothesis Listing : forall l, Permutation (listing l) l.
  Notation holds := (holds parsePem decode64).
  Notation wanted := (wanted parsePem decode64).
  Notation exact := (exact parsePem decode64).
  Notation publish := (publishIntermediates parsePem decode64 order).

  Lemma toUpdate_nil loc rem : toUpdate loc rem = [].
  Proof.
    unfold toUpdate. induction loc as [|p loc IH]; [reflexivity|]. cbn [filter]. rewrite keyOf_spec. destruct (present (fst p) rem); [unfold equals; rewrite beq_refl; cbn [negb]|]; exact IH.
  Qed.
  Lemma order_nil : order [] = [].
  Proof. apply Permutation_nil. symmetry. apply Order. Qed.

  Lemma wp_verify ok entries loc (s : server idata) : NoDup (map fst loc) -> (forall u, In u (map fst loc) <-> wanted entries u) ->
    wp fresh listing ok (verify parsePem decode64 loc) (fun o s' => sv_recs s' = sv_recs s /\ (sv_reviews s' = sv_reviews s \/ sv_reviews s' = sv_recs s :: sv_reviews s) /\
      (o = Done tt \/ sv_reviews s' <> sv_reviews s -> exact entries (sv_recs s)) /\
      (clean ok -> exact entries (sv_recs s) -> NoDup (map r_id (sv_recs s)) -> o = Done tt /\ if sv_wip s then sv_wip s' = false /\ sv_reviews s' = sv_recs s :: sv_reviews s else s' = s)) s.
  Proof.
    intros NL KL. unfold verify. apply wp_seq. eapply wp_mono; [|apply gwp_get]. intros o s' [-> [C H]].
    assert (STOP : forall o : outcome unit, o <> Done tt -> (clean ok -> exact entries (sv_recs s) -> NoDup (map r_id (sv_recs s)) -> False) ->
      sv_recs s = sv_recs s /\ (sv_reviews s = sv_reviews s \/ sv_reviews s = sv_recs s :: sv_reviews s) /\ (o = Done tt \/ sv_reviews s <> sv_reviews s -> exact entries (sv_recs s)) /\
      (clean ok -> exact entries (sv_recs s) -> NoDup (map r_id (sv_recs s)) -> o = Done tt /\ if sv_wip s then sv_wip s = false /\ sv_reviews s = sv_recs s :: sv_reviews s else s = s)).
    { intros o' N NC. split; [reflexivity|]. split; [auto|]. split; [intros [X|X]; [contradiction|destruct (X eq_refl)]|]. intros C1 C2 C3. destruct (NC C1 C2 C3). }
    destruct o as [l|e|]; [|apply STOP; [discriminate|intros X; specialize (C X); discriminate C]|apply STOP; [discriminate|intros X; specialize (C X); discriminate C]]. subst l.
    pose proof (Listing (sv_recs s)) as PL. pose proof (loadRemote_spec parsePem decode64 H32 (listing (sv_recs s)) [] []) as LR.
    specialize (LR (NoDup_nil _) (fun u r I => match I with end)). destruct (loadRemote parsePem decode64 [] [] (listing (sv_recs s))) as [[rem bad]|].
    2:{ cbn. apply STOP; [discriminate|]. intros _ [E _] _. destruct LR as [r [I CR]]. apply (Permutation_in _ PL) in I. destruct (E r I) as [u [HU _]]. apply (remoteInt_ok parsePem decode64 H32) in HU. congruence. }
    destruct LR as [A1 [A2 [A3 [A4 A5]]]]. cbn [map app] in A3, A4.
    assert (A4' : forall u, In u (map fst rem) <-> exists r, In r (sv_recs s) /\ holds r u).
    { intros u. rewrite A4. split; [intros [[]|[r [I HU]]]; exists r; split; [apply (Permutation_in _ PL); exact I|exact HU]|intros [r [I HU]]; right; exists r; split; [apply (Permutation_in _ (Permutation_sym PL)); exact I|exact HU]]. }
    assert (BAD : exact entries (sv_recs s) -> NoDup (map r_id (sv_recs s)) -> bad = []).
    { intros [E1 [E2 E3]] ND. apply A5.
      - intros r I. apply (Permutation_in _ PL) in I. destruct (E1 r I) as [u [HU _]]. exists u. split; [exact HU|intros []].
      - intros r r' u I I' HU HU'. f_equal. apply (E3 r r' u); [apply (Permutation_in _ PL); exact I|apply (Permutation_in _ PL); exact I'|exact HU|exact HU'].
      - apply (Permutation_NoDup (l := map r_id (sv_recs s))); [apply Permutation_map; symmetry; exact PL|exact ND]. }
    destruct bad as [|x bad]; [|cbn; apply STOP; [discriminate|]; intros _ E ND; discriminate (BAD E ND)].
    rewrite app_nil_r in A3.
    destruct (forallb _ loc) eqn:F1.
    2:{ cbn. apply STOP; [discriminate|]. intros _ [E1 [E2 E3]] _. assert (X : forallb (fun p => match keyOf (fst p) rem with Some v => equals (fst p) v | None => false end) loc = true); [|congruence].
        apply forallb_forall. intros [u t] I. cbn [fst]. rewrite keyOf_spec. assert (PR : present u rem = true); [|rewrite PR; apply beq_refl]. apply present_in. apply A4'. apply E2. apply KL. apply (in_map fst) in I. exact I. }
    destruct (forallb (fun p => present (fst p) loc) rem) eqn:F2.
    2:{ cbn. apply STOP; [discriminate|]. intros _ [E1 [E2 E3]] _. assert (X : forallb (fun p => present (fst p) loc) rem = true); [|congruence].
        apply forallb_forall. intros [u r] I. cbn [fst]. apply present_in. apply KL. pose proof (A2 u r I) as HU. assert (IR : In r (sv_recs s)) by (apply (Permutation_in _ PL); apply (Permutation_in _ A3); apply (in_map snd) in I; exact I).
        destruct (E1 r IR) as [v [HV W]]. rewrite (holds_fun parsePem decode64 H32 r u v HU HV). exact W. }
    rewrite forallb_forall in F1, F2.
    assert (EX : exact entries (sv_recs s)).
    { assert (RE : forall r, In r (sv_recs s) -> exists u, In (u, r) rem).
      { intros r I. apply (Permutation_in _ (Permutation_sym PL)) in I. apply (Permutation_in _ (Permutation_sym A3)) in I. apply in_map_iff in I. destruct I as [[u r'] [E I]]. cbn in E. subst r'. exists u. exact I. }
      split; [|split].
      - intros r I. destruct (RE r I) as [u J]. exists u. split; [exact (A2 u r J)|]. apply KL. apply present_in. exact (F2 _ J).
      - intros u W. apply KL in W. apply in_map_iff in W. destruct W as [p [E I]]. specialize (F1 p I). rewrite E, keyOf_spec in F1. destruct (present u rem) eqn:PR; [|discriminate F1]. apply present_in in PR. apply A4'. exact PR.
      - intros r r' u I I' HU HU'. destruct (RE r I) as [v J]. destruct (RE r' I') as [v' J']. assert (v = u) by (exact (holds_fun parsePem decode64 H32 r v u (A2 _ _ J) HU)). assert (v' = u) by (exact (holds_fun parsePem decode64 H32 r' v' u (A2 _ _ J') HU')). subst v v'.
        pose proof (g_nodup_inj fst rem _ _ A1 J J' eq_refl) as Q. injection Q as ->. reflexivity. }
    eapply wp_mono; [|apply gwp_review]. intros o s' [R1 [R2 [R3 R4]]]. split; [exact R1|]. split; [exact R2|]. split; [intros _; exact EX|]. intros K _ _. specialize (R3 K). subst o. split; [reflexivity|exact R4].
  Qed.

  (** What is known after the first listing. *)
  Definition divided (recs : list irec) (rem : list (pinfo * irec)) (bad : list irec) : Prop :=
    NoDup (map fst rem) /\ (forall u r, In (u, r) rem -> holds r u) /\ Permutation (map snd rem ++ bad) recs /\ (forall u, In u (map fst rem) <-> exists r, In r recs /\ holds r u).
  Lemma loadRemote_split recs : match loadRemote parsePem decode64 [] [] (listing recs) with None => exists r, In r recs /\ remoteInt parsePem decode64 r = Crash | Some (rem, bad) => divided recs rem bad end.
  Proof.
    pose proof (Listing recs) as PL. pose proof (loadRemote_spec parsePem decode64 H32 (listing recs) [] [] (NoDup_nil _) (fun u r I => match I with end)) as LR.
    destruct (loadRemote parsePem decode64 [] [] (listing recs)) as [[rem bad]|].
    - destruct LR as [A1 [A2 [A3 [A4 _]]]]. cbn [map app] in *. split; [exact A1|]. split; [exact A2|]. split; [etransitivity; [exact A3|exact PL]|].
      intros u. rewrite A4. split; [intros [[]|[r [I HU]]]; exists r; split; [apply (Permutation_in _ PL); exact I|exact HU]|intros [r [I HU]]; right; exists r; split; [apply (Permutation_in _ (Permutation_sym PL)); exact I|exact HU]].
    - destruct LR as [r [I C]]. exists r. split; [apply (Permutation_in _ PL); exact I|exact C].
  Qed.
  Lemma idsOf_in rem us id : NoDup (map fst rem) -> In id (idsOf rem us) <-> exists u r, In u us /\ In (u, r) rem /\ r_id r = id.
  Proof.
    intros N. unfold idsOf. rewrite in_flat_map. split.
    - intros [u [I H]]. destruct (assoc u rem) as [r|] eqn:E; [|destruct H]. destruct H as [<-|[]]. exists u, r. split; [exact I|]. split; [apply assoc_in; exact E|reflexivity].
    - intros [u [r [I [J E]]]]. exists u. split; [exact I|]. rewrite (assoc_some u r rem N J). left. exact E.
  Qed.
  Lemma remoteOnly_in loc rem u : In u (order (remoteOnly loc rem)) <-> In u (map fst rem) /\ ~ In u (map fst loc).
  Proof.
    assert (P : In u (order (remoteOnly loc rem)) <-> In u (remoteOnly loc rem)) by (split; apply Permutation_in; [|symmetry]; apply Order). rewrite P. unfold remoteOnly. rewrite in_map_iff. split.
    - intros [p [<- I]]. apply filter_In in I. destruct I as [I N]. apply negb_true_iff in N. split; [apply in_map; exact I|]. intros J. apply present_in in J. congruence.
    - intros [I N]. apply in_map_iff in I. destruct I as [p [<- I]]. exists p. split; [reflexivity|]. apply filter_In. split; [exact I|]. apply negb_true_iff. destruct (present (fst p) loc) eqn:E; [apply present_in in E; contradiction|reflexivity].
  Qed.
  Lemma toUpload_in loc rem u : In u (order (toUpload loc rem)) <-> In u (map fst loc) /\ ~ In u (map fst rem).
  Proof.
    assert (P : In u (order (toUpload loc rem)) <-> In u (toUpload loc rem)) by (split; apply Permutation_in; [|symmetry]; apply Order). rewrite P. unfold toUpload. rewrite in_map_iff. split.
    - intros [p [<- I]]. apply filter_In in I. destruct I as [I N]. apply negb_true_iff in N. split; [apply in_map; exact I|]. intros J. apply present_in in J. congruence.
    - intros [I N]. apply in_map_iff in I. destruct I as [p [<- I]]. exists p. split; [reflexivity|]. apply filter_In. split; [exact I|]. apply negb_true_iff. destruct (present (fst p) rem) eqn:E; [apply present_in in E; contradiction|reflexivity].
  Qed.
  Lemma map_nodup_filter {A B} (g : A -> B) (f : A -> bool) (l : list A) : NoDup (map g l) -> NoDup (map g (filter f l)).
  Proof. apply g_nodup_filter. Qed.

  (** The whole run. *)
  Definition stays (entries : list entry) (recs recs' : list irec) : Prop := forall u r, In r recs -> holds r u -> wanted entries u -> exists r', In r' recs' /\ holds r' u.
  Definition readable (entries : list entry) (recs : list irec) : Prop := (forall e, In e entries -> localInt parsePem decode64 e <> Crash) /\ (forall r, In r recs -> remoteInt parsePem decode64 r <> Crash).
  Lemma wp_intermediates ok entries (s : server idata) : NoDup (map r_id (sv_recs s)) -> (forall h, decode64 (b64encode stdAlphabet h) = Some h) ->
    wp fresh listing ok (publish false entries) (fun o s' =>
      NoDup (map r_id (sv_recs s')) /\ stays entries (sv_recs s) (sv_recs s') /\
      (sv_reviews s' = sv_reviews s \/ sv_reviews s' = sv_recs s' :: sv_reviews s) /\ (o = Done tt \/ sv_reviews s' <> sv_reviews s -> exact entries (sv_recs s')) /\
      (clean ok -> readable entries (sv_recs s) -> o = Done tt /\ sv_wip s' = false /\ (s' = s \/ sv_reviews s' = sv_recs s' :: sv_reviews s))) s.
  Proof.
    intros ND D64. unfold publishIntermediates.
    assert (STAY : stays entries (sv_recs s) (sv_recs s)) by (intros u r I H _; exists r; auto).
    set (R := readable entries (sv_recs s)).
    assert (STOP : forall (o : outcome unit) s', o <> Done tt -> (clean ok -> R -> False) -> NoDup (map r_id (sv_recs s')) -> stays entries (sv_recs s) (sv_recs s') -> sv_reviews s' = sv_reviews s ->
      NoDup (map r_id (sv_recs s')) /\ stays entries (sv_recs s) (sv_recs s') /\ (sv_reviews s' = sv_reviews s \/ sv_reviews s' = sv_recs s' :: sv_reviews s) /\ (o = Done tt \/ sv_reviews s' <> sv_reviews s -> exact entries (sv_recs s')) /\
      (clean ok -> R -> o = Done tt /\ sv_wip s' = false /\ (s' = s \/ sv_reviews s' = sv_recs s' :: sv_reviews s))).
    { intros o s' N F ND' ST RV. split; [exact ND'|]. split; [exact ST|]. split; [auto|]. split; [intros [X|X]; contradiction|]. intros X Y. destruct (F X Y). }
    pose proof (loadLocal_spec parsePem decode64 H32 entries [] (NoDup_nil _)) as LL. destruct (loadLocal parsePem decode64 [] entries) as [loc|].
    2:{ cbn. apply STOP; auto; [discriminate|]. intros _ [RE _]. destruct LL as [e [I C]]. exact (RE e I C). }
    destruct LL as [NL [KL TL]]. assert (KW : forall u, In u (map fst loc) <-> wanted entries u) by (intros u; rewrite KL; cbn; tauto).
    assert (TL' : forall u t, In (u, t) loc -> parsePem t = PemOk u) by (intros u t I; destruct (TL u t I) as [[]|H]; exact H). clear KL TL.
    apply wp_seq. eapply wp_mono; [|apply gwp_get]. intros o s' [-> [C H]].
    destruct o as [l|e|]; [|apply STOP; auto; [discriminate|intros X; specialize (C X); discriminate C]|apply STOP; auto; [discriminate|intros X; specialize (C X); discriminate C]]. subst l.
    pose proof (loadRemote_split (sv_recs s)) as LR. destruct (loadRemote parsePem decode64 [] [] (listing (sv_recs s))) as [[rem bad]|].
    2:{ cbn. apply STOP; auto; [discriminate|]. intros _ [_ RE]. destruct LR as [r [I CR]]. exact (RE r I CR). }
    destruct LR as [A1 [A2 [A3 A4]]]. rewrite toUpdate_nil, order_nil. cbn [updateAll].
    set (gone := idsOf rem (order (remoteOnly loc rem))). set (broken := map r_id (rev bad)). set (new := order (toUpload loc rem)).
    assert (REM : forall u r, In (u, r) rem -> In r (sv_recs s)) by (intros u r I; apply (Permutation_in _ A3); apply in_or_app; left; apply (in_map snd) in I; exact I).
    (* the record kept for a wanted certificate is not among those to delete *)
    assert (KEEP : forall u r, In (u, r) rem -> wanted entries u -> ~ In (r_id r) gone /\ ~ In (r_id r) broken).
    { intros u r I W. split.
      - intros G. unfold gone in G. apply idsOf_in in G; [|exact A1]. destruct G as [v [r' [IV [IR E]]]]. apply remoteOnly_in in IV. destruct IV as [_ NV]. assert (r' = r) by (exact (g_nodup_inj r_id _ _ _ ND (REM _ _ IR) (REM _ _ I) E)). subst r'.
        apply NV. apply KW. rewrite (holds_fun parsePem decode64 H32 r v u (A2 _ _ IR) (A2 _ _ I)). exact W.
      - intros G. unfold broken in G. apply in_map_iff in G. destruct G as [x [E IX]]. rewrite <- in_rev in IX.
        assert (NP : NoDup (map r_id (map snd rem ++ bad))) by (apply (Permutation_NoDup (l := map r_id (sv_recs s))); [apply Permutation_map; symmetry; exact A3|exact ND]).
        rewrite map_app in NP. apply (in_map snd) in I. cbn in I. apply (in_map r_id) in I. apply (nodup_disjoint _ _ _ NP I). rewrite <- E. apply in_map. exact IX. }
    assert (ST : forall t : server idata, (forall r, In r (sv_recs s) -> In r (sv_recs t) \/ In (r_id r) gone \/ In (r_id r) broken) -> stays entries (sv_recs s) (sv_recs t)).
    { intros t HT u r I HU W. assert (IU : In u (map fst rem)) by (apply A4; exists r; auto). apply in_map_iff in IU. destruct IU as [[v x] [E IX]]. cbn in E. subst v.
      exists x. split; [|exact (A2 _ _ IX)]. destruct (KEEP u x IX W) as [K1 K2]. destruct (HT x (REM _ _ IX)) as [J|[J|J]]; [exact J|contradiction|contradiction]. }
    apply wp_seq. eapply wp_mono; [|apply (wp_deleteIds fresh listing ok gone s)]. intros o s1 [[K1 [N1 [D1 E1]]] C1].
    assert (ST1 : stays entries (sv_recs s) (sv_recs s1)) by (apply ST; intros r I; destruct (E1 r I); auto).
    destruct o as [[]|e|]; [|apply STOP; [discriminate|intros X _; destruct (C1 X) as [Y _]; discriminate Y|auto|exact ST1|apply K1]|apply STOP; [discriminate|intros X _; destruct (C1 X) as [Y _]; discriminate Y|auto|exact ST1|apply K1]].
    apply wp_seq. eapply wp_mono; [|apply (wp_deleteIds fresh listing ok broken s1)]. intros o s2 [[K2 [N2 [D2 E2]]] C2].
    assert (K02 : kept s s2) by (exact (kept_trans _ _ _ K1 K2)).
    assert (ST2 : stays entries (sv_recs s) (sv_recs s2)) by (apply ST; intros r I; destruct (E1 r I) as [J|J]; [destruct (E2 r J); auto|auto]).
    destruct o as [[]|e|]; [|apply STOP; [discriminate|intros X _; destruct (C2 X) as [Y _]; discriminate Y|auto|exact ST2|apply K02]|apply STOP; [discriminate|intros X _; destruct (C2 X) as [Y _]; discriminate Y|auto|exact ST2|apply K02]].
    apply wp_seq. eapply wp_mono; [|apply (wp_addAll fresh listing ok Fresh loc new s2)].
    2:{ intros u I. apply toUpload_in in I. destruct I as [I _]. apply present_in in I. unfold present in I. destruct (assoc u loc); [discriminate|discriminate I]. }
    intros o s3 [[K3 [news [EN N3]]] C3]. assert (K03 : kept s s3) by (exact (kept_trans _ _ _ K02 K3)).
    assert (ST3 : stays entries (sv_recs s) (sv_recs s3)) by (intros u r I HU W; destruct (ST2 u r I HU W) as [x [J HX]]; exists x; split; [rewrite EN; apply in_or_app; right; exact J|exact HX]).
    destruct o as [[]|e|]; [|apply STOP; [discriminate|intros X _; destruct (C3 X) as [Y _]; discriminate Y|auto|exact ST3|apply K03]|apply STOP; [discriminate|intros X _; destruct (C3 X) as [Y _]; discriminate Y|auto|exact ST3|apply K03]].
    cbn [seq]. eapply wp_mono; [|apply (wp_verify ok entries loc s3 NL KW)]. intros o s4 [V1 [V2 [V3 V4]]]. destruct K03 as [KR KWP].
    split; [rewrite V1; auto|]. split; [rewrite V1; exact ST3|]. rewrite V1, <- KR. split; [exact V2|]. split; [exact V3|]. intros CL _.
    (* nothing failed: the collection is exact *)
    assert (EX : exact entries (sv_recs s3)).
    { destruct (C1 CL) as [_ G1]. destruct (C2 CL) as [_ G2]. destruct (C3 CL) as [_ [news' [EN' F2]]]. rewrite EN in EN'. apply app_inv_tail in EN'. subst news'.
      assert (OLD : forall r, In r (sv_recs s2) -> exists u, In (u, r) rem /\ wanted entries u).
      { intros r I. pose proof (D1 r (D2 r I)) as IS. apply (Permutation_in _ (Permutation_sym A3)) in IS. apply in_app_or in IS. destruct IS as [IS|IS].
        - apply in_map_iff in IS. destruct IS as [[u x] [E IR]]. cbn in E. subst x. exists u. split; [exact IR|]. apply KW. destruct (present u loc) eqn:PR; [apply present_in; exact PR|]. exfalso. apply (G1 r (D2 r I)). apply idsOf_in; [exact A1|].
          exists u, r. split; [|auto]. apply remoteOnly_in. split; [apply (in_map fst) in IR; exact IR|]. intros J. apply present_in in J. congruence.
        - exfalso. apply (G2 r I). unfold broken. apply in_map. rewrite <- in_rev. exact IS. }
      assert (NEW : forall r, In r news -> exists u, In u new /\ holds r u).
      { intros r I. rewrite in_rev in I. destruct (Forall2_r_in _ _ _ _ F2 I) as [u [IU [text [EA [DT [name AT]]]]]]. exists u. split; [exact IU|]. apply assoc_in in EA. exists name, text, (b64encode stdAlphabet (p_der u)).
        split; [exact AT|]. split; [exact (TL' _ _ EA)|]. rewrite DT. split; [reflexivity|]. split; [left; apply D64|exact Logic.I]. }
      split; [|split].
      - intros r I. rewrite EN in I. apply in_app_or in I. destruct I as [I|I].
        + destruct (NEW r I) as [u [IU HU]]. exists u. split; [exact HU|]. apply KW. apply toUpload_in in IU. tauto.
        + destruct (OLD r I) as [u [IR W]]. exists u. split; [exact (A2 _ _ IR)|exact W].
      - intros u W. destruct (present u rem) eqn:PR.
        + apply present_in in PR. apply A4 in PR. destruct PR as [r [I HU]]. exact (ST3 u r I HU W).
        + assert (IU : In u new) by (apply toUpload_in; split; [apply KW; exact W|]; intros J; apply present_in in J; congruence).
          destruct (Forall2_l_in _ _ _ _ F2 IU) as [r [I [text [EA [DT [name AT]]]]]]. rewrite <- in_rev in I. exists r. split; [rewrite EN; apply in_or_app; left; exact I|]. apply assoc_in in EA. exists name, text, (b64encode stdAlphabet (p_der u)).
          split; [exact AT|]. split; [exact (TL' _ _ EA)|]. rewrite DT. split; [reflexivity|]. split; [left; apply D64|exact Logic.I].
      - assert (NN : NoDup new).
        { apply (Permutation_NoDup (l := toUpload loc rem)); [symmetry; apply Order|]. apply g_nodup_filter. exact NL. }
        assert (MIX : forall r r' u, In r news -> In r' (sv_recs s2) -> holds r u -> holds r' u -> False).
        { intros r r' u I I' HU HU'. destruct (NEW r I) as [v [IV HV]]. assert (v = u) by (exact (holds_fun parsePem decode64 H32 r v u HV HU)). subst v. apply toUpload_in in IV. destruct IV as [_ NV]. apply NV. apply A4. exists r'. split; [exact (D1 r' (D2 r' I'))|exact HU']. }
        intros r r' u I I' HU HU'. rewrite EN in I, I'. apply in_app_or in I. apply in_app_or in I'. destruct I as [I|I], I' as [I'|I']; [|destruct (MIX r r' u I I' HU HU')|destruct (MIX r' r u I' I HU' HU)|].
        + apply (Forall2_unique _ (fun v x => holds x v) new (rev news) F2 NN) with (u := u); [| |rewrite <- in_rev; exact I|rewrite <- in_rev; exact I'|exact HU|exact HU'].
          * intros v x [text [EA [DT [name AT]]]]. apply assoc_in in EA. exists name, text, (b64encode stdAlphabet (p_der v)). split; [exact AT|]. split; [exact (TL' _ _ EA)|]. rewrite DT. split; [reflexivity|]. split; [left; apply D64|exact Logic.I].
          * intros v w x HV HW. exact (holds_fun parsePem decode64 H32 x v w HV HW).
        + destruct (OLD r I) as [v [IV _]]. destruct (OLD r' I') as [v' [IV' _]]. assert (v = u) by (exact (holds_fun parsePem decode64 H32 r v u (A2 _ _ IV) HU)). assert (v' = u) by (exact (holds_fun parsePem decode64 H32 r' v' u (A2 _ _ IV') HU')). subst v v'.
          pose proof (g_nodup_inj fst rem _ _ A1 IV IV' eq_refl) as Q. injection Q as ->. reflexivity. }
    destruct (V4 CL EX) as [-> V5]; [auto|]. split; [reflexivity|]. destruct (sv_wip s3) eqn:WP.
    - destruct V5 as [V5 V6]. split; [exact V5|]. right. exact V6.
    - subst s4. split; [exact WP|]. destruct KWP as [->|X]; [auto|congruence].
  Qed.

  (** ** Theorems *)
  Hypothesis D64 : forall h, decode64 (b64encode stdAlphabet h) = Some h.

  (** Whatever calls fail: if a review was asked for, or the run reports success, the collection holds exactly the certificates of enrolled.json. *)
  Theorem C47_reviewed_is_exact entries (s : server idata) fs : NoDup (map r_id (sv_recs s)) ->
    let out := run fresh listing (publish false entries) s fs in let s' := snd out in
    (sv_reviews s' = sv_reviews s \/ sv_reviews s' = sv_recs s' :: sv_reviews s) /\
    (fst out = Done tt \/ sv_reviews s' <> sv_reviews s -> exact entries (sv_recs s')).
  Proof.
    intros ND out s'. pose proof (wp_run _ _ _ _ _ _ s fs (wp_intermediates (fun _ => True) entries s ND D64)) as H. destruct H as [_ [_ [A [A' _]]]]; [apply Forall_forall; auto|]. auto.
  Qed.
  (** Whatever calls fail: a certificate that is published and still wanted stays published, and the ids of the records stay distinct. *)
  Theorem C47_stays_published entries (s : server idata) fs : NoDup (map r_id (sv_recs s)) ->
    let s' := snd (run fresh listing (publish false entries) s fs) in
    NoDup (map r_id (sv_recs s')) /\ (forall u r, In r (sv_recs s) -> holds r u -> wanted entries u -> exists r', In r' (sv_recs s') /\ holds r' u).
  Proof.
    intros ND s'. pose proof (wp_run _ _ _ _ _ _ s fs (wp_intermediates (fun _ => True) entries s ND D64)) as H. destruct H as [A [A' _]]; [apply Forall_forall; auto|]. split; [exact A|]. exact A'.
  Qed.
  (** When nothing fails one run repairs the collection, whatever was in it: broken records, repeated certificates, records without a file. *)
  Theorem C47_repairs entries (s : server idata) : NoDup (map r_id (sv_recs s)) -> readable entries (sv_recs s) ->
    exists s', run fresh listing (publish false entries) s [] = (Done tt, s') /\ exact entries (sv_recs s') /\ sv_wip s' = false /\ (s' = s \/ sv_reviews s' = sv_recs s' :: sv_reviews s).
  Proof.
    intros ND RE. pose proof (wp_run _ _ _ _ _ _ s [] (wp_intermediates (fun f => f = FOk) entries s ND D64) (Forall_nil _)) as [_ [_ [_ [A C]]]].
    destruct (C (fun f X => X) RE) as [E [W R]]. exists (snd (run fresh listing (publish false entries) s [])). rewrite <- E at 1. split; [apply surjective_pairing|]. split; [apply A; left; exact E|]. auto.
  Qed.
  (** Any number of runs with any failures, then one without: the collection is exact. *)
  Fixpoint attempts (s : server idata) (h : list (list entry * list fault)) : server idata :=
    match h with
    | [] => s
    | (entries, fs) :: h' => attempts (snd (run fresh listing (publish false entries) s fs)) h'
    end.
  Theorem C47_stays_over_runs h : forall (s : server idata) u, NoDup (map r_id (sv_recs s)) -> (forall entries fs, In (entries, fs) h -> wanted entries u) -> (exists r, In r (sv_recs s) /\ holds r u) ->
    exists r, In r (sv_recs (attempts s h)) /\ holds r u.
  Proof.
    induction h as [|[entries fs] h IH]; intros s u ND W [r [I HU]]; cbn [attempts]; [exists r; auto|].
    destruct (C47_stays_published entries s fs ND) as [ND' ST]. apply IH; [exact ND'|intros e f J; apply (W e f); right; exact J|]. apply (ST u r I HU). apply (W entries fs). left. reflexivity.
  Qed.
  (** With --noop nothing is changed. *)
  Theorem C47_dry_run entries (s : server idata) fs : snd (run fresh listing (publish true entries) s fs) = s.
  Proof.
    apply (wp_run _ _ _ (fun _ => True) (publish true entries) (fun _ s' => s' = s)); [|apply Forall_forall; auto]. unfold publishIntermediates.
    destruct (loadLocal parsePem decode64 [] entries) as [loc|]; [|reflexivity]. apply wp_seq. eapply wp_mono; [|apply gwp_get]. intros o s' [-> _]. destruct o as [l|e|]; [|reflexivity|reflexivity].
    destruct (loadRemote parsePem decode64 [] [] l) as [[rem bad]|]; reflexivity.
  Qed.
  (** The calls that a program can make, whatever is answered. *)
  Fixpoint mayCall {A} (p : prog idata A) (c : call idata) : Prop :=
    match p with
    | Call d k => c = d \/ exists r, mayCall (k r) c
    | _ => False
    end.
  Lemma may_seq {A B} (p : prog idata A) (f : A -> prog idata B) c : mayCall (seq p f) c -> mayCall p c \/ exists a, mayCall (f a) c.
  Proof.
    induction p as [a|e|d k IH]; cbn [seq mayCall]; [intros H; right; exists a; exact H|intros []|].
    intros [->|[r H]]; [left; left; reflexivity|]. destruct (IH r H) as [X|X]; [left; right; exists r; exact X|right; exact X].
  Qed.
  Lemma may_catch {A} (p h : prog idata A) c : mayCall (catchKinto p h) c -> mayCall p c \/ mayCall h c.
  Proof.
    induction p as [a|e|d k IH]; cbn [catchKinto mayCall]; [intros []|destruct e; cbn [mayCall]; auto|].
    intros [->|[r H]]; [left; left; reflexivity|]. destruct (IH r H) as [X|X]; [left; right; exists r; exact X|right; exact X].
  Qed.
  Lemma may_try p c : mayCall (tryK p) c -> mayCall p c.
  Proof. intros H. apply may_catch in H. destruct H as [H|[]]. exact H. Qed.
  Lemma may_unit d c : mayCall (unitCall d) c -> c = d.
  Proof. intros [->|[r H]]; [reflexivity|]. destruct r; destruct H. Qed.
  Lemma may_deletes c : forall ids, mayCall (deleteIds ids) c -> exists id, c = CDelete id.
  Proof.
    induction ids as [|id ids IH]; cbn [deleteIds]; [intros []|]. intros H. apply may_seq in H. destruct H as [H|[a H]]; [|exact (IH H)].
    apply may_try, may_unit in H. exists id. exact H.
  Qed.
  Lemma may_adds loc c : forall us, mayCall (addAll loc us) c -> forall id d a, c <> CUpdate id d a.
  Proof.
    induction us as [|u us IH]; cbn [addAll]; [intros []|]. intros H. apply may_seq in H. destruct H as [H|[a H]]; [|exact (IH H)].
    apply may_try in H. destruct (assoc u loc) as [text|]; [|destruct H]. unfold addToKinto in H. apply may_seq in H. destruct H as [H|[i H]].
    - destruct H as [->|[r H]]; [discriminate|]. destruct r; destruct H.
    - apply may_catch in H. destruct H as [H|H]; [apply may_unit in H; subst c; discriminate|]. apply may_seq in H. destruct H as [H|[x []]]. apply may_unit in H. subst c. discriminate.
  Qed.
  Lemma may_get c : mayCall (@getRecords idata) c -> c = CGet.
  Proof. intros [->|[r H]]; [reflexivity|]. destruct r; destruct H. Qed.
  (** No run changes a record in place, whatever the server answers: a certificate with
      another hash is another certificate.  With --noop a run only reads. *)
  Theorem C47_never_updates noop entries c : mayCall (publish noop entries) c ->
    (forall id d a, c <> CUpdate id d a) /\ (noop = true -> c = CGet).
  Proof.
    intros H. unfold publishIntermediates in H. destruct (loadLocal parsePem decode64 [] entries) as [loc|]; [|destruct H].
    apply may_seq in H. destruct H as [H|[l H]]; [apply may_get in H; subst c; split; [discriminate|reflexivity]|].
    destruct (loadRemote parsePem decode64 [] [] l) as [[rem bad]|]; [|destruct H]. destruct noop; [destruct H|]. split; [|discriminate].
    apply may_seq in H. destruct H as [H|[x H]]; [apply may_deletes in H; destruct H as [i ->]; discriminate|].
    apply may_seq in H. destruct H as [H|[x' H]]; [apply may_deletes in H; destruct H as [i ->]; discriminate|].
    apply may_seq in H. destruct H as [H|[y H]]; [exact (may_adds _ _ _ H)|].
    rewrite toUpdate_nil, order_nil in H. cbn [updateAll seq] in H. unfold verify in H. apply may_seq in H. destruct H as [H|[l' H]]; [apply may_get in H; subst c; discriminate|].
    destruct (loadRemote parsePem decode64 [] [] l') as [[rem' [|b bad']]|]; [|destruct H|destruct H].
    destruct (forallb _ loc); [|destruct H]. destruct (forallb _ rem'); [|destruct H].
    destruct H as [->|[r H]]; [discriminate|]. assert (X : c = CReview) by (destruct r as [| | |[]| ]; try contradiction; exact (may_unit _ _ H)). subst c. discriminate.
  Qed.
End C47.
Print Assumptions C47_never_updates.
Print Assumptions C47_reviewed_is_exact.
Print Assumptions C47_stays_published.
Print Assumptions C47_repairs.
Print Assumptions C47_stays_over_runs.
Print Assumptions C47_dry_run.

(** ** A concrete case, and two weaknesses *)
Section Concrete.
  Definition freshInt (l : list irec) : bytes := concat (map r_id l) ++ B "x".
  Lemma freshInt_new : forall l, ~ In (freshInt l) (map r_id l).
  Proof.
    intros l I. assert (G : forall m : list bytes, forall x, In x m -> (length x <= length (concat m))%nat).
    { induction m as [|y m IH]; intros x J; [destruct J|]. cbn [concat]. rewrite app_length. destruct J as [->|J]; [lia|]. specialize (IH x J). lia. }
    apply G in I. unfold freshInt in I. rewrite app_length in I. cbn in I. lia.
  Qed.
  (* "PEM x" stands for a certificate, "BAD" for a PEM text that is no certificate; anything else has no PEM marker *)
  Definition h32 (c : byte) (x : bytes) : bytes := repeat c 31 ++ firstn 1 (x ++ [c]).
  Definition toyPem (t : bytes) : pem :=
    if beq (firstn 4 t) (B "PEM ") then let x := skipn 4 t in PemOk (mkPinfo (h32 "k"%byte x) x (h32 "d"%byte x)) else if beq t (B "BAD") then PemBad else PemExc.
  Let dec := b64decode stdAlphabet.
  Let enc := b64encode stdAlphabet.
  Lemma toy32 : hashes32 toyPem.
  Proof.
    intros t u. unfold toyPem. destruct (beq (firstn 4 t) (B "PEM ")); [|destruct (beq t (B "BAD")); discriminate]. intros E. injection E as <-. cbn [p_spki p_der].
    unfold h32. rewrite !app_length, !repeat_length, !firstn_length, !app_length. cbn [length]. lia.
  Qed.
  Let ent (x : bytes) : entry := mkEntry (Some (B "PEM " ++ x)) (Some (enc (h32 "k"%byte x))) (Some x) None.
  Let rcd (id : bytes) (x dh : bytes) : irec := mkRecord id (mkI None (Some dh)) (Some (B "f", B "PEM " ++ x)).
  (* certificate A is published twice, B is no longer wanted, one record is broken, one has no file; C is new *)
  Let s0 : server idata := mkServer [rcd (B "1") (B "A") (enc (h32 "d"%byte (B "A"))); rcd (B "2") (B "A") (enc (h32 "d"%byte (B "A"))); rcd (B "3") (B "B") (enc (h32 "d"%byte (B "B")));
      rcd (B "4") (B "A") (B "?"); mkRecord (B "5") (mkI None (Some (enc (h32 "d"%byte (B "C"))))) None] false [].
  Let entries := [ent (B "A"); ent (B "C"); ent (B "A")].
  Let publishEx := publishIntermediates toyPem dec (fun l => l).

  Example C47_example : NoDup (map r_id (sv_recs s0)) /\ readable toyPem dec entries (sv_recs s0) /\ (forall h, dec (enc h) = Some h) /\
    map (fun r : irec => (r_id r, option_map snd (r_att r))) (sv_recs (snd (run freshInt (fun l => l) (publishEx false entries) s0 []))) = [(B "1x", Some (B "PEM C")); (B "1", Some (B "PEM A"))].
  Proof.
    split; [repeat constructor; cbn; intuition discriminate|]. split; [|split].
    - split; [intros e [<-|[<-|[<-|[]]]]; vm_compute; discriminate|intros r [<-|[<-|[<-|[<-|[<-|[]]]]]]; vm_compute; discriminate].
    - intros h. apply b64decode_encode. exact std_good.
    - vm_compute. reflexivity.
  Qed.
  (** A failed upload ends in an exception, and no review is asked for. *)
  Example C47_failure_example : let out := run freshInt (fun l => l) (publishEx false entries) s0 [FOk; FOk; FOk; FOk; FOk; FKinto false] in fst out = Raised EKinto /\ sv_reviews (snd out) = [].
  Proof. vm_compute. auto. Qed.
  (** A record whose hash field is empty passes the check. *)
  Theorem C47_empty_hash_refuted : exists (s : server idata) r, let out := run freshInt (fun l => l) (publishEx false [ent (B "A")]) s [] in
    fst out = Done tt /\ In r (sv_recs (snd out)) /\ i_derHash (r_data r) = Some [] /\ sv_reviews (snd out) = [sv_recs (snd out)].
  Proof. exists (mkServer [rcd (B "1") (B "A") []] true []), (rcd (B "1") (B "A") []). vm_compute. auto. Qed.
  (** A record whose file has no PEM marker is not deleted as broken: it makes every later run fail before any change. *)
  Theorem C47_bad_file_refuted : exists r : irec, forall (s : server idata) es fs, In r (sv_recs s) ->
    let out := run freshInt (fun l => l) (publishEx false es) s fs in fst out <> Done tt /\ snd out = s.
  Proof.
    set (r := mkRecord (B "1") (mkI None (Some (enc (h32 "d"%byte (B "A"))))) (Some (B "f", B "html")) : irec). exists r. intros s es fs I out.
    apply (wp_run _ _ _ (fun _ => True) (publishEx false es) (fun o s' => o <> Done tt /\ s' = s)); [|apply Forall_forall; auto]. unfold publishEx, publishIntermediates.
    destruct (loadLocal toyPem dec [] es) as [loc|]; [|cbn; split; [discriminate|reflexivity]]. apply wp_seq. eapply wp_mono; [|apply gwp_get]. intros o s' [-> [_ H]]. destruct o as [l|e|]; [|split; [discriminate|reflexivity]|split; [discriminate|reflexivity]]. subst l.
    assert (CR : remoteInt toyPem dec r = Crash) by (vm_compute; reflexivity).
    assert (N : forall l rem bad, In r l -> loadRemote toyPem dec rem bad l = None).
    { induction l as [|x l IH]; intros rem bad J; [destruct J|]. cbn [loadRemote]. destruct J as [->|J]; [rewrite CR; reflexivity|]. destruct (remoteInt toyPem dec x) as [u| |]; [|apply IH; exact J|reflexivity]. destruct (present u rem); apply IH; exact J. }
    rewrite (N _ [] [] I). cbn. split; [discriminate|reflexivity].
  Qed.
End Concrete.
Print Assumptions C47_empty_hash_refuted.
Print Assumptions C47_bad_file_refuted.
