(** * The table of revocation reasons: C71 *)
From Verif Require Import Base MerkleModel SerialModel SerialProofs Base64 StoreModel StoreProofs AggModel IssuersModel P_Issuers PublishModel
  QueryModel TextProofs P_RunIds FilterModel FilterProofs P_Filter ReasonCsvModel.
From Coq Require Import Strings.Byte.

(** ** Specification *)

(** [countOf P l n]: [n] of the items of [l] satisfy [P]. *)
Inductive countOf {A} (P : A -> Prop) : list A -> N -> Prop :=
| count_none : countOf P [] 0
| count_yes a l n : P a -> countOf P l n -> countOf P (a :: l) (n + 1)
| count_no a l n : ~ P a -> countOf P l n -> countOf P (a :: l) n.

(** Codes without a meaning in RFC 5280 count as unspecified. *)
Definition meaning (c : N) : N := if in_dec N.eq_dec c [1; 2; 3; 4; 5; 6; 8; 9; 10]%N then c else 0%N.

(** The last selected entry for the serial in the issuer's revocations has the
    reason [code]. *)
Definition revokedFor (set : reasonSet) (rs : revokedSrc) (d s : bytes) (code : N) : Prop :=
  exists l1 l2 c, In (d, l1 ++ (s, c) :: l2) rs /\ selected set (c mod 256) /\
    (forall c', In (s, c') l2 -> ~ selected set (c' mod 256)) /\ code = meaning (c mod 256).

(** The serials on the issuer's known file, as often as they stand there. *)
Definition serialLines (bins : list (Z * list bytes)) : list bytes := flat_map snd bins.

(** A line of the table for one issuer: its name, then eight numbers. *)
Definition rowFor (set : reasonSet) (rs : revokedSrc) (k : bytes * list (Z * list bytes)) (line : bytes) : Prop :=
  exists c0 c1 c9 c3 c4 c5 rv ok,
    splitComma [] line = [issuerID (fst k); c0; c1; c9; c3; c4; c5; rv; ok] /\
    (forall t, In t [c0; c1; c9; c3; c4; c5; rv; ok] -> t <> [] /\ forallb isDigit t = true) /\
    (forall code t, In (code, t) [(0, c0); (1, c1); (9, c9); (3, c3); (4, c4); (5, c5)]%N ->
       countOf (fun s => revokedFor set rs (fst k) s code) (serialLines (snd k)) (valueOf t)) /\
    (exists L, NoDup L /\ N.of_nat (length L) = valueOf rv /\
       forall s, In s L <-> In s (serialLines (snd k)) /\ revokedCert set rs (fst k) s) /\
    countOf (fun s => ~ revokedCert set rs (fst k) s) (serialLines (snd k)) (valueOf ok).

(** ** Proofs *)

Lemma countOf_filter {A} (P : A -> Prop) (f : A -> bool) l : (forall a, In a l -> (f a = true <-> P a)) ->
  countOf P l (N.of_nat (length (filter f l))).
Proof.
  induction l as [|a l IH]; intros H; [constructor|]. cbn [filter].
  assert (T : countOf P l (N.of_nat (length (filter f l)))) by (apply IH; intros x X; apply H; right; exact X).
  pose proof (H a (or_introl eq_refl)) as Q. destruct (f a).
  - cbn [length]. rewrite Nat2N.inj_succ, <- N.add_1_r. constructor; [apply Q; reflexivity|exact T].
  - constructor; [|exact T]. intros X. apply Q in X. discriminate X.
Qed.

Lemma countLoop_reasons m : forall kn seen okc rs,
  st_reasons (countLoop m kn seen okc rs) = rs ++ flat_map (fun e => match alookup (snd e) m with Some r => [r] | None => [] end) kn.
Proof.
  induction kn as [|[u s] kn IH]; intros seen okc rs; cbn [countLoop flat_map snd]; [rewrite app_nil_r; reflexivity|].
  destruct (alookup s m) as [r|]; rewrite IH; [rewrite <- app_assoc|]; reflexivity.
Qed.

Lemma tally_lookup m r kn : tally (flat_map (fun e : N * bytes => match alookup (snd e) m with Some r => [r] | None => [] end) kn) r =
  N.of_nat (length (filter (fun e => match alookup (snd e) m with Some x => N.eqb (reasonCode x) (reasonCode r) | None => false end) kn)).
Proof.
  unfold tally. f_equal. induction kn as [|[u s] kn IH]; [reflexivity|]. cbn [flat_map filter snd]. destruct (alookup s m) as [x|]; [|exact IH].
  cbn [app filter]. destruct (N.eqb (reasonCode x) (reasonCode r)); cbn [length]; rewrite IH; reflexivity.
Qed.

Lemma reasonCode_meaning n : reasonCode (reasonOfCode n) = meaning n.
Proof.
  unfold meaning. destruct (in_dec N.eq_dec n _) as [Y|Y].
  - cbn [In] in Y. repeat (destruct Y as [<-|Y]; [reflexivity|]). destruct Y.
  - destruct (N.le_gt_cases 11 n) as [G|L].
    + destruct n as [|p]; [reflexivity|]. do 4 (destruct p as [p|p|]; try reflexivity; try lia).
    + assert (C : (n = 0 \/ n = 1 \/ n = 2 \/ n = 3 \/ n = 4 \/ n = 5 \/ n = 6 \/ n = 7 \/ n = 8 \/ n = 9 \/ n = 10)%N) by lia.
      repeat (destruct C as [->|C]; [try reflexivity; exfalso; apply Y; cbn; tauto|]). subst n. exfalso; apply Y; cbn; tauto.
Qed.

(** The map of the revocations holds the last entry. *)
Lemma toMap_last (l : list (bytes * reason)) s r :
  alookup s (toMap l) = Some r <-> exists l1 l2, l = l1 ++ (s, r) :: l2 /\ ~ In s (map fst l2).
Proof.
  unfold toMap. induction l as [|[k v] x IH] using rev_ind.
  - split; [discriminate|]. intros [l1 [l2 [E _]]]. destruct l1; discriminate E.
  - rewrite fold_left_app. cbn [fold_left fst snd]. destruct (beq_spec s k) as [->|NE].
    + rewrite alookup_aset_same. split.
      * intros H. injection H as ->. exists x, []. split; [reflexivity|intros []].
      * intros [l1 [l2 [E N]]]. destruct l2 as [|e l2] using rev_ind.
        -- apply app_inj_tail in E. destruct E as [_ E]. congruence.
        -- clear IHl2. exfalso. rewrite app_comm_cons, app_assoc in E. apply app_inj_tail in E. destruct E as [_ <-]. apply N.
           rewrite map_app, in_app_iff. right; left; reflexivity.
    + rewrite alookup_aset_other by exact NE. rewrite IH. split.
      * intros [l1 [l2 [E N]]]. exists l1, (l2 ++ [(k, v)]). split; [rewrite E, <- app_assoc; reflexivity|].
        rewrite map_app, in_app_iff. intros [I|[I|[]]]; [exact (N I)|]. cbn [fst] in I. congruence.
      * intros [l1 [l2 [E N]]]. destruct l2 as [|e l2] using rev_ind.
        -- apply app_inj_tail in E. destruct E as [_ E]. congruence.
        -- clear IHl2. rewrite app_comm_cons, app_assoc in E. apply app_inj_tail in E. destruct E as [E <-]. exists l1, l2.
           split; [exact E|]. intros I. apply N. rewrite map_app, in_app_iff. left; exact I.
Qed.

Lemma filter_split {A} (f : A -> bool) : forall l l1 a l2, filter f l = l1 ++ a :: l2 ->
  exists m1 m2, l = m1 ++ a :: m2 /\ filter f m1 = l1 /\ filter f m2 = l2 /\ f a = true.
Proof.
  induction l as [|x l IH]; intros l1 a l2 H; cbn [filter] in H; [destruct l1; discriminate H|]. destruct (f x) eqn:F.
  - destruct l1 as [|y l1]; cbn [app] in H.
    + injection H as -> H. exists [], l. repeat split; [exact H|exact F].
    + injection H as -> H. destruct (IH _ _ _ H) as [m1 [m2 [E [A1 [A2 A3]]]]]. exists (y :: m1), m2. subst l. cbn [app filter]. rewrite F, A1. auto.
  - destruct (IH _ _ _ H) as [m1 [m2 [E [A1 [A2 A3]]]]]. exists (x :: m1), m2. subst l. cbn [app filter]. rewrite F. auto.
Qed.

Lemma sel_selected set s c : sel set (s, c) = true <-> selected set (c mod 256).
Proof. unfold sel. cbn [snd]. rewrite <- skip_selected. destruct (skipReason _ _); split; intros H; [discriminate H|discriminate H|reflexivity|reflexivity]. Qed.

Lemma revokedFor_lookup set rs d s code : goodRevoked rs ->
  revokedFor set rs d s code <-> exists r, alookup (hexEncode s) (toMap (revList set rs d)) = Some r /\ reasonCode r = code.
Proof.
  intros G. unfold revokedFor, revList. split.
  - intros [l1 [l2 [c [I [S [N ->]]]]]]. apply (revOf_in rs d _ G) in I. rewrite I. exists (reasonOfCode (c mod 256)). split; [|apply reasonCode_meaning].
    apply toMap_last. exists (map revItem (filter (sel set) l1)), (map revItem (filter (sel set) l2)). split.
    + rewrite filter_app, map_app. cbn [filter]. rewrite (proj2 (sel_selected set s c) S). reflexivity.
    + rewrite map_map. intros J. apply in_map_iff in J. destruct J as [[x c'] [Q J]]. cbn [revItem fst] in Q. apply hexEncode_inj in Q. subst x.
      apply filter_In in J. destruct J as [J K]. apply sel_selected in K. exact (N c' J K).
  - intros [r [H E]]. destruct (revOf rs d) as [l|] eqn:R; [|discriminate H]. apply (revOf_in rs d _ G) in R. apply toMap_last in H.
    destruct H as [x1 [x2 [H N]]]. apply map_eq_app in H.
    destruct H as [y1 [y2 [H [E1 E2]]]]. apply map_eq_cons in E2. destruct E2 as [[s' c] [z2 [E2 [E3 E4]]]].
    unfold revItem in E3. cbn [fst snd] in E3. assert (Q : s' = s) by (apply hexEncode_inj; congruence). subst s'. subst y2.
    destruct (filter_split _ _ _ _ _ H) as [m1 [m2 [L [M1 [M2 M3]]]]]. subst l. exists m1, m2, c. split; [exact R|].
    split; [apply sel_selected in M3; exact M3|]. split.
    + intros c' I S. apply N. rewrite <- E4, map_map. apply in_map_iff. exists (s, c'). split; [reflexivity|]. rewrite <- M2. apply filter_In.
      split; [exact I|apply sel_selected; exact S].
    + rewrite <- reasonCode_meaning, <- E. assert (F : r = reasonOfCode (c mod 256)) by congruence. rewrite F. reflexivity.
Qed.

Lemma knownLines_serials bins : map snd (knownLines bins) = serialLines bins.
Proof.
  unfold knownLines, serialLines. induction bins as [|[u ss] bins IH]; [reflexivity|]. cbn [flat_map fst snd]. rewrite map_app, IH, map_map. cbn [snd].
  rewrite map_id. reflexivity.
Qed.

Lemma filter_lines (f : bytes -> bool) bins : length (filter (fun e => f (snd e)) (map hexLine (knownLines bins))) = length (filter (fun s => f (hexEncode s)) (serialLines bins)).
Proof.
  rewrite <- knownLines_serials. induction (knownLines bins) as [|[u s] l IH]; [reflexivity|]. cbn [map hexLine filter snd fst].
  destruct (f (hexEncode s)); cbn [length]; rewrite IH; reflexivity.
Qed.

Lemma digits_no_comma t : forallb isDigit t = true -> ~ In comma t.
Proof. intros H I. rewrite forallb_forall in H. apply H in I. discriminate I. Qed.
Lemma digits_no_nl t : forallb isDigit t = true -> ~ In nl t.
Proof. intros H I. rewrite forallb_forall in H. apply H in I. discriminate I. Qed.
Lemma issuerID_clean d c : In c [comma; nl] -> ~ In c (issuerID d).
Proof.
  intros H I. apply (b64encode_chars urlAlphabet url_good) in I. destruct H as [<-|[<-|[]]]; (destruct I as [I|I]; [|discriminate]);
    cbv in I; repeat (destruct I as [I|I]; [discriminate|]); exact I.
Qed.

(** The line without its end. *)
Definition lineText (e : bytes * stats) : bytes := joinComma (fst e :: map decText (csvNumbers (snd e))).
Lemma csvLine_text e : csvLine e = lineText e ++ [nl].
Proof.
  unfold csvLine, lineText, csvNumbers. cbn [map flat_map joinComma]. rewrite <- !app_assoc. cbn [app]. repeat (rewrite <- !app_assoc; cbn [app]). reflexivity.
Qed.

Lemma lineText_clean d st : ~ In nl (lineText (issuerID d, st)) /\ splitComma [] (lineText (issuerID d, st)) = issuerID d :: map decText (csvNumbers st).
Proof.
  split.
  - unfold lineText. cbn [fst snd]. assert (K : forall l : list bytes, (forall x, In x l -> ~ In nl x) -> ~ In nl (joinComma l)).
    { induction l as [|x l IH]; intros H; [intros []|]. destruct l as [|y l]; [apply H; left; reflexivity|].
      change (joinComma (x :: y :: l)) with (x ++ comma :: joinComma (y :: l)). rewrite in_app_iff. intros [I|[I|I]]; [exact (H x (or_introl eq_refl) I)|discriminate I|].
      apply IH in I; [exact I|]. intros z Z. apply H. right; exact Z. }
    apply K. intros x [<-|I]; [apply issuerID_clean; right; left; reflexivity|]. apply in_map_iff in I. destruct I as [n [<- _]].
    apply digits_no_nl. apply decText_spec.
  - unfold lineText. cbn [fst snd]. apply split_join; [discriminate|]. intros x [<-|I]; [apply issuerID_clean; left; reflexivity|].
    apply in_map_iff in I. destruct I as [n [<- _]]. apply digits_no_comma. apply decText_spec.
Qed.

Lemma reasonCsv_go set rs ks : goodKnown ks -> goodRevoked rs ->
  reasonCsv (goRevoked rs) (goKnown ks) set =
  Ok (csvHeader ++ [nl] ++ flat_map csvLine (map (fun k => (issuerID (fst k), count (revList set rs (fst k)) (map hexLine (knownLines (snd k))))) ks)).
Proof.
  intros GK GR. unfold reasonCsv. rewrite filePairs_go, mapRes_comp.
  rewrite (mapRes_map _ (fun k => (issuerID (fst k), count (revList set rs (fst k)) (map hexLine (knownLines (snd k)))))); [reflexivity|].
  intros [d bins] I. cbn [fst snd]. rewrite read_go_revoked. cbn [bind]. rewrite (read_known ks d bins GK I). reflexivity.
Qed.

Lemma split_csv l : (forall d, In d (map fst l) -> exists x, d = issuerID x) ->
  splitLines [] (flat_map csvLine l) = map lineText l.
Proof.
  induction l as [|[d st] l IH]; intros H; [reflexivity|]. cbn [flat_map map]. rewrite csvLine_text, <- app_assoc.
  destruct (H d (or_introl eq_refl)) as [x ->]. rewrite splitLines_line by apply lineText_clean. f_equal. apply IH. intros y Y. apply H. right; exact Y.
Qed.

Lemma row_ok set rs k : goodRevoked rs ->
  rowFor set rs k (lineText (issuerID (fst k), count (revList set rs (fst k)) (map hexLine (knownLines (snd k))))).
Proof.
  intros GR. destruct k as [d bins]. cbn [fst snd]. set (st := count _ _). unfold rowFor.
  exists (decText (tally (st_reasons st) Unspecified)), (decText (tally (st_reasons st) KeyCompromise)), (decText (tally (st_reasons st) PrivilegeWithdrawn)),
    (decText (tally (st_reasons st) AffiliationChanged)), (decText (tally (st_reasons st) Superseded)), (decText (tally (st_reasons st) CessationOfOperation)),
    (decText (st_revoked st)), (decText (st_ok st)). cbn [fst snd].
  split; [rewrite (proj2 (lineText_clean d st)); reflexivity|].
  assert (V : forall n, valueOf (decText n) = n) by (intros n; apply decText_spec).
  split; [intros t T; cbn [In] in T; repeat (destruct T as [<-|T]; [split; apply decText_spec|]); destruct T|].
  assert (TL : forall r, countOf (fun s => revokedFor set rs d s (reasonCode r)) (serialLines bins) (tally (st_reasons st) r)).
  { intros r. unfold st, count. rewrite countLoop_reasons. cbn [app]. rewrite tally_lookup.
    rewrite (filter_lines (fun s => match alookup s (toMap (revList set rs d)) with Some x => N.eqb (reasonCode x) (reasonCode r) | None => false end)).
    apply countOf_filter. intros s _. rewrite (revokedFor_lookup set rs d s (reasonCode r) GR). destruct (alookup (hexEncode s) _) as [x|].
    - rewrite N.eqb_eq. split; [intros E; exists x; auto|]. intros [y [E F]]. congruence.
    - split; [discriminate|]. intros [y [E _]]. discriminate E. }
  split.
  - intros code t T. cbn [In] in T. repeat (destruct T as [T|T]; [injection T as <- <-; rewrite V; first [exact (TL Unspecified)|exact (TL KeyCompromise)|exact (TL PrivilegeWithdrawn)|exact (TL AffiliationChanged)|exact (TL Superseded)|exact (TL CessationOfOperation)]|]). destruct T.
  - destruct (includeLoop_go d (knownLines bins) (map fst (revList set rs d))) as [ins [EI [ND IN]]].
    destruct (count_counts d _ _ _ EI) as [C1 C2]. fold st in C1, C2. rewrite !V, C1, C2. split.
    + set (L := nodup bytes_eq_dec (filter (fun s => memb (hexEncode s) (map fst (revList set rs d))) (serialLines bins))).
      assert (LI : forall s, In s L <-> In s (serialLines bins) /\ revokedCert set rs d s).
      { intros s. unfold L. rewrite nodup_In, filter_In, memb_in, (revList_spec set rs d s GR). tauto. }
      assert (NL : NoDup L) by apply NoDup_nodup. exists L. split; [exact NL|]. split; [|exact LI]. f_equal.
      assert (IFF : forall key, In key (map (app d) L) <-> In key ins).
      { intros key. rewrite IN, in_map_iff. split.
        - intros [s [<- I]]. apply LI in I. destruct I as [I R]. rewrite <- knownLines_serials in I. apply in_map_iff in I. destruct I as [[u x] [Q I]].
          cbn [snd] in Q. subst x. exists u, s. split; [exact I|]. split; [apply revList_spec; assumption|reflexivity].
        - intros [u [s [I [J ->]]]]. exists s. split; [reflexivity|]. apply LI. split; [|apply revList_spec in J; assumption].
          rewrite <- knownLines_serials. apply in_map_iff. exists (u, s). auto. }
      transitivity (length (map (app d) L)); [symmetry; apply map_length|]. apply Nat.le_antisymm; apply NoDup_incl_length.
      * apply FinFun.Injective_map_NoDup; [intros a b E; apply app_inv_head in E; exact E|exact NL].
      * intros key I. apply IFF. exact I.
      * exact ND.
      * intros key I. apply IFF. exact I.
    + rewrite map_map. cbn [hexLine snd]. rewrite <- (map_map snd hexEncode), knownLines_serials.
      assert (E : forall l, length (filter (fun s => negb (memb s (map fst (revList set rs d)))) (map hexEncode l)) =
                  length (filter (fun s => negb (memb (hexEncode s) (map fst (revList set rs d)))) l)).
      { clear. induction l as [|a l IH]; [reflexivity|]. cbn [map filter]. destruct (negb _); cbn [length]; rewrite IH; reflexivity. }
      rewrite E. apply countOf_filter. intros s _. rewrite negb_true_iff, memb_not, (revList_spec set rs d s GR). reflexivity.
Qed.

(** ** C71 *)

(** Of the files of the Go programs the table has the heading and one line for
    each known issuer, in the order of the directory. *)
Theorem C71_reason_table : forall set rs ks, goodKnown ks -> goodRevoked rs ->
  exists data lines, reasonCsv (goRevoked rs) (goKnown ks) set = Ok data /\
    splitLines [] data = B "issuer_spki_hash,unspecified,key_compromise,privilege_withdrawn,affiliation_changed,superseded,cessation_of_operation,revoked_certificates,non_revoked_certificates" :: lines /\
    Forall2 (rowFor set rs) ks lines.
Proof.
  intros set rs ks GK GR. rewrite (reasonCsv_go set rs ks GK GR). eexists.
  exists (map lineText (map (fun k => (issuerID (fst k), count (revList set rs (fst k)) (map hexLine (knownLines (snd k))))) ks)). split; [reflexivity|]. split.
  - rewrite splitLines_line.
    + rewrite split_csv; [reflexivity|]. intros d I. rewrite map_map in I. apply in_map_iff in I. destruct I as [k [<- _]]. exists (fst k). reflexivity.
    + vm_compute. intros I. repeat (destruct I as [I|I]; [discriminate I|]). exact I.
  - rewrite map_map. clear GK. induction ks as [|k ks IH]; cbn [map]; constructor; [apply row_ok, GR|exact IH].
Qed.
Print Assumptions C71_reason_table.

(** ** Totals *)

Lemma countOf_fun {A} (P : A -> Prop) l : forall n m, countOf P l n -> countOf P l m -> n = m.
Proof.
  induction l as [|a l IH]; intros n m H K; inversion H; inversion K; subst; try contradiction; [reflexivity|f_equal|]; apply IH; assumption.
Qed.
Lemma countOf_total {A} (P Q R : A -> Prop) l : forall p q r,
  (forall a, In a l -> R a <-> P a \/ Q a) -> (forall a, In a l -> ~ (P a /\ Q a)) ->
  countOf P l p -> countOf Q l q -> countOf R l r -> r = (p + q)%N.
Proof.
  induction l as [|a l IH]; intros p q r U D HP HQ HR; inversion HP; inversion HQ; inversion HR; subst; try reflexivity;
    pose proof (U a (or_introl eq_refl)) as Ua; pose proof (D a (or_introl eq_refl)) as Da; try tauto;
    match goal with X : countOf P l ?x, Y : countOf Q l ?y, Z : countOf R l ?z |- _ =>
      assert (E : z = (x + y)%N) by (apply (IH x y z); [intros b I; apply U; right; exact I|intros b I; apply D; right; exact I|exact X|exact Y|exact Z]); lia end.
Qed.

Definition columns (line : bytes) : list N := map valueOf (tl (splitComma [] line)).

Lemma revokedFor_one set rs d s a b : goodRevoked rs -> revokedFor set rs d s a -> revokedFor set rs d s b -> a = b.
Proof.
  intros G H K. apply (revokedFor_lookup set rs d s a G) in H. apply (revokedFor_lookup set rs d s b G) in K. destruct H as [x [H <-]], K as [y [K <-]]. congruence.
Qed.
Lemma revokedFor_some set rs d s : goodRevoked rs -> revokedCert set rs d s <-> exists c, revokedFor set rs d s c /\ In c [0; 1; 2; 3; 4; 5; 6; 8; 9; 10]%N.
Proof.
  intros G. rewrite <- (revList_spec set rs d s G), <- toMap_is. split.
  - intros [r H]. exists (reasonCode r). split; [apply (revokedFor_lookup _ _ _ _ _ G); exists r; auto|]. destruct r; cbn; tauto.
  - intros [c [H _]]. apply (revokedFor_lookup _ _ _ _ _ G) in H. destruct H as [r [H _]]. exists r. exact H.
Qed.

Lemma countOf_ext {A} (P Q : A -> Prop) l n : (forall a, In a l -> P a <-> Q a) -> countOf P l n -> countOf Q l n.
Proof.
  intros H K. revert H. induction K as [|a l n Pa K IH|a l n Pa K IH]; intros H; [constructor|constructor|constructor].
  - apply H; [left; reflexivity|exact Pa].
  - apply IH. intros b I. apply H. right; exact I.
  - intros X. apply Pa. apply H; [left; reflexivity|exact X].
  - apply IH. intros b I. apply H. right; exact I.
Qed.
Lemma countOf_exists {A} (P : A -> Prop) l : (forall a, In a l -> P a \/ ~ P a) -> exists n, countOf P l n.
Proof.
  induction l as [|a l IH]; intros H; [exists 0%N; constructor|]. destruct IH as [n N]; [intros b I; apply H; right; exact I|].
  destruct (H a (or_introl eq_refl)) as [Y|Y]; [exists (n + 1)%N|exists n]; constructor; assumption.
Qed.
Lemma countOf_all {A} (P : A -> Prop) l : forall n, (forall a, In a l -> P a) -> countOf P l n -> n = N.of_nat (length l).
Proof.
  induction l as [|a l IH]; intros n H K; inversion K; subst; [reflexivity| |exfalso; auto using in_eq]. rewrite (IH n0); [cbn [length]; lia| |assumption].
  intros b I. apply H. right; exact I.
Qed.

(** If no serial stands twice in an issuer's known file, revoked and not revoked
    certificates add up to the known ones; the six columns of reasons add up to
    the revoked ones but for those with one of the four reasons that the table
    leaves out. *)
Theorem C71_adds_up : forall set rs ks data, goodKnown ks -> goodRevoked rs -> reasonCsv (goRevoked rs) (goKnown ks) set = Ok data ->
  forall d bins line, In ((d, bins), line) (combine ks (tl (splitLines [] data))) -> NoDup (serialLines bins) ->
  exists c0 c1 c9 c3 c4 c5 rv ok omitted, columns line = [c0; c1; c9; c3; c4; c5; rv; ok] /\
    (rv + ok = N.of_nat (length (serialLines bins)))%N /\
    countOf (fun s => exists c, In c [2; 6; 8; 10]%N /\ revokedFor set rs d s c) (serialLines bins) omitted /\
    (c0 + c1 + c9 + c3 + c4 + c5 + omitted = rv)%N.
Proof.
  intros set rs ks data GK GR E d bins line I ND.
  destruct (C71_reason_table set rs ks GK GR) as [data' [lines [E' [SP F2]]]]. assert (data' = data) by congruence. subst data'. rewrite SP in I. cbn [tl] in I.
  assert (RW : rowFor set rs (d, bins) line).
  { clear - F2 I. induction F2 as [|k l ks lines R F2 IH]; [destruct I|]. cbn [combine In] in I. destruct I as [I|I]; [injection I as -> ->; exact R|exact (IH I)]. }
  destruct RW as [c0 [c1 [c9 [c3 [c4 [c5 [rv [ok [SC [_ [CT [[L [NL [LL LI]]] CO]]]]]]]]]]]]. cbn [fst snd] in *.
  exists (valueOf c0), (valueOf c1), (valueOf c9), (valueOf c3), (valueOf c4), (valueOf c5), (valueOf rv), (valueOf ok).
  set (lns := serialLines bins) in *.
  assert (DEC : forall s, revokedCert set rs d s \/ ~ revokedCert set rs d s).
  { intros s. destruct (in_dec bytes_eq_dec (hexEncode s) (map fst (revList set rs d))) as [Y|Y]; [left|right]; rewrite <- (revList_spec set rs d s GR); exact Y. }
  assert (DECF : forall s c, revokedFor set rs d s c \/ ~ revokedFor set rs d s c).
  { intros s c. pose proof (revokedFor_lookup set rs d s c GR) as Q. destruct (alookup (hexEncode s) (toMap (revList set rs d))) as [r|] eqn:A.
    - destruct (N.eq_dec (reasonCode r) c) as [Y|Y]; [left; apply Q; exists r; auto|right]. intros H. apply Q in H. destruct H as [x [X Z]]. congruence.
    - right. intros H. apply Q in H. destruct H as [x [X _]]. discriminate X. }
  assert (CR : countOf (fun s => revokedCert set rs d s) lns (valueOf rv)).
  { destruct (countOf_exists (fun s => revokedCert set rs d s) lns) as [n N]; [intros; apply DEC|]. replace (valueOf rv) with n; [exact N|].
    rewrite <- LL. assert (K : exists M, NoDup M /\ N.of_nat (length M) = n /\ forall s, In s M <-> In s lns /\ revokedCert set rs d s).
    { clear - N ND. induction N as [|a l n P N IH|a l n P N IH].
      - exists []. split; [constructor|]. split; [reflexivity|]. cbn [In]. tauto.
      - apply NoDup_cons_iff in ND. destruct ND as [NI ND]. destruct (IH ND) as [M [NM [LM MI]]]. exists (a :: M). split; [|split].
        + constructor; [|exact NM]. intros X. apply MI in X. tauto.
        + cbn [length]. lia.
        + intros s. cbn [In]. rewrite MI. split; [intros [<-|X]; tauto|]. intros [[<-|X] Y]; tauto.
      - apply NoDup_cons_iff in ND. destruct ND as [NI ND]. destruct (IH ND) as [M [NM [LM MI]]]. exists M. split; [exact NM|]. split; [exact LM|].
        intros s. cbn [In]. rewrite MI. split; [tauto|]. intros [[<-|X] Y]; tauto. }
    destruct K as [M [NM [<- MI]]]. f_equal. apply Nat.le_antisymm; apply NoDup_incl_length; try assumption; intros s S; [apply LI, MI, S|apply MI, LI, S]. }
  destruct (countOf_exists (fun s => exists c, In c [2; 6; 8; 10]%N /\ revokedFor set rs d s c) lns) as [om OM].
  { intros s _. destruct (DECF s 2%N) as [Y|N2]; [left; exists 2%N; cbn; tauto|]. destruct (DECF s 6%N) as [Y|N6]; [left; exists 6%N; cbn; tauto|].
    destruct (DECF s 8%N) as [Y|N8]; [left; exists 8%N; cbn; tauto|]. destruct (DECF s 10%N) as [Y|N10]; [left; exists 10%N; cbn; tauto|].
    right. intros [c [IC R]]. cbn [In] in IC. destruct IC as [<-|[<-|[<-|[<-|[]]]]]; contradiction. }
  exists om. split; [unfold columns; rewrite SC; reflexivity|]. split; [|split; [exact OM|]].
  - symmetry. destruct (countOf_exists (fun _ : bytes => True) lns) as [n N]; [auto|]. rewrite <- (countOf_all _ _ _ (fun _ _ => Logic.I) N).
    apply (countOf_total (fun s => revokedCert set rs d s) (fun s => ~ revokedCert set rs d s) (fun _ => True) lns _ _ _); try assumption.
    + intros s _. split; [intros _; apply DEC|auto].
    + intros s _ [X Y]. contradiction.
  - assert (P : forall cs, (forall c, In c cs -> In c [0; 1; 9; 3; 4; 5]%N) -> forall c n m, In c [0; 1; 9; 3; 4; 5]%N -> ~ In c cs ->
              countOf (fun s => revokedFor set rs d s c) lns n -> countOf (fun s => exists x, (In x cs \/ In x [2; 6; 8; 10]%N) /\ revokedFor set rs d s x) lns m ->
              countOf (fun s => exists x, (In x (c :: cs) \/ In x [2; 6; 8; 10]%N) /\ revokedFor set rs d s x) lns (n + m)).
    { intros cs CS c n m C NC N M. destruct (countOf_exists (fun s => exists x, (In x (c :: cs) \/ In x [2; 6; 8; 10]%N) /\ revokedFor set rs d s x) lns) as [k K].
      - intros s _. pose proof (revokedFor_lookup set rs d s) as Q. destruct (alookup (hexEncode s) (toMap (revList set rs d))) as [r|] eqn:A.
        + destruct (in_dec N.eq_dec (reasonCode r) ((c :: cs) ++ [2; 6; 8; 10]%N)) as [Y|Y].
          * left. exists (reasonCode r). rewrite in_app_iff in Y. split; [exact Y|]. apply (Q _ GR). exists r; auto.
          * right. intros [x [X R]]. apply (Q _ GR) in R. destruct R as [r' [R' <-]]. assert (r' = r) by congruence. subst r'. apply Y. apply in_app_iff. exact X.
        + right. intros [x [X R]]. apply (Q _ GR) in R. destruct R as [r' [R' _]]. discriminate R'.
      - assert (EQ : k = (n + m)%N).
        { apply (countOf_total _ _ _ lns n m k) with (3 := N) (4 := M) (5 := K).
          - intros s _. split.
            + intros [x [[[<-|X]|X] R]]; [left; exact R|right; exists x; auto|right; exists x; auto].
            + intros [R|[x [X R]]]; [exists c; split; [left; left; reflexivity|exact R]|]. exists x. split; [|exact R]. cbn [In]. tauto.
          - intros s _ [R [x [X R']]]. assert (x = c) by (apply (revokedFor_one set rs d s); assumption). subst x. destruct X as [X|X]; [contradiction|].
            cbn [In] in C, X. lia. }
        rewrite <- EQ. exact K. }
    assert (Z : countOf (fun s => exists x, (In x [] \/ In x [2; 6; 8; 10]%N) /\ revokedFor set rs d s x) lns om).
    { refine (countOf_ext _ _ _ _ _ OM). intros s _. split; intros [c [X R]]; exists c; [split; [right; exact X|exact R]|]. destruct X as [[]|X]. auto. }
    assert (S5 := P [] ltac:(cbn; tauto) 5%N _ _ ltac:(cbn; tauto) ltac:(cbn; lia) (CT 5%N c5 ltac:(cbn; tauto)) Z).
    assert (S4 := P [5]%N ltac:(cbn; tauto) 4%N _ _ ltac:(cbn; tauto) ltac:(cbn; lia) (CT 4%N c4 ltac:(cbn; tauto)) S5).
    assert (S3 := P [4; 5]%N ltac:(cbn; tauto) 3%N _ _ ltac:(cbn; tauto) ltac:(cbn; lia) (CT 3%N c3 ltac:(cbn; tauto)) S4).
    assert (S9 := P [3; 4; 5]%N ltac:(cbn; tauto) 9%N _ _ ltac:(cbn; tauto) ltac:(cbn; lia) (CT 9%N c9 ltac:(cbn; tauto)) S3).
    assert (S1 := P [9; 3; 4; 5]%N ltac:(cbn; tauto) 1%N _ _ ltac:(cbn; tauto) ltac:(cbn; lia) (CT 1%N c1 ltac:(cbn; tauto)) S9).
    assert (S0 := P [1; 9; 3; 4; 5]%N ltac:(cbn; tauto) 0%N _ _ ltac:(cbn; tauto) ltac:(cbn; lia) (CT 0%N c0 ltac:(cbn; tauto)) S1).
    assert (EQ : valueOf rv = (valueOf c0 + (valueOf c1 + (valueOf c9 + (valueOf c3 + (valueOf c4 + (valueOf c5 + om))))))%N).
    { apply (countOf_fun _ lns _ _ CR). refine (countOf_ext _ _ _ _ _ S0). intros s _. rewrite (revokedFor_some set rs d s GR). split.
      - intros [c [X R]]. exists c. split; [exact R|]. cbn [In] in *. tauto.
      - intros [c [R X]]. exists c. split; [|exact R]. cbn [In] in *. tauto. }
    lia.
Qed.
Print Assumptions C71_adds_up.

(** A certificate revoked for the compromise of its CA is counted as revoked, but
    under no reason. *)
Definition yKs : knownSrc := [(dA, [(100%Z, [B "1"; B "2"]); (200%Z, [B "3"; B "4"])]); (dB, [(100%Z, [B "1"; B "9"])])].
Definition yRs : revokedSrc := [(dA, [(B "2", 2%N); (B "1", 4%N); (B "1", 1%N); (B "3", 0%N); (B "7", 1%N)])].
Lemma yGood : goodKnown yKs /\ goodRevoked yRs.
Proof.
  split; [split|].
  - cbn [yKs map fst]. repeat (constructor; [cbn [In]; intros H; repeat (destruct H as [H|H]; [discriminate H|]); exact H|]). constructor.
  - intros d bins H. cbn [yKs In] in H. destruct H as [H|[H|[]]]; injection H as <- <-; (split; [reflexivity|]);
      intros u ss H; cbn [In] in H; repeat (destruct H as [H|H]; [injection H as <- <-; lia|]); destruct H.
  - constructor; [intros []|constructor].
Qed.
Definition yData : bytes := match reasonCsv (goRevoked yRs) (goKnown yKs) RAll with Ok d => d | _ => [] end.
Example C71_case : reasonCsv (goRevoked yRs) (goKnown yKs) RAll = Ok yData /\
  map columns (tl (splitLines [] yData)) = [[1; 1; 0; 0; 0; 0; 3; 1]; [0; 0; 0; 0; 0; 0; 0; 2]]%N /\
  map (fun l => hd [] (splitComma [] l)) (tl (splitLines [] yData)) = [issuerID dA; issuerID dB] /\
  NoDup (serialLines (snd (hd (dA, []) yKs))) /\
  revokedFor RAll yRs dA (B "1") 1 /\ revokedFor RAll yRs dA (B "2") 2.
Proof.
  split; [vm_compute; reflexivity|]. split; [vm_compute; reflexivity|]. split; [vm_compute; reflexivity|]. split; [|split].
  - cbn. repeat (constructor; [cbn [In]; intros H; repeat (destruct H as [H|H]; [discriminate H|]); exact H|]). constructor.
  - exists [(B "2", 2%N); (B "1", 4%N)], [(B "3", 0%N); (B "7", 1%N)], 1%N. split; [left; reflexivity|]. split; [exact Logic.I|]. split; [|reflexivity].
    intros c [H|[H|[]]]; discriminate H.
  - exists [], [(B "1", 4%N); (B "1", 1%N); (B "3", 0%N); (B "7", 1%N)], 2%N. split; [left; reflexivity|]. split; [exact Logic.I|]. split; [|reflexivity].
    intros c [H|[H|[H|[H|[]]]]]; discriminate H.
Qed.

(** So the columns of reasons need not add up to the revoked certificates. *)
Theorem C71_columns_refuted : exists rs ks data line c0 c1 c9 c3 c4 c5 rv ok, goodKnown ks /\ goodRevoked rs /\
  (forall d bins, In (d, bins) ks -> NoDup (serialLines bins)) /\
  reasonCsv (goRevoked rs) (goKnown ks) RAll = Ok data /\ In line (tl (splitLines [] data)) /\
  columns line = [c0; c1; c9; c3; c4; c5; rv; ok] /\ (c0 + c1 + c9 + c3 + c4 + c5 < rv)%N.
Proof.
  exists yRs, yKs, yData, (hd [] (tl (splitLines [] yData))), 1%N, 1%N, 0%N, 0%N, 0%N, 0%N, 3%N, 1%N. destruct yGood as [A C].
  split; [exact A|]. split; [exact C|]. split; [|split; [vm_compute; reflexivity|split; [|split; [vm_compute; reflexivity|reflexivity]]]].
  - intros d bins H. cbn [yKs In] in H. destruct H as [H|[H|[]]]; injection H as <- <-; cbn;
      repeat (constructor; [cbn [In]; intros H; repeat (destruct H as [H|H]; [discriminate H|]); exact H|]); constructor.
  - destruct (tl (splitLines [] yData)) eqn:E; [exfalso; revert E; vm_compute; discriminate|left; reflexivity].
Qed.
Print Assumptions C71_columns_refuted.
