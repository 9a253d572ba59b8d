(** * Property C77: log states and issuers survive their JSON text.

    Model: JsonModel.v.  What JSON text and RFC 3339 times mean: JsonSpec.v. *)
From Verif Require Import Base SerialModel SerialProofs TimeModel TimeProofs QueryModel PublishModel TextProofs P_RunIds IssuersModel P_Issuers JsonModel JsonSpec JsonProofs JsonTime JsonCut JsonSound.
From Coq Require Import Strings.Byte Sorting.Permutation.
Local Open Scope N_scope.

(** ** Specification *)

(** A field is found by its name without regard to case; U+017F stands for s and U+212A for k. *)
Definition letter (c : byte) : Prop := 65 <= Byte.to_N c <= 90 \/ 97 <= Byte.to_N c <= 122.
Inductive alike : bytes -> bytes -> Prop :=
| al_nil : alike [] []
| al_same c k n : alike k n -> alike (c :: k) (c :: n)
| al_upper c d k n : 97 <= Byte.to_N c <= 122 -> Byte.to_N c = Byte.to_N d + 32 -> alike k n -> alike (c :: k) (d :: n)
| al_lower c d k n : 97 <= Byte.to_N d <= 122 -> Byte.to_N d = Byte.to_N c + 32 -> alike k n -> alike (c :: k) (d :: n)
| al_s d k n : d = x73 \/ d = x53 -> alike k n -> alike (utf8 383 ++ k) (d :: n)
| al_k d k n : d = x6b \/ d = x4b -> alike k n -> alike (utf8 8490 ++ k) (d :: n).

(** The JSON value [j] stands for the value [v] of a field. *)
Definition fits (v : fval) (j : json) : Prop :=
  match v with
  | FStr s => exists raw, j = JStr raw s
  | FUint n => exists t, j = JNum t /\ digits t /\ valueOf t = n /\ n < 2 ^ 64
  | FBool b => j = JBool b
  | FTime t z => exists raw s, j = JStr raw s /\ rfc3339 raw t z
  end.
(** [l] has one member named [name], and it is [j]. *)
Definition only (name : bytes) (l : list (bytes * json)) (j : json) : Prop :=
  exists l1 k l2, l = l1 ++ (k, j) :: l2 /\ alike k name /\ Forall (fun m => ~ alike (fst m) name) (l1 ++ l2).
(** The members [l] of an object give these fields, each once, in any order, among others. *)
Definition gives (l : list (bytes * json)) (fields : list (bytes * fval)) : Prop :=
  Forall (fun f => exists j, only (fst f) l j /\ fits (snd f) j) fields.
(** [x] is JSON text for [v], with white space around it. *)
Definition textOf (x : bytes) (v : json) : Prop := exists w t w', ws w /\ ws w' /\ jtext t v /\ x = w ++ t ++ w'.

Definition sameKind (a b : fval) : Prop :=
  match a, b with FStr _, FStr _ | FUint _, FUint _ | FBool _, FBool _ | FTime _ _, FTime _ _ => True | _, _ => False end.
(** What the members [l] make of a field that was [old]: null leaves it alone, and the last value
    that is not null counts; every one must be of the field's kind. *)
Definition nullFor (name : bytes) (m : bytes * json) : Prop := alike (fst m) name -> snd m = JNull.
Definition agrees (l : list (bytes * json)) (name : bytes) (old v : fval) : Prop :=
  Forall (fun m => alike (fst m) name -> snd m = JNull \/ exists v', sameKind old v' /\ fits v' (snd m)) l /\
  ((v = old /\ Forall (nullFor name) l) \/
   (sameKind old v /\ exists l1 k j l2, l = l1 ++ (k, j) :: l2 /\ alike k name /\ fits v j /\ Forall (nullFor name) l2)).
(** The value [v] makes these fields, which were [zero]. *)
Definition makes (v : json) (zero fields : list (bytes * fval)) : Prop :=
  (v = JNull /\ fields = zero) \/
  exists l, v = JObj l /\ Forall2 (fun z f => fst f = fst z /\ agrees l (fst z) (snd z) (snd f)) zero fields.
(** Text that Go takes for JSON: U+FFFD stands for what is not UTF-8 or is half a surrogate pair. *)
Definition looseText (x : bytes) (v : json) : Prop := exists w t w', ws w /\ ws w' /\ jsonText loose t v /\ x = w ++ t ++ w'.

(** The fields of a log state and of an issuer *)
Definition stateFields (s : state) : list (bytes * fval) :=
  [(B "LogID", FStr (s_logID s)); (B "MMD", FUint (s_mmd s)); (B "ShortURL", FStr (s_url s));
   (B "MinEntry", FUint (s_minEntry s)); (B "MaxEntry", FUint (s_maxEntry s));
   (B "MinTimestamp", FUint (s_minTs s)); (B "MaxTimestamp", FUint (s_maxTs s));
   (B "LastUpdateTime", FTime (s_time s) (s_zone s))].
Definition issuerFields (e : issuer) : list (bytes * fval) :=
  [(B "uniqueID", FStr (i_unique e)); (B "pubKeyHash", FStr (i_key e)); (B "subject", FStr (i_subject e));
   (B "pem", FStr (i_pem e)); (B "usesPartitionedCrls", FBool (i_part e))].

(** A state and an issuer before they are read; time.Time{} is the beginning of year 1. *)
Definition blankState : state := mkState [] 0 [] 0 0 0 0 (dayNumber 1 1 1 * 86400 * 1000000000) 0.
Definition blankIssuer : issuer := mkIssuer [] [] [] [] false.

(** What Go's types guarantee, and a time that can be written *)
Definition u64 (n : N) : Prop := n < 2 ^ 64.
Definition writable (s : state) : Prop :=
  u64 (s_mmd s) /\ u64 (s_minEntry s) /\ u64 (s_maxEntry s) /\ u64 (s_minTs s) /\ u64 (s_maxTs s) /\
  (0 <= localYear (s_time s) (s_zone s) <= 9999)%Z /\ (-1440 < s_zone s < 1440)%Z.
(** The same, up to bytes that are not UTF-8 *)
Definition sameState (s s' : state) : Prop :=
  repaired (s_logID s) (s_logID s') /\ repaired (s_url s) (s_url s') /\
  s_mmd s' = s_mmd s /\ s_minEntry s' = s_minEntry s /\ s_maxEntry s' = s_maxEntry s /\
  s_minTs s' = s_minTs s /\ s_maxTs s' = s_maxTs s /\ s_time s' = s_time s /\ s_zone s' = s_zone s.
Definition sameIssuer (e e' : issuer) : Prop :=
  repaired (i_unique e) (i_unique e') /\ repaired (i_key e) (i_key e') /\ repaired (i_subject e) (i_subject e') /\
  repaired (i_pem e) (i_pem e') /\ i_part e' = i_part e.

(** ** Names *)
Lemma letter_fold c k : letter c -> foldName (c :: k) = byteOf (if inR 97 122 (Byte.to_N c) then Byte.to_N c - 32 else Byte.to_N c) :: foldName k.
Proof.
  intros H. unfold letter in H. cbn [foldName]. cbv zeta. destruct (inR 97 122 (Byte.to_N c)); [reflexivity|].
  destruct (N.eqb_spec (Byte.to_N c) 197); [lia|]. destruct (N.eqb_spec (Byte.to_N c) 226); [lia|]. rewrite byteOf_to_N. reflexivity.
Qed.
Lemma inR_true lo hi n : lo <= n <= hi -> inR lo hi n = true.
Proof. intros H. unfold inR. apply andb_true_iff. rewrite !N.leb_le. exact H. Qed.
Lemma inR_iff lo hi n : inR lo hi n = true <-> lo <= n <= hi.
Proof. unfold inR. rewrite andb_true_iff, !N.leb_le. reflexivity. Qed.
Lemma alike_fold k n : alike k n -> Forall letter n -> foldName k = foldName n.
Proof.
  induction 1 as [|c k n A IH|c d k n C E A IH|c d k n C E A IH|d k n D A IH|d k n D A IH]; intros L.
  - reflexivity.
  - inversion L; subst. rewrite !letter_fold, IH by assumption. reflexivity.
  - inversion L as [|? ? Ld Ln]; subst. rewrite (letter_fold d) by exact Ld. rewrite (letter_fold c) by (right; exact C). rewrite IH by exact Ln.
    rewrite (inR_true 97 122 (Byte.to_N c)) by exact C. destruct (inR 97 122 (Byte.to_N d)) eqn:Q; [apply inR_iff in Q; lia|]. f_equal. f_equal. lia.
  - inversion L as [|? ? Ld Ln]; subst. rewrite (letter_fold d) by exact Ld. rewrite (letter_fold c) by (left; lia). rewrite IH by exact Ln.
    rewrite (inR_true 97 122 (Byte.to_N d)) by exact C. destruct (inR 97 122 (Byte.to_N c)) eqn:Q; [apply inR_iff in Q; lia|]. f_equal. f_equal. lia.
  - inversion L as [|? ? Ld Ln]; subst. change (utf8 383 ++ k) with (xc5 :: xbf :: k). change (foldName (xc5 :: xbf :: k)) with (x53 :: foldName k).
    rewrite (IH Ln). destruct D as [->| ->]; reflexivity.
  - inversion L as [|? ? Ld Ln]; subst. change (utf8 8490 ++ k) with (xe2 :: x84 :: xaa :: k). change (foldName (xe2 :: x84 :: xaa :: k)) with (x4b :: foldName k).
    rewrite (IH Ln). destruct D as [->| ->]; reflexivity.
Qed.
Lemma up_lt c : (if inR 97 122 (Byte.to_N c) then Byte.to_N c - 32 else Byte.to_N c) < 256.
Proof. pose proof (to_N_lt c). destruct (inR 97 122 (Byte.to_N c)); lia. Qed.
(** A byte of the folded name that comes from a letter comes from a letter, or one of the two signs. *)
Lemma alike_letter c d k n : letter d -> byteOf (if inR 97 122 (Byte.to_N c) then Byte.to_N c - 32 else Byte.to_N c) = byteOf (if inR 97 122 (Byte.to_N d) then Byte.to_N d - 32 else Byte.to_N d) ->
  alike k n -> alike (c :: k) (d :: n).
Proof.
  intros Ld E A. apply (f_equal Byte.to_N) in E. pose proof (to_N_lt c). pose proof (to_N_lt d).
  rewrite (to_of _ (up_lt c)), (to_of _ (up_lt d)) in E.
  destruct (inR 97 122 (Byte.to_N c)) eqn:Q, (inR 97 122 (Byte.to_N d)) eqn:Q'; try apply inR_iff in Q; try apply inR_iff in Q'; unfold letter in Ld.
  - assert (c = d) by (apply to_N_inj; lia). subst. apply al_same. exact A.
  - apply al_upper; [lia|lia|exact A].
  - apply al_lower; [lia|lia|exact A].
  - assert (c = d) by (apply to_N_inj; lia). subst. apply al_same. exact A.
Qed.
Lemma fold_alike : forall f k n, (length k <= f)%nat -> Forall letter n -> foldName k = foldName n -> alike k n.
Proof.
  induction f as [|f IH]; intros k n Lk L E.
  { destruct k; [|cbn in Lk; lia]. destruct n as [|d n]; [constructor|]. inversion L; subst. rewrite letter_fold in E by assumption. discriminate E. }
  destruct n as [|d n].
  { destruct k as [|c k]; [constructor|]. exfalso. cbn [foldName] in E. cbv zeta in E. destruct (inR 97 122 (Byte.to_N c)); [discriminate E|].
    destruct (Byte.to_N c =? 197); [destruct k as [|x k]; [discriminate E|destruct (Byte.to_N x =? 191); discriminate E]|].
    destruct (Byte.to_N c =? 226); [|discriminate E]. destruct k as [|x [|y k]]; try discriminate E. destruct (_ && _) in E; discriminate E. }
  inversion L as [|? ? Ld Ln]; subst. rewrite (letter_fold d) in E by exact Ld.
  destruct k as [|c k]; [discriminate E|]. cbn [length] in Lk.
  assert (HI : forall y, Byte.to_N y < 128 -> byteOf (if inR 97 122 (Byte.to_N d) then Byte.to_N d - 32 else Byte.to_N d) = y ->
     (Byte.to_N d = Byte.to_N y \/ Byte.to_N d = Byte.to_N y + 32 /\ 65 <= Byte.to_N y <= 90)).
  { intros y _ <-. rewrite (to_of _ (up_lt d)). destruct (inR 97 122 (Byte.to_N d)) eqn:Q; [apply inR_iff in Q; right; lia|left; reflexivity]. }
  cbn [foldName] in E. cbv zeta in E. destruct (inR 97 122 (Byte.to_N c)) eqn:Q.
  { apply alike_letter; [exact Ld| |]; [rewrite Q; congruence|]. apply IH; [lia|exact Ln|congruence]. }
  assert (NL : 128 <= Byte.to_N c -> c :: foldName k <> byteOf (if inR 97 122 (Byte.to_N d) then Byte.to_N d - 32 else Byte.to_N d) :: foldName n).
  { intros Hc X. assert (Ec : c = byteOf (if inR 97 122 (Byte.to_N d) then Byte.to_N d - 32 else Byte.to_N d)) by congruence.
    apply (f_equal Byte.to_N) in Ec. rewrite (to_of _ (up_lt d)) in Ec.
    unfold letter in Ld. destruct (inR 97 122 (Byte.to_N d)) in Ec; lia. }
  destruct (N.eqb_spec (Byte.to_N c) 197) as [Ec|_].
  { destruct k as [|x k]; [destruct (NL ltac:(lia)); exact E|]. destruct (N.eqb_spec (Byte.to_N x) 191) as [Ex|_]; [|destruct (NL ltac:(lia)); exact E].
    assert (c = xc5) by (apply to_N_inj; rewrite Ec; reflexivity). assert (x = xbf) by (apply to_N_inj; rewrite Ex; reflexivity). subst c x.
    change (xc5 :: xbf :: k) with (utf8 383 ++ k). assert (X : byteOf (if inR 97 122 (Byte.to_N d) then Byte.to_N d - 32 else Byte.to_N d) = x53) by congruence.
    apply HI in X; [|reflexivity]. change (Byte.to_N x53) with 83 in X. apply al_s.
    - destruct X as [X|[X _]]; [right|left]; apply to_N_inj; rewrite X; reflexivity.
    - apply IH; [cbn [length] in Lk; lia|exact Ln|congruence]. }
  destruct (N.eqb_spec (Byte.to_N c) 226) as [Ec|_].
  { destruct k as [|x [|y k]]; [destruct (NL ltac:(lia)); exact E|destruct (NL ltac:(lia)); exact E|].
    destruct ((Byte.to_N x =? 132) && (Byte.to_N y =? 170)) eqn:Q2; [|destruct (NL ltac:(lia)); exact E]. apply andb_true_iff in Q2. rewrite !N.eqb_eq in Q2. destruct Q2 as [Ex Ey].
    assert (c = xe2) by (apply to_N_inj; rewrite Ec; reflexivity). assert (x = x84) by (apply to_N_inj; rewrite Ex; reflexivity). assert (y = xaa) by (apply to_N_inj; rewrite Ey; reflexivity). subst c x y.
    change (xe2 :: x84 :: xaa :: k) with (utf8 8490 ++ k). assert (X : byteOf (if inR 97 122 (Byte.to_N d) then Byte.to_N d - 32 else Byte.to_N d) = x4b) by congruence.
    apply HI in X; [|reflexivity]. change (Byte.to_N x4b) with 75 in X. apply al_k.
    - destruct X as [X|[X _]]; [right|left]; apply to_N_inj; rewrite X; reflexivity.
    - apply IH; [cbn [length] in Lk; lia|exact Ln|congruence]. }
  apply alike_letter; [exact Ld| |]; [rewrite Q, byteOf_to_N; congruence|]. apply IH; [lia|exact Ln|congruence].
Qed.
Lemma alike_iff k n : Forall letter n -> (beq (foldName n) (foldName k) = true <-> alike k n).
Proof.
  intros L. split; intros H.
  - apply (fold_alike (length k)); [lia|exact L|]. symmetry. apply beq_eq. exact H.
  - apply beq_eq. symmetry. apply alike_fold; assumption.
Qed.

(** ** Reading a struct *)
Lemma setValue_fits old v j : sameKind old v -> fits v j -> setValue old j = Some v.
Proof.
  destruct v as [s|n|b|t z]; cbn [fits]; intros K F.
  - destruct F as (raw & ->). destruct old; try contradiction K. reflexivity.
  - destruct F as (t & -> & [_ D] & E & L). destruct old; try contradiction K. cbn [setValue]. rewrite D, decNum_value, E by exact D.
    destruct (Z.ltb_spec (Z.of_N n) (2 ^ 64)) as [_|G]; [rewrite N2Z.id; reflexivity|]. exfalso. change (2 ^ 64)%Z with (Z.of_N (2 ^ 64)) in G. lia.
  - subst j. destruct old; try contradiction K. reflexivity.
  - destruct F as (raw & s & -> & R). destruct old; try contradiction K. cbn [setValue]. rewrite (time_read _ _ _ R). reflexivity.
Qed.

(** A field that is done, or whose member is still to come *)
Definition ready (l : list (bytes * json)) (c f : bytes * fval) : Prop :=
  fst c = fst f /\
  ((snd c = snd f /\ Forall (fun m => ~ alike (fst m) (fst f)) l) \/
   (sameKind (snd c) (snd f) /\ exists j, only (fst f) l j /\ fits (snd f) j)).
Lemma ready_skip k j l c f : ~ alike k (fst f) -> ready ((k, j) :: l) c f -> ready l c f.
Proof.
  intros Nk (E & [[V F]|(K & j0 & (l1 & k0 & l2 & El & A & F) & Fi)]); (split; [exact E|]).
  - left. split; [exact V|]. inversion F; assumption.
  - right. split; [exact K|]. exists j0. split; [|exact Fi]. destruct l1 as [|m l1]; cbn [app] in El.
    + exfalso. apply Nk. replace k with k0 by congruence. exact A.
    + exists l1, k0, l2. split; [congruence|]. split; [exact A|]. cbn [app] in F. inversion F; assumption.
Qed.
Lemma setField_none s k j : Forall (fun c => Forall letter (fst c) /\ ~ alike k (fst c)) s -> setField s k j = Some s.
Proof.
  induction 1 as [|[n v] s [L A] F IH]; [reflexivity|]. cbn [setField fst] in *.
  destruct (beq (foldName n) (foldName k)) eqn:Q; [destruct A; apply alike_iff; assumption|]. rewrite IH. reflexivity.
Qed.
Lemma setField_ready k j l s fields : Forall2 (ready ((k, j) :: l)) s fields -> Forall (fun f => Forall letter (fst f)) fields -> NoDup (map (fun f => foldName (fst f)) fields) ->
  exists s', setField s k j = Some s' /\ Forall2 (ready l) s' fields.
Proof.
  induction 1 as [|[n v] [n' v'] s fields R F IH]; intros L D; [exists []; split; [reflexivity|constructor]|].
  inversion L as [|? ? L1 L2]; subst. cbn [map] in D. inversion D as [|? ? D1 D2]; subst. cbn [fst] in *.
  assert (En : n = n') by (destruct R as [E _]; exact E). subst n'. cbn [setField].
  destruct (beq (foldName n) (foldName k)) eqn:Q.
  - assert (A : alike k n) by (apply alike_iff; assumption). destruct R as (_ & R). cbn [fst snd] in R.
    assert (T : Forall2 (ready l) s fields).
    { assert (X : forall f, In f fields -> ~ alike k (fst f)).
      { intros f I Af. apply D1. apply in_map_iff. exists f. split; [|exact I]. rewrite Forall_forall in L2.
        rewrite <- (alike_fold k (fst f) Af (L2 f I)). apply alike_fold; assumption. }
      clear -F X. induction F as [|c f s fields R F IH]; constructor.
      - apply (ready_skip k j); [apply X; left; reflexivity|exact R].
      - apply IH. intros g I. apply X. right. exact I. }
    destruct R as [[_ R]|(K & j0 & (l1 & k0 & l2 & El & A0 & F0) & Fi)].
    + inversion R as [|? ? Na _]. destruct (Na A).
    + destruct l1 as [|m l1]; cbn [app] in El.
      * assert (j0 = j) by congruence. assert (l2 = l) by congruence. subst j0 l2. rewrite (setValue_fits v v' j K Fi).
        eexists. split; [reflexivity|]. constructor; [|exact T]. split; [reflexivity|]. left. split; [reflexivity|exact F0].
      * cbn [app] in F0. inversion F0 as [|? ? Na _]; subst. exfalso. apply Na. replace m with (k, j) by congruence. exact A.
  - destruct (IH L2 D2) as (s' & -> & F'). eexists. split; [reflexivity|]. constructor; [|exact F'].
    apply (ready_skip k j); [|exact R]. cbn [fst]. intros A. apply alike_iff in A; [congruence|exact L1].
Qed.
Lemma setFields_ready l : forall s fields, Forall2 (ready l) s fields -> Forall (fun f => Forall letter (fst f)) fields -> NoDup (map (fun f => foldName (fst f)) fields) ->
  setFields s l = Some fields.
Proof.
  induction l as [|[k j] l IH]; intros s fields F L D; cbn [setFields].
  - f_equal. clear L D. induction F as [|[n v] [n' v'] s fields (E & [[V _]|(_ & j & (l1 & k & l2 & El & _) & _)]) F IH]; [reflexivity| |destruct l1; discriminate El].
    cbn [fst snd] in *. subst. reflexivity.
  - destruct (setField_ready k j l s fields F L D) as (s' & -> & F'). apply IH; assumption.
Qed.
(** A struct of these kinds is filled with the fields that are given. *)
Lemma struct_read zero fields l : Forall2 (fun c f => fst c = fst f /\ sameKind (snd c) (snd f)) zero fields ->
  Forall (fun f => Forall letter (fst f)) fields -> NoDup (map (fun f => foldName (fst f)) fields) -> gives l fields ->
  structOf zero (JObj l) = Some fields.
Proof.
  intros Z L D G. cbn [structOf]. apply setFields_ready; [|exact L|exact D]. clear L D. unfold gives in G.
  induction Z as [|c f zero fields [E K] Z IH]; constructor.
  - inversion G as [|? ? (j & O & Fi) _]; subst. split; [exact E|]. right. split; [exact K|]. exists j. split; assumption.
  - apply IH. inversion G; assumption.
Qed.
Lemma letters_dec n : forallb (fun c => inR 65 90 (Byte.to_N c) || inR 97 122 (Byte.to_N c)) n = true -> Forall letter n.
Proof.
  intros H. apply Forall_forall. intros c I. rewrite forallb_forall in H. specialize (H c I). apply orb_true_iff in H. rewrite !inR_iff in H. exact H.
Qed.
Lemma state_names s : Forall (fun f => Forall letter (fst f)) (stateFields s) /\ NoDup (map (fun f => foldName (fst f)) (stateFields s)).
Proof.
  split.
  - repeat (constructor; [apply letters_dec; reflexivity|]). constructor.
  - cbn [stateFields map fst]. repeat (constructor; [cbn; intuition discriminate|]). constructor.
Qed.
Lemma issuer_names e : Forall (fun f => Forall letter (fst f)) (issuerFields e) /\ NoDup (map (fun f => foldName (fst f)) (issuerFields e)).
Proof.
  split.
  - repeat (constructor; [apply letters_dec; reflexivity|]). constructor.
  - cbn [issuerFields map fst]. repeat (constructor; [cbn; intuition discriminate|]). constructor.
Qed.
Lemma state_read s l : gives l (stateFields s) -> structOf (stateStruct zeroState) (JObj l) = Some (stateFields s).
Proof.
  intros G. destruct (state_names s) as [L D]. apply struct_read; [|exact L|exact D|exact G].
  repeat (constructor; [split; [reflexivity|exact I]|]). constructor.
Qed.
Lemma issuer_read e l : gives l (issuerFields e) -> structOf (issuerStruct (mkIssuer [] [] [] [] false)) (JObj l) = Some (issuerFields e).
Proof.
  intros G. destruct (issuer_names e) as [L D]. apply struct_read; [|exact L|exact D|exact G].
  repeat (constructor; [split; [reflexivity|exact I]|]). constructor.
Qed.

(** ** Whole texts *)
Lemma ws_follow w : ws w -> follow w.
Proof.
  intros W. destruct W as [|c w I W]; [exact I|]. cbn in I. repeat (destruct I as [<-|I]; [repeat split; discriminate|]). destruct I.
Qed.
Lemma text_first x v : textOf x v -> exists w, ws w /\ firstValue x = Some (v, w).
Proof.
  intros (w & t & w' & W & W' & J & ->). exists w'. split; [exact W'|]. unfold firstValue. rewrite (skipWs_value (C:=chars) w t v) by assumption.
  apply (proj1 parse_complete); [exact J| |intros ? _; apply ws_follow; exact W']. rewrite !app_length. lia.
Qed.
Lemma text_whole x v : textOf x v -> wholeValue x = Some v.
Proof.
  intros T. destruct (text_first x v T) as (w & W & E). unfold wholeValue. rewrite E. rewrite <- (app_nil_r w), skipWs_ws by exact W. reflexivity.
Qed.
Lemma optMap_map {A C} (f : C -> option A) (g : A -> C) l : (forall a, f (g a) = Some a) -> optMap f (map g l) = Some l.
Proof. intros H. induction l as [|a l IH]; [reflexivity|]. unfold optMap in *. cbn [map]. rewrite H, IH. reflexivity. Qed.
Lemma structsOf_read {A} (fieldsOf : A -> list (bytes * fval)) zero vs l :
  (forall a m, gives m (fieldsOf a) -> structOf zero (JObj m) = Some (fieldsOf a)) ->
  Forall2 (fun v a => exists m, v = JObj m /\ gives m (fieldsOf a)) vs l -> structsOf zero vs = Some (map fieldsOf l).
Proof.
  intros H. induction 1 as [|v a vs l (m & -> & G) F IH]; [reflexivity|]. cbn [structsOf map]. rewrite (H a m G), IH. reflexivity.
Qed.

(** *** What is read *)

(** JSON text of an object that gives the fields of a state, each once, is read as that state:
    whatever the order, the white space, the escapes and the case of the names, and
    whatever other members there are. *)
Theorem C77_reads_state : forall x l s, textOf x (JObj l) -> gives l (stateFields s) -> unmarshalState x = Some s.
Proof.
  intros x l s T G. unfold unmarshalState. rewrite (text_whole _ _ T), (state_read s l G). destruct s. reflexivity.
Qed.
Theorem C77_reads_states : forall x vs l, textOf x (JArr vs) ->
  Forall2 (fun v s => exists m, v = JObj m /\ gives m (stateFields s)) vs l -> decodeStates x = Some l.
Proof.
  intros x vs l T F. unfold decodeStates. destruct (text_first _ _ T) as (w & _ & ->). cbn [listOf].
  rewrite (structsOf_read stateFields _ vs l state_read F). apply optMap_map. intros []; reflexivity.
Qed.
Theorem C77_reads_issuers : forall x vs l, textOf x (JArr vs) ->
  Forall2 (fun v e => exists m, v = JObj m /\ gives m (issuerFields e)) vs l -> decodeIssuers x = Some l.
Proof.
  intros x vs l T F. unfold decodeIssuers. rewrite (text_whole _ _ T). cbn [listOf].
  rewrite (structsOf_read issuerFields _ vs l issuer_read F). apply optMap_map. intros []; reflexivity.
Qed.

(** ** All that is read *)
Definition sound (j : json) : Prop := match j with JNum t => t <> [] | _ => True end.
Lemma fits_null v : ~ fits v JNull.
Proof. destruct v; cbn [fits]; intros F; [destruct F as (? & F)|destruct F as (? & F & _)| |destruct F as (? & ? & F & _)]; discriminate F. Qed.
Lemma setValue_iff old j v : sound j -> (setValue old j = Some v <-> (j = JNull /\ v = old) \/ (sameKind old v /\ fits v j)).
Proof.
  intros S. split.
  - intros E. destruct j as [|b|t|raw s|l|l].
    + left. split; [reflexivity|]. destruct old; cbn [setValue] in E; congruence.
    + right. destruct old; try discriminate E. assert (v = FBool b) as -> by (cbn [setValue] in E; congruence). split; [exact I|reflexivity].
    + right. destruct old; try discriminate E. cbn [setValue] in E. destruct (forallb isDigit t) eqn:D; [|discriminate E]. rewrite decNum_value in E by exact D.
      destruct (Z.ltb_spec (Z.of_N (valueOf t)) (2 ^ 64)) as [L|]; [|discriminate E]. rewrite N2Z.id in E. assert (v = FUint (valueOf t)) as -> by congruence.
      split; [exact I|]. exists t. split; [reflexivity|]. split; [split; [exact S|exact D]|]. split; [reflexivity|]. change (2 ^ 64)%Z with (Z.of_N (2 ^ 64)) in L. lia.
    + right. destruct old; try discriminate E.
      * assert (v = FStr s) as -> by (cbn [setValue] in E; congruence). split; [exact I|]. exists raw. reflexivity.
      * cbn [setValue] in E. destruct (parseTime raw) as [[t0 z0]|] eqn:P; [|discriminate E]. assert (v = FTime t0 z0) as -> by congruence.
        split; [exact I|]. exists raw, s. split; [reflexivity|]. apply time_sound. exact P.
    + destruct old; discriminate E.
    + destruct old; discriminate E.
  - intros [[-> ->]|[K F]]; [destruct old; reflexivity|]. apply setValue_fits; assumption.
Qed.
Lemma sameKind_trans a b c : sameKind a b -> (sameKind a c <-> sameKind b c).
Proof. destruct a, b, c; cbn [sameKind]; tauto. Qed.
Lemma sameKind_refl a : sameKind a a.
Proof. destruct a; exact I. Qed.
Lemma agrees_skip k j l name old v : ~ alike k name -> (agrees ((k, j) :: l) name old v <-> agrees l name old v).
Proof.
  intros N. split; intros [F T]; (split; [|destruct T as [[E A]|(K & l1 & k0 & j0 & l2 & E & A & Fi & Nu)]]).
  - inversion F; assumption.
  - left. split; [exact E|]. inversion A; assumption.
  - right. split; [exact K|]. destruct l1 as [|m l1]; cbn [app] in E; [exfalso; apply N; replace k with k0 by congruence; exact A|].
    exists l1, k0, j0, l2. split; [congruence|]. auto.
  - constructor; [intros A; destruct (N A)|exact F].
  - left. split; [exact E|]. constructor; [intros A'; destruct (N A')|exact A].
  - right. split; [exact K|]. exists ((k, j) :: l1), k0, j0, l2. split; [rewrite E; reflexivity|]. auto.
Qed.
Lemma agrees_step k j l name old v : alike k name -> sound j ->
  (agrees ((k, j) :: l) name old v <-> exists old', setValue old j = Some old' /\ agrees l name old' v).
Proof.
  intros A S. split.
  - intros [F T]. inversion F as [|? ? F1 F2]; subst. destruct (F1 A) as [J|(v' & K & Fi)]; cbn [snd] in *.
    + subst j. exists old. split; [destruct old; reflexivity|]. split; [exact F2|]. destruct T as [[E Nu]|(K & l1 & k0 & j0 & l2 & E & A0 & Fi & Nu)].
      * left. split; [exact E|]. inversion Nu; assumption.
      * right. split; [exact K|]. destruct l1 as [|m l1]; cbn [app] in E.
        -- replace j0 with JNull in Fi by congruence. destruct (fits_null _ Fi).
        -- exists l1, k0, j0, l2. split; [congruence|]. auto.
    + exists v'. split; [apply setValue_fits; assumption|]. split.
      * eapply Forall_impl; [|exact F2]. cbn beta. intros m H Am. destruct (H Am) as [E|(u & Ku & Fu)]; [left; exact E|]. right. exists u.
        split; [apply (sameKind_trans old v' u K); exact Ku|exact Fu].
      * destruct T as [[E Nu]|(K0 & l1 & k0 & j0 & l2 & E & A0 & Fi0 & Nu)].
        -- inversion Nu as [|? ? N1 _]; subst. specialize (N1 A). cbn [snd] in N1. subst j. destruct (fits_null _ Fi).
        -- destruct l1 as [|m l1]; cbn [app] in E.
           ++ left. assert (j0 = j) as -> by congruence. assert (l2 = l) as -> by congruence. split; [|exact Nu].
              pose proof (setValue_fits old v' j K Fi). pose proof (setValue_fits old v j K0 Fi0). congruence.
           ++ right. split; [apply (sameKind_trans old v' v K); exact K0|]. exists l1, k0, j0, l2. split; [congruence|]. auto.
  - intros (old' & E & F & T). apply setValue_iff in E; [|exact S]. destruct E as [[-> ->]|[K Fi]].
    + split; [constructor; [intros _; left; reflexivity|exact F]|]. destruct T as [[E Nu]|(K & l1 & k0 & j0 & l2 & E & A0 & Fi & Nu)].
      * left. split; [exact E|]. constructor; [intros _; reflexivity|exact Nu].
      * right. split; [exact K|]. exists ((k, JNull) :: l1), k0, j0, l2. split; [rewrite E; reflexivity|]. auto.
    + split.
      * constructor; [intros _; right; exists old'; split; assumption|]. eapply Forall_impl; [|exact F]. cbn beta. intros m H Am.
        destruct (H Am) as [E|(u & Ku & Fu)]; [left; exact E|]. right. exists u. split; [apply (sameKind_trans old old' u K); exact Ku|exact Fu].
      * right. destruct T as [[-> Nu]|(K0 & l1 & k0 & j0 & l2 & E & A0 & Fi0 & Nu)].
        -- split; [exact K|]. exists [], k, j, l. split; [reflexivity|]. auto.
        -- split; [apply (sameKind_trans old old' v K); exact K0|]. exists ((k, j) :: l1), k0, j0, l2. split; [rewrite E; reflexivity|]. auto.
Qed.
(** One member *)
Definition stepped (k : bytes) (j : json) (c c' : bytes * fval) : Prop :=
  fst c' = fst c /\ if beq (foldName (fst c)) (foldName k) then setValue (snd c) j = Some (snd c') else snd c' = snd c.
Lemma stepped_none k j s s' : Forall (fun c => beq (foldName (fst c)) (foldName k) = false) s -> (Forall2 (stepped k j) s s' <-> s' = s).
Proof.
  intros F. revert s'. induction F as [|[n v] s N F IH]; intros s'.
  - split; [intros H; inversion H; reflexivity|intros ->; constructor].
  - split.
    + intros H. inversion H as [|? [n' v'] ? s2 [E1 E2] H2]; subst. cbn [fst snd] in *. rewrite N in E2. subst n' v'. f_equal. apply IH. exact H2.
    + intros ->. constructor; [split; [reflexivity|]; cbn [fst snd] in *; rewrite N; reflexivity|]. apply IH. reflexivity.
Qed.
Lemma setField_iff k j : forall s s', NoDup (map (fun f => foldName (fst f)) s) -> (setField s k j = Some s' <-> Forall2 (stepped k j) s s').
Proof.
  induction s as [|[n v] s IH]; intros s' D; cbn [setField].
  - split; [intros E; assert (s' = []) as -> by congruence; constructor|intros H; inversion H; reflexivity].
  - cbn [map fst] in D. inversion D as [|? ? D1 D2]; subst. destruct (beq (foldName n) (foldName k)) eqn:Q.
    + assert (No : Forall (fun c : bytes * fval => beq (foldName (fst c)) (foldName k) = false) s).
      { apply Forall_forall. intros c Ic. apply beq_neq. intros Ec. apply D1. apply beq_eq in Q. rewrite Q, <- Ec. apply in_map_iff. exists c. split; [reflexivity|exact Ic]. }
      split.
      * intros E. destruct (setValue v j) as [x|] eqn:V; [|discriminate E]. assert (s' = (n, x) :: s) as -> by congruence.
        constructor; [split; [reflexivity|]; cbn [fst snd]; rewrite Q; exact V|]. apply (stepped_none k j s s No). reflexivity.
      * intros H. inversion H as [|? [n' x] ? s2 [E1 E2] H2]; subst. cbn [fst snd] in *. rewrite Q in E2. rewrite E2, E1. apply (stepped_none k j s s2 No) in H2. rewrite H2. reflexivity.
    + split.
      * intros E. destruct (setField s k j) as [s2|] eqn:V; [|discriminate E]. assert (s' = (n, v) :: s2) as -> by congruence.
        constructor; [split; [reflexivity|]; cbn [fst snd]; rewrite Q; reflexivity|]. apply IH; [exact D2|reflexivity].
      * intros H. inversion H as [|? [n' x] ? s2 [E1 E2] H2]; subst. cbn [fst snd] in *. rewrite Q in E2. apply IH in H2; [|exact D2]. rewrite H2, E1, E2. reflexivity.
Qed.
Definition fieldOf (l : list (bytes * json)) (z f : bytes * fval) : Prop := fst f = fst z /\ agrees l (fst z) (snd z) (snd f).
Lemma field_step k j l : sound j -> forall s fields, Forall (fun f => Forall letter (fst f)) s ->
  (Forall2 (fieldOf ((k, j) :: l)) s fields <-> exists s', Forall2 (stepped k j) s s' /\ Forall2 (fieldOf l) s' fields).
Proof.
  intros S. induction s as [|[n v] s IH]; intros fields L.
  - split.
    + intros H. inversion H; subst. exists []. split; constructor.
    + intros (s' & H1 & H2). inversion H1; subst. inversion H2; subst. constructor.
  - inversion L as [|? ? L1 L2]; subst. cbn [fst] in L1. pose proof (alike_iff k n L1) as AI. split.
    + intros H. inversion H as [|? [n' x] ? s2 [E1 E2] H2]; subst. cbn [fst snd] in *. subst n'. apply IH in H2; [|exact L2]. destruct H2 as (s' & A1 & A2).
      destruct (beq (foldName n) (foldName k)) eqn:Q.
      * apply agrees_step in E2; [|apply AI; reflexivity|exact S]. destruct E2 as (old' & V & Ag). exists ((n, old') :: s').
        split; constructor; try assumption; (split; [reflexivity|]); cbn [fst snd]; [rewrite Q; exact V|exact Ag].
      * apply agrees_skip in E2; [|intros Al; apply AI in Al; discriminate Al]. exists ((n, v) :: s').
        split; constructor; try assumption; (split; [reflexivity|]); cbn [fst snd]; [rewrite Q; reflexivity|exact E2].
    + intros (s' & H1 & H2). inversion H1 as [|? [n1 v1] ? s1 [A1 A2] H1']; subst. inversion H2 as [|? [n2 v2] ? s2 [B1 B2] H2']; subst. cbn [fst snd] in *. subst n1 n2.
      constructor; [|apply IH; [exact L2|]; exists s1; split; assumption]. split; [reflexivity|]. cbn [fst snd].
      destruct (beq (foldName n) (foldName k)) eqn:Q.
      * apply agrees_step; [apply AI; reflexivity|exact S|]. exists v1. split; assumption.
      * subst v1. apply agrees_skip; [intros Al; apply AI in Al; discriminate Al|exact B2].
Qed.
Lemma stepped_names k j s s' : Forall2 (stepped k j) s s' -> map fst s' = map fst s.
Proof. induction 1 as [|c c' s s' [E _] F IH]; [reflexivity|]. cbn [map]. rewrite E, IH. reflexivity. Qed.
Lemma setFields_iff : forall l s fields, Forall (fun m => sound (snd m)) l ->
  Forall (fun f => Forall letter (fst f)) s -> NoDup (map (fun f => foldName (fst f)) s) ->
  (setFields s l = Some fields <-> Forall2 (fieldOf l) s fields).
Proof.
  induction l as [|[k j] l IH]; intros s fields S L D; cbn [setFields].
  - split.
    + intros E. assert (fields = s) as -> by congruence. clear. induction s as [|c s IH]; constructor; [|exact IH].
      split; [reflexivity|]. split; [constructor|]. left. split; [reflexivity|constructor].
    + intros F. f_equal. clear L D. induction F as [|[n v] [n' v'] s fields [E [_ T]] F IH]; [reflexivity|]. cbn [fst snd] in *.
      destruct T as [[T _]|(_ & l1 & k & j & l2 & T & _)]; [|destruct l1; discriminate T]. congruence.
  - inversion S as [|? ? S1 S2]; subst. cbn [snd] in S1. rewrite (field_step k j l S1 s fields L).
    assert (IH' : forall s', Forall2 (stepped k j) s s' -> (setFields s' l = Some fields <-> Forall2 (fieldOf l) s' fields)).
    { intros s' H. pose proof (stepped_names k j s s' H) as E. apply IH; [exact S2| |].
      - apply (proj1 (Forall_map fst (Forall letter) s')). refine (eq_ind_r (Forall (Forall letter)) _ E). apply (proj2 (Forall_map fst (Forall letter) s)). exact L.
      - rewrite <- (map_map fst foldName s'). rewrite <- (map_map fst foldName s) in D. refine (eq_ind_r (fun x => NoDup (map foldName x)) D E). }
    split.
    + intros H. destruct (setField s k j) as [s'|] eqn:V; [|discriminate H]. apply setField_iff in V; [|exact D]. exists s'. split; [exact V|]. apply IH'; assumption.
    + intros (s' & H1 & H2). pose proof (proj2 (setField_iff k j s s' D) H1) as ->. apply IH'; assumption.
Qed.
Lemma json_sound : (forall t v, jsonText loose t v -> sound v) /\ (forall t l, jsonElems loose t l -> Forall (fun v => exists t, jsonText loose t v) l) /\
  (forall t l, jsonMembers loose t l -> Forall (fun m => sound (snd m)) l).
Proof.
  apply (json_mut loose (fun _ v => sound v) (fun _ l => Forall (fun v => exists t, jsonText loose t v) l) (fun _ l => Forall (fun m => sound (snd m)) l)); intros; try exact I.
  - match goal with N : numText ?t |- _ => destruct (jtext_head t (JNum t) (@jt_num loose t N)) as (c & r & -> & _) end. discriminate.
  - repeat constructor. eexists. eassumption.
  - constructor; [eexists; eassumption|assumption].
  - repeat constructor. assumption.
  - constructor; assumption.
Qed.
Lemma makes_iff t v zero fields : jsonText loose t v -> Forall (fun f => Forall letter (fst f)) zero -> NoDup (map (fun f => foldName (fst f)) zero) ->
  (structOf zero v = Some fields <-> makes v zero fields).
Proof.
  intros J L D. unfold makes. destruct v as [| | | | |l]; cbn [structOf];
    try (split; [intros E; discriminate E|intros [[E _]|(l0 & E & _)]; discriminate E]).
  - split; [intros E; left; split; [reflexivity|congruence]|]. intros [[_ ->]|(l0 & E & _)]; [reflexivity|discriminate E].
  - assert (S : Forall (fun m => sound (snd m)) l).
    { remember (JObj l) as v eqn:E. destruct J as [| | | | | | |w W|t l0 M]; try discriminate E.
      - assert (l = []) as -> by congruence. constructor.
      - assert (l = l0) as -> by congruence. exact (proj2 (proj2 json_sound) _ _ M). }
    rewrite (setFields_iff l zero fields S L D). split.
    + intros F. right. exists l. split; [reflexivity|exact F].
    + intros [[E _]|(l0 & E & F)]; [discriminate E|]. assert (l = l0) as -> by congruence. exact F.
Qed.
Lemma makes_names v zero fields : makes v zero fields -> map fst fields = map fst zero.
Proof.
  intros [[_ ->]|(l & _ & F)]; [reflexivity|]. induction F as [|z f zero fields [E _] F IH]; [reflexivity|]. cbn [map]. rewrite E, IH. reflexivity.
Qed.
Lemma structState_iff st s : map fst st = map fst (stateFields blankState) -> (structState st = Some s <-> st = stateFields s).
Proof.
  intros E. split.
  - intros H. destruct st as [|[n1 v1] [|[n2 v2] [|[n3 v3] [|[n4 v4] [|[n5 v5] [|[n6 v6] [|[n7 v7] [|[n8 v8] [|]]]]]]]]]; try discriminate E.
    cbn [map fst stateFields] in E. unfold structState in H. destruct v1; try discriminate H. destruct v2; try discriminate H. destruct v3; try discriminate H. destruct v4; try discriminate H.
    destruct v5; try discriminate H. destruct v6; try discriminate H. destruct v7; try discriminate H. destruct v8; try discriminate H.
    injection H as <-. injection E as -> -> -> -> -> -> -> ->. reflexivity.
  - intros ->. destruct s. reflexivity.
Qed.
Lemma structIssuer_iff st e : map fst st = map fst (issuerFields blankIssuer) -> (structIssuer st = Some e <-> st = issuerFields e).
Proof.
  intros E. split.
  - intros H. destruct st as [|[n1 v1] [|[n2 v2] [|[n3 v3] [|[n4 v4] [|[n5 v5] [|]]]]]]; try discriminate E.
    cbn [map fst issuerFields] in E. unfold structIssuer in H. destruct v1; try discriminate H. destruct v2; try discriminate H. destruct v3; try discriminate H. destruct v4; try discriminate H.
    destruct v5; try discriminate H. injection H as <-. injection E as -> -> -> -> ->. reflexivity.
  - intros ->. destruct e. reflexivity.
Qed.
Lemma first_iff x v r : firstValue x = Some (v, r) -> exists w t, ws w /\ jsonText loose t v /\ x = w ++ t ++ r.
Proof.
  unfold firstValue. intros E. destruct (skipWs_split x) as (w & W & Ex). apply (proj1 (parse_sound _)) in E. destruct E as (t & Et & J).
  exists w, t. split; [exact W|]. split; [exact J|]. rewrite Ex at 1. rewrite Et. reflexivity.
Qed.
Lemma whole_iff x v : wholeValue x = Some v <-> looseText x v.
Proof.
  unfold wholeValue. split.
  - destruct (firstValue x) as [[v0 r]|] eqn:E; [|discriminate]. apply first_iff in E. destruct E as (w & t & W & J & ->). intros H.
    destruct (skipWs_split r) as (w' & W' & Er). destruct (skipWs r); [|discriminate H]. rewrite app_nil_r in Er. subst r. assert (v0 = v) as -> by congruence.
    exists w, t, w'. auto.
  - intros (w & t & w' & W & W' & J & ->). unfold firstValue. rewrite (skipWs_value (C:=loose) w t v) by assumption.
    rewrite (proj1 parse_loose t v J); [|rewrite !app_length; lia|intros ? _; apply ws_follow; exact W']. rewrite <- (app_nil_r w'), skipWs_ws by exact W'. reflexivity.
Qed.

(** A text is read as a state if and only if it is JSON for null, or for an object that makes the
    fields of that state. *)
Theorem C77_accepts_state : forall x s,
  unmarshalState x = Some s <-> exists v, looseText x v /\ makes v (stateFields blankState) (stateFields s).
Proof.
  intros x s. unfold unmarshalState. destruct (state_names blankState) as [L D]. split.
  - intros H. destruct (wholeValue x) as [v|] eqn:E; [|discriminate H]. apply whole_iff in E. exists v. split; [exact E|]. destruct E as (w & t & w' & _ & _ & J & _).
    change (stateStruct zeroState) with (stateFields blankState) in H. destruct (structOf (stateFields blankState) v) as [st|] eqn:St; [|discriminate H].
    apply (makes_iff t v _ st J L D) in St. apply structState_iff in H; [|exact (makes_names _ _ _ St)]. subst st. exact St.
  - intros (v & T & M). pose proof (proj2 (whole_iff x v) T) as ->. destruct T as (w & t & w' & _ & _ & J & _).
    change (stateStruct zeroState) with (stateFields blankState). apply (makes_iff t v _ _ J L D) in M. rewrite M. apply structState_iff; [|reflexivity]. destruct s. reflexivity.
Qed.
Lemma structs_iff {A} (fieldsOf : A -> list (bytes * fval)) conv zero vs (l : list A) :
  (forall st a, map fst st = map fst zero -> (conv st = Some a <-> st = fieldsOf a)) ->
  (forall a, map fst (fieldsOf a) = map fst zero) ->
  Forall (fun f => Forall letter (fst f)) zero -> NoDup (map (fun f => foldName (fst f)) zero) -> Forall (fun v => exists t, jsonText loose t v) vs ->
  (match structsOf zero vs with Some sts => optMap conv sts | None => None end = Some l <-> Forall2 (fun v a => makes v zero (fieldsOf a)) vs l).
Proof.
  intros Cv Nm L D Js. revert l. induction Js as [|v vs (t & J) Js IH]; intros l; cbn [structsOf].
  - split; [intros E; assert (l = []) as -> by (cbn in E; congruence); constructor|intros H; inversion H; reflexivity].
  - split.
    + intros E. destruct (structOf zero v) as [st|] eqn:St; [|discriminate E]. destruct (structsOf zero vs) as [sts|]; [|discriminate E].
      change (match conv st, optMap conv sts with Some y, Some r => Some (y :: r) | _, _ => None end = Some l) in E.
      destruct (conv st) as [a|] eqn:Ca; [|discriminate E]. destruct (optMap conv sts) as [l'|] eqn:Ol; [|discriminate E]. assert (l = a :: l') as -> by congruence.
      apply (makes_iff t v zero st J L D) in St. apply Cv in Ca; [|exact (makes_names _ _ _ St)]. subst st. constructor; [exact St|]. apply IH. reflexivity.
    + intros H. inversion H as [|? a ? l' M H']; subst. pose proof (proj2 (makes_iff t v zero _ J L D) M) as ->. apply IH in H'.
      destruct (structsOf zero vs) as [sts|]; [|discriminate H']. change (match conv (fieldsOf a), optMap conv sts with Some y, Some r => Some (y :: r) | _, _ => None end = Some (a :: l')).
      rewrite (proj2 (Cv (fieldsOf a) a (Nm a)) eq_refl), H'. reflexivity.
Qed.
(** The value of an array makes these, one by one; null makes none. *)
Definition makesAll {A} (fieldsOf : A -> list (bytes * fval)) (blank : A) (v : json) (l : list A) : Prop :=
  (v = JNull /\ l = []) \/ exists vs, v = JArr vs /\ Forall2 (fun v a => makes v (fieldsOf blank) (fieldsOf a)) vs l.
Lemma list_iff {A} (fieldsOf : A -> list (bytes * fval)) conv blank t v (l : list A) :
  (forall st a, map fst st = map fst (fieldsOf blank) -> (conv st = Some a <-> st = fieldsOf a)) ->
  (forall a, map fst (fieldsOf a) = map fst (fieldsOf blank)) ->
  Forall (fun f => Forall letter (fst f)) (fieldsOf blank) -> NoDup (map (fun f => foldName (fst f)) (fieldsOf blank)) -> jsonText loose t v ->
  (match listOf (fieldsOf blank) v with Some sts => optMap conv sts | None => None end = Some l <-> makesAll fieldsOf blank v l).
Proof.
  intros Cv Nm L D J. unfold makesAll. destruct v as [| | | |vs|]; cbn [listOf];
    try (split; [intros E; discriminate E|intros [[E _]|(vs & E & _)]; discriminate E]).
  - split; [intros E; left; split; [reflexivity|cbn in E; congruence]|]. intros [[_ ->]|(vs & E & _)]; [reflexivity|discriminate E].
  - assert (Js : Forall (fun v => exists t, jsonText loose t v) vs).
    { remember (JArr vs) as v eqn:E. destruct J as [| | | | |w W|t l0 M| |]; try discriminate E.
      - assert (vs = []) as -> by congruence. constructor.
      - assert (vs = l0) as -> by congruence. exact (proj1 (proj2 json_sound) _ _ M). }
    rewrite (structs_iff fieldsOf conv (fieldsOf blank) vs l Cv Nm L D Js). split.
    + intros F. right. exists vs. split; [reflexivity|exact F].
    + intros [[E _]|(vs0 & E & F)]; [discriminate E|]. assert (vs = vs0) as -> by congruence. exact F.
Qed.
(** The same for the lists; a list of states may be followed by anything. *)
Theorem C77_accepts_states : forall x l,
  decodeStates x = Some l <-> exists w t r v, ws w /\ x = w ++ t ++ r /\ jsonText loose t v /\ makesAll stateFields blankState v l.
Proof.
  intros x l. unfold decodeStates. change (stateStruct zeroState) with (stateFields blankState). destruct (state_names blankState) as [L D].
  assert (Nm : forall a, map fst (stateFields a) = map fst (stateFields blankState)) by reflexivity. split.
  - intros H. destruct (firstValue x) as [[v r]|] eqn:E; [|discriminate H]. apply first_iff in E. destruct E as (w & t & W & J & ->).
    exists w, t, r, v. split; [exact W|]. split; [reflexivity|]. split; [exact J|]. apply (list_iff stateFields structState blankState t v l structState_iff Nm L D J). exact H.
  - intros (w & t & r & v & W & -> & J & M). unfold firstValue. rewrite (skipWs_value (C:=loose) w t v) by assumption.
    rewrite (proj1 parse_loose t v J); [|rewrite !app_length; lia|].
    + apply (list_iff stateFields structState blankState t v l structState_iff Nm L D J). exact M.
    + intros n E. destruct M as [[M _]|(vs & M & _)]; rewrite M in E; discriminate E.
Qed.
Theorem C77_accepts_issuers : forall x l,
  decodeIssuers x = Some l <-> exists v, looseText x v /\ makesAll issuerFields blankIssuer v l.
Proof.
  intros x l. unfold decodeIssuers. change (issuerStruct (mkIssuer [] [] [] [] false)) with (issuerFields blankIssuer). destruct (issuer_names blankIssuer) as [L D].
  assert (Nm : forall a, map fst (issuerFields a) = map fst (issuerFields blankIssuer)) by reflexivity. split.
  - intros H. destruct (wholeValue x) as [v|] eqn:E; [|discriminate H]. apply whole_iff in E. exists v. split; [exact E|]. destruct E as (w & t & w' & _ & _ & J & _).
    apply (list_iff issuerFields structIssuer blankIssuer t v l structIssuer_iff Nm L D J). exact H.
  - intros (v & T & M). pose proof (proj2 (whole_iff x v) T) as ->. destruct T as (w & t & w' & _ & _ & J & _).
    apply (list_iff issuerFields structIssuer blankIssuer t v l structIssuer_iff Nm L D J). exact M.
Qed.

(** ** Writing *)
(** What is written of a value: strings are repaired. *)
Definition mended (v v' : fval) : Prop :=
  match v, v' with FStr s, FStr s' => repaired s s' | _, _ => v' = v end.
Definition writableField (v : fval) : Prop :=
  match v with
  | FUint n => u64 n
  | FTime t z => (0 <= localYear t z <= 9999)%Z /\ (-1440 < z < 1440)%Z
  | _ => True
  end.
Lemma quoted_text s : exists raw s', quoted s = x22 :: raw ++ [x22] /\ repaired s s' /\ chars raw s'.
Proof. destruct (escapes_chars (length s) s (le_n _)) as (s' & R & C). exists (escapes (length s) s), s'. split; [reflexivity|split; assumption]. Qed.
Lemma letters_valid n : Forall letter n -> validUtf8 n.
Proof.
  induction 1 as [|c n L F (cs & Fc & E)]; [exists []; split; [constructor|reflexivity]|]. exists (Byte.to_N c :: cs). unfold letter in L.
  split; [constructor; [left; lia|exact Fc]|]. cbn [flat_map]. rewrite utf8_ascii by lia. rewrite byteOf_to_N, <- E. reflexivity.
Qed.
Lemma num_decText n : numText (decText n) /\ digits (decText n) /\ valueOf (decText n) = n.
Proof.
  destruct (decText_spec n) as (D & V & Ne & Sh). assert (Dg : digits (decText n)) by (split; assumption). split; [|split; assumption].
  exists [], (decText n), [], []. split; [cbn [app]; rewrite app_nil_r; reflexivity|]. split; [left; reflexivity|]. split; [|split; left; reflexivity].
  destruct (decText n) as [|c d] eqn:E; [contradiction Ne; reflexivity|]. destruct (byte_eq_dec c x30) as [->|Nc]; [|right; split; [exact Dg|cbn [hd_error]; congruence]].
  destruct d as [|c d]; [left; reflexivity|]. exfalso. cbn [forallb] in D. change (isDigit x30) with true in D. cbn [andb] in D.
  assert (Vd : valueOf (c :: d) = n) by (rewrite <- V; reflexivity).
  specialize (Sh (length (c :: d)) ltac:(cbn; lia)). rewrite <- Vd in Sh at 1. specialize (Sh (valueOf_lt (c :: d) D)). cbn [length] in Sh. lia.
Qed.

Lemma field_written v : writableField v -> exists x j v', fieldText v = Some x /\ jtext x j /\ mended v v' /\ fits v' j.
Proof.
  destruct v as [s|n|b|t z]; cbn [writableField fieldText]; intros W.
  - destruct (quoted_text s) as (raw & s' & -> & R & C). exists (x22 :: raw ++ [x22]), (JStr raw s'), (FStr s').
    split; [reflexivity|]. split; [apply jt_str; exact C|]. split; [exact R|]. exists raw. reflexivity.
  - destruct (num_decText n) as (Nu & Dg & V). exists (decText n), (JNum (decText n)), (FUint n). split; [reflexivity|]. split; [apply jt_num; exact Nu|]. split; [reflexivity|].
    exists (decText n). split; [reflexivity|]. split; [exact Dg|]. split; [exact V|exact W].
  - exists (if b then B "true" else B "false"), (JBool b), (FBool b). split; [reflexivity|]. split; [destruct b; constructor|]. split; reflexivity.
  - destruct W as [Y Zr]. destruct (time_written t z Y Zr) as (x & -> & R). exists ([x22] ++ x ++ [x22]), (JStr x x), (FTime t z). split; [reflexivity|].
    split; [apply jt_str; apply (time_chars x t z R)|]. split; [reflexivity|]. exists x, x. split; [reflexivity|exact R].
Qed.
(** One member *)
Definition member (m : bytes * json) (f f' : bytes * fval) : Prop :=
  fst m = fst f /\ fst f' = fst f /\ mended (snd f) (snd f') /\ fits (snd f') (snd m).
Inductive Forall3 {A C D} (R : A -> C -> D -> Prop) : list A -> list C -> list D -> Prop :=
| F3_nil : Forall3 R [] [] []
| F3_cons a c d la lc ld : R a c d -> Forall3 R la lc ld -> Forall3 R (a :: la) (c :: lc) (d :: ld).
Lemma ws_nil : ws []. Proof. constructor. Qed.
Lemma fieldTexts_comma s : forall x, s <> [] -> fieldTexts true s = Some x -> fieldTexts false s = Some (x2c :: x).
Proof.
  intros x Ne E. destruct s as [|[n v] s]; [contradiction Ne; reflexivity|]. cbn [fieldTexts] in *. destruct (fieldText v); [|discriminate E].
  destruct (fieldTexts false s); [|discriminate E]. cbn [app] in E. assert (X : quoted n ++ B ":" ++ b ++ b0 = x) by congruence. rewrite <- X. reflexivity.
Qed.
Lemma fields_written fields : fields <> [] -> Forall (fun f => Forall letter (fst f) /\ writableField (snd f)) fields ->
  exists x l fields', fieldTexts true fields = Some x /\ jmembers x l /\ Forall3 member l fields fields'.
Proof.
  induction fields as [|[n v] s IH]; intros Ne F; [contradiction Ne; reflexivity|]. inversion F as [|? ? [L W] F']; subst. cbn [fst snd] in *.
  destruct (field_written v W) as (x & j & v' & Ex & J & M & Fi). destruct (quoted_text n) as (raw & n' & En & R & C).
  assert (n' = n) by (apply (repaired_valid n n'); [apply letters_valid; exact L|exact R]). subst n'.
  assert (Mb : member (n, j) (n, v) (n, v')) by (split; [reflexivity|split; [reflexivity|split; assumption]]).
  destruct s as [|f s].
  - exists (quoted n ++ B ":" ++ x ++ []), [(n, j)], [(n, v')]. split; [cbn [fieldTexts]; rewrite Ex; reflexivity|]. split; [|repeat constructor; apply Mb].
    rewrite En. pose proof (jm_one [] raw n [] [] x [] j ws_nil ws_nil ws_nil ws_nil C J) as Q. cbn [app] in Q |- *. rewrite <- app_assoc. exact Q.
  - destruct (IH ltac:(discriminate) F') as (y & l & fs & Ey & Jm & F3).
    exists (quoted n ++ B ":" ++ x ++ x2c :: y), ((n, j) :: l), ((n, v') :: fs). split; [|split; [|constructor; assumption]].
    + cbn [fieldTexts]. rewrite Ex. pose proof (fieldTexts_comma (f :: s) y ltac:(discriminate) Ey) as E2. cbn [fieldTexts] in E2. rewrite E2. reflexivity.
    + rewrite En. pose proof (jm_more [] raw n [] [] x [] j y l ws_nil ws_nil ws_nil ws_nil C J Jm) as Q. cbn [app] in Q |- *. rewrite <- app_assoc. exact Q.
Qed.
Lemma struct_written fields : fields <> [] -> Forall (fun f => Forall letter (fst f) /\ writableField (snd f)) fields ->
  exists x l fields', structText fields = Some x /\ jtext x (JObj l) /\ Forall3 member l fields fields'.
Proof.
  intros Ne F. destruct (fields_written fields Ne F) as (x & l & fs & E & J & F3). exists (x7b :: x ++ [x7d]), l, fs.
  split; [unfold structText; rewrite E; reflexivity|]. split; [apply jt_obj; exact J|exact F3].
Qed.
(** What is written gives the mended fields. *)
Lemma alike_refl n : alike n n.
Proof. induction n; constructor; assumption. Qed.
Lemma written_gives l fields fields' : Forall3 member l fields fields' -> Forall (fun f => Forall letter (fst f)) fields -> NoDup (map (fun f => foldName (fst f)) fields) ->
  gives l fields'.
Proof.
  intros F3 L D. unfold gives.
  cut (forall pre : list (bytes * json), (forall m f, In m pre -> In f fields -> ~ alike (fst m) (fst f)) -> Forall (fun f => exists j, only (fst f) (pre ++ l) j /\ fits (snd f) j) fields').
  { intros H. apply (H []). intros m f []. }
  induction F3 as [|m f f' l fields fields' (E1 & E2 & M & Fi) F3 IH]; intros pre Np; constructor.
  - destruct m as [k j]. cbn [fst snd] in *. exists j. split; [|exact Fi]. exists pre, k, l. split; [reflexivity|]. rewrite E2, <- E1. split; [apply alike_refl|].
    apply Forall_app. split.
    + apply Forall_forall. intros m I. rewrite E1. apply Np; [exact I|left; reflexivity].
    + inversion L as [|? ? L1 L2]; subst. cbn [map] in D. inversion D as [|? ? D1 D2]; subst. clear -F3 D1 L1. intros.
      assert (X : Forall (fun m => In (foldName (fst m)) (map (fun f => foldName (fst f)) fields)) l).
      { clear D1 L1. induction F3 as [|m g g' l fields fields' (E & _) F3 IH]; constructor; [left; rewrite E; reflexivity|].
        eapply Forall_impl; [|exact IH]. cbn. intros a Ia. right. exact Ia. }
      eapply Forall_impl; [|exact X]. cbn. intros m Im Am. apply D1. rewrite <- (alike_fold _ _ Am L1). exact Im.
  - inversion L as [|? ? L1 L2]; subst. cbn [map] in D. inversion D as [|? ? D1 D2]; subst.
    replace (pre ++ m :: l) with ((pre ++ [m]) ++ l) by (rewrite <- app_assoc; reflexivity). apply (IH L2 D2).
    intros m0 f0 I0 If A. apply in_app_or in I0. destruct I0 as [I0|[<-|[]]]; [apply (Np m0 f0 I0); [right; exact If|exact A]|].
    apply D1. apply in_map_iff. exists f0. split; [|exact If]. rewrite Forall_forall in L2. rewrite <- (alike_fold _ _ A (L2 f0 If)), E1. reflexivity.
Qed.

(** The fields that are written are those of a state, or of an issuer. *)
Lemma member_str m n s f' : member m (n, FStr s) f' -> exists s', f' = (n, FStr s') /\ repaired s s' /\ fst m = n.
Proof. intros (E & E2 & M & _). destruct f' as [n' v']. cbn [fst snd] in *. subst n'. destruct v'; cbn [mended] in M; try discriminate M. eexists. split; [reflexivity|]. split; assumption. Qed.
Lemma member_other m n v f' : (forall s, v <> FStr s) -> member m (n, v) f' -> f' = (n, v) /\ fst m = n.
Proof.
  intros Nv (E & E2 & M & _). destruct f' as [n' v']. cbn [fst snd] in *. subst n'. split; [|exact E]. f_equal.
  destruct v; cbn [mended] in M; [destruct (Nv s eq_refl)|exact M|exact M|exact M].
Qed.
Lemma F3_app {A C D} (R : A -> C -> D -> Prop) la c lc ld : Forall3 R la (c :: lc) ld -> exists a d la' ld', la = a :: la' /\ ld = d :: ld' /\ R a c d /\ Forall3 R la' lc ld'.
Proof. intros F. inversion F; subst. eexists; eexists; eexists; eexists. split; [reflexivity|]. split; [reflexivity|]. split; assumption. Qed.
Lemma F3_end {A C D} (R : A -> C -> D -> Prop) la ld : Forall3 R la [] ld -> la = [] /\ ld = [].
Proof. intros F. inversion F. split; reflexivity. Qed.

Ltac fieldStep F := let m := fresh "m" in let M := fresh "M" in let F' := fresh "F" in
  apply F3_app in F; destruct F as (m & ? & ? & ? & -> & -> & M & F');
  (apply member_str in M; destruct M as (? & -> & ? & ?)) || (apply member_other in M; [|intros ? Habs; discriminate Habs]; destruct M as [-> ?]); rename F' into F.
Lemma state_fields l s fs : Forall3 member l (stateFields s) fs -> exists s', fs = stateFields s' /\ sameState s s' /\ map fst l = map fst (stateFields s).
Proof.
  unfold stateFields at 1. intros F. do 8 fieldStep F. apply F3_end in F. destruct F as [-> ->].
  match goal with H1 : repaired (s_logID s) ?a, H2 : repaired (s_url s) ?b |- _ =>
    exists (mkState a (s_mmd s) b (s_minEntry s) (s_maxEntry s) (s_minTs s) (s_maxTs s) (s_time s) (s_zone s)) end.
  split; [reflexivity|]. split; [unfold sameState; cbn; tauto|]. cbn [map].
  repeat match goal with H : fst _ = _ |- _ => rewrite H; clear H end. reflexivity.
Qed.
Lemma issuer_fields l e fs : Forall3 member l (issuerFields e) fs -> exists e', fs = issuerFields e' /\ sameIssuer e e' /\ map fst l = map fst (issuerFields e).
Proof.
  unfold issuerFields at 1. intros F. do 5 fieldStep F. apply F3_end in F. destruct F as [-> ->].
  match goal with H1 : repaired (i_unique e) ?a, H2 : repaired (i_key e) ?b, H3 : repaired (i_subject e) ?c, H4 : repaired (i_pem e) ?d |- _ =>
    exists (mkIssuer a b c d (i_part e)) end.
  split; [reflexivity|]. split; [unfold sameIssuer; cbn; tauto|]. cbn [map].
  repeat match goal with H : fst _ = _ |- _ => rewrite H; clear H end. reflexivity.
Qed.
Lemma state_written s : writable s -> exists x l s', marshalState s = Some x /\ jtext x (JObj l) /\
  map fst l = map fst (stateFields s) /\ gives l (stateFields s') /\ sameState s s'.
Proof.
  intros (W1 & W2 & W3 & W4 & W5 & W6 & W7). destruct (state_names s) as [L D].
  destruct (struct_written (stateFields s)) as (x & l & fs & E & J & F3); [discriminate| |].
  { unfold stateFields in *. repeat match goal with H : Forall _ (_ :: _) |- _ => inversion H; clear H; subst end.
    repeat (constructor; [split; [assumption|cbn [snd writableField]; tauto]|]). constructor. }
  pose proof (written_gives l _ fs F3 L D) as G. destruct (state_fields l s fs F3) as (s' & -> & S & K).
  exists x, l, s'. split; [exact E|]. split; [exact J|]. split; [exact K|]. split; [exact G|exact S].
Qed.
Lemma issuer_written e : exists x l e', structText (issuerStruct e) = Some x /\ jtext x (JObj l) /\
  map fst l = map fst (issuerFields e) /\ gives l (issuerFields e') /\ sameIssuer e e'.
Proof.
  destruct (issuer_names e) as [L D]. destruct (struct_written (issuerFields e)) as (x & l & fs & E & J & F3); [discriminate| |].
  { unfold issuerFields in *. repeat match goal with H : Forall _ (_ :: _) |- _ => inversion H; clear H; subst end.
    repeat (constructor; [split; [assumption|exact I]|]). constructor. }
  pose proof (written_gives l _ fs F3 L D) as G. destruct (issuer_fields l e fs F3) as (e' & -> & S & K).
  exists x, l, e'. split; [exact E|]. split; [exact J|]. split; [exact K|]. split; [exact G|exact S].
Qed.
(** Lists: the text of an array and the end of a line *)
Definition endedText (x : bytes) (v : json) : Prop := exists t, jtext t v /\ x = t ++ [x0a].
Lemma ended_text x v : endedText x v -> textOf x v.
Proof. intros (t & J & ->). exists [], t, [x0a]. split; [constructor|]. split; [repeat constructor; cbn; tauto|]. split; [exact J|reflexivity]. Qed.
Lemma list_written {A} (st : A -> struct) (ok : A -> Prop) (P : json -> A -> A -> Prop) l :
  (forall a, ok a -> exists x v a', structText (st a) = Some x /\ jtext x v /\ P v a a') -> Forall ok l ->
  exists x vs l', listText (map st l) = Some x /\ endedText x (JArr vs) /\ Forall3 P vs l l'.
Proof.
  intros H F. unfold listText.
  assert (G : l <> [] -> exists x vs l', structTexts true (map st l) = Some x /\ structTexts false (map st l) = Some (x2c :: x) /\ jelems x vs /\ Forall3 P vs l l').
  { induction F as [|a l Oa F IH]; intros Ne; [contradiction Ne; reflexivity|]. destruct (H a Oa) as (x & v & a' & E & J & Pv). destruct l as [|b l].
    - exists x, [v], [a']. cbn [map structTexts]. rewrite E. cbn [app]. rewrite app_nil_r. split; [reflexivity|]. split; [reflexivity|]. split; [|repeat constructor; exact Pv].
      pose proof (je_one [] x [] v ws_nil ws_nil J) as Q. cbn [app] in Q. rewrite app_nil_r in Q. exact Q.
    - destruct (IH ltac:(discriminate)) as (y & vs & l' & E1 & E2 & Je & F3). exists (x ++ x2c :: y), (v :: vs), (a' :: l').
      change (map st (a :: b :: l)) with (st a :: map st (b :: l)). cbn [structTexts]. rewrite E. rewrite E2. cbn [app].
      split; [reflexivity|]. split; [reflexivity|]. split; [|constructor; assumption]. exact (je_more [] x [] v y vs ws_nil ws_nil J Je). }
  destruct l as [|a l].
  - exists (B "[]" ++ [x0a]), [], []. split; [reflexivity|]. split; [|constructor]. exists (B "[]"). split; [exact (jt_arr0 [] ws_nil)|reflexivity].
  - destruct (G ltac:(discriminate)) as (x & vs & l' & E & _ & J & F3). rewrite E. exists (B "[" ++ x ++ B "]" ++ [x0a]), vs, l'. split; [reflexivity|]. split; [|exact F3].
    exists (x5b :: x ++ [x5d]). split; [apply jt_arr; exact J|]. cbn [app]. rewrite <- app_assoc. reflexivity.
Qed.

(** ** What is written *)

(** A state is written as a JSON object with its fields and nothing else, in this order. *)
Theorem C77_writes_state : forall s, writable s -> exists x l s', marshalState s = Some x /\ textOf x (JObj l) /\
  map fst l = [B "LogID"; B "MMD"; B "ShortURL"; B "MinEntry"; B "MaxEntry"; B "MinTimestamp"; B "MaxTimestamp"; B "LastUpdateTime"] /\
  gives l (stateFields s') /\ sameState s s'.
Proof.
  intros s W. destruct (state_written s W) as (x & l & s' & E & J & K & G & S). exists x, l, s'. split; [exact E|]. split; [|split; [exact K|split; assumption]].
  exists [], x, []. split; [constructor|]. split; [constructor|]. split; [exact J|]. cbn [app]. rewrite app_nil_r. reflexivity.
Qed.
(** A time whose year has not four digits, or a zone a day or more away, is refused. *)
Theorem C77_refuses : forall s, ~ ((0 <= localYear (s_time s) (s_zone s) <= 9999)%Z /\ (-1440 < s_zone s < 1440)%Z) -> marshalState s = None.
Proof.
  intros s N. unfold marshalState, structText, stateStruct. cbn [fieldTexts]. 
  assert (E : fieldText (FTime (s_time s) (s_zone s)) = None).
  { cbn [fieldText]. unfold timeText, localYear in *. destruct (civilOfDays _) as [[y m] d]. cbn [fst] in N.
    destruct (Z.ltb_spec y 0); [reflexivity|]. destruct (Z.ltb_spec 9999 y); [reflexivity|].
    destruct (Z.leb_spec (s_zone s) (-1440)); [reflexivity|]. destruct (Z.leb_spec 1440 (s_zone s)); [reflexivity|]. lia. }
  rewrite E. repeat (destruct (fieldText _); [|reflexivity]). reflexivity.
Qed.

(** ** Cut short *)
(** Of the text of an object or array no beginning that lacks some of it can be read, by either
    reader: a file or cache entry that was not written to its end is refused. *)
Lemma cut_short x v w t w' p q : ws w -> ws w' -> jtext t v -> x = w ++ t ++ w' -> (exists l, v = JObj l) \/ (exists l, v = JArr l) ->
  x = p ++ q -> (length w' < length q)%nat -> firstValue p = None.
Proof.
  intros W W' J Ex V Ep Lq. destruct (firstValue p) as [[u r]|] eqn:F; [exfalso|reflexivity]. unfold firstValue in F.
  destruct (skipWs p) as [|c p'] eqn:S; [destruct (2 * length p + 1)%nat; discriminate F|].
  assert (S2 : t ++ w' = (c :: p') ++ q).
  { pose proof (skipWs_more _ _ _ q S) as E. rewrite <- Ep, Ex, (skipWs_value w t v w' W J) in E. exact E. }
  assert (Hc : exists t', t = c :: t' /\ (Byte.to_N c = 123 \/ Byte.to_N c = 91)).
  { assert (H : exists d t', t = d :: t' /\ (Byte.to_N d = 123 \/ Byte.to_N d = 91)).
    { destruct V as [[l ->]|[l ->]]; inversion J; subst; eexists; eexists; (split; [reflexivity|]); [left|left|right|right]; reflexivity. }
    destruct H as (d & t' & -> & H). exists t'. cbn [app] in S2. assert (d = c) by congruence. subst d. split; [reflexivity|exact H]. }
  destruct Hc as (t' & -> & Hc).
  assert (N : notNum u).
  { destruct (2 * length p + 1)%nat as [|f]; [discriminate F|]. cbn [value] in F. cbv zeta in F. destruct Hc as [Hc|Hc]; rewrite Hc in F.
    - change (123 =? 123) with true in F. cbv iota in F. destruct (skipWs p') as [|d r1]; [discriminate F|]. destruct (Byte.to_N d =? 125); [injection F as <- _; exact I|].
      destruct (members f p') as [[l r2]|]; [|discriminate F]. injection F as <- _. exact I.
    - change (91 =? 123) with false in F. change (91 =? 91) with true in F. cbv iota in F. destruct (skipWs p') as [|d r1]; [discriminate F|]. destruct (Byte.to_N d =? 93); [injection F as <- _; exact I|].
      destruct (elems f p') as [[l r2]|]; [|discriminate F]. injection F as <- _. exact I. }
  pose proof (proj1 (parse_more _) _ _ _ q F (or_introl N)) as F2. rewrite <- S2 in F2.
  set (g := (2 * length p + 1 + 2 * length (c :: t'))%nat).
  assert (Lg : (2 * length p + 1 <= g)%nat) by (unfold g; lia).
  pose proof (proj1 (parse_fuel _) g _ _ Lg F2) as A.
  assert (C : value g ((c :: t') ++ w') = Some (v, w')) by (apply (proj1 parse_complete); [exact J|unfold g; lia|intros ? _; apply ws_follow; exact W']).
  assert (E : r ++ q = w') by congruence. apply (f_equal (@length byte)) in E. rewrite app_length in E. unfold bytes in *. lia.
Qed.
Lemma ws_newline : ws [x0a]. Proof. constructor; [right; right; left; reflexivity|constructor]. Qed.
(** A state or list that was not written to its end is refused; the end of the line is not needed. *)
Theorem C77_cut_short :
  (forall s x p q, writable s -> marshalState s = Some x -> x = p ++ q -> q <> [] -> unmarshalState p = None) /\
  (forall l x p q, Forall writable l -> encodeStates l = Some x -> x = p ++ q -> (1 < length q)%nat -> decodeStates p = None) /\
  (forall l x p q, encodeIssuers l = Some x -> x = p ++ q -> (1 < length q)%nat -> decodeIssuers p = None).
Proof.
  split; [|split].
  - intros s x p q W E Ex Q. destruct (state_written s W) as (x' & l & s' & E' & J & _). assert (x' = x) by congruence. subst x'.
    unfold unmarshalState, wholeValue. rewrite (cut_short x (JObj l) [] x [] p q); try reflexivity; try exact Ex; [constructor|constructor|exact J|symmetry; apply app_nil_r|left; exists l; reflexivity|].
    destruct q; [congruence|cbn; lia].
  - intros l x p q W E Ex Q. destruct (list_written stateStruct writable (fun _ _ _ => True) l) as (x' & vs & l' & E' & (t & J & Et) & _).
    { intros s Ws. destruct (state_written s Ws) as (y & m & s' & E1 & J & _). exists y, (JObj m), s'. auto. }
    { exact W. }
    unfold encodeStates in E. assert (Hx : x = [] ++ t ++ [x0a]) by (cbn [app]; congruence). unfold decodeStates.
    rewrite (cut_short x (JArr vs) [] t [x0a] p q ws_nil ws_newline J Hx (or_intror (ex_intro _ vs eq_refl)) Ex Q). reflexivity.
  - intros l x p q E Ex Q. destruct (list_written issuerStruct (fun _ => True) (fun _ _ _ => True) l) as (x' & vs & l' & E' & (t & J & Et) & _).
    { intros e _. destruct (issuer_written e) as (y & m & s' & E1 & J & _). exists y, (JObj m), s'. auto. }
    { apply Forall_forall. intros; exact I. }
    unfold encodeIssuers in E. assert (Hx : x = [] ++ t ++ [x0a]) by (cbn [app]; congruence). unfold decodeIssuers, wholeValue.
    rewrite (cut_short x (JArr vs) [] t [x0a] p q ws_nil ws_newline J Hx (or_intror (ex_intro _ vs eq_refl)) Ex Q). reflexivity.
Qed.

(** ** There and back *)
Theorem C77_state : forall s, writable s -> exists x s', marshalState s = Some x /\ unmarshalState x = Some s' /\ sameState s s'.
Proof.
  intros s W. destruct (C77_writes_state s W) as (x & l & s' & E & T & _ & G & S). exists x, s'. split; [exact E|]. split; [|exact S]. apply (C77_reads_state x l s' T G).
Qed.
Lemma Forall3_impl2 {A C D} (R : A -> C -> D -> Prop) (Q1 : A -> D -> Prop) (Q2 : C -> D -> Prop) la lc ld :
  (forall a c d, R a c d -> Q1 a d /\ Q2 c d) -> Forall3 R la lc ld -> Forall2 Q1 la ld /\ Forall2 Q2 lc ld.
Proof. intros H. induction 1 as [|a c d la lc ld HR F [I1 I2]]; [split; constructor|]. destruct (H a c d HR). split; constructor; assumption. Qed.
Theorem C77_states : forall l, Forall writable l -> exists x l', encodeStates l = Some x /\ decodeStates x = Some l' /\ Forall2 sameState l l'.
Proof.
  intros l W. destruct (list_written stateStruct writable (fun v s s' => (exists m, v = JObj m /\ gives m (stateFields s')) /\ sameState s s') l) as (x & vs & l' & E & T & F3).
  - intros s Ws. destruct (state_written s Ws) as (x & m & s' & E & J & _ & G & S). exists x, (JObj m), s'. split; [exact E|]. split; [exact J|].
    split; [exists m; split; [reflexivity|exact G]|exact S].
  - exact W.
  - exists x, l'. assert (AB : Forall2 (fun v s => exists m, v = JObj m /\ gives m (stateFields s)) vs l' /\ Forall2 sameState l l').
    { revert F3. apply Forall3_impl2. intros a c d [X Y]. split; assumption. }
    destruct AB as [A B0].
    split; [exact E|]. split; [|exact B0]. apply (C77_reads_states x vs l' (ended_text _ _ T) A).
Qed.
Theorem C77_issuers : forall l, exists x l', encodeIssuers l = Some x /\ decodeIssuers x = Some l' /\ Forall2 sameIssuer l l'.
Proof.
  intros l. destruct (list_written issuerStruct (fun _ => True) (fun v e e' => (exists m, v = JObj m /\ gives m (issuerFields e')) /\ sameIssuer e e') l) as (x & vs & l' & E & T & F3).
  - intros e _. destruct (issuer_written e) as (x & m & e' & E & J & _ & G & S). exists x, (JObj m), e'. split; [exact E|]. split; [exact J|].
    split; [exists m; split; [reflexivity|exact G]|exact S].
  - apply Forall_forall. intros; exact I.
  - exists x, l'. assert (AB : Forall2 (fun v s => exists m, v = JObj m /\ gives m (issuerFields s)) vs l' /\ Forall2 sameIssuer l l').
    { revert F3. apply Forall3_impl2. intros a c d [X Y]. split; assumption. }
    destruct AB as [A B0].
    split; [exact E|]. split; [|exact B0]. apply (C77_reads_issuers x vs l' (ended_text _ _ T) A).
Qed.
(** Nothing changes if the strings are UTF-8. *)
Theorem C77_state_utf8 : forall s s', validUtf8 (s_logID s) -> validUtf8 (s_url s) -> sameState s s' -> s' = s.
Proof.
  intros [] [] V1 V2 (R1 & R2 & S). cbn in *.
  pose proof (repaired_valid _ _ V1 R1). pose proof (repaired_valid _ _ V2 R2). destruct S as (-> & -> & -> & -> & -> & -> & ->). subst. reflexivity.
Qed.
Theorem C77_issuer_utf8 : forall e e', validUtf8 (i_unique e) -> validUtf8 (i_key e) -> validUtf8 (i_subject e) -> validUtf8 (i_pem e) -> sameIssuer e e' -> e' = e.
Proof.
  intros [] [] V1 V2 V3 V4 (R1 & R2 & R3 & R4 & S). cbn in *.
  pose proof (repaired_valid _ _ V1 R1). pose proof (repaired_valid _ _ V2 R2). pose proof (repaired_valid _ _ V3 R3). pose proof (repaired_valid _ _ V4 R4). subst. reflexivity.
Qed.
Definition utf8State (s : state) : Prop := validUtf8 (s_logID s) /\ validUtf8 (s_url s).
Definition utf8Issuer (e : issuer) : Prop := validUtf8 (i_unique e) /\ validUtf8 (i_key e) /\ validUtf8 (i_subject e) /\ validUtf8 (i_pem e).
(** A state in the cache, the list of states in ct-logs.json, the issuers in enrolled.json *)
Theorem C77_round_trip :
  (forall s, writable s -> utf8State s -> exists x, marshalState s = Some x /\ unmarshalState x = Some s) /\
  (forall l, Forall writable l -> Forall utf8State l -> exists x, encodeStates l = Some x /\ decodeStates x = Some l) /\
  (forall l, Forall utf8Issuer l -> exists x, encodeIssuers l = Some x /\ decodeIssuers x = Some l).
Proof.
  split; [|split].
  - intros s W (U1 & U2). destruct (C77_state s W) as (x & s' & E & D & S). rewrite (C77_state_utf8 s s' U1 U2 S) in D. exists x. split; assumption.
  - intros l W U. destruct (C77_states l W) as (x & l' & E & D & S). assert (l' = l).
    { clear -S U. induction S as [|s s' l l' X S IH]; [reflexivity|]. inversion U as [|? ? (U1 & U2) U']; subst. f_equal; [apply C77_state_utf8; assumption|apply IH; assumption]. }
    subst l'. exists x. split; assumption.
  - intros l U. destruct (C77_issuers l) as (x & l' & E & D & S). assert (l' = l).
    { clear -S U. induction S as [|s s' l l' X S IH]; [reflexivity|]. inversion U as [|? ? (U1 & U2 & U3 & U4) U']; subst. f_equal; [apply C77_issuer_utf8; assumption|apply IH; assumption]. }
    subst l'. exists x. split; assumption.
Qed.

(** ** enrolled.json *)
(** With this coding the table of issuers survives saving and loading, whatever the
    subjects are, if PEM text is read back as the same certificate. *)
Definition toIssuer (e : enrolled) : issuer := mkIssuer (en_unique e) (en_key e) (en_subject e) (en_pem e) (en_part e).
Definition ofIssuer (e : issuer) : enrolled := mkEnr (i_unique e) (i_key e) (i_subject e) (i_pem e) (i_part e).
Definition encodeFile (l : list enrolled) : bytes := match encodeIssuers (map toIssuer l) with Some x => x | None => [] end.
Definition decodeFile (b : bytes) : option (list enrolled) := match decodeIssuers b with Some l => Some (map ofIssuer l) | None => None end.
Section File.
  Variable Cert : Type.
  Variables (sha256 : bytes -> bytes) (spki rawSubject subject toPEM : Cert -> bytes) (ofPEM : bytes -> option Cert).
  Theorem C77_issuers_file : forall xs order,
    (forall c, ofPEM (toPEM c) = Some c) -> (forall c, validUtf8 (toPEM c)) ->
    let m := fold_left (ins Cert sha256 spki) xs emptyMoz in
    Permutation order (m_issuers m) ->
    let '(m', ok) := loadEnrolled Cert sha256 spki ofPEM decodeFile emptyMoz
                       (Some (saveIssuers Cert sha256 spki rawSubject subject toPEM encodeFile order)) in
    ok = true /\ forall i, alookup i (m_issuers m') = alookup i (m_issuers m) /\ crlsOf (m_crls m') i = [].
  Proof using Type.
    intros xs order RP UP m PM. apply (C32_save_load Cert sha256 spki rawSubject subject toPEM ofPEM encodeFile decodeFile xs order RP); [|exact PM].
    set (l := saveList _ _ _ _ _ _ order).
    assert (U : Forall (fun e => validUtf8 (en_pem e)) l).
    { apply Forall_forall. intros e I. subst l. unfold saveList in I. apply in_flat_map in I. destruct I as (x & _ & I). apply in_map_iff in I.
      destruct I as (c & <- & _). apply UP. }
    destruct (C77_issuers (map toIssuer l)) as (x & l' & E & D & S). exists (map ofIssuer l'). unfold encodeFile, decodeFile. rewrite E, D. split; [reflexivity|].
    rewrite map_map. clearbody l. clear -U S. remember (map toIssuer l) as k eqn:K. revert l U K. induction S as [|a b k l' (_ & _ & _ & R & P) S IH]; intros l U K; destruct l as [|e l]; try discriminate K; [reflexivity|].
    cbn [map] in K |- *. inversion U as [|? ? U1 U2]; subst. assert (Ea : a = toIssuer e) by congruence. assert (Ek : k = map toIssuer l) by congruence. subst a.
    rewrite <- (IH l U2 Ek). f_equal. cbn [ofIssuer en_pem en_part]. rewrite P. cbn [toIssuer i_part i_pem] in *. rewrite (repaired_valid _ _ U1 R). reflexivity.
  Qed.
End File.

(** ** The condition on UTF-8 is needed *)
(** The address of a log is kept with its path unescaped: that of https://ct.example/%ff/ ends in
    the byte ff, which is not UTF-8.  The state that is read back has another address. *)
Definition exState : state :=
  mkState (B "KXm+8J45OSHwVnOfY6V35b5XfZxgCvj5TV0mXCVdx4Q=") 86400 (B "ct.example/2027<h1>" ++ [xc3; xa9; x22; x0a; xe2; x80; xa8]) 0 18446744073709551615 1700000000000 1800000000123
    1800000000120000000%Z (-330)%Z.
Definition badState : state := mkState [] 86400 (B "ct.example/" ++ [xff]) 0 5 6 7 1800000000120000000%Z 0%Z.
Lemma year_ex : localYear 1800000000120000000%Z (-330)%Z = 2027%Z /\ localYear 1800000000120000000%Z 0%Z = 2027%Z.
Proof. split; reflexivity. Qed.
Theorem C77_not_utf8_refuted : exists s x s', writable s /\ marshalState s = Some x /\ unmarshalState x = Some s' /\ s_url s' <> s_url s.
Proof.
  exists badState, (match marshalState badState with Some x => x | None => [] end),
    (mkState [] 86400 (B "ct.example/" ++ [xef; xbf; xbd]) 0 5 6 7 1800000000120000000%Z 0%Z).
  split; [repeat split; first [vm_compute; reflexivity|vm_compute; discriminate]|]. split; [vm_compute; reflexivity|]. split; [vm_compute; reflexivity|]. discriminate.
Qed.

(** ** Examples *)
Example C77_ex_writable : writable exState /\ utf8State exState.
Proof.
  split; [repeat split; first [vm_compute; reflexivity|vm_compute; discriminate]|]. split.
  - exists (map Byte.to_N (s_logID exState)). split; [|reflexivity]. apply Forall_forall. intros c I. apply in_map_iff in I. destruct I as (b & <- & I).
    left. pose proof (to_N_lt b). lia.
  - exists (map Byte.to_N (B "ct.example/2027<h1>") ++ [233; 34; 10; 8232]). split; [|reflexivity]. apply Forall_app. split.
    + apply Forall_forall. intros c I. apply in_map_iff in I. destruct I as (b & <- & I). left. pose proof (to_N_lt b). lia.
    + repeat constructor; unfold scalar; lia.
Qed.
Example C77_ex_text : marshalState exState = Some (
  B "{""LogID"":""KXm+8J45OSHwVnOfY6V35b5XfZxgCvj5TV0mXCVdx4Q="",""MMD"":86400,""ShortURL"":""ct.example/2027\u003ch1\u003e" ++ [xc3; xa9] ++
  B "\""\n\u2028"",""MinEntry"":0,""MaxEntry"":18446744073709551615,""MinTimestamp"":1700000000000,""MaxTimestamp"":1800000000123,""LastUpdateTime"":""2027-01-15T02:30:00.12-05:30""}").
Proof. vm_compute. reflexivity. Qed.
(** Other text for the same state: another order, white space, other escapes, names in other case, a member nobody asks for. *)
Example C77_ex_foreign : unmarshalState (
  B " { ""extra"" : [1, {""LogID"":null}, -0.5e+3] , ""mmd"":86400, ""logid"" : ""KXm+8J45OSHwVnOfY6V35b5XfZxgCvj5TV0mXCVdx4Q="", ""shorturl"":""ct.example\/2027\u003Ch1>\u00e9\""\n\u2028"", ""minentry"":0,""MAXENTRY"":18446744073709551615,""MinTime" ++ [xc5; xbf] ++
  B "tamp"":1700000000000,""MaxTimestamp"":1800000000123,""LastUpdateTime"":""2027-01-15T02:30:00.1200000009-05:30""} ") = Some exState.
Proof. vm_compute. reflexivity. Qed.
Example C77_ex_refused : unmarshalState (B "{""MMD"":18446744073709551616}") = None /\ unmarshalState (B "{""MMD"":""1""}") = None /\
  unmarshalState (B "{""MMD"":1}x") = None /\ unmarshalState (B "{""LastUpdateTime"":""2027-02-29T00:00:00Z""}") = None /\ unmarshalState (B "{""MMD"":01}") = None.
Proof. vm_compute. repeat split. Qed.
Example C77_ex_cut : let x := match marshalState exState with Some x => x | None => [] end in
  map (fun k => unmarshalState (firstn (length x - k) x)) [1; 2; 40; 90]%nat = [None; None; None; None] /\ unmarshalState x = Some exState /\
  decodeStates (B "[{""MMD"":1}") = None /\ decodeStates (B "[{""MMD"":1}]") <> None.
Proof. vm_compute. repeat split. discriminate. Qed.
Example C77_ex_year : marshalState (mkState [] 0 [] 0 0 0 0 (253402300800 * nsSecond)%Z 0%Z) = None.
Proof. vm_compute. reflexivity. Qed.
Definition exIssuers : list issuer :=
  [mkIssuer (B "id") (B "key") (B "CN=<A>") (B "-----BEGIN CERTIFICATE-----" ++ [x0a]) true; mkIssuer [] [] [] [] false].
Example C77_ex_issuers : match encodeIssuers exIssuers with Some x => decodeIssuers x | None => None end = Some exIssuers.
Proof. vm_compute. reflexivity. Qed.

(** Members twice, null, half a surrogate pair, bytes that are no UTF-8; and what is refused though
    a later member would mend it *)
Example C77_ex_lenient : unmarshalState (B "{""MMD"":5,""mmd"":null,""x"":[{""MMD"":1}],""mMd"":7,""MMD"":null}") = Some (mkState [] 7 [] 0 0 0 0 (s_time blankState) 0%Z) /\
  unmarshalState (B "{""LogID"":""\ud800a" ++ [xff] ++ B """}") = Some (mkState (utf8 65533 ++ B "a" ++ utf8 65533) 0 [] 0 0 0 0 (s_time blankState) 0%Z) /\
  unmarshalState (B " null ") = Some blankState /\
  unmarshalState (B "{""MMD"":""5"",""MMD"":7}") = None /\ unmarshalState (B "{""MMD"":05}") = None /\ unmarshalState (B "{""MMD"":5,}") = None /\
  decodeStates (B "[] trailing") = Some [] /\ decodeIssuers (B "[] trailing") = None.
Proof. vm_compute. repeat split. Qed.

Print Assumptions C77_reads_state.
Print Assumptions C77_reads_states.
Print Assumptions C77_reads_issuers.
Print Assumptions C77_writes_state.
Print Assumptions C77_refuses.
Print Assumptions C77_state.
Print Assumptions C77_states.
Print Assumptions C77_issuers.
Print Assumptions C77_round_trip.
Print Assumptions C77_issuers_file.
Print Assumptions C77_cut_short.
Print Assumptions C77_not_utf8_refuted.
Print Assumptions C77_accepts_state.
Print Assumptions C77_accepts_states.
Print Assumptions C77_accepts_issuers.
