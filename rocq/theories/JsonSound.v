(** * What the reader of JsonModel.v accepts is JSON *)
From Verif Require Import Base SerialModel SerialProofs TimeModel TimeProofs QueryModel PublishModel TextProofs P_RunIds JsonModel JsonSpec JsonProofs JsonTime.
From Coq Require Import Strings.Byte.
Local Open Scope N_scope.

(** ** Strings *)
Inductive scanned : bytes -> Prop :=
| sc_nil : scanned []
| sc_plain x t : 32 <= Byte.to_N x -> Byte.to_N x <> 34 -> Byte.to_N x <> 92 -> scanned t -> scanned (x :: t)
| sc_esc c t : isEsc c = true -> Byte.to_N c <> 117 -> scanned t -> scanned (x5c :: c :: t)
| sc_u a b c d t : isHex a && isHex b && isHex c && isHex d = true -> scanned t -> scanned (x5c :: x75 :: a :: b :: c :: d :: t).

Lemma consed_some l o t r : consed l o = Some (t, r) -> exists t', o = Some (t', r) /\ t = l ++ t'.
Proof. destruct o as [[t' r']|]; [|discriminate]. cbn. intros E. injection E as <- <-. eauto. Qed.
Lemma scan_sound : forall n b t r, (length b <= n)%nat -> scanStr b = Some (t, r) -> b = t ++ x22 :: r /\ scanned t.
Proof.
  induction n as [|n IH]; intros b t r L E.
  { destruct b; [discriminate|cbn in L; lia]. }
  destruct b as [|x b]; [discriminate|]. cbn [length] in L. cbn [scanStr] in E.
  destruct (N.eqb_spec (Byte.to_N x) 34) as [E34|N34].
  { injection E as <- <-. rewrite (is_byte x 34 x22 E34 eq_refl). split; [reflexivity|constructor]. }
  destruct (N.eqb_spec (Byte.to_N x) 92) as [E92|N92].
  - rewrite (is_byte x 92 x5c E92 eq_refl) in *. destruct b as [|c b]; [discriminate|]. cbn [length] in L.
    destruct (N.eqb_spec (Byte.to_N c) 117) as [E117|N117].
    + rewrite (is_byte c 117 x75 E117 eq_refl) in *. destruct b as [|h1 [|h2 [|h3 [|h4 b]]]]; try discriminate. cbn [length] in L.
      destruct (isHex h1 && isHex h2 && isHex h3 && isHex h4) eqn:H; [|discriminate]. apply consed_some in E. destruct E as (t' & E & ->).
      destruct (IH b t' r ltac:(lia) E) as [-> S]. split; [reflexivity|]. apply sc_u; assumption.
    + destruct (isEsc c) eqn:H; [|discriminate]. apply consed_some in E. destruct E as (t' & E & ->).
      destruct (IH b t' r ltac:(lia) E) as [-> S]. split; [reflexivity|]. apply sc_esc; assumption.
  - destruct (N.ltb_spec (Byte.to_N x) 32); [discriminate|]. apply consed_some in E. destruct E as (t' & E & ->).
    destruct (IH b t' r ltac:(lia) E) as [-> S]. split; [reflexivity|]. apply sc_plain; assumption.
Qed.

Lemma scanned_high h t : Forall (fun x => 128 <= Byte.to_N x) h -> scanned (h ++ t) -> scanned t.
Proof.
  induction 1 as [|x h H F IH]; intros S; [exact S|]. apply IH. cbn [app] in S. inversion S; subst; [assumption| |];
    exfalso; change (Byte.to_N x5c) with 92 in H; lia.
Qed.
Lemma scanned_u h u t : fourHex h u -> scanned (x5c :: x75 :: h ++ t) -> scanned t.
Proof.
  intros (a & b & c & d & va & vb & vc & vd & -> & _) S. cbn [app] in S. inversion S; subst.
  - exfalso. cbn in *. lia.
  - exfalso. match goal with H : Byte.to_N x75 <> 117 |- _ => apply H; reflexivity end.
  - assumption.
Qed.
Lemma esc_short c : isEsc c = true -> exists y, plainEsc c = Some y /\ In (c, y) shortEscapes.
Proof.
  unfold isEsc. intros H.
  assert (C : Byte.to_N c = 98 \/ Byte.to_N c = 102 \/ Byte.to_N c = 110 \/ Byte.to_N c = 114 \/ Byte.to_N c = 116 \/ Byte.to_N c = 92 \/ Byte.to_N c = 47 \/ Byte.to_N c = 34).
  { rewrite !orb_true_iff, !N.eqb_eq in H. tauto. }
  unfold shortEscapes. destruct C as [C|[C|[C|[C|[C|[C|[C|C]]]]]]];
    [rewrite (is_byte c _ x62 C eq_refl)|rewrite (is_byte c _ x66 C eq_refl)|rewrite (is_byte c _ x6e C eq_refl)|rewrite (is_byte c _ x72 C eq_refl)
    |rewrite (is_byte c _ x74 C eq_refl)|rewrite (is_byte c _ x5c C eq_refl)|rewrite (is_byte c _ x2f C eq_refl)|rewrite (is_byte c _ x22 C eq_refl)];
    (eexists; split; [reflexivity|]; cbn; auto 10).
Qed.

Lemma unquote_sound : forall n f t, (length t <= n)%nat -> (length t <= f)%nat -> scanned t -> loose t (unquote f t).
Proof.
  induction n as [|n IH]; intros f t L Lf S.
  { destruct t; [|cbn in L; lia]. destruct f; constructor. }
  destruct t as [|x t]; [destruct f; constructor|]. destruct f as [|f]; [cbn in Lf; lia|]. cbn [length] in L, Lf.
  cbn [unquote]. destruct (N.eqb_spec (Byte.to_N x) 92) as [E92|N92].
  - rewrite (is_byte x 92 x5c E92 eq_refl) in *.
    destruct (getu4 (x5c :: t)) as [[u r1]|] eqn:G.
    + apply getu4_some in G. destruct G as (h & E & F). assert (t = x75 :: h ++ r1) as -> by congruence. clear E.
      pose proof (scanned_u h u r1 F S) as S1.
      assert (L1 : (length r1 <= n)%nat /\ (length r1 <= f)%nat) by (cbn [length] in L, Lf; rewrite app_length in L, Lf; lia).
      destruct L1 as [L1 L1f]. pose proof (proj1 (proj2 (fourHex_getu4 h u [] F))) as U16.
      destruct (inR 55296 57343 u) eqn:IR; unfold inR in IR.
      * apply andb_true_iff in IR. rewrite !N.leb_le in IR.
        assert (Half : (forall h' v t', r1 = x5c :: x75 :: h' ++ t' -> fourHex h' v -> ~ (u < 56320 /\ 56320 <= v < 57344)) ->
                  loose (x5c :: x75 :: h ++ r1) (runeError ++ unquote f r1)).
        { intros NO. change runeError with (utf8 65533). apply (lo_half h u); [exact F|lia|exact NO|apply IH; assumption]. }
        destruct (getu4 r1) as [[v r2]|] eqn:G2.
        -- pose proof G2 as G2'. apply getu4_some in G2. destruct G2 as (h' & E & F'). pose proof (proj1 (proj2 (fourHex_getu4 h' v [] F'))) as V16.
           destruct (inR 55296 56319 u && inR 56320 57343 v) eqn:P.
           ++ apply andb_true_iff in P. unfold inR in P. rewrite !andb_true_iff, !N.leb_le in P. rewrite E in S1 |- *.
              pose proof (scanned_u h' v r2 F' S1) as S2. assert (L2 : (length r2 <= n)%nat /\ (length r2 <= f)%nat) by (rewrite E in L1, L1f; cbn [length] in L1, L1f; rewrite app_length in L1, L1f; lia).
              rewrite appendRune_utf8 by (right; lia).
              replace ((u - 55296) * 1024 + (v - 56320) + 65536) with (65536 + (u - 55296) * 1024 + (v - 56320)) by lia.
              apply lo_pair; [exact F|exact F'|lia|lia|apply IH; tauto].
           ++ apply Half. intros h2 v2 t2 E2 F2 [U V]. destruct (fourHex_getu4 h2 v2 t2 F2) as [G3 _]. rewrite <- E2, G2' in G3.
              assert (v = v2) as <- by congruence. unfold inR in P.
              destruct (N.leb_spec 55296 u); [|lia]. destruct (N.leb_spec u 56319); [|lia]. destruct (N.leb_spec 56320 v); [|lia]. destruct (N.leb_spec v 57343); [discriminate P|lia].
        -- apply Half. intros h2 v2 t2 E2 F2 _. destruct (fourHex_getu4 h2 v2 t2 F2) as [G3 _]. rewrite <- E2, G2 in G3. discriminate G3.
      * assert (SC : scalar u). { apply andb_false_iff in IR. rewrite !N.leb_gt in IR. unfold scalar. lia. }
        rewrite appendRune_utf8 by exact SC. apply lo_u; [exact F|exact SC|apply IH; assumption].
    + inversion S; subst.
      * exfalso. cbn in *. lia.
      * match goal with H : isEsc ?c = true |- _ => destruct (esc_short c H) as (y & -> & I) end. cbn [length] in L, Lf. apply lo_short; [exact I|]. apply IH; [lia|lia|assumption].
      * exfalso. match goal with H : _ && _ = true |- _ => rename H into HX end. apply andb_true_iff in HX. destruct HX as [HX K4]. apply andb_true_iff in HX. destruct HX as [HX K3].
        apply andb_true_iff in HX. destruct HX as [K1 K2]. unfold getu4 in G. rewrite K1, K2, K3, K4 in G. discriminate G.
  - assert (S' : 32 <= Byte.to_N x /\ Byte.to_N x <> 34 /\ scanned t).
    { inversion S; subst; [tauto| |]; exfalso; apply N92; reflexivity. }
    destruct S' as (A & N34 & S').
    destruct (N.ltb_spec (Byte.to_N x) 128) as [LT|GE].
    + assert (U : utf8 (Byte.to_N x) = [x]) by (rewrite utf8_ascii by exact LT; rewrite byteOf_to_N; reflexivity).
      pose proof (lo_plain (Byte.to_N x) t (unquote f t)) as P. rewrite U in P. apply P; [left; lia|exact A|exact N34|exact N92|]. apply IH; [lia|lia|exact S'].
    + destruct (decodeRune (x :: t)) as [c w] eqn:D. destruct (decodeRune_inv (x :: t) c w ltac:(discriminate) D) as [(SC & W & E)|(-> & -> & NO)].
      * rewrite appendRune_utf8 by exact SC.
        assert (GEc : 128 <= c).
        { destruct (N.le_gt_cases 128 c) as [|LT]; [assumption|]. exfalso. rewrite (utf8_ascii c LT) in E. cbn [app] in E.
          assert (x = byteOf c) as -> by congruence. rewrite to_of in GE by lia. lia. }
        remember (skipn w (x :: t)) as r eqn:Er. rewrite E. apply lo_plain; [exact SC|lia|lia|lia|].
        assert (LL : (length (x :: t) = length (utf8 c) + length r)%nat) by (rewrite E, app_length; reflexivity).
        assert (NE : (1 <= length (utf8 c))%nat) by (pose proof (utf8_nonempty c); destruct (utf8 c); [contradiction|cbn; lia]).
        cbn [length] in LL. apply IH; [lia|lia|]. apply (scanned_high (utf8 c)); [apply utf8_high; assumption|]. rewrite <- E. exact S.
      * change (appendRune 65533) with (utf8 65533). cbn [skipn]. apply lo_bad; [exact NO|]. apply IH; [lia|lia|exact S'].
Qed.

(** ** Numbers *)
Lemma takeDigits_sound : forall b d r, takeDigits b = (d, r) -> b = d ++ r /\ forallb isDigit d = true.
Proof.
  induction b as [|c b IH]; intros d r E; cbn [takeDigits] in E.
  - injection E as <- <-. auto.
  - destruct (isDigit c) eqn:D; [|injection E as <- <-; auto]. destruct (takeDigits b) as [d' r'] eqn:T. injection E as <- <-.
    destruct (IH _ _ eq_refl) as [-> F]. split; [reflexivity|]. cbn [forallb]. rewrite D, F. reflexivity.
Qed.
Lemma oneOf_sound l b p r : oneOf l b = (p, r) -> b = p ++ r /\ (p = [] \/ exists c, p = [c] /\ In (Byte.to_N c) l).
Proof.
  unfold oneOf. destruct b as [|c b]; [intros E; injection E as <- <-; auto|].
  destruct (existsb (N.eqb (Byte.to_N c)) l) eqn:X; intros E; injection E as <- <-; [|auto].
  split; [reflexivity|]. right. exists c. split; [reflexivity|]. apply existsb_exists in X. destruct X as (n & I & H). apply N.eqb_eq in H. rewrite H. exact I.
Qed.
Lemma number_sound b t r : scanExp (scanNum b) = Some (t, r) -> b = t ++ r /\ numText t.
Proof.
  unfold scanExp. destruct (scanNum b) as [[t0 r0]|] eqn:N; [|discriminate]. intros X.
  assert (P : b = t0 ++ r0 /\ exists sg ip fr, t0 = sg ++ ip ++ fr /\ (sg = [] \/ sg = [x2d]) /\ (ip = [x30] \/ digits ip /\ hd_error ip <> Some x30) /\
              (fr = [] \/ exists d, digits d /\ fr = x2e :: d)).
  { unfold scanNum in N. destruct (oneOf [45] b) as [sg b1] eqn:O1. apply oneOf_sound in O1. destruct O1 as [-> SG].
    assert (SG' : sg = [] \/ sg = [x2d]).
    { destruct SG as [->|(c & -> & [H|[]])]; [auto|]. right. rewrite (is_byte c 45 x2d (eq_sym H) eq_refl). reflexivity. }
    destruct (takeDigits b1) as [[|c d] r1] eqn:T; [discriminate|]. apply takeDigits_sound in T. destruct T as [-> D].
    cbn [forallb] in D. apply andb_true_iff in D. destruct D as [Dc Dd].
    assert (IP : exists ip r2, (if Byte.to_N c =? 48 then ([c], d ++ r1) else (c :: d, r1)) = (ip, r2) /\ (c :: d) ++ r1 = ip ++ r2 /\
              (ip = [x30] \/ digits ip /\ hd_error ip <> Some x30)).
    { destruct (N.eqb_spec (Byte.to_N c) 48) as [E|NE].
      - exists [c], (d ++ r1). split; [reflexivity|]. split; [reflexivity|]. left. rewrite (is_byte c 48 x30 E eq_refl). reflexivity.
      - exists (c :: d), r1. split; [reflexivity|]. split; [reflexivity|]. right. split; [split; [discriminate|cbn [forallb]; rewrite Dc, Dd; reflexivity]|].
        cbn [hd_error]. intros F. apply NE. assert (c = x30) as -> by congruence. reflexivity. }
    destruct IP as (ip & r2 & E & EQ & IP). rewrite E in N. rewrite EQ. clear E EQ.
    destruct (oneOf [46] r2) as [p r3] eqn:O2. apply oneOf_sound in O2. destruct O2 as [-> PP].
    destruct PP as [->|(q & -> & [H|[]])].
    - cbn [app] in *. assert (t0 = sg ++ ip) as -> by congruence. assert (r0 = r3) as -> by congruence. split; [rewrite <- app_assoc; reflexivity|].
      exists sg, ip, []. rewrite app_nil_r. auto.
    - cbn [app] in N. destruct (takeDigits r3) as [[|c2 d2] r4] eqn:T2; [discriminate|]. apply takeDigits_sound in T2. destruct T2 as [-> D2].
      assert (t0 = sg ++ ip ++ q :: c2 :: d2) as -> by congruence. assert (r0 = r4) as -> by congruence.
      split; [cbn [app]; rewrite <- !app_assoc; reflexivity|]. exists sg, ip, (q :: c2 :: d2). split; [reflexivity|]. split; [exact SG'|]. split; [exact IP|]. right.
      exists (c2 :: d2). split; [split; [discriminate|exact D2]|]. rewrite (is_byte q 46 x2e (eq_sym H) eq_refl). reflexivity. }
  destruct P as [-> (sg & ip & fr & -> & SG & IP & FR)].
  destruct (oneOf [69; 101] r0) as [e r1] eqn:O. apply oneOf_sound in O. destruct O as [-> EE].
  destruct EE as [->|(c & -> & I)].
  all: cbn [app] in X.
  - assert (t = sg ++ ip ++ fr) as -> by congruence. assert (r = [] ++ r1) as -> by (cbn [app]; congruence). split; [reflexivity|].
    exists sg, ip, fr, []. rewrite app_nil_r. auto 10.
  - destruct (oneOf [43; 45] r1) as [s r2] eqn:O. apply oneOf_sound in O. destruct O as [-> SS].
    destruct (takeDigits r2) as [[|c2 d2] r3] eqn:T; [discriminate|]. apply takeDigits_sound in T. destruct T as [-> D].
    assert (X' : Some ((sg ++ ip ++ fr) ++ [c] ++ s ++ c2 :: d2, r3) = Some (t, r)) by exact X. injection X' as <- <-.
    split; [rewrite <- !app_assoc; cbn [app]; rewrite <- ?app_assoc; reflexivity|].
    exists sg, ip, fr, (c :: s ++ c2 :: d2). split; [rewrite <- !app_assoc; reflexivity|]. split; [exact SG|]. split; [exact IP|]. split; [exact FR|]. right.
    exists c, s, (c2 :: d2). split.
    { destruct I as [I|[I|[]]]; [right; exact (is_byte c 69 x45 (eq_sym I) eq_refl)|left; exact (is_byte c 101 x65 (eq_sym I) eq_refl)]. }
    split.
    { destruct SS as [->|(q & -> & [H|[H|[]]])]; [auto| |].
      - right. left. rewrite (is_byte q 43 x2b (eq_sym H) eq_refl). reflexivity.
      - right. right. rewrite (is_byte q 45 x2d (eq_sym H) eq_refl). reflexivity. }
    split; [split; [discriminate|exact D]|reflexivity].
Qed.

(** ** Values *)
Lemma skipWs_split : forall b, exists w, ws w /\ b = w ++ skipWs b.
Proof.
  induction b as [|c b (w & W & E)]; [exists []; split; [constructor|reflexivity]|]. cbn [skipWs]. destruct (isWs c) eqn:H.
  - exists (c :: w). split; [|cbn [app]; rewrite <- E; reflexivity]. constructor; [|exact W].
    unfold isWs in H. rewrite !orb_true_iff, !N.eqb_eq in H. cbn. destruct H as [[[H|H]|H]|H].
    + left. symmetry. exact (is_byte c _ x20 H eq_refl).
    + right. left. symmetry. exact (is_byte c _ x09 H eq_refl).
    + right. right. left. symmetry. exact (is_byte c _ x0a H eq_refl).
    + right. right. right. left. symmetry. exact (is_byte c _ x0d H eq_refl).
  - exists []. split; [constructor|reflexivity].
Qed.
Lemma lit_sound w v b v' r : lit w v b = Some (v', r) -> b = w ++ r /\ v' = v.
Proof.
  unfold lit. destruct (beq (firstn (length w) b) w) eqn:E; [|discriminate]. apply beq_eq in E. intros H. injection H as <- <-.
  split; [|reflexivity]. rewrite <- E at 1. symmetry. apply firstn_skipn.
Qed.

Theorem parse_sound : forall n,
  (forall b v r, value n b = Some (v, r) -> exists t, b = t ++ r /\ jsonText loose t v) /\
  (forall b l r, elems n b = Some (l, r) -> exists t, b = t ++ x5d :: r /\ jsonElems loose t l) /\
  (forall b l r, members n b = Some (l, r) -> exists t, b = t ++ x7d :: r /\ jsonMembers loose t l).
Proof.
  induction n as [|n (IHv & IHe & IHm)]; [repeat split; intros; discriminate|]. split; [|split].
  - intros b v r E. cbn [value] in E. destruct b as [|c b]; [discriminate|].
    destruct (N.eqb_spec (Byte.to_N c) 123) as [C|N1].
    { rewrite (is_byte c 123 x7b C eq_refl). destruct (skipWs b) as [|d r'] eqn:S; [discriminate|].
      destruct (N.eqb_spec (Byte.to_N d) 125) as [D|].
      - assert (v = JObj []) as -> by congruence. assert (r = r') as -> by congruence. destruct (skipWs_split b) as (w & W & Eb). rewrite S in Eb.
        exists (x7b :: w ++ [x7d]). split; [|apply jt_obj0; exact W]. rewrite Eb, (is_byte d 125 x7d D eq_refl). cbn [app]. rewrite <- app_assoc. reflexivity.
      - destruct (members n b) as [[l r1]|] eqn:M; [|discriminate]. assert (v = JObj l) as -> by congruence. assert (r = r1) as -> by congruence.
        destruct (IHm _ _ _ M) as (t & -> & J). exists (x7b :: t ++ [x7d]). split; [cbn [app]; rewrite <- app_assoc; reflexivity|]. apply jt_obj. exact J. }
    destruct (N.eqb_spec (Byte.to_N c) 91) as [C|N2].
    { rewrite (is_byte c 91 x5b C eq_refl). destruct (skipWs b) as [|d r'] eqn:S; [discriminate|].
      destruct (N.eqb_spec (Byte.to_N d) 93) as [D|].
      - assert (v = JArr []) as -> by congruence. assert (r = r') as -> by congruence. destruct (skipWs_split b) as (w & W & Eb). rewrite S in Eb.
        exists (x5b :: w ++ [x5d]). split; [|apply jt_arr0; exact W]. rewrite Eb, (is_byte d 93 x5d D eq_refl). cbn [app]. rewrite <- app_assoc. reflexivity.
      - destruct (elems n b) as [[l r1]|] eqn:M; [|discriminate]. assert (v = JArr l) as -> by congruence. assert (r = r1) as -> by congruence.
        destruct (IHe _ _ _ M) as (t & -> & J). exists (x5b :: t ++ [x5d]). split; [cbn [app]; rewrite <- app_assoc; reflexivity|]. apply jt_arr. exact J. }
    destruct (N.eqb_spec (Byte.to_N c) 34) as [C|N3].
    { rewrite (is_byte c 34 x22 C eq_refl). destruct (scanStr b) as [[t r1]|] eqn:S; [|discriminate].
      assert (v = JStr t (unquote (length t) t)) as -> by congruence. assert (r = r1) as -> by congruence.
      destruct (scan_sound _ _ _ _ (le_n _) S) as [-> SC]. exists (x22 :: t ++ [x22]). split; [cbn [app]; rewrite <- app_assoc; reflexivity|].
      apply jt_str. apply (unquote_sound (length t)); [lia|lia|exact SC]. }
    destruct (Byte.to_N c =? 110); [|destruct (Byte.to_N c =? 116); [|destruct (Byte.to_N c =? 102)]].
    + apply lit_sound in E. destruct E as [-> ->]. exists (B "null"). split; [reflexivity|constructor].
    + apply lit_sound in E. destruct E as [-> ->]. exists (B "true"). split; [reflexivity|constructor].
    + apply lit_sound in E. destruct E as [-> ->]. exists (B "false"). split; [reflexivity|constructor].
    + destruct (scanExp (scanNum (c :: b))) as [[t r1]|] eqn:X; [|discriminate]. assert (v = JNum t) as -> by congruence. assert (r = r1) as -> by congruence.
      apply number_sound in X. destruct X as [-> NT]. exists t. split; [reflexivity|]. apply jt_num. exact NT.
  - intros b l r E. cbn [elems] in E. destruct (value n (skipWs b)) as [[v r1]|] eqn:V; [|discriminate].
    destruct (skipWs_split b) as (w & W & Eb). destruct (IHv _ _ _ V) as (t & Et & J). rewrite Et in Eb.
    destruct (skipWs_split r1) as (w' & W' & Er). destruct (skipWs r1) as [|d r2]; [discriminate|].
    destruct (N.eqb_spec (Byte.to_N d) 44) as [D|].
    + destruct (elems n r2) as [[l' r3]|] eqn:EL; [|discriminate]. assert (l = v :: l') as -> by congruence. assert (r = r3) as -> by congruence.
      destruct (IHe _ _ _ EL) as (t' & -> & J'). rewrite (is_byte d 44 x2c D eq_refl) in Er.
      exists (w ++ t ++ w' ++ x2c :: t'). split; [rewrite Eb, Er, <- !app_assoc; reflexivity|]. apply je_more; assumption.
    + destruct (N.eqb_spec (Byte.to_N d) 93) as [D|]; [|discriminate]. assert (l = [v]) as -> by congruence. assert (r = r2) as -> by congruence.
      rewrite (is_byte d 93 x5d D eq_refl) in Er. exists (w ++ t ++ w'). split; [rewrite Eb, Er, <- !app_assoc; reflexivity|]. apply je_one; assumption.
  - intros b l r E. cbn [members] in E. destruct (skipWs_split b) as (w & W & Eb). destruct (skipWs b) as [|q b1]; [discriminate|].
    destruct (N.eqb_spec (Byte.to_N q) 34) as [Q|]; [|discriminate]. rewrite (is_byte q 34 x22 Q eq_refl) in Eb.
    destruct (scanStr b1) as [[k r1]|] eqn:S; [|discriminate]. destruct (scan_sound _ _ _ _ (le_n _) S) as [-> SC].
    pose proof (unquote_sound (length k) (length k) k ltac:(lia) ltac:(lia) SC) as CK.
    destruct (skipWs_split r1) as (w1 & W1 & E1). destruct (skipWs r1) as [|c r2]; [discriminate|].
    destruct (N.eqb_spec (Byte.to_N c) 58) as [C|]; [|discriminate]. rewrite (is_byte c 58 x3a C eq_refl) in E1.
    destruct (skipWs_split r2) as (w2 & W2 & E2). destruct (value n (skipWs r2)) as [[v r3]|] eqn:V; [|discriminate].
    destruct (IHv _ _ _ V) as (t & Et & J). rewrite Et in E2.
    destruct (skipWs_split r3) as (w' & W' & E3). destruct (skipWs r3) as [|d r4]; [discriminate|].
    destruct (N.eqb_spec (Byte.to_N d) 44) as [D|].
    + rewrite (is_byte d 44 x2c D eq_refl) in E3. destruct (members n r4) as [[l' r5]|] eqn:ML; [|discriminate].
      assert (l = (unquote (length k) k, v) :: l') as -> by congruence. assert (r = r5) as -> by congruence. destruct (IHm _ _ _ ML) as (t' & -> & J').
      exists (w ++ x22 :: k ++ x22 :: w1 ++ x3a :: w2 ++ t ++ w' ++ x2c :: t'). split; [|apply jm_more; assumption].
      rewrite Eb, E1, E2, E3. repeat (rewrite <- app_assoc; cbn [app]). reflexivity.
    + destruct (N.eqb_spec (Byte.to_N d) 125) as [D|]; [|discriminate]. rewrite (is_byte d 125 x7d D eq_refl) in E3.
      assert (l = [(unquote (length k) k, v)]) as -> by congruence. assert (r = r4) as -> by congruence.
      exists (w ++ x22 :: k ++ x22 :: w1 ++ x3a :: w2 ++ t ++ w'). split; [|apply jm_one; assumption].
      rewrite Eb, E1, E2, E3. repeat (rewrite <- app_assoc; cbn [app]). reflexivity.
Qed.

(** ** Times *)
Local Open Scope Z_scope.
Lemma decNum_digits d : forall a n, decNum a d = Some n -> forallb isDigit d = true.
Proof.
  induction d as [|c d IH]; intros a n E; [reflexivity|]. cbn [decNum] in E. destruct (digitVal c) as [x|] eqn:D; [|discriminate].
  cbn [forallb]. rewrite (IH _ _ E), andb_true_r. unfold digitVal in D. unfold isDigit.
  destruct ((48 <=? Z.of_N (Byte.to_N c)) && (Z.of_N (Byte.to_N c) <=? 57)) eqn:R; [|discriminate]. rewrite andb_true_iff, !Z.leb_le in R. rewrite andb_true_iff, !N.leb_le. lia.
Qed.
Lemma decNum_num d n : decNum 0 d = Some n -> num (length d) d n.
Proof.
  intros E. pose proof (decNum_digits _ _ _ E) as D. split; [reflexivity|]. split; [exact D|]. rewrite decNum_value in E by exact D. congruence.
Qed.
Lemma two_num max a b n : two max a b = Some n -> num 2 [a; b] n /\ n <= max.
Proof.
  unfold two. destruct (decNum 0 [a; b]) as [m|] eqn:E; [|discriminate]. destruct (Z.leb_spec m max); [|discriminate]. intros H'. assert (m = n) as -> by congruence.
  split; [exact (decNum_num _ _ E)|assumption].
Qed.
Lemma eqb_is a b : Byte.eqb a b = true -> a = b.
Proof. intros H. apply Byte.byte_dec_bl. exact H. Qed.
Lemma zone_sound x z : parseZone x = Some z -> zoneText x z.
Proof.
  unfold parseZone. destruct x as [|c [|h1 [|h2 [|k [|m1 [|m2 [|]]]]]]]; try discriminate.
  - destruct (Byte.eqb c "Z") eqn:E; [|discriminate]. apply eqb_is in E. subst c. intros H. left. split; [reflexivity|congruence].
  - destruct (two 23 h1 h2) as [h|] eqn:H; [|discriminate]. destruct (two 59 m1 m2) as [m|] eqn:M; [|discriminate].
    destruct (Byte.eqb k ":") eqn:K; [|discriminate]. apply eqb_is in K. subst k. cbn [negb]. apply two_num in H. apply two_num in M.
    intros E. right. exists c, [h1; h2], [m1; m2], h, m. split; [reflexivity|]. split; [apply H|]. split; [apply M|]. split; [apply H|]. split; [apply M|].
    destruct (Byte.eqb c "+") eqn:P; [apply eqb_is in P; left; split; [exact P|congruence]|].
    destruct (Byte.eqb c "-") eqn:Q; [|discriminate]. apply eqb_is in Q. right. split; [exact Q|congruence].
Qed.
Theorem time_sound x t z : parseTime x = Some (t, z) -> rfc3339 x t z.
Proof.
  unfold parseTime, parseDayPrefix. intros E.
  destruct x as [|y1 [|y2 [|y3 [|y4 [|e1 [|m1 [|m2 [|e2 [|d1 [|d2 x]]]]]]]]]]; try discriminate.
  destruct (Byte.eqb e1 "-" && Byte.eqb e2 "-") eqn:S; [|discriminate]. apply andb_true_iff in S. destruct S as [S1 S2]. apply eqb_is in S1. apply eqb_is in S2. subst e1 e2.
  destruct (decNum 0 [y1; y2; y3; y4]) as [y|] eqn:Y; [|discriminate]. destruct (decNum 0 [m1; m2]) as [m|] eqn:M; [|discriminate]. destruct (decNum 0 [d1; d2]) as [d|] eqn:D; [|discriminate].
  destruct ((1 <=? m) && (m <=? 12) && (1 <=? d) && (d <=? daysIn m y)) eqn:R; [|discriminate]. rewrite !andb_true_iff, !Z.leb_le in R. destruct R as (((R1 & R2) & R3) & R4).
  destruct x as [|k [|h1 [|h2 [|c1 [|n1 [|n2 [|c2 [|s1 [|s2 r]]]]]]]]]; try discriminate.
  destruct (Byte.eqb k "T" && Byte.eqb c1 ":" && Byte.eqb c2 ":") eqn:S; [|discriminate]. rewrite !andb_true_iff in S. destruct S as [[S1 S2] S3].
  apply eqb_is in S1. apply eqb_is in S2. apply eqb_is in S3. subst k c1 c2.
  destruct (two 23 h1 h2) as [h|] eqn:H; [|discriminate]. destruct (two 59 n1 n2) as [n|] eqn:N; [|discriminate]. destruct (two 59 s1 s2) as [s|] eqn:S; [|discriminate].
  assert (F : exists fr f zo, r = fr ++ zo /\ fraction fr f /\ parseZone zo = Some z /\
              daysOfCivil y m d * nsDay + h * nsHour + n * nsMinute + s * nsSecond + f - z * nsMinute = t).
  { assert (F0 : forall zo, match nanoseconds [], parseZone zo with
       | Some n0, Some z0 => Some (daysOfCivil y m d * nsDay + h * nsHour + n * nsMinute + s * nsSecond + n0 - z0 * nsMinute, z0) | _, _ => None end = Some (t, z) ->
       exists fr f zo', zo = fr ++ zo' /\ fraction fr f /\ parseZone zo' = Some z /\
              daysOfCivil y m d * nsDay + h * nsHour + n * nsMinute + s * nsSecond + f - z * nsMinute = t).
    { intros zo X. change (nanoseconds []) with (Some 0) in X. destruct (parseZone zo) as [z0|] eqn:Z0; [|discriminate].
      exists [], 0, zo. split; [reflexivity|]. split; [left; split; reflexivity|]. assert (z0 = z) as -> by congruence. split; [exact Z0|congruence]. }
    destruct r as [|p r']; [apply F0; exact E|]. destruct (Byte.eqb p ".") eqn:P; [|apply F0; exact E]. apply eqb_is in P. subst p.
    destruct (takeDigits r') as [[|q0 q] zo] eqn:T; [apply F0; exact E|]. apply takeDigits_sound in T. destruct T as [-> Q].
    rewrite nanoseconds_value in E by exact Q. destruct (parseZone zo) as [z0|] eqn:Z0; [|discriminate].
    exists ("."%byte :: q0 :: q), (Z.of_N (valueOf (q0 :: q)) * 10 ^ 9 / 10 ^ Z.of_nat (length (q0 :: q))), zo. split; [reflexivity|].
    split; [right; exists (q0 :: q); split; [split; [discriminate|exact Q]|split; reflexivity]|]. assert (z0 = z) as -> by congruence. split; [exact Z0|congruence]. }
  destruct F as (fr & f & zo & -> & Fr & Zo & Et). apply two_num in H. apply two_num in N. apply two_num in S.
  exists [y1; y2; y3; y4], [m1; m2], [d1; d2], [h1; h2], [n1; n2], [s1; s2], fr, zo, y, m, d, h, n, s, f.
  split; [reflexivity|]. split; [exact (decNum_num _ _ Y)|]. split; [exact (decNum_num _ _ M)|]. split; [exact (decNum_num _ _ D)|].
  split; [apply H|]. split; [apply N|]. split; [apply S|]. split; [exact Fr|]. split; [apply zone_sound; exact Zo|].
  split; [lia|]. split; [lia|]. split; [apply H|]. split; [apply N|]. split; [apply S|].
  rewrite <- Et, dayNumber_days by lia. unfold nsDay, nsHour, nsMinute, nsSecond. lia.
Qed.
