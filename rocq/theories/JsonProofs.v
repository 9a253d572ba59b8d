(** * Lemmas on the JSON model (for P_Json.v) *)
From Verif Require Import Base SerialModel SerialProofs TimeModel TimeProofs QueryModel PublishModel TextProofs P_RunIds JsonModel JsonSpec.
From Coq Require Import Strings.Byte.
Local Open Scope N_scope.

(** ** UTF-8 *)
Lemma to_of n : n < 256 -> Byte.to_N (byteOf n) = n.
Proof. intros H. rewrite to_N_byteOf. apply N.mod_small. exact H. Qed.
Lemma decodeRune_utf8 c r : scalar c -> decodeRune (utf8 c ++ r) = (c, length (utf8 c)).
Proof.
  intros S. unfold scalar in S. unfold utf8, decodeRune, inR.
  destruct (N.ltb_spec c 128) as [L|L].
  { cbn [app firstn map length]. rewrite to_of by lia. destruct (N.ltb_spec c 128); [reflexivity|lia]. }
  destruct (N.ltb_spec c 2048) as [L2|L2].
  { cbn [app firstn map length]. rewrite !to_of by lia.
    destruct (N.ltb_spec (192 + c / 64) 128); [lia|].
    destruct (N.leb_spec 194 (192 + c / 64)); [|lia]. destruct (N.leb_spec (192 + c / 64) 223); [|lia].
    destruct (N.leb_spec 128 (128 + c mod 64)); [|lia]. destruct (N.leb_spec (128 + c mod 64) 191); [|lia]. cbn [andb].
    f_equal. lia. }
  destruct (N.ltb_spec c 65536) as [L3|L3].
  { cbn [app firstn map length]. rewrite !to_of by lia.
    set (x := 224 + c / 4096). set (y := 128 + c / 64 mod 64). set (z := 128 + c mod 64).
    assert (X : 224 <= x < 240) by lia. assert (Y : 128 <= y < 192) by lia. assert (Zz : 128 <= z < 192) by lia.
    assert (E : c = (x mod 16) * 4096 + (y mod 64) * 64 + z mod 64) by lia.
    assert (X0 : x = 224 -> 160 <= y) by lia. assert (X1 : x = 237 -> y < 160) by lia. clearbody x y z.
    destruct (N.ltb_spec x 128); [lia|]. destruct (N.leb_spec 194 x); [|lia]. destruct (N.leb_spec x 223); [lia|]. cbn [andb].
    destruct (N.leb_spec 224 x); [|lia]. destruct (N.leb_spec x 239); [|lia]. cbn [andb].
    destruct (N.leb_spec 128 z); [|lia]. destruct (N.leb_spec z 191); [|lia]. cbn [andb].
    destruct (N.eqb_spec x 224), (N.eqb_spec x 237); try lia;
      repeat match goal with |- context [?a <=? y] => destruct (N.leb_spec a y); [|lia] end;
      repeat match goal with |- context [y <=? ?a] => destruct (N.leb_spec y a); [|lia] end; cbn [andb]; rewrite <- E; reflexivity. }
  { cbn [app firstn map length]. rewrite !to_of by lia.
    set (x := 240 + c / 262144). set (y := 128 + c / 4096 mod 64). set (z := 128 + c / 64 mod 64). set (u := 128 + c mod 64).
    assert (X : 240 <= x < 245) by lia. assert (Y : 128 <= y < 192) by lia. assert (Zz : 128 <= z < 192) by lia. assert (U : 128 <= u < 192) by lia.
    assert (E : c = (x mod 8) * 262144 + (y mod 64) * 4096 + (z mod 64) * 64 + u mod 64) by lia.
    assert (X0 : x = 240 -> 144 <= y) by lia. assert (X1 : x = 244 -> y < 144) by lia. clearbody x y z u.
    destruct (N.ltb_spec x 128); [lia|]. destruct (N.leb_spec 194 x); [|lia]. destruct (N.leb_spec x 223); [lia|]. cbn [andb].
    destruct (N.leb_spec 224 x); [|lia]. destruct (N.leb_spec x 239); [lia|]. cbn [andb].
    destruct (N.leb_spec 240 x); [|lia]. destruct (N.leb_spec x 244); [|lia]. cbn [andb].
    destruct (N.leb_spec 128 z); [|lia]. destruct (N.leb_spec z 191); [|lia].
    destruct (N.leb_spec 128 u); [|lia]. destruct (N.leb_spec u 191); [|lia]. cbn [andb].
    destruct (N.eqb_spec x 240), (N.eqb_spec x 244); try lia;
      repeat match goal with |- context [?a <=? y] => destruct (N.leb_spec a y); [|lia] end;
      repeat match goal with |- context [y <=? ?a] => destruct (N.leb_spec y a); [|lia] end; cbn [andb]; rewrite <- E; reflexivity. }
Qed.

Lemma byteOf_is x n : Byte.to_N x = n -> byteOf n = x.
Proof. intros <-. apply byteOf_to_N. Qed.

(** What decodeRune finds is a character, or there is none. *)
Lemma decodeRune_inv b c w : b <> [] -> decodeRune b = (c, w) ->
  (scalar c /\ w = length (utf8 c) /\ b = utf8 c ++ skipn w b) \/
  (c = 65533 /\ w = 1%nat /\ forall c' r, scalar c' -> b <> utf8 c' ++ r).
Proof.
  intros Nb E.
  assert (G : (scalar c /\ w = length (utf8 c) /\ b = utf8 c ++ skipn w b) \/ (c = 65533 /\ w = 1%nat)).
  { destruct b as [|x b]; [contradiction Nb; reflexivity|clear Nb].
    unfold decodeRune, inR in E. cbn [firstn map] in E.
    pose proof (to_N_lt x) as Lx.
    destruct (N.ltb_spec (Byte.to_N x) 128) as [L|L].
    { assert (c = Byte.to_N x) by congruence. assert (w = 1%nat) by congruence. subst c w. left. split; [left; lia|].
      unfold utf8. destruct (N.ltb_spec (Byte.to_N x) 128); [|lia]. split; [reflexivity|]. rewrite byteOf_to_N. reflexivity. }
    destruct b as [|y b]; cbn [firstn map] in E; [right; split; congruence|].
    pose proof (to_N_lt y) as Ly.
    destruct ((194 <=? Byte.to_N x) && (Byte.to_N x <=? 223)) eqn:C2.
    { apply andb_true_iff in C2. rewrite !N.leb_le in C2.
      destruct ((128 <=? Byte.to_N y) && (Byte.to_N y <=? 191)) eqn:D2; [|right; split; congruence].
      apply andb_true_iff in D2. rewrite !N.leb_le in D2.
      assert (Ec : c = (Byte.to_N x mod 32) * 64 + Byte.to_N y mod 64) by congruence. assert (w = 2%nat) by congruence. subst w. left.
      assert (R : 128 <= c < 2048) by lia. split; [left; lia|]. unfold utf8.
      destruct (N.ltb_spec c 128); [lia|]. destruct (N.ltb_spec c 2048); [|lia]. split; [reflexivity|].
      cbn [app skipn]. rewrite (byteOf_is x) by lia. rewrite (byteOf_is y) by lia. reflexivity. }
    destruct b as [|z b]; cbn [firstn map] in E; [right; split; congruence|].
    pose proof (to_N_lt z) as Lz.
    destruct ((224 <=? Byte.to_N x) && (Byte.to_N x <=? 239)) eqn:C3.
    { apply andb_true_iff in C3. rewrite !N.leb_le in C3.
      destruct (((if Byte.to_N x =? 224 then 160 else 128) <=? Byte.to_N y) && (Byte.to_N y <=? (if Byte.to_N x =? 237 then 159 else 191)) && ((128 <=? Byte.to_N z) && (Byte.to_N z <=? 191))) eqn:D3; [|right; split; congruence].
      rewrite !andb_true_iff, !N.leb_le in D3.
      assert (Ec : c = (Byte.to_N x mod 16) * 4096 + (Byte.to_N y mod 64) * 64 + Byte.to_N z mod 64) by congruence. assert (w = 3%nat) by congruence. subst w. left.
      assert (D3' : 128 <= Byte.to_N y <= 191 /\ (Byte.to_N x = 224 -> 160 <= Byte.to_N y) /\ (Byte.to_N x = 237 -> Byte.to_N y <= 159)).
      { destruct (N.eqb_spec (Byte.to_N x) 224), (N.eqb_spec (Byte.to_N x) 237); lia. }
      assert (R : 2048 <= c < 65536) by lia. split; [unfold scalar; lia|]. unfold utf8.
      destruct (N.ltb_spec c 128); [lia|]. destruct (N.ltb_spec c 2048); [lia|]. destruct (N.ltb_spec c 65536); [|lia]. split; [reflexivity|].
      cbn [app skipn]. rewrite (byteOf_is x) by lia. rewrite (byteOf_is y) by lia. rewrite (byteOf_is z) by lia. reflexivity. }
    destruct b as [|u b]; cbn [firstn map] in E; [right; split; congruence|].
    pose proof (to_N_lt u) as Lu.
    match type of E with (if ?C then _ else _) = _ => destruct C eqn:D4; [|right; split; congruence] end.
    rewrite !andb_true_iff, !N.leb_le in D4.
    assert (Ec : c = (Byte.to_N x mod 8) * 262144 + (Byte.to_N y mod 64) * 4096 + (Byte.to_N z mod 64) * 64 + Byte.to_N u mod 64) by congruence.
    assert (w = 4%nat) by congruence. subst w. left.
    assert (D4' : 128 <= Byte.to_N y <= 191 /\ (Byte.to_N x = 240 -> 144 <= Byte.to_N y) /\ (Byte.to_N x = 244 -> Byte.to_N y <= 143)).
    { destruct (N.eqb_spec (Byte.to_N x) 240), (N.eqb_spec (Byte.to_N x) 244); lia. }
    assert (R : 65536 <= c < 1114112) by lia. split; [unfold scalar; lia|]. unfold utf8.
    destruct (N.ltb_spec c 128); [lia|]. destruct (N.ltb_spec c 2048); [lia|]. destruct (N.ltb_spec c 65536); [lia|]. split; [reflexivity|].
    cbn [app skipn]. rewrite (byteOf_is x) by lia. rewrite (byteOf_is y) by lia. rewrite (byteOf_is z) by lia. rewrite (byteOf_is u) by lia. reflexivity. }
  destruct G as [G|[-> ->]]; [left; exact G|].
  destruct (N.eq_dec 0 0) as [_|]; [|congruence].
  right. split; [reflexivity|]. split; [reflexivity|]. intros c' r S ->. rewrite decodeRune_utf8 in E by exact S.
  assert (c' = 65533) by congruence. subst c'. discriminate E.
Qed.

Lemma utf8_nonempty c : utf8 c <> [].
Proof. unfold utf8. repeat destruct (_ <? _); discriminate. Qed.
Lemma utf8_ascii c : c < 128 -> utf8 c = [byteOf c].
Proof. intros H. unfold utf8. destruct (N.ltb_spec c 128); [reflexivity|lia]. Qed.
Lemma utf8_high c : scalar c -> 128 <= c -> Forall (fun x => 128 <= Byte.to_N x) (utf8 c).
Proof.
  intros S H. unfold scalar in S. unfold utf8. destruct (N.ltb_spec c 128); [lia|].
  destruct (N.ltb_spec c 2048); [|destruct (N.ltb_spec c 65536)]; repeat constructor; rewrite to_of by lia; lia.
Qed.
Lemma utf8_length c : (length (utf8 c) <= 4)%nat.
Proof. unfold utf8. repeat destruct (_ <? _); cbn; lia. Qed.
Lemma appendRune_utf8 c : scalar c -> appendRune c = utf8 c.
Proof.
  intros S. unfold scalar in S. unfold appendRune, utf8, inR. destruct (N.ltb_spec c 128); [reflexivity|]. destruct (N.ltb_spec c 2048); [reflexivity|].
  destruct (N.leb_spec 55296 c), (N.leb_spec c 57343), (N.ltb_spec 1114111 c); try lia; reflexivity.
Qed.
(** A character is not the beginning of another. *)
Lemma utf8_prefix c r c' r' : scalar c -> scalar c' -> utf8 c ++ r = utf8 c' ++ r' -> c = c' /\ r = r'.
Proof.
  intros S S' E. pose proof (decodeRune_utf8 c r S) as D. pose proof (decodeRune_utf8 c' r' S') as D'. rewrite E, D' in D.
  assert (c = c') by congruence. subst c'. split; [reflexivity|]. apply app_inv_head in E. exact E.
Qed.
Lemma scalar_fffd : scalar 65533. Proof. right. lia. Qed.

(** The repaired text, uniquely; valid text is left alone. *)
Lemma repaired_valid s s' : validUtf8 s -> repaired s s' -> s' = s.
Proof.
  intros (cs & F & ->). revert s'. induction cs as [|c cs IH]; intros s' R; cbn [flat_map] in R.
  - inversion R as [|c s t S R' E1 E2|]; [reflexivity|]. destruct (utf8 c) eqn:U; [destruct (utf8_nonempty c U)|discriminate E1].
  - inversion F as [|? ? Sc Fc]; subst. cbn [flat_map]. inversion R as [E1 E2|c' s t S R' E1 E2|x s t Nx R' E1 E2].
    + destruct (utf8 c) eqn:U; [destruct (utf8_nonempty c U)|discriminate E1].
    + apply utf8_prefix in E1; [|assumption|assumption]. destruct E1 as [-> ->]. f_equal. apply IH; assumption.
    + destruct (Nx c (flat_map utf8 cs) Sc E1).
Qed.
Lemma repaired_is_valid s s' : repaired s s' -> validUtf8 s'.
Proof.
  induction 1 as [|c s s' S R (cs & F & ->)|x s s' Nx R (cs & F & ->)].
  - exists []. split; [constructor|reflexivity].
  - exists (c :: cs). split; [constructor; assumption|reflexivity].
  - exists (65533 :: cs). split; [constructor; [exact scalar_fffd|assumption]|reflexivity].
Qed.
Lemma repaired_fun s a b : repaired s a -> repaired s b -> a = b.
Proof.
  intros R. revert b. induction R as [|c s s' S R IH|x s s' Nx R IH]; intros b R2.
  - inversion R2 as [|c s t S R' E1 E2|]; [reflexivity|]. destruct (utf8 c) eqn:U; [destruct (utf8_nonempty c U)|discriminate E1].
  - inversion R2 as [E1 E2|c' s2 t S' R' E1 E2|x s2 t Nx R' E1 E2].
    + destruct (utf8 c) eqn:U; [destruct (utf8_nonempty c U)|discriminate E1].
    + apply utf8_prefix in E1; [|assumption|assumption]. destruct E1 as [-> ->]. f_equal. apply IH. exact R'.
    + destruct (Nx c s S E1).
  - inversion R2 as [|c' s2 t S' R' E1 E2|x2 s2 t Nx2 R' E1 E2].
    + destruct (Nx c' s2 S' (eq_sym E1)).
    + subst. f_equal. apply IH. exact R'.
Qed.

(** ** Strings *)
Lemma scan_plain h b : Forall (fun x => 32 <= Byte.to_N x /\ Byte.to_N x <> 34 /\ Byte.to_N x <> 92) h -> scanStr (h ++ b) = consed h (scanStr b).
Proof.
  induction 1 as [|x h (H1 & H2 & H3) F IH].
  - cbn [app]. destruct (scanStr b) as [[t r]|]; reflexivity.
  - cbn [app scanStr]. destruct (N.eqb_spec (Byte.to_N x) 34); [contradiction|]. destruct (N.eqb_spec (Byte.to_N x) 92); [contradiction|].
    destruct (N.ltb_spec (Byte.to_N x) 32); [lia|]. rewrite IH. destruct (scanStr b) as [[t r]|]; reflexivity.
Qed.
Lemma hexVal_isHex x v : hexVal x = Some v -> isHex x = true.
Proof. intros H. unfold isHex. rewrite H. reflexivity. Qed.
Lemma hexVal_lt x v : hexVal x = Some v -> v < 16.
Proof.
  unfold hexVal. cbv zeta. intros H.
  destruct ((48 <=? Byte.to_N x) && (Byte.to_N x <=? 57)) eqn:C1; [apply andb_true_iff in C1; rewrite !N.leb_le in C1; assert (v = Byte.to_N x - 48) by congruence; lia|].
  destruct ((97 <=? Byte.to_N x) && (Byte.to_N x <=? 102)) eqn:C2; [apply andb_true_iff in C2; rewrite !N.leb_le in C2; assert (v = Byte.to_N x - 87) by congruence; lia|].
  destruct ((65 <=? Byte.to_N x) && (Byte.to_N x <=? 70)) eqn:C3; [apply andb_true_iff in C3; rewrite !N.leb_le in C3; assert (v = Byte.to_N x - 55) by congruence; lia|].
  discriminate H.
Qed.
Lemma fourHex_getu4 h n r : fourHex h n -> getu4 (x5c :: x75 :: h ++ r) = Some (n, r) /\ n < 65536 /\
  exists a b c d, h = [a; b; c; d] /\ isHex a && isHex b && isHex c && isHex d = true.
Proof.
  intros (a & b & c & d & va & vb & vc & vd & -> & A & B0 & C & D & ->). cbn [app getu4].
  rewrite (hexVal_isHex _ _ A), (hexVal_isHex _ _ B0), (hexVal_isHex _ _ C), (hexVal_isHex _ _ D).
  change ((Byte.to_N x5c =? 92) && (Byte.to_N x75 =? 117)) with true. cbn [andb]. unfold hex4. rewrite A, B0, C, D.
  pose proof (hexVal_lt _ _ A). pose proof (hexVal_lt _ _ B0). pose proof (hexVal_lt _ _ C). pose proof (hexVal_lt _ _ D).
  split; [f_equal; f_equal; lia|]. split; [lia|]. exists a, b, c, d. split; [reflexivity|].
  rewrite (hexVal_isHex _ _ A), (hexVal_isHex _ _ B0), (hexVal_isHex _ _ C), (hexVal_isHex _ _ D). reflexivity.
Qed.
Lemma short_cases e c : In (e, c) shortEscapes -> isEsc e = true /\ Byte.to_N e <> 117 /\ plainEsc e = Some c.
Proof. intros H. cbn in H. repeat (destruct H as [H|H]; [injection H as <- <-; repeat split; discriminate|]). destruct H. Qed.
Lemma scan_u h r : (exists a b c d, h = [a; b; c; d] /\ isHex a && isHex b && isHex c && isHex d = true) ->
  scanStr (x5c :: x75 :: h ++ r) = consed (x5c :: x75 :: h) (scanStr r).
Proof.
  intros (a & b & c & d & -> & H). cbn [app scanStr]. change (Byte.to_N x5c =? 34) with false. change (Byte.to_N x5c =? 92) with true.
  change (Byte.to_N x75 =? 117) with true. cbv iota. rewrite H. reflexivity.
Qed.
Lemma consed_consed a b o : consed a (consed b o) = consed (a ++ b) o.
Proof. destruct o as [[t r]|]; cbn; [rewrite app_assoc|]; reflexivity. Qed.

Lemma bad_high x t : (forall c r, scalar c -> x :: t <> utf8 c ++ r) -> 128 <= Byte.to_N x.
Proof.
  intros NO. destruct (N.le_gt_cases 128 (Byte.to_N x)) as [|L]; [assumption|]. exfalso. apply (NO (Byte.to_N x) t); [left; lia|].
  rewrite utf8_ascii, byteOf_to_N by exact L. reflexivity.
Qed.
Lemma is_byte x n y : Byte.to_N x = n -> Byte.to_N y = n -> x = y.
Proof. intros H1 H2. apply to_N_inj. congruence. Qed.
Lemma hex_val a : isHex a = true -> exists v, hexVal a = Some v.
Proof. unfold isHex. destruct (hexVal a); [eauto|discriminate]. Qed.
Lemma getu4_some b u r : getu4 b = Some (u, r) -> exists h, b = x5c :: x75 :: h ++ r /\ fourHex h u.
Proof.
  unfold getu4. destruct b as [|x [|y [|h1 [|h2 [|h3 [|h4 b]]]]]]; try discriminate.
  destruct (N.eqb_spec (Byte.to_N x) 92) as [X|]; [|discriminate]. destruct (N.eqb_spec (Byte.to_N y) 117) as [Y|]; [|discriminate].
  cbn [andb]. destruct (isHex h1) eqn:H1; [|discriminate]. destruct (isHex h2) eqn:H2; [|discriminate]. destruct (isHex h3) eqn:H3; [|discriminate].
  destruct (isHex h4) eqn:H4; [|discriminate]. cbn [andb]. intros E.
  destruct (hex_val _ H1) as [v1 V1]. destruct (hex_val _ H2) as [v2 V2]. destruct (hex_val _ H3) as [v3 V3]. destruct (hex_val _ H4) as [v4 V4].
  exists [h1; h2; h3; h4]. rewrite (is_byte x 92 x5c X eq_refl), (is_byte y 117 x75 Y eq_refl). assert (b = r) as -> by congruence. split; [reflexivity|].
  exists h1, h2, h3, h4, v1, v2, v3, v4. split; [reflexivity|]. repeat (split; [assumption|]).
  assert (U : u = hex4 h1 h2 h3 h4) by congruence. unfold hex4 in U. rewrite V1, V2, V3, V4 in U. lia.
Qed.
Lemma loose_scan t s : loose t s -> forall r, scanStr (t ++ x22 :: r) = Some (t, r).
Proof.
  induction 1 as [|c t s S L N1 N2 C IH|x t s NO C IH|e c t s I C IH|h c t s F S C IH|h h' u v t s F F' U V C IH|h u t s F U NO C IH]; intros r.
  - reflexivity.
  - rewrite <- app_assoc, scan_plain; [rewrite IH; reflexivity|].
    destruct (N.lt_ge_cases c 128) as [A|A].
    + rewrite utf8_ascii by exact A. constructor; [rewrite to_of by lia; lia|constructor].
    + eapply Forall_impl; [|apply utf8_high; [exact S|exact A]]. cbn. intros x Hx. lia.
  - change ((x :: t) ++ x22 :: r) with ([x] ++ t ++ x22 :: r). rewrite scan_plain; [rewrite IH; reflexivity|].
    constructor; [|constructor]. pose proof (bad_high x t NO). lia.
  - destruct (short_cases _ _ I) as (E1 & E2 & _). cbn [app scanStr]. change (Byte.to_N x5c =? 34) with false. change (Byte.to_N x5c =? 92) with true.
    cbv iota. destruct (N.eqb_spec (Byte.to_N e) 117); [contradiction|]. rewrite E1, IH. reflexivity.
  - destruct (fourHex_getu4 h c r F) as (_ & _ & X). cbn [app]. rewrite <- app_assoc, scan_u by exact X. rewrite IH. reflexivity.
  - destruct (fourHex_getu4 h u r F) as (_ & _ & X). destruct (fourHex_getu4 h' v r F') as (_ & _ & X').
    cbn [app]. rewrite <- app_assoc. cbn [app]. rewrite <- app_assoc, scan_u, scan_u by assumption. rewrite IH. cbn [consed].
    cbn [app]. rewrite <- ?app_assoc. reflexivity.
  - destruct (fourHex_getu4 h u r F) as (_ & _ & X). cbn [app]. rewrite <- app_assoc, scan_u by exact X. rewrite IH. reflexivity.
Qed.
Lemma getu4_short e r : Byte.to_N e <> 117 -> getu4 (x5c :: e :: r) = None.
Proof.
  intros H. unfold getu4. destruct r as [|a [|b [|c [|d r]]]]; try reflexivity.
  destruct (N.eqb_spec (Byte.to_N e) 117); [contradiction|]. rewrite andb_false_r. reflexivity.
Qed.
Lemma loose_unquote t s : loose t s -> forall fuel, (length t <= fuel)%nat -> unquote fuel t = s.
Proof.
  induction 1 as [|c t s S L N1 N2 C IH|x t s NO C IH|e c t s I C IH|h c t s F S C IH|h h' u v t s F F' U V C IH|h u t s F U NO C IH]; intros fuel Lf.
  - destruct fuel; reflexivity.
  - rewrite app_length in Lf. assert (Ul : (1 <= length (utf8 c))%nat) by (pose proof (utf8_nonempty c); destruct (utf8 c); [contradiction|cbn; lia]).
    destruct fuel as [|f]; [lia|]. destruct (N.lt_ge_cases c 128) as [A|A].
    + rewrite (utf8_ascii c) by exact A. cbn [app unquote]. rewrite to_of by lia. destruct (N.eqb_spec c 92); [contradiction|].
      destruct (N.ltb_spec c 128); [|lia]. rewrite IH by lia. reflexivity.
    + pose proof (utf8_high c S A) as Hh. pose proof (decodeRune_utf8 c t S) as D.
      destruct (utf8 c) as [|x u] eqn:E; [destruct (utf8_nonempty c E)|]. inversion Hh; subst.
      cbn [app unquote]. destruct (N.eqb_spec (Byte.to_N x) 92); [lia|]. destruct (N.ltb_spec (Byte.to_N x) 128); [lia|].
      change (x :: u ++ t) with ((x :: u) ++ t). rewrite D. rewrite appendRune_utf8 by exact S. rewrite E.
      rewrite skipn_app, skipn_all, Nat.sub_diag. cbn [skipn app]. rewrite IH by (cbn [length] in *; lia). reflexivity.
  - cbn [length] in Lf. destruct fuel as [|f]; [lia|]. pose proof (bad_high x t NO) as Hx. cbn [unquote].
    destruct (N.eqb_spec (Byte.to_N x) 92); [lia|]. destruct (N.ltb_spec (Byte.to_N x) 128); [lia|].
    destruct (decodeRune (x :: t)) as [c w] eqn:D. destruct (decodeRune_inv (x :: t) c w ltac:(discriminate) D) as [(S & _ & E)|(-> & -> & _)]; [destruct (NO _ _ S E)|].
    cbn [skipn]. rewrite IH by lia. reflexivity.
  - destruct (short_cases _ _ I) as (_ & E2 & E3). cbn [length] in Lf. destruct fuel as [|f]; [lia|].
    cbn [unquote]. change (Byte.to_N x5c =? 92) with true. cbv iota. rewrite getu4_short by exact E2. rewrite E3, IH by lia. reflexivity.
  - destruct (fourHex_getu4 h c t F) as (G & _ & _). cbn [length] in Lf. rewrite app_length in Lf. destruct fuel as [|f]; [lia|].
    cbn [unquote]. change (Byte.to_N x5c =? 92) with true. cbv iota. rewrite G. unfold inR.
    assert (Q : (55296 <=? c) && (c <=? 57343) = false).
    { apply andb_false_iff. rewrite !N.leb_gt. unfold scalar in S. lia. }
    rewrite Q, appendRune_utf8 by exact S. rewrite IH by lia. reflexivity.
  - destruct (fourHex_getu4 h u (x5c :: x75 :: h' ++ t) F) as (G & _ & _). destruct (fourHex_getu4 h' v t F') as (G' & _ & _).
    cbn [length] in Lf. rewrite app_length in Lf. cbn [length] in Lf. rewrite app_length in Lf. destruct fuel as [|f]; [lia|].
    cbn [unquote]. change (Byte.to_N x5c =? 92) with true. cbv iota. rewrite G, G'. unfold inR.
    destruct (N.leb_spec 55296 u); [|lia]. destruct (N.leb_spec u 57343); [|lia]. destruct (N.leb_spec u 56319); [|lia].
    destruct (N.leb_spec 56320 v); [|lia]. destruct (N.leb_spec v 57343); [|lia]. cbn [andb].
    replace ((u - 55296) * 1024 + (v - 56320) + 65536) with (65536 + (u - 55296) * 1024 + (v - 56320)) by lia.
    rewrite appendRune_utf8; [rewrite IH by lia; reflexivity|]. right. lia.
  - destruct (fourHex_getu4 h u t F) as (G & _ & _). cbn [length] in Lf. rewrite app_length in Lf. destruct fuel as [|f]; [lia|].
    cbn [unquote]. change (Byte.to_N x5c =? 92) with true. cbv iota. rewrite G. unfold inR.
    destruct (N.leb_spec 55296 u); [|lia]. destruct (N.leb_spec u 57343); [|lia]. cbn [andb].
    destruct (getu4 t) as [[v r2]|] eqn:G2; [|rewrite IH by lia; reflexivity].
    destruct ((u <=? 56319) && ((56320 <=? v) && (v <=? 57343))) eqn:P; [|rewrite IH by lia; reflexivity].
    rewrite !andb_true_iff, !N.leb_le in P. destruct (getu4_some _ _ _ G2) as (h' & -> & F'). destruct (NO h' v r2 eq_refl F'). lia.
Qed.
Lemma chars_loose t s : chars t s -> loose t s.
Proof. induction 1; [apply lo_nil|apply lo_plain|apply lo_short|apply lo_u|apply lo_pair]; assumption. Qed.
Lemma chars_scan t s : chars t s -> forall r, scanStr (t ++ x22 :: r) = Some (t, r).
Proof. intros C. exact (loose_scan t s (chars_loose t s C)). Qed.
Lemma chars_unquote t s : chars t s -> forall fuel, (length t <= fuel)%nat -> unquote fuel t = s.
Proof. intros C. exact (loose_unquote t s (chars_loose t s C)). Qed.

(** *** Writing *)
Lemma hexDigit_val n : n < 16 -> hexVal (hexDigit n) = Some n.
Proof.
  intros H. assert (C : n = 0 \/ n = 1 \/ n = 2 \/ n = 3 \/ n = 4 \/ n = 5 \/ n = 6 \/ n = 7 \/ n = 8 \/ n = 9 \/ n = 10 \/ n = 11 \/ n = 12 \/ n = 13 \/ n = 14 \/ n = 15) by lia.
  repeat (destruct C as [->|C]; [reflexivity|]). subst n. reflexivity.
Qed.
Lemma uEsc_four n : n < 65536 -> exists h, uEsc n = x5c :: x75 :: h /\ fourHex h n.
Proof.
  intros H. unfold uEsc. eexists. split; [reflexivity|]. cbn [hexFixed app].
  exists (hexDigit (n / 16 / 16 / 16 mod 16)), (hexDigit (n / 16 / 16 mod 16)), (hexDigit (n / 16 mod 16)), (hexDigit (n mod 16)),
    (n / 16 / 16 / 16 mod 16), (n / 16 / 16 mod 16), (n / 16 mod 16), (n mod 16).
  repeat (split; [first [reflexivity|apply hexDigit_val; lia]|]). lia.
Qed.
Lemma chars_uEsc n t s : n < 65536 -> scalar n -> chars t s -> chars (uEsc n ++ t) (utf8 n ++ s).
Proof.
  intros L S C. destruct (uEsc_four n L) as (h & -> & F). cbn [app]. apply ch_u; assumption.
Qed.
Lemma escape_chars c t s : Byte.to_N c < 128 -> chars t s -> chars (escape c ++ t) (c :: s).
Proof.
  intros L C. unfold escape.
  assert (U : utf8 (Byte.to_N c) = [c]) by (rewrite utf8_ascii by exact L; rewrite byteOf_to_N; reflexivity).
  assert (S : scalar (Byte.to_N c)) by (left; lia).
  assert (X : forall n y, Byte.to_N c = n -> Byte.to_N y = n -> c = y) by (intros n y A B0; apply to_N_inj; congruence).
  destruct (N.eqb_spec (Byte.to_N c) 34) as [E|N1].
  { rewrite (X 34 x22 E eq_refl). cbn [orb app]. apply ch_short; [cbn; tauto|exact C]. }
  destruct (N.eqb_spec (Byte.to_N c) 92) as [E|N2].
  { rewrite (X 92 x5c E eq_refl). cbn [orb app]. apply ch_short; [cbn; tauto|exact C]. }
  cbn [orb].
  destruct (N.eqb_spec (Byte.to_N c) 8) as [E|_]. { rewrite (X 8 x08 E eq_refl). apply (ch_short x62 x08); [cbn; tauto|exact C]. }
  destruct (N.eqb_spec (Byte.to_N c) 12) as [E|_]. { rewrite (X 12 x0c E eq_refl). apply (ch_short x66 x0c); [cbn; tauto|exact C]. }
  destruct (N.eqb_spec (Byte.to_N c) 10) as [E|_]. { rewrite (X 10 x0a E eq_refl). apply (ch_short x6e x0a); [cbn; tauto|exact C]. }
  destruct (N.eqb_spec (Byte.to_N c) 13) as [E|_]. { rewrite (X 13 x0d E eq_refl). apply (ch_short x72 x0d); [cbn; tauto|exact C]. }
  destruct (N.eqb_spec (Byte.to_N c) 9) as [E|_]. { rewrite (X 9 x09 E eq_refl). apply (ch_short x74 x09); [cbn; tauto|exact C]. }
  match goal with |- context [if ?b then _ else _] => destruct b eqn:Q end.
  - change (c :: s) with ([c] ++ s). rewrite <- U. apply chars_uEsc; [lia|exact S|exact C].
  - rewrite !orb_false_iff, N.ltb_ge in Q. change (chars ([c] ++ t) ([c] ++ s)). rewrite <- U. apply ch_plain; [exact S|lia|exact N1|exact N2|exact C].
Qed.
Lemma escapes_chars : forall fuel s, (length s <= fuel)%nat -> exists s', repaired s s' /\ chars (escapes fuel s) s'.
Proof.
  induction fuel as [|f IH]; intros s L.
  { destruct s; [|cbn in L; lia]. exists []. split; constructor. }
  destruct s as [|c r]. { exists []. split; constructor. }
  cbn [escapes length] in *. destruct (N.ltb_spec (Byte.to_N c) 128) as [A|A].
  - destruct (IH r ltac:(lia)) as (r' & R & C). exists (c :: r'). split; [|apply escape_chars; assumption].
    assert (U : utf8 (Byte.to_N c) = [c]) by (rewrite utf8_ascii by exact A; rewrite byteOf_to_N; reflexivity).
    change (repaired ([c] ++ r) ([c] ++ r')). rewrite <- U. apply rep_char; [left; lia|exact R].
  - destruct (decodeRune (c :: r)) as [x w] eqn:D. destruct (decodeRune_inv (c :: r) x w ltac:(discriminate) D) as [(S & W & E)|(-> & -> & Nx)].
    + assert (W2 : (w =? 1)%nat = false).
      { apply Nat.eqb_neq. intros ->. destruct (utf8 x) as [|y [|z u]] eqn:U; try discriminate W.
        assert (y = c) by (cbn [app] in E; congruence). subst y.
        destruct (N.lt_ge_cases x 128) as [Lx|Lx].
        - rewrite utf8_ascii in U by exact Lx. injection U as <-. rewrite to_of in A by lia. lia.
        - unfold utf8 in U. destruct (N.ltb_spec x 128); [lia|]. destruct (N.ltb_spec x 2048); [discriminate|]. destruct (N.ltb_spec x 65536); discriminate. }
      rewrite W2. pose proof (f_equal (@length byte) E) as EL. rewrite app_length, <- W in EL. cbn [length] in EL.
      assert (W1 : (1 <= w)%nat) by (pose proof (utf8_nonempty x); rewrite W; destruct (utf8 x); [contradiction|cbn; lia]).
      destruct (IH (skipn w (c :: r)) ltac:(lia)) as (r' & R & C). exists (utf8 x ++ r'). split.
      { rewrite E. apply rep_char; assumption. }
      destruct ((x =? 8232) || (x =? 8233)) eqn:Q.
      * apply orb_true_iff in Q. rewrite !N.eqb_eq in Q. apply chars_uEsc; [lia|exact S|exact C].
      * assert (F : firstn w (c :: r) = utf8 x) by (rewrite E, W, firstn_app, firstn_all, Nat.sub_diag; cbn [firstn]; apply app_nil_r).
        rewrite F. assert (Lx : 128 <= x).
        { destruct (N.lt_ge_cases x 128) as [Lx|Lx]; [|exact Lx]. rewrite utf8_ascii in E by exact Lx. cbn [app] in E.
          assert (Ec : c = byteOf x) by congruence. rewrite Ec, to_of in A by lia. lia. }
        apply ch_plain; [exact S|lia|lia|lia|exact C].
    + destruct (IH r ltac:(lia)) as (r' & R & C). exists (utf8 65533 ++ r'). split; [apply rep_bad; assumption|].
      apply chars_uEsc; [lia|exact scalar_fffd|exact C].
Qed.

(** ** Values *)
Lemma skipWs_ws w b : ws w -> skipWs (w ++ b) = skipWs b.
Proof.
  induction 1 as [|c w I F IH]; [reflexivity|]. cbn [app skipWs].
  assert (E : isWs c = true) by (cbn in I; repeat (destruct I as [<-|I]; [reflexivity|]); destruct I). rewrite E. exact IH.
Qed.
Lemma skipWs_stop c b : isWs c = false -> skipWs (c :: b) = c :: b.
Proof. intros H. cbn [skipWs]. rewrite H. reflexivity. Qed.

(** What may follow a number *)
Definition follow (r : bytes) : Prop :=
  match r with [] => True | c :: _ => isDigit c = false /\ Byte.to_N c <> 46 /\ Byte.to_N c <> 69 /\ Byte.to_N c <> 101 end.
Lemma takeDigits_all d r : forallb isDigit d = true -> match r with c :: _ => isDigit c = false | [] => True end -> takeDigits (d ++ r) = (d, r).
Proof.
  intros D R. induction d as [|c d IH]; cbn [app takeDigits].
  - destruct r as [|c r]; [reflexivity|]. cbn [takeDigits]. rewrite R. reflexivity.
  - cbn [forallb] in D. apply andb_true_iff in D. destruct D as [D1 D2]. rewrite D1, (IH D2). reflexivity.
Qed.
Lemma oneOf_no l r : match r with c :: _ => existsb (N.eqb (Byte.to_N c)) l = false | [] => True end -> oneOf l r = ([], r).
Proof. destruct r as [|c r]; [reflexivity|]. cbn [oneOf]. intros ->. reflexivity. Qed.

Lemma digits_head ip : digits ip -> exists c d, ip = c :: d /\ isDigit c = true /\ forallb isDigit d = true.
Proof. intros [N D]. destruct ip as [|c d]; [contradiction N; reflexivity|]. cbn [forallb] in D. apply andb_true_iff in D. exists c, d. tauto. Qed.
Lemma isDigit_range c : isDigit c = true -> 48 <= Byte.to_N c <= 57.
Proof. unfold isDigit. rewrite andb_true_iff, !N.leb_le. tauto. Qed.
Lemma scan_number t r : numText t -> follow r -> scanExp (scanNum (t ++ r)) = Some (t, r).
Proof.
  intros (sg & ip & fr & ex & -> & Sg & Ip & Fr & Ex) Fo.
  (* the exponent and what follows it *)
  assert (XE : forall t0, scanExp (Some (t0, ex ++ r)) = Some (t0 ++ ex, r)).
  { intros t0. destruct Ex as [->|(e & s & d & He & Hs & Hd & ->)].
    - cbn [app]. unfold scanExp. rewrite oneOf_no, app_nil_r; [reflexivity|]. destruct r as [|c r]; [exact I|]. destruct Fo as (_ & _ & F1 & F2).
      cbn [existsb]. destruct (N.eqb_spec (Byte.to_N c) 69); [contradiction|]. destruct (N.eqb_spec (Byte.to_N c) 101); [contradiction|]. reflexivity.
    - unfold scanExp. cbn [app oneOf].
      assert (E1 : existsb (N.eqb (Byte.to_N e)) [69; 101] = true) by (destruct He as [->| ->]; reflexivity). rewrite E1.
      destruct (digits_head d Hd) as (c & d' & -> & Dc & Dd). rewrite <- app_assoc.
      assert (E2 : oneOf [43; 45] (s ++ (c :: d') ++ r) = (s, (c :: d') ++ r)).
      { destruct Hs as [->|[->| ->]]; [|reflexivity|reflexivity]. cbn [app]. apply oneOf_no. pose proof (isDigit_range c Dc). cbn [existsb].
        destruct (N.eqb_spec (Byte.to_N c) 43); [lia|]. destruct (N.eqb_spec (Byte.to_N c) 45); [lia|]. reflexivity. }
      rewrite E2, takeDigits_all.
      + cbn [app]. reflexivity.
      + cbn [forallb]. rewrite Dc, Dd. reflexivity.
      + destruct r as [|x r]; [exact I|exact (proj1 Fo)]. }
  (* what comes after the integer part does not begin with a digit *)
  assert (ND : match fr ++ ex ++ r with c :: _ => isDigit c = false | [] => True end).
  { destruct Fr as [->|(d & _ & ->)]; [|reflexivity]. cbn [app]. destruct Ex as [->|(e & s & d & He & _ & _ & ->)].
    - cbn [app]. destruct r as [|x r]; [exact I|exact (proj1 Fo)].
    - cbn [app]. destruct He as [->| ->]; reflexivity. }
  assert (ND2 : match ex ++ r with c :: _ => isDigit c = false /\ Byte.to_N c <> 46 | [] => True end).
  { destruct Ex as [->|(e & s & d & He & _ & _ & ->)].
    - cbn [app]. destruct r as [|x r]; [exact I|]. split; apply Fo.
    - cbn [app]. destruct He as [->| ->]; (split; [reflexivity|discriminate]). }
  rewrite <- !app_assoc. unfold scanNum.
  assert (ES : oneOf [45] (sg ++ ip ++ fr ++ ex ++ r) = (sg, ip ++ fr ++ ex ++ r)).
  { destruct Sg as [->| ->]; [|reflexivity]. cbn [app]. apply oneOf_no.
    assert (H : exists c d, ip = c :: d /\ isDigit c = true).
    { destruct Ip as [->|[Ip _]]; [exists x30, []; split; reflexivity|]. destruct (digits_head ip Ip) as (c & d & -> & Dc & _). exists c, d. split; [reflexivity|exact Dc]. }
    destruct H as (c & d & -> & Dc). cbn [app existsb]. pose proof (isDigit_range c Dc). destruct (N.eqb_spec (Byte.to_N c) 45); [lia|reflexivity]. }
  rewrite ES.
  assert (EI : exists c d, takeDigits (ip ++ fr ++ ex ++ r) = (c :: d, fr ++ ex ++ r) /\ ip = c :: d /\
               (Byte.to_N c = 48 -> d = [])).
  { destruct Ip as [->|[Ip H0]].
    - exists x30, []. split; [apply takeDigits_all; [reflexivity|exact ND]|]. split; [reflexivity|intros _; reflexivity].
    - destruct (digits_head ip Ip) as (c & d & -> & Dc & Dd). exists c, d. split; [apply takeDigits_all; [cbn [forallb]; rewrite Dc, Dd; reflexivity|exact ND]|].
      split; [reflexivity|]. intros E. exfalso. apply H0. cbn [hd_error]. f_equal. apply to_N_inj. rewrite E. reflexivity. }
  destruct EI as (c & d & -> & -> & EI). cbv iota beta.
  assert (EJ : forall K : bytes -> bytes -> option (bytes * bytes),
    (let '(i, y) := if Byte.to_N c =? 48 then ([c], d ++ fr ++ ex ++ r) else (c :: d, fr ++ ex ++ r) in K i y) = K (c :: d) (fr ++ ex ++ r)).
  { intros K. destruct (N.eqb_spec (Byte.to_N c) 48) as [E|_]; [rewrite (EI E); reflexivity|reflexivity]. }
  rewrite EJ. clear EJ.
  destruct Fr as [->|(f & Hf & ->)].
  - cbn [app]. rewrite oneOf_no.
    + rewrite XE. rewrite <- !app_assoc. cbn [app]. reflexivity.
    + destruct (ex ++ r) as [|x y]; [exact I|]. cbn [existsb]. destruct (N.eqb_spec (Byte.to_N x) 46); [destruct (proj2 ND2); assumption|reflexivity].
  - cbn [app oneOf]. change (existsb (N.eqb (Byte.to_N x2e)) [46]) with true. cbv iota.
    rewrite takeDigits_all; [|apply Hf|destruct (ex ++ r); [exact I|exact (proj1 ND2)]].
    destruct (digits_head f Hf) as (cf & df & -> & _). rewrite XE. rewrite <- !app_assoc. cbn [app]. rewrite <- ?app_assoc. reflexivity.
Qed.

Section Parse.
Variable C : bytes -> bytes -> Prop.
(** The first byte of a value *)
Lemma jtext_head t v : jsonText C t v -> exists c r, t = c :: r /\ isWs c = false /\ Byte.to_N c <> 93 /\ Byte.to_N c <> 125.
Proof.
  assert (D : forall ip, ip = [x30] \/ digits ip /\ hd_error ip <> Some x30 -> exists c r, ip = c :: r /\ isDigit c = true).
  { intros ip [->|[I _]]; [exists x30, []; split; reflexivity|]. destruct (digits_head ip I) as (c & d & -> & Dc & _). exists c, d. split; [reflexivity|exact Dc]. }
  intros J. destruct J; try (eexists; eexists; split; [reflexivity|]; repeat split; discriminate).
  destruct H as (sg & ip & fr & ex & -> & [->| ->] & Ip & _).
  - destruct (D ip Ip) as (c & r & -> & Dc). exists c, (r ++ fr ++ ex). split; [reflexivity|]. pose proof (isDigit_range c Dc).
    split; [|split; lia]. unfold isWs. destruct (N.eqb_spec (Byte.to_N c) 32), (N.eqb_spec (Byte.to_N c) 9), (N.eqb_spec (Byte.to_N c) 10), (N.eqb_spec (Byte.to_N c) 13); try lia; reflexivity.
  - eexists. eexists. split; [reflexivity|]. repeat split; discriminate.
Qed.
Lemma skipWs_value w t v r : ws w -> jsonText C t v -> skipWs (w ++ t ++ r) = t ++ r.
Proof.
  intros W J. rewrite skipWs_ws by exact W. destruct (jtext_head t v J) as (c & t' & -> & Hc & _). cbn [app]. apply skipWs_stop. exact Hc.
Qed.
Lemma follow_ws w c r : ws w -> follow (c :: r) -> follow (w ++ c :: r).
Proof.
  intros W F. destruct W as [|x w I W]; [exact F|]. cbn [app follow]. cbn in I.
  repeat (destruct I as [<-|I]; [repeat split; discriminate|]). destruct I.
Qed.
Lemma lit_app w v r : lit w v (w ++ r) = Some (v, r).
Proof.
  unfold lit. rewrite firstn_app, firstn_all, Nat.sub_diag. cbn [firstn]. rewrite app_nil_r, beq_refl.
  rewrite skipn_app, skipn_all, Nat.sub_diag. reflexivity.
Qed.
Lemma value_num t r f : numText t -> follow r -> value (S f) (t ++ r) = Some (JNum t, r).
Proof.
  intros H F. pose proof (scan_number t r H F) as E.
  assert (X : exists c t', t = c :: t' /\ (isDigit c = true \/ c = x2d)).
  { destruct H as (sg & ip & fr & ex & -> & [->| ->] & Ip & _); [|eexists; eexists; split; [reflexivity|right; reflexivity]].
    destruct Ip as [->|[Ip _]]; [exists x30, (fr ++ ex); split; [reflexivity|left; reflexivity]|].
    destruct (digits_head ip Ip) as (c & d & -> & Dc & _). exists c, (d ++ fr ++ ex). split; [reflexivity|left; exact Dc]. }
  destruct X as (c & t' & -> & Hc). cbn [app] in *. cbn [value]. cbv zeta.
  assert (R : Byte.to_N c = 45 \/ 48 <= Byte.to_N c <= 57) by (destruct Hc as [Hc| ->]; [right; apply isDigit_range; exact Hc|left; reflexivity]).
  repeat match goal with |- context [Byte.to_N c =? ?k] => destruct (N.eqb_spec (Byte.to_N c) k); [lia|] end. rewrite E. reflexivity.
Qed.

(** [C] is read as it says. *)
Hypothesis Cscan : forall t s, C t s -> forall r, scanStr (t ++ x22 :: r) = Some (t, r).
Hypothesis Cunquote : forall t s, C t s -> forall fuel, (length t <= fuel)%nat -> unquote fuel t = s.
Theorem parse_all :
  (forall t v, jsonText C t v -> forall fuel r, (2 * length t <= fuel)%nat -> (forall n, v = JNum n -> follow r) -> value fuel (t ++ r) = Some (v, r)) /\
  (forall t l, jsonElems C t l -> forall fuel r, (2 * length t + 1 <= fuel)%nat -> elems fuel (t ++ x5d :: r) = Some (l, r)) /\
  (forall t l, jsonMembers C t l -> forall fuel r, (2 * length t + 1 <= fuel)%nat -> members fuel (t ++ x7d :: r) = Some (l, r)).
Proof.
  apply json_mut.
  - intros fuel r L F. destruct fuel as [|f]; [cbn in L; lia|]. apply (lit_app (B "null")).
  - intros fuel r L F. destruct fuel as [|f]; [cbn in L; lia|]. apply (lit_app (B "true")).
  - intros fuel r L F. destruct fuel as [|f]; [cbn in L; lia|]. apply (lit_app (B "false")).
  - intros t H fuel r L F. destruct (jtext_head t _ (jt_num t H)) as (c & t' & E & _). rewrite E in L. cbn [length] in L.
    destruct fuel as [|f]; [lia|]. apply value_num; [exact H|exact (F t eq_refl)].
  - intros t s C0 fuel r L F. cbn [length] in L. destruct fuel as [|f]; [lia|]. cbn [app value]. cbv zeta.
    change (Byte.to_N x22 =? 123) with false. change (Byte.to_N x22 =? 91) with false. change (Byte.to_N x22 =? 34) with true. cbv iota.
    rewrite <- app_assoc. cbn [app]. rewrite (Cscan t s C0). rewrite (Cunquote t s C0 _ (le_n _)). reflexivity.
  - intros w W fuel r L F. cbn [length] in L. destruct fuel as [|f]; [lia|]. cbn [app value]. cbv zeta.
    change (Byte.to_N x5b =? 123) with false. change (Byte.to_N x5b =? 91) with true. cbv iota.
    rewrite <- app_assoc. cbn [app]. rewrite skipWs_ws by exact W. reflexivity.
  - intros t l J IH fuel r L F. cbn [length] in L. rewrite app_length in L. cbn [length] in L. destruct fuel as [|f]; [lia|]. cbn [app value]. cbv zeta.
    change (Byte.to_N x5b =? 123) with false. change (Byte.to_N x5b =? 91) with true. cbv iota.
    rewrite <- app_assoc. cbn [app]. rewrite IH by lia.
    assert (X : exists c b, skipWs (t ++ x5d :: r) = c :: b /\ Byte.to_N c <> 93).
    { destruct J as [w t w' v W W' J|w t w' v t' l W W' J Js]; rewrite <- app_assoc; rewrite <- ?app_assoc;
        [erewrite skipWs_value by eassumption|erewrite skipWs_value by eassumption];
        destruct (jtext_head t v J) as (c & t0 & -> & _ & H93 & _); cbn [app]; eexists; eexists; (split; [reflexivity|exact H93]). }
    destruct X as (c & b & -> & H93). destruct (N.eqb_spec (Byte.to_N c) 93); [contradiction|reflexivity].
  - intros w W fuel r L F. cbn [length] in L. destruct fuel as [|f]; [lia|]. cbn [app value]. cbv zeta.
    change (Byte.to_N x7b =? 123) with true. cbv iota.
    rewrite <- app_assoc. cbn [app]. rewrite skipWs_ws by exact W. reflexivity.
  - intros t l J IH fuel r L F. cbn [length] in L. rewrite app_length in L. cbn [length] in L. destruct fuel as [|f]; [lia|]. cbn [app value]. cbv zeta.
    change (Byte.to_N x7b =? 123) with true. cbv iota.
    rewrite <- app_assoc. cbn [app]. rewrite IH by lia.
    assert (X : exists b, skipWs (t ++ x7d :: r) = x22 :: b).
    { destruct J; rewrite <- app_assoc, skipWs_ws by assumption; eexists; reflexivity. }
    destruct X as (b & ->). reflexivity.
  - intros w t w' v W W' J IH fuel r L. rewrite !app_length in L. destruct fuel as [|f]; [lia|]. cbn [elems].
    rewrite <- !app_assoc. rewrite (skipWs_value w t v) by assumption. rewrite IH; [|lia|intros ? _; apply follow_ws; [exact W'|repeat split; discriminate]].
    rewrite skipWs_ws by exact W'. reflexivity.
  - intros w t w' v t' l W W' J IH Js IHs fuel r L. rewrite !app_length in L. cbn [length] in L. destruct fuel as [|f]; [lia|]. cbn [elems].
    rewrite <- !app_assoc. rewrite (skipWs_value w t v) by assumption. cbn [app].
    rewrite IH; [|lia|intros ? _; apply follow_ws; [exact W'|repeat split; discriminate]].
    rewrite skipWs_ws by exact W'. rewrite skipWs_stop by reflexivity. change (Byte.to_N x2c =? 44) with true. cbv iota. rewrite IHs by lia. reflexivity.
  - intros w k s w1 w2 t w' v W W1 W2 W' C0 J IH fuel r L.
    rewrite !app_length in L. cbn [length] in L. rewrite !app_length in L. cbn [length] in L. rewrite !app_length in L. cbn [length] in L. rewrite !app_length in L.
    destruct fuel as [|f]; [lia|]. cbn [members].
    rewrite <- !app_assoc. rewrite skipWs_ws by exact W. cbn [app]. rewrite skipWs_stop by reflexivity. change (Byte.to_N x22 =? 34) with true. cbv iota.
    rewrite <- !app_assoc. cbn [app]. rewrite (Cscan k s C0). rewrite <- !app_assoc. rewrite skipWs_ws by exact W1. cbn [app]. rewrite skipWs_stop by reflexivity.
    change (Byte.to_N x3a =? 58) with true. cbv iota. rewrite <- !app_assoc. rewrite (skipWs_value w2 t v) by assumption.
    rewrite IH; [|lia|intros ? _; apply follow_ws; [exact W'|repeat split; discriminate]]. cbv zeta. rewrite (Cunquote k s C0 _ (le_n _)).
    rewrite skipWs_ws by exact W'. reflexivity.
  - intros w k s w1 w2 t w' v t' l W W1 W2 W' C0 J IH Js IHs fuel r L.
    rewrite !app_length in L. cbn [length] in L. rewrite !app_length in L. cbn [length] in L. rewrite !app_length in L. cbn [length] in L. rewrite !app_length in L. cbn [length] in L.
    destruct fuel as [|f]; [lia|]. cbn [members].
    rewrite <- !app_assoc. rewrite skipWs_ws by exact W. cbn [app]. rewrite skipWs_stop by reflexivity. change (Byte.to_N x22 =? 34) with true. cbv iota.
    rewrite <- !app_assoc. cbn [app]. rewrite (Cscan k s C0). rewrite <- !app_assoc. rewrite skipWs_ws by exact W1. cbn [app]. rewrite skipWs_stop by reflexivity.
    change (Byte.to_N x3a =? 58) with true. cbv iota. rewrite <- !app_assoc. rewrite (skipWs_value w2 t v) by assumption. cbn [app].
    rewrite IH; [|lia|intros ? _; apply follow_ws; [exact W'|repeat split; discriminate]]. cbv zeta. rewrite (Cunquote k s C0 _ (le_n _)).
    rewrite skipWs_ws by exact W'. rewrite skipWs_stop by reflexivity. change (Byte.to_N x2c =? 44) with true. cbv iota. rewrite IHs by lia. reflexivity.
Qed.
End Parse.
Arguments jtext_head {C}. Arguments skipWs_value {C}.
Definition parse_complete := parse_all chars chars_scan chars_unquote.
Definition parse_loose := parse_all loose loose_scan loose_unquote.
