(** * RFC 3339 times: what is written and what is read (for P_Json.v) *)
From Verif Require Import Base SerialModel SerialProofs TimeModel TimeProofs QueryModel PublishModel TextProofs P_RunIds P_ExpDate JsonModel JsonSpec JsonProofs.
From Coq Require Import Strings.Byte.
Local Open Scope Z_scope.

(** ** The calendar *)
Lemma dayNumber_days y m d : 1 <= m <= 12 -> dayNumber y m d = daysOfCivil y m d.
Proof.
  intros M. rewrite days_split, dayOfYear_table by exact M. unfold dayNumber, before, marchYear.
  assert (L : isLeap y = true -> (y mod 4 = 0 /\ (y mod 100 <> 0 \/ y mod 400 = 0))) by apply leap_spec.
  assert (L' : isLeap y = false -> ~ (y mod 4 = 0 /\ (y mod 100 <> 0 \/ y mod 400 = 0))) by (intros F X; apply leap_spec in X; congruence).
  destruct (isLeap y); [specialize (L eq_refl); clear L'|specialize (L' eq_refl); clear L];
    months M; unfold daysBefore, cum;
    repeat match goal with |- context [nth ?a ?b ?c] => let v := eval vm_compute in (nth a b c) in change (nth a b c) with v end;
    repeat match goal with |- context [?a <=? 2] => let v := eval vm_compute in (a <=? 2) in change (a <=? 2) with v end;
    repeat match goal with |- context [2 <? ?a] => let v := eval vm_compute in (2 <? a) in change (2 <? a) with v end; cbn [andb]; lia.
Qed.

(** ** Digits *)
Lemma decNum_fold d : forall n : N, forallb isDigit d = true ->
  decNum (Z.of_N n) d = Some (Z.of_N (fold_left (fun n c => 10 * n + (Byte.to_N c - 48))%N d n)).
Proof.
  induction d as [|c d IH]; intros n D; [reflexivity|]. cbn [forallb] in D. apply andb_true_iff in D. destruct D as [D1 D2].
  apply isDigit_range in D1. cbn [decNum fold_left]. unfold digitVal.
  destruct (Z.leb_spec 48 (Z.of_N (Byte.to_N c))); [|lia]. destruct (Z.leb_spec (Z.of_N (Byte.to_N c)) 57); [|lia]. cbn [andb].
  rewrite <- (IH _ D2). f_equal. lia.
Qed.
Lemma decNum_value d : forallb isDigit d = true -> decNum 0 d = Some (Z.of_N (valueOf d)).
Proof. apply (decNum_fold d 0%N). Qed.
Lemma fold_shift d : forall n : N, (fold_left (fun n c => 10 * n + (Byte.to_N c - 48)) d n = n * 10 ^ N.of_nat (length d) + valueOf d)%N.
Proof.
  unfold valueOf. induction d as [|c d IH]; intros n; [cbn; lia|]. cbn [fold_left length].
  rewrite IH, (IH (10 * 0 + _)%N). rewrite Nat2N.inj_succ, N.pow_succ_r'. set (p := (10 ^ N.of_nat (length d))%N). clearbody p. nia.
Qed.
Lemma valueOf_app a b : (valueOf (a ++ b) = valueOf a * 10 ^ N.of_nat (length b) + valueOf b)%N.
Proof. unfold valueOf at 1. rewrite fold_left_app. apply fold_shift. Qed.
Lemma valueOf_lt d : forallb isDigit d = true -> (valueOf d < 10 ^ N.of_nat (length d))%N.
Proof.
  induction d as [|c d IH]; intros D; [cbn; lia|]. cbn [forallb] in D. apply andb_true_iff in D. destruct D as [D1 D2]. apply isDigit_range in D1.
  change (c :: d) with ([c] ++ d). rewrite valueOf_app, app_length. cbn [length plus]. rewrite Nat2N.inj_succ, N.pow_succ_r'.
  specialize (IH D2). assert (V : (valueOf [c] <= 9)%N) by (unfold valueOf; cbn [fold_left]; lia).
  set (p := (10 ^ N.of_nat (length d))%N) in *. clearbody p. nia.
Qed.
Lemma valueOf_zeros k : valueOf (repeat x30 k) = 0%N.
Proof. induction k as [|k IH]; [reflexivity|]. cbn [repeat]. change (x30 :: repeat x30 k) with ([x30] ++ repeat x30 k). rewrite valueOf_app, IH. reflexivity. Qed.
Lemma pow_Z k : Z.of_N (10 ^ N.of_nat k) = 10 ^ Z.of_nat k.
Proof. rewrite N2Z.inj_pow. f_equal. lia. Qed.
Lemma forallb_zeros k : forallb isDigit (repeat x30 k) = true.
Proof. induction k as [|k IH]; [reflexivity|exact IH]. Qed.

Lemma nanoseconds_value d : forallb isDigit d = true -> nanoseconds d = Some (Z.of_N (valueOf d) * 10 ^ 9 / 10 ^ Z.of_nat (length d)).
Proof.
  intros D. unfold nanoseconds. destruct (Nat.le_gt_cases 9 (length d)) as [L|L].
  - rewrite firstn_app. replace (9 - length d)%nat with 0%nat by lia. rewrite firstn_O, app_nil_r.
    assert (Lp : length (firstn 9 d) = 9%nat) by (apply firstn_length_le; exact L).
    assert (E : d = firstn 9 d ++ skipn 9 d) by (symmetry; apply firstn_skipn).
    set (p := firstn 9 d) in *. set (q := skipn 9 d) in *. clearbody p q. subst d.
    rewrite forallb_app, andb_true_iff in D. destruct D as [D1 D2]. rewrite decNum_value by exact D1. f_equal.
    rewrite app_length, Lp, valueOf_app. pose proof (valueOf_lt _ D2) as B0. apply N2Z.inj_lt in B0. rewrite pow_Z in B0.
    rewrite N2Z.inj_add, N2Z.inj_mul, pow_Z, Nat2Z.inj_add, Z.add_comm, (Z.add_comm (Z.of_nat 9)), Z.pow_add_r by lia. change (10 ^ Z.of_nat 9) with (10 ^ 9).
    rewrite Z.div_mul_cancel_r by (try lia; apply Z.pow_nonzero; lia).
    rewrite Z.add_comm, Z.div_add_l by lia. rewrite Z.div_small by lia. lia.
  - assert (E : firstn 9 (d ++ repeat x30 9) = d ++ repeat x30 (9 - length d)).
    { rewrite firstn_app, firstn_all2 by lia. f_equal. clear D. set (k := length d) in *. clearbody k.
      assert (C : (k = 0 \/ k = 1 \/ k = 2 \/ k = 3 \/ k = 4 \/ k = 5 \/ k = 6 \/ k = 7 \/ k = 8)%nat) by lia.
      repeat (destruct C as [->|C]; [reflexivity|]). subst k. reflexivity. }
    rewrite E, decNum_value by (rewrite forallb_app, D, forallb_zeros; reflexivity). f_equal.
    rewrite valueOf_app, valueOf_zeros, repeat_length, N.add_0_r, N2Z.inj_mul, pow_Z.
    replace (10 ^ 9) with (10 ^ Z.of_nat (9 - length d) * 10 ^ Z.of_nat (length d)) by (rewrite <- Z.pow_add_r by lia; f_equal; lia).
    rewrite Z.mul_assoc, Z.div_mul by (apply Z.pow_nonzero; lia). reflexivity.
Qed.

Lemma num2_two max d n : num 2 d n -> n <= max -> exists a b, d = [a; b] /\ two max a b = Some n.
Proof.
  intros (L & D & ->) M. destruct d as [|a [|b [|]]]; try discriminate L. exists a, b. split; [reflexivity|].
  unfold two. rewrite decNum_value by exact D. destruct (Z.leb_spec (Z.of_N (valueOf [a; b])) max); [reflexivity|lia].
Qed.
Lemma zone_read x z : zoneText x z -> parseZone x = Some z /\ exists c r, x = c :: r /\ isDigit c = false /\ Byte.eqb c "." = false.
Proof.
  intros [[-> ->]|(s & hh & mm & h & m & -> & H & M & Lh & Lm & S)].
  - split; [reflexivity|]. exists "Z"%byte, []. repeat split.
  - destruct (num2_two 23 hh h H Lh) as (a & b & -> & Eh). destruct (num2_two 59 mm m M Lm) as (c & d & -> & Em).
    change (B ":") with [":"%byte]. cbn [app]. unfold parseZone. rewrite Eh, Em. split.
    + destruct S as [[-> ->]|[-> ->]]; reflexivity.
    + destruct S as [[-> _]|[-> _]]; eexists; eexists; repeat split.
Qed.

(** ** Reading *)
Theorem time_read x t z : rfc3339 x t z -> parseTime x = Some (t, z).
Proof.
  intros (yy & mo & dd & hh & mi & ss & fr & zo & y & m & d & h & n & s & f & -> & Y & Mo & Dd & Hh & Mi & Ss & Fr & Zo & Rm & Rd & Rh & Rn & Rs & Et).
  destruct Y as (Ly & Dy & Ey). destruct Mo as (Lm & Dm & Em). destruct Dd as (Ld & Dg & Ed).
  destruct yy as [|y1 [|y2 [|y3 [|y4 [|]]]]]; try discriminate Ly. destruct mo as [|m1 [|m2 [|]]]; try discriminate Lm. destruct dd as [|d1 [|d2 [|]]]; try discriminate Ld.
  destruct (num2_two 23 hh h Hh Rh) as (h1 & h2 & -> & Eh). destruct (num2_two 59 mi n Mi Rn) as (n1 & n2 & -> & En). destruct (num2_two 59 ss s Ss Rs) as (s1 & s2 & -> & Es).
  change (B "-") with ["-"%byte]. change (B ":") with [":"%byte]. change (B "T") with ["T"%byte]. cbn [app].
  unfold parseTime, parseDayPrefix.
  rewrite (decNum_value [y1; y2; y3; y4] Dy), (decNum_value [m1; m2] Dm), (decNum_value [d1; d2] Dg). rewrite <- Ey, <- Em, <- Ed.
  change (Byte.eqb "-" "-") with true. change (Byte.eqb ":" ":") with true. change (Byte.eqb "T" "T") with true. cbn [andb].
  destruct (Z.leb_spec 1 m); [|lia]. destruct (Z.leb_spec m 12); [|lia]. destruct (Z.leb_spec 1 d); [|lia]. destruct (Z.leb_spec d (daysIn m y)); [|lia]. cbn [andb].
  rewrite Eh, En, Es. destruct (zone_read zo z Zo) as (Ez & c & r & Ec & Nd & Np).
  assert (R : daysOfCivil y m d * nsDay + h * nsHour + n * nsMinute + s * nsSecond + f - z * nsMinute = t).
  { rewrite Et, dayNumber_days by lia. unfold nsDay, nsHour, nsMinute, nsSecond. lia. }
  destruct Fr as [[-> ->]|(q & [Qn Qd] & -> & ->)].
  - cbn [app]. subst zo. cbv iota. rewrite Np. cbv iota beta. change (nanoseconds []) with (Some 0). rewrite Ez, R. reflexivity.
  - cbn [app]. change (Byte.eqb "." ".") with true. cbv iota.
    rewrite takeDigits_all; [|exact Qd|rewrite Ec; exact Nd]. destruct q as [|q0 q]; [contradiction Qn; reflexivity|]. cbv iota beta.
    rewrite nanoseconds_value by exact Qd. rewrite Ez, R. reflexivity.
Qed.

(** ** Writing *)
Lemma digit_isDigit n : 0 <= n <= 9 -> isDigit (digit n) = true.
Proof.
  intros H. assert (C : n = 0 \/ n = 1 \/ n = 2 \/ n = 3 \/ n = 4 \/ n = 5 \/ n = 6 \/ n = 7 \/ n = 8 \/ n = 9) by lia.
  repeat (destruct C as [->|C]; [reflexivity|]). subst n. reflexivity.
Qed.
Lemma fixed_digits k : forall n, 0 <= n -> forallb isDigit (decFixed k n) = true.
Proof.
  induction k as [|k IH]; intros n H; [reflexivity|]. cbn [decFixed]. rewrite forallb_app, IH by lia. cbn [forallb]. rewrite digit_isDigit by lia. reflexivity.
Qed.
Lemma num_fixed k n : 0 <= n < 10 ^ Z.of_nat k -> num k (decFixed k n) n.
Proof.
  intros H. pose proof (fixed_digits k n ltac:(lia)) as D. split; [apply decFixed_length|]. split; [exact D|].
  pose proof (decNum_fixed k n H) as E. rewrite decNum_value in E by exact D. congruence.
Qed.
Lemma trim_split b : exists k, b = trimZeros b ++ repeat x30 k.
Proof.
  induction b as [|c b (k & E)]; [exists 0%nat; reflexivity|]. cbn [trimZeros]. destruct (trimZeros b) as [|x y] eqn:T.
  - destruct (N.eqb_spec (Byte.to_N c) 48) as [Ec|_].
    + exists (S k). cbn [app repeat] in *. f_equal; [|exact E]. apply to_N_inj. rewrite Ec. reflexivity.
    + exists k. cbn [app] in *. f_equal. exact E.
  - exists k. cbn [app] in *. f_equal. exact E.
Qed.
Lemma fraction_text n : 0 <= n < 10 ^ 9 -> fraction (match trimZeros (decFixed 9 n) with [] => [] | _ => B "." ++ trimZeros (decFixed 9 n) end) n.
Proof.
  intros H. destruct (num_fixed 9 n H) as (L & D & E). destruct (trim_split (decFixed 9 n)) as (k & S).
  destruct (trimZeros (decFixed 9 n)) as [|c f] eqn:T.
  - left. split; [reflexivity|]. cbn [app] in S. rewrite S, valueOf_zeros in E. exact E.
  - right. exists (c :: f). rewrite S, forallb_app, andb_true_iff in D. destruct D as [D _]. split; [split; [discriminate|exact D]|].
    split; [reflexivity|]. rewrite S, app_length, repeat_length in L. rewrite S, valueOf_app, valueOf_zeros, repeat_length, N.add_0_r in E.
    rewrite N2Z.inj_mul, pow_Z in E. set (v := Z.of_N (valueOf (c :: f))) in *. set (l := length (c :: f)) in *. clearbody v l.
    replace (10 ^ 9) with (10 ^ Z.of_nat k * 10 ^ Z.of_nat l) by (rewrite <- Z.pow_add_r by lia; f_equal; lia).
    rewrite Z.mul_assoc, Z.div_mul by (apply Z.pow_nonzero; lia). exact E.
Qed.

(** The year of the local time *)
Definition localYear (t z : Z) : Z := fst (fst (civilOfDays ((t + z * nsMinute) / nsDay))).
Theorem time_written t z : 0 <= localYear t z <= 9999 -> -1440 < z < 1440 -> exists x, timeText t z = Some x /\ rfc3339 x t z.
Proof.
  intros Y Zr. unfold timeText, localYear in *. set (l := t + z * nsMinute) in *.
  unfold formatDay. destruct (civilOfDays (l / nsDay)) as [[y m] d] eqn:C. cbn [fst] in Y.
  destruct (civil_roundtrip _ _ _ _ C) as [Ed [Rm Rd]].
  destruct (Z.ltb_spec y 0); [lia|]. destruct (Z.ltb_spec 9999 y); [lia|]. destruct (Z.leb_spec z (-1440)); [lia|]. destruct (Z.leb_spec 1440 z); [lia|]. cbn [orb].
  eexists. split; [reflexivity|].
  set (s := l mod nsDay / nsSecond).
  assert (Rs : 0 <= s < 86400) by (subst s; unfold nsDay, nsHour, nsSecond; lia).
  assert (Dd : d <= 31) by (unfold daysIn in Rd; destruct (m =? 2); [destruct (isLeap y); lia|destruct (_ || _); lia]).
  exists (decFixed 4 y), (decFixed 2 m), (decFixed 2 d), (decFixed 2 (s / 3600)), (decFixed 2 (s / 60 mod 60)), (decFixed 2 (s mod 60)).
  exists (match trimZeros (decFixed 9 (l mod nsSecond)) with [] => [] | _ => B "." ++ trimZeros (decFixed 9 (l mod nsSecond)) end),
    (if z =? 0 then B "Z" else (if z <? 0 then B "-" else B "+") ++ decFixed 2 (Z.abs z / 60) ++ B ":" ++ decFixed 2 (Z.abs z mod 60)).
  exists y, m, d, (s / 3600), (s / 60 mod 60), (s mod 60), (l mod nsSecond).
  split; [rewrite <- (app_assoc (decFixed 4 y)), <- (app_assoc (B "-")), <- (app_assoc (decFixed 2 m)), <- (app_assoc (B "-")); reflexivity|].
  split; [apply num_fixed; lia|]. split; [apply num_fixed; lia|]. split; [apply num_fixed; lia|].
  split; [apply num_fixed; lia|]. split; [apply num_fixed; lia|]. split; [apply num_fixed; lia|].
  split; [apply fraction_text; unfold nsSecond; lia|].
  split.
  { destruct (Z.eqb_spec z 0) as [->|Nz]; [left; split; reflexivity|]. right.
    exists (if z <? 0 then x2d else x2b), (decFixed 2 (Z.abs z / 60)), (decFixed 2 (Z.abs z mod 60)), (Z.abs z / 60), (Z.abs z mod 60).
    split; [destruct (z <? 0); reflexivity|]. split; [apply num_fixed; lia|]. split; [apply num_fixed; lia|]. split; [lia|]. split; [lia|].
    destruct (Z.ltb_spec z 0); [right|left]; (split; [reflexivity|lia]). }
  split; [exact Rm|]. split; [exact Rd|]. split; [lia|]. split; [lia|]. split; [lia|].
  rewrite dayNumber_days by exact Rm. rewrite Ed.
  assert (El : l = l / nsDay * nsDay + l mod nsDay) by (pose proof (Z.div_mod l nsDay ltac:(discriminate)); lia).
  assert (Es : l mod nsDay = s * nsSecond + l mod nsSecond).
  { subst s. pose proof (Z.div_mod (l mod nsDay) nsSecond ltac:(discriminate)) as X.
    assert (E3 : l mod nsDay mod nsSecond = l mod nsSecond).
    { rewrite El at 2. change nsDay with (86400 * nsSecond) at 3. rewrite Z.mul_assoc, Z.add_comm, Z.mod_add by discriminate. reflexivity. }
    lia. }
  assert (Eh : s = s / 3600 * 3600 + s / 60 mod 60 * 60 + s mod 60) by (clear -Rs; lia).
  set (q := l / nsDay) in *. set (a := s / 3600) in *. set (b := s / 60 mod 60) in *. set (c := s mod 60) in *. set (f := l mod nsSecond) in *. set (r := l mod nsDay) in *.
  clearbody q a b c f r s. subst l. unfold nsDay, nsHour, nsMinute, nsSecond in *. clear -El Es Eh. lia.
Qed.

(** The text of a time stands for itself between quotes. *)
Definition plainByte (c : byte) : Prop := (32 <= Byte.to_N c < 128 /\ Byte.to_N c <> 34 /\ Byte.to_N c <> 92)%N.
Lemma plain_chars x : Forall plainByte x -> chars x x.
Proof.
  induction 1 as [|c x (A & B0 & C) F IH]; [constructor|].
  assert (U : utf8 (Byte.to_N c) = [c]) by (rewrite utf8_ascii by lia; rewrite byteOf_to_N; reflexivity).
  change (c :: x) with ([c] ++ x). rewrite <- U. apply ch_plain; [left; lia|lia|exact B0|exact C|exact IH].
Qed.
Lemma digits_plain d : forallb isDigit d = true -> Forall plainByte d.
Proof.
  intros D. apply Forall_forall. intros c I. rewrite forallb_forall in D. specialize (D c I). apply isDigit_range in D. unfold plainByte. lia.
Qed.
Lemma time_chars x t z : rfc3339 x t z -> chars x x.
Proof.
  intros (yy & mo & dd & hh & mi & ss & fr & zo & y & m & d & h & n & s & f & -> & (_ & Y & _) & (_ & Mo & _) & (_ & Dd & _) & (_ & Hh & _) & (_ & Mi & _) & (_ & Ss & _) & Fr & Zo & _).
  apply plain_chars.
  assert (P1 : forall c, In c [x2d; x54; x3a; x2e; x2b; x5a] -> Forall plainByte [c]).
  { intros c I. constructor; [|constructor]. cbn in I. repeat (destruct I as [<-|I]; [repeat split; discriminate|]). destruct I. }
  assert (Pf : Forall plainByte fr).
  { destruct Fr as [[-> _]|(q & [_ Q] & -> & _)]; [constructor|]. change (x2e :: q) with ([x2e] ++ q). apply Forall_app. split; [apply P1; cbn; tauto|apply digits_plain; exact Q]. }
  assert (Pz : Forall plainByte zo).
  { destruct Zo as [[-> _]|(sg & a & b & u & v & -> & (_ & A & _) & (_ & B0 & _) & _ & _ & S)]; [apply (P1 x5a); cbn; tauto|].
    change (sg :: a ++ B ":" ++ b) with ([sg] ++ a ++ [x3a] ++ b). rewrite !Forall_app.
    split; [destruct S as [[-> _]|[-> _]]; apply P1; cbn; tauto|]. split; [apply digits_plain; exact A|]. split; [apply P1; cbn; tauto|apply digits_plain; exact B0]. }
  change (B "-") with [x2d]. change (B ":") with [x3a]. change (B "T") with [x54]. rewrite !Forall_app.
  repeat (split; [first [apply digits_plain; assumption|apply P1; cbn; tauto]|]). split; assumption.
Qed.
