(** * Facts about the calendar and the expiry date identifiers *)
From Verif Require Import Base SerialModel TimeModel.
From Coq Require Import Strings.Byte.
Local Open Scope Z_scope.

Lemma yoe_ok doe : 0 <= doe < 146097 ->
  let yoe := (doe - doe / 1460 + doe / 36524 - doe / 146096) / 365 in
  0 <= yoe < 400 /\
  0 <= doe - (365 * yoe + yoe / 4 - yoe / 100) < 366.
Proof. intros H yoe. subst yoe. lia. Qed.

(** The extra day at the end of a (March-based) year only exists before a
    leap year's March. *)
Lemma last_day_leap doe : 0 <= doe < 146097 ->
  let yoe := (doe - doe / 1460 + doe / 36524 - doe / 146096) / 365 in
  doe - (365 * yoe + yoe / 4 - yoe / 100) = 365 -> isLeap (yoe + 1) = true.
Proof.
  intros H yoe E.
  assert (D : (yoe + 1) mod 4 = 0 /\ ((yoe + 1) mod 100 <> 0 \/ (yoe + 1) mod 400 = 0))
    by (subst yoe; lia).
  unfold isLeap. destruct D as [D1 [D2|D2]]; rewrite D1; cbn [Z.eqb andb].
  - apply orb_true_iff; left. apply negb_true_iff. apply Z.eqb_neq. exact D2.
  - rewrite D2. cbn [Z.eqb]. apply orb_true_r.
Qed.

Lemma isLeap_era y e : isLeap (y + e * 400) = isLeap y.
Proof.
  unfold isLeap.
  replace ((y + e * 400) mod 4) with (y mod 4) by lia.
  replace ((y + e * 400) mod 100) with (y mod 100) by lia.
  replace ((y + e * 400) mod 400) with (y mod 400) by lia. reflexivity.
Qed.

Definition validDate (y m d : Z) : Prop := 1 <= m <= 12 /\ 1 <= d <= daysIn m y.

Lemma civil_roundtrip z y m d : civilOfDays z = (y, m, d) ->
  daysOfCivil y m d = z /\ validDate y m d.
Proof.
  unfold civilOfDays.
  set (z' := z + 719468). set (era := z' / 146097). set (doe := z' mod 146097).
  set (yoe := (doe - doe / 1460 + doe / 36524 - doe / 146096) / 365).
  set (doy := doe - (365 * yoe + yoe / 4 - yoe / 100)).
  set (mp := (5 * doy + 2) / 153).
  cbv zeta. intros E.
  assert (Hdoe : 0 <= doe < 146097) by (subst doe; apply Z.mod_pos_bound; lia).
  pose proof (yoe_ok doe Hdoe) as [Y1 Y2]. fold yoe in Y1, Y2. fold doy in Y2.
  pose proof (last_day_leap doe Hdoe) as L. fold yoe in L. fold doy in L. cbv zeta in L.
  assert (Hz : z' = era * 146097 + doe) by (subst era doe; lia).
  assert (Hd : doe = yoe * 365 + yoe / 4 - yoe / 100 + doy) by (subst doy; lia).
  assert (Hmp : 0 <= mp <= 11) by (subst mp; lia).
  assert (Hday : 0 <= doy - (153 * mp + 2) / 5 <= 30) by (subst mp; lia).
  assert (Hdlen : doy - (153 * mp + 2) / 5 + 1 <=
     (if mp =? 11 then (if doy =? 365 then 29 else 28)
      else if (mp =? 1) || (mp =? 3) || (mp =? 6) || (mp =? 8) then 30 else 31)).
  { clear -Y2 Hmp. clearbody doy.
    destruct (mp =? 11) eqn:E1.
    - destruct (doy =? 365) eqn:E2; subst mp; lia.
    - destruct ((mp =? 1) || (mp =? 3) || (mp =? 6) || (mp =? 8)) eqn:E2; subst mp; lia. }
  clearbody doe yoe mp. clearbody doy.
  assert (ym : (mp < 10 /\ y = yoe + era * 400 /\ m = mp + 3 \/
                10 <= mp /\ y = yoe + era * 400 + 1 /\ m = mp - 9) /\
               d = doy - (153 * mp + 2) / 5 + 1).
  { destruct (mp <? 10) eqn:Em.
    - replace (mp + 3 <=? 2) with false in E by lia. apply pair_equal_spec in E; destruct E as [E Ed]; apply pair_equal_spec in E; destruct E as [Ey Em2]. lia.
    - replace (mp - 9 <=? 2) with true in E by lia. apply pair_equal_spec in E; destruct E as [E Ed]; apply pair_equal_spec in E; destruct E as [Ey Em2]. lia. }
  clear E. destruct ym as [ym ->]. split.
  - unfold daysOfCivil. destruct ym as [(A & -> & ->)|(A & -> & ->)].
    + replace (mp + 3 <=? 2) with false by lia. replace (2 <? mp + 3) with true by lia.
      replace ((yoe + era * 400) / 400) with era by lia.
      replace ((yoe + era * 400) mod 400) with yoe by lia.
      replace (mp + 3 - 3) with mp by lia. lia.
    + replace (mp - 9 <=? 2) with true by lia. replace (2 <? mp - 9) with false by lia.
      replace ((yoe + era * 400 + 1 - 1) / 400) with era by lia.
      replace ((yoe + era * 400 + 1 - 1) mod 400) with yoe by lia.
      replace (mp - 9 + 9) with mp by lia. lia.
  - unfold validDate, daysIn. split; [lia|]. split; [lia|].
    destruct ym as [(A & -> & ->)|(A & -> & ->)].
    + replace (mp + 3 =? 2) with false by lia.
      replace (mp =? 11) with false in Hdlen by lia.
      replace (mp + 3 =? 4) with (mp =? 1) by lia.
      replace (mp + 3 =? 6) with (mp =? 3) by lia.
      replace (mp + 3 =? 9) with (mp =? 6) by lia.
      replace (mp + 3 =? 11) with (mp =? 8) by lia. exact Hdlen.
    + replace (mp - 9 =? 4) with false by lia. replace (mp - 9 =? 6) with false by lia.
      replace (mp - 9 =? 9) with false by lia. replace (mp - 9 =? 11) with false by lia.
      cbn [orb].
      destruct (mp =? 11) eqn:E1.
      * replace (mp - 9 =? 2) with true by lia.
        replace (yoe + era * 400 + 1) with (yoe + 1 + era * 400) by lia. rewrite isLeap_era.
        destruct (doy =? 365) eqn:E2.
        -- rewrite L by lia. lia.
        -- destruct (isLeap (yoe + 1)); lia.
      * replace (mp - 9 =? 2) with false by lia. lia.
Qed.

(** ** Decimal digits *)
Lemma digitVal_digit n : 0 <= n <= 9 -> digitVal (digit n) = Some n.
Proof.
  intros H.
  assert (C : n = 0 \/ n = 1 \/ n = 2 \/ n = 3 \/ n = 4 \/ n = 5 \/ n = 6 \/ n = 7 \/ n = 8 \/ n = 9) by lia.
  repeat (destruct C as [->|C]; [vm_compute; reflexivity|]). subst. vm_compute; reflexivity.
Qed.

Lemma decNum_app a s t :
  decNum a (s ++ t) = match decNum a s with Some b => decNum b t | None => None end.
Proof.
  revert a; induction s as [|c s IH]; intros a; cbn [decNum app]; [reflexivity|].
  destruct (digitVal c); [apply IH|reflexivity].
Qed.

Lemma decNum_fixed k : forall n, 0 <= n < 10 ^ Z.of_nat k -> decNum 0 (decFixed k n) = Some n.
Proof.
  induction k as [|k IH]; intros n H.
  - cbn [decFixed decNum]. change (10 ^ Z.of_nat 0) with 1 in H. f_equal; lia.
  - cbn [decFixed]. rewrite decNum_app.
    rewrite Nat2Z.inj_succ, Z.pow_succ_r in H by lia.
    rewrite IH by lia. cbn [decNum]. rewrite digitVal_digit by lia. f_equal; lia.
Qed.

Lemma decFixed_length k n : length (decFixed k n) = k.
Proof. revert n; induction k; intros n; cbn [decFixed]; [reflexivity|]. rewrite app_length, IHk. cbn; lia. Qed.

Lemma decFixed2 n : decFixed 2 n = [digit (n / 10 mod 10); digit (n mod 10)].
Proof. reflexivity. Qed.

Lemma decFixed4 n :
  decFixed 4 n = [digit (n / 10 / 10 / 10 mod 10); digit (n / 10 / 10 mod 10); digit (n / 10 mod 10); digit (n mod 10)].
Proof. reflexivity. Qed.

(** The year of a time, as a condition on times. *)
Definition yearOf (t : Z) : Z := fst (fst (civilOfDays (t / nsDay))).

Lemma parse_format_day t rest : 0 <= yearOf t <= 9999 ->
  parseDayPrefix (formatDay t ++ rest) = Some (t / nsDay, rest).
Proof.
  unfold yearOf, formatDay. destruct (civilOfDays (t / nsDay)) as [[y m] d] eqn:E. cbn [fst].
  intros Hy. apply civil_roundtrip in E. destruct E as [E [V1 V2]].
  pose proof (decNum_fixed 4 y ltac:(change (10 ^ Z.of_nat 4) with 10000; lia)) as Ey.
  assert (D31 : daysIn m y <= 31).
  { unfold daysIn. destruct (m =? 2); [destruct (isLeap y); lia|].
    destruct ((m =? 4) || (m =? 6) || (m =? 9) || (m =? 11)); lia. }
  pose proof (decNum_fixed 2 m ltac:(change (10 ^ Z.of_nat 2) with 100; lia)) as Em.
  pose proof (decNum_fixed 2 d ltac:(change (10 ^ Z.of_nat 2) with 100; lia)) as Ed.
  rewrite decFixed4 in Ey |- *. rewrite decFixed2 in Em, Ed. rewrite !decFixed2.
  change (B "-") with ["-"%byte]. cbn [app].
  unfold parseDayPrefix.
  replace (Byte.eqb "-" "-") with true by reflexivity. cbn [andb].
  rewrite Ey, Em, Ed.
  replace (1 <=? m) with true by lia. replace (m <=? 12) with true by lia.
  replace (1 <=? d) with true by lia. replace (d <=? daysIn m y) with true by lia.
  cbn [andb]. rewrite E. reflexivity.
Qed.

Lemma formatDay_length t : length (formatDay t) = 10%nat.
Proof.
  unfold formatDay. destruct (civilOfDays (t / nsDay)) as [[y m] d].
  rewrite !app_length, !decFixed_length. reflexivity.
Qed.

Lemma formatHour_length t : length (formatHour t) = 13%nat.
Proof. unfold formatHour. rewrite !app_length, formatDay_length, decFixed_length. reflexivity. Qed.

Lemma parse_format_hour t : 0 <= yearOf t <= 9999 -> parseHour (formatHour t) = Some (truncHour t).
Proof.
  intros H. unfold parseHour, formatHour. rewrite parse_format_day by exact H.
  change (B "-") with ["-"%byte]. cbn [app].
  replace (Byte.eqb "-" "-") with true by reflexivity.
  rewrite decFixed_length. cbn [Nat.eqb orb andb].
  assert (Hh : 0 <= (t mod nsDay) / nsHour < 24) by (unfold nsDay, nsHour, nsSecond; lia).
  rewrite decNum_fixed by (change (10 ^ Z.of_nat 2) with 100; lia).
  replace ((t mod nsDay) / nsHour <? 24) with true by lia.
  f_equal. unfold truncHour, nsDay, nsHour, nsSecond. lia.
Qed.

Lemma truncHour_le t : truncHour t <= t < truncHour t + nsHour.
Proof. unfold truncHour, nsHour, nsSecond. lia. Qed.

Lemma truncHour_day t : truncHour t / nsDay = t / nsDay.
Proof. unfold truncHour, nsDay, nsHour, nsSecond. lia. Qed.

Lemma truncHour_mult n : truncHour (n * nsHour) = n * nsHour.
Proof. unfold truncHour, nsHour, nsSecond. lia. Qed.

Lemma truncHour_idem t : truncHour (truncHour t) = truncHour t.
Proof. unfold truncHour, nsHour, nsSecond. lia. Qed.

Lemma yearOf_trunc t : yearOf (truncHour t) = yearOf t.
Proof. unfold yearOf. rewrite truncHour_day. reflexivity. Qed.

Lemma formatHour_trunc t : formatHour (truncHour t) = formatHour t.
Proof.
  unfold formatHour, formatDay. rewrite truncHour_day.
  replace (truncHour t mod nsDay / nsHour) with (t mod nsDay / nsHour); [reflexivity|].
  unfold truncHour, nsDay, nsHour, nsSecond. lia.
Qed.

(** Reading an identifier back. *)
Lemma newExpDate_hourID t : 0 <= yearOf t <= 9999 ->
  newExpDate (expID (newExpDateFromTime t)) =
  Some (mkExp (truncHour t) (truncHour t + nsHour - nsMilli) true).
Proof.
  intros H. unfold expID, newExpDateFromTime. cbn [ed_hour ed_date]. unfold newExpDate.
  rewrite formatHour_length. cbn [Nat.ltb Nat.leb].
  rewrite formatHour_trunc, parse_format_hour by exact H. reflexivity.
Qed.

Lemma newExpDate_dayID t : 0 <= yearOf t <= 9999 ->
  newExpDate (formatDay t) = Some (mkExp (t / nsDay * nsDay) (t / nsDay * nsDay + nsDay - nsMilli) false).
Proof.
  intros H. unfold newExpDate. rewrite formatDay_length. cbn [Nat.ltb Nat.leb].
  unfold parseDay. rewrite <- (app_nil_r (formatDay t)), parse_format_day by exact H. reflexivity.
Qed.
