(** * C17, continued: which names are taken for an expiry date *)
From Verif Require Import Base SerialModel SerialProofs TimeModel TimeProofs.
From Coq Require Import Strings.Byte.
Local Open Scope Z_scope.

(** ** The calendar counts every date once *)

(** Days before the year that begins in March of year [y]. *)
Definition before (y : Z) : Z := 365 * y + y / 4 - y / 100 + y / 400.
Definition marchYear (y m : Z) : Z := if m <=? 2 then y - 1 else y.
Definition dayOfYear (m d : Z) : Z := (153 * (if 2 <? m then m - 3 else m + 9) + 2) / 5 + d - 1.

Lemma days_split y m d : daysOfCivil y m d = before (marchYear y m) + dayOfYear m d - 719468.
Proof.
  unfold daysOfCivil, before, marchYear, dayOfYear. set (x := if m <=? 2 then y - 1 else y). clearbody x.
  assert (x = 400 * (x / 400) + x mod 400) by lia. lia.
Qed.

Lemma leap_spec y : isLeap y = true <-> y mod 4 = 0 /\ (y mod 100 <> 0 \/ y mod 400 = 0).
Proof.
  unfold isLeap. rewrite andb_true_iff, orb_true_iff, negb_true_iff, !Z.eqb_eq, Z.eqb_neq. reflexivity.
Qed.

Lemma month_cases m : 1 <= m <= 12 -> m = 1 \/ m = 2 \/ m = 3 \/ m = 4 \/ m = 5 \/ m = 6 \/ m = 7 \/ m = 8 \/ m = 9 \/ m = 10 \/ m = 11 \/ m = 12.
Proof. lia. Qed.

(** Days before a month in a year that begins in March, and the most days it has. *)
Definition cum (m : Z) : Z := nth (Z.to_nat m) [0; 306; 337; 0; 31; 61; 92; 122; 153; 184; 214; 245; 275] 0.
Definition most (m : Z) : Z := nth (Z.to_nat m) [0; 31; 29; 31; 30; 31; 30; 31; 31; 30; 31; 30; 31] 0.

Ltac tab H := unfold cum, most in H; repeat match type of H with context [nth ?a ?b ?c] => let v := eval vm_compute in (nth a b c) in change (nth a b c) with v in H end.
Ltac change_all A B C := tab A; tab B; tab C.
Ltac months M := destruct (month_cases _ M) as [->|[->|[->|[->|[->|[->|[->|[->|[->|[->|[->| ->]]]]]]]]]]].

Lemma dayOfYear_table m d : 1 <= m <= 12 -> dayOfYear m d = cum m + d - 1.
Proof. intros M. months M; reflexivity. Qed.

Lemma daysIn_most y m : 1 <= m <= 12 -> daysIn m y <= most m.
Proof. intros M. unfold daysIn. destruct (isLeap y); months M; vm_compute; discriminate. Qed.

Lemma day_range y m d : validDate y m d ->
  0 <= dayOfYear m d < before (marchYear y m + 1) - before (marchYear y m).
Proof.
  intros [M D]. rewrite dayOfYear_table by exact M.
  assert (Y : forall x, 365 <= before (x + 1) - before x /\ (isLeap (x + 1) = true -> 366 <= before (x + 1) - before x)).
  { intros x. unfold before. rewrite leap_spec. split; [lia|]. intros [A B0]. lia. }
  destruct (Z.eq_dec m 2) as [->|N].
  - specialize (Y (y - 1)). change (marchYear y 2) with (y - 1). change (cum 2) with 337. change (daysIn 2 y) with (if isLeap y then 29 else 28) in D.
    replace (y - 1 + 1) with y in * by lia. destruct (isLeap y); [destruct Y as [_ Y]; specialize (Y eq_refl); lia|lia].
  - specialize (Y (marchYear y m)). pose proof (daysIn_most y m M) as K.
    assert (C : 0 <= cum m /\ cum m + most m <= 365) by (clear -M N; months M; try (contradiction N; reflexivity); split; vm_compute; discriminate).
    lia.
Qed.

Lemma before_mono x y : x <= y -> before x <= before y.
Proof. unfold before. lia. Qed.

Lemma days_inj y m d y' m' d' : validDate y m d -> validDate y' m' d' -> daysOfCivil y m d = daysOfCivil y' m' d' -> (y, m, d) = (y', m', d').
Proof.
  intros V V' E. rewrite !days_split in E. pose proof (day_range _ _ _ V) as R. pose proof (day_range _ _ _ V') as R'.
  destruct V as [M D]. destruct V' as [M' D'].
  assert (Y : marchYear y m = marchYear y' m').
  { destruct (Z.lt_trichotomy (marchYear y m) (marchYear y' m')) as [L|[L|L]]; [|exact L|].
    - pose proof (before_mono (marchYear y m + 1) (marchYear y' m') ltac:(lia)). lia.
    - pose proof (before_mono (marchYear y' m' + 1) (marchYear y m) ltac:(lia)). lia. }
  rewrite Y in E. assert (E2 : dayOfYear m d = dayOfYear m' d') by lia. rewrite !dayOfYear_table in E2 by assumption.
  pose proof (daysIn_most y m M) as K. pose proof (daysIn_most y' m' M') as K'.
  assert (F : m = m' /\ d = d').
  { assert (A : 1 <= d <= most m) by lia. assert (A' : 1 <= d' <= most m') by lia. clear -M M' A A' E2.
    months M; months M'; change_all A A' E2; lia. }
  destruct F as [-> ->]. unfold marchYear in Y. destruct (m' <=? 2); f_equal; f_equal; lia.
Qed.

Lemma civil_back y m d : validDate y m d -> civilOfDays (daysOfCivil y m d) = (y, m, d).
Proof.
  intros V. destruct (civilOfDays (daysOfCivil y m d)) as [[y' m'] d'] eqn:E. destruct (civil_roundtrip _ _ _ _ E) as [E' V'].
  apply days_inj; assumption.
Qed.

(** ** Digits *)
Lemma some_inj (a b : Z) : Some a = Some b -> a = b.
Proof. congruence. Qed.
Lemma digit_back c n : digitVal c = Some n -> 0 <= n <= 9 /\ c = digit n.
Proof.
  unfold digitVal. destruct ((48 <=? Z.of_N (Byte.to_N c)) && (Z.of_N (Byte.to_N c) <=? 57)) eqn:C; [|discriminate].
  intros E. injection E as <-. apply andb_true_iff in C. destruct C as [C1 C2]. apply Z.leb_le in C1, C2. split; [lia|].
  unfold digit. replace (48 + (Z.of_N (Byte.to_N c) - 48)) with (Z.of_N (Byte.to_N c)) by lia. rewrite N2Z.id.
  symmetry. apply byteOf_to_N.
Qed.

Lemma fixed2_back a b n : decNum 0 [a; b] = Some n -> [a; b] = decFixed 2 n /\ 0 <= n < 100.
Proof.
  cbn [decNum]. destruct (digitVal a) as [x|] eqn:A; [|discriminate]. destruct (digitVal b) as [y|] eqn:B0; [|discriminate].
  intros E. apply digit_back in A, B0. destruct A as [A ->]. destruct B0 as [B0 ->]. assert (n = 10 * x + y) by (apply some_inj in E; lia). subst n.
  rewrite decFixed2. split; [f_equal; [f_equal; lia|f_equal; f_equal; lia]|lia].
Qed.

Lemma fixed4_back a b c d n : decNum 0 [a; b; c; d] = Some n -> [a; b; c; d] = decFixed 4 n /\ 0 <= n <= 9999.
Proof.
  cbn [decNum]. destruct (digitVal a) as [x|] eqn:A; [|discriminate]. destruct (digitVal b) as [y|] eqn:B0; [|discriminate].
  destruct (digitVal c) as [z|] eqn:C; [|discriminate]. destruct (digitVal d) as [w|] eqn:D; [|discriminate].
  intros E. apply digit_back in A, B0, C, D. destruct A as [A ->]. destruct B0 as [B0 ->]. destruct C as [C ->]. destruct D as [D ->].
  assert (n = 1000 * x + 100 * y + 10 * z + w) by (apply some_inj in E; lia). subst n.
  rewrite decFixed4. split; [|lia]. f_equal; [f_equal; lia|]. f_equal; [f_equal; lia|]. f_equal; [f_equal; lia|]. f_equal. f_equal. lia.
Qed.

Lemma prefix_back s n rest : parseDayPrefix s = Some (n, rest) -> forall u, 0 <= u < nsDay ->
  0 <= yearOf (n * nsDay + u) <= 9999 /\ s = formatDay (n * nsDay + u) ++ rest.
Proof.
  unfold parseDayPrefix. destruct s as [|y1 [|y2 [|y3 [|y4 [|s1 [|m1 [|m2 [|s2 [|d1 [|d2 r]]]]]]]]]]; try discriminate.
  destruct (Byte.eqb s1 "-" && Byte.eqb s2 "-") eqn:S; [|discriminate]. apply andb_true_iff in S. destruct S as [S1 S2].
  apply Byte.byte_dec_bl in S1, S2. subst s1 s2.
  destruct (decNum 0 [y1; y2; y3; y4]) as [y|] eqn:EY; [|discriminate]. destruct (decNum 0 [m1; m2]) as [m|] eqn:EM; [|discriminate].
  destruct (decNum 0 [d1; d2]) as [d|] eqn:ED; [|discriminate].
  destruct ((1 <=? m) && (m <=? 12) && (1 <=? d) && (d <=? daysIn m y)) eqn:C; [|discriminate].
  intros E u U. assert (EN : n = daysOfCivil y m d) by congruence. assert (ER : rest = r) by congruence. subst rest. clear E.
  rewrite !andb_true_iff in C. destruct C as [[[C1 C2] C3] C4]. apply Z.leb_le in C1, C2, C3, C4.
  destruct (fixed4_back _ _ _ _ _ EY) as [FY RY]. destruct (fixed2_back _ _ _ EM) as [FM _]. destruct (fixed2_back _ _ _ ED) as [FD _].
  assert (DV : (n * nsDay + u) / nsDay = n). { rewrite Z.div_add_l by discriminate. rewrite Z.div_small by exact U. lia. }
  assert (CV : civilOfDays n = (y, m, d)) by (rewrite EN; apply civil_back; split; lia).
  unfold yearOf, formatDay. rewrite DV, CV. cbn [fst]. split; [exact RY|]. rewrite <- FY, <- FM, <- FD. reflexivity.
Qed.

(** A name that is taken for an expiry date is the identifier of that date, or such an
    identifier of an hour before ten with a single digit for the hour. *)
Theorem C17_parses_only : forall s e, newExpDate s = Some e ->
  0 <= yearOf (ed_date e) <= 9999 /\
  (s = expID e \/
   ed_hour e = true /\ exists h, 0 <= h <= 9 /\ ed_date e mod nsDay = h * nsHour /\ s = formatDay (ed_date e) ++ B "-" ++ [digit h]).
Proof.
  intros s e.
  assert (DAY : forall t, parseDay s = Some t -> Some (mkExp t (t + nsDay - nsMilli) false) = Some e -> 0 <= yearOf (ed_date e) <= 9999 /\ s = expID e).
  { intros t P E. assert (e = mkExp t (t + nsDay - nsMilli) false) by congruence. subst e. unfold parseDay in P.
    destruct (parseDayPrefix s) as [[n [|c r]]|] eqn:Q; try discriminate. assert (t = n * nsDay) by congruence. subst t.
    destruct (prefix_back _ _ _ Q 0 ltac:(unfold nsDay, nsHour, nsSecond; lia)) as [Y F]. rewrite Z.add_0_r in Y, F. rewrite app_nil_r in F.
    cbn [ed_date]. split; [exact Y|]. unfold expID. cbn [ed_hour ed_date]. exact F. }
  assert (VIA : match parseDay s with Some t => Some (mkExp t (t + nsDay - nsMilli) false) | None => None end = Some e -> 0 <= yearOf (ed_date e) <= 9999 /\ s = expID e).
  { destruct (parseDay s) as [t|] eqn:P; [|discriminate]. intros E. apply (DAY t); [reflexivity|exact E]. }
  unfold newExpDate. destruct (10 <? length s)%nat; [|intros H; apply VIA in H; tauto].
  destruct (parseHour s) as [t|] eqn:P; [|intros H; apply VIA in H; tauto].
  intros E. assert (e = mkExp t (t + nsHour - nsMilli) true) by congruence. subst e. clear DAY VIA E. unfold parseHour in P.
  destruct (parseDayPrefix s) as [[n [|c h]]|] eqn:Q; try discriminate.
  destruct (Byte.eqb c "-" && ((length h =? 1)%nat || (length h =? 2)%nat)) eqn:C; [|discriminate].
  apply andb_true_iff in C. destruct C as [C1 C2]. apply Byte.byte_dec_bl in C1. subst c.
  destruct (decNum 0 h) as [hh|] eqn:DH; [|discriminate]. destruct (hh <? 24) eqn:L; [|discriminate]. apply Z.ltb_lt in L.
  assert (t = n * nsDay + hh * nsHour) by congruence. subst t. clear P. cbn [ed_date ed_hour].
  assert (HH : 0 <= hh -> 0 <= yearOf (n * nsDay + hh * nsHour) <= 9999 /\ s = formatDay (n * nsDay + hh * nsHour) ++ "-"%byte :: h /\ (n * nsDay + hh * nsHour) mod nsDay = hh * nsHour).
  { intros G. assert (U : 0 <= hh * nsHour < nsDay) by (unfold nsDay, nsHour, nsSecond; lia). destruct (prefix_back _ _ _ Q _ U) as [Y F].
    split; [exact Y|]. split; [exact F|]. rewrite Z.add_comm, Z.mod_add by discriminate. apply Z.mod_small. exact U. }
  apply orb_true_iff in C2. destruct C2 as [C2|C2]; apply Nat.eqb_eq in C2.
  - destruct h as [|a [|]]; try discriminate C2. cbn [decNum] in DH. destruct (digitVal a) as [x|] eqn:A; [|discriminate]. apply digit_back in A. destruct A as [A ->].
    assert (hh = x) by (apply some_inj in DH; lia). subst x. destruct (HH ltac:(lia)) as [Y [F MO]]. split; [exact Y|]. right. split; [reflexivity|]. exists hh. split; [exact A|]. split; [exact MO|exact F].
  - destruct h as [|a [|b [|]]]; try discriminate C2. destruct (fixed2_back _ _ _ DH) as [FH RH]. destruct (HH ltac:(lia)) as [Y [F MO]]. split; [exact Y|]. left.
    unfold expID. cbn [ed_hour ed_date]. unfold formatHour. rewrite MO. rewrite Z.div_mul by discriminate. rewrite <- FH. exact F.
Qed.
Print Assumptions C17_parses_only.

(** 29 February exists in 2024 and not in 2025; one digit is enough for the hour. *)
Example C17_parses_example :
  newExpDate (B "2024-02-29-7") = newExpDate (B "2024-02-29-07") /\ newExpDate (B "2024-02-29-7") <> None /\
  newExpDate (B "2025-02-29") = None /\ newExpDate (B "2024-13-01") = None /\ newExpDate (B "2024-1-01") = None /\
  newExpDate (B "2024-02-29-24") = None /\ newExpDate (B "2024-02-29x07") = None /\ newExpDate (B "2024/02/29") = None.
Proof. vm_compute. repeat split; discriminate. Qed.
