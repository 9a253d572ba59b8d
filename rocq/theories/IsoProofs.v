(** * The text of a time sorts as the time *)
From Verif Require Import Base MerkleModel TimeModel TimeProofs IssuersModel FilterModel FilterProofs QueryModel TextProofs P_Query RemoteModel PublishModel P_RunIds.
From Coq Require Import Strings.Byte.
Local Open Scope Z_scope.

Definition dyear (Y : Z) : Z := 365 * Y + Y / 4 - Y / 100 + Y / 400.
Lemma daysOfCivil_eq y m d :
  daysOfCivil y m d = dyear (if m <=? 2 then y - 1 else y) + (153 * (if 2 <? m then m - 3 else m + 9) + 2) / 5 + d - 1 - 719468.
Proof.
  unfold daysOfCivil, dyear. set (Y := if m <=? 2 then y - 1 else y). set (mp := if 2 <? m then m - 3 else m + 9). clearbody Y mp.
  assert (E : (Y mod 400) / 4 = Y / 4 - 100 * (Y / 400)) by lia. assert (E2 : (Y mod 400) / 100 = Y / 100 - 4 * (Y / 400)) by lia. lia.
Qed.
Lemma dyear_mono Y Y' : Y <= Y' -> dyear Y <= dyear Y'.
Proof. unfold dyear. intros H. lia. Qed.
Lemma dyear_step Y : dyear (Y + 1) = dyear Y + if isLeap (Y + 1) then 366 else 365.
Proof.
  unfold dyear, isLeap.
  destruct (Z.eqb_spec ((Y + 1) mod 4) 0), (Z.eqb_spec ((Y + 1) mod 100) 0), (Z.eqb_spec ((Y + 1) mod 400) 0); cbn [negb andb orb]; lia.
Qed.
Definition dateLt (a b : Z * Z * Z) : Prop :=
  let '(y, m, d) := a in let '(y', m', d') := b in y < y' \/ y = y' /\ (m < m' \/ m = m' /\ d < d').

Lemma days_mono y m d y' m' d' : validDate y m d -> validDate y' m' d' -> dateLt (y, m, d) (y', m', d') -> daysOfCivil y m d < daysOfCivil y' m' d'.
Proof.
  intros [M D] [M' D'] L. rewrite !daysOfCivil_eq. unfold dateLt in L.
  set (Y := if m <=? 2 then y - 1 else y). set (Y' := if m' <=? 2 then y' - 1 else y').
  set (mp := if 2 <? m then m - 3 else m + 9). set (mp' := if 2 <? m' then m' - 3 else m' + 9).
  assert (OY : Y < Y' \/ Y = Y' /\ (mp < mp' \/ mp = mp' /\ m = m' /\ y = y' /\ d < d')).
  { unfold Y, Y', mp, mp'. destruct (Z.leb_spec m 2), (Z.leb_spec m' 2), (Z.ltb_spec 2 m), (Z.ltb_spec 2 m'); lia. }
  (* days of the year counted from March *)
  assert (UP : (153 * mp + 2) / 5 + d - 1 <= if isLeap (Y + 1) then 365 else 364).
  { assert (LQ : m = 2 -> Y + 1 = y) by (intros ->; unfold Y; change (2 <=? 2) with true; cbv iota; lia).
    assert (DM : d <= match m with 2 => if isLeap (Y + 1) then 29 else 28 | 4 => 30 | 6 => 30 | 9 => 30 | 11 => 30 | _ => 31 end).
    { unfold daysIn in D. assert (E : m = 1 \/ m = 2 \/ m = 3 \/ m = 4 \/ m = 5 \/ m = 6 \/ m = 7 \/ m = 8 \/ m = 9 \/ m = 10 \/ m = 11 \/ m = 12) by lia.
      destruct E as [->|[->|[->|[->|[->|[->|[->|[->|[->|[->|[->| ->]]]]]]]]]]]; cbv [Z.eqb Pos.eqb orb] in D; cbv iota; try lia. rewrite LQ by reflexivity. lia. }
    clear -M DM. unfold mp. generalize dependent (isLeap (Y + 1)). intros lp DM.
    assert (E : m = 1 \/ m = 2 \/ m = 3 \/ m = 4 \/ m = 5 \/ m = 6 \/ m = 7 \/ m = 8 \/ m = 9 \/ m = 10 \/ m = 11 \/ m = 12) by lia.
    destruct E as [->|[->|[->|[->|[->|[->|[->|[->|[->|[->|[->| ->]]]]]]]]]]]; cbv [Z.ltb Z.compare Pos.compare Pos.compare_cont]; cbv iota in DM; destruct lp; lia. }
  assert (LO : 0 <= (153 * mp' + 2) / 5 + d' - 1) by (unfold mp'; destruct (Z.ltb_spec 2 m'); lia).
  destruct OY as [OY|[-> [OM|[-> [_ [_ OD]]]]]].
  - pose proof (dyear_mono (Y + 1) Y' ltac:(lia)) as MY. rewrite dyear_step in MY. destruct (isLeap (Y + 1)); lia.
  - assert (S : (153 * mp + 2) / 5 + d <= (153 * (mp + 1) + 2) / 5).
    { assert (LM : mp < 11) by (clear -OM M'; unfold mp' in OM; destruct (Z.ltb_spec 2 m'); lia).
      clear -M D LM. unfold daysIn in D. assert (E : m = 1 \/ m = 2 \/ m = 3 \/ m = 4 \/ m = 5 \/ m = 6 \/ m = 7 \/ m = 8 \/ m = 9 \/ m = 10 \/ m = 11 \/ m = 12) by lia.
      unfold mp in *. destruct E as [->|[->|[->|[->|[->|[->|[->|[->|[->|[->|[->| ->]]]]]]]]]]]; cbv [Z.eqb Pos.eqb orb] in D;
        cbv [Z.ltb Z.compare Pos.compare Pos.compare_cont] in LM |- *; cbv iota in D; lia. }
    assert (S2 : (153 * (mp + 1) + 2) / 5 <= (153 * mp' + 2) / 5) by (apply Z.div_le_mono; lia). lia.
  - lia.
Qed.

Lemma civil_mono z z' : z < z' -> dateLt (civilOfDays z) (civilOfDays z').
Proof.
  intros H. destruct (civilOfDays z) as [[y m] d] eqn:E. destruct (civilOfDays z') as [[y' m'] d'] eqn:E'.
  destruct (civil_roundtrip _ _ _ _ E) as [R V]. destruct (civil_roundtrip _ _ _ _ E') as [R' V'].
  destruct (Z.lt_total y y') as [A|[A|A]]; [left; exact A| |].
  - subst y'. right. split; [reflexivity|]. destruct (Z.lt_total m m') as [A|[A|A]]; [left; exact A| |].
    + subst m'. right. split; [reflexivity|]. destruct (Z.lt_total d d') as [A|[A|A]]; [exact A|subst; lia|].
      pose proof (days_mono y m d' y m d V' V) as X. cbn [dateLt] in X. lia.
    + pose proof (days_mono y m' d' y m d V' V) as X. cbn [dateLt] in X. lia.
  - pose proof (days_mono y' m' d' y m d V' V) as X. cbn [dateLt] in X. lia.
Qed.

Lemma decFixed_value k : forall n, 0 <= n < 10 ^ Z.of_nat k -> forallb isDigit (decFixed k n) = true /\ valueOf (decFixed k n) = Z.to_N n.
Proof.
  induction k as [|k IH]; intros n H; cbn [decFixed].
  - change (10 ^ Z.of_nat 0) with 1 in H. replace n with 0 by lia. auto.
  - rewrite Nat2Z.inj_succ, Z.pow_succ_r in H by lia. destruct (IH (n / 10)) as [A B0]; [lia|]. destruct (isDigit_digit (n mod 10)) as [D1 D2]; [lia|].
    rewrite forallb_app, A, valueOf_snoc, B0, D2. cbn [forallb]. rewrite D1. split; [reflexivity|]. lia.
Qed.

(** Comparing a number printed with a fixed width, then the rest. *)
Lemma ltb_fixed k a b x y : 0 <= a < 10 ^ Z.of_nat k -> 0 <= b < 10 ^ Z.of_nat k ->
  (a < b \/ a = b /\ bytesLtb x y = true) -> bytesLtb (decFixed k a ++ x) (decFixed k b ++ y) = true.
Proof.
  intros Ha Hb H. destruct (decFixed_value k a Ha) as [D1 V1]. destruct (decFixed_value k b Hb) as [D2 V2].
  rewrite ltb_app by (rewrite !decFixed_length; reflexivity). destruct H as [H|[-> H]].
  - rewrite (proj2 (ltb_value (decFixed k a) (decFixed k b) 0%N ltac:(rewrite !decFixed_length; reflexivity) D1 D2)); [reflexivity|].
    fold (valueOf (decFixed k a)) (valueOf (decFixed k b)). rewrite V1, V2. lia.
  - destruct (bytesLtb (decFixed k b) (decFixed k b)); [reflexivity|]. rewrite beq_refl. exact H.
Qed.
Lemma ltb_same a x y : bytesLtb (a ++ x) (a ++ y) = bytesLtb x y.
Proof.
  induction a as [|c a IH]; [reflexivity|]. cbn [app bytesLtb]. rewrite N.ltb_irrefl. exact IH.
Qed.

Definition isoYear (t : Z) : Prop := 0 <= yearOf (t * nsSecond) <= 9999.

Lemma iso_lt t t' x y : isoYear t -> isoYear t' -> t < t' -> bytesLtb (isoTime t ++ x) (isoTime t' ++ y) = true.
Proof.
  unfold isoYear, yearOf, isoTime, formatDay. intros Y Y' H.
  assert (DD : forall u, u * nsSecond / nsDay = u / 86400) by (intros u; unfold nsDay, nsHour, nsSecond; lia). rewrite !DD in *.
  assert (MO : t / 86400 = t' / 86400 /\ t mod 86400 < t' mod 86400 \/ t / 86400 < t' / 86400) by lia.
  destruct (civilOfDays (t / 86400)) as [[yy mm] dd] eqn:E. destruct (civilOfDays (t' / 86400)) as [[yy' mm'] dd'] eqn:E'.
  destruct (civil_roundtrip _ _ _ _ E) as [_ [M1 M2]]. destruct (civil_roundtrip _ _ _ _ E') as [_ [M1' M2']]. cbn [fst] in Y, Y'.
  assert (D31 : forall m y, daysIn m y <= 31).
  { intros m y0. unfold daysIn. destruct (m =? 2); [destruct (isLeap y0); lia|]. destruct ((m =? 4) || (m =? 6) || (m =? 9) || (m =? 11)); lia. }
  pose proof (D31 mm yy). pose proof (D31 mm' yy'). rewrite <- !app_assoc.
  assert (P2 : 10 ^ Z.of_nat 2 = 100) by reflexivity. assert (P4 : 10 ^ Z.of_nat 4 = 10000) by reflexivity.
  destruct MO as [[MO1 MO2]|MO].
  - rewrite MO1, E' in E. injection E as -> -> ->. rewrite !ltb_same.
    apply ltb_fixed; [rewrite P2; lia|rewrite P2; lia|].
    destruct (Z.lt_total (t mod 86400 / 3600) (t' mod 86400 / 3600)) as [A|[A|A]]; [left; exact A| |lia]. right. split; [exact A|]. rewrite ltb_same.
    apply ltb_fixed; [rewrite P2; lia|rewrite P2; lia|].
    assert (B0 : t mod 3600 < t' mod 3600) by lia.
    destruct (Z.lt_total (t mod 3600 / 60) (t' mod 3600 / 60)) as [C|[C|C]]; [left; exact C| |lia]. right. split; [exact C|]. rewrite ltb_same.
    apply ltb_fixed; [rewrite P2; lia|rewrite P2; lia|]. left. lia.
  - pose proof (civil_mono _ _ MO) as CM. rewrite E, E' in CM. unfold dateLt in CM.
    apply ltb_fixed; [rewrite P4; lia|rewrite P4; lia|]. destruct CM as [CM|[CM1 CM]]; [left; exact CM|]. right. split; [exact CM1|]. rewrite ltb_same.
    apply ltb_fixed; [rewrite P2; lia|rewrite P2; lia|]. destruct CM as [CM|[CM2 CM]]; [left; exact CM|]. right. split; [exact CM2|]. rewrite ltb_same.
    apply ltb_fixed; [rewrite P2; lia|rewrite P2; lia|]. left. exact CM.
Qed.

Lemma year_range t : -62167219200 <= t < 253402300800 -> isoYear t.
Proof.
  intros H. unfold isoYear, yearOf. assert (DD : t * nsSecond / nsDay = t / 86400) by (unfold nsDay, nsHour, nsSecond; lia). rewrite DD.
  assert (R : -719528 <= t / 86400 <= 2932896) by lia. destruct (civilOfDays (t / 86400)) as [[y m] d] eqn:E. cbn [fst].
  assert (A : civilOfDays (-719528) = (0, 1, 1)) by (vm_compute; reflexivity). assert (B0 : civilOfDays 2932896 = (9999, 12, 31)) by (vm_compute; reflexivity).
  split.
  - destruct (Z.eq_dec (t / 86400) (-719528)) as [Q|Q]; [rewrite Q in E; assert (y = 0) by congruence; lia|].
    assert (L : -719528 < t / 86400) by lia. apply civil_mono in L. rewrite A, E in L. unfold dateLt in L. lia.
  - destruct (Z.eq_dec (t / 86400) 2932896) as [Q|Q]; [rewrite Q in E; assert (y = 9999) by congruence; lia|].
    assert (L : t / 86400 < 2932896) by lia. apply civil_mono in L. rewrite B0, E in L. unfold dateLt in L. lia.
Qed.

Example iso_example : isoTime 1767323045 = B "2026-01-02T03:04:05+00:00" /\ isoYear 1767323045.
Proof. split; [vm_compute; reflexivity|]. split; vm_compute; discriminate. Qed.
