(** * Model of expiry dates
    /repo/go/types.go lines 23-24 and 450-505, with the parts of Go's package
    time they use: [Truncate], [Format], [Parse] for the two layouts, all in UTC.

    A [time.Time] is a number of nanoseconds since 1970-01-01 00:00 UTC. *)
From Verif Require Import Base SerialModel.
From Coq Require Import Strings.Byte.
Local Open Scope Z_scope.

Definition nsSecond : Z := 1000000000.
Definition nsMilli : Z := 1000000.
Definition nsHour : Z := 3600 * nsSecond.
Definition nsDay : Z := 24 * nsHour.

(** ** Civil calendar (proleptic Gregorian, as in package time) *)

(** Days since 1970-01-01 of a date. *)
Definition daysOfCivil (y m d : Z) : Z :=
  let y' := if m <=? 2 then y - 1 else y in
  let era := y' / 400 in
  let yoe := y' mod 400 in
  let mp := if 2 <? m then m - 3 else m + 9 in
  let doy := (153 * mp + 2) / 5 + d - 1 in
  let doe := yoe * 365 + yoe / 4 - yoe / 100 + doy in
  era * 146097 + doe - 719468.

(** Date of a day number: year, month 1..12, day 1..31. *)
Definition civilOfDays (z : Z) : Z * Z * Z :=
  let z' := z + 719468 in
  let era := z' / 146097 in
  let doe := z' mod 146097 in
  let yoe := (doe - doe / 1460 + doe / 36524 - doe / 146096) / 365 in
  let doy := doe - (365 * yoe + yoe / 4 - yoe / 100) in
  let mp := (5 * doy + 2) / 153 in
  let d := doy - (153 * mp + 2) / 5 + 1 in
  let m := if mp <? 10 then mp + 3 else mp - 9 in
  let y := yoe + era * 400 in
  (if m <=? 2 then y + 1 else y, m, d).

Definition isLeap (y : Z) : bool :=
  (y mod 4 =? 0) && (negb (y mod 100 =? 0) || (y mod 400 =? 0)).

Definition daysIn (m y : Z) : Z :=
  if m =? 2 then (if isLeap y then 29 else 28)
  else if (m =? 4) || (m =? 6) || (m =? 9) || (m =? 11) then 30 else 31.

(** ** Decimal digits *)
Definition digit (n : Z) : byte := byteOf (Z.to_N (48 + n)).

Fixpoint decFixed (k : nat) (n : Z) : bytes :=
  match k with
  | O => []
  | S k' => decFixed k' (n / 10) ++ [digit (n mod 10)]
  end.

Definition digitVal (c : byte) : option Z :=
  let n := Z.of_N (Byte.to_N c) in
  if (48 <=? n) && (n <=? 57) then Some (n - 48) else None.

Fixpoint decNum (acc : Z) (s : bytes) : option Z :=
  match s with
  | [] => Some acc
  | c :: s' => match digitVal c with Some d => decNum (10 * acc + d) s' | None => None end
  end.

(** [time.Format] with layout ["2006-01-02"] for years 0 to 9999 (the years an
    X.509 time can hold; outside, Go prints more characters). *)
Definition formatDay (t : Z) : bytes :=
  let '(y, m, d) := civilOfDays (t / nsDay) in
  decFixed 4 y ++ B "-" ++ decFixed 2 m ++ B "-" ++ decFixed 2 d.

(** [time.Format] with layout ["2006-01-02-15"]. *)
Definition formatHour (t : Z) : bytes :=
  formatDay t ++ B "-" ++ decFixed 2 ((t mod nsDay) / nsHour).

(** The leading part ["2006-01-02"] of [time.Parse]: the day number and the rest
    of the text.  Month and day are checked against the calendar. *)
Definition parseDayPrefix (s : bytes) : option (Z * bytes) :=
  match s with
  | y1 :: y2 :: y3 :: y4 :: s1 :: m1 :: m2 :: s2 :: d1 :: d2 :: rest =>
      if Byte.eqb s1 "-" && Byte.eqb s2 "-" then
        match decNum 0 [y1; y2; y3; y4], decNum 0 [m1; m2], decNum 0 [d1; d2] with
        | Some y, Some m, Some d =>
            if (1 <=? m) && (m <=? 12) && (1 <=? d) && (d <=? daysIn m y)
            then Some (daysOfCivil y m d, rest) else None
        | _, _, _ => None
        end
      else None
  | _ => None
  end.

Definition parseDay (s : bytes) : option Z :=
  match parseDayPrefix s with
  | Some (n, []) => Some (n * nsDay)
  | _ => None
  end.

(** Layout ["2006-01-02-15"]: Go accepts one or two digits for the hour. *)
Definition parseHour (s : bytes) : option Z :=
  match parseDayPrefix s with
  | Some (n, c :: h) =>
      if Byte.eqb c "-" && ((length h =? 1)%nat || (length h =? 2)%nat) then
        match decNum 0 h with
        | Some hh => if hh <? 24 then Some (n * nsDay + hh * nsHour) else None
        | None => None
        end
      else None
  | _ => None
  end.

(** types.go:450-454 [ExpDate]. *)
Record expDate := mkExp { ed_date : Z; ed_lastGood : Z; ed_hour : bool }.

(** [time.Truncate(time.Hour)]: rounds down to a multiple of an hour since
    year 1, which is the same as since 1970. *)
Definition truncHour (t : Z) : Z := t - t mod nsHour.

(** types.go:456-463 [NewExpDateFromTime]. *)
Definition newExpDateFromTime (t : Z) : expDate :=
  mkExp (truncHour t) (truncHour t - nsMilli) true.

(** types.go:465-482 [NewExpDate]. *)
Definition newExpDate (s : bytes) : option expDate :=
  let viaDay :=
    match parseDay s with
    | Some t => Some (mkExp t (t + nsDay - nsMilli) false)
    | None => None
    end in
  if (10 <? length s)%nat then
    match parseHour s with
    | Some t => Some (mkExp t (t + nsHour - nsMilli) true)
    | None => viaDay
    end
  else viaDay.

(** types.go:484-486 [IsExpiredAt]. *)
Definition isExpiredAt (e : expDate) (t : Z) : bool := ed_lastGood e <? t.

(** types.go:488-490 [ExpireTime]. *)
Definition expireTime (e : expDate) : Z := ed_date e.

(** types.go:496-498 [Unix]. *)
Definition expUnix (e : expDate) : Z := ed_date e / nsSecond.

(** types.go:500-505 [ID]. *)
Definition expID (e : expDate) : bytes :=
  if ed_hour e then formatHour (ed_date e) else formatDay (ed_date e).
