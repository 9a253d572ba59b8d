(** * What JSON text stands for: Unicode, RFC 8259, RFC 3339 (for P_Json.v)

    None of it uses the model's functions, except the type of JSON values, the value of a
    hexadecimal digit and of a decimal text, and the days of a month. *)
From Verif Require Import Base SerialModel SerialProofs TimeModel TimeProofs QueryModel PublishModel TextProofs P_RunIds JsonModel.
From Coq Require Import Strings.Byte.
Local Open Scope N_scope.

(** *** Unicode (D76, table 3-6) *)
Definition scalar (c : N) : Prop := c < 55296 \/ 57344 <= c < 1114112.
Definition utf8 (c : N) : bytes :=
  if c <? 128 then [byteOf c]
  else if c <? 2048 then [byteOf (192 + c / 64); byteOf (128 + c mod 64)]
  else if c <? 65536 then [byteOf (224 + c / 4096); byteOf (128 + c / 64 mod 64); byteOf (128 + c mod 64)]
  else [byteOf (240 + c / 262144); byteOf (128 + c / 4096 mod 64); byteOf (128 + c / 64 mod 64); byteOf (128 + c mod 64)].
Definition validUtf8 (s : bytes) : Prop := exists cs, Forall scalar cs /\ s = flat_map utf8 cs.
(** Every byte that begins no character is replaced by U+FFFD. *)
Inductive repaired : bytes -> bytes -> Prop :=
| rep_nil : repaired [] []
| rep_char c s s' : scalar c -> repaired s s' -> repaired (utf8 c ++ s) (utf8 c ++ s')
| rep_bad x s s' : (forall c r, scalar c -> x :: s <> utf8 c ++ r) -> repaired s s' -> repaired (x :: s) (utf8 65533 ++ s').

(** *** RFC 8259 *)
Definition fourHex (h : bytes) (n : N) : Prop :=
  exists a b c d va vb vc vd, h = [a; b; c; d] /\ hexVal a = Some va /\ hexVal b = Some vb /\ hexVal c = Some vc /\ hexVal d = Some vd /\
    n = va * 4096 + vb * 256 + vc * 16 + vd.
Definition shortEscapes : list (byte * byte) :=
  [(x22, x22); (x5c, x5c); (x2f, x2f); (x62, x08); (x66, x0c); (x6e, x0a); (x72, x0d); (x74, x09)].
(** Section 7: the text between the quotes, and the UTF-8 of the string it stands for *)
Inductive chars : bytes -> bytes -> Prop :=
| ch_nil : chars [] []
| ch_plain c t s : scalar c -> 32 <= c -> c <> 34 -> c <> 92 -> chars t s -> chars (utf8 c ++ t) (utf8 c ++ s)
| ch_short e c t s : In (e, c) shortEscapes -> chars t s -> chars (x5c :: e :: t) (c :: s)
| ch_u h c t s : fourHex h c -> scalar c -> chars t s -> chars (x5c :: x75 :: h ++ t) (utf8 c ++ s)
| ch_pair h h' u v t s : fourHex h u -> fourHex h' v -> 55296 <= u < 56320 -> 56320 <= v < 57344 -> chars t s ->
    chars (x5c :: x75 :: h ++ x5c :: x75 :: h' ++ t) (utf8 (65536 + (u - 55296) * 1024 + (v - 56320)) ++ s).
(** The same where the reader is lenient: U+FFFD stands for a byte that begins no character and
    for half of a surrogate pair. *)
Inductive loose : bytes -> bytes -> Prop :=
| lo_nil : loose [] []
| lo_plain c t s : scalar c -> 32 <= c -> c <> 34 -> c <> 92 -> loose t s -> loose (utf8 c ++ t) (utf8 c ++ s)
| lo_bad x t s : (forall c r, scalar c -> x :: t <> utf8 c ++ r) -> loose t s -> loose (x :: t) (utf8 65533 ++ s)
| lo_short e c t s : In (e, c) shortEscapes -> loose t s -> loose (x5c :: e :: t) (c :: s)
| lo_u h c t s : fourHex h c -> scalar c -> loose t s -> loose (x5c :: x75 :: h ++ t) (utf8 c ++ s)
| lo_pair h h' u v t s : fourHex h u -> fourHex h' v -> 55296 <= u < 56320 -> 56320 <= v < 57344 -> loose t s ->
    loose (x5c :: x75 :: h ++ x5c :: x75 :: h' ++ t) (utf8 (65536 + (u - 55296) * 1024 + (v - 56320)) ++ s)
| lo_half h u t s : fourHex h u -> 55296 <= u < 57344 ->
    (forall h' v t', t = x5c :: x75 :: h' ++ t' -> fourHex h' v -> ~ (u < 56320 /\ 56320 <= v < 57344)) -> loose t s ->
    loose (x5c :: x75 :: h ++ t) (utf8 65533 ++ s).
(** Section 6 *)
Definition digits (d : bytes) : Prop := d <> [] /\ forallb isDigit d = true.
Definition numText (t : bytes) : Prop :=
  exists sg ip fr ex, t = sg ++ ip ++ fr ++ ex /\ (sg = [] \/ sg = [x2d]) /\
    (ip = [x30] \/ digits ip /\ hd_error ip <> Some x30) /\
    (fr = [] \/ exists d, digits d /\ fr = x2e :: d) /\
    (ex = [] \/ exists e s d, (e = x65 \/ e = x45) /\ (s = [] \/ s = [x2b] \/ s = [x2d]) /\ digits d /\ ex = e :: s ++ d).
(** Section 2 *)
Definition ws (w : bytes) : Prop := Forall (fun c => In c [x20; x09; x0a; x0d]) w.
(** Sections 3 to 5: the text of a value, of the inside of an array and of an object; [C] says
    what stands between the quotes of a string. *)
Section Grammar.
Variable C : bytes -> bytes -> Prop.
Inductive jsonText : bytes -> json -> Prop :=
| jt_null : jsonText (B "null") JNull
| jt_true : jsonText (B "true") (JBool true)
| jt_false : jsonText (B "false") (JBool false)
| jt_num t : numText t -> jsonText t (JNum t)
| jt_str t s : C t s -> jsonText (x22 :: t ++ [x22]) (JStr t s)
| jt_arr0 w : ws w -> jsonText (x5b :: w ++ [x5d]) (JArr [])
| jt_arr t l : jsonElems t l -> jsonText (x5b :: t ++ [x5d]) (JArr l)
| jt_obj0 w : ws w -> jsonText (x7b :: w ++ [x7d]) (JObj [])
| jt_obj t l : jsonMembers t l -> jsonText (x7b :: t ++ [x7d]) (JObj l)
with jsonElems : bytes -> list json -> Prop :=
| je_one w t w' v : ws w -> ws w' -> jsonText t v -> jsonElems (w ++ t ++ w') [v]
| je_more w t w' v t' l : ws w -> ws w' -> jsonText t v -> jsonElems t' l -> jsonElems (w ++ t ++ w' ++ x2c :: t') (v :: l)
with jsonMembers : bytes -> list (bytes * json) -> Prop :=
| jm_one w k s w1 w2 t w' v : ws w -> ws w1 -> ws w2 -> ws w' -> C k s -> jsonText t v ->
    jsonMembers (w ++ x22 :: k ++ x22 :: w1 ++ x3a :: w2 ++ t ++ w') [(s, v)]
| jm_more w k s w1 w2 t w' v t' l : ws w -> ws w1 -> ws w2 -> ws w' -> C k s -> jsonText t v -> jsonMembers t' l ->
    jsonMembers (w ++ x22 :: k ++ x22 :: w1 ++ x3a :: w2 ++ t ++ w' ++ x2c :: t') ((s, v) :: l).
End Grammar.
Scheme jsonText_mut := Minimality for jsonText Sort Prop
  with jsonElems_mut := Minimality for jsonElems Sort Prop
  with jsonMembers_mut := Minimality for jsonMembers Sort Prop.
Combined Scheme json_mut from jsonText_mut, jsonElems_mut, jsonMembers_mut.
Arguments jt_num {C}. Arguments jt_str {C}. Arguments jt_arr0 {C}. Arguments jt_arr {C}. Arguments jt_obj0 {C}. Arguments jt_obj {C}.
Arguments je_one {C}. Arguments je_more {C}. Arguments jm_one {C}. Arguments jm_more {C}.
Notation jtext := (jsonText chars).
Notation jelems := (jsonElems chars).
Notation jmembers := (jsonMembers chars).

(** *** RFC 3339 *)
Local Open Scope Z_scope.
Definition num (k : nat) (d : bytes) (n : Z) : Prop := length d = k /\ forallb isDigit d = true /\ n = Z.of_N (valueOf d).
(** Days from 1 January 1970 to a date of the Gregorian calendar *)
Definition daysBefore (m : Z) : Z := nth (Z.to_nat m) [0; 0; 31; 59; 90; 120; 151; 181; 212; 243; 273; 304; 334] 0.
Definition dayNumber (y m d : Z) : Z :=
  365 * (y - 1) + (y - 1) / 4 - (y - 1) / 100 + (y - 1) / 400 - 719162 + daysBefore m + (if (2 <? m) && isLeap y then 1 else 0) + (d - 1).
(** The zone, in minutes east of Greenwich *)
Definition zoneText (x : bytes) (z : Z) : Prop :=
  (x = B "Z" /\ z = 0) \/
  exists s hh mm h m, x = s :: hh ++ B ":" ++ mm /\ num 2 hh h /\ num 2 mm m /\ h <= 23 /\ m <= 59 /\
    (s = x2b /\ z = h * 60 + m \/ s = x2d /\ z = - (h * 60 + m)).
(** The fraction of a second, in whole nanoseconds *)
Definition fraction (x : bytes) (f : Z) : Prop :=
  (x = [] /\ f = 0) \/ exists d, digits d /\ x = x2e :: d /\ f = Z.of_N (valueOf d) * 10 ^ 9 / 10 ^ Z.of_nat (length d).
(** The time [t], in nanoseconds since 1970, with zone [z] (leap seconds left out) *)
Definition rfc3339 (x : bytes) (t z : Z) : Prop :=
  exists yy mo dd hh mi ss fr zo y m d h n s f,
    x = yy ++ B "-" ++ mo ++ B "-" ++ dd ++ B "T" ++ hh ++ B ":" ++ mi ++ B ":" ++ ss ++ fr ++ zo /\
    num 4 yy y /\ num 2 mo m /\ num 2 dd d /\ num 2 hh h /\ num 2 mi n /\ num 2 ss s /\ fraction fr f /\ zoneText zo z /\
    1 <= m <= 12 /\ 1 <= d <= daysIn m y /\ h <= 23 /\ n <= 59 /\ s <= 59 /\
    t = ((((dayNumber y m d * 24 + h) * 60 + n - z) * 60) + s) * 1000000000 + f.
