(** * The JSON of log states and issuers
    /repo/go/types.go:137-146 ([CTLogState]), go/rootprogram/issuers.go:42-48
    ([EnrolledIssuer]), written and read by Go's encoding/json at
    go/storage/rediscache.go:213-243 and 266 (one state per key in the cache),
    go/storage/certdatabase.go:316-334 and 586-589, go/cmd/aggregate-known/
    aggregate-known.go:186-200 (ct-logs.json), issuers.go:336-356 (enrolled.json).

    encoding/json and package time belong to Go and are not in /repo; they are modelled
    after their published source (version 1.24, go/go.mod:3).  Left out: the limit of 10000
    levels of nesting; the offset of a time zone is a number of minutes.  A time is
    nanoseconds since 1970. *)
From Verif Require Import Base SerialModel TimeModel QueryModel PublishModel.
From Coq Require Import Strings.Byte.
Local Open Scope N_scope.

(** ** UTF-8 *)
Definition inR (lo hi n : N) : bool := (lo <=? n) && (n <=? hi).

(** utf8.DecodeRune: the character and the number of its bytes; U+FFFD and 1 if the bytes
    are not UTF-8. *)
Definition decodeRune (b : bytes) : N * nat :=
  match map Byte.to_N (firstn 4 b) with
  | [] => (65533, 0%nat)
  | x :: l =>
      if x <? 128 then (x, 1%nat)
      else match l with
      | [] => (65533, 1%nat)
      | y :: l =>
          if inR 194 223 x then
            if inR 128 191 y then ((x mod 32) * 64 + y mod 64, 2%nat) else (65533, 1%nat)
          else match l with
          | [] => (65533, 1%nat)
          | z :: l =>
              if inR 224 239 x then
                if inR (if x =? 224 then 160 else 128) (if x =? 237 then 159 else 191) y && inR 128 191 z
                then ((x mod 16) * 4096 + (y mod 64) * 64 + z mod 64, 3%nat) else (65533, 1%nat)
              else match l with
              | [] => (65533, 1%nat)
              | u :: _ =>
                  if inR 240 244 x && inR (if x =? 240 then 144 else 128) (if x =? 244 then 143 else 191) y
                     && inR 128 191 z && inR 128 191 u
                  then ((x mod 8) * 262144 + (y mod 64) * 4096 + (z mod 64) * 64 + u mod 64, 4%nat)
                  else (65533, 1%nat)
              end
          end
      end
  end.

Definition runeError : bytes := [xef; xbf; xbd].
(** utf8.AppendRune *)
Definition appendRune (r : N) : bytes :=
  if r <? 128 then [byteOf r]
  else if r <? 2048 then [byteOf (192 + r / 64); byteOf (128 + r mod 64)]
  else if inR 55296 57343 r || (1114111 <? r) then runeError
  else if r <? 65536 then [byteOf (224 + r / 4096); byteOf (128 + r / 64 mod 64); byteOf (128 + r mod 64)]
  else [byteOf (240 + r / 262144); byteOf (128 + r / 4096 mod 64); byteOf (128 + r / 64 mod 64); byteOf (128 + r mod 64)].

(** ** Writing strings: json.appendString with HTML escaping *)
Definition uEsc (r : N) : bytes := B "\u" ++ hexFixed 4 r.
Definition escape (c : byte) : bytes :=
  let n := Byte.to_N c in
  if (n =? 34) || (n =? 92) then [x5c; c]                         (* quote, backslash *)
  else if n =? 8 then B "\b" else if n =? 12 then B "\f" else if n =? 10 then B "\n"
  else if n =? 13 then B "\r" else if n =? 9 then B "\t"
  else if (n <? 32) || (n =? 60) || (n =? 62) || (n =? 38) then uEsc n   (* controls, < > & *)
  else [c].
Fixpoint escapes (fuel : nat) (s : bytes) : bytes :=
  match fuel, s with
  | S f, c :: r =>
      if Byte.to_N c <? 128 then escape c ++ escapes f r
      else let '(x, w) := decodeRune s in
           if (w =? 1)%nat then uEsc 65533 ++ escapes f r
           else if (x =? 8232) || (x =? 8233) then uEsc x ++ escapes f (skipn w s)
           else firstn w s ++ escapes f (skipn w s)
  | _, _ => []
  end.
Definition quoted (s : bytes) : bytes := [x22] ++ escapes (length s) s ++ [x22].

(** ** Reading: the scanner and the parser *)
Inductive json :=
| JNull | JBool (b : bool) | JNum (t : bytes)
| JStr (raw s : bytes)                       (* the text between the quotes, and what it stands for *)
| JArr (l : list json) | JObj (l : list (bytes * json)).

Definition isWs (c : byte) : bool := let n := Byte.to_N c in (n =? 32) || (n =? 9) || (n =? 10) || (n =? 13).
Fixpoint skipWs (b : bytes) : bytes :=
  match b with c :: r => if isWs c then skipWs r else b | [] => [] end.

Definition isHex (c : byte) : bool := match hexVal c with Some _ => true | None => false end.
(** scanner.go, [stateInString] and the states after it: the text up to the quote. *)
Definition isEsc (c : byte) : bool :=
  let n := Byte.to_N c in
  (n =? 98) || (n =? 102) || (n =? 110) || (n =? 114) || (n =? 116) || (n =? 92) || (n =? 47) || (n =? 34).
Definition consed (l : bytes) (o : option (bytes * bytes)) : option (bytes * bytes) :=
  match o with Some (t, r) => Some (l ++ t, r) | None => None end.
Fixpoint scanStr (b : bytes) : option (bytes * bytes) :=
  match b with
  | [] => None
  | x :: r =>
      if Byte.to_N x =? 34 then Some ([], r)
      else if Byte.to_N x =? 92 then
        match r with
        | [] => None
        | c :: r =>
            if Byte.to_N c =? 117 then
              match r with
              | h1 :: h2 :: h3 :: h4 :: r =>
                  if isHex h1 && isHex h2 && isHex h3 && isHex h4 then consed [x; c; h1; h2; h3; h4] (scanStr r) else None
              | _ => None
              end
            else if isEsc c then consed [x; c] (scanStr r) else None
        end
      else if Byte.to_N x <? 32 then None
      else consed [x] (scanStr r)
  end.

(** decode.go, [getu4]: what four digits after \u stand for. *)
Definition hex4 (a b c d : byte) : N :=
  let v x := match hexVal x with Some n => n | None => 0 end in
  ((v a * 16 + v b) * 16 + v c) * 16 + v d.
Definition getu4 (b : bytes) : option (N * bytes) :=
  match b with
  | x :: u :: h1 :: h2 :: h3 :: h4 :: r =>
      if (Byte.to_N x =? 92) && (Byte.to_N u =? 117) && isHex h1 && isHex h2 && isHex h3 && isHex h4
      then Some (hex4 h1 h2 h3 h4, r) else None
  | _ => None
  end.
(** decode.go, [unquoteBytes] for a text that the scanner has accepted. *)
Definition plainEsc (c : byte) : option byte :=
  let n := Byte.to_N c in
  if (n =? 34) || (n =? 92) || (n =? 47) then Some c
  else if n =? 98 then Some x08 else if n =? 102 then Some x0c else if n =? 110 then Some x0a
  else if n =? 114 then Some x0d else if n =? 116 then Some x09 else None.
Fixpoint unquote (fuel : nat) (b : bytes) : bytes :=
  match fuel, b with
  | S f, x :: r =>
      if Byte.to_N x =? 92 then
        match getu4 b with
        | Some (u, r1) =>
            if inR 55296 57343 u then                              (* a surrogate *)
              match getu4 r1 with
              | Some (v, r2) =>
                  if inR 55296 56319 u && inR 56320 57343 v
                  then appendRune ((u - 55296) * 1024 + (v - 56320) + 65536) ++ unquote f r2
                  else runeError ++ unquote f r1
              | None => runeError ++ unquote f r1
              end
            else appendRune u ++ unquote f r1
        | None =>
            match r with
            | c :: r1 => match plainEsc c with Some y => y :: unquote f r1 | None => [] end
            | [] => []
            end
        end
      else if Byte.to_N x <? 128 then x :: unquote f r
      else let '(c, w) := decodeRune b in appendRune c ++ unquote f (skipn w b)
  | _, _ => []
  end.

(** scanner.go, [state0], [state1], [stateDot], [stateE] and the others: a number. *)
Fixpoint takeDigits (b : bytes) : bytes * bytes :=
  match b with
  | c :: r => if isDigit c then let '(d, r') := takeDigits r in (c :: d, r') else ([], b)
  | [] => ([], [])
  end.
Definition oneOf (l : list N) (b : bytes) : bytes * bytes :=
  match b with c :: r => if existsb (N.eqb (Byte.to_N c)) l then ([c], r) else ([], b) | [] => ([], []) end.
Definition scanNum (b : bytes) : option (bytes * bytes) :=
  let '(sg, b) := oneOf [45] b in
  match takeDigits b with
  | ([], _) => None
  | (c :: d, r) =>
      let '(ip, r) := if Byte.to_N c =? 48 then ([c], d ++ r) else (c :: d, r) in
      match oneOf [46] r with
      | ([], _) => Some (sg ++ ip, r)
      | (p, r') => match takeDigits r' with ([], _) => None | (f, r) => Some (sg ++ ip ++ p ++ f, r) end
      end
  end.
Definition scanExp (o : option (bytes * bytes)) : option (bytes * bytes) :=
  match o with
  | None => None
  | Some (t, r) =>
      match oneOf [69; 101] r with
      | ([], _) => Some (t, r)
      | (e, r') => let '(s, r2) := oneOf [43; 45] r' in
                   match takeDigits r2 with ([], _) => None | (d, r3) => Some (t ++ e ++ s ++ d, r3) end
      end
  end.

Definition lit (w : bytes) (v : json) (b : bytes) : option (json * bytes) :=
  if beq (firstn (length w) b) w then Some (v, skipn (length w) b) else None.

Fixpoint value (fuel : nat) (b : bytes) {struct fuel} : option (json * bytes) :=
  match fuel with
  | O => None
  | S f =>
      match b with
      | [] => None
      | c :: r =>
          let n := Byte.to_N c in
          if n =? 123 then                                          (* { *)
            match skipWs r with
            | d :: r' => if Byte.to_N d =? 125 then Some (JObj [], r')
                         else match members f r with Some (l, r) => Some (JObj l, r) | None => None end
            | [] => None
            end
          else if n =? 91 then                                      (* [ *)
            match skipWs r with
            | d :: r' => if Byte.to_N d =? 93 then Some (JArr [], r')
                         else match elems f r with Some (l, r) => Some (JArr l, r) | None => None end
            | [] => None
            end
          else if n =? 34 then
            match scanStr r with Some (t, r) => Some (JStr t (unquote (length t) t), r) | None => None end
          else if n =? 110 then lit (B "null") JNull b
          else if n =? 116 then lit (B "true") (JBool true) b
          else if n =? 102 then lit (B "false") (JBool false) b
          else match scanExp (scanNum b) with Some (t, r) => Some (JNum t, r) | None => None end
      end
  end
with elems (fuel : nat) (b : bytes) {struct fuel} : option (list json * bytes) :=
  match fuel with
  | O => None
  | S f =>
      match value f (skipWs b) with
      | Some (v, r) =>
          match skipWs r with
          | d :: r =>
              if Byte.to_N d =? 44 then match elems f r with Some (l, r) => Some (v :: l, r) | None => None end
              else if Byte.to_N d =? 93 then Some ([v], r) else None
          | [] => None
          end
      | None => None
      end
  end
with members (fuel : nat) (b : bytes) {struct fuel} : option (list (bytes * json) * bytes) :=
  match fuel with
  | O => None
  | S f =>
      match skipWs b with
      | q :: r =>
          if Byte.to_N q =? 34 then
            match scanStr r with
            | Some (t, r) =>
                match skipWs r with
                | c :: r =>
                    if Byte.to_N c =? 58 then
                      match value f (skipWs r) with
                      | Some (v, r) =>
                          let m := (unquote (length t) t, v) in
                          match skipWs r with
                          | d :: r =>
                              if Byte.to_N d =? 44 then match members f r with Some (l, r) => Some (m :: l, r) | None => None end
                              else if Byte.to_N d =? 125 then Some ([m], r) else None
                          | [] => None
                          end
                      | None => None
                      end
                    else None
                | [] => None
                end
            | None => None
            end
          else None
      | [] => None
      end
  end.

(** A value at the beginning of [b] (json.Decoder) *)
Definition firstValue (b : bytes) : option (json * bytes) := value (2 * length b + 1) (skipWs b).
(** A text that is one value (json.Unmarshal) *)
Definition wholeValue (b : bytes) : option json :=
  match firstValue b with Some (v, r) => match skipWs r with [] => Some v | _ => None end | None => None end.

(** ** Times *)
Definition nsMinute : Z := (60 * nsSecond)%Z.
Fixpoint trimZeros (b : bytes) : bytes :=                      (* trailing zeros dropped *)
  match b with
  | [] => []
  | c :: r => match trimZeros r with [] => if Byte.to_N c =? 48 then [] else [c] | r' => c :: r' end
  end.
(** format_rfc3339.go, [appendFormatRFC3339] with nanoseconds and [appendStrictRFC3339]:
    [None] if the year has not four digits or the zone is a day or more away. *)
Definition timeText (t zone : Z) : option bytes :=
  let l := (t + zone * nsMinute)%Z in
  let '(y, _, _) := civilOfDays (l / nsDay)%Z in
  if ((y <? 0) || (9999 <? y) || (zone <=? -1440) || (1440 <=? zone))%Z then None
  else
    let s := ((l mod nsDay) / nsSecond)%Z in
    let f := trimZeros (decFixed 9 (l mod nsSecond)%Z) in
    Some (formatDay l ++ B "T" ++ decFixed 2 (s / 3600)%Z ++ B ":" ++ decFixed 2 (s / 60 mod 60)%Z ++ B ":" ++ decFixed 2 (s mod 60)%Z ++
          match f with [] => [] | _ => B "." ++ f end ++
          (if zone =? 0 then B "Z"
           else (if zone <? 0 then B "-" else B "+") ++ decFixed 2 (Z.abs zone / 60) ++ B ":" ++ decFixed 2 (Z.abs zone mod 60))%Z).

(** [parseNanoseconds]: digits after the ninth do not count. *)
Definition nanoseconds (d : bytes) : option Z := decNum 0%Z (firstn 9 (d ++ repeat x30 9)).
(** [parseRFC3339]: two digits within a bound, the zone, the whole *)
Definition two (max : Z) (a b : byte) : option Z :=
  match decNum 0%Z [a; b] with Some n => if (n <=? max)%Z then Some n else None | None => None end.
Definition parseZone (b : bytes) : option Z :=
  match b with
  | [c] => if Byte.eqb c "Z" then Some 0%Z else None
  | [s; h1; h2; c; m1; m2] =>
      match two 23 h1 h2, two 59 m1 m2 with
      | Some h, Some m =>
          if negb (Byte.eqb c ":") then None
          else if Byte.eqb s "+" then Some (h * 60 + m)%Z
          else if Byte.eqb s "-" then Some (- (h * 60 + m))%Z else None
      | _, _ => None
      end
  | _ => None
  end.
Definition parseTime (b : bytes) : option (Z * Z) :=
  match parseDayPrefix b with
  | Some (d, t :: h1 :: h2 :: c1 :: m1 :: m2 :: c2 :: s1 :: s2 :: r) =>
      if Byte.eqb t "T" && Byte.eqb c1 ":" && Byte.eqb c2 ":" then
        match two 23 h1 h2, two 59 m1 m2, two 59 s1 s2 with
        | Some h, Some m, Some s =>
            let '(f, r) := match r with
                           | p :: r' => if Byte.eqb p "." then match takeDigits r' with ([], _) => ([], r) | x => x end else ([], r)
                           | [] => ([], r)
                           end in
            match nanoseconds f, parseZone r with
            | Some n, Some z => Some (d * nsDay + h * nsHour + m * nsMinute + s * nsSecond + n - z * nsMinute, z)%Z
            | _, _ => None
            end
        | _, _, _ => None
        end
      else None
  | _ => None
  end.

(** ** Structs *)

(** The kinds of fields that occur. *)
Inductive fval := FStr (s : bytes) | FUint (n : N) | FBool (b : bool) | FTime (t zone : Z).
Definition struct := list (bytes * fval).

Definition fieldText (v : fval) : option bytes :=
  match v with
  | FStr s => Some (quoted s)
  | FUint n => Some (decText n)
  | FBool b => Some (if b then B "true" else B "false")
  | FTime t z => match timeText t z with Some x => Some ([x22] ++ x ++ [x22]) | None => None end
  end.
Fixpoint fieldTexts (first : bool) (s : struct) : option bytes :=
  match s with
  | [] => Some []
  | (n, v) :: s =>
      match fieldText v, fieldTexts false s with
      | Some x, Some y => Some ((if first then [] else B ",") ++ quoted n ++ B ":" ++ x ++ y)
      | _, _ => None
      end
  end.
Definition structText (s : struct) : option bytes :=
  match fieldTexts true s with Some x => Some (B "{" ++ x ++ B "}") | None => None end.
Fixpoint structTexts (first : bool) (l : list struct) : option bytes :=
  match l with
  | [] => Some []
  | s :: l =>
      match structText s, structTexts false l with
      | Some x, Some y => Some ((if first then [] else B ",") ++ x ++ y)
      | _, _ => None
      end
  end.
(** json.Encoder puts a newline at the end. *)
Definition listText (l : list struct) : option bytes :=
  match structTexts true l with Some x => Some (B "[" ++ x ++ B "]" ++ [x0a]) | None => None end.

(** fold.go, [foldName], as far as names of ASCII letters are concerned *)
Fixpoint foldName (b : bytes) : bytes :=
  match b with
  | [] => []
  | c :: r =>
      let n := Byte.to_N c in
      if inR 97 122 n then byteOf (n - 32) :: foldName r
      else if n =? 197 then
        match r with d :: r' => if Byte.to_N d =? 191 then x53 :: foldName r' else c :: foldName r | [] => [c] end
      else if n =? 226 then
        match r with
        | d :: e :: r' => if (Byte.to_N d =? 132) && (Byte.to_N e =? 170) then x4b :: foldName r' else c :: foldName r
        | _ => c :: foldName r
        end
      else c :: foldName r
  end.

(** decode.go, [literalStore] for each kind: null changes nothing, another type is an error
    ([UnmarshalTypeError]).  strconv.ParseUint for numbers. *)
Definition setValue (old : fval) (v : json) : option fval :=
  match v, old with
  | JNull, _ => Some old
  | JStr _ s, FStr _ => Some (FStr s)
  | JNum t, FUint _ =>
      if forallb isDigit t then
        match decNum 0%Z t with Some n => if (n <? 2 ^ 64)%Z then Some (FUint (Z.to_N n)) else None | None => None end
      else None
  | JBool b, FBool _ => Some (FBool b)
  | JStr raw _, FTime _ _ => match parseTime raw with Some (t, z) => Some (FTime t z) | None => None end
  | _, _ => None
  end.
Fixpoint setField (s : struct) (k : bytes) (v : json) : option struct :=
  match s with
  | [] => Some []
  | (n, old) :: s =>
      if beq (foldName n) (foldName k) then match setValue old v with Some x => Some ((n, x) :: s) | None => None end
      else match setField s k v with Some s => Some ((n, old) :: s) | None => None end
  end.
Fixpoint setFields (s : struct) (l : list (bytes * json)) : option struct :=
  match l with
  | [] => Some s
  | (k, v) :: l => match setField s k v with Some s => setFields s l | None => None end
  end.
(** [zero] is the struct before decoding. *)
Definition structOf (zero : struct) (v : json) : option struct :=
  match v with JObj l => setFields zero l | JNull => Some zero | _ => None end.
Fixpoint structsOf (zero : struct) (l : list json) : option (list struct) :=
  match l with
  | [] => Some []
  | v :: l => match structOf zero v, structsOf zero l with Some s, Some r => Some (s :: r) | _, _ => None end
  end.
Definition listOf (zero : struct) (v : json) : option (list struct) :=
  match v with JArr l => structsOf zero l | JNull => Some [] | _ => None end.

(** ** Log states: types.go:137-146 *)
Record state := mkState {
  s_logID : bytes; s_mmd : N; s_url : bytes; s_minEntry : N; s_maxEntry : N; s_minTs : N; s_maxTs : N;
  s_time : Z; s_zone : Z }.
(** time.Time{} *)
Definition zeroTime : Z := (-62135596800 * nsSecond)%Z.
Definition stateStruct (s : state) : struct :=
  [(B "LogID", FStr (s_logID s)); (B "MMD", FUint (s_mmd s)); (B "ShortURL", FStr (s_url s));
   (B "MinEntry", FUint (s_minEntry s)); (B "MaxEntry", FUint (s_maxEntry s));
   (B "MinTimestamp", FUint (s_minTs s)); (B "MaxTimestamp", FUint (s_maxTs s));
   (B "LastUpdateTime", FTime (s_time s) (s_zone s))].
Definition zeroState : state := mkState [] 0 [] 0 0 0 0 zeroTime 0.
Definition structState (s : struct) : option state :=
  match s with
  | [(_, FStr a); (_, FUint b); (_, FStr c); (_, FUint d); (_, FUint e); (_, FUint f); (_, FUint g); (_, FTime t z)] =>
      Some (mkState a b c d e f g t z)
  | _ => None
  end.
Definition optMap {A C} (f : A -> option C) : list A -> option (list C) :=
  fix go l := match l with [] => Some [] | x :: l => match f x, go l with Some y, Some r => Some (y :: r) | _, _ => None end end.

(** rediscache.go:227-234 and 236-247 *)
Definition marshalState (s : state) : option bytes := structText (stateStruct s).
Definition unmarshalState (b : bytes) : option state :=
  match wholeValue b with
  | Some v => match structOf (stateStruct zeroState) v with Some s => structState s | None => None end
  | None => None
  end.
(** certdatabase.go:586-589, aggregate-known.go:196-199, and certdatabase.go:316-334 *)
Definition encodeStates (l : list state) : option bytes := listText (map stateStruct l).
Definition decodeStates (b : bytes) : option (list state) :=
  match firstValue b with
  | Some (v, _) => match listOf (stateStruct zeroState) v with Some l => optMap structState l | None => None end
  | None => None
  end.

(** ** Issuers: issuers.go:42-48 *)
Record issuer := mkIssuer { i_unique : bytes; i_key : bytes; i_subject : bytes; i_pem : bytes; i_part : bool }.
Definition issuerStruct (e : issuer) : struct :=
  [(B "uniqueID", FStr (i_unique e)); (B "pubKeyHash", FStr (i_key e)); (B "subject", FStr (i_subject e));
   (B "pem", FStr (i_pem e)); (B "usesPartitionedCrls", FBool (i_part e))].
Definition structIssuer (s : struct) : option issuer :=
  match s with
  | [(_, FStr a); (_, FStr b); (_, FStr c); (_, FStr d); (_, FBool e)] => Some (mkIssuer a b c d e)
  | _ => None
  end.
Definition encodeIssuers (l : list issuer) : option bytes := listText (map issuerStruct l).
Definition decodeIssuers (b : bytes) : option (list issuer) :=
  match wholeValue b with
  | Some v => match listOf (issuerStruct (mkIssuer [] [] [] [] false)) v with Some l => optMap structIssuer l | None => None end
  | None => None
  end.
