(** * Model of the value types of the certificate store
    /repo/go/types.go lines 137-505, /repo/go/storage/types.go lines 41-108,
    /repo/go/storage/certdatabase.go lines 29-60 and 365-399,
    /repo/rust-create-cascade/src/main.rs lines 234-282.

    Not modelled: JSON encoding of these values, log messages. *)
From Verif Require Import Base MerkleModel.
From Coq Require Import Strings.Byte.

(** ** Bytes and numbers *)

(** Go conversion [byte(n)] (keeps the low eight bits). *)
Definition byteOf (n : N) : byte :=
  match Byte.of_N (n mod 256) with Some b => b | None => x00 end.

(** encoding/binary [LittleEndian.PutUint64] into the first [k] bytes of a
    buffer ([k = 8] in the code). *)
Fixpoint putLE (k : nat) (n : N) : bytes :=
  match k with
  | O => []
  | S k' => byteOf n :: putLE k' (n / 256)
  end.

(** encoding/binary [LittleEndian.Uint64]. *)
Fixpoint getLE (l : bytes) : N :=
  match l with
  | [] => 0
  | b :: l' => (Byte.to_N b + 256 * getLE l')%N
  end.

(** ** Hexadecimal: Go's encoding/hex, Rust's [hex] crate *)

Definition hexDigit (n : N) : byte :=
  nth (N.to_nat n) (B "0123456789abcdef") "0"%byte.

Definition hexByte (b : byte) : bytes :=
  let n := Byte.to_N b in [hexDigit (n / 16); hexDigit (n mod 16)].

(** [hex.EncodeToString]. *)
Definition hexEncode (s : bytes) : bytes := flat_map hexByte s.

(** One hexadecimal digit, either case (both decoders accept both cases). *)
Definition hexVal (c : byte) : option N :=
  let n := Byte.to_N c in
  if (48 <=? n)%N && (n <=? 57)%N then Some (n - 48)%N
  else if (97 <=? n)%N && (n <=? 102)%N then Some (n - 87)%N
  else if (65 <=? n)%N && (n <=? 70)%N then Some (n - 55)%N
  else None.

(** [hex.DecodeString]: [None] for odd length or a non-digit. *)
Fixpoint hexDecode (s : bytes) : option bytes :=
  match s with
  | [] => Some []
  | [_] => None
  | a :: b :: s' =>
      match hexVal a, hexVal b, hexDecode s' with
      | Some x, Some y, Some r => Some (byteOf (16 * x + y) :: r)
      | _, _, _ => None
      end
  end.

(** [k] hexadecimal digits of [n], most significant first. *)
Fixpoint hexFixed (k : nat) (n : N) : bytes :=
  match k with
  | O => []
  | S k' => hexFixed k' (n / 16) ++ [hexDigit (n mod 16)]
  end.

(** fmt's ["%016x"] of an int64.  Simplified for negative numbers below
    [-2^60] (dates more than 36 billion years ago), where fmt prints one digit
    more. *)
Definition fmt016x (z : Z) : bytes :=
  if (0 <=? z)%Z then hexFixed 16 (Z.to_N z)
  else B "-" ++ hexFixed 15 (Z.to_N (- z)).

(** Rust [u64::from_str_radix(s, 16)]: an optional ['+'], then at least one
    digit, no overflow. *)
Fixpoint hexNum (acc : N) (s : bytes) : option N :=
  match s with
  | [] => Some acc
  | c :: s' =>
      match hexVal c with
      | Some d => let a := (16 * acc + d)%N in if (a <? two64)%N then hexNum a s' else None
      | None => None
      end
  end.
Definition fromStrRadix16 (s : bytes) : option N :=
  let s' := match s with c :: r => if Byte.eqb c "+" then r else s | [] => s end in
  match s' with [] => None | _ => hexNum 0 s' end.

(** ** Cache entries, storage/types.go *)

(** storage/types.go:54-68 [NewMember], the [Value] field.  The log id is an
    array of 32 bytes. *)
Definition newMember (timestamp : N) (logId serial : bytes) : bytes :=
  putLE 8 timestamp ++ logId ++ serial.

(** storage/types.go:78-86 [AsSerial] (it never returns an error). *)
Definition asSerial (e : bytes) : bytes :=
  if (length e <? 40)%nat then e else skipn 40 e.

(** storage/types.go:88-108 [IsCovered]; the map is an association list. *)
Definition isCovered (cutoffs : list (bytes * N)) (e : bytes) : bool :=
  if (length e <? 40)%nat then true
  else
    let timestamp := getLE (firstn 8 e) in
    let logId := firstn 32 (skipn 8 e) in
    match alookup logId cutoffs with
    | None => false
    | Some cutoff => (timestamp <=? cutoff)%N
    end.

(** ** Coverage cutoffs, types.go *)

(** types.go:137-146 [CTLogState].  [lg_keyID] is what [KeyID] (types.go:153-164)
    returns for the [LogID] field: [None] when the base64 text is malformed or
    does not decode to 32 bytes.  [LastUpdateTime] is left out. *)
Record ctLog := mkLog {
  lg_keyID : option bytes;
  lg_mmd : N;
  lg_url : bytes;
  lg_minEntry : N; lg_maxEntry : N;
  lg_minTs : N; lg_maxTs : N }.

(** types.go:166-175 [CoverageCutoff]. *)
Definition coverageCutoff (l : ctLog) : N :=
  let msMMD := mul64 (lg_mmd l) 1000 in
  if (lg_maxTs l <? msMMD)%N then 0%N else sub64 (lg_maxTs l) msMMD.

(** types.go:179-189 [NewCoverageCutoffMap]. *)
Fixpoint cutoffMapFrom (m : list (bytes * N)) (logs : list ctLog) : list (bytes * N) :=
  match logs with
  | [] => m
  | l :: logs' =>
      match lg_keyID l with
      | None => cutoffMapFrom m logs'
      | Some k => cutoffMapFrom (aset k (coverageCutoff l) m) logs'
      end
  end.
Definition newCoverageCutoffMap (logs : list ctLog) : list (bytes * N) := cutoffMapFrom [] logs.

(** ** Serial lists, types.go *)

(** Go [bytes.Compare]: lexicographic, a proper prefix is smaller. *)
Fixpoint bcmp (x y : bytes) : comparison :=
  match x, y with
  | [], [] => Eq
  | [], _ => Lt
  | _, [] => Gt
  | a :: x', b :: y' =>
      match N.compare (Byte.to_N a) (Byte.to_N b) with Eq => bcmp x' y' | c => c end
  end.

(** types.go:285 [Less]. *)
Definition bless (x y : bytes) : bool := match bcmp x y with Lt => true | _ => false end.

(** types.go:291 [sort.Sort].  Modelled as insertion sort: serials that compare
    equal are the same byte string, so a list has only one sorted arrangement
    and the algorithm makes no difference. *)
Fixpoint insertSorted (x : bytes) (l : list bytes) : list bytes :=
  match l with
  | [] => [x]
  | y :: l' => if bless y x then y :: insertSorted x l' else x :: l
  end.
Definition sortSerials (l : list bytes) : list bytes := fold_right insertSorted [] l.

(** [s[i] = v] on a slice. *)
Fixpoint setNth (i : nat) (v : bytes) (l : list bytes) : list bytes :=
  match l, i with
  | [], _ => []
  | _ :: l', O => v :: l'
  | a :: l', S i' => a :: setNth i' v l'
  end.

(** types.go:293-299: the in-place loop.  [k] is the number of rounds left,
    [i] and [end_] the two indices. *)
Fixpoint dedupLoop (k i end_ : nat) (s : list bytes) : list bytes * nat :=
  match k with
  | O => (s, end_)
  | S k' =>
      if beq (nth i s []) (nth (i - 1) s []) then dedupLoop k' (S i) end_ s
      else dedupLoop k' (S i) (S end_) (setNth end_ (nth i s []) s)
  end.

(** types.go:287-301 [Dedup]. *)
Definition dedup (s : list bytes) : list bytes :=
  if (length s <? 2)%nat then s
  else
    let s1 := sortSerials s in
    let '(s2, end_) := dedupLoop (length s1 - 1) 1 1 s1 in
    firstn end_ s2.

(** ** Serial list files *)

Definition nl : byte := x0a.
Definition cr : byte := x0d.

(** certdatabase.go:29-31 [serialListExpiryLine]; the argument is the Unix time
    of the expiry date. *)
Definition expiryLine (unix : Z) : bytes := B "@" ++ fmt016x unix.

(** certdatabase.go:33-60 [WriteSerialList], the bytes written when no write
    fails. *)
Definition writeSerialList (unix : Z) (serials : list bytes) : bytes :=
  expiryLine unix ++ [nl] ++ flat_map (fun s => hexEncode s ++ [nl]) serials.

(** Splitting at newlines, as Go's [bufio.ScanLines] does: a final piece is a line
    only if it is not empty.
    [cur] is the current line reversed. *)
Fixpoint splitLines (cur : bytes) (data : bytes) : list bytes :=
  match data with
  | [] => match cur with [] => [] | _ => [rev cur] end
  | c :: data' => if Byte.eqb c nl then rev cur :: splitLines [] data' else splitLines (c :: cur) data'
  end.

(** One carriage return at the end of a line is dropped. *)
Definition dropCR (l : bytes) : bytes :=
  match rev l with
  | c :: r => if Byte.eqb c cr then rev r else l
  | [] => l
  end.

(** Rust's [BufRead::lines]: a carriage return is dropped only in front of a
    newline.  Bytes that are not UTF-8, with which it fails, are not told apart. *)
Fixpoint rustLines (cur : bytes) (data : bytes) : list bytes :=
  match data with
  | [] => match cur with [] => [] | _ => [rev cur] end
  | c :: data' => if Byte.eqb c nl then dropCR (rev cur) :: rustLines [] data' else rustLines (c :: cur) data'
  end.

(** bufio.MaxScanTokenSize: a longer line makes the Go scanner fail. *)
Definition maxToken : N := 65536.
Definition tooLong (l : bytes) : bool := (maxToken <=? N.of_nat (length l))%N.

(** certdatabase.go:388-392 with types.go:435-443 ([NewSerialFromHex] panics). *)
Fixpoint goSerials (ls : list bytes) : res (list bytes) :=
  match ls with
  | [] => Ok []
  | l :: ls' =>
      if tooLong l then Err
      else match hexDecode (dropCR l) with
           | None => Panic
           | Some s => match goSerials ls' with
                       | Ok r => Ok (s :: r)
                       | Err => Err
                       | Panic => Panic
                       end
           end
  end.

(** certdatabase.go:377-398, the part of [ReadSerialsFromStorage] after the file
    was opened. *)
Definition goReadFile (unix : Z) (data : bytes) : res (list bytes) :=
  match splitLines [] data with
  | [] => Ok []
  | l :: ls =>
      if tooLong l then Err
      else if beq (dropCR l) (expiryLine unix) then goSerials ls
      else Err
  end.

(** certdatabase.go:365-399 [ReadSerialsFromStorage]; [None]: no such file. *)
Definition readSerials (unix : Z) (file : option bytes) : res (list bytes) :=
  match file with None => Ok [] | Some d => goReadFile unix d end.

(** rust-create-cascade/src/main.rs:234-260 [KnownSerialIterator]: each serial
    (still in hex) with the date in force. *)
Fixpoint rustKnown (date : N) (ls : list bytes) : res (list (N * bytes)) :=
  match ls with
  | [] => Ok []
  | line :: ls' =>
      match line with
      | c :: t =>
          if Byte.eqb c "@" then
            match fromStrRadix16 t with
            | None => Panic
            | Some d => rustKnown d ls'
            end
          else match rustKnown date ls' with
               | Ok r => Ok ((date, line) :: r)
               | Err => Err
               | Panic => Panic
               end
      | [] => match rustKnown date ls' with
              | Ok r => Ok ((date, line) :: r)
              | Err => Err
              | Panic => Panic
              end
      end
  end.
Definition rustReadKnown (data : bytes) : res (list (N * bytes)) := rustKnown 0 (rustLines [] data).
