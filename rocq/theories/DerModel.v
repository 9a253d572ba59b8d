(** * Serial numbers and CRL entries, read off DER
    /repo/go/types.go:340-402 (the raw CRL types and [DecodeRawTBSCertList]) and 411-433
    ([NewSerial], [NewSerialFromTBS]).

    The decoding is that of Go's encoding/asn1 for the struct types of types.go.  That
    package belongs to Go and is not in /repo; it is modelled after its published source:
    [parseTagAndLength], [parseBase128Int], [parseField], [parseSequenceOf].  Offsets into a
    slice are the bytes that are left; error values are [None].  The dates are not
    modelled: whether the text of a date is accepted is a parameter. *)
From Verif Require Import Base SerialModel AggModel LeafModel.

Local Open Scope N_scope.

(** ** parseTagAndLength *)

Record hdr := mkHdr { h_class : N; h_comp : bool; h_tag : N; h_len : N }.

(** asn1.parseBase128Int: at most five digits, the first is not 0x80, and the value is
    an int32. *)
Fixpoint base128 (k : nat) (first : bool) (acc : N) (b : bytes) : option (N * bytes) :=
  match k, b with
  | S k', x :: r =>
      let n := Byte.to_N x in
      if first && (n =? 128) then None
      else
        let acc := acc * 128 + n mod 128 in
        if n <? 128 then (if 2147483647 <? acc then None else Some (acc, r))
        else base128 k' false acc r
  | _, _ => None
  end.

(** The identifier octets: class, constructed bit, tag number. *)
Definition getTag (b : bytes) : option (N * bool * N * bytes) :=
  match b with
  | [] => None
  | x :: r =>
      let n := Byte.to_N x in
      let c := n / 64 in let k := (n / 32) mod 2 =? 1 in let t := n mod 32 in
      if t =? 31 then
        match base128 5 true 0 r with
        | Some (t, r) => if t <? 31 then None else Some (c, k, t, r)
        | None => None
        end
      else Some (c, k, t, r)
  end.

(** The bytes of a long length: none may push it to 2^31 or more, and it may not begin
    with a zero. *)
Fixpoint longLen (k : nat) (acc : N) (b : bytes) : option (N * bytes) :=
  match k with
  | O => Some (acc, b)
  | S k' =>
      match b with
      | [] => None
      | x :: r =>
          if 8388608 <=? acc then None
          else let acc := acc * 256 + Byte.to_N x in
               if acc =? 0 then None else longLen k' acc r
      end
  end.
Definition getLen (b : bytes) : option (N * bytes) :=
  match b with
  | [] => None
  | x :: r =>
      let n := Byte.to_N x in
      if n <? 128 then Some (n, r)
      else if n =? 128 then None                           (* indefinite *)
      else match longLen (N.to_nat (n - 128)) 0 r with
           | Some (l, r) => if l <? 128 then None else Some (l, r)
           | None => None
           end
  end.

Definition header (b : bytes) : option (hdr * bytes) :=
  match getTag b with
  | Some (c, k, t, r) => match getLen r with Some (l, r) => Some (mkHdr c k t l, r) | None => None end
  | None => None
  end.

(** The contents after a header, if they are all there (asn1.invalidLength). *)
Definition contents (h : hdr) (b : bytes) : option (bytes * bytes) :=
  if N.of_nat (length b) <? h_len h then None else takeB (N.to_nat (h_len h)) b.

(** ** parseField, by the type and the parameters of the field *)

(** asn1.RawValue without parameters: any element; the contents are kept. *)
Definition rawField (b : bytes) : option (bytes * bytes) :=
  match header b with Some (h, r) => contents h r | None => None end.

Definition isType (h : hdr) (comp : bool) (tag : N) : bool :=
  (h_class h =? 0) && Bool.eqb (h_comp h) comp && (h_tag h =? tag).

(** A field of a universal type whose contents go to [p]. *)
Definition field {A} (comp : bool) (tag : N) (p : bytes -> option A) (b : bytes) : option (A * bytes) :=
  match header b with
  | Some (h, r) =>
      if isType h comp tag then
        match contents h r with
        | Some (c, r) => match p c with Some a => Some (a, r) | None => None end
        | None => None
        end
      else None
  | None => None
  end.
(** The same with [optional]: [None] as a value is the default. *)
Definition optField {A} (comp : bool) (tag : N) (p : bytes -> option A) (b : bytes) : option (option A * bytes) :=
  match b with
  | [] => Some (None, [])
  | _ =>
      match header b with
      | Some (h, r) =>
          if isType h comp tag then
            match contents h r with
            | Some (c, r) => match p c with Some a => Some (Some a, r) | None => None end
            | None => None
            end
          else Some (None, b)
      | None => None
      end
  end.

(** types.go:413, [asn1.RawValue] with [optional,explicit,default:0,tag:0]: a context
    specific element 0 that is constructed or empty is taken (as a whole: the inner
    element of a RawValue is not looked at); anything else is left for the next field; a
    header at the very end is an error. *)
Definition versionField (b : bytes) : option bytes :=
  match b with
  | [] => Some []
  | _ =>
      match header b with
      | Some (h, r) =>
          match r with
          | [] => None
          | _ =>
              if (h_class h =? 2) && (h_tag h =? 0) && ((h_len h =? 0) || h_comp h) then
                match contents h r with Some (_, r) => Some r | None => None end
              else Some b
          end
      | None => None
      end
  end.

(** types.go:411-433.  [None] is the panic.  Bytes after the SEQUENCE, and after the
    serial number inside it, are allowed. *)
Definition serialOfTBS (b : bytes) : option bytes :=
  match field true 16 (fun c => match versionField c with Some r => rawField r | None => None end) b with
  | Some ((s, _), _) => Some s
  | None => None
  end.

(** asn1.checkInteger and parseInt64: two's complement, minimal, at most eight bytes. *)
Definition minimalInt (b : bytes) : bool :=
  match b with
  | [] => false
  | [_] => true
  | x :: y :: _ =>
      negb (((Byte.to_N x =? 0) && (Byte.to_N y <? 128)) || ((Byte.to_N x =? 255) && negb (Byte.to_N y <? 128)))
  end.
Definition signed (b : bytes) : Z :=
  match b with
  | [] => 0%Z
  | x :: _ => (Z.of_N (getBE b) - (if (Byte.to_N x <? 128)%N then 0 else 256 ^ Z.of_nat (length b)))%Z
  end.
Definition parseInt64 (b : bytes) : option Z :=
  if minimalInt b then (if 8 <? N.of_nat (length b) then None else Some (signed b)) else None.
(** asn1.parseInt32, for ENUMERATED *)
Definition parseInt32 (b : bytes) : option Z :=
  match parseInt64 b with
  | Some v => if ((-2147483648 <=? v) && (v <=? 2147483647))%Z then Some v else None
  | None => None
  end.
(** asn1.parseBool *)
Definition parseBool (b : bytes) : option bool :=
  match b with
  | [x] => if Byte.to_N x =? 0 then Some false else if Byte.to_N x =? 255 then Some true else None
  | _ => None
  end.
(** asn1.parseObjectIdentifier; every number takes a byte, so [fuel = length b] is enough. *)
Fixpoint arcs (fuel : nat) (b : bytes) : option (list N) :=
  match b with
  | [] => Some []
  | _ =>
      match fuel with
      | O => None
      | S f => match base128 5 true 0 b with
               | Some (v, r) => match arcs f r with Some l => Some (v :: l) | None => None end
               | None => None
               end
      end
  end.
Definition parseOID (b : bytes) : option (list N) :=
  match arcs (length b) b with
  | Some (v :: l) => Some (if v <? 80 then v / 40 :: v mod 40 :: l else 2 :: (v - 80) :: l)
  | _ => None
  end.

(** asn1.parseSequenceOf for a slice of structs: a sequence of SEQUENCEs, whose contents
    are then decoded.  Every element takes two bytes, so [fuel = length b] is enough. *)
Fixpoint seqOf {A} (fuel : nat) (p : bytes -> option A) (b : bytes) : option (list A) :=
  match b with
  | [] => Some []
  | _ =>
      match fuel with
      | O => None
      | S f => match field true 16 p b with
               | Some (a, r) => match seqOf f p r with Some l => Some (a :: l) | None => None end
               | None => None
               end
      end
  end.

(** types.go:365-377: what [Reason] makes of an extension: whether its identifier is that
    of the reason code (2.5.29.21) and what its value, read as ENUMERATED, is. *)
Definition oidReason : list N := [2; 5; 29; 21].
Definition listNeqb (x y : list N) : bool := if list_eq_dec N.eq_dec x y then true else false.
Definition enumerated (b : bytes) : option Z :=
  match field false 10 parseInt32 b with Some (v, _) => Some v | None => None end.

(** types.go:350-354 *)
Definition extension (c : bytes) : option (bool * option Z) :=
  match field false 6 parseOID c with
  | Some (id, r) =>
      match optField false 1 parseBool r with
      | Some (_, r) =>
          match field false 4 Some r with
          | Some (v, _) => Some (listNeqb id oidReason, enumerated v)
          | None => None
          end
      | None => None
      end
  | None => None
  end.

Section Crl.
  (** Whether the contents of a UTCTime (23) or GeneralizedTime (24) are a date. *)
  Variable timeOk : N -> bytes -> bool.

  Definition isTime (h : hdr) : bool := isType h false 23 || isType h false 24.
  Definition timeField (optional : bool) (b : bytes) : option bytes :=
    match b with
    | [] => if optional then Some [] else None
    | _ =>
        match header b with
        | Some (h, r) =>
            if isTime h then
              match contents h r with
              | Some (c, r) => if timeOk (h_tag h) c then Some r else None
              | None => None
              end
            else if optional then Some b else None
        | None => None
        end
    end.

  (** types.go:356-361 *)
  Definition revokedEntry (c : bytes) : option crlEntry :=
    match rawField c with
    | Some (s, r) =>
        match timeField false r with
        | Some r =>
            match optField true 16 (fun c => seqOf (length c) extension c) r with
            | Some (exts, _) => Some (mkEntry s (match exts with Some l => l | None => [] end))
            | None => None
            end
        | None => None
        end
    | None => None
    end.

  (** types.go:340-348 *)
  Definition tbsCertList (c : bytes) : option (list crlEntry) :=
    match optField false 2 parseInt64 c with
    | Some (_, r) =>
        match rawField r with
        | Some (_, r) =>
            match rawField r with
            | Some (_, r) =>
                match timeField false r with
                | Some r =>
                    match timeField true r with
                    | Some r =>
                        match optField true 16 (fun c => seqOf (length c) revokedEntry c) r with
                        | Some (l, _) => Some (match l with Some l => l | None => [] end)
                        | None => None
                        end
                    | None => None
                    end
                | None => None
                end
            | None => None
            end
        | None => None
        end
    | None => None
    end.

  (** types.go:398-402 *)
  Definition decodeRawTBSCertList (b : bytes) : option (list crlEntry) :=
    match field true 16 tbsCertList b with Some (l, _) => Some l | None => None end.
End Crl.
