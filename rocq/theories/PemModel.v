(** * PEM text of certificates
    /repo/go/rootprogram/issuers.go:251-275 ([CertificateToPEM], [PEMToCertificate]; the
    decoding at 277-281 is the same), with Go's encoding/pem and base64.StdEncoding, which
    are not in /repo and are modelled after their published source (version 1.24).
    The parser of certificates is not part of this file. *)
From Verif Require Import Base SerialModel Base64.
From Coq Require Import Strings.Byte.

Fixpoint isPrefix (p l : bytes) : bool :=
  match p, l with
  | [], _ => true
  | x :: p, y :: l => Byte.eqb x y && isPrefix p l
  | _, [] => false
  end.
(** bytes.Cut: what is before and after the first occurrence of [sep] *)
Fixpoint cut (sep l : bytes) : option (bytes * bytes) :=
  if isPrefix sep l then Some ([], skipn (length sep) l)
  else match l with
       | [] => None
       | c :: r => match cut sep r with Some (a, b) => Some (c :: a, b) | None => None end
       end.

(** bytes.TrimRight(line, " \t") *)
Definition isBlank (c : byte) : bool := Byte.eqb c x20 || Byte.eqb c x09.
Fixpoint trimRight (l : bytes) : bytes :=
  match l with
  | [] => []
  | c :: r => match trimRight r with [] => if isBlank c then [] else [c] | t => c :: t end
  end.
(** A final CR is dropped. *)
Fixpoint dropCR (l : bytes) : bytes :=
  match l with
  | [] => []
  | [c] => if Byte.eqb c x0d then [] else [c]
  | c :: r => c :: dropCR r
  end.
(** pem.go, [getLine] *)
Definition getLine (data : bytes) : bytes * bytes :=
  match cut [x0a] data with
  | Some (line, rest) => (trimRight (dropCR line), rest)
  | None => (trimRight data, [])
  end.

Definition dashes : bytes := B "-----".
Definition pemBegin : bytes := B "-----BEGIN ".
Definition pemEnd : bytes := B "-----END ".
(** The text without [suffix] *)
Definition stripSuffix (suffix l : bytes) : option bytes :=
  let k := (length l - length suffix)%nat in
  if beq (skipn k l) suffix then Some (firstn k l) else None.

(** The lines with a colon are headers: how many, and what follows them. *)
Fixpoint skipHeaders (fuel n : nat) (rest : bytes) : option (nat * bytes) :=
  match fuel, rest with
  | S f, _ :: _ =>
      let '(line, next) := getLine rest in
      if existsb (Byte.eqb ":") line then skipHeaders f (S n) next else Some (n, rest)
  | _, _ => None
  end.
(** base64.StdEncoding.Decode passes over line ends; spaces and tabs were removed before. *)
Definition keep (c : byte) : bool := negb (Byte.eqb c x20 || Byte.eqb c x09 || Byte.eqb c x0a || Byte.eqb c x0d).
Definition decodeBody (b : bytes) : option bytes := b64decode stdAlphabet (filter keep b).

(** What stands before and after the line that ends the block *)
Definition findEnd (headers : nat) (rest : bytes) : option (bytes * bytes) :=
  if (headers =? 0)%nat && isPrefix pemEnd rest then Some ([], skipn (length pemEnd) rest)
  else cut (x0a :: pemEnd) rest.
(** pem.go, [Decode]: the type and the contents of the first block. *)
Fixpoint pemLoop (fuel : nat) (rest : bytes) : option (bytes * bytes) :=
  match fuel with
  | O => None
  | S f =>
      match (if isPrefix pemBegin rest then Some (skipn (length pemBegin) rest)
             else match cut (x0a :: pemBegin) rest with Some (_, r) => Some r | None => None end) with
      | None => None
      | Some rest =>
          let '(typeLine, rest) := getLine rest in
          match stripSuffix dashes typeLine with
          | None => pemLoop f rest
          | Some typ =>
              match skipHeaders (S (length rest)) 0 rest with
              | None => None
              | Some (n, rest) =>
                  match findEnd n rest with
                  | None => pemLoop f rest
                  | Some (body, trailer) =>
                      if isPrefix (typ ++ dashes) trailer &&
                         match fst (getLine (skipn (length (typ ++ dashes)) trailer)) with [] => true | _ => false end
                      then match decodeBody body with Some raw => Some (typ, raw) | None => pemLoop f rest end
                      else pemLoop f rest
                  end
              end
          end
      end
  end.
Definition pemDecode (data : bytes) : option (bytes * bytes) := pemLoop (S (length data)) data.

(** pem.go, [lineBreaker]: lines of 64 characters *)
Fixpoint linesOf (fuel : nat) (b : bytes) : bytes :=
  match fuel, b with
  | S f, _ :: _ => firstn 64 b ++ [x0a] ++ linesOf f (skipn 64 b)
  | _, _ => []
  end.
Definition certType : bytes := B "CERTIFICATE".
(** issuers.go:251-257; the last line end is trimmed. *)
Definition certificateToPEM (raw : bytes) : bytes :=
  let b := b64encode stdAlphabet raw in
  pemBegin ++ certType ++ dashes ++ [x0a] ++ linesOf (length b) b ++ pemEnd ++ certType ++ dashes.
(** issuers.go:259-275; [parse]: ctx509.ParseCertificate *)
Definition pemToCertificate {Cert} (parse : bytes -> option Cert) (p : bytes) : option Cert :=
  match pemDecode p with
  | Some (typ, raw) => if beq typ certType then parse raw else None
  | None => None
  end.
