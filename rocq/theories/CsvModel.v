(** * The text of the CCADB report
    /repo/go/rootprogram/issuers.go:104-131: [LoadFromDisk] reads its file with
    csv.NewReader, [Read] for the header and [ReadAll] for the rows.

    Go's encoding/csv is not in /repo; it is modelled after its published source (version
    1.24), for the settings of NewReader: the delimiter is a comma, no comments,
    FieldsPerRecord 0, no LazyQuotes, no TrimLeadingSpace.  Positions, which only serve error
    messages, are left out; so are errors of the disk while the file is read. *)
From Verif Require Import Base MerkleModel SerialModel IssuersModel.
From Coq Require Import Strings.Byte.

Definition nl : byte := x0a.
Definition cr : byte := x0d.

(** bufio.Reader.ReadSlice('\n'): the text up to and including the first line feed, or all
    of it; and what follows. *)
Fixpoint sliceLine (s : bytes) : bytes * bytes :=
  match s with
  | [] => ([], [])
  | c :: s' => if Byte.eqb c nl then ([c], s') else let '(l, r) := sliceLine s' in (c :: l, r)
  end.

(** csv.Reader.readLine: CR LF at the end of the line becomes LF, a CR at the end of the
    file is dropped.  [None] is io.EOF. *)
Definition normLine (l : bytes) : bytes :=
  match rev l with
  | c :: t =>
      if Byte.eqb c cr then rev t
      else if Byte.eqb c nl then match t with d :: t' => if Byte.eqb d cr then rev (c :: t') else l | [] => l end
      else l
  | [] => l
  end.
Definition readLine (s : bytes) : option (bytes * bytes) :=
  match s with
  | [] => None
  | _ => let '(l, r) := sliceLine s in Some (normLine l, r)
  end.

(** bytes.IndexByte: what is before and after the first [x]. *)
Fixpoint cutAt (x : byte) (l : bytes) : option (bytes * bytes) :=
  match l with
  | [] => None
  | c :: l' => if Byte.eqb c x then Some ([], l') else match cutAt x l' with Some (a, b) => Some (c :: a, b) | None => None end
  end.

(** line[:len(line)-lengthNL(line)] *)
Fixpoint dropNL (l : bytes) : bytes :=
  match l with
  | [] => []
  | [c] => if Byte.eqb c nl then [] else [c]
  | c :: l' => c :: dropNL l'
  end.
(** lengthNL(line) == len(line) *)
Definition onlyNL (l : bytes) : bool := match l with [] => true | [c] => Byte.eqb c nl | _ => false end.

(** The outcome of one record: its cells and the rest of the text; io.EOF; an error (bare
    or unclosed quote); or [RFuel], which does not occur. *)
Inductive rec := RDone (cells : list bytes) (rest : bytes) | REof | RErr | RFuel.

(** The loop [parseField] of csv.Reader.readRecord: [line] is what is left of the current
    line, [rest] the text after it, [acc] the cells so far; [fields] stands at the start of a
    cell, [quoted] inside a quoted one of which [cell] has been read. *)
Fixpoint fields (n : nat) (line rest : bytes) (acc : list bytes) {struct n} : rec :=
  match n with
  | O => RFuel
  | S n =>
      let plain :=
        match cutAt comma line with
        | Some (f, line') => match cutAt quote f with Some _ => RErr | None => fields n line' rest (acc ++ [f]) end
        | None => let f := dropNL line in
                  match cutAt quote f with Some _ => RErr | None => RDone (acc ++ [f]) rest end
        end in
      match line with
      | c :: line' => if Byte.eqb c quote then quoted n line' rest [] acc else plain
      | [] => plain
      end
  end
with quoted (n : nat) (line rest cell : bytes) (acc : list bytes) {struct n} : rec :=
  match n with
  | O => RFuel
  | S n =>
      match cutAt quote line with
      | Some (x, line') =>
          if onlyNL line' then RDone (acc ++ [cell ++ x]) rest
          else match line' with
               | c :: line'' =>
                   if Byte.eqb c quote then quoted n line'' rest (cell ++ x ++ [quote]) acc
                   else if Byte.eqb c comma then fields n line'' rest (acc ++ [cell ++ x])
                   else RErr
               | [] => RErr
               end
      | None =>
          match line with
          | [] => RErr
          | _ => match readLine rest with
                 | Some (line', rest') => quoted n line' rest' (cell ++ line) acc
                 | None => quoted n [] [] (cell ++ line) acc
                 end
          end
      end
  end.

(** csv.Reader.readRecord: empty lines are skipped. *)
Fixpoint record (n : nat) (s : bytes) : rec :=
  match n with
  | O => RFuel
  | S n =>
      match readLine s with
      | None => REof
      | Some (line, rest) => if onlyNL line then record n rest else fields (S (length line + length rest)) line rest []
      end
  end.
Definition readRecord (s : bytes) : rec := record (S (length s)) s.

(** csv.Reader.ReadAll, with FieldsPerRecord = [w]; [None] is an error. *)
Fixpoint readAll (n : nat) (w : nat) (s : bytes) : option (list (list bytes)) :=
  match n with
  | O => None
  | S n =>
      match readRecord s with
      | REof => Some []
      | RDone cells rest =>
          if (length cells =? w)%nat then match readAll n w rest with Some l => Some (cells :: l) | None => None end
          else None
      | _ => None
      end
  end.

(** The header and the rows, as LoadFromDisk gets them (lines 104-108 and 128-131). *)
Definition readReport (s : bytes) : option (list bytes) * option (list (list bytes)) :=
  match readRecord s with
  | RDone cols rest => (Some cols, readAll (S (length rest)) (length cols) rest)
  | _ => (None, None)
  end.

Section Load.
  Variable Cert : Type.
  Variable sha256 : bytes -> bytes.
  Variable spki : Cert -> bytes.
  Variable rawOfPEM : bytes -> option bytes.
  Variable ctParse : bytes -> option Cert.
  Variable chains : list bytes -> list bytes -> bytes -> bool.
  Variable upper : bytes -> bytes.
  Variable parseUrl : bytes -> option (bytes * bytes).

  (** issuers.go:92-227 [LoadFromDisk] of a file with the contents [s]. *)
  Definition loadText (order : list (bytes * bytes) -> list (bytes * bytes)) (s : bytes) : res (moz Cert) :=
    let '(header, rows) := readReport s in
    loadFromDisk Cert sha256 spki rawOfPEM ctParse chains upper parseUrl order header rows.
End Load.
