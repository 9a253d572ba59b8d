(** * Tables as text
    What a comma-separated text says, written down from RFC 4180 and without the reader of
    CsvModel.v. *)
From Verif Require Import Base.
From Coq Require Import Strings.Byte.

Definition QUOTE : byte := """"%byte.
Definition COMMA : byte := ","%byte.
Definition LF : byte := x0a.
Definition CR : byte := x0d.

(** Line ends as on Unix: CR LF is LF, and a CR at the very end is nothing. *)
Fixpoint unix (s : bytes) : bytes :=
  match s with
  | [] => []
  | c :: s' =>
      if Byte.eqb c CR then match s' with [] => [] | d :: _ => if Byte.eqb d LF then unix s' else c :: unix s' end
      else c :: unix s'
  end.

(** Quotes are doubled inside quotes. *)
Fixpoint doubled (c : bytes) : bytes :=
  match c with [] => [] | x :: c' => if Byte.eqb x QUOTE then x :: x :: doubled c' else x :: doubled c' end.

(** A cell is written as it is, if it has no quote, comma or line feed, or in quotes. *)
Inductive cellText : bytes -> bytes -> Prop :=
| plainCell c : ~ In QUOTE c -> ~ In COMMA c -> ~ In LF c -> cellText c c
| quotedCell c : cellText c (QUOTE :: doubled c ++ [QUOTE]).

(** The cells of a row are separated by commas. *)
Inductive rowText : list bytes -> bytes -> Prop :=
| lastCell c t : cellText c t -> rowText [c] t
| moreCells c t row r : cellText c t -> rowText row r -> rowText (c :: row) (t ++ COMMA :: r).

(** Rows end with a line feed, which the last one may lack; empty lines mean nothing. *)
Inductive tableText : list (list bytes) -> bytes -> Prop :=
| noRows : tableText [] []
| emptyLine rows u : tableText rows u -> tableText rows (LF :: u)
| oneRow row r rows u : rowText row r -> r <> [] -> tableText rows u -> tableText (row :: rows) (r ++ LF :: u)
| lastRow row r : rowText row r -> r <> [] -> tableText [row] r.

(** ** Writing a table *)

(** A cell together with the choice to write it in quotes; a row together with the choice to
    end its line with CR LF. *)
Definition cellOut (x : bool * bytes) : bytes := if fst x then QUOTE :: doubled (snd x) ++ [QUOTE] else snd x.
Fixpoint rowOut (l : list (bool * bytes)) : bytes :=
  match l with [] => [] | [x] => cellOut x | x :: l' => cellOut x ++ COMMA :: rowOut l' end.
Definition lineOut (r : list (bool * bytes) * bool) : bytes := rowOut (fst r) ++ (if snd r then [CR; LF] else [LF]).
Definition tableOut (t : list (list (bool * bytes) * bool)) : bytes := flat_map lineOut t.

(** Cells with a quote, comma or line end need quotes; a row has cells, and if it has just an
    empty one it needs quotes too. *)
Definition okCell (x : bool * bytes) : Prop :=
  fst x = true \/ (~ In QUOTE (snd x) /\ ~ In COMMA (snd x) /\ ~ In LF (snd x) /\ ~ In CR (snd x)).
Definition okRow (l : list (bool * bytes)) : Prop := l <> [] /\ l <> [(false, [])] /\ forall x, In x l -> okCell x.

(** The reader turns CR LF inside a cell into LF. *)
Fixpoint crlf (c : bytes) : bytes :=
  match c with
  | [] => []
  | x :: c' =>
      if Byte.eqb x CR then match c' with [] => [x] | d :: _ => if Byte.eqb d LF then crlf c' else x :: crlf c' end
      else x :: crlf c'
  end.

(** ** Cutting a table short *)

(** [row'] lacks cells of [row], and of its own last cell the end may be missing. *)
Definition shortened (row' row : list bytes) : Prop :=
  exists pre c d more, row' = pre ++ [c] /\ row = pre ++ (c ++ d) :: more.
Inductive cutTable : list (list bytes) -> list (list bytes) -> Prop :=
| cutHere T : cutTable T []
| cutIn row row' T : shortened row' row -> cutTable (row :: T) [row']
| cutLater row T T' : cutTable T T' -> cutTable (row :: T) (row :: T').
