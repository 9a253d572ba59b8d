(** * Writing enrolled.json with errors
    /repo/go/rootprogram/issuers.go lines 330-347 (the end of SaveIssuersList);
    IssuersModel.saveIssuers is the text written when nothing fails.

    Simplified: the writing of the whole text is one call, of which some first part gets
    into the file. *)
From Verif Require Import Base.

(** Whether the file can be opened (331), how much of the text gets into the file (338;
    [None]: all of it, and no error), whether closing it succeeds (342). *)
Record saving := mkSaving { sv_open : bool; sv_wrote : option nat; sv_close : bool }.

(** The file afterwards and whether success is reported.  The error of line 338 is another
    variable than the one that is returned: it is logged only. *)
Definition saveTo (text : bytes) (f : saving) (old : option bytes) : option bytes * bool :=
  if sv_open f then
    (Some match sv_wrote f with None => text | Some n => firstn n text end, sv_close f)
  else (old, false).
