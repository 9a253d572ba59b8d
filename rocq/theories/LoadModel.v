(** * Loading the CCADB report
    /repo/go/rootprogram/issuers.go, [Load] (lines 69-90) and [DatasetAge] (lines 229-234).

    The report is a file that is downloaded when it is missing, unusable or twelve
    hours old.  The download is [downloadFileSync] of AggModel.v. *)
From Verif Require Import Base AggModel.
Local Open Scope Z_scope.

Section Load.
  (** The issuer table (IssuersModel.v), and what LoadFromDisk (lines 92-227) makes of
      the contents of a file: [CsvModel.loadText];
      [None] is an error.  It starts from an empty table (lines 136-138). *)
  Variable T : Type.
  Variable table : bytes -> option T.

  (** Twelve hours; times are in nanoseconds. *)
  Definition maxAge : Z := 12 * 3600 * 1000000000.

  (** What one call sees: whether the file can be opened, before and after the download;
      the clock when the age is computed; the attempts of the download. *)
  Record loadEnv := mkLoad { le_open1 : bool; le_now : Z; le_dl : nat -> dlEnv; le_open2 : bool }.

  (** LoadFromDisk: os.Open fails if there is no file. *)
  Definition fromDisk (opens : bool) (t : option file) : option (T * Z) :=
    match t with
    | Some f => if opens then match table (f_data f) with Some m => Some (m, f_mtime f) | None => None end else None
    | None => None
    end.

  (** issuers.go:69-90.  Result: the table and no error, or an error; the file; whether
      the network was used.  The URL is a constant that parses.  The context is
      context.Background(), which is never cancelled.  A file dated at Go's zero time
      (year 1), which DatasetAge takes for new, is left out. *)
  Definition load (e : loadEnv) (t : option file) : option T * option file * bool :=
    let download :=
      let '(_, t', ok) := downloadFileSync 3 (fun i => (false, le_dl e i)) t in
      (if ok then option_map fst (fromDisk (le_open2 e) t') else None, t', true) in
    match fromDisk (le_open1 e) t with
    | Some (m, modTime) => if le_now e - modTime <? maxAge then (Some m, t, false) else download
    | None => download
    end.

  (** Several calls in a row, as by runs of aggregate-crls one after the other. *)
  Fixpoint loads (es : list loadEnv) (t : option file) : list (option T) * option file :=
    match es with
    | [] => ([], t)
    | e :: es' =>
        let '(r, t', _) := load e t in
        let '(rs, t'') := loads es' t' in (r :: rs, t'')
    end.
End Load.
Arguments fromDisk {T}. Arguments load {T}. Arguments loads {T}.
