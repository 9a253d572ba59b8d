(** * Model of the synchronisation of the list of CT logs
    /repo/moz_kinto_publisher/main.py lines 1078-1253 (publish_ctlogs).

    Not modelled: the download and decoding of the upstream list (an upstream entry
    without one of the fields read is an exception before any call to the server),
    and log output. *)
From Verif Require Import Base RemoteModel.

(** A record of the ct-logs collection.  Each field may be missing in a record made
    by hand.  main.py:1082-1093 *)
Record clog := mkLog {
  g_admissible : option bool; g_enrolled : option bool; g_description : option bytes; g_key : option bytes; g_logID : option bytes;
  g_mmd : option Z; g_operator : option bytes; g_tiled : option bool; g_url : option bytes }.
Definition lrec := record clog.

(** An entry of the upstream list, with the keys of its "state" object. *)
Record rawLog := mkRaw { w_description : bytes; w_key : bytes; w_logID : bytes; w_mmd : Z; w_state : list bytes; w_url : bytes (* url, or monitoring_url of a tiled log *) }.
Record operator := mkOperator { o_name : bytes; o_logs : list rawLog; o_tiled : list rawLog }.

(** main.py:1104 *)
Definition admissibleStates : list bytes := [B "qualified"; B "usable"; B "readonly"; B "retired"].
(** main.py:1108-1139 *)
Definition translate (o : operator) (tiled : bool) (w : rawLog) : clog :=
  mkLog (Some (existsb (fun st => existsb (beq st) (w_state w)) admissibleStates)) (Some true) (Some (w_description w)) (Some (w_key w)) (Some (w_logID w)) (Some (w_mmd w))
        (Some (o_name o)) (Some tiled) (Some (w_url w)).
Definition upstream (ops : list operator) : list (bytes * clog) :=
  flat_map (fun o => map (fun w => (w_logID w, translate o false w)) (o_logs o) ++ map (fun w => (w_logID w, translate o true w)) (o_tiled o)) ops.

(** len(l) == len(dict) *)
Fixpoint distinct (l : list bytes) : bool :=
  match l with
  | [] => true
  | x :: l' => negb (existsb (beq x) l') && distinct l'
  end.
Fixpoint lookupLog {A} (id : bytes) (l : list (bytes * A)) : option A :=
  match l with
  | [] => None
  | (k, a) :: l' => if beq id k then Some a else lookupLog id l'
  end.

Definition optEq {A} (eq : A -> A -> bool) (x y : option A) : bool :=
  match x, y with Some a, Some b => eq a b | None, None => true | _, _ => false end.
(** main.py:1219-1231 *)
Definition needsUpdate (up known : clog) : bool :=
  negb (optEq beq (g_description up) (g_description known) && optEq beq (g_key up) (g_key known) && optEq beq (g_url up) (g_url known) &&
        optEq Z.eqb (g_mmd up) (g_mmd known) && optEq Bool.eqb (g_admissible up) (g_admissible known) &&
        optEq beq (g_operator up) (g_operator known) && optEq Bool.eqb (g_tiled up) (g_tiled known)).
(** main.py:1217 *)
Definition withEnrolled (u : clog) (e : bool) : clog :=
  mkLog (g_admissible u) (Some e) (g_description u) (g_key u) (g_logID u) (g_mmd u) (g_operator u) (g_tiled u) (g_url u).

Section Ctlogs.
  (** base64(sha256(base64 decoding of the key)); None: the key is not base64 *)
  Variable idOfKey : bytes -> option bytes.

  (** main.py:1148-1156 *)
  Fixpoint checkIds (up : list (bytes * clog)) : py unit :=
    match up with
    | [] => Val tt
    | (id, u) :: up' =>
        match match g_key u with Some k => idOfKey k | None => None end with
        | None => Exc EOther
        | Some h => if beq h id then checkIds up' else Exc EConsistency
        end
    end.
  (** {ctlog["logID"]: ctlog for ctlog in known_logs}: main.py:1160 *)
  Fixpoint knownLogs (l : list lrec) : py (list (bytes * lrec)) :=
    match l with
    | [] => Val []
    | r :: l' => match g_logID (r_data r) with None => Exc EOther | Some id => pbind (knownLogs l') (fun m => Val ((id, r) :: m)) end
    end.

  (** try: c  except KintoException: log.error *)
  Definition attempt (p : prog clog unit) : prog clog unit := catchKinto p (Ret tt).
  (** main.py:1168-1187 *)
  Fixpoint addLogs (noop : bool) (known : list (bytes * lrec)) (up : list (bytes * clog)) : prog clog unit :=
    match up with
    | [] => Ret tt
    | (id, u) :: up' =>
        match lookupLog id known with
        | Some _ => addLogs noop known up'
        | None => if noop then addLogs noop known up' else seq (attempt (seq (createRecord u) (fun _ => Ret tt))) (fun _ => addLogs noop known up')
        end
    end.
  (** main.py:1191-1208 *)
  Fixpoint deleteLogs (noop : bool) (up : list (bytes * clog)) (known : list (bytes * lrec)) : prog clog unit :=
    match known with
    | [] => Ret tt
    | (id, r) :: known' =>
        match lookupLog id up with
        | Some _ => deleteLogs noop up known'
        | None => if noop then deleteLogs noop up known' else seq (attempt (unitCall (CDelete (r_id r)))) (fun _ => deleteLogs noop up known')
        end
    end.
  (** main.py:1211-1248 *)
  Fixpoint updateLogs (noop : bool) (up : list (bytes * clog)) (known : list (bytes * lrec)) : prog clog unit :=
    match known with
    | [] => Ret tt
    | (id, r) :: known' =>
        match lookupLog id up with
        | None => updateLogs noop up known'
        | Some u =>
            match g_enrolled (r_data r) with
            | None => Raise EOther
            | Some e =>
                if needsUpdate u (r_data r) then
                  if noop then updateLogs noop up known'
                  else seq (attempt (unitCall (CUpdate (r_id r) (withEnrolled u e) None))) (fun _ => updateLogs noop up known')
                else updateLogs noop up known'
            end
        end
    end.
  (** main.py:1078-1253 *)
  Definition publishCtlogs (noop : bool) (ops : list operator) : prog clog unit :=
    let up := upstream ops in
    if negb (distinct (map fst up)) then Raise EConsistency
    else seq (ofPy (checkIds up)) (fun _ =>
      seq getRecords (fun l =>
      seq (ofPy (knownLogs l)) (fun known =>
      if negb (distinct (map fst known)) then Raise EConsistency
      else seq (addLogs noop known up) (fun _ => seq (deleteLogs noop up known) (fun _ => seq (updateLogs noop up known) (fun _ =>
        if noop then Ret tt else requestReview)))))).
End Ctlogs.
