(** * Model of the publication of the intermediate certificates
    /repo/moz_kinto_publisher/main.py lines 270-690 (Intermediate,
    load_local_intermediates, load_remote_intermediates, publish_intermediates).

    Not modelled: finding and downloading enrolled.json (the model starts from its
    entries; with no run in the bucket the script returns before any call); the
    tracking of expired records (555-600), which only counts for the log; the
    "hash" and "location" that the server gives to an attachment, which are taken
    to be right.  The downloads of the attachments that follow a listing are part
    of the listing: a failing download is a failing listing. *)
From Verif Require Import Base Base64 RemoteModel.

(** What is read from a certificate: SHA-256 of the key, subject, SHA-256 of the
    certificate.  unique_id (358-362) is a text made of the three; the first has 40
    characters and the last is a quoted text, so that different triples have
    different texts, and the model uses the triple. *)
Record pinfo := mkPinfo { p_spki : bytes; p_subject : bytes; p_der : bytes }.
Definition same (u v : pinfo) : bool := beq (p_spki u) (p_spki v) && beq (p_subject u) (p_subject v) && beq (p_der u) (p_der v).
(** The reading of a PEM text, set_pem 388-412: the certificate; IntermediateRecordError;
    another exception (no PEM marker or bad base64 inside, lines 168-174). *)
Inductive pem := PemOk (u : pinfo) | PemBad | PemExc.
(** The construction of an Intermediate: done, IntermediateRecordError, other exception. *)
Inductive parsed := Ok (u : pinfo) | Broken | Crash.

(** An entry of enrolled.json; no entry has an "attachment". *)
Record entry := mkEntry { e_pem : option bytes; e_pubKeyHash : option bytes; e_subject : option bytes; e_derHash : option bytes }.
(** The attributes of a record; no record has a "pem". *)
Record idata := mkI { i_pubKeyHash : option bytes; i_derHash : option bytes }.
Definition irec := record idata.

Fixpoint assoc {A} (u : pinfo) (l : list (pinfo * A)) : option A :=
  match l with
  | [] => None
  | (v, a) :: l' => if same u v then Some a else assoc u l'
  end.
Definition present {A} (u : pinfo) (l : list (pinfo * A)) : bool := match assoc u l with Some _ => true | None => false end.

Section Intermediates.
  Variable parsePem : bytes -> pem.
  (** base64.b64decode(..., altchars="-_", validate=True) *)
  Variable decode64 : bytes -> option bytes.

  (** main.py:319-344.  [Some []]: nothing to compare with ([if self.derHash and ...]). *)
  Definition hashField (t : option bytes) : option bytes :=
    match t with
    | None => Some []
    | Some s => match decode64 s with None => None | Some h => if beq h [] then Some [] else if (length h =? 32)%nat then Some h else None end
    end.
  (** main.py:388-412 *)
  Definition setPem (pk dh text : bytes) : parsed :=
    match parsePem text with
    | PemExc => Crash
    | PemBad => Broken
    | PemOk u => if negb (beq dh []) && negb (beq dh (p_der u)) then Broken else if negb (beq pk []) && negb (beq pk (p_spki u)) then Broken else Ok u
    end.
  (** main.py:280-356 for an entry of enrolled.json *)
  Definition localInt (e : entry) : parsed :=
    match e_pem e, e_pubKeyHash e, e_subject e with
    | Some text, Some pk, Some _ =>
        match hashField (Some pk), hashField (e_derHash e) with Some k, Some d => setPem k d text | _, _ => Broken end
    | _, _, _ => Broken
    end.
  (** main.py:280-356, 414-423 for a record *)
  Definition remoteInt (r : irec) : parsed :=
    match r_att r, i_derHash (r_data r) with
    | Some (_, text), Some dh => match hashField (i_pubKeyHash (r_data r)), hashField (Some dh) with Some k, Some d => setPem k d text | _, _ => Broken end
    | _, _ => Broken
    end.

  (** main.py:503-530; [acc] in order of insertion, reversed.  None: an exception. *)
  Fixpoint loadLocal (acc : list (pinfo * bytes)) (l : list entry) : option (list (pinfo * bytes)) :=
    match l with
    | [] => Some acc
    | e :: l' =>
        match localInt e with
        | Crash => None
        | Broken => loadLocal acc l'
        | Ok u => if present u acc then loadLocal acc l' else loadLocal ((u, match e_pem e with Some t => t | None => [] end) :: acc) l'
        end
    end.
  (** main.py:533-552 *)
  Fixpoint loadRemote (rem : list (pinfo * irec)) (bad : list irec) (l : list irec) : option (list (pinfo * irec) * list irec) :=
    match l with
    | [] => Some (rem, bad)
    | r :: l' =>
        match remoteInt r with
        | Crash => None
        | Broken => loadRemote rem (r :: bad) l'
        | Ok u => if present u rem then loadRemote rem (r :: bad) l' else loadRemote ((u, r) :: rem) bad l'
        end
    end.

  (** The order in which Python goes through a set. *)
  Variable order : list pinfo -> list pinfo.

  (** try: c  except KintoException: log.error *)
  Definition tryK (p : prog idata unit) : prog idata unit := catchKinto p (Ret tt).
  (** main.py:616-624 and 627-640 *)
  Fixpoint deleteIds (ids : list bytes) : prog idata unit :=
    match ids with
    | [] => Ret tt
    | id :: ids' => seq (tryK (unitCall (CDelete id))) (fun _ => deleteIds ids')
    end.
  (** _get_attributes 364-373; add_to_kinto 466-498 *)
  Definition attributes (u : pinfo) : idata := mkI None (Some (b64encode stdAlphabet (p_der u))).
  Definition addToKinto (u : pinfo) (text : bytes) : prog idata unit :=
    seq (createRecord (attributes u)) (fun id =>
      catchKinto (unitCall (CAttach id (b64encode urlAlphabet (p_spki u) ++ B ".pem") text)) (seq (unitCall (CDelete id)) (fun _ => Raise EKinto))).
  (** main.py:643-650 *)
  Fixpoint addAll (loc : list (pinfo * bytes)) (us : list pinfo) : prog idata unit :=
    match us with
    | [] => Ret tt
    | u :: us' => seq (tryK (match assoc u loc with Some text => addToKinto u text | None => Raise EOther end)) (fun _ => addAll loc us')
    end.
  (** equals 385-386 *)
  Definition equals (u v : pinfo) : bool := beq (p_der u) (p_der v).
  (** update_kinto 436-464: IntermediateRecordError is a KintoException.  Equal hashes
      of attachments are equal attachments. *)
  Definition updateKinto (u : pinfo) (text : bytes) (r : irec) : prog idata unit :=
    match r_att r with
    | Some (_, t) => if beq t text then unitCall (CUpdate (r_id r) (attributes u) (r_att r)) else Raise EKinto
    | None => Raise EKinto
    end.
  (** main.py:653-667 *)
  Fixpoint updateAll (loc : list (pinfo * bytes)) (rem : list (pinfo * irec)) (us : list pinfo) : prog idata unit :=
    match us with
    | [] => Ret tt
    | u :: us' => seq (tryK (match assoc u loc, assoc u rem with Some text, Some r => updateKinto u text r | _, _ => Raise EOther end)) (fun _ => updateAll loc rem us')
    end.
  (** main.py:669-690.  A stored uid is the one of its certificate, so that [equals]
      is applied to the two uids. *)
  Definition keyOf {A} (u : pinfo) (l : list (pinfo * A)) : option pinfo := match find (fun p => same u (fst p)) l with Some p => Some (fst p) | None => None end.
  Definition verify (loc : list (pinfo * bytes)) : prog idata unit :=
    seq getRecords (fun l =>
      match loadRemote [] [] l with
      | None => Raise EOther
      | Some (rem, bad) =>
          match bad with
          | _ :: _ => Raise EKinto
          | [] =>
              if forallb (fun p => match keyOf (fst p) rem with Some v => equals (fst p) v | None => false end) loc
              then if forallb (fun p => present (fst p) loc) rem then requestReview else Raise EKinto
              else Raise EKinto
          end
      end).

  (** main.py:555-690 *)
  Definition remoteOnly (loc : list (pinfo * bytes)) (rem : list (pinfo * irec)) : list pinfo := map fst (filter (fun p => negb (present (fst p) loc)) rem).
  Definition toUpload (loc : list (pinfo * bytes)) (rem : list (pinfo * irec)) : list pinfo := map fst (filter (fun p => negb (present (fst p) rem)) loc).
  Definition toUpdate (loc : list (pinfo * bytes)) (rem : list (pinfo * irec)) : list pinfo :=
    map fst (filter (fun p => match keyOf (fst p) rem with Some v => negb (equals (fst p) v) | None => false end) loc).
  Definition idsOf (rem : list (pinfo * irec)) (us : list pinfo) : list bytes := flat_map (fun u => match assoc u rem with Some r => [r_id r] | None => [] end) us.
  Definition publishIntermediates (noop : bool) (entries : list entry) : prog idata unit :=
    match loadLocal [] entries with
    | None => Raise EOther
    | Some loc =>
        seq getRecords (fun l =>
        match loadRemote [] [] l with
        | None => Raise EOther
        | Some (rem, bad) =>
            if noop then Ret tt
            else
              seq (deleteIds (idsOf rem (order (remoteOnly loc rem)))) (fun _ =>
              seq (deleteIds (map r_id (rev bad))) (fun _ =>
              seq (addAll loc (order (toUpload loc rem))) (fun _ =>
              seq (updateAll loc rem (order (toUpdate loc rem))) (fun _ => verify loc))))
        end)
    end.
End Intermediates.
