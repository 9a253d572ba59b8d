(** * Model of one run of the publisher over its three collections
    /repo/moz_kinto_publisher/main.py lines 1255-1336 (main) and 555-584 (the source of
    the intermediates).

    The stages themselves are [publishCtlogs] (CtlogsModel), [publishAll]
    (PublishModel) and [publishIntermediates] (IntermediatesModel).  Each works on a
    collection of its own and on no other.

    Not modelled: argument parsing, log output, the reading of the settings, and the
    retries within one request.  A missing user name or password is an exception before
    any call, as [None] for the list of logs is. *)
From Verif Require Import Base RemoteModel PublishModel CtlogsModel IntermediatesModel.

(** The three collections: ct-logs, cert-revocations, intermediates.  settings.py:7-13 *)
Record site := mkSite { s_logs : server clog; s_filters : server attrs; s_ints : server idata }.

(** What the run reads from elsewhere.  The bucket is listed anew for each channel and
    for the intermediates, so that a run may appear in between. *)
Record inputs := mkInputs {
  i_logs : option (list operator);          (* log_list.json; None: not fetched, or a field is missing.  main.py:1096-1098 *)
  i_bucket : channel -> bucket;             (* as [publish_crlite] finds it for a channel *)
  i_ids : list bytes;                       (* main.py:561 *)
  i_enrolled : bytes -> option (list entry);(* enrolled.json of a run; None: download or parsing fails.  main.py:575-584 *)
  i_local : option (option (list entry)) }. (* --enrolled-json; Some None: the file cannot be read.  main.py:556, 570-571 *)

(** The failures met by the calls of each stage. *)
Record troubles := mkTroubles { t_logs : list fault; t_filters : list fault; t_ints : list fault }.
Definition calm : troubles := mkTroubles [] [] [].

Section Main.
  Variable idOfKey : bytes -> option bytes.
  Variable parsePem : bytes -> pem.
  Variable decode64 : bytes -> option bytes.
  Variable order : list pinfo -> list pinfo.
  (** The ids given by the server, and the order of its listings, in each collection. *)
  Variable freshL : list lrec -> bytes.   Variable listL : list lrec -> list lrec.
  Variable freshF : list frec -> bytes.   Variable listF : list frec -> list frec.
  Variable freshI : list irec -> bytes.   Variable listI : list irec -> list irec.

  (** main.py:1308-1310 *)
  Definition logsStage (noop : bool) (inp : inputs) : prog clog unit :=
    match i_logs inp with None => Raise EOther | Some ops => publishCtlogs idOfKey noop ops end.
  (** main.py:1312-1327 *)
  Definition filtersStage (noop : bool) (inp : inputs) : prog attrs unit := publishAll noop (i_bucket inp) channels.
  (** main.py:1329-1330 with 555-584.  Without a run in the bucket there is nothing to do. *)
  Definition intsStage (noop : bool) (inp : inputs) : prog idata unit :=
    let go f := match f with None => Raise EOther | Some es => publishIntermediates parsePem decode64 order noop es end in
    match i_local inp with
    | Some f => go f
    | None => match lastOf (i_ids inp) with None => Ret tt | Some r => go (i_enrolled inp r) end
    end.

  (** main.py:1307-1336: the stages follow each other; an exception is logged and raised
      again, so that the stages after it do not happen. *)
  Definition mainRun (noop : bool) (inp : inputs) (s : site) (t : troubles) : outcome unit * site :=
    let (o1, a) := run freshL listL (logsStage noop inp) (s_logs s) (t_logs t) in
    match o1 with
    | Done _ =>
        let (o2, b) := run freshF listF (filtersStage noop inp) (s_filters s) (t_filters t) in
        match o2 with
        | Done _ => let (o3, c) := run freshI listI (intsStage noop inp) (s_ints s) (t_ints t) in (o3, mkSite a b c)
        | Raised e => (Raised e, mkSite a b (s_ints s))
        | Died => (Died, mkSite a b (s_ints s))
        end
    | Raised e => (Raised e, mkSite a (s_filters s) (s_ints s))
    | Died => (Died, mkSite a (s_filters s) (s_ints s))
    end.
End Main.
