(** * Whose log the recorded progress belongs to
    /repo/go/cmd/ct-fetch/ct-fetch.go:105-160 (SyncLog),
    /repo/go/cmd/ct-fetch/rfc6962.go:216-243 and tiled.go:32-52 (the constructors
    of the workers), /repo/go/types.go:109-164, /repo/go/storage/certdatabase.go:260-276.
    A log is known by its LogID, but its progress is kept under its address. *)
From Coq Require Import ZArith.
From Verif Require Import Base Base64 StoreModel CtFetchModel CtFetchEnd JsonModel.

(** types.go:112-120.  Description, Key and CRLiteEnrolled play no part here;
    the URL is taken apart by net/url (not modelled) into host and path. *)
Record meta := mkMeta { m_id : bytes; m_mmd : Z; m_host : bytes; m_path : bytes; m_tiled : bool }.

(** types.go:153-164 KeyID: standard base64, of exactly 32 bytes.  Go's decoder
    skips carriage returns and line feeds. *)
Definition noBreak (c : byte) : bool := negb (Byte.eqb c x0d || Byte.eqb c x0a).
Definition keyID (t : bytes) : option bytes :=
  match b64decode stdAlphabet (filter noBreak t) with
  | Some k => if Nat.eqb (length k) 32 then Some k else None
  | None => None
  end.

(** certdatabase.go:265 with rediscache.go:179-181: where the state of a log is kept. *)
Definition shortOf (m : meta) : bytes := shortURL (m_host m) (m_path m).
Definition addressOf (m : meta) : bytes := logKey (shortOf m).

(** The log states in the cache.  That their JSON texts read back is C77. *)
Definition states := list (bytes * state).

(** certdatabase.go:264-276: nothing found, or nothing readable: a new state. *)
Definition fresh (m : meta) : state := mkState [] 0 (shortOf m) 0 0 0 0 zeroTime 0.
Definition load (l : states) (m : meta) : state :=
  match alookup (addressOf m) l with Some s => s | None => fresh m end.

(** rfc6962.go:219-229, tiled.go:35-45: the log list is authoritative.
    uint64(int) keeps the value modulo 2^64. *)
Definition adopt (m : meta) (s : state) : state :=
  mkState (m_id m) (Z.to_N (m_mmd m mod 2 ^ 64)) (s_url s) (s_minEntry s) (s_maxEntry s) (s_minTs s) (s_maxTs s)
    (s_time s) (s_zone s).

(** The part of a state the jobs of CtFetchModel.v work on.  LastUpdateTime.IsZero()
    is [None]. *)
Definition view (s : state) : logState :=
  mkLS (s_minEntry s) (s_maxEntry s) (s_minTs s) (s_maxTs s)
    (if Z.eqb (s_time s) zeroTime then None else Some (Z.to_N (s_time s))).
(** A job updates the state in place (rfc6962.go:491-545, tiled.go:354-370).  The zone
    of a saved time is taken as UTC. *)
Definition put (s : state) (v : logState) : state :=
  mkState (s_logID s) (s_mmd s) (s_url s) (ls_minEntry v) (ls_maxEntry v) (ls_minTs v) (ls_maxTs v)
    (match ls_lastUpdate v with None => zeroTime | Some n => Z.of_N n end) 0.

Section Jobs.
  Context {Cert : Type}.

  (** certdatabase.go:278-283: what goes to the cache for one entry, without the
      computation of the key from certificate and issuer (C14, C23). *)
  Record item := mkItem { it_key : bytes; it_cert : Cert; it_issuer : Cert; it_ts : N }.
  Record world := mkWorld { w_states : states; w_items : list item }.

  (** ct-fetch.go:198-268 (tryUpdate, insertCTWorker), one message: an entry goes to the cache, a
      state is saved under the address it carries (rediscache.go:227-234). *)
  Definition deliver (k : bytes) (s : state) (w : world) (e : event Cert) : world :=
    match e with
    | EEntry _ ts _ (SQueued c iss) => mkWorld (w_states w) (mkItem k c iss ts :: w_items w)
    | EEntry _ _ _ _ => w
    | EState v => mkWorld (aset (logKey (s_url s)) (put s v) (w_states w)) (w_items w)
    end.

  Variable sha256 : bytes -> bytes.
  Variable J : N.                       (* BatchSize *)

  (** One job for the log [m] (ct-fetch.go:105-160, one turn of the loop), cut off after
      any number of its messages.  [lost]: the cache did not answer when the state was
      loaded (certdatabase.go:267-275).  Jobs follow one another here: how the messages
      of several logs interleave is the subject of C07 and C08. *)
  Inductive job (w : world) (m : meta) : list (event Cert) -> world -> Prop :=
  | job_runs (k : bytes) (lost : bool) (en : anyEnv) (tr pre post : list (event Cert)) :
      keyID (m_id m) = Some k ->
      Wall sha256 J (fun _ => m_tiled m) (fun _ _ => True) []
        (view (adopt m (load (if lost then [] else w_states w) m))) en tr ->
      tr = pre ++ post ->
      job w m pre (fold_left (deliver k (adopt m (load (if lost then [] else w_states w) m))) pre w).

  (** Any number of jobs for any logs; [h] is the list of the jobs and their
      messages, the latest first. *)
  Inductive reach : list (meta * list (event Cert)) -> world -> Prop :=
  | reach_empty : reach [] (mkWorld [] [])
  | reach_job h w m pre w' : reach h w -> job w m pre w' -> reach ((m, pre) :: h) w'.
End Jobs.
Arguments item : clear implicits.
Arguments world : clear implicits.
