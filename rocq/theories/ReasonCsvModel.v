(** * Model of the table of revocation reasons
    /repo/rust-create-cascade/src/main.rs:413-461: the file reason_codes.csv that
    every build writes before its filters. *)
From Verif Require Import Base MerkleModel SerialModel Base64 StoreModel IssuersModel PublishModel FilterModel.
From Coq Require Import Strings.Byte.

(** One counter of ReasonCodeHistogram, main.rs:122-151; the histogram is the list
    of the reasons added to it. *)
Definition tally (rs : list reason) (r : reason) : N :=
  N.of_nat (length (filter (fun x => N.eqb (reasonCode x) (reasonCode r)) rs)).

(** main.rs:437 *)
Definition csvHeader : bytes :=
  B "issuer_spki_hash,unspecified,key_compromise,privilege_withdrawn,affiliation_changed,superseded,cessation_of_operation,revoked_certificates,non_revoked_certificates".

(** The numbers of one line, main.rs:442-451 *)
Definition csvNumbers (st : stats) : list N :=
  [tally (st_reasons st) Unspecified; tally (st_reasons st) KeyCompromise; tally (st_reasons st) PrivilegeWithdrawn;
   tally (st_reasons st) AffiliationChanged; tally (st_reasons st) Superseded; tally (st_reasons st) CessationOfOperation;
   st_revoked st; st_ok st].
(** main.rs:440-453 *)
Definition csvLine (e : bytes * stats) : bytes :=
  fst e ++ flat_map (fun n => comma :: decText n) (csvNumbers (snd e)) ++ [nl].

(** main.rs:419-455.  The parallel iterator keeps the order of the pairs.  Nothing
    is written if reading some file panics. *)
Definition reasonCsv (revoked known : dir) (set : reasonSet) : res bytes :=
  bind (mapRes (fun p => let '(name, r, k) := p in
                bind (readRevoked set r) (fun rv => bind (rustReadKnown k) (fun kn => Ok (name, count rv kn))))
          (filePairs revoked known))
    (fun l => Ok (csvHeader ++ [nl] ++ flat_map csvLine l)).
