(** * The bytes of a get-entries answer
    /repo/go/cmd/ct-fetch/rfc6962.go:653-666 (what the worker does with each element of
    the answer) and 545-560, 568, 588 (which of the decoded parts are parsed as
    certificates).

    The decoding itself is [ct.RawLogEntryFromLeaf] of the certificate-transparency-go
    library, which is not in /repo: it is modelled after RFC 6962, sections 3.1, 3.4 and
    4.6, and the library's behaviour where the RFC leaves it open (the version byte is
    not looked at; entry types other than the two of the RFC are an error).  The
    base64 text of the JSON answer is taken as already decoded. *)
From Verif Require Import Base MerkleModel CtFetchModel SerialModel.

(** Big-endian numbers, as the TLS presentation language has them. *)
Definition getBE (b : bytes) : N := getLE (rev b).

(** The next [n] bytes, and the rest. *)
Definition takeB (n : nat) (b : bytes) : option (bytes * bytes) :=
  if (length b <? n)%nat then None else Some (firstn n b, skipn n b).
Definition getU (n : nat) (b : bytes) : option (N * bytes) :=
  match takeB n b with Some (x, r) => Some (getBE x, r) | None => None end.
(** [opaque x<lo..2^(8k)-1>]: a length of [k] bytes, then that many bytes *)
Definition opaque (k : nat) (lo : N) (b : bytes) : option (bytes * bytes) :=
  match getU k b with
  | Some (n, r) => if (n <? lo)%N then None else takeB (N.to_nat n) r
  | None => None
  end.

(** RFC 6962, 3.4: a timestamped entry is a certificate, or the hash of the issuer's
    key and the part of the precertificate that will be signed. *)
Inductive leafKind := LX509 (cert : bytes) | LPre (keyHash tbs : bytes).
Record leafData := mkLeaf { lf_ts : N; lf_kind : leafKind; lf_ext : bytes }.

(** MerkleTreeLeaf *)
Definition decodeLeaf (b : bytes) : option leafData :=
  match getU 1 b with
  | Some (_, b) =>                                        (* version *)
  match getU 1 b with
  | Some (0%N, b) =>                                      (* leaf type timestamped_entry *)
  match getU 8 b with
  | Some (ts, b) =>
  match getU 2 b with
  | Some (ty, b) =>
  match (match ty with
         | 0%N => match opaque 3 1 b with Some (c, b) => Some (LX509 c, b) | None => None end
         | 1%N => match takeB 32 b with
                  | Some (kh, b) => match opaque 3 1 b with Some (t, b) => Some (LPre kh t, b) | None => None end
                  | None => None
                  end
         | _ => None
         end) with
  | Some (k, b) =>
  match opaque 2 0 b with
  | Some (ext, []) => Some (mkLeaf ts k ext)
  | _ => None
  end
  | None => None end | None => None end | None => None end | _ => None end | None => None end.

(** [ASN.1Cert chain<0..2^24-1>]; every certificate takes four bytes or more, so
    [fuel = length b] is enough (see [certs_encoded] in P_Leaf.v). *)
Fixpoint certs (fuel : nat) (b : bytes) : option (list bytes) :=
  match b with
  | [] => Some []
  | _ => match fuel with
         | O => None
         | S f => match opaque 3 1 b with
                  | Some (c, r) => match certs f r with Some l => Some (c :: l) | None => None end
                  | None => None
                  end
         end
  end.
Definition chainOf (b : bytes) : option (list bytes) :=
  match opaque 3 0 b with
  | Some (inner, []) => certs (length inner) inner
  | _ => None
  end.

(** ct.RawLogEntry: timestamp and type come from the leaf; the certificate comes from
    the leaf for a certificate and from the extra data for a precertificate; the chain
    comes from the extra data. *)
Record rawLog := mkRaw { rw_ts : N; rw_pre : bool; rw_cert : bytes; rw_chain : list bytes }.
Definition rawLogEntry (leaf extra : bytes) : option rawLog :=
  match decodeLeaf leaf with
  | Some d =>
      match lf_kind d with
      | LX509 c => match chainOf extra with Some ch => Some (mkRaw (lf_ts d) false c ch) | None => None end
      | LPre _ _ =>
          match opaque 3 1 extra with
          | Some (p, r) => match chainOf r with Some ch => Some (mkRaw (lf_ts d) true p ch) | None => None end
          | None => None
          end
      end
  | None => None
  end.

Section Parse.
  Context {Cert : Type}.
  (** types.go:36-48 [ParseCertificate], with the two facts the worker looks at
      (types.go:50-55 NotAfter, 78-97 IsPreIssuer): any function of the bytes. *)
  Variable parse : bytes -> option (Cert * Z * bool).

  (** rfc6962.go:549-558 and 568, 588: parse, and compare NotAfter with the clock *)
  Definition parseAt (now : Z) (der : bytes) : option (parsedCert Cert) :=
    match parse der with
    | Some (c, notAfter, pre) => Some (mkPC c (notAfter <? now)%Z pre)
    | None => None
    end.

  (** One element of the answer as the worker sees it. *)
  Definition received (leaf extra : bytes) (now : Z) (cancelled : bool) : rawEntry Cert :=
    mkRE leaf
      match rawLogEntry leaf extra with
      | Some r => Some (rw_ts r, cancelled, parseAt now (rw_cert r), map (parseAt now) (rw_chain r))
      | None => None
      end.

  (** All entries a job receives were read off the wire like this. *)
  Definition fromWire (e : jobEnv Cert) : Prop :=
    Forall (fun r => match r with
                     | REntries es => Forall (fun x => exists leaf extra now c, x = received leaf extra now c) es
                     | _ => True
                     end) (je_resps Cert e).
End Parse.
