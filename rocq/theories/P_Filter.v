(** * The filter builder: C34 to C39 *)
From Verif Require Import Base MerkleModel SerialModel SerialProofs Base64 StoreModel StoreProofs AggModel IssuersModel P_Issuers FilterModel FilterProofs.
From Coq Require Import Strings.Byte Sorting.Permutation.

(** ** Specification: reasons by their RFC 5280 codes *)

Definition selected (set : reasonSet) (code : N) : Prop :=
  match set with
  | RAll => True
  | RSpecified => In code [1; 2; 3; 4; 5; 6; 8; 9; 10]%N
  | RPriority => In code [1; 5; 9]%N
  end.

(** A certificate is an issuer (the digest of its key) and a serial. *)
Definition knownCert (ks : knownSrc) (d s : bytes) : Prop :=
  exists bins u ss, In (d, bins) ks /\ In (u, ss) bins /\ In s ss.
Definition revokedCert (set : reasonSet) (rs : revokedSrc) (d s : bytes) : Prop :=
  exists l c, In (d, l) rs /\ In (s, c) l /\ selected set (c mod 256).

Lemma skip_selected set n : skipReason set (reasonOfCode n) = false <-> selected set n.
Proof.
  destruct set; cbn [skipReason selected]; [tauto| |];
    (destruct (N.le_gt_cases 11 n) as [G|L];
     [|assert (C : (n = 0 \/ n = 1 \/ n = 2 \/ n = 3 \/ n = 4 \/ n = 5 \/ n = 6 \/ n = 7 \/ n = 8 \/ n = 9 \/ n = 10)%N) by lia;
       repeat (destruct C as [->|C]; [cbn; intuition congruence|]); subst n; cbn; intuition congruence]).
  - assert (E : reasonOfCode n = Unspecified).
    { destruct n as [|p]; [reflexivity|]. do 4 (destruct p as [p|p|]; try reflexivity; try lia). }
    rewrite E. split; [discriminate|]. cbn [In]. intros H. exfalso. intuition lia.
  - assert (E : reasonOfCode n = Unspecified).
    { destruct n as [|p]; [reflexivity|]. do 4 (destruct p as [p|p|]; try reflexivity; try lia). }
    rewrite E. split; [discriminate|]. cbn [In]. intros H. exfalso. intuition lia.
Qed.

Lemma revList_spec set rs d s : goodRevoked rs -> (In (hexEncode s) (map fst (revList set rs d)) <-> revokedCert set rs d s).
Proof.
  intros G. unfold revList, revokedCert. split.
  - destruct (revOf rs d) as [l|] eqn:E; [|intros []]. intros I. rewrite map_map in I. apply in_map_iff in I. destruct I as [[x c] [Q I]].
    apply filter_In in I. destruct I as [I S]. cbn [revItem fst] in Q. apply hexEncode_inj in Q. subst x.
    exists l, c. split; [apply revOf_in; assumption|]. split; [exact I|]. apply skip_selected. unfold sel in S. cbn [snd] in S.
    destruct (skipReason _ _); [discriminate S|reflexivity].
  - intros [l [c [I [J S]]]]. apply (revOf_in rs d l G) in I. rewrite I. rewrite map_map. apply in_map_iff. exists (s, c). split; [reflexivity|].
    apply filter_In. split; [exact J|]. unfold sel. cbn [snd]. apply skip_selected in S. rewrite S. reflexivity.
Qed.

(** ** C39 *)

(** Reading with a set gives exactly the entries of the file whose reason is in
    the set, in order; a file is readable with one set exactly if with any. *)
Theorem C39_set_selects : forall set data,
  match rustReadRevoked RAll data with
  | Ok l => rustReadRevoked set data = Ok (filter (fun e => negb (skipReason set (snd e))) l)
  | _ => rustReadRevoked set data = Panic
  end.
Proof.
  intros set data. unfold rustReadRevoked. induction (rustLines [] data) as [|l ls IH]; [reflexivity|]. cbn [rustRevoked].
  destruct (length l <? 2)%nat; [reflexivity|]. unfold decodeReason. destruct (fromStrRadix16 (firstn 2 l)) as [n|]; [|reflexivity].
  cbn [orPanic bind]. destruct (rustRevoked RAll ls) as [r| |]; [|rewrite IH; reflexivity|rewrite IH; reflexivity].
  rewrite IH. cbn [bind skipReason filter snd]. destruct (skipReason set (reasonOfCode n)); reflexivity.
Qed.
Print Assumptions C39_set_selects.

(** The sets by reason code: everything; all known codes except "unspecified"
    (codes that RFC 5280 does not define count as unspecified); key compromise,
    cessation of operation and privilege withdrawn.  They are nested. *)
Theorem C39_sets_by_code : forall n,
  (forall set, skipReason set (reasonOfCode n) = false <-> selected set n) /\
  (selected RPriority n -> selected RSpecified n) /\ (selected RSpecified n -> selected RAll n) /\
  (forall r, reasonOfCode (reasonCode r) = r).
Proof.
  intros n. split; [intros set; apply skip_selected|]. split; [cbn; tauto|]. split; [cbn; tauto|]. intros []; reflexivity.
Qed.
Print Assumptions C39_sets_by_code.

(** A file written by aggregate-crls is always readable, and entry by entry. *)
Theorem C39_reads_what_was_written : forall set l,
  exists out, rustReadRevoked set (revokedFile l) = Ok out /\
  forall s, In (hexEncode s) (map fst out) <-> exists c, In (s, c) l /\ selected set (c mod 256).
Proof.
  intros set l. exists (map revItem (filter (sel set) l)). split; [apply read_revoked|]. intros s.
  assert (G : goodRevoked [([] : bytes, l)]) by (constructor; [intros []|constructor]).
  pose proof (revList_spec set [([], l)] [] s G) as R. unfold revList in R. cbn [revOf beq] in R. rewrite R. unfold revokedCert. cbn [In]. split.
  - intros [l' [c [[E|[]] H]]]. injection E as <-. exists c; exact H.
  - intros [c H]. exists l, c. auto.
Qed.
Print Assumptions C39_reads_what_was_written.

Example C39_example :
  rustReadRevoked RPriority (B "010a0b" ++ [nl] ++ B "000c" ++ [cr; nl] ++ B "0505" ++ [nl] ++ B "ff07" ++ [nl]) =
    Ok [(B "0a0b", KeyCompromise); (B "05", CessationOfOperation)] /\
  rustReadRevoked RSpecified (B "010a0b" ++ [nl] ++ B "000c" ++ [cr; nl] ++ B "0605" ++ [nl] ++ B "ff07") =
    Ok [(B "0a0b", KeyCompromise); (B "05", CertificateHold)] /\
  rustReadRevoked RAll (B "010a" ++ [cr]) = Ok [(B "0a" ++ [cr], KeyCompromise)] /\
  rustReadRevoked RAll (B "0") = Panic.
Proof. vm_compute. auto. Qed.

(** ** C34: revoked set and delta *)

Definition deltaItem (prev : list bytes) (d : bytes) (m : list (bytes * reason)) (e : N * bytes) : list (bytes * N) :=
  match alookup (hexEncode (snd e)) m with
  | Some r => if memb (d ++ snd e) prev then [] else [(snd e, reasonCode r)]
  | None => []
  end.
Definition keyItem (d : bytes) (m : list (bytes * reason)) (e : N * bytes) : list bytes :=
  match alookup (hexEncode (snd e)) m with Some _ => [d ++ snd e] | None => [] end.

Lemma deltaLoop_go prev d m : forall kn, deltaLoop prev d m (map hexLine kn) =
  Ok (revokedFile (flat_map (deltaItem prev d m) kn), flat_map (keyItem d m) kn).
Proof.
  induction kn as [|[u s] kn IH]; [reflexivity|]. cbn [map hexLine fst snd deltaLoop flat_map].
  unfold deltaItem at 1, keyItem at 1. cbn [snd]. destruct (alookup (hexEncode s) m) as [r|]; [|exact IH].
  unfold decodeSerial. rewrite hexDecode_encode. cbn [orPanic bind]. rewrite IH. cbn [bind fst snd]. unfold crliteKey.
  destruct (memb (d ++ s) prev); [reflexivity|]. unfold revokedFile. cbn [app flat_map]. unfold revokedLine at 2. cbn [fst snd]. rewrite <- !app_assoc. reflexivity.
Qed.

(** The delta directory as a source. *)
Definition deltaSrc (prev : list bytes) (set : reasonSet) (rs : revokedSrc) (ks : knownSrc) : revokedSrc :=
  flat_map (fun k => match revOf rs (fst k) with
                     | Some _ => [(fst k, flat_map (deltaItem prev (fst k) (toMap (revList set rs (fst k)))) (knownLines (snd k)))]
                     | None => []
                     end) ks.
Definition keySrc (set : reasonSet) (rs : revokedSrc) (ks : knownSrc) : list bytes :=
  flat_map (fun k => flat_map (keyItem (fst k) (toMap (revList set rs (fst k)))) (knownLines (snd k))) ks.

Lemma flat_map_nil_all {A B} (f : A -> list B) l : (forall x, f x = []) -> flat_map f l = [].
Proof. intros H. induction l as [|a l IH]; [reflexivity|]. cbn [flat_map]. rewrite H. exact IH. Qed.

Lemma writeRevset_go prev set rs ks : goodKnown ks ->
  writeRevsetAndDelta prev (goRevoked rs) (goKnown ks) set =
  Ok (fold_left setAdd (keySrc set rs ks) [], goRevoked (deltaSrc prev set rs ks)).
Proof.
  intros G. unfold writeRevsetAndDelta. rewrite filePairs_go, mapRes_comp.
  rewrite (mapRes_map _ (fun k => match revOf rs (fst k) with
     | Some _ => ([(issuerID (fst k), revokedFile (flat_map (deltaItem prev (fst k) (toMap (revList set rs (fst k)))) (knownLines (snd k))))],
                  flat_map (keyItem (fst k) (toMap (revList set rs (fst k)))) (knownLines (snd k)))
     | None => ([], []) end)).
  - cbn [bind]. f_equal. f_equal; [f_equal|].
    + unfold keySrc. clear. induction ks as [|[d bins] ks IH]; [reflexivity|]. cbn [map flat_map fst snd]. rewrite IH. f_equal.
      unfold revList. destruct (revOf rs d) as [l|]; [reflexivity|]. symmetry. apply flat_map_nil_all. intros e. reflexivity.
    + unfold deltaSrc, goRevoked. clear. induction ks as [|[d bins] ks IH]; [reflexivity|]. cbn [map flat_map fst snd]. rewrite map_app, <- IH. f_equal.
      destruct (revOf rs d) as [l|]; reflexivity.
  - intros [d bins] I. cbn [fst snd]. rewrite revOf_lookup. unfold revList. destruct (revOf rs d) as [l|] eqn:E; [|reflexivity].
    rewrite decode_issuer_ok by (apply (proj2 G d bins I)). cbn [bind]. rewrite read_revoked. cbn [bind]. rewrite (read_known ks d bins G I). cbn [bind].
    rewrite deltaLoop_go. reflexivity.
Qed.

Lemma keySrc_spec set rs ks key : goodRevoked rs ->
  (In key (keySrc set rs ks) <-> exists d s, key = d ++ s /\ knownCert ks d s /\ revokedCert set rs d s).
Proof.
  intros GR. unfold keySrc. rewrite in_flat_map. split.
  - intros [[d bins] [I J]]. cbn [fst snd] in J. apply in_flat_map in J. destruct J as [[u s] [J K]]. unfold keyItem in K. cbn [snd] in K.
    destruct (alookup (hexEncode s) (toMap (revList set rs d))) as [r|] eqn:E; [|destruct K]. destruct K as [<-|[]].
    exists d, s. split; [reflexivity|]. apply in_knownLines in J. destruct J as [v [ss [J1 J2]]]. split; [exists bins, v, ss; auto|].
    apply (revList_spec set rs d s GR). apply toMap_is. exists r; exact E.
  - intros [d [s [-> [[bins [u [ss [I [J K]]]]] R]]]]. exists (d, bins). split; [exact I|]. cbn [fst snd].
    destruct (knownLines_in bins u ss s J K) as [v L]. apply in_flat_map. exists (v, s). split; [exact L|]. unfold keyItem. cbn [snd].
    apply (revList_spec set rs d s GR) in R. apply toMap_is in R. destruct R as [r ->]. left; reflexivity.
Qed.

Lemma deltaSrc_entry prev set rs ks d l s c : goodRevoked rs -> In (d, l) (deltaSrc prev set rs ks) -> In (s, c) l ->
  knownCert ks d s /\ ~ In (d ++ s) prev /\
  exists l0 c0, In (d, l0) rs /\ In (s, c0) l0 /\ selected set (c0 mod 256) /\ c = reasonCode (reasonOfCode (c0 mod 256)).
Proof.
  intros GR I J. unfold deltaSrc in I. apply in_flat_map in I. destruct I as [[d' bins] [I K]]. cbn [fst snd] in K.
  destruct (revOf rs d') as [l0|] eqn:R; [|destruct K]. destruct K as [K|[]]. injection K as <- <-.
  apply in_flat_map in J. destruct J as [[u x] [J K]]. unfold deltaItem in K. cbn [snd] in K.
  destruct (alookup (hexEncode x) (toMap (revList set rs d'))) as [r|] eqn:E; [|destruct K].
  destruct (memb (d' ++ x) prev) eqn:M; [destruct K|]. destruct K as [K|[]]. injection K as -> <-.
  split; [apply in_knownLines in J; destruct J as [v [ss [J1 J2]]]; exists bins, v, ss; auto|]. split; [apply memb_not; exact M|].
  apply toMap_some in E. unfold revList in E. rewrite R in E. apply in_map_iff in E. destruct E as [[y c0] [Q E]]. apply filter_In in E. destruct E as [E S].
  unfold revItem in Q. cbn [fst snd] in Q. injection Q as Q <-. apply hexEncode_inj in Q. subst y.
  exists l0, c0. split; [apply revOf_in; assumption|]. split; [exact E|]. split; [|reflexivity].
  apply skip_selected. unfold sel in S. cbn [snd] in S. destruct (skipReason _ _); [discriminate S|reflexivity].
Qed.

Lemma reasonCode_lt r : (reasonCode r < 256)%N.
Proof. destruct r; reflexivity. Qed.

Lemma deltaSrc_spec prev set rs ks d s : goodRevoked rs ->
  (revokedCert set (deltaSrc prev set rs ks) d s <-> knownCert ks d s /\ revokedCert set rs d s /\ ~ In (d ++ s) prev).
Proof.
  intros GR. split.
  - intros [l [c [I [J S]]]]. destruct (deltaSrc_entry prev set rs ks d l s c GR I J) as [K [N [l0 [c0 [I0 [J0 [S0 _]]]]]]].
    split; [exact K|]. split; [exists l0, c0; auto|exact N].
  - intros [[bins [u [ss [I [J K]]]]] [R N]]. pose proof (proj2 (revList_spec set rs d s GR) R) as T. apply toMap_is in T. destruct T as [r E].
    destruct (knownLines_in bins u ss s J K) as [v L].
    destruct R as [l0 [c0 [I0 [J0 S0]]]].
    exists (flat_map (deltaItem prev d (toMap (revList set rs d))) (knownLines bins)), (reasonCode r). split; [|split].
    + unfold deltaSrc. apply in_flat_map. exists (d, bins). split; [exact I|]. cbn [fst snd]. apply (revOf_in rs d l0 GR) in I0. rewrite I0. left; reflexivity.
    + apply in_flat_map. exists (v, s). split; [exact L|]. unfold deltaItem. cbn [snd]. rewrite E. apply memb_not in N. rewrite N. left; reflexivity.
    + rewrite N.mod_small by apply reasonCode_lt. apply toMap_some in E. unfold revList in E. apply (revOf_in rs d l0 GR) in I0. rewrite I0 in E.
      apply in_map_iff in E. destruct E as [[y c1] [Q E]]. apply filter_In in E. destruct E as [_ S1]. unfold revItem in Q. cbn [fst snd] in Q.
      injection Q as _ <-. apply skip_selected. unfold sel in S1. cbn [snd] in S1.
      rewrite (proj2 (proj2 (proj2 (C39_sets_by_code 0)))). destruct (skipReason _ _); [discriminate S1|reflexivity].
Qed.

Lemma deltaSrc_good prev set rs ks : goodKnown ks -> goodRevoked (deltaSrc prev set rs ks).
Proof.
  intros [ND _]. unfold goodRevoked, deltaSrc. induction ks as [|[d bins] ks IH]; [constructor|]. cbn [map fst] in ND. apply NoDup_cons_iff in ND. destruct ND as [N ND].
  cbn [flat_map fst snd]. destruct (revOf rs d); [|apply IH; exact ND]. cbn [app map fst]. constructor; [|apply IH; exact ND].
  intros I. apply N. apply in_map_iff in I. destruct I as [[d' l'] [E I]]. cbn [fst] in E. subst d'. apply in_flat_map in I. destruct I as [[d2 b2] [I J]].
  cbn [fst snd] in J. destruct (revOf rs d2); [|destruct J]. destruct J as [J|[]]. injection J as -> _. apply (in_map fst) in I. exact I.
Qed.

Lemma fold_setAdd_nodup l : forall s, NoDup s -> NoDup (fold_left setAdd l s).
Proof. induction l as [|x l IH]; intros s N; [exact N|]. cbn [fold_left]. apply IH. apply setAdd_nodup. exact N. Qed.

(** From the directories that aggregate-known and aggregate-crls write, the
    builder never fails here; the revoked set is exactly the known certificates
    that have a revocation entry with a reason in the set; and the delta directory
    lists exactly those of them whose key is not in the previous revoked set, each
    with one of its reasons in the set. *)
Theorem C34_revoked_set_and_delta : forall prev set rs ks, goodKnown ks -> goodRevoked rs ->
  exists revset dl, writeRevsetAndDelta prev (goRevoked rs) (goKnown ks) set = Ok (revset, goRevoked dl) /\ NoDup revset /\ goodRevoked dl /\
    (forall key, In key revset <-> exists d s, key = d ++ s /\ knownCert ks d s /\ revokedCert set rs d s) /\
    (forall d s, (exists l c, In (d, l) dl /\ In (s, c) l) <-> knownCert ks d s /\ revokedCert set rs d s /\ ~ In (d ++ s) prev) /\
    (forall d l s c, In (d, l) dl -> In (s, c) l -> exists l0 c0, In (d, l0) rs /\ In (s, c0) l0 /\ selected set (c0 mod 256) /\
       c = (if in_dec N.eq_dec (c0 mod 256)%N [1; 2; 3; 4; 5; 6; 8; 9; 10]%N then (c0 mod 256)%N else 0%N)).
Proof.
  intros prev set rs ks GK GR. exists (fold_left setAdd (keySrc set rs ks) []), (deltaSrc prev set rs ks).
  split; [apply writeRevset_go; exact GK|]. split; [apply fold_setAdd_nodup; constructor|]. split; [apply deltaSrc_good; exact GK|]. split; [|split].
  - intros key. rewrite setAdd_all. rewrite keySrc_spec by exact GR. cbn [In]. tauto.
  - intros d s. split.
    + intros [l [c [I J]]]. destruct (deltaSrc_entry prev set rs ks d l s c GR I J) as [K [N [l0 [c0 [I0 [J0 [S0 _]]]]]]].
      split; [exact K|]. split; [exists l0, c0; auto|exact N].
    + intros H. apply (deltaSrc_spec prev set rs ks d s GR) in H. destruct H as [l [c [I [J _]]]]. exists l, c; auto.
  - intros d l s c I J. destruct (deltaSrc_entry prev set rs ks d l s c GR I J) as [_ [_ [l0 [c0 [I0 [J0 [S0 E]]]]]]].
    exists l0, c0. split; [exact I0|]. split; [exact J0|]. split; [exact S0|]. rewrite E. clear.
    generalize (c0 mod 256)%N. intros n. destruct (in_dec N.eq_dec n _) as [Y|Y].
    + cbn [In] in Y. repeat (destruct Y as [<-|Y]; [reflexivity|]). destruct Y.
    + destruct (N.le_gt_cases 11 n) as [G|L].
      * destruct n as [|p]; [reflexivity|]. do 4 (destruct p as [p|p|]; try reflexivity; try lia).
      * assert (C : (n = 0 \/ n = 1 \/ n = 2 \/ n = 3 \/ n = 4 \/ n = 5 \/ n = 6 \/ n = 7 \/ n = 8 \/ n = 9 \/ n = 10)%N) by lia.
        repeat (destruct C as [->|C]; [try reflexivity; exfalso; apply Y; cbn; tauto|]). subst n. exfalso; apply Y; cbn; tauto.
Qed.
Print Assumptions C34_revoked_set_and_delta.

(** Two issuers, three bins, a serial known in two bins, one revoked twice. *)
Definition dA : bytes := repeat "A"%byte 32.
Definition dB : bytes := repeat "B"%byte 32.
Definition zKs : knownSrc := [(dA, [(100%Z, [B "1"; B "2"]); (200%Z, [B "2"; B "3"])]); (dB, [(100%Z, [B "1"; B "9"])])].
Definition zRs : revokedSrc := [(dA, [(B "2", 0%N); (B "2", 1%N); (B "3", 0%N); (B "7", 1%N)])].
Lemma zGood : goodKnown zKs /\ goodRevoked zRs.
Proof.
  split; [split|].
  - cbn [zKs map fst]. repeat (constructor; [cbn [In]; intros H; repeat (destruct H as [H|H]; [discriminate H|]); exact H|]). constructor.
  - intros d bins H. cbn [zKs In] in H. destruct H as [H|[H|[]]]; injection H as <- <-; (split; [reflexivity|]);
      intros u ss H; cbn [In] in H; repeat (destruct H as [H|H]; [injection H as <- <-; lia|]); destruct H.
  - constructor; [intros []|constructor].
Qed.
Example C34_example :
  writeRevsetAndDelta [dA ++ B "2"] (goRevoked zRs) (goKnown zKs) RAll = Ok ([dA ++ B "2"; dA ++ B "3"], goRevoked [(dA, [(B "3", 0%N)])]) /\
  writeRevsetAndDelta [] (goRevoked zRs) (goKnown zKs) RPriority = Ok ([dA ++ B "2"], goRevoked [(dA, [(B "2", 1%N); (B "2", 1%N)])]).
Proof. vm_compute. auto. Qed.

(** ** C38: a filter is written only after the check *)

Section Check.
  Variables (F : Type) (has : F -> bytes -> bool) (buildCascade : N -> N -> list bytes -> list bytes -> option bytes)
            (buildClubcard : list (bytes * list bytes * N) -> list (bytes * list (bytes * bool)) -> option bytes)
            (fromBytes : bytes -> res (option F)).
  Local Notation create := (create F has buildCascade buildClubcard fromBytes).
  Local Notation buildRun := (buildRun F has buildCascade buildClubcard fromBytes).

  Lemma checkLoop_ok f i revs : forall kn, checkLoop F has f i revs kn = Ok tt ->
    forall u s, In (u, s) kn -> exists b, hexDecode s = Some b /\ (has f (i ++ b) = true <-> In s revs).
  Proof using Type.
    induction kn as [|[u0 s0] kn IH]; intros H u s I; [destruct I|]. cbn [checkLoop] in H. apply bind_ok in H. destruct H as [b [D H]].
    apply orPanic_ok in D. destruct (Bool.eqb (has f (crliteKey i b)) (memb s0 revs)) eqn:E; [|discriminate H].
    destruct I as [I|I]; [|apply (IH H u s I)]. injection I as <- <-. exists b. split; [exact D|]. apply eqb_prop in E. unfold crliteKey in E.
    rewrite E. apply memb_in.
  Qed.

  Lemma create_ok t st revoked known set data : create t st revoked known set = Ok (Some data) ->
    exists f, fromBytes data = Ok (Some f) /\ checkAll F has f revoked known set = Ok tt.
  Proof using Type.
    destruct t; cbn [FilterModel.create]; [unfold createCascade|unfold createClubcard]; intros H.
    - apply bind_ok in H. destruct H as [ins [_ H]]. apply bind_ok in H. destruct H as [exs [_ H]]. apply bind_ok in H. destruct H as [b [_ H]].
      apply bind_ok in H. destruct H as [o [P H]]. destruct o as [f|]; [|discriminate H]. apply bind_ok in H. destruct H as [[] [C H]]. injection H as ->.
      exists f; auto.
    - apply bind_ok in H. destruct H as [ins [_ H]]. apply bind_ok in H. destruct H as [exs [_ H]]. apply bind_ok in H. destruct H as [b [_ H]].
      apply bind_ok in H. destruct H as [o [P H]]. destruct o as [f|]; [|discriminate H]. apply bind_ok in H. destruct H as [[] [C H]]. injection H as ->.
      exists f; auto.
  Qed.

  (** Whatever the filter libraries return: if the builder writes a filter, then
      the filter as it is read back from these bytes answers every line of every
      known file according to the revoked files. *)
  Theorem C38_written_filter_is_checked : forall t st revoked known set data,
    create t st revoked known set = Ok (Some data) ->
    exists f, fromBytes data = Ok (Some f) /\
      forall name k, In (name, k) known -> exists i rv kn,
        decodeIssuer name = Ok i /\ readRevoked set (alookup name revoked) = Ok rv /\ rustReadKnown k = Ok kn /\
        forall u s, In (u, s) kn -> exists b, hexDecode s = Some b /\ (has f (i ++ b) = true <-> In s (map fst rv)).
  Proof using Type.
    intros t st revoked known set data H. apply create_ok in H. destruct H as [f [P H]]. exists f. split; [exact P|].
    unfold checkAll in H. apply bind_ok in H. destruct H as [us [M _]]. apply mapRes_ok in M. intros name k I.
    assert (J : In (name, alookup name revoked, k) (filePairs revoked known)) by (unfold filePairs; apply in_map_iff; exists (name, k); auto).
    assert (E : exists u, (let '(name, r, k) := (name, alookup name revoked, k) in
                 bind (decodeIssuer name) (fun i => bind (readRevoked set r) (fun rv => bind (rustReadKnown k) (fun kn =>
                 checkLoop F has f i (map fst rv) kn)))) = Ok u).
    { clear -M J. induction M as [|a b l r E M IH]; [destruct J|]. destruct J as [->|J]; [exists b; exact E|apply IH; exact J]. }
    destruct E as [[] E]. apply bind_ok in E. destruct E as [i [E1 E]]. apply bind_ok in E. destruct E as [rv [E2 E]]. apply bind_ok in E. destruct E as [kn [E3 E]].
    exists i, rv, kn. repeat (split; [assumption|]). apply checkLoop_ok. exact E.
  Qed.

  (** For directories written by the Go programs: every known certificate is
      answered "revoked" exactly if it has an entry with a selected reason. *)
  Theorem C38_filter_is_exact : forall t st rs ks set data, goodKnown ks -> goodRevoked rs ->
    create t st (goRevoked rs) (goKnown ks) set = Ok (Some data) ->
    exists f, fromBytes data = Ok (Some f) /\
      forall d s, knownCert ks d s -> (has f (d ++ s) = true <-> revokedCert set rs d s).
  Proof using Type.
    intros t st rs ks set data GK GR H. apply C38_written_filter_is_checked in H. destruct H as [f [P H]]. exists f. split; [exact P|].
    intros d s [bins [u [ss [I [J K]]]]].
    assert (I' : In (issuerID d, flat_map (fun p => writeSerialList (fst p) (snd p)) bins) (goKnown ks)) by (unfold goKnown; apply in_map_iff; exists (d, bins); auto).
    destruct (H _ _ I') as [i [rv [kn [E1 [E2 [E3 E]]]]]]. rewrite (decode_issuer_ok d) in E1 by (apply (proj2 GK d bins I)). injection E1 as <-.
    rewrite read_go_revoked in E2. injection E2 as <-. rewrite (read_known ks d bins GK I) in E3. injection E3 as <-.
    destruct (knownLines_in bins u ss s J K) as [v L]. apply (in_map hexLine) in L. destruct (E _ _ L) as [b [D Q]]. cbn [snd] in D, Q.
    rewrite hexDecode_encode in D. injection D as <-. rewrite Q. apply revList_spec. exact GR.
  Qed.

  (** A whole run: both filters are exact, the delta filter with respect to the
      certificates not in the previous revoked set. *)
  Theorem C38_run_is_exact : forall order t set dset prev rs ks o, goodKnown ks -> goodRevoked rs ->
    buildRun order t set dset prev (goRevoked rs) (goKnown ks) = Ok o ->
    (forall data, o_filter o = Some data -> exists f, fromBytes data = Ok (Some f) /\
       forall d s, knownCert ks d s -> (has f (d ++ s) = true <-> revokedCert set rs d s)) /\
    (forall data, o_deltaFilter o = Some data -> exists f, fromBytes data = Ok (Some f) /\
       forall d s, knownCert ks d s -> (has f (d ++ s) = true <-> revokedCert dset rs d s /\ ~ In (d ++ s) prev)) /\
    (forall key, In key (o_revset o) <-> exists d s, key = d ++ s /\ knownCert ks d s /\ revokedCert dset rs d s).
  Proof using Type.
    intros order t set dset prev rs ks o GK GR H. unfold FilterModel.buildRun in H.
    apply bind_ok in H. destruct H as [st [_ H]]. apply bind_ok in H. destruct H as [f [HF H]].
    rewrite (writeRevset_go prev dset rs ks GK) in H. cbn [bind fst snd] in H.
    apply bind_ok in H. destruct H as [stash [_ H]]. apply bind_ok in H. destruct H as [dst [_ H]]. apply bind_ok in H. destruct H as [df [HD H]].
    injection H as <-. cbn [o_filter o_deltaFilter o_revset]. split; [|split].
    - intros data ->. apply (C38_filter_is_exact t st rs ks set data GK GR HF).
    - intros data ->. destruct (C38_filter_is_exact t dst _ ks dset data GK (deltaSrc_good prev dset rs ks GK) HD) as [g [P E]].
      exists g. split; [exact P|]. intros d s K. rewrite (E d s K). rewrite (deltaSrc_spec prev dset rs ks d s GR). tauto.
    - intros key. rewrite setAdd_all, keySrc_spec by exact GR. cbn [In]. tauto.
  Qed.

  (** ** C35: a filter and the deltas after it *)

  Record run := mkRun { rn_prev : list bytes; rn_rs : revokedSrc; rn_ks : knownSrc; rn_out : outputs }.
  Definition isRun (order : list bytes -> list bytes) (t : filterType) (set : reasonSet) (r : run) : Prop :=
    goodKnown (rn_ks r) /\ goodRevoked (rn_rs r) /\
    buildRun order t set set (rn_prev r) (goRevoked (rn_rs r)) (goKnown (rn_ks r)) = Ok (rn_out r) /\
    o_filter (rn_out r) <> None /\ o_deltaFilter (rn_out r) <> None.
  (** Runs, the newest first: each had the revoked set of the one before it as the
      previous set, or nothing if that could not be loaded. *)
  Inductive chain (order : list bytes -> list bytes) (t : filterType) (set : reasonSet) : list run -> Prop :=
  | chain_first r : isRun order t set r -> chain order t set [r]
  | chain_next r r' l : isRun order t set r -> (rn_prev r = o_revset (rn_out r') \/ rn_prev r = []) ->
      chain order t set (r' :: l) -> chain order t set (r :: r' :: l).

  Definition says (data : option bytes) (key : bytes) : Prop :=
    exists b f, data = Some b /\ fromBytes b = Ok (Some f) /\ has f key = true.
  (** What a client with the first full filter and the deltas reports. *)
  Fixpoint reported (l : list run) (key : bytes) : Prop :=
    match l with
    | [] => False
    | [r] => says (o_filter (rn_out r)) key
    | r :: l' => says (o_deltaFilter (rn_out r)) key \/ reported l' key
    end.

  Theorem C35_nothing_is_lost : forall order t set l r, chain order t set (r :: l) ->
    forall d s, knownCert (rn_ks r) d s -> revokedCert set (rn_rs r) d s -> reported (r :: l) (d ++ s).
  Proof using Type.
    intros order t set l r C. remember (r :: l) as x eqn:E. revert r l E.
    assert (S1 : forall r, isRun order t set r -> forall d s, knownCert (rn_ks r) d s -> revokedCert set (rn_rs r) d s ->
              says (o_filter (rn_out r)) (d ++ s) /\ (~ In (d ++ s) (rn_prev r) -> says (o_deltaFilter (rn_out r)) (d ++ s))).
    { intros r [GK [GR [B [N1 N2]]]] d s K R. destruct (C38_run_is_exact order t set set _ _ _ _ GK GR B) as [A1 [A2 _]]. split.
      - destruct (o_filter (rn_out r)) as [data|]; [|congruence]. destruct (A1 data eq_refl) as [f [P Q]]. exists data, f. split; [reflexivity|].
        split; [exact P|]. apply Q; assumption.
      - intros NI. destruct (o_deltaFilter (rn_out r)) as [data|]; [|congruence]. destruct (A2 data eq_refl) as [f [P Q]]. exists data, f. split; [reflexivity|].
        split; [exact P|]. apply (Q d s K). auto. }
    induction C as [r0 H|r0 r' l' H PV C IH]; intros r l E d s K R.
    - injection E as <- <-. cbn [reported]. apply (S1 r0 H d s K R).
    - injection E as <- <-. cbn [reported].
      destruct (in_dec bytes_eq_dec (d ++ s) (rn_prev r0)) as [I|I]; [|left; apply (S1 r0 H d s K R); exact I].
      right. destruct PV as [PV|PV]; [|rewrite PV in I; destruct I]. rewrite PV in I.
      assert (H' : isRun order t set r') by (inversion C; assumption).
      destruct H' as [GK [GR [B _]]]. destruct (C38_run_is_exact order t set set _ _ _ _ GK GR B) as [_ [_ A3]].
      apply A3 in I. destruct I as [d' [s' [Q [K' R']]]].
      rewrite Q. apply (IH r' l' eq_refl d' s' K' R').
  Qed.

  (** And a certificate is reported only if one of the runs in which it was known
      had it revoked, or a filter errs on a certificate that its run did not know. *)
  Theorem C35_nothing_is_invented : forall order t set l, chain order t set l ->
    forall d s, reported l (d ++ s) ->
    exists r, In r l /\ (revokedCert set (rn_rs r) d s \/ ~ knownCert (rn_ks r) d s).
  Proof using Type.
    intros order t set l C d s. induction C as [r0 H|r0 r' l' H PV C IH].
    - cbn [reported]. intros [data [f [E [P Hf]]]]. exists r0. split; [left; reflexivity|].
      destruct H as [GK [GR [B [N1 N2]]]]. destruct (C38_run_is_exact order t set set _ _ _ _ GK GR B) as [A1 _].
      destruct (A1 data E) as [g [P' Q]]. rewrite P in P'. injection P' as <-.
      assert (DK : knownCert (rn_ks r0) d s \/ ~ knownCert (rn_ks r0) d s).
      { unfold knownCert. destruct (existsb (fun k => beq d (fst k) && existsb (fun p => memb s (snd p)) (snd k)) (rn_ks r0)) eqn:X.
        - left. apply existsb_exists in X. destruct X as [[d' bins] [I X]]. cbn [fst snd] in X. apply andb_true_iff in X. destruct X as [X Y]. apply beq_eq in X. subst d'.
          apply existsb_exists in Y. destruct Y as [[u ss] [J Y]]. apply memb_in in Y. exists bins, u, ss; auto.
        - right. intros [bins [u [ss [I [J K]]]]]. apply not_true_iff_false in X. apply X. apply existsb_exists. exists (d, bins). split; [exact I|]. cbn [fst snd].
          rewrite beq_refl. apply existsb_exists. exists (u, ss). split; [exact J|]. apply memb_in. exact K. }
      destruct DK as [DK|DK]; [left; apply (Q d s DK); exact Hf|right; exact DK].
    - cbn [reported]. intros [[data [f [E [P Hf]]]]|R].
      + exists r0. split; [left; reflexivity|].
        destruct H as [GK [GR [B [N1 N2]]]]. destruct (C38_run_is_exact order t set set _ _ _ _ GK GR B) as [_ [A2 _]].
        destruct (A2 data E) as [g [P' Q]]. rewrite P in P'. injection P' as <-.
        assert (DK : knownCert (rn_ks r0) d s \/ ~ knownCert (rn_ks r0) d s).
        { unfold knownCert. destruct (existsb (fun k => beq d (fst k) && existsb (fun p => memb s (snd p)) (snd k)) (rn_ks r0)) eqn:X.
          - left. apply existsb_exists in X. destruct X as [[d' bins] [I X]]. cbn [fst snd] in X. apply andb_true_iff in X. destruct X as [X Y]. apply beq_eq in X. subst d'.
            apply existsb_exists in Y. destruct Y as [[u ss] [J Y]]. apply memb_in in Y. exists bins, u, ss; auto.
          - right. intros [bins [u [ss [I [J K]]]]]. apply not_true_iff_false in X. apply X. apply existsb_exists. exists (d, bins). split; [exact I|]. cbn [fst snd].
            rewrite beq_refl. apply existsb_exists. exists (u, ss). split; [exact J|]. apply memb_in. exact K. }
        destruct DK as [DK|DK]; [left; apply (proj1 (Q d s DK)); exact Hf|right; exact DK].
      + destruct (IH R) as [r [I X]]. exists r. split; [right; exact I|exact X].
  Qed.
End Check.
Print Assumptions C38_written_filter_is_checked.
Print Assumptions C38_filter_is_exact.
Print Assumptions C38_run_is_exact.
Print Assumptions C35_nothing_is_lost.
Print Assumptions C35_nothing_is_invented.

(** A toy filter for the examples: the list of the included keys, each 33 bytes. *)
Fixpoint chunks (fuel : nat) (b : bytes) : list bytes :=
  match fuel with
  | O => []
  | S n => match b with [] => [] | _ => firstn 33 b :: chunks n (skipn 33 b) end
  end.
Definition toyCascade (n m : N) (ins exs : list bytes) : option bytes := match ins with [] => None | _ => Some (concat ins) end.
Definition toyClubcard (ap : list (bytes * list bytes * N)) (ex : list (bytes * list (bytes * bool))) : option bytes :=
  Some (flat_map (fun p => concat (snd (fst p))) ap).
(** A faulty builder: forgets the last included key. *)
Definition badClubcard (ap : list (bytes * list bytes * N)) (ex : list (bytes * list (bytes * bool))) : option bytes :=
  Some (concat (removelast (flat_map (fun p => snd (fst p)) ap))).
Definition toyFromBytes (b : bytes) : res (option (list bytes)) := Ok (Some (chunks (length b) b)).
Definition toyHas (f : list bytes) (key : bytes) : bool := memb key f.
Definition toyRun := buildRun (list bytes) toyHas toyCascade toyClubcard toyFromBytes (fun l => l).
Definition badRun := buildRun (list bytes) toyHas toyCascade badClubcard toyFromBytes (fun l => l).

Example C38_example :
  (exists o, toyRun Clubcard RAll RAll [dA ++ B "2"] (goRevoked zRs) (goKnown zKs) = Ok o /\
     o_filter o = Some (dA ++ B "2" ++ dA ++ B "3") /\ o_deltaFilter o = Some (dA ++ B "3")) /\
  badRun Clubcard RAll RAll [dA ++ B "2"] (goRevoked zRs) (goKnown zKs) = Panic.
Proof. split; [eexists|]; vm_compute; auto. Qed.

(** Three runs: "2" and "3" revoked, then "9" of the other issuer too, then "2"
    with another reason only; the previous set is unavailable for the last. *)
Definition zRs1 : revokedSrc := zRs ++ [(dB, [(B "9", 4%N)])].
Definition zRs2 : revokedSrc := [(dA, [(B "1", 4%N); (B "2", 5%N)]); (dB, [(B "9", 4%N)])].
Definition outOr (r : res outputs) : outputs := match r with Ok o => o | _ => mkOut None [] [] [] None end.
Definition zR0 := mkRun [] zRs zKs (outOr (toyRun Clubcard RAll RAll [] (goRevoked zRs) (goKnown zKs))).
Definition zR1 := mkRun (o_revset (rn_out zR0)) zRs1 zKs (outOr (toyRun Clubcard RAll RAll (o_revset (rn_out zR0)) (goRevoked zRs1) (goKnown zKs))).
Definition zR2 := mkRun (o_revset (rn_out zR1)) zRs2 zKs (outOr (toyRun Clubcard RAll RAll (o_revset (rn_out zR1)) (goRevoked zRs2) (goKnown zKs))).
Lemma zGood2 : goodRevoked zRs1 /\ goodRevoked zRs2.
Proof. split; (constructor; [cbn; intros [H|[]]; discriminate H|]; constructor; [intros []|constructor]). Qed.
Example C35_example :
  chain (list bytes) toyHas toyCascade toyClubcard toyFromBytes (fun l => l) Clubcard RAll [zR2; zR1; zR0] /\
  revokedCert RAll (rn_rs zR2) dA (B "1") /\ o_deltaFilter (rn_out zR2) = Some (dA ++ B "1") /\ o_deltaFilter (rn_out zR1) = Some (dB ++ B "9").
Proof.
  destruct zGood as [GK GR]. destruct zGood2 as [GR1 GR2].
  split; [|split; [exists [(B "1", 4%N); (B "2", 5%N)], 4%N; cbn; auto|vm_compute; auto]].
  apply chain_next; [|left; reflexivity|apply chain_next; [|left; reflexivity|apply chain_first]].
  - split; [exact GK|]. split; [exact GR2|]. split; [vm_compute; reflexivity|]. split; vm_compute; discriminate.
  - split; [exact GK|]. split; [exact GR1|]. split; [vm_compute; reflexivity|]. split; vm_compute; discriminate.
  - split; [exact GK|]. split; [exact GR|]. split; [vm_compute; reflexivity|]. split; vm_compute; discriminate.
Qed.

(** The deltas of the "priority" filters are computed against the revoked set
    of the "all" filter (2-generate_mlbf:86-101 fetches latest/revset.bin,
    3-upload_mlbf_to_storage:59-91 copies there only the files of the "all"
    channel).  A certificate revoked first without and then with a priority
    reason is in the last priority revoked set but in none of the priority
    filter of the first run and the delta of the second. *)
Theorem C35_priority_channel_refuted : exists ks rs0 rs1 d s,
  goodKnown ks /\ goodRevoked rs0 /\ goodRevoked rs1 /\ knownCert ks d s /\ revokedCert RPriority rs1 d s /\
  exists all0 alldl p0 pdl0 p1 dl1,
    writeRevsetAndDelta [] (goRevoked rs0) (goKnown ks) RAll = Ok (all0, alldl) /\
    writeRevsetAndDelta [] (goRevoked rs0) (goKnown ks) RPriority = Ok (p0, pdl0) /\
    writeRevsetAndDelta all0 (goRevoked rs1) (goKnown ks) RPriority = Ok (p1, goRevoked dl1) /\
    ~ In (d ++ s) p0 /\ In (d ++ s) p1 /\ ~ revokedCert RAll dl1 d s.
Proof.
  exists [(dA, [(100%Z, [B "1"])])], [(dA, [(B "1", 0%N)])], [(dA, [(B "1", 1%N)])], dA, (B "1").
  split; [|split; [|split; [|split; [|split]]]].
  - split; [constructor; [intros []|constructor]|]. intros d bins [H|[]]. injection H as <- <-. split; [reflexivity|].
    intros u ss [H|[]]. injection H as <- <-. lia.
  - constructor; [intros []|constructor].
  - constructor; [intros []|constructor].
  - exists [(100%Z, [B "1"])], 100%Z, [B "1"]. cbn; auto.
  - exists [(B "1", 1%N)], 1%N. cbn; auto.
  - exists [dA ++ B "1"], (goRevoked [(dA, [(B "1", 0%N)])]), [], (goRevoked [(dA, [])]), [dA ++ B "1"], [(dA, [])].
    split; [vm_compute; reflexivity|]. split; [vm_compute; reflexivity|]. split; [vm_compute; reflexivity|].
    split; [intros []|]. split; [left; reflexivity|]. intros [l [c [[H|[]] [J _]]]]. injection H as <-. destruct J.
Qed.
Print Assumptions C35_priority_channel_refuted.

(** ** C37 *)


Lemma countLoop_counts i rv : forall kn set seen okc rs ins,
  (forall s, In s set <-> In s (map fst rv) /\ ~ In s seen) ->
  includeLoop i set kn = Ok ins ->
  st_revoked (countLoop (toMap rv) kn seen okc rs) = (N.of_nat (length seen) + N.of_nat (length ins))%N /\
  st_ok (countLoop (toMap rv) kn seen okc rs) = (okc + N.of_nat (length (filter (fun s => negb (memb s (map fst rv))) (map snd kn))))%N.
Proof.
  induction kn as [|[u s] kn IH]; intros set seen okc rs ins S H.
  - cbn in H. injection H as <-. cbn. lia.
  - cbn [includeLoop] in H. cbn [countLoop map snd filter]. destruct (alookup s (toMap rv)) as [r|] eqn:A.
    + assert (K : In s (map fst rv)) by (apply toMap_is; exists r; exact A).
      rewrite (proj2 (memb_in s (map fst rv)) K). cbn [negb].
      destruct (memb s set) eqn:M.
      * apply bind_ok in H. destruct H as [b [_ H]]. apply bind_ok in H. destruct H as [r' [H E]]. injection E as <-.
        apply memb_in in M. apply S in M. destruct M as [_ NS].
        specialize (IH (filter (fun x => negb (beq s x)) set) (setAdd seen s) okc (rs ++ [r]) r').
        destruct IH as [I1 I2]; [|exact H|].
        -- intros x. rewrite filter_In, setAdd_in, S. split.
           ++ intros [[X Y] Z]. split; [exact X|]. intros [W|W]; [apply Y, W|]. subst x. rewrite beq_refl in Z. discriminate Z.
           ++ intros [X Y]. split; [split; [exact X|]; intros W; apply Y; left; exact W|]. destruct (beq_spec s x) as [<-|]; [|reflexivity].
              exfalso. apply Y. right; reflexivity.
        -- rewrite I1, I2. split; [|reflexivity]. cbn [length].
           assert (L : length (setAdd seen s) = Datatypes.S (length seen)).
           { unfold setAdd. apply memb_not in NS. unfold memb in NS. rewrite NS. rewrite app_length. cbn. lia. }
           rewrite L. lia.
      * assert (NS : In s seen).
        { destruct (in_dec bytes_eq_dec s seen) as [Y|Y]; [exact Y|]. apply memb_not in M. exfalso. apply M. apply S. auto. }
        assert (E : setAdd seen s = seen) by (unfold setAdd; apply memb_in in NS; unfold memb in NS; rewrite NS; reflexivity).
        rewrite E. apply (IH set seen okc (rs ++ [r]) ins S H).
    + assert (K : ~ In s (map fst rv)) by (intros X; apply toMap_is in X; destruct X as [v X]; congruence).
      rewrite (proj2 (memb_not s (map fst rv)) K). cbn [negb length].
      assert (M : memb s set = false) by (apply memb_not; intros X; apply S in X; tauto). rewrite M in H.
      destruct (IH set seen (okc + 1)%N rs ins S H) as [I1 I2]. rewrite I1, I2. split; [reflexivity|lia].
Qed.

Lemma count_counts i rv kn ins : includeLoop i (map fst rv) kn = Ok ins ->
  st_revoked (count rv kn) = N.of_nat (length ins) /\
  st_ok (count rv kn) = N.of_nat (length (filter (fun s => negb (memb s (map fst rv))) (map snd kn))).
Proof.
  intros H. unfold count. destruct (countLoop_counts i rv kn (map fst rv) [] 0%N [] ins) as [A B]; [cbn [In]; tauto|exact H|].
  rewrite A, B. cbn [length]. split; lia.
Qed.

Lemma mapRes_length {A B} (f : A -> res B) l r : mapRes f l = Ok r -> length r = length l.
Proof. intros H. apply mapRes_ok in H. induction H; cbn [length]; congruence. Qed.

Lemma merge_sums l : forall acc, st_revoked (fold_left mergeStats l acc) = (st_revoked acc + fold_right N.add 0 (map st_revoked l))%N /\
  st_ok (fold_left mergeStats l acc) = (st_ok acc + fold_right N.add 0 (map st_ok l))%N.
Proof.
  induction l as [|x l IH]; intros acc; cbn [fold_left map fold_right]; [lia|]. destruct (IH (mergeStats acc x)) as [A B]. rewrite A, B.
  cbn [mergeStats st_revoked st_ok]. lia.
Qed.

Lemma includeLoop_none i : forall kn, includeLoop i [] kn = Ok [].
Proof. induction kn as [|[u s] kn IH]; [reflexivity|exact IH]. Qed.

(** The capacities given to the cascade builder are the exact numbers of keys
    included and excluded afterwards, for any files. *)
Theorem C37_cascade_counts : forall revoked known set st ins exs,
  countAll revoked known set = Ok st -> cascadeIncludes revoked known set = Ok ins -> cascadeExcludes revoked known set = Ok exs ->
  st_revoked st = N.of_nat (length ins) /\ st_ok st = N.of_nat (length exs).
Proof.
  intros revoked known set st ins exs HS HI HE. unfold countAll in HS. unfold cascadeIncludes in HI. unfold cascadeExcludes in HE.
  apply bind_ok in HS. destruct HS as [a [HS Ea]]. apply bind_ok in HI. destruct HI as [b [HI Eb]]. apply bind_ok in HE. destruct HE as [c [HE Ec]].
  injection Ea as <-. injection Eb as <-. injection Ec as <-. destruct (merge_sums a zeroStats) as [-> ->]. cbn [zeroStats st_revoked st_ok]. rewrite !N.add_0_l.
  revert a b c HS HI HE. induction (filePairs revoked known) as [|[[name r] k] L IH]; intros a b c HS HI HE.
  - cbn in HS, HI, HE. injection HS as <-. injection HI as <-. injection HE as <-. auto.
  - cbn [mapRes] in HS, HI, HE. apply bind_ok in HS. destruct HS as [x [X HS]]. apply bind_ok in HS. destruct HS as [a' [HS E]]. injection E as <-.
    apply bind_ok in HI. destruct HI as [y [Y HI]]. apply bind_ok in HI. destruct HI as [b' [HI E]]. injection E as <-.
    apply bind_ok in HE. destruct HE as [z [Z HE]]. apply bind_ok in HE. destruct HE as [c' [HE E]]. injection E as <-.
    destruct (IH a' b' c' HS HI HE) as [I1 I2]. cbn [map fold_right concat]. rewrite !app_length, I1, I2.
    apply bind_ok in X. destruct X as [rv [X1 X]]. apply bind_ok in X. destruct X as [kn [X2 X]]. injection X as <-.
    apply bind_ok in Z. destruct Z as [i [Z0 Z]]. apply bind_ok in Z. destruct Z as [rv' [Z1 Z]]. rewrite X1 in Z1. injection Z1 as <-.
    apply bind_ok in Z. destruct Z as [kn' [Z2 Z]]. rewrite X2 in Z2. injection Z2 as <-. apply mapRes_length in Z. rewrite Z.
    assert (Y' : includeLoop i (map fst rv) kn = Ok y).
    { destruct r as [d|].
      - rewrite Z0 in Y. cbn [bind] in Y. cbn [readRevoked] in X1. rewrite X1 in Y. cbn [bind] in Y. rewrite X2 in Y. exact Y.
      - injection Y as <-. cbn [readRevoked] in X1. injection X1 as <-. apply includeLoop_none. }
    destruct (count_counts i rv kn y Y') as [-> ->]. lia.
Qed.
Print Assumptions C37_cascade_counts.

(** For a clubcard: the same numbers, and the universe of each issuer has as many
    keys as the builder labels afterwards, the labelled ones being as many as
    excluded ones are not revoked. *)
Theorem C37_clubcard_counts : forall revoked known set st ap ex,
  countAll revoked known set = Ok st -> clubcardApprox revoked known set = Ok ap -> clubcardExact revoked known set = Ok ex ->
  st_revoked st = fold_right N.add 0%N (map (fun p => N.of_nat (length (snd (fst p)))) ap) /\
  st_ok st = fold_right N.add 0%N (map (fun p => N.of_nat (length (filter (fun e => negb (snd e)) (snd p)))) ex) /\
  map (fun p => (fst (fst p), snd p)) ap = map (fun p => (fst p, N.of_nat (length (snd p)))) ex.
Proof.
  intros revoked known set st ap ex HS HI HE. unfold countAll in HS. unfold clubcardApprox in HI. unfold clubcardExact in HE.
  apply bind_ok in HS. destruct HS as [a [HS Ea]].
  injection Ea as <-. destruct (merge_sums a zeroStats) as [-> ->]. cbn [zeroStats st_revoked st_ok]. rewrite !N.add_0_l.
  revert a ap ex HS HI HE. induction (filePairs revoked known) as [|[[name r] k] L IH]; intros a b c HS HI HE.
  - cbn in HS, HI, HE. injection HS as <-. injection HI as <-. injection HE as <-. auto.
  - cbn [mapRes] in HS, HI, HE. apply bind_ok in HS. destruct HS as [x [X HS]]. apply bind_ok in HS. destruct HS as [a' [HS E]]. injection E as <-.
    apply bind_ok in HI. destruct HI as [y [Y HI]]. apply bind_ok in HI. destruct HI as [b' [HI E]]. injection E as <-.
    apply bind_ok in HE. destruct HE as [z [Z HE]]. apply bind_ok in HE. destruct HE as [c' [HE E]]. injection E as <-.
    destruct (IH a' b' c' HS HI HE) as [I1 [I2 I3]]. cbn [map fold_right]. rewrite I1, I2, I3.
    apply bind_ok in X. destruct X as [rv [X1 X]]. apply bind_ok in X. destruct X as [kn [X2 X]]. injection X as <-.
    apply bind_ok in Z. destruct Z as [i [Z0 Z]]. apply bind_ok in Z. destruct Z as [rv' [Z1 Z]]. rewrite X1 in Z1. injection Z1 as <-.
    apply bind_ok in Z. destruct Z as [kn' [Z2 Z]]. rewrite X2 in Z2. injection Z2 as <-. apply bind_ok in Z. destruct Z as [lb [Z E]]. injection E as <-.
    rewrite Z0 in Y. cbn [bind] in Y. rewrite X1 in Y. cbn [bind] in Y. rewrite X2 in Y. cbn [bind] in Y.
    apply bind_ok in Y. destruct Y as [ks [Y E]]. injection E as <-. cbn [fst snd].
    destruct (count_counts i rv kn ks Y) as [-> ->]. split; [reflexivity|]. split.
    + f_equal. f_equal. apply mapRes_ok in Z. clear -Z. remember (map snd kn) as l eqn:E. clear E. induction Z as [|s e l r H Z IH]; [reflexivity|].
      apply bind_ok in H. destruct H as [b [_ H]]. injection H as <-. cbn [filter snd]. destruct (memb s (map fst rv)); cbn [negb length]; congruence.
    + apply mapRes_length in Z. rewrite map_length in Z. rewrite Z. reflexivity.
Qed.
Print Assumptions C37_clubcard_counts.

(** For the files of the Go programs all steps succeed, and the keys are: each
    known revoked certificate once, and the other known certificates. *)
Lemma includeLoop_go d : forall kn set, exists ins, includeLoop d set (map hexLine kn) = Ok ins /\ NoDup ins /\
  forall key, In key ins <-> exists u s, In (u, s) kn /\ In (hexEncode s) set /\ key = d ++ s.
Proof.
  induction kn as [|[u s] kn IH]; intros set.
  - exists []. split; [reflexivity|]. split; [constructor|]. intros key. split; [intros []|]. intros [u [s [[] _]]].
  - cbn [map hexLine fst snd includeLoop]. destruct (memb (hexEncode s) set) eqn:M.
    + destruct (IH (filter (fun x => negb (beq (hexEncode s) x)) set)) as [ins [E [ND S]]]. exists ((d ++ s) :: ins).
      unfold decodeSerial. rewrite hexDecode_encode. cbn [orPanic bind]. rewrite E. split; [reflexivity|]. split.
      * constructor; [|exact ND]. intros I. apply S in I. destruct I as [v [x [_ [J K]]]]. apply app_inv_head in K. subst x.
        apply filter_In in J. destruct J as [_ J]. rewrite beq_refl in J. discriminate J.
      * intros key. cbn [In]. rewrite S. split.
        -- intros [<-|[v [x [I [J K]]]]]; [exists u, s; split; [auto|]; split; [apply memb_in; exact M|reflexivity]|].
           exists v, x. split; [auto|]. apply filter_In in J. split; [apply J|exact K].
        -- intros [v [x [[I|I] [J ->]]]]; [injection I as _ <-; left; reflexivity|]. destruct (bytes_eq_dec s x) as [<-|NE]; [left; reflexivity|].
           right. exists v, x. split; [exact I|]. split; [|reflexivity]. apply filter_In. split; [exact J|].
           destruct (beq_spec (hexEncode s) (hexEncode x)) as [Q|]; [|reflexivity]. apply hexEncode_inj in Q. contradiction.
    + destruct (IH set) as [ins [E [ND S]]]. exists ins. split; [exact E|]. split; [exact ND|]. intros key. rewrite S. split.
      * intros [v [x [I H]]]. exists v, x. split; [right; exact I|exact H].
      * intros [v [x [[I|I] [J K]]]]; [|exists v, x; auto]. injection I as _ <-. apply memb_not in M. contradiction.
Qed.

Lemma concat_nodup {A} (l : list (list A)) (tag : A -> bytes) (ds : list bytes) :
  NoDup ds -> Forall2 (fun d x => NoDup x /\ forall a, In a x -> tag a = d) ds l -> NoDup (concat l).
Proof.
  intros ND F. induction F as [|d x ds l [N T] F IH]; [constructor|]. apply NoDup_cons_iff in ND. destruct ND as [ND1 ND2]. cbn [concat].
  specialize (IH ND2). induction x as [|a x IHx]; [exact IH|]. cbn [app]. apply NoDup_cons_iff in N. destruct N as [N1 N2]. constructor.
  - rewrite in_app_iff. intros [I|I]; [contradiction|]. apply in_concat in I. destruct I as [y [Iy Ia]].
    assert (E : In (tag a) ds). { clear -F Iy Ia. induction F as [|d' y' ds l [_ T'] F IH]; [destruct Iy|]. destruct Iy as [->|Iy]; [left; symmetry; apply T'; exact Ia|right; apply IH; exact Iy]. }
    rewrite (T a (or_introl eq_refl)) in E. contradiction.
  - apply IHx; [exact N2|]. intros b Ib. apply T. right; exact Ib.
Qed.

Theorem C37_keys_given : forall set rs ks, goodKnown ks -> goodRevoked rs ->
  exists st ins exs, countAll (goRevoked rs) (goKnown ks) set = Ok st /\
    cascadeIncludes (goRevoked rs) (goKnown ks) set = Ok ins /\ cascadeExcludes (goRevoked rs) (goKnown ks) set = Ok exs /\
    NoDup ins /\ st_revoked st = N.of_nat (length ins) /\ st_ok st = N.of_nat (length exs) /\
    (forall key, In key ins <-> exists d s, key = d ++ s /\ knownCert ks d s /\ revokedCert set rs d s) /\
    (forall key, In key exs <-> exists d s, key = d ++ s /\ knownCert ks d s /\ ~ revokedCert set rs d s).
Proof.
  intros set rs ks GK GR.
  assert (HS : exists st, countAll (goRevoked rs) (goKnown ks) set = Ok st).
  { unfold countAll. rewrite filePairs_go, mapRes_comp. eexists. erewrite (mapRes_map _ (fun k => count (revList set rs (fst k)) (map hexLine (knownLines (snd k))))).
    - reflexivity.
    - intros [d bins] I. cbn [fst snd]. rewrite read_go_revoked. cbn [bind]. rewrite (read_known ks d bins GK I). reflexivity. }
  destruct HS as [st HS]. exists st.
  assert (HI : exists l, mapRes (fun p : bytes * option bytes * bytes => let '(name, r, k) := p in
                match r with
                | None => Ok []
                | Some d => bind (decodeIssuer name) (fun i => bind (rustReadRevoked set d) (fun rv =>
                            bind (rustReadKnown k) (fun kn => includeLoop i (map fst rv) kn)))
                end) (filePairs (goRevoked rs) (goKnown ks)) = Ok l /\
     Forall2 (fun k x => NoDup x /\ forall key, In key x <-> exists s, key = fst k ++ s /\ (exists u ss, In (u, ss) (snd k) /\ In s ss) /\ revokedCert set rs (fst k) s) ks l).
  { rewrite filePairs_go, mapRes_comp.
    assert (H : forall k, In k ks -> exists x, (match alookup (issuerID (fst k)) (goRevoked rs) with
                | None => Ok []
                | Some d => bind (decodeIssuer (issuerID (fst k))) (fun i => bind (rustReadRevoked set d) (fun rv =>
                            bind (rustReadKnown (flat_map (fun p => writeSerialList (fst p) (snd p)) (snd k))) (fun kn => includeLoop i (map fst rv) kn)))
                end) = Ok x /\ (NoDup x /\ forall key, In key x <-> exists s, key = fst k ++ s /\ (exists u ss, In (u, ss) (snd k) /\ In s ss) /\ revokedCert set rs (fst k) s)).
    { intros [d bins] I. cbn [fst snd].
      assert (S : forall key x, (forall key, In key x <-> exists u s, In (u, s) (knownLines bins) /\ In (hexEncode s) (map fst (revList set rs d)) /\ key = d ++ s) ->
                  (In key x <-> exists s, key = d ++ s /\ (exists u ss, In (u, ss) bins /\ In s ss) /\ revokedCert set rs d s)).
      { intros key x S. rewrite S. split.
        - intros [u [s [J [K ->]]]]. exists s. split; [reflexivity|]. split; [apply (in_knownLines bins u); exact J|]. apply revList_spec; assumption.
        - intros [s [-> [[u [ss [J1 J2]]] K]]]. destruct (knownLines_in bins u ss s J1 J2) as [v L]. exists v, s. split; [exact L|]. split; [|reflexivity].
          apply revList_spec; assumption. }
      rewrite revOf_lookup. destruct (revOf rs d) as [l|] eqn:R.
      - rewrite decode_issuer_ok by (apply (proj2 GK d bins I)). cbn [bind]. rewrite read_revoked. cbn [bind]. rewrite (read_known ks d bins GK I). cbn [bind].
        destruct (includeLoop_go d (knownLines bins) (map fst (map revItem (filter (sel set) l)))) as [x [E [ND X]]]. exists x. split; [exact E|].
        split; [exact ND|]. intros key. apply S. intros key'. rewrite X. unfold revList. rewrite R. reflexivity.
      - exists []. split; [reflexivity|]. split; [constructor|]. intros key. apply S. intros key'. unfold revList. rewrite R. cbn [map In]. split; [intros []|].
        intros [u [s [_ [[] _]]]]. }
    clear -H. induction ks as [|k ks IH]; [exists []; split; [reflexivity|constructor]|].
    destruct (H k (or_introl eq_refl)) as [x [E X]]. destruct IH as [l [E' F]]; [intros k' I; apply H; right; exact I|].
    exists (x :: l). cbn [mapRes]. rewrite E. cbn [bind]. rewrite E'. split; [reflexivity|]. constructor; assumption. }
  destruct HI as [li [HI FI]]. exists (concat li).
  assert (HE : mapRes (fun p : bytes * option bytes * bytes => let '(name, r, k) := p in
                bind (decodeIssuer name) (fun i => bind (readRevoked set r) (fun rv => bind (rustReadKnown k) (fun kn =>
                mapRes (fun s => bind (decodeSerial s) (fun b => Ok (crliteKey i b)))
                       (filter (fun s => negb (memb s (map fst rv))) (map snd kn)))))) (filePairs (goRevoked rs) (goKnown ks)) =
     Ok (map (fun k => map (fun e => fst k ++ snd e) (filter (fun e => negb (memb (hexEncode (snd e)) (map fst (revList set rs (fst k))))) (knownLines (snd k)))) ks)).
  { rewrite filePairs_go, mapRes_comp. apply mapRes_map. intros [d bins] I. cbn [fst snd].
    rewrite decode_issuer_ok by (apply (proj2 GK d bins I)). cbn [bind]. rewrite read_go_revoked. cbn [bind]. rewrite (read_known ks d bins GK I). cbn [bind].
    clear. induction (knownLines bins) as [|[u s] kn IH]; [reflexivity|]. cbn [map hexLine fst snd filter].
    destruct (negb (memb (hexEncode s) (map fst (revList set rs d)))); [|exact IH]. cbn [mapRes map]. unfold decodeSerial at 1. rewrite hexDecode_encode.
    cbn [orPanic bind]. rewrite IH. reflexivity. }
  set (le := map (fun k : bytes * list (Z * list bytes) => map (fun e : N * bytes => fst k ++ snd e)
     (filter (fun e => negb (memb (hexEncode (snd e)) (map fst (revList set rs (fst k))))) (knownLines (snd k)))) ks) in HE. exists (concat le).
  assert (EI : cascadeIncludes (goRevoked rs) (goKnown ks) set = Ok (concat li)) by (unfold cascadeIncludes; rewrite HI; reflexivity).
  assert (EE : cascadeExcludes (goRevoked rs) (goKnown ks) set = Ok (concat le)) by (unfold cascadeExcludes; rewrite HE; reflexivity).
  split; [exact HS|]. split; [exact EI|]. split; [exact EE|]. split; [|split; [|split; [|split]]].
  - apply (concat_nodup li (firstn 32) (map fst ks)); [apply GK|]. destruct GK as [_ GK]. revert GK. clear -FI.
    induction FI as [|k x ks l [ND S] F IH]; intros GK; cbn [map]; [constructor|]. constructor.
    + split; [exact ND|]. intros a I. apply S in I. destruct I as [s [-> _]]. destruct k as [d bins]. cbn [fst].
      apply firstn_app_exact. apply (GK d bins). left; reflexivity.
    + apply IH. intros d bins I. apply GK. right; exact I.
  - apply (C37_cascade_counts _ _ _ _ _ _ HS EI EE).
  - apply (C37_cascade_counts _ _ _ _ _ _ HS EI EE).
  - intros key. rewrite in_concat. split.
    + intros [x [I J]]. assert (Q : exists k, In k ks /\ In x [x] /\ (exists s, key = fst k ++ s /\ (exists u ss, In (u, ss) (snd k) /\ In s ss) /\ revokedCert set rs (fst k) s)).
      { clear -FI I J. induction FI as [|k y ks l [_ S] F IH]; [destruct I|]. destruct I as [->|I].
        - exists k. split; [left; reflexivity|]. split; [left; reflexivity|]. apply S. exact J.
        - destruct (IH I) as [k' [A B]]. exists k'. split; [right; exact A|exact B]. }
      destruct Q as [[d bins] [A [_ [s [-> [[u [ss [B C]]] R]]]]]]. exists d, s. split; [reflexivity|]. split; [exists bins, u, ss; auto|exact R].
    + intros [d [s [-> [[bins [u [ss [A [B C]]]]] R]]]]. clear -FI A B C R. induction FI as [|k y ks l [_ S] F IH]; [destruct A|]. destruct A as [->|A].
      * exists y. split; [left; reflexivity|]. apply S. exists s. split; [reflexivity|]. split; [exists u, ss; auto|exact R].
      * destruct (IH A) as [x [I J]]. exists x. split; [right; exact I|exact J].
  - intros key. rewrite in_concat. unfold le. split.
    + intros [x [I J]]. apply in_map_iff in I. destruct I as [[d bins] [<- I]]. cbn [fst snd] in J. apply in_map_iff in J. destruct J as [[u s] [<- J]].
      apply filter_In in J. destruct J as [J N]. cbn [snd] in N. exists d, s. split; [reflexivity|]. apply in_knownLines in J. destruct J as [v [ss [J1 J2]]].
      split; [exists bins, v, ss; auto|]. intros R. apply (revList_spec set rs d s GR) in R. apply memb_in in R. rewrite R in N. discriminate N.
    + intros [d [s [-> [[bins [u [ss [A [B C]]]]] R]]]]. eexists. split; [apply in_map_iff; exists (d, bins); split; [reflexivity|exact A]|]. cbn [fst snd].
      destruct (knownLines_in bins u ss s B C) as [v L]. apply in_map_iff. exists (v, s). split; [reflexivity|]. apply filter_In. split; [exact L|]. cbn [snd].
      destruct (memb (hexEncode s) (map fst (revList set rs d))) eqn:M; [|reflexivity]. exfalso. apply R. apply memb_in in M. apply revList_spec in M; assumption.
Qed.
Print Assumptions C37_keys_given.

Example C37_example :
  countAll (goRevoked zRs) (goKnown zKs) RAll = Ok (mkStats 2 3 [KeyCompromise; KeyCompromise; Unspecified]) /\
  cascadeIncludes (goRevoked zRs) (goKnown zKs) RAll = Ok [dA ++ B "2"; dA ++ B "3"] /\
  cascadeExcludes (goRevoked zRs) (goKnown zKs) RAll = Ok [dA ++ B "1"; dB ++ B "1"; dB ++ B "9"].
Proof. vm_compute. auto. Qed.

(** The reported histogram of reasons can count a certificate more than once (one
    known under two expiry dates), so its total exceeds the number of revoked
    certificates. *)
Theorem C37_histogram_refuted : exists set rs ks st, goodKnown ks /\ goodRevoked rs /\
  countAll (goRevoked rs) (goKnown ks) set = Ok st /\ (st_revoked st < N.of_nat (length (st_reasons st)))%N.
Proof.
  exists RAll, zRs, zKs, (mkStats 2 3 [KeyCompromise; KeyCompromise; Unspecified]). destruct zGood as [A B]. split; [exact A|]. split; [exact B|].
  split; [vm_compute; reflexivity|]. cbn. lia.
Qed.
Print Assumptions C37_histogram_refuted.

(** ** C36: stash files *)

(** The grammar documented at main.rs:627-640. *)
Inductive serialsOf : nat -> list bytes -> bytes -> Prop :=
| serials_none : serialsOf 0 [] []
| serials_more x s n ss b : Byte.to_N x = N.of_nat (length s) -> serialsOf n ss b -> serialsOf (S n) (s :: ss) (x :: s ++ b).
Inductive stashOf : list (bytes * list bytes) -> bytes -> Prop :=
| stash_none : stashOf [] []
| stash_more b0 b1 b2 b3 x issuer n ss sb l rest :
    N.of_nat n = (Byte.to_N b0 + 256 * Byte.to_N b1 + 65536 * Byte.to_N b2 + 16777216 * Byte.to_N b3)%N ->
    Byte.to_N x = N.of_nat (length issuer) -> serialsOf n ss sb -> stashOf l rest ->
    stashOf ((issuer, ss) :: l) (b0 :: b1 :: b2 :: b3 :: x :: issuer ++ sb ++ rest).

Lemma app_split {A} (a b c d : list A) : length a = length c -> a ++ b = c ++ d -> a = c /\ b = d.
Proof.
  revert c. induction a as [|x a IH]; intros [|y c] L E; try discriminate L; [auto|]. cbn [app] in E. injection E as -> E.
  cbn [length] in L. injection L as L. destruct (IH c L E) as [-> ->]. auto.
Qed.

Lemma serials_unique n : forall ss sb ss' sb' r r', serialsOf n ss sb -> serialsOf n ss' sb' -> sb ++ r = sb' ++ r' ->
  ss = ss' /\ r = r'.
Proof.
  induction n as [|n IH]; intros ss sb ss' sb' r r' H H' E; inversion H; subst; inversion H'; subst; [auto|].
  cbn [app] in E. injection E as <- E. rewrite <- !app_assoc in E.
  match goal with A : Byte.to_N x = N.of_nat (length ?s), B : Byte.to_N x = N.of_nat (length ?s') |- _ => rewrite A in B; apply Nat2N.inj in B; destruct (app_split _ _ _ _ B E) as [-> E'] end.
  match goal with A : serialsOf n ?a ?b, B : serialsOf n ?c ?d |- _ => destruct (IH a b c d r r' A B E') as [-> ->] end. auto.
Qed.

(** The grammar is unambiguous. *)
Lemma stash_unique l : forall b l', stashOf l b -> stashOf l' b -> l = l'.
Proof.
  induction l as [|[i ss] l IH]; intros b l' H H'.
  - inversion H; subst. inversion H'; reflexivity.
  - inversion H as [|b0 b1 b2 b3 x i1 n ss1 sb l1 rest C L S R]; subst.
    inversion H' as [|c0 c1 c2 c3 y i2 m ss2 sb2 l2 rest2 C2 L2 S2 R2 E1 [E2 E3 E4 E5 E6 E]]; subst.
    rewrite L in L2. apply Nat2N.inj in L2. rewrite <- C2 in C. apply Nat2N.inj in C. subst m.
    destruct (app_split _ _ _ _ (eq_sym L2) E) as [-> E'].
    destruct (serials_unique n _ _ _ _ _ _ S2 S E') as [-> ->]. f_equal. apply (IH rest); assumption.
Qed.

Lemma serials_written ss : (forall s, In s ss -> (length s < 256)%nat) ->
  serialsOf (length ss) ss (flat_map (fun s => byteOf (N.of_nat (length s)) :: s) ss).
Proof.
  induction ss as [|s ss IH]; intros H; [constructor|]. cbn [length flat_map app]. constructor.
  - rewrite to_N_byteOf. apply N.mod_small. specialize (H s (or_introl eq_refl)). lia.
  - apply IH. intros x I. apply H. right; exact I.
Qed.

Lemma le4 (n : N) : (n < 2 ^ 32)%N ->
  n = (n mod 256 + 256 * ((n / 256) mod 256) + 65536 * ((n / 256 / 256) mod 256) + 16777216 * ((n / 256 / 256 / 256) mod 256))%N.
Proof.
  intros LS. change (2 ^ 32)%N with 4294967296%N in LS.
  pose proof (N.div_mod n 256 ltac:(lia)) as D1. pose proof (N.div_mod (n / 256) 256 ltac:(lia)) as D2. pose proof (N.div_mod (n / 256 / 256) 256 ltac:(lia)) as D3.
  assert (D4 : (n / 256 / 256 / 256 < 256)%N) by (repeat (apply N.div_lt_upper_bound; [lia|]); lia).
  pose proof (N.mod_small _ _ D4) as D5. lia.
Qed.

Lemma stash_entry i ss l rest : (length i < 256)%nat -> (N.of_nat (length ss) < 2 ^ 32)%N -> (forall s, In s ss -> (length s < 256)%nat) ->
  stashOf l rest -> stashOf ((i, ss) :: l) (stashEntry i ss ++ rest).
Proof.
  intros LI LS HS H. unfold stashEntry. cbn [putLE app]. rewrite <- !app_assoc. cbn [app]. rewrite <- ?app_assoc. apply (stash_more _ _ _ _ _ _ (length ss)).
  - rewrite !to_N_byteOf. apply le4. exact LS.
  - rewrite to_N_byteOf. apply N.mod_small. lia.
  - apply serials_written. exact HS.
  - exact H.
Qed.

Lemma filter_shorter {A} (f : A -> bool) l : (length (filter f l) <= length l)%nat.
Proof. induction l as [|x l IH]; cbn [filter length]; [lia|]. destruct (f x); cbn [length]; lia. Qed.

Lemma fold_setAdd_length l : forall s, (length (fold_left setAdd l s) <= length s + length l)%nat.
Proof.
  induction l as [|x l IH]; intros s; cbn [fold_left length]; [lia|]. specialize (IH (setAdd s x)). unfold setAdd in *.
  destruct (existsb (beq x) s); [lia|]. rewrite app_length in IH. cbn in IH. lia.
Qed.

(** What a stash must say of a delta directory. *)
Theorem C36_stash_is_readable : forall order set dl,
  (forall l, Permutation (order l) l) -> goodRevoked dl ->
  (forall d l, In (d, l) dl -> length d = 32%nat /\ (N.of_nat (length l) < 2 ^ 32)%N /\ forall s c, In (s, c) l -> (length s < 256)%nat) ->
  exists b l, writeStash order (goRevoked dl) set = Ok b /\ stashOf l b /\ (forall l', stashOf l' b -> l' = l) /\
    NoDup (map fst l) /\ (forall d ss, In (d, ss) l -> ss <> [] /\ NoDup ss) /\
    forall d s, (exists ss, In (d, ss) l /\ In s ss) <-> revokedCert set dl d s.
Proof.
  intros order set dl OP GD HD.
  assert (X : exists b l, writeStash order (goRevoked dl) set = Ok b /\ stashOf l b /\ NoDup (map fst l) /\ (forall d ss, In (d, ss) l -> ss <> [] /\ NoDup ss) /\
    forall d s, (exists ss, In (d, ss) l /\ In s ss) <-> revokedCert set dl d s).
  2: { destruct X as [b [l [A [B0 [C [D E]]]]]]. exists b, l. split; [exact A|]. split; [exact B0|]. split; [intros l' H; apply (stash_unique l' b); assumption|]. auto. }
  induction dl as [|[d l] dl IH].
  - exists [], []. split; [reflexivity|]. split; [constructor|]. split; [constructor|]. split; [intros d ss []|]. intros d s. split; [intros [ss [[] _]]|].
    intros [l [c [[] _]]].
  - unfold goodRevoked in GD. cbn [map fst] in GD. apply NoDup_cons_iff in GD. destruct GD as [ND GD].
    destruct IH as [b [ll [W [S [N1 [N2 R]]]]]]; [exact GD|intros d' l' I; apply HD; right; exact I|].
    unfold writeStash in W. apply bind_ok in W. destruct W as [bs [W E]]. injection E as <-.
    destruct (HD d l (or_introl eq_refl)) as [L1 [L2 L3]].
    assert (NK : ~ In d (map fst ll)).
    { intros I. apply in_map_iff in I. destruct I as [[d' ss] [E I]]. cbn [fst] in E. subst d'. destruct (N2 d ss I) as [NE _]. destruct ss as [|s ss]; [congruence|].
      assert (Q : revokedCert set dl d s) by (apply R; exists (s :: ss); split; [exact I|left; reflexivity]).
      destruct Q as [l' [c [I' _]]]. apply ND. apply (in_map fst) in I'. exact I'. }
    set (ss := order (distinct (map fst (map revItem (filter (sel set) l))))).
    assert (SS : forall x, In x ss <-> exists s, x = hexEncode s /\ exists c, In (s, c) l /\ selected set (c mod 256)).
    { intros x. unfold ss. split.
      - intros I. apply (Permutation_in _ (OP _)) in I. unfold distinct in I. apply setAdd_all in I. destruct I as [[]|I]. rewrite map_map in I.
        apply in_map_iff in I. destruct I as [[s c] [<- I]]. apply filter_In in I. destruct I as [I Q]. exists s. split; [reflexivity|]. exists c. split; [exact I|].
        apply skip_selected. unfold sel in Q. cbn [snd] in Q. destruct (skipReason _ _); [discriminate Q|reflexivity].
      - intros [s [-> [c [I Q]]]]. apply (Permutation_in _ (Permutation_sym (OP _))). unfold distinct. apply setAdd_all. right. rewrite map_map. apply in_map_iff.
        exists (s, c). split; [reflexivity|]. apply filter_In. split; [exact I|]. unfold sel. cbn [snd]. apply skip_selected in Q. rewrite Q. reflexivity. }
    assert (NDS : NoDup ss) by (unfold ss; apply (Permutation_NoDup (Permutation_sym (OP _))); apply fold_setAdd_nodup; constructor).
    assert (LS : (length ss <= length l)%nat).
    { unfold ss. rewrite (Permutation_length (OP _)). unfold distinct. pose proof (fold_setAdd_length (map fst (map revItem (filter (sel set) l))) []) as Q.
      rewrite !map_length in Q. cbn [length] in Q. pose proof (filter_shorter (sel set) l). lia. }
    assert (DS : exists ds, ss = map hexEncode ds).
    { assert (Q : forall x, In x ss -> exists s, x = hexEncode s) by (intros x I; apply SS in I; destruct I as [s [E _]]; exists s; exact E).
      clear -Q. induction ss as [|x ss IH]; [exists []; reflexivity|]. destruct IH as [ds ->]; [intros y I; apply Q; right; exact I|].
      destruct (Q x (or_introl eq_refl)) as [s ->]. exists (s :: ds). reflexivity. }
    destruct DS as [ds DS].
    assert (IN : forall s, In s ds <-> exists c, In (s, c) l /\ selected set (c mod 256)).
    { intros s. split.
      - intros I. apply (in_map hexEncode) in I. rewrite <- DS in I. apply SS in I. destruct I as [s' [E H]]. apply hexEncode_inj in E. subst s'. exact H.
      - intros H. assert (I : In (hexEncode s) ss) by (apply SS; exists s; auto). rewrite DS in I. apply in_map_iff in I. destruct I as [s' [E I]].
        apply hexEncode_inj in E. subst s'. exact I. }
    assert (ND' : NoDup ds) by (rewrite DS in NDS; apply NoDup_map_inv in NDS; exact NDS).
    assert (MD : mapRes decodeSerial ss = Ok ds).
    { rewrite DS, mapRes_comp. rewrite (mapRes_map _ (fun x => x)); [rewrite map_id; reflexivity|]. intros a _. unfold decodeSerial. rewrite hexDecode_encode. reflexivity. }
    assert (RC : forall d0 s, revokedCert set ((d, l) :: dl) d0 s <-> (d0 = d /\ In s ds) \/ revokedCert set dl d0 s).
    { intros d0 s. unfold revokedCert. cbn [In]. split.
      - intros [l0 [c [[E|I] H]]]; [injection E as -> ->; left; split; [reflexivity|]; apply IN; exists c; exact H|right; exists l0, c; auto].
      - intros [[-> H]|[l0 [c [I H]]]]; [apply IN in H; destruct H as [c H]; exists l, c; auto|exists l0, c; auto]. }
    assert (GO : writeStash order (goRevoked ((d, l) :: dl)) set = Ok (match ds with [] => [] | _ => stashEntry d ds end ++ concat bs)).
    { unfold writeStash, goRevoked. cbn [map fst snd mapRes]. rewrite decode_issuer_ok by exact L1. cbn [bind]. rewrite read_revoked. cbn [bind]. cbv zeta. fold ss.
      unfold goRevoked in W. rewrite W. destruct ss as [|x ss0] eqn:ES.
      - destruct ds; [reflexivity|discriminate DS].
      - rewrite MD. destruct ds; [discriminate DS|reflexivity]. }
    rewrite GO. destruct ds as [|s0 ds0].
    + exists (concat bs), ll. split; [reflexivity|]. split; [exact S|]. split; [exact N1|]. split; [exact N2|]. intros d0 s. rewrite R, RC. cbn [In]. tauto.
    + exists (stashEntry d (s0 :: ds0) ++ concat bs), ((d, s0 :: ds0) :: ll). split; [reflexivity|]. split; [|split; [|split]].
      * apply stash_entry; [lia| | |exact S].
        -- rewrite DS, map_length in LS. apply N.le_lt_trans with (N.of_nat (length l)); [|exact L2]. clear -LS. cbn [length] in *. unfold bytes in *. lia.
        -- intros s I. apply IN in I. destruct I as [c [I _]]. apply (L3 s c I).
      * cbn [map fst]. constructor; assumption.
      * intros d1 ss1 [E|I]; [injection E as <- <-; split; [discriminate|exact ND']|apply (N2 d1 ss1 I)].
      * intros d1 s. rewrite RC, <- R. cbn [In]. split.
        -- intros [ss1 [[E|I] J]]; [injection E as <- <-; left; auto|right; exists ss1; auto].
        -- intros [[-> J]|[ss1 [I J]]]; [exists (s0 :: ds0); auto|exists ss1; auto].
Qed.
Print Assumptions C36_stash_is_readable.

Example C36_example :
  writeStash (@rev bytes) (goRevoked [(dA, [(B "2", 1%N); (B "77", 0%N); (B "2", 1%N)]); (dB, [])]) RAll =
    Ok (["002"; "000"; "000"; "000"; "032"]%byte ++ dA ++ ["002"%byte] ++ B "77" ++ ["001"%byte] ++ B "2") /\
  (forall l : list bytes, Permutation (rev l) l).
Proof. split; [vm_compute; reflexivity|]. intros l. apply Permutation_sym, Permutation_rev. Qed.

(** A serial of 256 bytes or more does not fit the length byte.  Readers of the
    stash then do not see the certificate, and can see one of another issuer
    instead: the serial decides what they read. *)
Definition forged : bytes := repeat "z"%byte 5 ++ ["001"; "000"; "000"; "000"; "032"]%byte ++ dB ++ ["218"%byte] ++ repeat "9"%byte 218.
Theorem C36_long_serial_refuted : exists dl d s d' s' b l,
  goodRevoked dl /\ revokedCert RAll dl d s /\ (forall s0, ~ revokedCert RAll dl d' s0) /\
  writeStash (fun l => l) (goRevoked dl) RAll = Ok b /\ stashOf l b /\ (forall l', stashOf l' b -> l' = l) /\
  (forall ss, In (d, ss) l -> ~ In s ss) /\ exists ss, In (d', ss) l /\ In s' ss.
Proof.
  set (b := stashEntry dA [forged]).
  set (l := [(dA, [repeat "z"%byte 5]); (dB, [repeat "9"%byte 218])]).
  assert (S : stashOf l b).
  { assert (E : b = stashEntry dA [repeat "z"%byte 5] ++ stashEntry dB [repeat "9"%byte 218] ++ []) by (vm_compute; reflexivity). rewrite E.
    apply stash_entry; [cbn; lia|reflexivity|intros s [<-|[]]; cbn; lia|].
    apply stash_entry; [cbn; lia|reflexivity| |constructor].
    intros s [<-|[]]. apply Nat.ltb_lt. vm_compute. reflexivity. }
  exists [(dA, [(forged, 1%N)])], dA, forged, dB, (repeat "9"%byte 218), b, l.
  split; [constructor; [intros []|constructor]|]. split; [exists [(forged, 1%N)], 1%N; cbn; auto|].
  split; [intros s0 [l0 [c [[H|[]] _]]]; discriminate H|].
  split; [vm_compute; reflexivity|]. split; [exact S|]. split; [intros l' H; apply (stash_unique l' b); assumption|]. split.
  - intros ss [H|[H|[]]].
    + injection H as <-. intros [H|[]]. apply (f_equal (@length byte)) in H. discriminate H.
    + discriminate H.
  - exists [repeat "9"%byte 218]. split; [right; left; reflexivity|left; reflexivity].
Qed.
Print Assumptions C36_long_serial_refuted.

Lemma flat_map_le1 {A B} (f : A -> list B) l : (forall a, (length (f a) <= 1)%nat) -> (length (flat_map f l) <= length l)%nat.
Proof. intros H. induction l as [|a l IH]; cbn [flat_map length]; [lia|]. rewrite app_length. specialize (H a). lia. Qed.

(** The stash of a whole run: exactly the known certificates revoked with a
    reason in the set that the previous revoked set does not have. *)
Theorem C36_stash_of_a_run : forall order set prev rs ks,
  (forall l, Permutation (order l) l) -> goodKnown ks -> goodRevoked rs ->
  (forall d bins, In (d, bins) ks -> (N.of_nat (length (knownLines bins)) < 2 ^ 32)%N /\ forall u ss s, In (u, ss) bins -> In s ss -> (length s < 256)%nat) ->
  exists revset delta b l, writeRevsetAndDelta prev (goRevoked rs) (goKnown ks) set = Ok (revset, delta) /\
    writeStash order delta set = Ok b /\ stashOf l b /\ (forall l', stashOf l' b -> l' = l) /\
    forall d s, (exists ss, In (d, ss) l /\ In s ss) <-> knownCert ks d s /\ revokedCert set rs d s /\ ~ In (d ++ s) prev.
Proof.
  intros order set prev rs ks OP GK GR HB. exists (fold_left setAdd (keySrc set rs ks) []), (goRevoked (deltaSrc prev set rs ks)).
  destruct (C36_stash_is_readable order set (deltaSrc prev set rs ks) OP (deltaSrc_good prev set rs ks GK)) as [b [l [W [S [U [_ [_ R]]]]]]].
  - intros d l I. split; [|split].
    + unfold deltaSrc in I. apply in_flat_map in I. destruct I as [[d' bins] [I K]]. cbn [fst snd] in K.
      destruct (revOf rs d') as [l0|]; [|destruct K]. destruct K as [K|[]]. injection K as <- _. apply (proj2 GK d' bins I).
    + unfold deltaSrc in I. apply in_flat_map in I. destruct I as [[d' bins] [I K]]. cbn [fst snd] in K.
      destruct (revOf rs d') as [l0|]; [|destruct K]. destruct K as [K|[]]. injection K as <- <-. destruct (HB d' bins I) as [HL _].
      apply N.le_lt_trans with (2 := HL). pose proof (flat_map_le1 (deltaItem prev d' (toMap (revList set rs d'))) (knownLines bins)) as Q.
      assert (L1 : forall a, (length (deltaItem prev d' (toMap (revList set rs d')) a) <= 1)%nat).
      { intros a. unfold deltaItem. destruct (alookup _ _); [|cbn; lia]. destruct (memb _ _); cbn; lia. }
      specialize (Q L1). clear -Q. unfold bytes in *. lia.
    + intros s c J. destruct (deltaSrc_entry prev set rs ks d l s c GR I J) as [[bins [u [ss [A [C D]]]]] _].
      destruct (HB d bins A) as [_ HL]. apply (HL u ss s C D).
  - exists b, l. split; [apply writeRevset_go; exact GK|]. split; [exact W|]. split; [exact S|]. split; [exact U|].
    intros d s. rewrite R. apply deltaSrc_spec. exact GR.
Qed.
Print Assumptions C36_stash_of_a_run.

Example C36_run_example :
  (forall l : list bytes, Permutation ((fun l => l) l) l) /\ goodKnown zKs /\ goodRevoked zRs /\
  writeRevsetAndDelta [dA ++ B "2"] (goRevoked zRs) (goKnown zKs) RAll = Ok ([dA ++ B "2"; dA ++ B "3"], goRevoked [(dA, [(B "3", 0%N)])]) /\
  writeStash (fun l => l) (goRevoked [(dA, [(B "3", 0%N)])]) RAll = Ok (["001"; "000"; "000"; "000"; "032"]%byte ++ dA ++ ["001"%byte] ++ B "3").
Proof. split; [intros l; apply Permutation_refl|]. split; [apply zGood|]. split; [apply zGood|]. split; vm_compute; reflexivity. Qed.

(** The revoked set and the delta directory among the outputs of the builder are
    those of C34. *)
Theorem C34_output : forall F has buildCascade buildClubcard fromBytes order t set dset prev rs ks o, goodKnown ks -> goodRevoked rs ->
  buildRun F has buildCascade buildClubcard fromBytes order t set dset prev (goRevoked rs) (goKnown ks) = Ok o ->
  NoDup (o_revset o) /\ (forall key, In key (o_revset o) <-> exists d s, key = d ++ s /\ knownCert ks d s /\ revokedCert dset rs d s) /\
  exists dl, o_delta o = goRevoked dl /\ goodRevoked dl /\
    (forall d s, (exists l c, In (d, l) dl /\ In (s, c) l) <-> knownCert ks d s /\ revokedCert dset rs d s /\ ~ In (d ++ s) prev) /\
    (forall d l s c, In (d, l) dl -> In (s, c) l -> exists l0 c0, In (d, l0) rs /\ In (s, c0) l0 /\ selected dset (c0 mod 256) /\
       c = (if in_dec N.eq_dec (c0 mod 256)%N [1; 2; 3; 4; 5; 6; 8; 9; 10]%N then (c0 mod 256)%N else 0%N)).
Proof.
  intros F has bca bcl fb order t set dset prev rs ks o GK GR H. unfold buildRun in H.
  apply bind_ok in H. destruct H as [st [_ H]]. apply bind_ok in H. destruct H as [f [_ H]].
  destruct (C34_revoked_set_and_delta prev dset rs ks GK GR) as [revset [dl [W [ND [GD [RS [DL DR]]]]]]].
  rewrite W in H. cbn [bind fst snd] in H. apply bind_ok in H. destruct H as [sb [_ H]].
  apply bind_ok in H. destruct H as [dst [_ H]]. apply bind_ok in H. destruct H as [df [_ H]].
  injection H as <-. cbn [o_revset o_delta]. split; [exact ND|]. split; [exact RS|]. exists dl. auto.
Qed.
Print Assumptions C34_output.

(** The stash among the outputs of the builder is that stash. *)
Theorem C36_stash_output : forall F has buildCascade buildClubcard fromBytes order t set dset prev rs ks o,
  (forall l, Permutation (order l) l) -> goodKnown ks -> goodRevoked rs ->
  (forall d bins, In (d, bins) ks -> (N.of_nat (length (knownLines bins)) < 2 ^ 32)%N /\ forall u ss s, In (u, ss) bins -> In s ss -> (length s < 256)%nat) ->
  buildRun F has buildCascade buildClubcard fromBytes order t set dset prev (goRevoked rs) (goKnown ks) = Ok o ->
  exists l, stashOf l (o_stash o) /\ (forall l', stashOf l' (o_stash o) -> l' = l) /\
    forall d s, (exists ss, In (d, ss) l /\ In s ss) <-> knownCert ks d s /\ revokedCert dset rs d s /\ ~ In (d ++ s) prev.
Proof.
  intros F has bca bcl fb order t set dset prev rs ks o OP GK GR HB H. unfold buildRun in H.
  apply bind_ok in H. destruct H as [st [_ H]]. apply bind_ok in H. destruct H as [f [_ H]].
  destruct (C36_stash_of_a_run order dset prev rs ks OP GK GR HB) as [revset [delta [b [l [W1 [W2 R]]]]]].
  rewrite W1 in H. cbn [bind fst snd] in H. rewrite W2 in H. cbn [bind] in H.
  apply bind_ok in H. destruct H as [dst [_ H]]. apply bind_ok in H. destruct H as [df [_ H]].
  injection H as <-. cbn [o_stash]. exists l. exact R.
Qed.
Print Assumptions C36_stash_output.

Example C36_output_example :
  exists o, toyRun Clubcard RAll RAll [dA ++ B "2"] (goRevoked zRs) (goKnown zKs) = Ok o /\
    o_stash o = ["001"; "000"; "000"; "000"; "032"]%byte ++ dA ++ ["001"%byte] ++ B "3".
Proof.
  exists (outOr (toyRun Clubcard RAll RAll [dA ++ B "2"] (goRevoked zRs) (goKnown zKs))). split; vm_compute; reflexivity.
Qed.

Example C34_output_example :
  exists o, toyRun Clubcard RAll RAll [dA ++ B "2"] (goRevoked zRs) (goKnown zKs) = Ok o /\
    o_revset o = [dA ++ B "2"; dA ++ B "3"] /\ o_delta o = goRevoked [(dA, [(B "3", 0%N)])].
Proof.
  exists (outOr (toyRun Clubcard RAll RAll [dA ++ B "2"] (goRevoked zRs) (goKnown zKs))). repeat split; vm_compute; reflexivity.
Qed.
