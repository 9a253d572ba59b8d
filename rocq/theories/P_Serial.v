(** * Properties of cache entries, coverage cutoffs, serial lists, serial files
    and expiry bins: C13 to C17. *)
From Verif Require Import Base MerkleModel SerialModel SerialProofs TimeModel TimeProofs.
From Coq Require Import Strings.Byte Sorting.Sorted.

(** Sample values. *)
Definition idA : bytes := repeat "a"%byte 32.
Definition idB : bytes := repeat "b"%byte 32.
Definition ser1 : bytes := [x01; x02; xff].
Definition ser2 : bytes := [x01; x02].
Definition logA : ctLog := mkLog (Some idA) 86400 (B "ct.example/a") 0 99 1000 1700000000000.
Definition logA' : ctLog := mkLog (Some idA) 86400 (B "ct.example/a") 0 199 1000 1700086400000.
Definition logB : ctLog := mkLog (Some idB) 86400 (B "ct.example/b") 0 9 1000 5000.
Definition logBad : ctLog := mkLog None 1 (B "bad") 0 9 1000 5000.

(** ** C13 *)

(** The last log in the list with the given identifier, as a statement about
    the list. *)
Definition lastWith (id : bytes) (logs : list ctLog) (l : ctLog) : Prop :=
  exists pre post, logs = pre ++ l :: post /\ lg_keyID l = Some id /\
    forall l', In l' post -> lg_keyID l' <> Some id.

Lemma find_rev_last id logs l :
  find (fun l => match lg_keyID l with Some j => beq id j | None => false end) (rev logs) = Some l
  <-> lastWith id logs l.
Proof.
  induction logs as [|a logs IH] using rev_ind.
  - cbn [rev find]. split; [discriminate|]. intros (pre & post & E & _). destruct pre; discriminate.
  - rewrite rev_app_distr. cbn [rev app find].
    destruct (match lg_keyID a with Some j => beq id j | None => false end) eqn:E.
    + assert (K : lg_keyID a = Some id).
      { destruct (lg_keyID a); [|discriminate]. apply beq_eq in E. congruence. }
      split.
      * intros H. injection H as <-. exists logs, []. split; [reflexivity|]. split; [exact K|]. intros l' [].
      * intros (pre & post & E1 & K1 & F). destruct post as [|b post] using rev_ind.
        -- apply app_inj_tail in E1. destruct E1 as [_ ->]. reflexivity.
        -- clear IHpost. rewrite app_comm_cons, app_assoc in E1. apply app_inj_tail in E1.
           destruct E1 as [_ ->]. exfalso. apply (F b); [|exact K]. apply in_or_app; right; left; reflexivity.
    + assert (K : lg_keyID a <> Some id).
      { intros K. rewrite K, beq_refl in E. discriminate. }
      rewrite IH. split; intros (pre & post & E1 & K1 & F).
      * exists pre, (post ++ [a]). rewrite E1, <- app_assoc. split; [reflexivity|]. split; [exact K1|].
        intros l' H. apply in_app_or in H. destruct H as [H|[<-|[]]]; auto.
      * destruct post as [|b post _] using rev_ind.
        -- apply app_inj_tail in E1. destruct E1 as [_ ->]. contradiction.
        -- rewrite app_comm_cons, app_assoc in E1. apply app_inj_tail in E1. destruct E1 as [-> ->].
           exists pre, post. split; [reflexivity|]. split; [exact K1|].
           intros l' H. apply F. apply in_or_app; left; exact H.
Qed.

(** A stored entry gives back the serial, the log and the timestamp it was
    built from. *)
Theorem C13_entry_decodes : forall ts id s,
  length id = 32%nat -> (ts < two64)%N ->
  asSerial (newMember ts id s) = s /\
  forall ts' id' s', length id' = 32%nat -> (ts' < two64)%N ->
    newMember ts id s = newMember ts' id' s' -> ts = ts' /\ id = id' /\ s = s'.
Proof.
  intros ts id s L T. split; [apply asSerial_newMember; exact L|].
  intros ts' id' s' L' T'. apply newMember_inj; assumption.
Qed.
Print Assumptions C13_entry_decodes.

(** The coverage decision, from the list of log states the map is made of. *)
Theorem C13_covered_iff : forall logs ts id s,
  length id = 32%nat -> (ts < two64)%N ->
  (forall l, In l logs -> (lg_maxTs l < two64)%N /\ (lg_mmd l * 1000 < two64)%N) ->
  isCovered (newCoverageCutoffMap logs) (newMember ts id s) = true <->
  exists l, lastWith id logs l /\ (ts = 0 \/ ts + 1000 * lg_mmd l <= lg_maxTs l)%N.
Proof.
  intros logs ts id s L T R. rewrite isCovered_newMember by assumption.
  unfold newCoverageCutoffMap. rewrite cutoffMapFrom_spec. cbn [alookup].
  assert (C : forall l, In l logs -> (ts <=? coverageCutoff l)%N = true <->
                (ts = 0 \/ ts + 1000 * lg_mmd l <= lg_maxTs l)%N).
  { intros l Hl. destruct (R l Hl) as [R1 R2]. unfold coverageCutoff, mul64.
    rewrite (w64_small _ R2). destruct (lg_maxTs l <? lg_mmd l * 1000)%N eqn:E.
    - split; intros; lia.
    - rewrite sub64_small by lia. split; intros; lia. }
  destruct (find _ (rev logs)) as [l|] eqn:E.
  - apply find_rev_last in E.
    assert (Hl : In l logs).
    { destruct E as (pre & post & -> & _). apply in_or_app; right; left; reflexivity. }
    rewrite (C l Hl). split.
    + intros H. exists l. split; assumption.
    + intros (l' & E' & H). apply find_rev_last in E, E'. congruence.
  - split; [discriminate|]. intros (l & E' & _). apply find_rev_last in E'. congruence.
Qed.
Print Assumptions C13_covered_iff.

Example C13_covered_iff_case :
  length idA = 32%nat /\
  (forall l, In l [logA; logB; logBad; logA'] -> (lg_maxTs l < two64)%N /\ (lg_mmd l * 1000 < two64)%N) /\
  isCovered (newCoverageCutoffMap [logA; logB; logBad; logA']) (newMember 1700000000000 idA ser1) = true /\
  isCovered (newCoverageCutoffMap [logA; logB; logBad; logA']) (newMember 1700000000001 idA ser1) = false /\
  isCovered (newCoverageCutoffMap [logA; logB; logBad; logA']) (newMember 1 idB ser1) = false /\
  asSerial (newMember 1700000000000 idA ser1) = ser1.
Proof.
  split; [reflexivity|]. split.
  { intros l H. cbn [In] in H. repeat (destruct H as [<-|H]; [split; reflexivity|]). destruct H. }
  repeat split; vm_compute; reflexivity.
Qed.

(** Entries of the old format (a bare serial shorter than 40 bytes) always count
    as covered, decode to themselves, and are no new-format entry. *)
Theorem C13_legacy_entries : forall s, (length s < 40)%nat ->
  asSerial s = s /\ (forall m, isCovered m s = true) /\
  (forall ts id s', length id = 32%nat -> newMember ts id s' <> s).
Proof.
  intros s H. unfold asSerial, isCovered. replace (length s <? 40)%nat with true by lia.
  split; [reflexivity|]. split; [reflexivity|].
  intros ts id s' L E. apply (f_equal (@length byte)) in E. rewrite newMember_length in E by exact L. lia.
Qed.
Print Assumptions C13_legacy_entries.

(** A bare serial of 40 bytes or more would be misread; the X.509 limit of 20
    octets is what excludes it. *)
Theorem C13_long_legacy_serial_refuted : exists s, asSerial s <> s.
Proof. exists (repeat x01 41). vm_compute. discriminate. Qed.
Print Assumptions C13_long_legacy_serial_refuted.

(** ** C14 *)
Theorem C14_cutoff : forall l, (lg_maxTs l < two64)%N -> (lg_mmd l * 1000 < two64)%N ->
  Z.of_N (coverageCutoff l) = Z.max 0 (Z.of_N (lg_maxTs l) - 1000 * Z.of_N (lg_mmd l)).
Proof.
  intros l H1 H2. unfold coverageCutoff, mul64. rewrite (w64_small _ H2).
  destruct (lg_maxTs l <? lg_mmd l * 1000)%N eqn:E; [lia|]. rewrite sub64_small by lia. lia.
Qed.
Print Assumptions C14_cutoff.

(** Whatever the merge delay, the cutoff is never after the last timestamp. *)
Theorem C14_never_later : forall l, (lg_maxTs l < two64)%N -> (coverageCutoff l <= lg_maxTs l)%N.
Proof.
  intros l H. unfold coverageCutoff. cbv zeta.
  destruct (lg_maxTs l <? mul64 (lg_mmd l) 1000)%N eqn:E; [lia|]. rewrite sub64_small by lia. lia.
Qed.
Print Assumptions C14_never_later.

(** One entry per log: the keys are distinct, and the value for a log is the
    cutoff of the last state listed for it. *)
Theorem C14_map : forall logs,
  NoDup (map fst (newCoverageCutoffMap logs)) /\
  forall id c, In (id, c) (newCoverageCutoffMap logs) <->
    exists l, lastWith id logs l /\ c = coverageCutoff l.
Proof.
  intros logs. assert (ND : NoDup (map fst (newCoverageCutoffMap logs))).
  { apply cutoffMapFrom_nodup. constructor. }
  split; [exact ND|]. intros id c.
  assert (A : forall (m : list (bytes * N)), NoDup (map fst m) -> (In (id, c) m <-> alookup id m = Some c)).
  { clear. induction m as [|[k v] m IH]; cbn [map fst alookup In]; intros ND.
    - split; [intros []|discriminate].
    - inversion ND as [|? ? H1 H2]; subst. destruct (beq_spec id k) as [->|N].
      + split.
        * intros [E|H]; [congruence|]. exfalso. apply H1. apply in_map_iff. exists (k, c). auto.
        * intros E. left. congruence.
      + rewrite <- IH by exact H2. split; [intros [E|H]; [congruence|exact H]|auto]. }
  rewrite A by exact ND. unfold newCoverageCutoffMap. rewrite cutoffMapFrom_spec. cbn [alookup].
  destruct (find _ (rev logs)) as [l|] eqn:E.
  - apply find_rev_last in E. split.
    + intros H. exists l. split; [exact E|congruence].
    + intros (l' & E' & ->). apply find_rev_last in E, E'. congruence.
  - split; [discriminate|]. intros (l & E' & _). apply find_rev_last in E'. congruence.
Qed.
Print Assumptions C14_map.

Example C14_case :
  coverageCutoff logA = 1699913600000%N /\ coverageCutoff logB = 0%N /\
  newCoverageCutoffMap [logA; logB; logBad; logA'] = [(idA, 1700000000000%N); (idB, 0%N)].
Proof. repeat split; vm_compute; reflexivity. Qed.

(** With a merge delay above 2^64 milliseconds the product wraps and the cutoff
    is too late. *)
Theorem C14_huge_mmd_refuted : exists l,
  (lg_maxTs l < two64)%N /\ (lg_mmd l < two64)%N /\
  (lg_maxTs l < 1000 * lg_mmd l)%N /\ coverageCutoff l = lg_maxTs l.
Proof.
  exists (mkLog (Some idA) (two64 / 8) (B "x") 0 0 0 5). repeat split; vm_compute; reflexivity.
Qed.
Print Assumptions C14_huge_mmd_refuted.

(** ** C15 *)
(** Strictly increasing in the lexicographic order of [bytes.Compare], so
    without duplicates, and with the same members. *)
Theorem C15_dedup : forall s,
  StronglySorted (fun x y => bcmp x y = Lt) (dedup s) /\ NoDup (dedup s) /\
  forall x, In x (dedup s) <-> In x s.
Proof.
  intros s. split; [apply dedup_sorted|]. split; [apply blt_sorted_nodup, dedup_sorted|].
  apply dedup_in.
Qed.
Print Assumptions C15_dedup.

(** The result depends only on the set of serials, not on order or repetition. *)
Theorem C15_dedup_canonical : forall s t, (forall x, In x s <-> In x t) -> dedup s = dedup t.
Proof.
  intros s t H. apply blt_sorted_unique; try apply dedup_sorted.
  intros x. rewrite !dedup_in. apply H.
Qed.
Print Assumptions C15_dedup_canonical.

(** The order is the expected one: first differing byte, shorter first. *)
Theorem C15_order : forall x y, bcmp x y = Lt <->
  (exists z, z <> [] /\ y = x ++ z) \/
  (exists p a b u v, x = p ++ a :: u /\ y = p ++ b :: v /\ (Byte.to_N a < Byte.to_N b)%N).
Proof.
  induction x as [|a x IH]; intros [|b y]; cbn [bcmp].
  - split; [discriminate|]. intros [(z & N & E)|(p & a & b & u & v & E & _)].
    + cbn in E. congruence.
    + destruct p; discriminate.
  - split; [|reflexivity]. intros _. left. exists (b :: y). split; [discriminate|reflexivity].
  - split; [discriminate|]. intros [(z & N & E)|(p & c & d & u & v & _ & E & _)]; [discriminate|].
    destruct p; discriminate.
  - destruct (N.compare_spec (Byte.to_N a) (Byte.to_N b)) as [E|E|E].
    + apply to_N_inj in E. subst b. rewrite IH. split.
      * intros [(z & N & ->)|(p & c & d & u & v & -> & -> & H)].
        -- left. exists z. split; [exact N|reflexivity].
        -- right. exists (a :: p), c, d, u, v. repeat split; assumption.
      * intros [(z & N & E)|(p & c & d & u & v & E1 & E2 & H)].
        -- injection E as ->. left. exists z. auto.
        -- right. destruct p as [|e p]; cbn [app] in E1, E2.
           ++ injection E1 as -> ->. injection E2 as -> ->. lia.
           ++ injection E1 as -> ->. injection E2 as ->. exists p, c, d, u, v. auto.
    + split; [|reflexivity]. intros _. right. exists [], a, b, x, y. repeat split. exact E.
    + split; [discriminate|]. intros [(z & N & H)|(p & c & d & u & v & E1 & E2 & H)].
      * injection H as -> _. lia.
      * destruct p as [|e p]; cbn [app] in E1, E2.
        -- injection E1 as -> ->. injection E2 as -> ->. lia.
        -- injection E1 as -> _. injection E2 as -> _. lia.
Qed.
Print Assumptions C15_order.

Example C15_case : dedup [ser1; ser2; [x00]; ser1; ser2; []; ser1] = [[]; [x00]; ser2; ser1].
Proof. vm_compute. reflexivity. Qed.

(** ** C16 *)
(** What the Go writer writes, the Go storage reader reads; serials of 32 KiB
    and more would exceed the line limit of the scanner. *)
Theorem C16_go_roundtrip : forall unix ss,
  (forall s, In s ss -> (N.of_nat (length s) < 32768)%N) ->
  readSerials unix (Some (writeSerialList unix ss)) = Ok ss.
Proof. intros u ss H. apply goReadFile_write. exact H. Qed.
Print Assumptions C16_go_roundtrip.

(** A file of another expiry bin is refused, not read as serials. *)
Theorem C16_wrong_bin_refused : forall u v ss,
  (0 <= u < 2 ^ 63)%Z -> (0 <= v < 2 ^ 63)%Z -> u <> v ->
  readSerials v (Some (writeSerialList u ss)) = Err.
Proof. intros u v ss. apply goReadFile_other. Qed.
Print Assumptions C16_wrong_bin_refused.

(** The filter builder reads a concatenation of serial lists (one per expiry
    bin) as exactly these serials, in order, each with the date of its bin; and
    decoding the hex gives the serial back. *)
Theorem C16_rust_roundtrip : forall l : list (Z * list bytes),
  (forall u ss, In (u, ss) l -> (0 <= u < 2 ^ 63)%Z) ->
  exists out, rustReadKnown (flat_map (fun p => writeSerialList (fst p) (snd p)) l) = Ok out /\
    map (fun p => (fst p, hexDecode (snd p))) out =
    flat_map (fun p => map (fun s => (Z.to_N (fst p), Some s)) (snd p)) l.
Proof.
  intros l H. exists (flat_map (fun p => map (fun s => (Z.to_N (fst p), hexEncode s)) (snd p)) l).
  split; [apply rustKnown_lists; exact H|].
  clear H. induction l as [|[u ss] l IH]; cbn [flat_map map fst snd]; [reflexivity|].
  rewrite map_app, IH. f_equal. rewrite map_map. apply map_ext. intros s. cbn [fst snd].
  rewrite hexDecode_encode. reflexivity.
Qed.
Print Assumptions C16_rust_roundtrip.

Example C16_case :
  writeSerialList 1700000000 [ser1; []; ser2] =
    B "@000000006553f100" ++ [nl] ++ B "0102ff" ++ [nl] ++ [nl] ++ B "0102" ++ [nl] /\
  readSerials 1700000000 (Some (writeSerialList 1700000000 [ser1; []; ser2])) = Ok [ser1; []; ser2] /\
  readSerials 1700003600 (Some (writeSerialList 1700000000 [ser1])) = Err /\
  rustReadKnown (writeSerialList 1700000000 [ser1] ++ writeSerialList 1700003600 [ser2; ser1]) =
    Ok [(1700000000%N, B "0102ff"); (1700003600%N, B "0102"); (1700003600%N, B "0102ff")].
Proof. repeat split; vm_compute; reflexivity. Qed.

(** An expiry before 1970 is written with a sign; the Go reader accepts it, the
    filter builder panics. *)
Theorem C16_negative_expiry_refuted : exists u ss,
  readSerials u (Some (writeSerialList u ss)) = Ok ss /\
  rustReadKnown (writeSerialList u ss) = Panic.
Proof. exists (-3600)%Z, [ser1]. split; vm_compute; reflexivity. Qed.
Print Assumptions C16_negative_expiry_refuted.

(** ** C17 *)
Local Open Scope Z_scope.

(** The identifier of a certificate's bin parses, to a bin with the same
    identifier, the same date and the same header line. *)
Theorem C17_id_roundtrip : forall t, 0 <= yearOf t <= 9999 ->
  exists e, newExpDate (expID (newExpDateFromTime t)) = Some e /\
    expID e = expID (newExpDateFromTime t) /\
    expUnix e = expUnix (newExpDateFromTime t) /\
    expireTime e = expireTime (newExpDateFromTime t).
Proof.
  intros t H. rewrite (newExpDate_hourID t H).
  exists (mkExp (truncHour t) (truncHour t + nsHour - nsMilli) true). split; [reflexivity|].
  split; [reflexivity|]. split; reflexivity.
Qed.
Print Assumptions C17_id_roundtrip.

(** Also for bins named by a day (the older layout). *)
Theorem C17_day_id_roundtrip : forall t, 0 <= yearOf t <= 9999 ->
  exists e, newExpDate (formatDay t) = Some e /\ expID e = formatDay t /\
    ed_date e <= t < ed_date e + nsDay.
Proof.
  intros t H. rewrite (newExpDate_dayID t H).
  exists (mkExp (t / nsDay * nsDay) (t / nsDay * nsDay + nsDay - nsMilli) false).
  split; [reflexivity|]. unfold expID. cbn [ed_hour ed_date].
  split; [|unfold nsDay, nsHour, nsSecond; lia].
  unfold formatDay. rewrite Z.div_mul by discriminate. reflexivity.
Qed.
Print Assumptions C17_day_id_roundtrip.

(** Two certificates share a bin exactly if they expire in the same hour. *)
Theorem C17_same_bin_iff_same_hour : forall t u,
  0 <= yearOf t <= 9999 -> 0 <= yearOf u <= 9999 ->
  (expID (newExpDateFromTime t) = expID (newExpDateFromTime u) <-> t / nsHour = u / nsHour).
Proof.
  intros t u Ht Hu.
  assert (Q : truncHour t = truncHour u <-> t / nsHour = u / nsHour)
    by (unfold truncHour, nsHour, nsSecond; lia).
  rewrite <- Q. split; intros E.
  - assert (X : newExpDate (expID (newExpDateFromTime t)) = newExpDate (expID (newExpDateFromTime u)))
      by (rewrite E; reflexivity).
    rewrite !newExpDate_hourID in X by assumption. congruence.
  - unfold newExpDateFromTime. rewrite E. reflexivity.
Qed.
Print Assumptions C17_same_bin_iff_same_hour.

(** A certificate that has not expired (its NotAfter, a whole second, is at or
    after [now]) is never in a bin that counts as expired, once the bin was
    read back from its identifier, with either layout. *)
Theorem C17_valid_cert_bin_not_expired : forall notAfter now,
  notAfter mod nsSecond = 0 -> 0 <= yearOf notAfter <= 9999 -> now <= notAfter ->
  (exists e, newExpDate (expID (newExpDateFromTime notAfter)) = Some e /\ isExpiredAt e now = false) /\
  (exists e, newExpDate (formatDay notAfter) = Some e /\ isExpiredAt e now = false).
Proof.
  intros t now W H L. rewrite (newExpDate_hourID t H), (newExpDate_dayID t H). split.
  - eexists. split; [reflexivity|]. unfold isExpiredAt. cbn [ed_lastGood].
    unfold truncHour, nsHour, nsSecond, nsMilli in *. lia.
  - eexists. split; [reflexivity|]. unfold isExpiredAt. cbn [ed_lastGood].
    unfold nsDay, nsHour, nsSecond, nsMilli in *. lia.
Qed.
Print Assumptions C17_valid_cert_bin_not_expired.

(** And a bin counts as expired at most an hour after its last certificate. *)
Theorem C17_expired_bin_is_over : forall notAfter now,
  0 <= yearOf notAfter <= 9999 -> notAfter + nsHour <= now ->
  exists e, newExpDate (expID (newExpDateFromTime notAfter)) = Some e /\ isExpiredAt e now = true.
Proof.
  intros t now H L. rewrite (newExpDate_hourID t H). eexists. split; [reflexivity|].
  unfold isExpiredAt. cbn [ed_lastGood]. unfold truncHour, nsHour, nsSecond, nsMilli in *. lia.
Qed.
Print Assumptions C17_expired_bin_is_over.

(** Exactly when: from the first instant after the hour's last millisecond. *)
Theorem C17_expired_iff : forall notAfter now, 0 <= yearOf notAfter <= 9999 ->
  exists e, newExpDate (expID (newExpDateFromTime notAfter)) = Some e /\
    (isExpiredAt e now = true <-> notAfter / nsHour * nsHour + nsHour - nsMilli < now).
Proof.
  intros t now H. rewrite (newExpDate_hourID t H). eexists. split; [reflexivity|].
  unfold isExpiredAt. cbn [ed_lastGood]. rewrite Z.ltb_lt.
  pose proof (Z.div_mod t nsHour ltac:(discriminate)) as D. unfold truncHour.
  generalize dependent (t / nsHour). intros q D. lia.
Qed.
Print Assumptions C17_expired_iff.

(** 2024-02-29 23:59:59 UTC. *)
Definition leapEnd : Z := 1709251199 * nsSecond.
Example C17_case :
  leapEnd mod nsSecond = 0 /\ yearOf leapEnd = 2024 /\
  expID (newExpDateFromTime leapEnd) = B "2024-02-29-23" /\ formatDay leapEnd = B "2024-02-29" /\
  (exists e, newExpDate (B "2024-02-29-23") = Some e /\
     isExpiredAt e leapEnd = false /\ isExpiredAt e (leapEnd + nsSecond) = true) /\
  newExpDate (B "2023-02-29") = None /\ newExpDate (B "2024-02-29-24") = None.
Proof.
  split; [vm_compute; reflexivity|]. split; [vm_compute; reflexivity|].
  split; [vm_compute; reflexivity|]. split; [vm_compute; reflexivity|].
  split; [|split; vm_compute; reflexivity].
  eexists. split; [vm_compute; reflexivity|]. split; vm_compute; reflexivity.
Qed.

(** Not so for the bin as first built from the certificate: its last good
    instant, and the eviction time given to the cache, come before the
    certificate's own expiry. *)
Theorem C17_unparsed_bin_refuted : exists notAfter now,
  notAfter mod nsSecond = 0 /\ yearOf notAfter = 2024 /\ now <= notAfter /\
  isExpiredAt (newExpDateFromTime notAfter) now = true /\
  expireTime (newExpDateFromTime notAfter) < now.
Proof.
  exists leapEnd, (leapEnd - nsSecond). repeat split; vm_compute; (reflexivity || discriminate).
Qed.
Print Assumptions C17_unparsed_bin_refuted.
