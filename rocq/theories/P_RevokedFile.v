(** * C39: the files of revoked serials as the filter builder reads them *)
From Verif Require Import Base MerkleModel SerialModel SerialProofs Base64 Base64Spec AggModel FilterModel FilterProofs P_SerialFile P_Filter.
From Coq Require Import Strings.Byte.

(** ** Specification *)

(** The reason for a code: the one of RFC 5280, or "unspecified" for other codes. *)
Definition reasonFor (n : N) (r : reason) : Prop :=
  reasonCode r = n \/ (r = Unspecified /\ forall q, reasonCode q <> n).
(** Two characters of a line are the code, in hexadecimal, what is left is the serial,
    as it stands.  Lines whose code is not selected are dropped. *)
Inductive chosen (set : reasonSet) : list bytes -> list (bytes * reason) -> Prop :=
| ChNil : chosen set [] []
| ChTake a b t n r ls out : dateText [a; b] n -> reasonFor n r -> selected set n -> chosen set ls out ->
    chosen set ((a :: b :: t) :: ls) ((t, r) :: out)
| ChDrop a b t n ls out : dateText [a; b] n -> ~ selected set n -> chosen set ls out ->
    chosen set ((a :: b :: t) :: ls) out.

(** ** Proofs *)

Lemma reasonFor_spec n r : reasonFor n r <-> reasonOfCode n = r.
Proof.
  assert (X : reasonCode (reasonOfCode n) = n \/ (reasonOfCode n = Unspecified /\ forall q, reasonCode q <> n)).
  { destruct (N.le_gt_cases 11 n) as [G|L].
    - right. split; [destruct n as [|p]; [reflexivity|]; do 4 (destruct p as [p|p|]; try reflexivity; try lia)|]. intros []; cbn; lia.
    - assert (C : (n = 0 \/ n = 1 \/ n = 2 \/ n = 3 \/ n = 4 \/ n = 5 \/ n = 6 \/ n = 7 \/ n = 8 \/ n = 9 \/ n = 10)%N) by lia.
      repeat (destruct C as [->|C]; [first [left; reflexivity|right; split; [reflexivity|intros []; discriminate]]|]). subst n. left. reflexivity. }
  unfold reasonFor. split.
  - intros [<-|[-> N]]; [destruct r; reflexivity|]. destruct X as [X|[X _]]; [contradiction (N _ X)|exact X].
  - intros <-. exact X.
Qed.
Lemma rustRevoked_chosen set : forall ls out, rustRevoked set ls = Ok out <-> chosen set ls out.
Proof.
  induction ls as [|l ls IH]; intros out; cbn [rustRevoked].
  { split; [intros [= <-]; constructor|]. intros H. inversion H. reflexivity. }
  destruct l as [|a [|b t]]; [split; [discriminate|intros H; inversion H]|split; [discriminate|intros H; inversion H]|].
  cbn [length Nat.ltb Nat.leb firstn skipn]. unfold decodeReason. split.
  - intros H. destruct (fromStrRadix16 [a; b]) as [n|] eqn:R; [|discriminate H]. cbn [orPanic bind] in H. apply radix_date in R.
    destruct (rustRevoked set ls) as [rest| |]; try discriminate H. cbn [bind] in H. assert (E : chosen set ls rest) by (apply IH; reflexivity).
    destruct (skipReason set (reasonOfCode n)) eqn:S; injection H as <-.
    + apply ChDrop with n; [exact R| |exact E]. intros Q. apply skip_selected in Q. congruence.
    + apply ChTake with n; [exact R|apply reasonFor_spec; reflexivity|apply skip_selected; exact S|exact E].
  - intros H. inversion H as [|a' b' t' n r ls' out' D F Q C|a' b' t' n ls' out' D Q C]; subst; apply radix_date in D; rewrite D; cbn [orPanic bind]; apply IH in C; rewrite C; cbn [bind].
    + apply reasonFor_spec in F. rewrite F. apply skip_selected in Q. rewrite F in Q. rewrite Q. reflexivity.
    + destruct (skipReason set (reasonOfCode n)) eqn:S; [reflexivity|]. apply skip_selected in S. contradiction.
Qed.
Lemma rustRevoked_noErr set : forall ls, rustRevoked set ls <> Err.
Proof.
  induction ls as [|l ls IH]; cbn [rustRevoked]; [discriminate|]. destruct (length l <? 2)%nat; [discriminate|]. unfold decodeReason.
  destruct (fromStrRadix16 (firstn 2 l)); [|discriminate]. cbn [orPanic bind]. destruct (rustRevoked set ls); [discriminate|contradiction IH; reflexivity|discriminate].
Qed.

(** The files that the filter builder accepts as lists of revoked certificates, and what
    it reads: lines of either ending, each with two characters that are a number in
    hexadecimal.  Any other file makes it panic. *)
Theorem C39_reads_exactly : forall set data out,
  (rustReadRevoked set data = Ok out <-> exists ls, linesOf ls data /\ chosen set ls out) /\
  (rustReadRevoked set data = Panic <-> ~ exists ls o, linesOf ls data /\ chosen set ls o).
Proof.
  intros set data out. unfold rustReadRevoked.
  assert (X : forall o, rustRevoked set (rustLines [] data) = Ok o <-> exists ls, linesOf ls data /\ chosen set ls o).
  { intros o. rewrite rustRevoked_chosen. split.
    - intros H. exists (rustLines [] data). split; [apply linesOf_lines|exact H].
    - intros [ls [L H]]. rewrite (lines_linesOf _ _ L). exact H. }
  split; [apply X|]. split.
  - intros P [ls [o H]]. assert (Y : rustRevoked set (rustLines [] data) = Ok o) by (apply X; exists ls; exact H). congruence.
  - intros N. destruct (rustRevoked set (rustLines [] data)) as [o| |] eqn:E; [|contradiction (rustRevoked_noErr _ _ E)|reflexivity].
    exfalso. apply N. destruct (proj1 (X o) eq_refl) as [ls H]. exists ls, o. exact H.
Qed.
Print Assumptions C39_reads_exactly.
Example C39_reads_case :
  rustReadRevoked RSpecified (B "+1zz" ++ [cr; nl] ++ B "07aa" ++ [nl] ++ B "0A" ++ [nl] ++ B "040b" ++ [cr]) = Ok [(B "zz", KeyCompromise); ([], AACompromise); (B "0b" ++ [cr], Superseded)] /\
  rustReadRevoked RPriority (B "010a" ++ [nl; nl]) = Panic /\ rustReadRevoked RPriority (B "0x0a") = Panic.
Proof. vm_compute. auto. Qed.

(** ** Files whose writing was broken off *)

Lemma line_cons s c : revokedLine (s, c) = hexEncode (byteOf c :: s) ++ [nl].
Proof. change (revokedLine (s, c)) with (hexEncode [byteOf c] ++ hexEncode s ++ [nl]). unfold hexEncode. cbn [flat_map]. rewrite app_nil_r, <- !app_assoc. reflexivity. Qed.
Lemma revoked_cons set s c ls : rustRevoked set (hexEncode (byteOf c :: s) :: ls) =
  bind (rustRevoked set ls) (fun rest => Ok (if skipReason set (reasonOfCode (c mod 256)) then rest else (hexEncode s, reasonOfCode (c mod 256)) :: rest)).
Proof.
  cbn [rustRevoked]. replace (length (hexEncode (byteOf c :: s)) <? 2)%nat with false by (symmetry; apply Nat.ltb_ge; rewrite hexEncode_length; cbn [length]; lia).
  assert (E : hexEncode (byteOf c :: s) = hexByte (byteOf c) ++ hexEncode s) by reflexivity. assert (L : length (hexByte (byteOf c)) = 2%nat) by reflexivity.
  rewrite E, (firstn_app_exact _ _ 2 L), (skipn_app_exact _ _ 2 L). unfold decodeReason. rewrite radix_hexByte. cbn [orPanic bind]. rewrite to_N_byteOf. reflexivity.
Qed.

(** Of a file whose writing was broken off, the builder panics or reads what a file of
    the first entries holds, and at most one entry more, the beginning of the next. *)
Theorem C39_torn : forall set l k out, rustReadRevoked set (firstn k (revokedFile l)) = Ok out ->
  exists n whole, rustReadRevoked set (revokedFile (firstn n l)) = Ok whole /\
    (out = whole \/ exists s c r j, nth_error l n = Some (s, c) /\ selected set (c mod 256) /\ reasonFor (c mod 256) r /\
       out = whole ++ [(firstn j (hexEncode s), r)]).
Proof.
  intros set. unfold rustReadRevoked. induction l as [|[s c] l IH]; intros k out H.
  { unfold revokedFile in H. cbn [flat_map] in H. rewrite firstn_nil in H. injection H as <-. exists 0%nat, []. split; [reflexivity|]. left; reflexivity. }
  unfold revokedFile in H. cbn [flat_map] in H. rewrite line_cons in H. fold (revokedFile l) in H.
  destruct (le_lt_dec (length (hexEncode (byteOf c :: s)) + 1) k) as [LE|LT].
  - rewrite firstn_app in H. rewrite firstn_all2 in H by (rewrite app_length; cbn [length]; lia). rewrite <- app_assoc, rustLines_line, dropCR_id in H by apply hexEncode_clean.
    rewrite revoked_cons in H. destruct (rustRevoked set _) as [rest| |] eqn:E in H; try discriminate H. cbn [bind] in H. injection H as H.
    destruct (IH _ _ E) as (n & whole & W & O). exists (S n), (if skipReason set (reasonOfCode (c mod 256)) then whole else (hexEncode s, reasonOfCode (c mod 256)) :: whole). split.
    + cbn [firstn]. unfold revokedFile. cbn [flat_map]. rewrite line_cons. rewrite <- app_assoc, rustLines_line, dropCR_id by apply hexEncode_clean. rewrite revoked_cons.
      fold (revokedFile (firstn n l)). rewrite W. reflexivity.
    + cbn [nth_error]. destruct O as [->|(s' & c' & r & j & N & Q & F & ->)]; [left; auto|right]. exists s', c', r, j. split; [exact N|]. split; [exact Q|]. split; [exact F|].
      rewrite <- H. destruct (skipReason _ _); reflexivity.
  - exists 0%nat, []. split; [reflexivity|]. rewrite <- app_assoc, firstn_app in H. replace (k - length (hexEncode (byteOf c :: s)))%nat with 0%nat in H by lia. cbn [firstn] in H. rewrite app_nil_r in H.
    rewrite rustLines_last in H by apply (clean_firstn k _ (hexEncode_clean _)). cbn [rev app] in H.
    assert (E : hexEncode (byteOf c :: s) = hexByte (byteOf c) ++ hexEncode s) by reflexivity. assert (L : length (hexByte (byteOf c)) = 2%nat) by reflexivity.
    destruct k as [|[|k]]; [left; injection H as <-; reflexivity|discriminate H|].
    assert (F : firstn (S (S k)) (hexEncode (byteOf c :: s)) = hexByte (byteOf c) ++ firstn k (hexEncode s)) by reflexivity. rewrite F in H.
    assert (M : forall u v : bytes, length u = 2%nat -> match u ++ v with [] => [] | b :: l0 => [b :: l0] end = [u ++ v]) by (intros [|x u] v X; [discriminate X|reflexivity]).
    rewrite (M _ _ L) in H.
    cbn [rustRevoked] in H. replace (length (hexByte (byteOf c) ++ firstn k (hexEncode s)) <? 2)%nat with false in H by reflexivity.
    rewrite (firstn_app_exact _ _ 2 L), (skipn_app_exact _ _ 2 L) in H. unfold decodeReason in H. rewrite radix_hexByte in H. cbn [orPanic bind] in H. rewrite to_N_byteOf in H.
    destruct (skipReason set (reasonOfCode (c mod 256))) eqn:S; injection H as <-; [left; reflexivity|right]. exists s, c, (reasonOfCode (c mod 256)), k.
    split; [reflexivity|]. split; [apply skip_selected; exact S|]. split; [apply reasonFor_spec; reflexivity|reflexivity].
Qed.
Print Assumptions C39_torn.
(** The beginning of a serial can be the serial of another certificate, which then
    counts as revoked although no issuer said so. *)
Theorem C39_torn_refuted : exists l k out s, rustReadRevoked RAll (firstn k (revokedFile l)) = Ok out /\
  In (hexEncode s) (map fst out) /\ (forall c, ~ In (s, c) l) /\ (exists s' c, In (s', c) l /\ ~ In (hexEncode s') (map fst out)).
Proof.
  exists [([x01; x02], 1%N); ([x0a; x0b], 4%N)], 11%nat, [(B "0102", KeyCompromise); (B "0a", Superseded)], [x0a].
  split; [vm_compute; reflexivity|]. split; [right; left; reflexivity|]. split; [intros c [E|[E|[]]]; discriminate E|].
  exists [x0a; x0b], 4%N. split; [right; left; reflexivity|]. intros [E|[E|[]]]; discriminate E.
Qed.
Print Assumptions C39_torn_refuted.

(** ** C38 with the files themselves *)

(** A file name that stands for the issuer [i]; the padding may be missing. *)
Definition names (name i : bytes) : Prop :=
  length i = 32%nat /\ (b64Text urlAlphabet i name \/ b64Text urlAlphabet i (name ++ B "=")).
(** The serials, as text, of the selected lines of a file of revoked serials; there may be none. *)
Definition revokedTexts (set : reasonSet) (file : option bytes) (ts : list bytes) : Prop :=
  match file with
  | None => ts = []
  | Some data => exists ls out, linesOf ls data /\ chosen set ls out /\ ts = map fst out
  end.

(** Whatever the directories contain and the filter libraries return: if the builder writes a
    filter, then every name is that of an issuer, every file is well formed, and the filter as it
    is read back answers each line of a known file according to the lines of the revoked file. *)
Theorem C38_checked_line_by_line : forall F has buildCascade buildClubcard fromBytes t st revoked known set data,
  create F has buildCascade buildClubcard fromBytes t st revoked known set = Ok (Some data) ->
  exists f, fromBytes data = Ok (Some f) /\
    forall name k, In (name, k) known -> exists i ts ls kn,
      names name i /\ revokedTexts set (alookup name revoked) ts /\ linesOf ls k /\ dated 0 ls kn /\
      forall u s, In (u, s) kn -> exists b, spells b s /\ (has f (i ++ b) = true <-> In s ts).
Proof.
  intros F has bc bl fb t st revoked known set data H. apply C38_written_filter_is_checked in H. destruct H as [f [P H]].
  exists f. split; [exact P|]. intros name k I. destruct (H name k I) as (i & rv & kn & D & R & K & Q).
  apply C16_rust_reads_exactly in K. destruct K as [ls [L K]]. exists i, (map fst rv), ls, kn.
  split; [|split; [|split; [exact L|split; [exact K|]]]].
  - apply decode_issuer_spec in D. destruct D as [D1 D2]. split; [exact D1|].
    pose proof (b64encode_text _ url_good i) as T. destruct D2 as [D2|D2]; rewrite <- D2 in T; [left|right]; exact T.
  - unfold readRevoked in R. unfold revokedTexts. destruct (alookup name revoked) as [d|]; [|assert (rv = []) by congruence; subst; reflexivity].
    apply C39_reads_exactly in R. destruct R as [l2 [L2 C]]. exists l2, rv. auto.
  - intros u s J. destruct (Q u s J) as [b [E X]]. exists b. split; [apply spells_decode; exact E|exact X].
Qed.
Print Assumptions C38_checked_line_by_line.

(** A file name without padding, and a list of revoked serials with other line ends *)
Example C38_checked_example :
  let name := firstn 43 (b64encode urlAlphabet dA) in
  names name dA /\
  create (list bytes) (fun f k => memb k f) (fun _ _ _ _ => None) (fun ins _ => Some (B "x")) (fun _ => Ok (Some [dA ++ B "2"]))
    Clubcard zeroStats [(name, B "0132" ++ [cr; nl] ++ B "0433")] [(name, B "@0000000065f5e100" ++ [nl] ++ B "32" ++ [nl] ++ B "33" ++ [nl])] RPriority
  = Ok (Some (B "x")).
Proof.
  cbv zeta. split; [|vm_compute; reflexivity]. split; [reflexivity|right]. apply (b64decode_spec _ url_good). vm_compute. reflexivity.
Qed.
