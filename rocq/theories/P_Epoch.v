(** * C80: the epoch file, the epoch in Redis, and what a failed write does to them *)
From Verif Require Import Base SerialModel SerialProofs QueryModel PublishModel TextProofs P_RunIds JsonTime EpochModel.
From Verif Require CommitModel.
From Coq Require Import Strings.Byte.
Local Open Scope N_scope.

(** ** Specification *)

(** A text of digits, and the number it is, below 2^64. *)
Definition number (s : bytes) (n : N) : Prop := s <> [] /\ forallb isDigit s = true /\ valueOf s = n /\ n < 2 ^ 64.
(** A file whose first line is [l]: the line ends with a newline or with the file. *)
Definition firstLine (data l : bytes) : Prop := ~ In nl l /\ (data = l /\ l <> [] \/ exists rest, data = l ++ nl :: rest).
(** The epoch a file stands for.  A file that is missing or empty stands for nought. *)
Definition fileSays (file : option bytes) (n : N) : Prop :=
  file = None /\ n = 0 \/ file = Some [] /\ n = 0 \/
  exists data l s, file = Some data /\ firstLine data l /\ N.of_nat (length l) < 65536 /\ number s n /\ (l = s \/ l = s ++ [cr]).
(** The number Redis holds. *)
Definition cacheSays (v : option bytes) (n : N) : Prop := v = None /\ n = 0 \/ exists s, v = Some s /\ number s n.

(** ** Reading *)

Lemma parse_spec s n : parseU64 s = Some n <-> number s n.
Proof.
  unfold parseU64, number, valueOf. destruct s as [|c s]; [split; [discriminate|intros [H _]; contradiction H; reflexivity]|].
  destruct (decFrom 0 (c :: s)) as [k|] eqn:E.
  - apply dec_value in E. destruct E as [D V]. destruct (N.ltb_spec k (2 ^ 64)) as [L|L].
    + split; [intros H; injection H as <-; repeat split; [discriminate|exact D|symmetry; exact V|exact L]|]. intros (_ & _ & W & _). congruence.
    + split; [discriminate|]. intros (_ & _ & W & X). rewrite W in V. lia.
  - split; [discriminate|]. intros (_ & D & W & _).
    assert (X : decFrom 0 (c :: s) = Some n) by (apply dec_value; split; [exact D|symmetry; exact W]). congruence.
Qed.
Lemma digit_not c s d : forallb isDigit s = true -> isDigit d = false -> c = d -> ~ In c s.
Proof. intros F D -> I. rewrite forallb_forall in F. specialize (F _ I). congruence. Qed.
Lemma cr_or l s : ~ In cr s -> (dropCR l = s <-> l = s /\ dropCR l = l \/ l = s ++ [cr]).
Proof.
  intros NI. unfold dropCR. destruct (rev l) as [|c r] eqn:E.
  - split; [intros ->; auto|]. intros [[-> _]| ->]; [reflexivity|]. rewrite rev_app_distr in E. discriminate E.
  - assert (L : l = rev r ++ [c]) by (rewrite <- (rev_involutive l), E; reflexivity). destruct (Byte.eqb c cr) eqn:X.
    + apply Byte.byte_dec_bl in X. subst c. split; [intros <-; right; exact L|]. intros [[-> _]|H].
      * exfalso. apply NI. rewrite L. apply in_or_app. right. left. reflexivity.
      * rewrite H in L. apply app_inj_tail in L. symmetry. apply L.
    + split; [intros <-; auto|]. intros [[-> _]|H]; [reflexivity|]. exfalso. rewrite H in L. apply app_inj_tail in L. destruct L as [_ <-].
      rewrite (Byte.byte_dec_lb eq_refl) in X. discriminate X.
Qed.
Lemma number_dropCR l n : number (dropCR l) n <-> exists s, number s n /\ (l = s \/ l = s ++ [cr]).
Proof.
  split.
  - intros H. exists (dropCR l). split; [exact H|]. destruct H as (_ & D & _). assert (NI : ~ In cr (dropCR l)) by (eapply digit_not; [exact D| |reflexivity]; reflexivity).
    destruct (proj1 (cr_or l _ NI) eq_refl) as [[E _]|E]; [left|right]; exact E.
  - intros (s & H & O). assert (NI : ~ In cr s) by (destruct H as (_ & D & _); eapply digit_not; [exact D| |reflexivity]; reflexivity).
    replace (dropCR l) with s; [exact H|]. symmetry. apply (cr_or l s NI). destruct O as [->| ->]; [left; split; [reflexivity|apply dropCR_id; exact NI]|right; reflexivity].
Qed.

(** What is read from the storage is the number its epoch file stands for, and there is an
    error if it stands for none. *)
Theorem C80_reads_file : forall file n, storageEpoch file = Some n <-> fileSays file n.
Proof.
  intros file n. unfold storageEpoch, fileSays. destruct file as [data|].
  2:{ split; [intros H; left; split; congruence|]. intros [[_ ->]|[[F _]|(d & l & s & F & _)]]; [reflexivity|discriminate F|discriminate F]. }
  assert (FL : forall l, firstLine data l <-> exists ls, splitLines [] data = l :: ls).
  { intros l. destruct (in_dec byte_eq_dec nl data) as [I|NI].
    - destruct (splitLines_cons data I) as (l0 & rest & E & NL & S). rewrite S. split.
      + intros [NIl [[-> _]|[r E2]]]; [contradiction|]. exists (splitLines [] rest). f_equal. rewrite E in E2.
        clear - E2 NL NIl. revert l E2 NIl. induction l0 as [|c l0 IH]; intros [|d l] E2 NIl; [reflexivity| | |].
        * cbn [app] in E2. injection E2 as F _. exfalso. apply NIl. left. symmetry. exact F.
        * cbn [app] in E2. injection E2 as F _. exfalso. apply NL. left. exact F.
        * cbn [app] in E2. injection E2 as -> E2. f_equal. apply IH; [|exact E2|]; intros J; [apply NL|apply NIl]; right; exact J.
      + intros [ls H]. injection H as <- _. split; [exact NL|]. right. exists rest. exact E.
    - rewrite splitLines_head by exact NI. cbn [rev app]. destruct data as [|c d].
      + split; [|intros [ls H]; discriminate H]. intros [_ [[<- H]|[r E]]]; [contradiction H; reflexivity|destruct l; discriminate E].
      + split.
        * intros [NIl [[<- _]|[r E]]]; [exists []; reflexivity|]. exfalso. apply NI. rewrite E. apply in_or_app. right. left. reflexivity.
        * intros [ls H]. injection H as <- _. split; [exact NI|]. left. split; [reflexivity|discriminate]. }
  destruct (splitLines [] data) as [|l ls] eqn:E.
  - assert (D : data = []). { destruct data as [|c d]; [reflexivity|]. exfalso. destruct (in_dec byte_eq_dec nl (c :: d)) as [I|NI].
      - destruct (splitLines_cons _ I) as (l0 & rest & _ & _ & S). pose proof (eq_trans (eq_sym E) S) as F. discriminate F.
      - rewrite splitLines_head in E by exact NI. discriminate E. }
    subst data. split; [intros H; right; left; split; [reflexivity|congruence]|]. intros [[F _]|[[_ ->]|(d & l & s & F & L & _)]]; [discriminate F|reflexivity|].
    injection F as <-. apply FL in L. destruct L as [ls L]. discriminate L.
  - assert (L : firstLine data l) by (apply FL; exists ls; reflexivity). unfold tooLong, maxToken. split.
    + intros H. right. right. exists data, l. destruct (N.leb_spec 65536 (N.of_nat (length l))) as [B0|B0]; [discriminate H|].
      apply parse_spec, number_dropCR in H. destruct H as (s & S1 & S2). exists s. auto.
    + intros [[F _]|[[F _]|(d & l1 & s & F & L1 & B0 & S1 & S2)]]; [discriminate F| |].
      * injection F as ->. discriminate E.
      * injection F as <-. apply FL in L1. destruct L1 as [ls1 L1]. injection L1 as <- <-.
        destruct (N.leb_spec 65536 (N.of_nat (length l))) as [B1|B1]; [lia|]. apply parse_spec, number_dropCR. exists s. auto.
Qed.
Print Assumptions C80_reads_file.

Theorem C80_reads_cache : forall v n, cacheEpoch v = Some n <-> cacheSays v n.
Proof.
  intros v n.
  unfold cacheEpoch, cacheSays. destruct v as [s|].
  - rewrite parse_spec. split; [intros H; right; exists s; auto|]. intros [[F _]|(s0 & F & H)]; [discriminate F|]. injection F as <-. exact H.
  - split; [intros H; left; split; congruence|]. intros [[_ ->]|(s0 & F & _)]; [reflexivity|discriminate F].
Qed.
Print Assumptions C80_reads_cache.

(** ** Writing *)

Lemma decText_number n : n < 2 ^ 64 -> number (decText n) n.
Proof. intros H. destruct (decText_spec n) as (A & B0 & C & _). repeat split; assumption. Qed.
Lemma decText_short n : n < 2 ^ 64 -> (length (decText n) <= 20)%nat.
Proof. intros H. destruct (decText_spec n) as (_ & _ & _ & K). apply K; [lia|]. apply (N.lt_trans _ _ _ H). reflexivity. Qed.
Lemma decText_head n : exists c r, decText n = c :: r /\ isDigit c = true /\ (c = "0"%byte -> n = 0 /\ r = []).
Proof.
  destruct (decText_spec n) as (A & V & NE & K). destruct (decText n) as [|c r]; [contradiction NE; reflexivity|]. exists c, r.
  split; [reflexivity|]. cbn [forallb] in A. apply andb_true_iff in A. destruct A as [A1 A2]. split; [exact A1|]. intros ->.
  change ("0"%byte :: r) with (["0"%byte] ++ r) in V. rewrite valueOf_app in V. change (valueOf ["0"%byte]) with 0 in V. rewrite N.mul_0_l, N.add_0_l in V.
  pose proof (valueOf_lt r A2) as B0. rewrite V in B0. destruct r as [|d r].
  - split; [|reflexivity]. cbn in B0. lia.
  - specialize (K (length (d :: r)) ltac:(cbn [length]; lia) B0). cbn [length] in K. lia.
Qed.
Lemma redis_read n : redisInt (decText n) = if n <? 2 ^ 63 then Some (Z.of_N n) else None.
Proof.
  destruct (decText_head n) as (c & r & E & D & Z0). destruct (decText_spec n) as (A & V & _ & _). unfold redisInt. rewrite E.
  destruct (Byte.eqb c "-") eqn:M; [apply Byte.byte_dec_bl in M; subst c; discriminate D|]. destruct (Byte.eqb c "0") eqn:Z1.
  - apply Byte.byte_dec_bl in Z1. destruct (Z0 Z1) as [-> ->]. reflexivity.
  - rewrite <- E. rewrite (proj2 (dec_value (decText n) 0 n)); [|split; [exact A|symmetry; exact V]].
    destruct (Z.ltb_spec (Z.of_N n) (2 ^ 63)); destruct (N.ltb_spec n (2 ^ 63)); try reflexivity; exfalso; lia.
Qed.
(** The value in Redis is the number as the code writes it. *)
Definition holds (v : option bytes) (n : N) : Prop := v = None /\ n = 0 \/ v = Some (decText n).
Lemma incr_spec v n : holds v n -> incr v = if n <? 2 ^ 63 - 1 then Some (decText (n + 1)) else None.
Proof.
  intros H. unfold incr. assert (X : match v with None => Some 0%Z | Some s => redisInt s end = if n <? 2 ^ 63 then Some (Z.of_N n) else None).
  { destruct H as [[-> ->]| ->]; [reflexivity|apply redis_read]. }
  rewrite X. destruct (N.ltb_spec n (2 ^ 63)) as [L|L].
  - destruct (Z.eqb_spec (Z.of_N n) (2 ^ 63 - 1)) as [E|E]; destruct (N.ltb_spec n (2 ^ 63 - 1)) as [M|M]; try reflexivity; try (exfalso; lia).
    unfold intText. destruct (Z.ltb_spec (Z.of_N n + 1) 0); [lia|]. do 2 f_equal. lia.
  - destruct (N.ltb_spec n (2 ^ 63 - 1)); [lia|reflexivity].
Qed.
Lemma holds_says v n : n < 2 ^ 64 -> holds v n -> cacheEpoch v = Some n.
Proof. intros B0 [[-> ->]| ->]; [reflexivity|]. apply C80_reads_cache. right. exists (decText n). split; [reflexivity|apply decText_number; exact B0]. Qed.

(** The epoch that a commit writes is the epoch that is read from the file, for every
    64-bit number. *)
Theorem C80_file : forall e, e < 2 ^ 64 -> storageEpoch (Some (decText e ++ [nl])) = Some e.
Proof.
  intros e H. apply C80_reads_file. right. right. exists (decText e ++ [nl]), (decText e), (decText e). split; [reflexivity|].
  split; [|split; [|split; [apply decText_number; exact H|left; reflexivity]]].
  - split; [|right; exists []; reflexivity]. destruct (decText_spec e) as (A & _). eapply digit_not; [exact A| |reflexivity]; reflexivity.
  - pose proof (decText_short e H) as L. unfold bytes in *. lia.
Qed.
Print Assumptions C80_file.
Example C80_ex_file : storageEpoch (Some (B "1207" ++ [nl])) = Some 1207 /\ storageEpoch (Some (B "12x7" ++ [nl])) = None /\
  storageEpoch (Some [nl]) = None /\ storageEpoch (Some (B "18446744073709551616")) = None.
Proof. vm_compute. auto. Qed.

(** ** A line that is cut short *)
Lemma cut_value e k : e < 2 ^ 64 -> exists n, storageEpoch (Some (firstn k (decText e ++ [nl]))) = Some n /\ n <= e /\
  (n = e -> e <> 0 -> (length (decText e) <= k)%nat).
Proof.
  intros H. destruct (Nat.le_gt_cases (length (decText e)) k) as [L|L].
  - exists e. split; [|split; [lia|intros; exact L]]. destruct (Nat.eq_dec k (length (decText e))) as [->|NE].
    + rewrite firstn_app, Nat.sub_diag, firstn_all, app_nil_r. apply C80_reads_file. right. right. exists (decText e), (decText e), (decText e).
      destruct (decText_spec e) as (A & _ & NE & _). split; [reflexivity|]. split; [split; [eapply digit_not; [exact A| |reflexivity]; reflexivity|left; auto]|].
      split; [pose proof (decText_short e H); unfold bytes in *; lia|]. split; [apply decText_number; exact H|left; reflexivity].
    + rewrite firstn_all2 by (rewrite app_length; cbn [length]; lia). apply C80_file. exact H.
  - rewrite firstn_app. replace (k - length (decText e))%nat with 0%nat by lia. cbn [firstn]. rewrite app_nil_r.
    destruct (decText_spec e) as (A & V & NE & K). assert (S : decText e = firstn k (decText e) ++ skipn k (decText e)) by (symmetry; apply firstn_skipn).
    set (a := firstn k (decText e)) in *. set (b := skipn k (decText e)) in *.
    assert (LA : length a = k) by (unfold a; apply firstn_length_le; lia).
    assert (LB : (length b = length (decText e) - k)%nat) by (unfold b; apply skipn_length).
    rewrite S in A, V. rewrite forallb_app in A. apply andb_true_iff in A. destruct A as [A1 A2]. rewrite valueOf_app in V.
    assert (P : 10 <= 10 ^ N.of_nat (length b)).
    { destruct (length b) as [|m] eqn:M; [unfold bytes in *; lia|]. rewrite Nat2N.inj_succ, N.pow_succ_r'. pose proof (N.pow_nonzero 10 (N.of_nat m)). lia. }
    destruct a as [|c a'] eqn:Ea.
    + exists 0. split; [reflexivity|]. split; [lia|]. intros Z0 Z1. congruence.
    + rewrite <- Ea in *. clearbody a b. set (w := 10 ^ N.of_nat (length b)) in *. clearbody w. exists (valueOf a). split.
      * apply C80_reads_file. right. right. exists a, a, a. assert (NA : a <> []) by (rewrite Ea; discriminate). split; [reflexivity|].
        split; [split; [eapply digit_not; [exact A1| |reflexivity]; reflexivity|left; auto]|]. split.
        -- pose proof (decText_short e H). unfold bytes in *. lia.
        -- split; [|left; reflexivity]. split; [exact NA|]. split; [exact A1|]. split; [reflexivity|]. nia.
      * split; [nia|]. intros Q Z1. exfalso. nia.
Qed.

(** However much of the line reached the disk, the file can be read, and stands for a smaller
    epoch unless all the digits are there. *)
Theorem C80_cut : forall e k, e < 2 ^ 64 -> exists n, storageEpoch (Some (firstn k (decText e ++ [nl]))) = Some n /\
  (n < e \/ n = e /\ (e = 0 \/ (length (decText e) <= k)%nat)).
Proof.
  intros e k H. destruct (cut_value e k H) as (n & R & L & W). exists n. split; [exact R|].
  destruct (N.eq_dec n e) as [->|NE]; [right; split; [reflexivity|]|left; lia]. destruct (N.eq_dec e 0); [left; assumption|right; apply W; auto].
Qed.
Print Assumptions C80_cut.
Example C80_ex_cut : storageEpoch (Some (firstn 2 (decText 1207 ++ [nl]))) = Some 12 /\ storageEpoch (Some (firstn 0 (decText 1207 ++ [nl]))) = Some 0.
Proof. vm_compute. auto. Qed.

(** ** The value in Redis *)

Inductive op := Next | Restored (n : N) | Flushed.
(** Redis *)
Definition redis (o : op) (v : option bytes) : option bytes :=
  match o with
  | Next => match incr v with Some s => Some s | None => v end
  | Restored n => Some (decText n)
  | Flushed => None
  end.
(** The number it stands for: it counts up to 2^63-1, Redis' greatest integer, and no further. *)
Definition counter (o : op) (n : N) : N :=
  match o with Next => if n <? 2 ^ 63 - 1 then n + 1 else n | Restored m => m | Flushed => 0 end.

Lemma redis_step o v n : holds v n -> holds (redis o v) (counter o n).
Proof.
  intros H. destruct o; cbn [redis counter]; [|right; reflexivity|left; auto]. rewrite (incr_spec v n H).
  destruct (n <? 2 ^ 63 - 1); [right; reflexivity|exact H].
Qed.
(** Over any series of increments, restores and losses the text in Redis stands for what a
    counter would show. *)
Theorem C80_cache : forall ops, (forall n, In (Restored n) ops -> n < 2 ^ 64) ->
  cacheEpoch (fold_left (fun v o => redis o v) ops None) = Some (fold_left (fun n o => counter o n) ops 0).
Proof.
  intros ops H. assert (G : forall l v n, (forall m, In (Restored m) l -> m < 2 ^ 64) -> n < 2 ^ 64 -> holds v n ->
    cacheEpoch (fold_left (fun v o => redis o v) l v) = Some (fold_left (fun n o => counter o n) l n)).
  { induction l as [|o l IH]; intros v n A B0 C; cbn [fold_left]; [apply holds_says; assumption|]. apply IH.
    - intros m I. apply A. right. exact I.
    - destruct o; cbn [counter]; [destruct (N.ltb_spec n (2 ^ 63 - 1)); lia|apply A; left; reflexivity|reflexivity].
    - apply redis_step. exact C. }
  apply G; [exact H|reflexivity|left; auto].
Qed.
Print Assumptions C80_cache.
Example C80_ex_cache : fold_left (fun v o => redis o v) [Next; Next; Restored 99; Next] None = Some (B "100").
Proof. vm_compute. reflexivity. Qed.

(** ** The end of a commit *)

(** Storage and cache belong together: the cache is one ahead, or both are fresh. *)
Definition inStep (cache storage : N) : Prop := cache = storage + 1 \/ cache = 0 /\ storage = 0.

(** The check is CommitModel's, below the greatest 64-bit number. *)
Theorem C80_check : forall c st, st < 2 ^ 64 - 1 -> (together c st = true <-> inStep c st) /\ together c st = CommitModel.inStep c st.
Proof.
  intros c st H. unfold together, inStep, CommitModel.inStep. rewrite N.mod_small by lia. split; [|reflexivity].
  rewrite orb_true_iff, andb_true_iff, !N.eqb_eq. reflexivity.
Qed.
Print Assumptions C80_check.

Lemma admitted_iff s c : admitted s = Some c <-> exists st, storageEpoch (e_file s) = Some st /\ cacheEpoch (e_cache s) = Some c /\ together c st = true.
Proof.
  unfold admitted. destruct (storageEpoch (e_file s)) as [st|]; [|split; [discriminate|intros (x & F & _); discriminate F]].
  destruct (cacheEpoch (e_cache s)) as [d|]; [|split; [discriminate|intros (x & _ & F & _); discriminate F]].
  destruct (together d st) eqn:T; split.
  - intros H. injection H as <-. exists st. auto.
  - intros (x & _ & E & _). exact E.
  - discriminate.
  - intros (x & X & E & T2). congruence.
Qed.

(** What the end of a commit leaves behind. *)
Lemma finish_cases e f s : e < 2 ^ 63 - 1 -> holds (e_cache s) e ->
  let s' := fst (finish e f s) in
  s' = s \/
  (e_cache s' = Some (decText (e + 1)) /\
    (e_file s' = e_file s \/
     e_file s' = Some (decText e ++ [nl]) /\ f_flush f = None \/
     exists k, f_flush f = Some k /\ e_file s' = Some (firstn k (decText e ++ [nl])))).
Proof.
  intros L H s'. unfold s', finish. rewrite (incr_spec _ e H). destruct (N.ltb_spec e (2 ^ 63 - 1)); [|lia].
  destruct (f_temp f); [left; reflexivity|]. destruct (f_next f) as [[]|]; cbn [fst e_cache e_file]; [right; auto|left; reflexivity|].
  destruct (f_replace f) as [[]|]; cbn [fst e_cache e_file]; right; (split; [reflexivity|]); auto;
    (destruct (f_flush f) as [k|]; [right; right; exists k; auto|right; left; auto]).
Qed.

(** Whatever fails at the end of a commit: if the next commit is then admitted, either nothing
    has changed, or the storage is at the epoch of this commit and the cache one ahead. *)
Theorem C80_finish : forall e f s c, e < 2 ^ 63 - 1 -> holds (e_cache s) e -> admitted s = Some e ->
  admitted (fst (finish e f s)) = Some c ->
  fst (finish e f s) = s /\ c = e \/
  c = e + 1 /\ storageEpoch (e_file (fst (finish e f s))) = Some e.
Proof.
  intros e f s c L H A A'. apply admitted_iff in A. destruct A as (st & A1 & A2 & A3). unfold together in A3.
  destruct (finish_cases e f s L H) as [E|[Ec Ef]].
  - left. split; [exact E|]. rewrite E in A'. apply admitted_iff in A'. destruct A' as (x & _ & X & _). congruence.
  - right. set (s' := fst (finish e f s)) in *. clearbody s'. apply admitted_iff in A'. destruct A' as (st' & B1 & B2 & B3).
    rewrite Ec, (holds_says (Some (decText (e + 1))) (e + 1)) in B2 by (try lia; right; reflexivity). assert (C : c = e + 1) by congruence. subst c. split; [reflexivity|].
    assert (N1 : (e + 1 =? 0) = false) by (apply N.eqb_neq; lia).
    unfold together in B3. rewrite N1, andb_false_l, orb_false_r in B3. apply N.eqb_eq in B3.
    assert (BD : st' < 2 ^ 64). { apply C80_reads_file in B1. destruct B1 as [[_ ->]|[[_ ->]|(d & l & t0 & _ & _ & _ & (_ & _ & _ & Q) & _)]]; [reflexivity|reflexivity|exact Q]. }
    assert (ST : st' = e).
    { destruct (N.eq_dec st' (2 ^ 64 - 1)) as [->|NE]; [change ((2 ^ 64 - 1 + 1) mod 2 ^ 64) with 0 in B3; lia|]. rewrite N.mod_small in B3 by lia. lia. }
    rewrite B1, ST. reflexivity.
Qed.
Print Assumptions C80_finish.

(** Without a fault the commit moves both on by one. *)
Theorem C80_done : forall e s, e < 2 ^ 63 - 1 -> holds (e_cache s) e ->
  let r := finish e (mkFaults false None None None) s in
  snd r = true /\ storageEpoch (e_file (fst r)) = Some e /\ cacheEpoch (e_cache (fst r)) = Some (e + 1) /\ admitted (fst r) = Some (e + 1).
Proof.
  intros e s L H. unfold finish. cbn [f_temp f_flush f_next f_replace]. rewrite (incr_spec _ e H). destruct (N.ltb_spec e (2 ^ 63 - 1)); [|lia].
  cbn [fst snd e_file e_cache]. assert (A : storageEpoch (Some (decText e ++ [nl])) = Some e) by (apply C80_file; lia).
  assert (C : cacheEpoch (Some (decText (e + 1))) = Some (e + 1)) by (apply holds_says; [lia|right; reflexivity]).
  split; [reflexivity|]. split; [exact A|]. split; [exact C|]. apply admitted_iff. exists e. cbn [e_file e_cache]. split; [exact A|]. split; [exact C|].
  unfold together. rewrite N.mod_small by lia. rewrite N.eqb_refl. reflexivity.
Qed.
Print Assumptions C80_done.
(** An error is returned only when the replacement of the file failed; the cache has then moved on. *)
Theorem C80_error : forall e f s, e < 2 ^ 63 - 1 -> holds (e_cache s) e -> snd (finish e f s) = false ->
  f_replace f <> None /\ cacheEpoch (e_cache (fst (finish e f s))) = Some (e + 1).
Proof.
  intros e f s L H. unfold finish. rewrite (incr_spec _ e H). destruct (N.ltb_spec e (2 ^ 63 - 1)); [|lia].
  assert (C : cacheEpoch (Some (decText (e + 1))) = Some (e + 1)) by (apply holds_says; [lia|right; reflexivity]).
  destruct (f_temp f); [discriminate|]. destruct (f_next f) as [[]|]; [discriminate|discriminate|].
  destruct (f_replace f) as [[]|]; cbn [fst snd e_cache]; try discriminate; intros _; (split; [discriminate|exact C]).
Qed.
Print Assumptions C80_error.
(** A commit that reports success leaves the next one admitted, unless the line of the file was
    cut by a full disk or Redis raised its epoch and said that it had not. *)
Theorem C80_success : forall e f s, e < 2 ^ 63 - 1 -> holds (e_cache s) e -> admitted s = Some e -> f_flush f = None -> f_next f <> Some true ->
  snd (finish e f s) = true -> exists c, admitted (fst (finish e f s)) = Some c.
Proof.
  intros e f s L H A FF FN. unfold finish. rewrite (incr_spec _ e H), FF. destruct (N.ltb_spec e (2 ^ 63 - 1)); [|lia].
  destruct (f_temp f); [intros _; exists e; exact A|]. destruct (f_next f) as [[]|]; [congruence|intros _; exists e; exact A|].
  destruct (f_replace f) as [[]|]; [discriminate|discriminate|]. intros _. destruct (C80_done e s L H) as [_ [D1 [D2 D3]]]. exists (e + 1).
  unfold finish in D3. cbn [f_temp f_flush f_next f_replace] in D3. rewrite (incr_spec _ e H) in D3. destruct (N.ltb_spec e (2 ^ 63 - 1)); [|lia]. exact D3.
Qed.
Print Assumptions C80_success.
(** The exception for Redis is needed. *)
Theorem C80_lost_answer_refuted : exists e f s, e < 2 ^ 63 - 1 /\ holds (e_cache s) e /\ admitted s = Some e /\ f_flush f = None /\
  snd (finish e f s) = true /\ admitted (fst (finish e f s)) = None.
Proof.
  exists 4, (mkFaults false None (Some true) None), (mkEp (Some (B "3" ++ [nl])) (Some (decText 4))). repeat split; vm_compute; auto.
Qed.
Print Assumptions C80_lost_answer_refuted.

(** ** The next start *)

(** After a start a commit is admitted, the storage is as it was, and the cache is kept if it
    was in step. *)
Theorem C80_restart : forall s st c, fileSays (e_file s) st -> cacheSays (e_cache s) c ->
  exists s', ensure s = Some s' /\ e_file s' = e_file s /\
    (s' = s \/ e_cache s' = Some (decText ((st + 1) mod 2 ^ 64)) /\ admitted s = None) /\
    exists c', admitted s' = Some c' /\ together c' st = true.
Proof.
  intros s st c F C. apply C80_reads_file in F. apply C80_reads_cache in C. unfold ensure. rewrite F, C. destruct (together c st) eqn:T.
  - exists s. split; [reflexivity|]. split; [reflexivity|]. split; [left; reflexivity|]. exists c. split; [|exact T]. apply admitted_iff. exists st. auto.
  - eexists. split; [reflexivity|]. split; [reflexivity|]. split.
    + right. split; [reflexivity|]. unfold admitted. rewrite F, C, T. reflexivity.
    + exists ((st + 1) mod 2 ^ 64). assert (T2 : together ((st + 1) mod 2 ^ 64) st = true) by (unfold together; rewrite N.eqb_refl; reflexivity).
      split; [|exact T2]. apply admitted_iff. exists st. cbn [e_file e_cache]. split; [exact F|]. split; [|exact T2].
      apply holds_says; [apply N.mod_lt; discriminate|right; reflexivity].
Qed.
Print Assumptions C80_restart.
(** A start fails when one of the two cannot be read. *)
Theorem C80_unreadable : forall s, ensure s = None <-> (forall n, ~ fileSays (e_file s) n) \/ (forall n, ~ cacheSays (e_cache s) n).
Proof.
  intros s. unfold ensure. destruct (storageEpoch (e_file s)) as [st|] eqn:F.
  - destruct (cacheEpoch (e_cache s)) as [c|] eqn:C.
    + split; [destruct (together c st); discriminate|]. intros [H|H]; exfalso; [apply (H st), C80_reads_file, F|apply (H c), C80_reads_cache, C].
    + split; [|reflexivity]. intros _. right. intros n H. apply C80_reads_cache in H. congruence.
  - split; [|reflexivity]. intros _. left. intros n H. apply C80_reads_file in H. congruence.
Qed.
Print Assumptions C80_unreadable.

(** ** Histories *)

(** Commits that reach their end, with whatever goes wrong there; losses of the cache; starts. *)
Inductive event := Commit (f : faults) | Lost | Start.
Definition event1 (s : epochs) (ev : event) : epochs :=
  match ev with
  | Commit f => match admitted s with Some e => fst (finish e f s) | None => s end
  | Lost => mkEp (e_file s) None
  | Start => match ensure s with Some s' => s' | None => s end
  end.
Definition history (evs : list event) (s : epochs) : epochs := fold_left event1 evs s.
Definition fresh : epochs := mkEp None None.

Definition good (m : N) (s : epochs) (st c : N) : Prop :=
  storageEpoch (e_file s) = Some st /\ holds (e_cache s) c /\ st <= m /\ c <= m + 1.
Lemma good_step m s st c ev : m < 2 ^ 63 - 2 -> good m s st c -> exists st' c', good (m + 1) (event1 s ev) st' c' /\
  (st' < st -> exists f k, ev = Commit f /\ f_flush f = Some k).
Proof.
  intros L (A & B0 & C & D). assert (RC : cacheEpoch (e_cache s) = Some c) by (apply holds_says; [lia|exact B0]).
  destruct ev as [f| |]; cbn [event1].
  - destruct (admitted s) as [e|] eqn:AD; [|exists st, c; split; [repeat split; auto; lia|lia]].
    apply admitted_iff in AD. destruct AD as (st1 & A1 & A2 & A3). assert (st1 = st) by congruence. subst st1. assert (e = c) by congruence. subst e.
    assert (ST : st <= c). { unfold together in A3. rewrite N.mod_small in A3 by lia. apply orb_true_iff in A3. rewrite andb_true_iff, !N.eqb_eq in A3. lia. }
    destruct (N.lt_ge_cases c (2 ^ 63 - 1)) as [LC|LC]; [|lia]. 
    destruct (finish_cases c f s LC B0) as [E|[Ec Ef]]; [rewrite E; exists st, c; split; [repeat split; auto; lia|lia]|].
    set (s' := fst (finish c f s)) in *. clearbody s'.
    assert (H' : holds (e_cache s') (c + 1)) by (right; exact Ec).
    destruct Ef as [Ef|[[Ef _]|(k & Fk & Ef)]].
    + exists st, (c + 1). split; [|lia]. repeat split; [rewrite Ef; exact A|exact H'|lia|lia].
    + exists c, (c + 1). split; [|lia]. repeat split; [rewrite Ef; apply C80_file; lia|exact H'|lia|lia].
    + destruct (cut_value c k) as (n & R & Ln & _); [lia|]. exists n, (c + 1). split; [|intros _; exists f, k; auto].
      repeat split; [rewrite Ef; exact R|exact H'|lia|lia].
  - exists st, 0. split; [|lia]. repeat split; [exact A|left; auto|lia|lia].
  - unfold ensure. rewrite A, RC. destruct (together c st); [exists st, c; split; [repeat split; auto; lia|lia]|].
    exists st, (st + 1). split; [|lia]. rewrite N.mod_small by lia. repeat split; [exact A|right; reflexivity|lia|lia].
Qed.
Lemma good_run : forall evs m s st c, m + N.of_nat (length evs) < 2 ^ 63 - 1 -> good m s st c -> exists st' c',
  good (m + N.of_nat (length evs)) (history evs s) st' c' /\ ((forall f, In (Commit f) evs -> f_flush f = None) -> st <= st').
Proof.
  induction evs as [|ev evs IH]; intros m s st c L G.
  - exists st, c. cbn [length history fold_left]. rewrite N.add_0_r. split; [exact G|lia].
  - cbn [length] in L. rewrite Nat2N.inj_succ in L. destruct (good_step m s st c ev) as (st1 & c1 & G1 & M1); [lia|exact G|].
    destruct (IH (m + 1) (event1 s ev) st1 c1) as (st2 & c2 & G2 & M2); [lia|exact G1|]. exists st2, c2. cbn [length]. rewrite Nat2N.inj_succ.
    replace (m + N.succ (N.of_nat (length evs))) with (m + 1 + N.of_nat (length evs)) by lia. split; [exact G2|]. intros NF.
    assert (st <= st1). { destruct (N.lt_ge_cases st1 st) as [X|X]; [|lia]. destruct (M1 X) as (f & k & -> & Fk). specialize (NF f (or_introl eq_refl)). congruence. }
    specialize (M2 (fun f I => NF f (or_intror I))). lia.
Qed.
Lemma good_fresh : good 0 fresh 0 0.
Proof. repeat split; [left; auto|lia|lia]. Qed.

(** After any history of commits, failures, losses and starts both epochs can be read and a
    start makes a commit possible. *)
Theorem C80_history : forall evs, N.of_nat (length evs) < 2 ^ 63 - 1 ->
  exists st c, fileSays (e_file (history evs fresh)) st /\ cacheSays (e_cache (history evs fresh)) c /\
    exists c', admitted (history (evs ++ [Start]) fresh) = Some c' /\ inStep c' st.
Proof.
  intros evs L. destruct (good_run evs 0 fresh 0 0) as (st & c & (A & B0 & C & D) & _); [lia|exact good_fresh|].
  assert (RC : cacheEpoch (e_cache (history evs fresh)) = Some c) by (apply holds_says; [lia|exact B0]).
  exists st, c. split; [apply C80_reads_file; exact A|]. split; [apply C80_reads_cache; exact RC|].
  destruct (C80_restart (history evs fresh) st c) as (s' & E & _ & _ & c' & A' & T); [apply C80_reads_file; exact A|apply C80_reads_cache; exact RC|].
  exists c'. unfold history at 1. rewrite fold_left_app. fold (history evs fresh). cbn [fold_left event1]. rewrite E. split; [exact A'|].
  apply (C80_check c' st); [lia|exact T].
Qed.
Print Assumptions C80_history.

(** As long as no flush fails: the storage's epoch never goes back, and once it is not nought
    no commit is admitted after a loss of the cache until the next start. *)
Theorem C80_loss : forall evs1 evs2, N.of_nat (length (evs1 ++ evs2)) < 2 ^ 63 - 1 ->
  (forall f, In (Commit f) (evs1 ++ evs2) -> f_flush f = None) ->
  exists st1 st2, fileSays (e_file (history evs1 fresh)) st1 /\ fileSays (e_file (history (evs1 ++ evs2) fresh)) st2 /\ st1 <= st2 /\
    (0 < st1 -> forall evs3, ~ In Start evs3 -> admitted (history ((evs1 ++ evs2) ++ Lost :: evs3) fresh) = None).
Proof.
  intros evs1 evs2 L NF. rewrite app_length, Nat2N.inj_add in L. destruct (good_run evs1 0 fresh 0 0) as (st1 & c1 & G1 & _); [lia|exact good_fresh|].
  destruct (good_run evs2 (0 + N.of_nat (length evs1)) (history evs1 fresh) st1 c1) as (st2 & c2 & G2 & M2); [lia|exact G1|]. specialize (M2 (fun f I => NF f (in_or_app _ _ _ (or_intror I)))).
  assert (E : history (evs1 ++ evs2) fresh = history evs2 (history evs1 fresh)) by (unfold history; apply fold_left_app).
  exists st1, st2. split; [apply C80_reads_file; apply G1|]. split; [rewrite E; apply C80_reads_file; apply G2|]. split; [exact M2|]. intros P.
  intros evs3 NS. unfold history. rewrite fold_left_app. fold (history (evs1 ++ evs2) fresh). rewrite E. cbn [fold_left event1].
  destruct G2 as (A & _ & B0 & _). set (s := mkEp (e_file (history evs2 (history evs1 fresh))) None).
  assert (N0 : admitted s = None).
  { unfold admitted, s. cbn [e_file e_cache cacheEpoch]. rewrite A. unfold together. rewrite N.mod_small by lia.
    destruct (N.eqb_spec 0 (st2 + 1)); [lia|]. destruct (N.eqb_spec st2 0); [lia|]. reflexivity. }
  assert (K : fold_left event1 evs3 s = s); [|rewrite K; exact N0].
  induction evs3 as [|ev evs3 IH]; [reflexivity|]. cbn [fold_left].
  replace (event1 s ev) with s; [apply IH; intros I; apply NS; right; exact I|].
  destruct ev as [f| |]; cbn [event1]; [rewrite N0; reflexivity|reflexivity|]. exfalso. apply NS. left. reflexivity.
Qed.
Print Assumptions C80_loss.
Definition whole := mkFaults false None None None.
Example C80_ex_loss : let evs := [Commit whole; Commit whole; Commit whole] in
  storageEpoch (e_file (history evs fresh)) = Some 2 /\ admitted (history evs fresh) = Some 3 /\
  admitted (history (evs ++ [Lost]) fresh) = None /\ admitted (history (evs ++ [Lost; Start]) fresh) = Some 3.
Proof. vm_compute. auto. Qed.
Example C80_ex_faults : let late := mkFaults false None None (Some false) in
  admitted (history [Commit whole; Commit late] fresh) = None /\ admitted (history [Commit whole; Commit late; Start; Commit whole] fresh) = Some 2.
Proof. vm_compute. auto. Qed.

(** Without a fault, loss or start the epochs count the commits. *)
Theorem C80_counts : forall n, N.of_nat n < 2 ^ 63 - 2 ->
  let s := history (repeat (Commit whole) n) fresh in
  fileSays (e_file s) (N.of_nat n - 1) /\ cacheSays (e_cache s) (N.of_nat n) /\ admitted s = Some (N.of_nat n).
Proof.
  intros n L. assert (G : let s := history (repeat (Commit whole) n) fresh in
    storageEpoch (e_file s) = Some (N.of_nat n - 1) /\ holds (e_cache s) (N.of_nat n) /\ admitted s = Some (N.of_nat n)).
  { induction n as [|n IH]; [repeat split; left; auto|]. rewrite Nat2N.inj_succ in *. destruct IH as (A & B0 & C); [lia|].
    replace (S n) with (n + 1)%nat by lia. rewrite repeat_app. unfold history. rewrite fold_left_app. fold (history (repeat (Commit whole) n) fresh).
    set (s := history (repeat (Commit whole) n) fresh) in *. clearbody s. cbn [repeat fold_left event1]. rewrite C.
    destruct (C80_done (N.of_nat n) s) as (_ & D1 & D2 & D3); [lia|exact B0|]. fold whole in D1, D2, D3.
    replace (N.succ (N.of_nat n)) with (N.of_nat n + 1) by lia. split; [rewrite D1; f_equal; lia|]. split; [|exact D3].
    destruct (finish_cases (N.of_nat n) whole s ltac:(lia) B0) as [E|[E _]]; [|right; exact E]. rewrite E in D3. exfalso. rewrite C in D3. assert (N.of_nat n = N.of_nat n + 1) by congruence. lia. }
  destruct G as (A & B0 & C). cbv zeta. split; [apply C80_reads_file; exact A|]. split; [apply C80_reads_cache, holds_says; [lia|exact B0]|exact C].
Qed.
Print Assumptions C80_counts.

(** A flush that fails unseen can take the storage back to nought: after any number of commits
    a loss of the cache then passes for a fresh start, and the next commit is admitted. *)
Theorem C80_flush_refuted : forall n, N.of_nat n < 2 ^ 63 - 2 ->
  let evs := repeat (Commit whole) n ++ [Commit (mkFaults false (Some 0%nat) None None)] in
  snd (finish (N.of_nat n) (mkFaults false (Some 0%nat) None None) (history (repeat (Commit whole) n) fresh)) = true /\
  admitted (history (evs ++ [Lost]) fresh) = Some 0 /\ history (evs ++ [Lost; Start]) fresh = history (evs ++ [Lost]) fresh.
Proof.
  intros n L evs. destruct (C80_counts n L) as (_ & _ & C).
  destruct (good_run (repeat (Commit whole) n) 0 fresh 0 0) as (st & c & (A & B0 & _ & D) & _); [rewrite repeat_length; lia|exact good_fresh|]. rewrite repeat_length in D.
  assert (E : c = N.of_nat n). { assert (X : cacheEpoch (e_cache (history (repeat (Commit whole) n) fresh)) = Some c) by (apply holds_says; [lia|exact B0]).
    apply admitted_iff in C. destruct C as (x & _ & Y & _). congruence. }
  subst c. set (s := history (repeat (Commit whole) n) fresh) in *.
  assert (F : finish (N.of_nat n) (mkFaults false (Some 0%nat) None None) s = (mkEp (Some []) (Some (decText (N.of_nat n + 1))), true)).
  { unfold finish. cbn [f_temp f_flush f_next f_replace]. rewrite (incr_spec _ _ B0). destruct (N.ltb_spec (N.of_nat n) (2 ^ 63 - 1)); [reflexivity|lia]. }
  assert (H : history evs fresh = mkEp (Some []) (Some (decText (N.of_nat n + 1)))).
  { unfold evs, history. rewrite fold_left_app. fold (history (repeat (Commit whole) n) fresh). fold s. clearbody s. cbn [fold_left event1]. rewrite C, F. reflexivity. }
  split; [rewrite F; reflexivity|]. unfold history in *. rewrite !fold_left_app, H. cbn [fold_left event1 e_file]. split; reflexivity.
Qed.
Print Assumptions C80_flush_refuted.
