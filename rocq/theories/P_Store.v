(** * Storage layer: C23 to C27, C52 *)
From Verif Require Import Base MerkleModel SerialModel SerialProofs TimeModel TimeProofs Base64 StoreModel StoreProofs.

(** ** C23 *)

(** Operations that may end the life of a lock held with token [k] when every
    release runs without interruption. *)
Definition endsLock (k : bytes) (o : lockOp) : bool :=
  match o with LRelease k' => beq k' k | LExpire => true | LDel _ => true | _ => false end.

(** As long as the lock has not expired and its holder has not released it: it
    stays, every other acquisition fails, and only the holder's token is
    recognised. *)
Theorem C23_exclusive : forall k ops p,
  forallb (fun o => negb (endsLock k o)) ops = true ->
  let '(s, answers) := lockRun (mkLock (Some k) p) ops in
  lk s = Some k /\
  forall i o, nth_error ops i = Some o ->
    match o with
    | LAcquire _ => nth_error answers i = Some false
    | LHas k' | LCheck k' => nth_error answers i = Some (beq k k')
    | LRelease k' => nth_error answers i = Some false /\ k' <> k
    | _ => True
    end.
Proof.
  intros k ops. induction ops as [|o ops IH]; intros p H; cbn [lockRun].
  - split; [reflexivity|]. intros [|i] o E; discriminate.
  - cbn [forallb] in H. apply andb_prop in H. destruct H as [H1 H2].
    assert (S : exists p' b, lockStep (mkLock (Some k) p) o = (mkLock (Some k) p', b) /\
      match o with
      | LAcquire _ => b = false | LHas k' | LCheck k' => b = beq k k' | LRelease k' => b = false /\ k' <> k | _ => True
      end).
    { destruct o; cbn [lockStep holds lk pend endsLock negb] in *; try discriminate H1.
      - exists p, false; auto.
      - exists p, (beq k k0); auto.
      - destruct (beq_spec k k0) as [<-|N].
        + exists (k :: p), true. auto.
        + exists p, false. auto.
      - apply negb_true_iff in H1. assert (k0 <> k) by (apply beq_neq; exact H1).
        destruct (beq_spec k k0) as [E|N]; [congruence|]. exists p, false. auto. }
    destruct S as (p' & b & S & B). rewrite S. specialize (IH p' H2).
    destruct (lockRun (mkLock (Some k) p') ops) as [s bs]. destruct IH as [I1 I2].
    split; [exact I1|]. intros [|i] o' E; cbn [nth_error] in E |- *.
    + injection E as <-. destruct o; try (f_equal; exact B); try exact Logic.I.
      destruct B as [-> B]. auto.
    + apply I2. exact E.
Qed.
Print Assumptions C23_exclusive.

(** A free lock is granted to whoever asks first. *)
Theorem C23_free_lock_granted : forall k p,
  lockStep (mkLock None p) (LAcquire k) = (mkLock (Some k) p, true) /\
  lockStep (mkLock (Some k) p) (LRelease k) = (mkLock None p, true).
Proof. intros k p. cbn. rewrite beq_refl. auto. Qed.
Print Assumptions C23_free_lock_granted.

(** Releases interleaved with other processes, check and deletion being two
    commands: if the lock never expires and every token is released once, a
    deletion only ever hits the lock of the process that makes it. *)
Fixpoint checksOnce (seen : list bytes) (ops : list lockOp) : Prop :=
  match ops with
  | [] => True
  | LCheck k :: ops' => ~ In k seen /\ checksOnce (k :: seen) ops'
  | LRelease k :: ops' => ~ In k seen /\ checksOnce (k :: seen) ops'
  | LExpire :: _ => False
  | _ :: ops' => checksOnce seen ops'
  end.

(** Every deletion in the run hits the lock of its own token. *)
Fixpoint onlyOwnDeleted (s : lockState) (ops : list lockOp) : Prop :=
  match ops with
  | [] => True
  | o :: ops' =>
      match o with
      | LDel k => snd (lockStep s o) = true -> lk s = Some k
      | LRelease k => snd (lockStep s o) = true -> lk s = Some k
      | _ => True
      end /\ onlyOwnDeleted (fst (lockStep s o)) ops'
  end.

Lemma in_remove1 x k l : NoDup l -> In x (remove1 k l) -> In x l /\ x <> k.
Proof.
  induction l as [|y l IH]; cbn [remove1]; [intros _ []|]. intros ND. inversion ND as [|? ? N ND']; subst.
  destruct (beq_spec y k) as [->|Nk].
  - intros H. split; [right; exact H|]. intros ->. contradiction.
  - intros [<-|H]; [split; [left; reflexivity|exact Nk]|]. destruct (IH ND' H). split; [right|]; assumption.
Qed.

Theorem C23_interleaved_release : forall ops k0,
  checksOnce [] ops -> onlyOwnDeleted (mkLock k0 []) ops.
Proof.
  assert (G : forall ops seen s, checksOnce seen ops ->
    (forall k, In k (pend s) -> lk s = Some k /\ In k seen) -> (length (pend s) <= 1)%nat ->
    onlyOwnDeleted s ops).
  { induction ops as [|o ops IH]; intros seen s C P L; cbn [onlyOwnDeleted]; [exact Logic.I|].
    destruct s as [l p]. cbn [lk pend] in *. destruct o; cbn [checksOnce] in C; cbn [lockStep lk pend].
    - split; [exact Logic.I|]. destruct l as [k'|]; cbn [fst].
      + apply (IH seen); auto.
      + apply (IH seen); cbn [lk pend]; auto. intros x Hx. destruct (P x Hx) as [E _]. discriminate E.
    - split; [exact Logic.I|]. apply (IH seen); auto.
    - split; [exact Logic.I|]. destruct C as [C1 C2]. unfold holds. cbn [lk]. destruct l as [k'|].
      + destruct (beq_spec k' k) as [->|N]; cbn [fst].
        * apply (IH (k :: seen)); [exact C2| |]; cbn [lk pend].
          -- intros x [<-|Hx]; [split; [reflexivity|left; reflexivity]|]. destruct (P x Hx) as [E S].
             split; [exact E|right; exact S].
          -- destruct p as [|y p]; [cbn; lia|]. exfalso. destruct (P y (or_introl eq_refl)) as [E S].
             injection E as <-. contradiction.
        * apply (IH (k :: seen)); [exact C2| |exact L]. intros x Hx. destruct (P x Hx). split; [assumption|right; assumption].
      + apply (IH (k :: seen)); [exact C2| |exact L]. intros x Hx. destruct (P x Hx). split; [assumption|right; assumption].
    - destruct (existsb (beq k) p) eqn:E; cbn [fst snd].
      + apply existsb_exists in E. destruct E as (y & Hy & E). apply beq_eq in E. subst y.
        split; [intros _; apply (P k Hy)|]. apply (IH seen); [exact C| |]; cbn [lk pend].
        * destruct p as [|y [|z p]]; [destruct Hy| |cbn in L; lia]. destruct Hy as [->|[]]. cbn [remove1].
          rewrite beq_refl. intros x [].
        * destruct p as [|y [|z p]]; [destruct Hy| |cbn in L; lia]. destruct Hy as [->|[]]. cbn [remove1].
          rewrite beq_refl. cbn. lia.
      + split; [discriminate|]. apply (IH seen); auto.
    - destruct C as [C1 C2]. unfold holds. cbn [lk]. destruct l as [k'|].
      + destruct (beq_spec k' k) as [->|N]; cbn [fst snd].
        * split; [auto|]. apply (IH (k :: seen)); [exact C2| |exact L]. cbn [lk pend].
          intros x Hx. exfalso. destruct (P x Hx) as [E S]. injection E as <-. contradiction.
        * split; [discriminate|]. apply (IH (k :: seen)); [exact C2| |exact L].
          intros x Hx. destruct (P x Hx). split; [assumption|right; assumption].
      + split; [discriminate|]. apply (IH (k :: seen)); [exact C2| |exact L].
        intros x Hx. destruct (P x Hx). split; [assumption|right; assumption].
    - destruct C. }
  intros ops k0 C. apply (G ops []); [exact C|intros k []|cbn; lia].
Qed.
Print Assumptions C23_interleaved_release.

(** With expiry between check and deletion, a release deletes the lock another
    process has acquired since, and a third process gets it too. *)
Theorem C23_release_race_refuted : exists ops k k' k'',
  k <> k' /\ k' <> k'' /\
  let '(s, answers) := lockRun (mkLock None []) ops in
  ops = [LAcquire k; LCheck k; LExpire; LAcquire k'; LDel k; LHas k'; LAcquire k''] /\
  answers = [true; true; true; true; true; false; true] /\ lk s = Some k''.
Proof.
  exists [LAcquire (B "1"); LCheck (B "1"); LExpire; LAcquire (B "2"); LDel (B "1"); LHas (B "2"); LAcquire (B "3")],
    (B "1"), (B "2"), (B "3"). split; [discriminate|]. split; [discriminate|]. vm_compute. auto.
Qed.
Print Assumptions C23_release_race_refuted.

Example C23_case :
  forallb (fun o => negb (endsLock (B "1") o)) [LAcquire (B "2"); LRelease (B "2"); LHas (B "1"); LHas (B "2")] = true /\
  lockRun (mkLock (Some (B "1")) []) [LAcquire (B "2"); LRelease (B "2"); LHas (B "1"); LHas (B "2")] =
    (mkLock (Some (B "1")) [], [false; false; true; false]) /\
  checksOnce [] [LAcquire (B "1"); LCheck (B "1"); LAcquire (B "2"); LDel (B "1"); LAcquire (B "2"); LCheck (B "2"); LDel (B "2")] /\
  snd (lockRun (mkLock None [])
    [LAcquire (B "1"); LCheck (B "1"); LAcquire (B "2"); LDel (B "1"); LAcquire (B "2"); LCheck (B "2"); LDel (B "2")]) =
    [true; true; false; true; true; true; true].
Proof. repeat split; try (vm_compute; reflexivity); cbn; intuition discriminate. Qed.

(** ** C24 *)

(** Removing entries batch by batch: no panic, the batches are within the size,
    their concatenation is the list of entries, and what remains of the set is
    what is not in a batch sent.  If a command fails, all earlier batches, and
    nothing else, have been removed. *)
Theorem C24_remove_batches : forall batchSize fails entries set, (0 < batchSize)%nat ->
  exists set' sent out, setRemove batchSize fails entries set = (set', sent, out) /\
    (forall b, In b sent -> (1 <= length b <= batchSize)%nat) /\
    (forall x, In x set' <-> In x set /\ ~ In x (concat sent)) /\
    match out with
    | Done => concat sent = entries /\ forall i, (i < length sent)%nat -> fails i = false
    | Failed => concat sent = firstn (batchSize * length sent) entries /\ concat sent <> entries /\
        fails (length sent) = true
    | Panicked | NoFuel => False
    end.
Proof.
  intros bs fails entries set BS. unfold setRemove.
  destruct (removeLoop_spec bs fails entries set BS (S (length entries)) 0 0 set []) as
    (set' & sent & out & E & S & L & NF & O); try reflexivity; try lia.
  - unfold without. cbn. induction set as [|x set IH]; cbn; [reflexivity|]. f_equal. exact IH.
  - intros b [].
  - exists set', sent, out. split; [exact E|]. split; [exact L|]. split.
    + intros x. subst set'. unfold without. rewrite filter_In, negb_true_iff, <- not_true_iff_false, existsb_exists.
      split; intros [H1 H2]; (split; [exact H1|]); intros H3; apply H2.
      * exists x. split; [exact H3|apply beq_refl].
      * destruct H3 as (y & Hy & Q). apply beq_eq in Q. congruence.
    + destruct out; try exact O.
      * split; [exact O|exact NF].
      * destruct O as (O1 & O2 & O3). split; [exact O1|]. split; [|exact O3].
        intros Q. apply (f_equal (@length bytes)) in Q. rewrite O1, firstn_length in Q. lia.
Qed.
Print Assumptions C24_remove_batches.

(** The rounds of goroutines of a commit: every bin is handled exactly once, at
    most [batchSize] at a time, although the loop changes its own step; after the
    first failing round no further round starts. *)
Theorem C24_move_rounds : forall (A : Type) batchSize fails (bins : list A), (0 < batchSize)%nat ->
  exists rounds out, moveRounds batchSize fails bins = (rounds, out) /\
    (forall b, In b rounds -> (1 <= length b <= batchSize)%nat) /\
    match out with
    | Done => concat rounds = bins /\ forall b, In b rounds -> fails b = false
    | Failed => exists pre last rest, rounds = pre ++ [last] /\ bins = concat rounds ++ rest /\
        fails last = true /\ forall b, In b pre -> fails b = false
    | Panicked | NoFuel => False
    end.
Proof.
  intros A bs fails bins BS. unfold moveRounds.
  apply (moveLoop_spec bs fails bins (S (length bins)) bs 0 []); try lia; [reflexivity|intros b []].
Qed.
Print Assumptions C24_move_rounds.

(** Inserting many: afterwards a set has its old members and the inserted ones,
    and every key touched expires when its last item says. *)
Theorem C24_insert_many : forall items c k,
  (forall v, In v (members (setInsertMany c items) k) <->
     In v (members c k) \/ exists x, In (k, v, x) items) /\
  (forall pre v x post, items = pre ++ (k, v, x) :: post -> (forall w y, ~ In (k, w, y) post) ->
     exists l, alookup k (setInsertMany c items) = Some (l, x)) /\
  ((forall v x, ~ In (k, v, x) items) -> alookup k (setInsertMany c items) = alookup k c).
Proof.
  assert (O : forall items c k, (forall v x, ~ In (k, v, x) items) -> alookup k (setInsertMany c items) = alookup k c).
  { unfold setInsertMany. induction items as [|[[k' v'] x'] items IH]; intros c k H; [reflexivity|]. cbn [fold_left].
    rewrite IH by (intros v x I; apply (H v x); right; exact I). unfold insertOne. apply alookup_aset_other.
    intros ->. apply (H v' x'). left; reflexivity. }
  intros items c k. split; [|split].
  - intros v. revert c. unfold setInsertMany. induction items as [|[[k' v'] x'] items IH]; intros c; cbn [fold_left].
    + split; [auto|intros [H|(x & [])]; exact H].
    + rewrite IH, insertOne_members. split.
      * intros [[H|[-> ->]]|(x & H)]; [auto|right; exists x'; left; reflexivity|right; exists x; right; exact H].
      * intros [H|(x & [E|H])]; [auto| |right; exists x; exact H]. injection E as -> -> ->. auto.
  - intros pre v x post -> N. unfold setInsertMany. rewrite fold_left_app. cbn [fold_left].
    fold (setInsertMany (insertOne (fold_left insertOne pre c) (k, v, x)) post).
    rewrite O by exact N. unfold insertOne. rewrite alookup_aset_same. eexists. reflexivity.
  - apply O.
Qed.
Print Assumptions C24_insert_many.

Example C24_case :
  setRemove 2 (fun _ => false) [B "a"; B "b"; B "c"; B "d"; B "e"] [B "x"; B "c"; B "e"; B "y"] =
    ([B "x"; B "y"], [[B "a"; B "b"]; [B "c"; B "d"]; [B "e"]], Done) /\
  setRemove 2 (fun i => (i =? 1)%nat) [B "a"; B "b"; B "c"] [B "a"; B "c"] = ([B "c"], [[B "a"; B "b"]], Failed) /\
  moveRounds 2 (fun _ => false) [1; 2; 3; 4; 5]%nat = ([[1; 2]; [3; 4]; [5]]%nat, Done) /\
  members (setInsertMany [] [(B "k", B "v", 5%Z); (B "k", B "w", 6%Z); (B "j", B "v", 7%Z)]) (B "k") = [B "w"; B "v"].
Proof. repeat split; vm_compute; reflexivity. Qed.

(** ** C25 *)

(** Keys made of three parts without colons: one record per issuer, holding in
    order the dates that occur with it and can be parsed; no others. *)
Theorem C25_grouping : forall ps : list (list bytes),
  (forall p, In p ps -> length p = 3%nat /\ forall x, In x p -> noColon x) ->
  exists m, groupByIssuer (map joinColons ps) = Ok m /\ NoDup (map fst m) /\
    forall iss dates, In (iss, dates) m <-> dates = datesOf iss ps /\ dates <> [].
Proof.
  intros ps H. destruct (groupLoop_ok ps [] (NoDup_nil _) H) as (m & G & ND & A).
  exists m. split; [exact G|]. split; [exact ND|]. intros iss dates. rewrite alookup_in by exact ND. rewrite A. cbn [alookup].
  destruct (datesOf iss ps) as [|d ds] eqn:E.
  - split; [discriminate|intros [-> N]; congruence].
  - split; [intros Q; injection Q as <-; split; [reflexivity|discriminate]|intros [-> _]; reflexivity].
Qed.
Print Assumptions C25_grouping.

(** A key with another number of parts makes the whole listing fail. *)
Theorem C25_malformed_key_fails : forall ps : list (list bytes),
  (forall p, In p ps -> p <> [] /\ forall x, In x p -> noColon x) ->
  (exists p, In p ps /\ length p <> 3%nat) -> groupByIssuer (map joinColons ps) = Err.
Proof. intros. apply groupLoop_err; assumption. Qed.
Print Assumptions C25_malformed_key_fails.

(** The keys of bins are listed as these bins: under an issuer, exactly the hours
    of its bins, with the identifiers they were written with. *)
Theorem C25_bins_listed : forall bins : list (Z * bytes),
  (forall t d, In (t, d) bins -> (0 <= yearOf t <= 9999)%Z) ->
  exists m, groupByIssuer (map (fun b => serialKey (expID (newExpDateFromTime (fst b))) (issuerID (snd b))) bins) = Ok m /\
    NoDup (map fst m) /\
    (forall t d, In (t, d) bins -> exists dates e, In (issuerID d, dates) m /\ In e dates /\
        expID e = expID (newExpDateFromTime t) /\ ed_date e = truncHour t) /\
    (forall iss dates e, In (iss, dates) m -> In e dates -> exists t d, In (t, d) bins /\
        iss = issuerID d /\ expID e = expID (newExpDateFromTime t)).
Proof.
  intros bins Y.
  set (ps := map (fun b : Z * bytes => [B "serials"; expID (newExpDateFromTime (fst b)); issuerID (snd b)]) bins).
  assert (E : map (fun b => serialKey (expID (newExpDateFromTime (fst b))) (issuerID (snd b))) bins = map joinColons ps).
  { unfold ps. rewrite map_map. apply map_ext. intros b. apply serialKey_join. }
  rewrite E. destruct (C25_grouping ps) as (m & G & ND & A).
  { intros p Hp. unfold ps in Hp. apply in_map_iff in Hp. destruct Hp as ([t d] & <- & Hb). split; [reflexivity|].
    intros x [<-|[<-|[<-|[]]]]; [exact noColon_serials| |apply issuerID_noColon].
    apply plain_noColon, plain_formatHour. }
  assert (I : forall t d, In (t, d) bins -> forall iss, iss = issuerID d ->
    In (mkExp (truncHour t) (truncHour t + nsHour - nsMilli) true) (datesOf iss ps)).
  { intros t d Hb iss ->. unfold datesOf. apply in_flat_map.
    exists [B "serials"; expID (newExpDateFromTime t); issuerID d].
    split; [unfold ps; apply in_map_iff; exists (t, d); auto|].
    cbn [entryDate]. rewrite beq_refl, newExpDate_hourID by (eapply Y; exact Hb). left; reflexivity. }
  exists m. split; [exact G|]. split; [exact ND|]. split.
  - intros t d Hb. exists (datesOf (issuerID d) ps), (mkExp (truncHour t) (truncHour t + nsHour - nsMilli) true).
    pose proof (I t d Hb _ eq_refl) as H. split; [|split; [exact H|split; reflexivity]].
    apply A. split; [reflexivity|]. intros Z. rewrite Z in H. destruct H.
  - intros iss dates e Hm He. apply A in Hm. destruct Hm as [-> _]. unfold datesOf in He. apply in_flat_map in He.
    destruct He as (p & Hp & He). unfold ps in Hp. apply in_map_iff in Hp. destruct Hp as ([t d] & <- & Hb).
    cbn [fst snd entryDate] in He. destruct (beq_spec (issuerID d) iss) as [<-|]; [|destruct He].
    rewrite newExpDate_hourID in He by (eapply Y; exact Hb). destruct He as [<-|[]].
    exists t, d. split; [exact Hb|]. split; reflexivity.
Qed.
Print Assumptions C25_bins_listed.

Example C25_case :
  groupByIssuer [B "serials::2024-02-29-23::A"; B "serials::2024-02-30::A"; B "serials::2024-03-01::B"; B "serials::2024-03-01::A"] =
    Ok [(B "A", [mkExp (1709247600 * nsSecond) (1709247600 * nsSecond + nsHour - nsMilli) true;
                 mkExp (1709251200 * nsSecond) (1709251200 * nsSecond + nsDay - nsMilli) false]);
        (B "B", [mkExp (1709251200 * nsSecond) (1709251200 * nsSecond + nsDay - nsMilli) false])] /\
  groupByIssuer [B "serials::2024-02-29-23::A"; B "serials::2024-02-30"] = Err.
Proof. split; vm_compute; reflexivity. Qed.

(** ** C26 *)

(** [e] is the identifier of a bin: of an hour or, in the older layout, a day. *)
Definition binID (e : bytes) : Prop := exists t, e = formatHour t \/ e = formatDay t.

Lemma binID_plain e : binID e -> plain e.
Proof. intros (t & [->| ->]); [apply plain_formatHour|apply plain_formatDay]. Qed.

(** Bins with the same cache key, the same file or the same accessor have the
    same issuer (the same digest of its public key) and the same expiry. *)
Theorem C26_keys_injective : forall e e' d d',
  binID e -> binID e' -> length d = 32%nat -> length d' = 32%nat ->
  serialKey e (issuerID d) = serialKey e' (issuerID d') \/
  serialFile e (issuerID d) = serialFile e' (issuerID d') \/
  accessorID e (issuerID d) = accessorID e' (issuerID d') ->
  e = e' /\ d = d'.
Proof.
  intros e e' d d' H H' L L' C.
  assert (K : serialKey e (issuerID d) = serialKey e' (issuerID d') -> e = e' /\ d = d').
  { intros E. apply (f_equal splitColons) in E.
    rewrite !splitColons_key in E by (try apply issuerID_noColon; apply plain_noColon, binID_plain; assumption).
    injection E as -> E. apply issuerID_inj in E. auto. }
  destruct C as [C|[C|C]]; [auto| |].
  - unfold serialFile, issuerDirName in C. apply app_inv_head in C. rewrite <- !app_assoc in C. apply app_inv_head in C.
    apply app_cut in C; [|rewrite !issuerID_length by assumption; reflexivity]. destruct C as [C1 C2].
    apply app_inv_head in C2. auto.
  - unfold accessorID in C. apply app_cut in C; [|rewrite !issuerID_length by assumption; reflexivity].
    destruct C as [C1 ->]. apply issuerID_inj in C1. auto.
Qed.
Print Assumptions C26_keys_injective.

(** A key can be taken apart into what it was made of. *)
Theorem C26_key_parses : forall e d, binID e -> splitColons (serialKey e (issuerID d)) = [B "serials"; e; issuerID d].
Proof. intros e d H. apply splitColons_key; [apply plain_noColon, binID_plain; exact H|apply issuerID_noColon]. Qed.
Print Assumptions C26_key_parses.

(** The file is directly inside the issuer's directory: issuer and expiry add no
    further path components. *)
Theorem C26_no_extra_components : forall e d, binID e -> ~ In slash (serialKey e (issuerID d)) /\ ~ In slash (issuerDirName (issuerID d)).
Proof.
  intros e d H. split; intros I.
  - unfold serialKey in I. rewrite !in_app_iff in I. destruct I as [I|[I|[I|I]]].
    + cbv in I. intuition discriminate.
    + apply (binID_plain e H) in I. cbv in I. intuition discriminate.
    + cbv in I. intuition discriminate.
    + apply issuerID_noSlash in I. exact I.
  - unfold issuerDirName in I. rewrite in_app_iff in I. destruct I as [I|I]; [cbv in I; intuition discriminate|].
    apply issuerID_noSlash in I. exact I.
Qed.
Print Assumptions C26_no_extra_components.

Example C26_case :
  binID (B "2024-02-29-23") /\ binID (B "2024-02-29") /\
  serialKey (B "2024-02-29-23") (issuerID (repeat xff 32)) =
    B "serials::2024-02-29-23::__________________________________________8=" /\
  serialFile (B "2024-02-29") (issuerID (repeat x00 32)) =
    B "serials/issuer::AAAAAAAAAAAAAAAAAAAAAAAAAAAAAAAAAAAAAAAAAAA=/serials::2024-02-29::AAAAAAAAAAAAAAAAAAAAAAAAAAAAAAAAAAAAAAAAAAA=".
Proof.
  split; [|split; [|split; vm_compute; reflexivity]]; exists (1709251199 * nsSecond)%Z; [left|right]; vm_compute; reflexivity.
Qed.

(** ** C27 *)

(** The state saved last for a log is the one read back, under any spelling of
    the URL that differs in trailing slashes only. *)
Theorem C27_save_load : forall m l u,
  loadLogState (storeLogState m l) u =
    if beq (trimSlashes u) (trimSlashes (lg_url l)) then Some l else loadLogState m u.
Proof.
  intros m l u. unfold loadLogState. rewrite store_lookup.
  destruct (beq_spec (logKey u) (logKey (lg_url l))) as [E|N]; destruct (beq_spec (trimSlashes u) (trimSlashes (lg_url l))) as [E'|N'];
    try reflexivity; exfalso.
  - apply N'. apply logKey_trim. exact E.
  - apply N. apply logKey_trim. exact E'.
Qed.
Print Assumptions C27_save_load.

(** Saving and migrating, in any order and number. *)
Inductive logOp := OSave (l : ctLog) | OMigrate (host path : bytes).
Definition logStep (m : logStore) (o : logOp) : logStore :=
  match o with
  | OSave l => storeLogState m l
  | OMigrate h p => match migrate m h p with Ok m' => m' | _ => m end
  end.

(** Legacy data are stored under the key with a slash. *)
Definition wellKeyed (m : logStore) : Prop :=
  forall k l, alookup k m = Some (Some l) -> k = logKey (lg_url l) \/ k = logKey (lg_url l) ++ [slash].

Lemma wellKeyed_store m l : wellKeyed m -> wellKeyed (storeLogState m l).
Proof.
  intros W k l' H. rewrite store_lookup in H. destruct (beq_spec k (logKey (lg_url l))) as [->|N]; [|apply W; exact H].
  injection H as <-. left; reflexivity.
Qed.

Lemma alookup_aremove {V} k k' (m : list (bytes * V)) : alookup k (aremove k' m) = if beq k k' then None else alookup k m.
Proof. destruct (beq_spec k k') as [->|N]; [apply alookup_aremove_same|apply alookup_aremove_other; exact N]. Qed.

Lemma wellKeyed_remove m k : wellKeyed m -> wellKeyed (aremove k m).
Proof. intros W k' l H. rewrite alookup_aremove in H. destruct (beq k' k); [discriminate|]. apply W; exact H. Qed.

(** Migration: the state under the current key is kept if there is one, else the
    legacy one takes its place; the legacy key is gone; other keys are untouched;
    migrating again changes nothing.  A legacy state that cannot be decoded is an
    error and nothing changes. *)
Theorem C27_migrate : forall m host path,
  wellKeyed m ->
  let newKey := logKey (shortURL host path) in
  let oldKey := newKey ++ [slash] in
  match migrate m host path with
  | Ok m' =>
      alookup newKey m' = match alookup newKey m with Some v => Some v | None => alookup oldKey m end /\
      alookup oldKey m' = None /\
      (forall k, k <> newKey -> k <> oldKey -> alookup k m' = alookup k m) /\
      wellKeyed m' /\ migrate m' host path = Ok m'
  | Err => alookup oldKey m = Some None /\ alookup newKey m = None
  | Panic => False
  end.
Proof.
  intros m host path W newKey oldKey.
  assert (NE : newKey <> oldKey).
  { unfold oldKey. intros E. apply (f_equal (@length byte)) in E. rewrite app_length in E. cbn in E. lia. }
  unfold migrate. fold newKey. fold oldKey.
  assert (IDEM : forall m', alookup oldKey m' = None -> match alookup oldKey m' with None => Ok m' | Some oldData =>
      match alookup newKey m' with Some _ => Ok (aremove oldKey m') | None =>
        match oldData with None => Err | Some l => Ok (aremove oldKey (storeLogState m' l)) end end end = Ok m').
  { intros m' ->. reflexivity. }
  destruct (alookup oldKey m) as [old|] eqn:EO.
  - destruct (alookup newKey m) as [v|] eqn:EN.
    + rewrite !alookup_aremove, beq_refl. replace (beq newKey oldKey) with false by (symmetry; apply beq_neq; exact NE).
      split; [exact EN|]. split; [reflexivity|]. split.
      * intros k _ Nk. rewrite alookup_aremove. replace (beq k oldKey) with false by (symmetry; apply beq_neq; exact Nk). reflexivity.
      * split; [apply wellKeyed_remove; exact W|]. first [reflexivity|apply IDEM; rewrite alookup_aremove, beq_refl; reflexivity].
    + destruct old as [l|]; [|auto].
      assert (KL : logKey (lg_url l) = newKey).
      { destruct (W oldKey l EO) as [E|E].
        - exfalso. symmetry in E. unfold oldKey in E. apply (logKey_no_slash _ _ E).
        - unfold oldKey in E. apply app_inj_tail in E. symmetry. apply E. }
      rewrite !alookup_aremove, beq_refl. replace (beq newKey oldKey) with false by (symmetry; apply beq_neq; exact NE).
      rewrite store_lookup, KL, beq_refl. split; [reflexivity|]. split; [reflexivity|]. split.
      * intros k N1 N2. rewrite alookup_aremove, store_lookup, KL.
        replace (beq k oldKey) with false by (symmetry; apply beq_neq; exact N2).
        replace (beq k newKey) with false by (symmetry; apply beq_neq; exact N1). reflexivity.
      * split; [apply wellKeyed_remove, wellKeyed_store; exact W|]. first [reflexivity|apply IDEM; rewrite alookup_aremove, beq_refl; reflexivity].
  - rewrite EO. split; [destruct (alookup newKey m); reflexivity|]. split; [reflexivity|].
    split; [reflexivity|]. split; [exact W|reflexivity].
Qed.
Print Assumptions C27_migrate.

Lemma logStep_wellKeyed m o : wellKeyed m -> wellKeyed (logStep m o).
Proof.
  intros W. destruct o as [l|h p]; cbn [logStep]; [apply wellKeyed_store; exact W|].
  pose proof (C27_migrate m h p W) as H. destruct (migrate m h p); [apply H|exact W|exact W].
Qed.

(** Whatever was saved and migrated after it, the last state saved for a log is
    what a reader of that log gets. *)
Theorem C27_history : forall m pre l post host path,
  wellKeyed m -> lg_url l = shortURL host path ->
  (forall l', In (OSave l') post -> trimSlashes (lg_url l') <> trimSlashes (lg_url l)) ->
  getLogState (fold_left logStep (pre ++ OSave l :: post) m) host path = l.
Proof.
  intros m pre l post host path W U N. unfold getLogState, loadLogState. rewrite <- U.
  enough (G : alookup (logKey (lg_url l)) (fold_left logStep (pre ++ OSave l :: post) m) = Some (Some l)) by (rewrite G; reflexivity).
  rewrite fold_left_app. cbn [fold_left].
  assert (W1 : wellKeyed (fold_left logStep pre m)).
  { clear - W. revert m W. induction pre as [|o pre IH]; intros m W; cbn [fold_left]; [exact W|].
    apply IH. apply logStep_wellKeyed. exact W. }
  assert (S : alookup (logKey (lg_url l)) (logStep (fold_left logStep pre m) (OSave l)) = Some (Some l)).
  { cbn [logStep]. rewrite store_lookup, beq_refl. reflexivity. }
  apply (logStep_wellKeyed _ (OSave l)) in W1. revert W1 S. generalize (logStep (fold_left logStep pre m) (OSave l)) as m1.
  clear - N. induction post as [|o post IH]; intros m1 W1 S; cbn [fold_left]; [exact S|].
  apply IH.
  - intros l' H. apply N. right; exact H.
  - apply logStep_wellKeyed. exact W1.
  - destruct o as [l'|h p]; cbn [logStep].
    + rewrite store_lookup. destruct (beq_spec (logKey (lg_url l)) (logKey (lg_url l'))) as [E|]; [|exact S].
      exfalso. apply (N l' (or_introl eq_refl)). apply logKey_trim. congruence.
    + pose proof (C27_migrate m1 h p W1) as H. destruct (migrate m1 h p) as [m'| |]; [|exact S|exact S].
      destruct H as (H1 & H2 & H3 & _). destruct (bytes_eq_dec (logKey (lg_url l)) (logKey (shortURL h p))) as [E|NE].
      * rewrite E in *. rewrite H1, S. reflexivity.
      * rewrite H3; [exact S|exact NE|]. apply logKey_no_slash.
Qed.
Print Assumptions C27_history.

(** A log of which nothing was saved starts with nothing covered, under its host and
    path without slashes at the end. *)
Lemma trim_exact p i : (forall q, p <> q ++ [slash]) -> trimSlashes (p ++ repeat slash i) = p.
Proof.
  intros N. induction i as [|i IH].
  - cbn [repeat]. rewrite app_nil_r. unfold trimSlashes. destruct (rev p) as [|c r] eqn:R; [apply (f_equal (@rev byte)) in R; rewrite rev_involutive in R; subst p; reflexivity|].
    cbn [dropSlashes]. destruct (byte_eqb_spec c slash) as [->|_]; [|rewrite <- R; apply rev_involutive]. exfalso. apply (N (rev r)). rewrite <- (rev_involutive p), R. reflexivity.
  - rewrite <- IH at 2. assert (E : p ++ repeat slash (S i) = (p ++ repeat slash i) ++ [slash]).
    { rewrite <- app_assoc. f_equal. clear. induction i as [|i IH]; [reflexivity|]. cbn [repeat app]. f_equal. exact IH. }
    rewrite E. apply trim_slash.
Qed.
Theorem C27_new_log : forall m ops host path p i,
  wellKeyed m -> path = p ++ repeat slash i -> (forall q, p <> q ++ [slash]) ->
  alookup (logKey (host ++ p)) m = None -> alookup (logKey (host ++ p) ++ [slash]) m = None ->
  (forall l', In (OSave l') ops -> trimSlashes (lg_url l') <> trimSlashes (host ++ p)) ->
  getLogState (fold_left logStep ops m) host path =
  {| lg_keyID := None; lg_mmd := 0; lg_url := host ++ p; lg_minEntry := 0; lg_maxEntry := 0; lg_minTs := 0; lg_maxTs := 0 |}.
Proof.
  intros m ops host path p i W -> N K1 K2 S. unfold getLogState, loadLogState.
  assert (E : shortURL host (p ++ repeat slash i) = host ++ p) by (unfold shortURL; rewrite trim_exact by exact N; reflexivity). rewrite E.
  enough (G : alookup (logKey (host ++ p)) (fold_left logStep ops m) = None) by (rewrite G; reflexivity). clear E.
  revert m W K1 K2. induction ops as [|o ops IH]; intros m W K1 K2; cbn [fold_left]; [exact K1|].
  apply IH; [intros l' I; apply S; right; exact I|apply logStep_wellKeyed; exact W| |].
  - destruct o as [l'|h q]; cbn [logStep].
    + rewrite store_lookup. destruct (beq_spec (logKey (host ++ p)) (logKey (lg_url l'))) as [E|_]; [|exact K1]. exfalso. apply (S l' (or_introl eq_refl)). apply logKey_trim. congruence.
    + pose proof (C27_migrate m h q W) as H. destruct (migrate m h q) as [m'| |]; [|exact K1|exact K1]. destruct H as (H1 & H2 & H3 & _).
      destruct (bytes_eq_dec (logKey (host ++ p)) (logKey (shortURL h q))) as [E|NE]; [rewrite E in *; rewrite H1, K1; exact K2|]. rewrite H3; [exact K1|exact NE|apply logKey_no_slash].
  - destruct o as [l'|h q]; cbn [logStep].
    + rewrite store_lookup. destruct (beq_spec (logKey (host ++ p) ++ [slash]) (logKey (lg_url l'))) as [E|_]; [|exact K2]. exfalso. exact (logKey_no_slash _ _ (eq_sym E)).
    + pose proof (C27_migrate m h q W) as H. destruct (migrate m h q) as [m'| |]; [|exact K2|exact K2]. destruct H as (H1 & H2 & H3 & _).
      destruct (bytes_eq_dec (logKey (host ++ p)) (logKey (shortURL h q))) as [E|NE]; [rewrite E; exact H2|]. rewrite H3; [exact K2| |].
      * intros X. exact (logKey_no_slash _ _ (eq_sym X)).
      * intros X. apply app_inj_tail in X. destruct X as [X _]. exact (NE X).
Qed.
Print Assumptions C27_new_log.
Example C27_new_log_case : getLogState (fold_left logStep [OSave (mkLog None 60 (B "ct.example/b") 0 9 1 3); OMigrate (B "ct.example") (B "/a//")] [(B "log::ct.example/c/", None)]) (B "ct.example") (B "/a//") =
  mkLog None 0 (B "ct.example/a") 0 0 0 0 /\ B "/a//" = B "/a" ++ repeat slash 2.
Proof. split; vm_compute; reflexivity. Qed.

(** A state that cannot be read back counts as a brand-new log. *)
Theorem C27_unreadable_state_refuted : exists m host path,
  alookup (logKey (shortURL host path)) m <> None /\ getLogState m host path = freshLog (shortURL host path).
Proof.
  exists [(B "log::ct.example/a", None)], (B "ct.example"), (B "/a/"). split; [vm_compute; discriminate|vm_compute; reflexivity].
Qed.
Print Assumptions C27_unreadable_state_refuted.

Definition oldLog : ctLog := mkLog None 60 (B "ct.example/a/") 0 5 1 2.
Example C27_case :
  wellKeyed [(B "log::ct.example/a/", Some oldLog); (B "log::ct.example/b", None)] /\
  migrate [(B "log::ct.example/a/", Some oldLog); (B "log::ct.example/b", None)] (B "ct.example") (B "/a/") =
    Ok [(B "log::ct.example/a", Some oldLog); (B "log::ct.example/b", None)] /\
  getLogState (fold_left logStep [OMigrate (B "ct.example") (B "/a"); OSave (mkLog None 60 (B "ct.example/a") 0 9 1 3);
     OMigrate (B "ct.example") (B "/a")] [(B "log::ct.example/a/", Some oldLog)]) (B "ct.example") (B "/a") =
    mkLog None 60 (B "ct.example/a") 0 9 1 3.
Proof.
  split; [|split; vm_compute; reflexivity]. intros k l. cbn [alookup].
  destruct (beq_spec k (B "log::ct.example/a/")) as [->|].
  - intros E. injection E as <-. right. vm_compute. reflexivity.
  - destruct (beq k (B "log::ct.example/b")); discriminate.
Qed.

(** ** C52 *)

(** The file [f] in the directory [name]. *)
Definition hasFile (t : tree) (name f : bytes) : Prop := exists files, In (name, true, files) t /\ In f files.

(** [name] begins with [p]. *)
Definition begins (p name : bytes) : Prop := exists rest, name = p ++ rest.
Lemma hasPrefix_spec p : forall s, hasPrefix p s = true <-> begins p s.
Proof.
  induction p as [|x p IH]; intros s; cbn [hasPrefix]; [split; [intros _; exists s; reflexivity|reflexivity]|].
  destruct s as [|y s]; [split; [discriminate|intros [r E]; discriminate E]|]. rewrite andb_true_iff, IH. split.
  - intros [E [r ->]]. apply Byte.byte_dec_bl in E. subst y. exists r. reflexivity.
  - intros [r E]. injection E as -> ->. split; [apply Byte.byte_dec_lb; reflexivity|exists r; reflexivity].
Qed.

(** Removal of expired bins deletes, inside issuer directories, exactly the files
    with three-part names whose date can be parsed and has expired; no other file
    and nothing outside these directories. *)
Theorem C52_removes_exactly_expired : forall now t name f,
  hasFile (removeExpired now t) name f <->
  hasFile t name f /\
  ~ (begins (B "issuer::") name /\
     exists a d c e, splitColons f = [a; d; c] /\ newExpDate d = Some e /\ (ed_lastGood e < now)%Z).
Proof.
  intros now t name f.
  assert (R : removable now f = true <->
    exists a d c e, splitColons f = [a; d; c] /\ newExpDate d = Some e /\ (ed_lastGood e < now)%Z).
  { unfold removable. split.
    - destruct (splitColons f) as [|a [|d [|c [|]]]]; try discriminate. destruct (newExpDate d) as [e|] eqn:E; [|discriminate].
      intros H. exists a, d, c, e. split; [reflexivity|]. split; [exact E|]. unfold isExpiredAt in H. lia.
    - intros (a & d & c & e & E1 & E2 & E3). rewrite E1, E2. unfold isExpiredAt. lia. }
  rewrite <- R, <- hasPrefix_spec. unfold hasFile, removeExpired. split.
  - intros (files & Hin & Hf). apply in_flat_map in Hin. destruct Hin as ([[n d] fs] & Ht & Hin).
    destruct (d && hasPrefix (B "issuer::") n) eqn:C.
    + destruct (filter (fun f => negb (removable now f)) fs) as [|y ys] eqn:F; [destruct Hin|].
      destruct Hin as [E|[]]. injection E as <- -> <-. rewrite <- F in Hf. apply filter_In in Hf. destruct Hf as [Hf1 Hf2].
      split; [exists fs; auto|]. intros [_ Q]. rewrite Q in Hf2. discriminate.
    + destruct Hin as [E|[]]. injection E as -> -> ->. split; [exists files; auto|]. intros [Q _]. rewrite Q in C. discriminate.
  - intros ((files & Hin & Hf) & N). destruct (hasPrefix (B "issuer::") name) eqn:P.
    + exists (filter (fun f => negb (removable now f)) files).
      assert (Hf' : In f (filter (fun f => negb (removable now f)) files)).
      { apply filter_In. split; [exact Hf|]. destruct (removable now f); [exfalso; apply N; auto|reflexivity]. }
      split; [|exact Hf']. apply in_flat_map. exists (name, true, files). split; [exact Hin|]. cbn [andb]. rewrite P.
      destruct (filter _ files); [destruct Hf'|left; reflexivity].
    + exists files. split; [|exact Hf]. apply in_flat_map. exists (name, true, files). split; [exact Hin|].
      cbn [andb]. rewrite P. left; reflexivity.
Qed.
Print Assumptions C52_removes_exactly_expired.

(** For files of bins: the file of the hour of [t] stays as long as a certificate
    that expires at [t] can be valid, and goes once the hour is over. *)
Theorem C52_bin_file : forall now tr t d,
  (0 <= yearOf t <= 9999)%Z ->
  let name := issuerDirName (issuerID d) in
  let f := serialKey (expID (newExpDateFromTime t)) (issuerID d) in
  hasFile tr name f ->
  (hasFile (removeExpired now tr) name f <-> (now <= truncHour t + nsHour - nsMilli)%Z).
Proof.
  intros now tr t d Y name f H.
  assert (SF : splitColons f = [B "serials"; expID (newExpDateFromTime t); issuerID d]).
  { apply splitColons_key; [|apply issuerID_noColon]. apply plain_noColon, plain_formatHour. }
  rewrite C52_removes_exactly_expired. split.
  - intros [_ N]. destruct (Z.le_gt_cases now (truncHour t + nsHour - nsMilli)) as [L|L]; [exact L|]. exfalso. apply N.
    split; [exists (issuerID d); reflexivity|]. exists (B "serials"), (expID (newExpDateFromTime t)), (issuerID d),
      (mkExp (truncHour t) (truncHour t + nsHour - nsMilli) true).
    split; [exact SF|]. split; [apply newExpDate_hourID; exact Y|cbn [ed_lastGood]; lia].
  - intros L. split; [exact H|]. intros (_ & a & dd & c & e & E1 & E2 & E3). rewrite SF in E1. injection E1 as <- <- <-.
    rewrite newExpDate_hourID in E2 by exact Y. injection E2 as <-. cbn [ed_lastGood] in E3. lia.
Qed.
Print Assumptions C52_bin_file.

(** Listing the storage yields exactly the [serials::] files of issuer directories. *)
Theorem C52_listing : forall t f, In f (listStorage t) <->
  exists name, hasFile t name f /\ begins (B "issuer::") name /\ begins (B "serials::") f.
Proof.
  intros t f. setoid_rewrite <- hasPrefix_spec. unfold listStorage, hasFile. rewrite in_flat_map. split.
  - intros ([[n d] fs] & H1 & H2). destruct (d && hasPrefix (B "issuer::") n) eqn:C; [|destruct H2].
    apply andb_prop in C. destruct C as [-> C]. apply filter_In in H2. exists n. split; [exists fs; split; [exact H1|apply H2]|].
    split; [exact C|apply H2].
  - intros (name & (files & H1 & H2) & P1 & P2). exists (name, true, files). split; [exact H1|]. cbn [andb]. rewrite P1.
    apply filter_In. auto.
Qed.
Print Assumptions C52_listing.

Example C52_case :
  removeExpired (1709251200 * nsSecond)
    [(B "issuer::A", true, [B "serials::2024-02-29-22::A"; B "serials::2024-02-29-23::A"; B "serials::2024-03-01-00::A"; B "notes"]);
     (B "issuer::B", true, [B "serials::2023-01-01::B"]); (B "other", true, [B "serials::2023-01-01::C"])] =
    [(B "issuer::A", true, [B "serials::2024-03-01-00::A"; B "notes"]); (B "other", true, [B "serials::2023-01-01::C"])].
Proof. vm_compute. reflexivity. Qed.
