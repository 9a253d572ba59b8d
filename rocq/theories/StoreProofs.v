(** * Proofs about StoreModel.v *)
From Verif Require Import Base MerkleModel SerialModel SerialProofs TimeModel TimeProofs Base64 StoreModel.

(** ** Splitting at double colons *)
Definition noColon (s : bytes) : Prop := ~ In colon s.

(** The parts joined by double colons. *)
Fixpoint joinColons (parts : list bytes) : bytes :=
  match parts with
  | [] => []
  | [p] => p
  | p :: ps => p ++ colon :: colon :: joinColons ps
  end.

Lemma eqb_colon_refl : Byte.eqb colon colon = true. Proof. reflexivity. Qed.

Lemma split2c_last p : forall acc, noColon p -> split2c acc p = [rev acc ++ p].
Proof.
  induction p as [|c p IH]; intros acc N; cbn [split2c].
  - rewrite app_nil_r. reflexivity.
  - destruct (byte_eqb_spec c colon) as [->|Nc]; [exfalso; apply N; left; reflexivity|].
    rewrite IH by (intros H; apply N; right; exact H). cbn [rev]. rewrite <- app_assoc. reflexivity.
Qed.

Lemma split2c_part p rest : forall acc, noColon p ->
  split2c acc (p ++ colon :: colon :: rest) = (rev acc ++ p) :: split2c [] rest.
Proof.
  induction p as [|c p IH]; intros acc N; cbn [split2c app].
  - rewrite eqb_colon_refl, app_nil_r. reflexivity.
  - destruct (byte_eqb_spec c colon) as [->|Nc]; [exfalso; apply N; left; reflexivity|].
    rewrite IH by (intros H; apply N; right; exact H). cbn [rev]. rewrite <- app_assoc. reflexivity.
Qed.

Lemma splitColons_join parts : parts <> [] -> (forall p, In p parts -> noColon p) ->
  splitColons (joinColons parts) = parts.
Proof.
  unfold splitColons. induction parts as [|p [|q ps] IH]; intros N H; [congruence| |].
  - cbn [joinColons]. rewrite split2c_last by (apply H; left; reflexivity). reflexivity.
  - change (joinColons (p :: q :: ps)) with (p ++ colon :: colon :: joinColons (q :: ps)).
    rewrite split2c_part by (apply H; left; reflexivity). cbn [rev app]. f_equal.
    apply IH; [discriminate|]. intros r Hr. apply H. right; exact Hr.
Qed.

Lemma serialKey_join e i : serialKey e i = joinColons [B "serials"; e; i].
Proof. reflexivity. Qed.

Lemma noColon_serials : noColon (B "serials").
Proof. intros H. cbv in H. intuition discriminate. Qed.

Lemma splitColons_key e i : noColon e -> noColon i -> splitColons (serialKey e i) = [B "serials"; e; i].
Proof.
  intros He Hi. rewrite serialKey_join. apply splitColons_join; [discriminate|].
  intros p [<-|[<-|[<-|[]]]]; [exact noColon_serials|exact He|exact Hi].
Qed.

(** ** Identifiers *)
Lemma digit_plain n : In (digit (n mod 10)) (B "0123456789").
Proof.
  assert (H : (0 <= n mod 10 < 10)%Z) by (apply Z.mod_pos_bound; lia).
  assert (C : (n mod 10 = 0 \/ n mod 10 = 1 \/ n mod 10 = 2 \/ n mod 10 = 3 \/ n mod 10 = 4 \/ n mod 10 = 5 \/ n mod 10 = 6 \/
    n mod 10 = 7 \/ n mod 10 = 8 \/ n mod 10 = 9)%Z) by lia.
  repeat (destruct C as [->|C]; [vm_compute; auto 12|]). rewrite C. vm_compute. auto 12.
Qed.

Definition plain (s : bytes) : Prop := forall x, In x s -> In x (B "0123456789-").

Lemma plain_app s t : plain s -> plain t -> plain (s ++ t).
Proof. intros A C x H. apply in_app_or in H. destruct H; auto. Qed.

Lemma plain_digit n : plain [digit (n mod 10)].
Proof. intros x [<-|[]]. pose proof (digit_plain n) as H. cbn in H. cbn. intuition auto. Qed.

Lemma plain_fixed k : forall n, plain (decFixed k n).
Proof.
  induction k as [|k IH]; intros n; cbn [decFixed]; [intros x []|].
  apply plain_app; [apply IH|apply plain_digit].
Qed.

Lemma plain_dash : plain (B "-").
Proof. intros x [<-|[]]. cbn. auto 20. Qed.

Lemma plain_formatDay t : plain (formatDay t).
Proof.
  unfold formatDay. destruct (civilOfDays (t / nsDay)) as [[y m] d].
  apply plain_app; [apply plain_fixed|]. apply plain_app; [apply plain_dash|]. apply plain_app; [apply plain_fixed|].
  apply plain_app; [apply plain_dash|apply plain_fixed].
Qed.

Lemma plain_formatHour t : plain (formatHour t).
Proof. unfold formatHour. apply plain_app; [apply plain_formatDay|]. apply plain_app; [apply plain_dash|apply plain_fixed]. Qed.

Lemma plain_noColon s : plain s -> noColon s.
Proof. intros P H. apply P in H. cbv in H. intuition discriminate. Qed.

Lemma issuerID_noColon d : noColon (issuerID d).
Proof.
  intros H. apply (b64encode_chars urlAlphabet url_good) in H. destruct H as [H|H]; [|discriminate].
  cbv in H. repeat (destruct H as [H|H]; [discriminate|]). exact H.
Qed.

Lemma issuerID_noSlash d : ~ In slash (issuerID d).
Proof.
  intros H. apply (b64encode_chars urlAlphabet url_good) in H. destruct H as [H|H]; [|discriminate].
  cbv in H. repeat (destruct H as [H|H]; [discriminate|]). exact H.
Qed.

Lemma issuerID_inj d d' : issuerID d = issuerID d' -> d = d'.
Proof. apply b64encode_inj. exact url_good. Qed.

Lemma issuerID_length d : length d = 32%nat -> length (issuerID d) = 44%nat.
Proof. intros H. unfold issuerID. rewrite b64encode_length, H. reflexivity. Qed.

Lemma app_cut {A} (x y x' y' : list A) : x ++ y = x' ++ y' -> length x = length x' -> x = x' /\ y = y'.
Proof.
  revert x'; induction x as [|a x IH]; intros [|a' x'] E L; cbn in *; try discriminate; [auto|].
  injection E as -> E. destruct (IH x' E) as [-> ->]; [lia|auto].
Qed.

(** ** Grouping *)
Definition entryDate (iss : bytes) (parts : list bytes) : list expDate :=
  match parts with
  | [_; d; i] => if beq i iss then match newExpDate d with Some e => [e] | None => [] end else []
  | _ => []
  end.
Definition datesOf (iss : bytes) (ps : list (list bytes)) : list expDate := flat_map (entryDate iss) ps.

Lemma groupLoop_ok : forall ps m, NoDup (map fst m) ->
  (forall p, In p ps -> length p = 3%nat /\ forall x, In x p -> noColon x) ->
  exists m', groupLoop m (map joinColons ps) = Ok m' /\ NoDup (map fst m') /\
    forall iss, alookup iss m' =
      match alookup iss m, datesOf iss ps with
      | Some l, ds => Some (l ++ ds)
      | None, [] => None
      | None, ds => Some ds
      end.
Proof.
  induction ps as [|p ps IH]; intros m ND H; cbn [map groupLoop].
  - exists m. split; [reflexivity|]. split; [exact ND|]. intros iss. cbn.
    destruct (alookup iss m); [rewrite app_nil_r|]; reflexivity.
  - destruct (H p (or_introl eq_refl)) as [L C].
    assert (H' : forall q, In q ps -> length q = 3%nat /\ forall x, In x q -> noColon x) by (intros q Hq; apply H; right; exact Hq).
    destruct p as [|a [|d [|i [|]]]]; try discriminate L.
    rewrite splitColons_join by (try discriminate; exact C).
    destruct (newExpDate d) as [e|] eqn:E.
    + set (old := match alookup i m with Some l => l | None => [] end).
      destruct (IH (aset i (old ++ [e]) m) (aset_nodup _ _ _ ND) H') as (m' & G & ND' & A).
      exists m'. split; [exact G|]. split; [exact ND'|]. intros iss. rewrite A. unfold datesOf. cbn [flat_map entryDate]. rewrite E.
      destruct (beq_spec i iss) as [->|N].
      * rewrite alookup_aset_same. unfold old. destruct (alookup iss m); [rewrite <- app_assoc|]; reflexivity.
      * rewrite alookup_aset_other by congruence. reflexivity.
    + destruct (IH m ND H') as (m' & G & ND' & A).
      exists m'. split; [exact G|]. split; [exact ND'|]. intros iss. rewrite A. unfold datesOf. cbn [flat_map entryDate]. rewrite E.
      destruct (beq i iss); reflexivity.
Qed.

Lemma groupLoop_err : forall ps m,
  (forall p, In p ps -> p <> [] /\ forall x, In x p -> noColon x) ->
  (exists p, In p ps /\ length p <> 3%nat) -> groupLoop m (map joinColons ps) = Err.
Proof.
  induction ps as [|p ps IH]; intros m H (q & Hq & L); [destruct Hq|].
  cbn [map groupLoop]. destruct (H p (or_introl eq_refl)) as [N C]. rewrite splitColons_join by assumption.
  assert (H' : forall r, In r ps -> r <> [] /\ forall x, In x r -> noColon x) by (intros r Hr; apply H; right; exact Hr).
  destruct Hq as [->|Hq].
  - destruct q as [|a [|d [|i [|]]]]; try reflexivity. exfalso; apply L; reflexivity.
  - destruct p as [|a [|d [|i [|]]]]; try reflexivity.
    destruct (newExpDate d); apply IH; eauto.
Qed.

Lemma alookup_in {V} (m : list (bytes * V)) k v : NoDup (map fst m) -> (In (k, v) m <-> alookup k m = Some v).
Proof.
  induction m as [|[k' v'] m IH]; cbn [map fst In alookup]; intros ND.
  - split; [intros []|discriminate].
  - inversion ND as [|? ? N ND']; subst. destruct (beq_spec k k') as [->|Nk].
    + split.
      * intros [E|H]; [congruence|]. exfalso. apply N. apply (in_map fst _ _ H).
      * intros E. left. congruence.
    + rewrite <- IH by exact ND'. split; [intros [E|H]; [congruence|exact H]|auto].
Qed.

(** ** Batches *)
Definition without (gone set : list bytes) : list bytes := filter (fun x => negb (existsb (beq x) gone)) set.

Lemma without_app a b set : without b (without a set) = without (a ++ b) set.
Proof.
  unfold without. induction set as [|x set IH]; cbn [filter]; [reflexivity|].
  rewrite existsb_app. destruct (existsb (beq x) a); cbn [negb orb filter]; [exact IH|].
  destruct (existsb (beq x) b); cbn [negb]; rewrite IH; reflexivity.
Qed.

Lemma slice_ok {A} (l : list A) lo hi : (lo <= hi <= length l)%nat ->
  slice l lo hi = Some (firstn (hi - lo) (skipn lo l)).
Proof. intros H. unfold slice. replace (lo <=? hi)%nat with true by lia. replace (hi <=? length l)%nat with true by lia. reflexivity. Qed.

Lemma firstn_plus {A} n m (l : list A) : firstn (n + m) l = firstn n l ++ firstn m (skipn n l).
Proof.
  revert l; induction n as [|n IH]; intros l; [reflexivity|]. destruct l as [|x l]; [cbn; rewrite firstn_nil; reflexivity|].
  cbn [plus firstn skipn app]. rewrite IH. reflexivity.
Qed.

Lemma removeLoop_spec bs fails entries set0 (BS : (0 < bs)%nat) : forall fuel start i set sent,
  (length entries - start < fuel)%nat ->
  concat sent = firstn start entries -> set = without (concat sent) set0 ->
  (forall b, In b sent -> (1 <= length b <= bs)%nat) -> length sent = i ->
  (start = bs * i \/ length entries <= start)%nat ->
  (forall j, (j < i)%nat -> fails j = false) ->
  exists set' sent' out, removeLoop fuel bs start fails i entries set sent = (set', sent', out) /\
    set' = without (concat sent') set0 /\
    (forall b, In b sent' -> (1 <= length b <= bs)%nat) /\
    (forall j, (j < length sent')%nat -> fails j = false) /\
    match out with
    | Done => concat sent' = entries
    | Failed => concat sent' = firstn (bs * length sent') entries /\ (bs * length sent' < length entries)%nat /\
        fails (length sent') = true
    | _ => False
    end.
Proof.
  induction fuel as [|fuel IH]; intros start i set sent F C S L LI ST NF; [lia|].
  cbn [removeLoop]. destruct (start <? length entries)%nat eqn:E.
  - destruct ST as [ST|ST]; [|lia].
    set (be := if (length entries <? start + bs)%nat then length entries else (start + bs)%nat).
    assert (BE : (start < be <= length entries)%nat /\ (be - start <= bs)%nat /\ firstn be entries = firstn (start + bs) entries).
    { unfold be. destruct (length entries <? start + bs)%nat eqn:E2; [|split; [lia|split; [lia|reflexivity]]].
      split; [lia|]. split; [lia|]. rewrite firstn_all. rewrite firstn_all2 by lia. reflexivity. }
    destruct BE as (B1 & B2 & B3). rewrite slice_ok by lia.
    destruct (fails i) eqn:FI.
    + exists set, sent, Failed. split; [reflexivity|]. split; [exact S|]. split; [exact L|].
      rewrite LI. split; [exact NF|]. rewrite C, ST. split; [reflexivity|]. split; [lia|exact FI].
    + apply IH.
      * lia.
      * rewrite concat_app. cbn [concat]. rewrite app_nil_r, C. rewrite <- B3.
        replace be with (start + (be - start))%nat at 2 by lia. rewrite firstn_plus. reflexivity.
      * rewrite S, concat_app. cbn [concat]. rewrite app_nil_r. rewrite <- without_app. reflexivity.
      * intros b Hb. apply in_app_or in Hb. destruct Hb as [Hb|[<-|[]]]; [auto|].
        rewrite firstn_length, skipn_length. lia.
      * rewrite app_length. cbn [length]. lia.
      * left. lia.
      * intros j Hj. destruct (Nat.eq_dec j i) as [->|]; [exact FI|]. apply NF. lia.
  - exists set, sent, Done. split; [reflexivity|]. split; [exact S|]. split; [exact L|]. split; [rewrite LI; exact NF|].
    rewrite C. apply firstn_all2. lia.
Qed.

Lemma moveLoop_spec {A} bs0 fails (bins : list A) : forall fuel bs start rounds,
  (length bins - start < fuel)%nat -> (0 < bs <= bs0)%nat -> (start <= length bins)%nat ->
  concat rounds = firstn start bins -> (forall b, In b rounds -> (1 <= length b <= bs0)%nat /\ fails b = false) ->
  exists rounds' out, moveLoop fuel bs start fails bins rounds = (rounds', out) /\
    (forall b, In b rounds' -> (1 <= length b <= bs0)%nat) /\
    match out with
    | Done => concat rounds' = bins /\ forall b, In b rounds' -> fails b = false
    | Failed => exists pre last post, rounds' = pre ++ [last] /\ bins = concat rounds' ++ post /\ fails last = true /\
        forall b, In b pre -> fails b = false
    | _ => False
    end.
Proof.
  induction fuel as [|fuel IH]; intros bs start rounds F BS SL C L; [lia|].
  cbn [moveLoop]. destruct (start <? length bins)%nat eqn:E.
  - set (bs' := if (length bins <? start + bs)%nat then (length bins - start)%nat else bs).
    assert (B : (0 < bs' <= bs)%nat /\ (start + bs' <= length bins)%nat).
    { unfold bs'. destruct (length bins <? start + bs)%nat eqn:E2; lia. }
    destruct B as [B1 B2]. rewrite slice_ok by lia.
    replace (start + bs' - start)%nat with bs' by lia.
    assert (LB : length (firstn bs' (skipn start bins)) = bs') by (rewrite firstn_length, skipn_length; lia).
    assert (CC : concat (rounds ++ [firstn bs' (skipn start bins)]) = firstn (start + bs') bins).
    { rewrite concat_app. cbn [concat]. rewrite app_nil_r, C, firstn_plus. reflexivity. }
    destruct (fails (firstn bs' (skipn start bins))) eqn:FB.
    + exists (rounds ++ [firstn bs' (skipn start bins)]), Failed. split; [reflexivity|]. split.
      * intros b Hb. apply in_app_or in Hb. destruct Hb as [Hb|[<-|[]]]; [apply L; exact Hb|lia].
      * exists rounds, (firstn bs' (skipn start bins)), (skipn (start + bs') bins). split; [reflexivity|].
        split; [rewrite CC, firstn_skipn; reflexivity|]. split; [exact FB|]. intros b Hb. apply L. exact Hb.
    + apply IH; try lia; [exact CC|]. intros b Hb. apply in_app_or in Hb. destruct Hb as [Hb|[<-|[]]]; [apply L; exact Hb|].
      split; [lia|exact FB].
  - exists rounds, Done. split; [reflexivity|]. split; [intros b Hb; apply L; exact Hb|].
    split; [rewrite C; apply firstn_all2; lia|intros b Hb; apply L; exact Hb].
Qed.

(** ** Inserting *)
Definition members (c : cacheSets) (k : bytes) : list bytes := match alookup k c with Some (l, _) => l | None => [] end.

Lemma insertOne_members c key value expiry k v :
  In v (members (insertOne c (key, value, expiry)) k) <-> In v (members c k) \/ (k = key /\ v = value).
Proof.
  unfold members, insertOne. destruct (bytes_eq_dec k key) as [->|N].
  - rewrite alookup_aset_same. set (old := match alookup key c with Some (l, _) => l | None => [] end).
    destruct (existsb (beq value) old) eqn:E.
    + split; [auto|]. intros [H|[_ ->]]; [exact H|]. apply existsb_exists in E. destruct E as (y & Hy & Q).
      apply beq_eq in Q. subst y. exact Hy.
    + cbn [In]. split; [intros [<-|H]; auto|intros [H|[_ ->]]; auto].
  - rewrite alookup_aset_other by exact N. split; [auto|intros [H|[E _]]; [exact H|contradiction]].
Qed.

(** ** Trailing slashes *)
Lemma dropSlashes_idem s : dropSlashes (dropSlashes s) = dropSlashes s.
Proof.
  induction s as [|c s IH]; [reflexivity|]. cbn [dropSlashes]. destruct (Byte.eqb c slash) eqn:E; [exact IH|].
  cbn [dropSlashes]. rewrite E. reflexivity.
Qed.
Lemma trim_idem s : trimSlashes (trimSlashes s) = trimSlashes s.
Proof. unfold trimSlashes. rewrite rev_involutive, dropSlashes_idem. reflexivity. Qed.
Lemma trim_slash s : trimSlashes (s ++ [slash]) = trimSlashes s.
Proof. unfold trimSlashes. rewrite rev_app_distr. reflexivity. Qed.

Lemma dropSlashes_head s c r : dropSlashes s = c :: r -> c <> slash.
Proof.
  induction s as [|x s IH]; cbn [dropSlashes]; [discriminate|]. destruct (byte_eqb_spec x slash); [exact IH|].
  intros E. injection E as <- <-. assumption.
Qed.

Lemma logKey_no_slash u s : logKey u <> s ++ [slash].
Proof.
  unfold logKey, trimSlashes. intros E. apply (f_equal (@rev byte)) in E. rewrite !rev_app_distr, rev_involutive in E.
  destruct (dropSlashes (rev u)) as [|c r] eqn:D.
  - discriminate E.
  - apply dropSlashes_head in D. injection E as E _. contradiction.
Qed.

Lemma logKey_trim u v : logKey u = logKey v <-> trimSlashes u = trimSlashes v.
Proof. unfold logKey. split; intros H; [apply app_inv_head in H; exact H|congruence]. Qed.

Lemma store_lookup m l k : alookup k (storeLogState m l) = if beq k (logKey (lg_url l)) then Some (Some l) else alookup k m.
Proof.
  unfold storeLogState. destruct (beq_spec k (logKey (lg_url l))) as [->|N].
  - apply alookup_aset_same.
  - apply alookup_aset_other. exact N.
Qed.
