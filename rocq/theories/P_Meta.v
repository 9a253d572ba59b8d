(** * C86: what tests with the in-memory cache say about Redis *)
From Verif Require Import Base MerkleModel SerialModel PublishModel StoreModel EpochModel RetryModel P_Store P_Epoch MetaModel.
From Coq Require Import Strings.Byte.
Local Open Scope Z_scope.

(** ** Specification *)

(** The addresses an operation names. *)
Definition urls (o : op) : list bytes :=
  match o with
  | StoreLog l => [lg_url l]
  | LoadLog u => [u]
  | RestoreAll _ l _ => map lg_url l
  | _ => []
  end.
Definition slashless (u : bytes) : Prop := forall p, u <> p ++ [slash].
(** A history of less than four hours, over addresses without a slash at the end, and with
    epochs far from the largest number Redis can count to. *)
Definition ordinary (t0 : Z) (h : list (Z * op)) : Prop :=
  (forall now o, In (now, o) h -> t0 <= now <= t0 + 14400) /\
  (forall now o u, In (now, o) h -> In u (urls o) -> slashless u) /\
  (forall now e l token, In (now, RestoreAll e l token) h -> (e + N.of_nat (length h) < 2 ^ 63 - 1)%N) /\
  (N.of_nat (length h) < 2 ^ 63 - 1)%N.
(** No restoring is refused by Redis. *)
Definition restored (h : list (Z * op)) (answers : list ans) : Prop :=
  forall i now e l token, nth_error h i = Some (now, RestoreAll e l token) -> nth_error answers i = Some (ADone true).

(** ** Proofs *)

Definition some (e : bytes * ctLog) : bytes * option ctLog := (fst e, Some (snd e)).
Lemma some_remove k m : map some (aremove k m) = aremove k (map some m).
Proof. induction m as [|[k' v] m IH]; [reflexivity|]. cbn [aremove map some fst snd]. destruct (beq k k'); [exact IH|]. cbn [map some fst snd]. rewrite IH. reflexivity. Qed.
Lemma some_set k v m : map some (aset k v m) = aset k (Some v) (map some m).
Proof. unfold aset. cbn [map some fst snd]. rewrite some_remove. reflexivity. Qed.
Lemma some_lookup k m : alookup k (map some m) = match alookup k m with Some v => Some (Some v) | None => None end.
Proof. induction m as [|[k' v] m IH]; [reflexivity|]. cbn [alookup map some fst snd]. destruct (beq k k'); [reflexivity|exact IH]. Qed.
Lemma some_all m : allOf (map some m) = Some (map snd m).
Proof. induction m as [|[k v] m IH]; [reflexivity|]. cbn [map some fst snd allOf]. rewrite IH. reflexivity. Qed.
Lemma trim_same u : slashless u -> trimSlashes u = u.
Proof. intros H. pose proof (trim_exact u 0 H) as E. cbn [repeat] in E. rewrite app_nil_r in E. exact E. Qed.
Lemma store_same m l : slashless (lg_url l) -> storeLogState (map some m) l = map some (mStore m l).
Proof. intros H. unfold storeLogState, mStore, logKey. rewrite (trim_same _ H), some_set. reflexivity. Qed.
Lemma stores_same : forall ls m, (forall u, In u (map lg_url ls) -> slashless u) -> fold_left storeLogState ls (map some m) = map some (fold_left mStore ls m).
Proof.
  induction ls as [|l ls IH]; intros m H; [reflexivity|]. cbn [fold_left]. rewrite store_same by (apply H; left; reflexivity). apply IH. intros u I. apply H. right. exact I.
Qed.
(** No key ends in a slash. *)
Definition unslashed (m : list (bytes * ctLog)) : Prop := forall k, alookup (k ++ [slash]) m = None.
Lemma slash_key k u : slashless u -> k ++ [slash] <> B "log::" ++ u.
Proof.
  intros H E. destruct u as [|c u]; [apply (f_equal (@rev byte)) in E; rewrite rev_app_distr in E; discriminate E|].
  destruct (exists_last (l := c :: u) ltac:(discriminate)) as [u' [d E']]. rewrite E' in *. rewrite app_assoc in E. apply app_inj_tail in E. destruct E as [_ <-]. exact (H u' eq_refl).
Qed.
Lemma unslashed_store m l : slashless (lg_url l) -> unslashed m -> unslashed (mStore m l).
Proof. intros H U k. unfold mStore. rewrite alookup_aset_other by (apply slash_key; exact H). apply U. Qed.
Lemma unslashed_stores : forall ls m, (forall u, In u (map lg_url ls) -> slashless u) -> unslashed m -> unslashed (fold_left mStore ls m).
Proof.
  induction ls as [|l ls IH]; intros m H U; [exact U|]. cbn [fold_left]. apply IH; [intros u I; apply H; right; exact I|]. apply unslashed_store; [apply H; left; reflexivity|exact U].
Qed.

Definition lockSame (t0 : Z) (l : option bytes) (s : store) : Prop :=
  match l with
  | None => alookup lockKey s = None
  | Some t => exists d, t0 + 14400 <= d /\ alookup lockKey s = Some (VStr t, Some d)
  end.
Definition epochSame (e : N) (s : store) : Prop :=
  alookup epochKey s = None /\ e = 0%N \/ alookup epochKey s = Some (VStr (decText e), None).
Definition same (t0 : Z) (r : redis) (m : mock) : Prop :=
  r_logs r = map some (m_logs m) /\ unslashed (m_logs m) /\ lockSame t0 (m_lock m) (r_keys r) /\ epochSame (m_epoch m) (r_keys r).

Lemma keys_differ : lockKey <> epochKey. Proof. discriminate. Qed.
Lemma has_same t0 now l s token : now <= t0 + 14400 -> lockSame t0 l s -> hasLock now token s = match l with Some t => beq t token | None => false end.
Proof.
  intros T L. unfold hasLock. cbn [exec fst]. unfold live. destruct l as [t|]; cbn [lockSame] in L; [|rewrite L; reflexivity].
  destruct L as (d & D & ->). destruct (Z.leb_spec now d); [reflexivity|lia].
Qed.
Lemma acquire_same t0 now l s token : t0 <= now <= t0 + 14400 -> lockSame t0 l s ->
  acquire token (once now) true s = match l with Some _ => (None, s) | None => (Some token, aset lockKey (VStr token, Some (now + lockTime)) s) end.
Proof.
  intros T L. unfold acquire, once. cbn [deliver at_others at_now at_done execs exec]. unfold live. destruct l as [t|]; cbn [lockSame] in L; [|rewrite L; reflexivity].
  destruct L as (d & D & ->). destruct (Z.leb_spec now d); [reflexivity|lia].
Qed.
Lemma release_same now token s : release token now (once now) s = if hasLock now token s then aremove lockKey s else s.
Proof. unfold release, once. cbn [deliver at_others at_now at_done execs exec]. destruct (hasLock now token s); reflexivity. Qed.

Lemma step_same t0 b now o r m : t0 <= now <= t0 + 14400 -> (forall u, In u (urls o) -> slashless u) -> (m_epoch m < b)%N -> (b < 2 ^ 63 - 1)%N ->
  same t0 r m -> (forall e l token, o = RestoreAll e l token -> fst (rstep now o r) = ADone true) ->
  fst (rstep now o r) = fst (mstep o m) /\ same t0 (snd (rstep now o r)) (snd (mstep o m)) /\
  (m_epoch (snd (mstep o m)) <= m_epoch m + 1 \/ exists l token, o = RestoreAll (m_epoch (snd (mstep o m))) l token)%N.
Proof.
  intros T U EB BB (SL & SU & SK & SE) RE. destruct r as [keys logs]. cbn [r_logs r_keys] in *. subst logs. destruct m as [ml mk me]. cbn [m_logs m_lock m_epoch] in *.
  destruct o as [l|u| |host path|token|token|token| | |e l token]; cbn [rstep mstep m_logs m_lock m_epoch r_logs r_keys fst snd].
  - split; [reflexivity|]. split; [|left; lia]. assert (H : slashless (lg_url l)) by (apply U; left; reflexivity). unfold same. cbn [r_logs r_keys m_logs m_lock m_epoch].
    rewrite store_same by exact H. split; [reflexivity|]. split; [apply unslashed_store; assumption|]. split; assumption.
  - split; [|split; [repeat split; assumption|left; lia]]. unfold loadLogState, logKey. rewrite (trim_same u) by (apply U; left; reflexivity). rewrite some_lookup. destruct (alookup (B "log::" ++ u) ml); reflexivity.
  - rewrite some_all. split; [reflexivity|]. split; [repeat split; assumption|left; lia].
  - unfold migrate. cbv zeta. rewrite some_lookup, SU. cbn [fst snd]. split; [reflexivity|]. split; [repeat split; assumption|left; lia].
  - rewrite (acquire_same t0 now mk keys token T SK). destruct mk as [t|]; cbn [fst snd].
    + split; [reflexivity|]. split; [repeat split; assumption|left; cbn [m_epoch]; lia].
    + split; [reflexivity|]. split; [|left; cbn [m_epoch]; lia]. split; [reflexivity|]. split; [exact SU|]. cbn [r_keys m_lock m_epoch]. split.
      * exists (now + lockTime). split; [unfold lockTime; lia|apply alookup_aset_same].
      * unfold epochSame. rewrite alookup_aset_other by discriminate. exact SE.
  - split; [reflexivity|]. rewrite release_same, (has_same t0 now mk keys token (proj2 T) SK). unfold mHas. cbn [m_lock]. split; [|left; destruct (match mk with Some t => beq t token | None => false end); cbn [m_epoch]; lia].
    destruct (match mk with Some t => beq t token | None => false end); [|repeat split; assumption]. split; [reflexivity|]. split; [exact SU|]. cbn [r_keys m_lock m_epoch lockSame]. split; [apply alookup_aremove_same|].
    unfold epochSame. rewrite alookup_aremove_other by discriminate. exact SE.
  - rewrite (has_same t0 now mk keys token (proj2 T) SK). split; [reflexivity|]. split; [repeat split; assumption|left; lia].
  - split; [|split; [repeat split; assumption|left; lia]]. assert (H : holds (epochText now keys) me).
    { unfold epochText, live. destruct SE as [[-> ->]| ->]; [left; split; reflexivity|right; reflexivity]. }
    assert (me < 2 ^ 64)%N by lia. rewrite (holds_says _ me) by assumption. reflexivity.
  - unfold nextEpoch, once. cbn [deliver at_others at_now at_done execs exec].
    assert (X : exec now (Incr epochKey) keys = (ROk, aset epochKey (VStr (decText (me + 1)), None) keys)).
    { cbn [exec]. unfold live. destruct SE as [[-> ->]| ->]; [reflexivity|]. rewrite (incr_spec (Some (decText me)) me) by (right; reflexivity). destruct (N.ltb_spec me (2 ^ 63 - 1)); [reflexivity|lia]. }
    cbn [exec] in X. rewrite X. cbn [fst snd]. rewrite N.mod_small by lia. split; [reflexivity|]. split; [|left; cbn [m_epoch]; lia].
    split; [reflexivity|]. split; [exact SU|]. cbn [r_keys m_lock m_epoch]. split; [|right; apply alookup_aset_same].
    unfold lockSame in *. destruct mk as [t|]; [destruct SK as (d & D & L); exists d; split; [exact D|]|]; rewrite alookup_aset_other by discriminate; assumption.
  - specialize (RE e l token eq_refl). cbn [rstep r_keys r_logs] in RE. rewrite (acquire_same t0 now mk keys token T SK) in *. destruct mk as [t|]; [discriminate RE|]. cbn [fst snd]. clear RE. split; [reflexivity|].
    split; [|right; exists l, token; reflexivity]. unfold same. cbn [r_logs r_keys m_logs m_lock m_epoch]. split; [exact (stores_same l [] U)|]. split; [apply unslashed_stores; [exact U|intros k; reflexivity]|].
    set (K := aset epochKey (VStr (decText e), None) (aset lockKey (VStr token, Some (now + lockTime)) keys)).
    assert (L : alookup lockKey K = Some (VStr token, Some (now + lockTime))) by (unfold K; rewrite alookup_aset_other by discriminate; apply alookup_aset_same).
    rewrite release_same. cbn [exec snd]. fold K.
    assert (H : hasLock now token K = true). { unfold hasLock. cbn [exec fst]. unfold live. rewrite L. unfold lockTime. destruct (Z.leb_spec now (now + 14400)); [|lia]. change (beq token token = true); destruct (beq_spec token token); congruence. }
    rewrite H. split; [cbn [lockSame]; apply alookup_aremove_same|]. right. rewrite alookup_aremove_other by discriminate. unfold K. apply alookup_aset_same.
Qed.

(** In every ordinary history both caches give the same answers, unless Redis refuses to be
    restored. *)
Theorem C86_same_answers : forall t0 h, ordinary t0 h -> restored h (ranswers h redisEmpty) ->
  ranswers h redisEmpty = manswers h mockEmpty.
Proof.
  intros t0 h (O1 & O2 & O3 & O4).
  assert (G : forall h' r m, (forall e, In e h' -> In e h) -> same t0 r m ->
    (m_epoch m + N.of_nat (length h') < 2 ^ 63 - 1)%N -> (length h' <= length h)%nat -> restored h' (ranswers h' r) -> ranswers h' r = manswers h' m).
  { clear O4. induction h' as [|[now o] h' IH]; intros r m IN SM EB LEN RE; [reflexivity|]. cbn [ranswers manswers length] in *.
    assert (ST : fst (rstep now o r) = fst (mstep o m) /\ same t0 (snd (rstep now o r)) (snd (mstep o m)) /\
      (m_epoch (snd (mstep o m)) <= m_epoch m + 1 \/ exists l token, o = RestoreAll (m_epoch (snd (mstep o m))) l token)%N).
    { apply (step_same t0 (m_epoch m + 1)); [exact (O1 now o (IN _ (or_introl eq_refl)))|intros u; exact (O2 now o u (IN _ (or_introl eq_refl)))|lia|lia|exact SM|].
      intros e l token ->. specialize (RE 0%nat now e l token eq_refl). destruct (rstep now (RestoreAll e l token) r) as [a r']. cbn [nth_error fst] in *. congruence. }
    destruct (rstep now o r) as [a r']. destruct (mstep o m) as [a' m']. cbn [fst snd] in ST. destruct ST as (-> & S' & E). f_equal. apply IH; [intros e I; apply IN; right; exact I|exact S'| |lia|].
    - destruct E as [E|(l & token & ->)]; [lia|]. specialize (O3 now _ l token (IN _ (or_introl eq_refl))). lia.
    - intros i n e l token H. exact (RE (S i) n e l token H). }
  intros RE. apply G; [intros e I; exact I| |cbn [m_epoch mockEmpty]; lia|lia|exact RE].
  split; [reflexivity|]. split; [intros k; reflexivity|]. split; [reflexivity|left; split; reflexivity].
Qed.
Print Assumptions C86_same_answers.

(** A whole commit, and a cache restored after it. *)
Definition alog : ctLog := mkLog None 60 (B "ct.example/2026") 0 17 3 9.
Definition aday : list (Z * op) :=
  [(0, StoreLog alog); (1, MigrateLog (B "ct.example") (B "/2026/")); (2, Acquire (B "a")); (3, Acquire (B "b")); (4, Has (B "a"));
   (5, Epoch); (6, Next); (7, Next); (8, Release (B "b")); (9, Release (B "a")); (10, RestoreAll 41 [alog] (B "c")); (11, Next); (12, Epoch);
   (13, LoadLog (B "ct.example/2026")); (14400, Acquire (B "d"))].
Example C86_example : ordinary 0 aday /\ restored aday (ranswers aday redisEmpty) /\
  manswers aday mockEmpty = [ADone true; ADone true; AYes true; AYes false; AYes true; ANum (Some 0%N); ADone true; ADone true; ADone true; ADone true; ADone true; ADone true; ANum (Some 42%N); ALog (Some alog); AYes true].
Proof.
  split; [|split; [|vm_compute; reflexivity]].
  - assert (SLASH : slashless (B "ct.example/2026")). { intros p E. apply (f_equal (@rev byte)) in E. rewrite rev_app_distr in E. vm_compute in E. discriminate E. }
    split; [|split; [|split; [|vm_compute; reflexivity]]].
    + intros now o I. cbn in I. repeat (destruct I as [I|I]; [injection I as <- _; lia|]). destruct I.
    + intros now o u I J. cbn in I. repeat (destruct I as [I|I]; [injection I as _ <-; cbn in J; try contradiction; destruct J as [<-|[]]; exact SLASH|]). destruct I.
    + intros now e l token I. cbn in I. repeat (destruct I as [I|I]; [try discriminate I; injection I as _ <- _ _; vm_compute; reflexivity|]). destruct I.
  - intros i now e l token H. do 15 (destruct i as [|i]; [first [discriminate H|vm_compute; reflexivity]|]). destruct i; discriminate H.
Qed.

(** None of the conditions can be left out. *)
(** After four hours Redis gives the lock to the next client, the stand-in never does. *)
Theorem C86_time_refuted : exists h, (forall now o u, In (now, o) h -> In u (urls o) -> slashless u) /\ (forall now e l token, ~ In (now, RestoreAll e l token) h) /\
  ranswers h redisEmpty = [AYes true; AYes true; AYes false] /\ manswers h mockEmpty = [AYes true; AYes false; AYes true].
Proof.
  exists [(0, Acquire (B "a")); (14401, Acquire (B "b")); (14402, Has (B "a"))]. split; [intros now o u [E|[E|[E|[]]]]; injection E as <- <-; intros []|].
  split; [intros now e l token [E|[E|[E|[]]]]; discriminate E|]. split; vm_compute; reflexivity.
Qed.
Print Assumptions C86_time_refuted.
(** Redis finds a log under its address with and without slash, the stand-in does not. *)
Theorem C86_slash_refuted : exists h l, (forall now o, In (now, o) h -> 0 <= now <= 14400) /\ (forall now e ls token, ~ In (now, RestoreAll e ls token) h) /\
  ranswers h redisEmpty = [ADone true; ALog (Some l)] /\ manswers h mockEmpty = [ADone true; ALog None].
Proof.
  set (l := mkLog None 60 (B "ct.example/2026/") 0 17 3 9). exists [(0, StoreLog l); (1, LoadLog (B "ct.example/2026"))], l.
  split; [intros now o [E|[E|[]]]; injection E as <- _; lia|]. split; [intros now e ls token [E|[E|[]]]; discriminate E|]. split; vm_compute; reflexivity.
Qed.
Print Assumptions C86_slash_refuted.
(** Redis is not restored during a commit; the stand-in is, and the commit goes on with
    another epoch. *)
Theorem C86_restore_refuted : exists h, ordinary 0 h /\
  ranswers h redisEmpty = [AYes true; ADone false; AYes true; ANum (Some 0%N)] /\ manswers h mockEmpty = [AYes true; ADone true; AYes true; ANum (Some 9%N)].
Proof.
  exists [(0, Acquire (B "a")); (1, RestoreAll 9 [] (B "b")); (2, Has (B "a")); (3, Epoch)]. split; [|split; vm_compute; reflexivity].
  split; [|split; [|split; [|vm_compute; reflexivity]]].
  - intros now o [E|[E|[E|[E|[]]]]]; injection E as <- _; lia.
  - intros now o u [E|[E|[E|[E|[]]]]]; injection E as <- <-; intros [].
  - intros now e l token [E|[E|[E|[E|[]]]]]; try discriminate E. injection E as _ <- _ _. vm_compute. reflexivity.
Qed.
Print Assumptions C86_restore_refuted.
