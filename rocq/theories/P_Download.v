(** * The downloader: C58 *)
From Verif Require Import Base MerkleModel SerialModel AggModel AggProofs.
From Coq Require Import Strings.Byte.
Local Open Scope Z_scope.

(** The local file is what the server offers, as far as its headers tell: it can
    be examined, has the announced length and is not older. *)
Definition current (e : dlEnv) (f : file) : Prop :=
  de_statErr e = false /\
  exists h lastMod, de_head e = Some h /\ hr_lastMod h = Some lastMod /\ lastMod <= f_mtime f /\
    hr_length h = Some (Z.of_nat (length (f_data f))).

(** The local file can be opened for the answer: it is created or emptied for a
    whole file (200), continued for a part (206), in which case it must exist. *)
Definition opens (e : dlEnv) (t : option file) (status : N) (start : bytes) : Prop :=
  de_openErr e = false /\
  (status = 200%N /\ start = [] \/ status = 206%N /\ exists f, t = Some f /\ start = f_data f).

(** How one attempt may end well: nothing to do, or a complete answer. *)
Inductive settled (e : dlEnv) (t : option file) : option file -> Prop :=
| S_current f : t = Some f -> current e f -> settled e t t
| S_written status chunks lastMod start f :
    (forall g, t = Some g -> ~ current e g) ->
    de_get e = GResp status chunks false lastMod -> opens e t status start -> de_cancelled e = false ->
    f_data f = start ++ concat chunks ->
    (forall m, lastMod = Some m -> de_chtimesErr e = false -> f_mtime f = m) ->
    settled e t (Some f).

(** How one attempt may fail: the file as it was, or what was there to continue
    followed by the part of the answer that arrived. *)
Inductive broken (e : dlEnv) (t : option file) : option file -> Prop :=
| B_same : (forall g, t = Some g -> ~ current e g) ->
    (de_get e = GErr \/ exists status chunks err lastMod, de_get e = GResp status chunks err lastMod /\ forall start, ~ opens e t status start) ->
    broken e t t
| B_part status chunks err lastMod start f :
    (forall g, t = Some g -> ~ current e g) ->
    de_get e = GResp status chunks err lastMod -> opens e t status start ->
    (de_cancelled e = true /\ f_data f = start \/ de_cancelled e = false /\ err = true /\ f_data f = start ++ concat chunks) ->
    broken e t (Some f).

Lemma action_current e t :
  fst (fst (determineAction (onDisk e t) (de_head e))) = AUpToDate <-> exists f, t = Some f /\ current e f.
Proof.
  unfold onDisk, current. destruct t as [f|].
  2: { split; [discriminate|]. intros [f [E _]]. discriminate E. }
  destruct (de_statErr e).
  { split; [discriminate|]. intros [g [_ [E _]]]. discriminate E. }
  cbn [determineAction]. destruct (de_head e) as [h|].
  2: { split; [discriminate|]. intros [g [_ [_ [h [m [E _]]]]]]. discriminate E. }
  destruct (hr_lastMod h) as [m|] eqn:M.
  2: { split; [discriminate|]. intros [g [_ [_ [h' [m' [E [E2 _]]]]]]]. injection E as <-. congruence. }
  destruct (hr_length h) as [k|] eqn:K.
  2: { split; [discriminate|]. intros [g [_ [_ [h' [m' [E [_ [_ E2]]]]]]]]. injection E as <-. congruence. }
  destruct (Z.ltb_spec (f_mtime f) m) as [L|L].
  { split; [discriminate|]. intros [g [Eg [_ [h' [m' [E [E2 [E3 _]]]]]]]]. injection E as <-. injection Eg as <-.
    rewrite M in E2. injection E2 as <-. lia. }
  destruct (Z.eqb_spec k (Z.of_nat (length (f_data f)))) as [->|N].
  { split; [|reflexivity]. intros _. exists f. split; [reflexivity|]. split; [reflexivity|]. exists h, m. auto. }
  split.
  - destruct (_ && _); discriminate.
  - intros [g [Eg [_ [h' [m' [E [_ [_ E2]]]]]]]]. injection E as <-. injection Eg as <-. rewrite K in E2. injection E2 as ->. congruence.
Qed.

Lemma last_app_some {A} (l l' : list A) d : last (l ++ l') d = last l' (last l d).
Proof.
  revert d; induction l as [|a l IH]; intros d; [reflexivity|]. cbn [app]. rewrite !last_cons_def. apply IH.
Qed.

(** Every attempt ends in one of these ways, and the answer tells which. *)
Theorem C58_attempt : forall e t tr t' ok, download e t = (tr, t', ok) ->
  if ok then settled e t t' else broken e t t'.
Proof.
  intros e t tr t' ok. unfold download. pose proof (action_current e t) as AC.
  destruct (determineAction (onDisk e t) (de_head e)) as [[act off] size]. cbn [fst] in AC.
  assert (NC : act <> AUpToDate -> forall g, t = Some g -> ~ current e g).
  { intros N g E C. apply N. apply AC. eauto. }
  destruct act; swap 1 3; swap 2 3.
  1: { intros E. injection E as <- <- <-. destruct (proj1 AC eq_refl) as [f [E C]]. apply (S_current _ _ f); assumption. }
  all: specialize (NC ltac:(discriminate)); clear AC; revert NC.
  all: destruct (de_get e) as [|status chunks err lm] eqn:G.
  1, 3: intros NC E; injection E as <- <- <-; apply B_same; [exact NC|left; exact G].
  all: intros NC; destruct (N.eqb_spec status 206) as [->|N206].
  1, 3: destruct t as [f|]; [destruct (de_openErr e) eqn:O|].
  2, 5: idtac.
  all: try (destruct (N.eqb_spec status 200) as [->|N200]; [destruct (de_openErr e) eqn:O|]).
  all: try (intros E; injection E as <- <- <-; apply B_same; [exact NC|]; right; exists status, chunks, err, lm;
            split; [exact G|]; intros start [O' [[-> _]|[-> [g [E _]]]]]; congruence).
  all: try (intros E; injection E as <- <- <-; apply B_same; [exact NC|]; right; exists 206%N, chunks, err, lm;
            split; [exact G|]; intros start [O' [[E _]|[_ [g [E _]]]]]; congruence).
  all: try (intros E; injection E as <- <- <-; apply B_same; [exact NC|]; right; exists 200%N, chunks, err, lm;
            split; [exact G|]; intros start [O' [[E _]|[E _]]]; congruence).
  (* 206 *)
  1, 2: assert (OP : opens e (Some f) 206 (f_data f)) by (split; [exact O|right; split; [reflexivity|exists f; auto]]);
        cbn [last]; destruct (de_cancelled e) eqn:C;
        [intros E; injection E as <- <- <-; apply (B_part _ _ 206 chunks err lm (f_data f)); auto|];
        destruct (copyChunks_last (de_now e) chunks (f_data f) f eq_refl) as [g [G1 G2]];
        destruct (copyChunks (de_now e) (f_data f) chunks) as [tr2 data]; cbn [fst] in G1; rewrite G1;
        destruct err; [intros E; injection E as <- <- <-; apply (B_part _ _ 206 chunks true lm (f_data f)); auto|];
        destruct lm as [m|]; [destruct (de_chtimesErr e) eqn:CT|]; intros E; injection E as <- <- <-;
        [apply (S_written _ _ 206 chunks (Some m) (f_data f)); auto; congruence
        |apply (S_written _ _ 206 chunks (Some m) (f_data f)); auto; intros m' Em _; injection Em as <-; reflexivity
        |apply (S_written _ _ 206 chunks None (f_data f)); auto; discriminate].
  (* 200 *)
  all: assert (OP : opens e t 200 []) by (split; [exact O|left; auto]);
        change (last [Some (mkFile [] (de_now e))] t) with (Some (mkFile [] (de_now e))); destruct (de_cancelled e) eqn:C;
        [intros E; injection E as <- <- <-; apply (B_part _ _ 200 chunks err lm []); auto|];
        destruct (copyChunks_last (de_now e) chunks [] (mkFile [] (de_now e)) eq_refl) as [g [G1 G2]];
        destruct (copyChunks (de_now e) [] chunks) as [tr2 data]; cbn [fst] in G1; rewrite G1;
        destruct err; [intros E; injection E as <- <- <-; apply (B_part _ _ 200 chunks true lm []); auto|];
        destruct lm as [m|]; [destruct (de_chtimesErr e) eqn:CT|]; intros E; injection E as <- <- <-;
        [apply (S_written _ _ 200 chunks (Some m) []); auto; congruence
        |apply (S_written _ _ 200 chunks (Some m) []); auto; intros m' Em _; injection Em as <-; reflexivity
        |apply (S_written _ _ 200 chunks None []); auto; discriminate].
Qed.
Print Assumptions C58_attempt.

(** The two kinds of ends exclude each other. *)
Theorem C58_attempt_exclusive : forall e t t1 t2, settled e t t1 -> broken e t t2 -> False.
Proof.
  intros e t t1 t2 [f E C|status chunks lm start f NC G O NCan D M] [NC' W|status' chunks' err' lm' start' f' NC' G' O' W].
  - exact (NC' _ E C).
  - exact (NC' _ E C).
  - destruct W as [W|[st [ch [er [l [W N]]]]]]; rewrite G in W; [discriminate W|]. injection W as <- <- <- <-. exact (N _ O).
  - rewrite G in G'. injection G' as _ _ E _. destruct W as [[W _]|[_ [W _]]]; congruence.
Qed.
Print Assumptions C58_attempt_exclusive.

(** Continuation is asked for exactly if the local file is shorter than what the
    server announces, not older than it, and the server accepts ranges. *)
Theorem C58_request : forall e t,
  In (B "Content-Range") (requestHeaders (fst (fst (determineAction (onDisk e t) (de_head e))))) <->
  exists f h lastMod n, t = Some f /\ de_statErr e = false /\ de_head e = Some h /\ hr_lastMod h = Some lastMod /\ lastMod <= f_mtime f /\
    hr_length h = Some n /\ Z.of_nat (length (f_data f)) < n /\ hr_ranges h = true.
Proof.
  intros e t.
  assert (R : forall act, In (B "Content-Range") (requestHeaders act) <-> act = AResume).
  { intros act. unfold requestHeaders. cbn [In]. split.
    - intros [E|I]; [discriminate E|]. destruct act; [destruct I|reflexivity|destruct I].
    - intros ->. right; left; reflexivity. }
  rewrite R. clear R. unfold onDisk. destruct t as [f|].
  2: { split; [discriminate|]. intros [f [h [m [n [E _]]]]]. discriminate E. }
  destruct (de_statErr e).
  { split; [discriminate|]. intros [g [h [m [n [_ [E _]]]]]]. discriminate E. }
  cbn [determineAction]. destruct (de_head e) as [h|].
  2: { split; [discriminate|]. intros [g [h [m [n [_ [_ [E _]]]]]]]. discriminate E. }
  split.
  - destruct (hr_lastMod h) as [m|] eqn:M; [|discriminate]. destruct (hr_length h) as [k|] eqn:K; [|discriminate].
    destruct (Z.ltb_spec (f_mtime f) m) as [L|L]; [discriminate|]. destruct (Z.eqb_spec k (Z.of_nat (length (f_data f)))) as [E|N]; [discriminate|].
    destruct (Z.ltb_spec (Z.of_nat (length (f_data f))) k) as [L2|L2]; [|discriminate]. destruct (hr_ranges h) eqn:HR; [|discriminate].
    intros _. exists f, h, m, k. auto 10.
  - intros [g [h' [m [n [Eg [_ [E [M [L [K [L2 HR]]]]]]]]]]]. injection Eg as <-. injection E as <-. rewrite M, K, HR.
    destruct (Z.ltb_spec (f_mtime f) m); [lia|]. destruct (Z.eqb_spec n (Z.of_nat (length (f_data f)))); [lia|].
    destruct (Z.ltb_spec (Z.of_nat (length (f_data f))) n); [reflexivity|lia].
Qed.
Print Assumptions C58_request.

(** The attempts before one are all made, none after a cancellation, and fail. *)
Inductive failing (o : nat -> bool * dlEnv) (t : option file) : nat -> option file -> Prop :=
| F_none : failing o t 0 t
| F_more i ti t' : failing o t i ti -> fst (o i) = false -> broken (snd (o i)) ti t' -> failing o t (S i) t'.

(** A download of at most [n] retries reports success only after an attempt that
    ended well, or if it was cancelled between two attempts; the attempts before
    it failed.  It reports failure only after [n + 1] failed attempts. *)
Theorem C58_download : forall n o t tr t' ok, downloadFileSync n o t = (tr, t', ok) ->
  if ok then
    exists i ti, (i <= n)%nat /\ failing o t i ti /\
      (fst (o i) = true /\ t' = ti \/ fst (o i) = false /\ settled (snd (o i)) ti t')
  else failing o t (S n) t'.
Proof.
  intros n o t tr t' ok. unfold downloadFileSync.
  assert (H : forall k i ti tr t' ok, failing o t i ti -> downloadLoop k i o ti = (tr, t', ok) ->
    if ok then exists j tj, (i <= j < i + k)%nat /\ failing o t j tj /\
                 (fst (o j) = true /\ t' = tj \/ fst (o j) = false /\ settled (snd (o j)) tj t')
    else failing o t (i + k) t').
  { clear. induction k as [|k IH]; intros i ti tr t' ok F E; cbn [downloadLoop] in E.
    - injection E as <- <- <-. rewrite Nat.add_0_r. exact F.
    - destruct (o i) as [c e] eqn:O. destruct c.
      { injection E as <- <- <-. exists i, ti. rewrite O. split; [lia|]. auto. }
      destruct (download e ti) as [[tr1 t1] ok1] eqn:D. pose proof (C58_attempt _ _ _ _ _ D) as A. destruct ok1.
      { injection E as <- <- <-. exists i, ti. rewrite O. split; [lia|]. auto. }
      destruct (downloadLoop k (S i) o t1) as [[tr2 t2] r] eqn:E2. injection E as <- <- <-.
      assert (F1 : failing o t (S i) t1) by (apply (F_more _ _ _ ti); [exact F|rewrite O; reflexivity|rewrite O; exact A]).
      specialize (IH _ _ _ _ _ F1 E2). destruct r.
      + destruct IH as [j [tj [J R]]]. exists j, tj. split; [lia|exact R].
      + replace (i + S k)%nat with (S i + k)%nat by lia. exact IH. }
  intros E. specialize (H _ _ _ _ _ _ (F_none o t) E). destruct ok.
  - destruct H as [j [tj [J R]]]. exists j, tj. split; [lia|exact R].
  - exact H.
Qed.
Print Assumptions C58_download.

(** The connection breaks once after two bytes, then the file arrives; a second
    download finds it current. *)
Definition dServe (body : bytes) (cut : bool) : dlEnv :=
  mkDl false (Some (mkHead (Some 10) (Some 4) true))
    (if cut then GResp 200 [firstn 2 body] true None else GResp 200 [body] false (Some 10)) false false false 50.
Example C58_example :
  downloadFileSync 3 (fun i => (false, dServe (B "abcd") (i =? 0)%nat)) None =
    ([Some (mkFile [] 50); Some (mkFile (B "ab") 50); Some (mkFile [] 50); Some (mkFile (B "abcd") 50); Some (mkFile (B "abcd") 10)],
     Some (mkFile (B "abcd") 10), true) /\
  downloadFileSync 3 (fun i => (false, dServe (B "efgh") false)) (Some (mkFile (B "abcd") 10)) =
    ([], Some (mkFile (B "abcd") 10), true) /\
  downloadFileSync 1 (fun i => (false, dServe (B "abcd") true)) None =
    ([Some (mkFile [] 50); Some (mkFile (B "ab") 50); Some (mkFile [] 50); Some (mkFile (B "ab") 50)], Some (mkFile (B "ab") 50), false).
Proof. repeat split; vm_compute; reflexivity. Qed.

(** The contents of [C58_example]'s second part show what "current" cannot tell:
    another file of the same length and date.  And a cancelled download reports
    success whatever is there, even nothing. *)
Theorem C58_cancelled_refuted : exists n o, downloadFileSync n o None = ([], None, true).
Proof. exists 3%nat, (fun _ => (true, dServe [] false)). reflexivity. Qed.
Print Assumptions C58_cancelled_refuted.

(** A web server for one file, as RFC 9110 has it: a request with a Range header
    is answered with the rest (206), any other one with the whole file (200),
    request headers it does not know being ignored.  The connection lets [k]
    bytes through each time. *)
Definition webServer (body : bytes) (k : nat) (have : nat) (headers : list bytes) : getResp :=
  let part := if existsb (beq (B "Range")) headers then skipn have body else body in
  GResp (if existsb (beq (B "Range")) headers then 206 else 200)%N [firstn k part] (k <? length part)%nat (Some 10).
(** Attempts of a client against that server. *)
Definition against (body : bytes) (k : nat) (e : dlEnv) (t : option file) : Prop :=
  de_head e = Some (mkHead (Some 10) (Some (Z.of_nat (length body))) true) /\
  de_get e = webServer body k (match t with Some f => length (f_data f) | None => 0%nat end)
               (requestHeaders (fst (fst (determineAction (onDisk e t) (de_head e))))).

(** The header that is sent to continue a file is "Content-Range", which is one
    for answers.  So nothing is ever continued: a file that does not fit into one
    connection never arrives, however often the download is retried. *)
Theorem C58_never_continued_refuted : forall body k n o, (0 < k < length body)%nat ->
  (forall i, fst (o i) = false) ->
  (forall i t, (t = None \/ exists f, t = Some f /\ f_data f = firstn k body \/ t = Some f /\ f_data f = []) -> against body k (snd (o i)) t) ->
  exists tr t', downloadFileSync n o None = (tr, t', false) /\
    (t' = None \/ exists f, t' = Some f /\ (f_data f = firstn k body \/ f_data f = [])).
Proof.
  intros body k n o K NC AG.
  assert (L : length (firstn k body) = k) by (rewrite firstn_length; lia).
  set (P := fun t : option file => t = None \/ exists f, t = Some f /\ (f_data f = firstn k body \/ f_data f = [])).
  assert (S : forall i t t', P t -> settled (snd (o i)) t t' -> False).
  { intros i t t' HP. destruct (AG i t) as [A1 A2].
    { destruct HP as [->|[f [-> [E|E]]]]; [left; reflexivity|right; exists f; left; auto|right; exists f; right; auto]. }
    intros [f E [_ [h [m [H1 [_ [_ H2]]]]]]|status chunks lm start f NCu G O C D M].
    - rewrite A1 in H1. injection H1 as <-. cbn [hr_length] in H2. injection H2 as H2.
      destruct HP as [->|[g [Eg D]]]; [discriminate E|]. assert (f = g) by congruence. subst g.
      destruct D as [D|D]; rewrite D in H2; [rewrite L in H2|cbn [length] in H2]; lia.
    - rewrite A2 in G. unfold webServer, requestHeaders in G.
      assert (NR : forall act, existsb (beq (B "Range")) (B "X-Automated-Tool" :: match act with AResume => [B "Content-Range"] | _ => [] end) = false)
        by (intros [| |]; reflexivity).
      rewrite NR in G. injection G as _ _ G _. apply Nat.ltb_ge in G. lia. }
  assert (Bk : forall i t t', P t -> broken (snd (o i)) t t' -> P t').
  { intros i t t' HP. destruct (AG i t) as [A1 A2].
    { destruct HP as [->|[f [-> [E|E]]]]; [left; reflexivity|right; exists f; left; auto|right; exists f; right; auto]. }
    intros [NCu W|status chunks err lm start f NCu G O W]; [exact HP|].
    rewrite A2 in G. unfold webServer, requestHeaders in G.
    assert (NR : forall act, existsb (beq (B "Range")) (B "X-Automated-Tool" :: match act with AResume => [B "Content-Range"] | _ => [] end) = false)
      by (intros [| |]; reflexivity).
    rewrite NR in G. injection G as <- <- _ _. destruct O as [_ [[_ ->]|[E _]]]; [|discriminate E].
    right. exists f. split; [reflexivity|]. destruct W as [[_ ->]|[_ [_ ->]]]; [right; reflexivity|left].
    cbn. apply app_nil_r. }
  assert (FP : forall i ti, failing o None i ti -> P ti).
  { intros i ti F. induction F as [|i ti t' F IH _ B]; [left; reflexivity|]. exact (Bk _ _ _ IH B). }
  destruct (downloadFileSync n o None) as [[tr t'] ok] eqn:E. exists tr, t'. pose proof (C58_download _ _ _ _ _ _ E) as D.
  destruct ok.
  - destruct D as [i [ti [_ [F [[C _]|[_ St]]]]]]; [rewrite NC in C; discriminate C|].
    destruct (S _ _ _ (FP _ _ F) St).
  - split; [reflexivity|]. exact (FP _ _ D).
Qed.
Print Assumptions C58_never_continued_refuted.

(** There are such attempts: this server answers every request without a Range
    header alike. *)
Example C58_never_continued_example :
  let o := fun _ : nat => (false, mkDl false (Some (mkHead (Some 10) (Some 4) true)) (GResp 200 [B "ab"] true (Some 10)) false false false 50) in
  (forall i t, against (B "abcd") 2 (snd (o i)) t) /\ downloadFileSync 2 o None = ([Some (mkFile [] 50); Some (mkFile (B "ab") 50); Some (mkFile [] 50); Some (mkFile (B "ab") 50); Some (mkFile [] 50); Some (mkFile (B "ab") 50)], Some (mkFile (B "ab") 50), false).
Proof.
  split; [|vm_compute; reflexivity]. intros i t. split; [reflexivity|]. cbn [snd de_get de_head].
  set (act := fst (fst _)). clearbody act. unfold webServer, requestHeaders. destruct act; reflexivity.
Qed.
