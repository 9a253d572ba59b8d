(** * Property C62: repeated jobs keep up with a well-behaved tiled log.

    Model: CtFetchModel.v ([runTiled]: one job).  [savedAfter]: the log state found
    in the cache after a job (CtFetchLive.v). *)
From Verif Require Import Base MerkleModel CtFetchModel CtFetchProofs CtFetchLive.

Section Spec.
  Context {Cert : Type}.

  (** What has to happen to an entry of the log: nothing if it has expired or is a
      root, and otherwise it is stored with the certificate that issued it, which
      is the second one of the chain if the first is a precertificate signer. *)
  Inductive due (le : bool) (t : tiledEntry Cert) : storeOutcome Cert -> Prop :=
  | due_expired c : te_cert Cert t = Some c -> pc_expired Cert c = true -> le = false -> due le t SSkipExpired
  | due_root c : te_cert Cert t = Some c -> pc_expired Cert c = false \/ le = true -> te_chain Cert t = [] -> due le t SSkipNoChain
  | due_direct c i rest : te_cert Cert t = Some c -> pc_expired Cert c = false \/ le = true ->
      te_chain Cert t = IFCert i :: rest -> pc_preIssuer Cert i = false -> due le t (SQueued (pc_cert Cert c) (pc_cert Cert i))
  | due_pre c i j rest : te_cert Cert t = Some c -> pc_expired Cert c = false \/ le = true ->
      te_chain Cert t = IFCert i :: IFCert j :: rest -> pc_preIssuer Cert i = true -> due le t (SQueued (pc_cert Cert c) (pc_cert Cert j)).

  (** The entry parses, its issuers can be had, and nobody stops the program. *)
  Definition readable (le : bool) (t : tiledEntry Cert) : Prop :=
    te_cancelled Cert t = false /\ te_saveCancelled Cert t = false /\ exists o, due le t o.

  (** What a job hands on, in order. *)
  Fixpoint handed (tr : list (event Cert)) : list (N * N * bytes * storeOutcome Cert) :=
    match tr with
    | [] => []
    | EEntry i ts leaf o :: tr' => (i, ts, leaf, o) :: handed tr'
    | EState _ :: tr' => handed tr'
    end.

  (** These are the entries [es], the first of them the one after entry [k]. *)
  Fixpoint isEntries (le : bool) (k : N) (es : list (tiledEntry Cert)) (hs : list (N * N * bytes * storeOutcome Cert)) : Prop :=
    match es, hs with
    | [], [] => True
    | t :: es', (i, ts, leaf, o) :: hs' =>
        i = (k + 1)%N /\ ts = te_ts Cert t /\ leaf = te_leaf Cert t /\ due le t o /\ isEntries le (k + 1) es' hs'
    | _, _ => False
    end.

  (** The entries the client library yields for a tree of [n] entries, read from
      entry [from] on, if all tiles can be fetched: it may leave out the entries of
      the last tile if that is not full, but not if reading starts there. *)
  Definition yields (w n from : N) (es : list (tiledEntry Cert)) : Prop :=
    let end_ := (from + N.of_nat (length es))%N in
    (end_ <= n)%N /\ (n - n mod w <= end_)%N /\ ((n - n mod w <= from)%N -> end_ = n).

  (** What a job sees of a log with [n] entries that behaves. *)
  Definition goodLog (w n ts : N) (s : logState) (e : tiledEnv Cert) : Prop :=
    tj_head Cert e = Some (mkSTH n ts) /\ tj_sleepCancelled Cert e = false /\
    exists es1 es2, tj_first Cert e = (es1, false, false) /\ tj_second Cert e = (es2, false, false) /\
      Forall (readable (tj_logExpired Cert e)) es1 /\ Forall (readable (tj_logExpired Cert e)) es2 /\
      yields w n (ls_maxEntry s + 1) es1 /\ yields w n (ls_maxEntry s + 1 + N.of_nat (length es1)) es2.

  Definition offered (e : tiledEnv Cert) : list (tiledEntry Cert) := fst (fst (tj_first Cert e)) ++ fst (fst (tj_second Cert e)).
End Spec.

Section Jobs.
  Context {Cert : Type}.
  Implicit Types (t : tiledEntry Cert) (es : list (tiledEntry Cert)) (tr : list (event Cert)).

  Lemma due_stored le t o : te_cancelled Cert t = false -> due le t o ->
    storeLogEntryTiled Cert le (te_cancelled Cert t) (te_cert Cert t) (te_chain Cert t) = TSOk o.
  Proof.
    intros C D. unfold storeLogEntryTiled. rewrite C.
    assert (K : forall b, b = false \/ le = true -> b && negb le = false) by (intros [|] [H|H]; try discriminate; subst; reflexivity).
    destruct D as [c E1 E2 E3|c E1 E2 E3|c i r E1 E2 E3 E4|c i j r E1 E2 E3 E4]; rewrite E1.
    - rewrite E2, E3. reflexivity.
    - rewrite (K _ E2), E3. reflexivity.
    - rewrite (K _ E2), E3, E4. reflexivity.
    - rewrite (K _ E2), E3, E4. reflexivity.
  Qed.

  Lemma handed_app tr1 tr2 : handed (tr1 ++ tr2) = handed tr1 ++ handed tr2.
  Proof. induction tr1 as [|[] tr1 IH]; cbn [app handed]; [reflexivity|rewrite IH; reflexivity|exact IH]. Qed.

  Lemma isEntries_app le es1 : forall k es2 h1 h2, isEntries le k es1 h1 -> isEntries le (k + N.of_nat (length es1)) es2 h2 ->
    isEntries le k (es1 ++ es2) (h1 ++ h2).
  Proof.
    induction es1 as [|t es1 IH]; intros k es2 [|[[[i ts] lf] o] h1] h2 H1 H2; cbn [isEntries app length] in *; try contradiction.
    - rewrite N.add_0_r in H2. exact H2.
    - destruct H1 as [H3 [H4 [H5 [H6 H7]]]]. repeat (split; [assumption|]). apply IH; [exact H7|].
      replace (k + 1 + N.of_nat (length es1))%N with (k + N.of_nat (S (length es1)))%N by lia. exact H2.
  Qed.

  Lemma smooth le bs now : (0 < bs)%N -> forall es s mE mn mx,
    Forall (readable le) es -> (ls_maxEntry s <= mE)%N -> (mE + N.of_nat (length es) < two64)%N ->
    exists tr st mn' mx', readLogEntries Cert le bs now es false false s mE mn mx =
        (tr ++ [EState st], (st, (mE + N.of_nat (length es))%N, mn', mx'), Ok true) /\
      isEntries le mE es (handed tr) /\ ls_maxEntry st = (mE + N.of_nat (length es))%N.
  Proof.
    intros Hbs. induction es as [|t es IH]; intros s mE mn mx F Hs Hb; cbn [readLogEntries].
    - exists [], (updateStateTiled mE mn mx now s), mn, mx. cbn [length N.of_nat]. rewrite N.add_0_r.
      split; [reflexivity|]. split; [exact I|]. unfold updateStateTiled. cbn [ls_maxEntry]. lia.
    - inversion F as [|? ? [C [SC [o D]]] F']; subst. rewrite (due_stored _ _ _ C D), SC.
      destruct (N.eqb_spec bs 0) as [|_]; [lia|]. cbn [length] in Hb.
      rewrite add64_small by lia.
      replace (mE + N.of_nat (length (t :: es)))%N with (mE + 1 + N.of_nat (length es))%N by (cbn [length]; lia).
      destruct ((mE + 1) mod bs =? 0)%N.
      + destruct (IH (updateStateTiled (mE + 1) (N.min mn (te_ts Cert t)) (N.max mx (te_ts Cert t)) now s) (mE + 1)%N
                     (N.min mn (te_ts Cert t)) (N.max mx (te_ts Cert t)) F') as [tr [st [mn' [mx' [R [I M]]]]]].
        { unfold updateStateTiled. cbn [ls_maxEntry]. lia. }
        { lia. }
        rewrite R. eexists (_ :: _ :: tr), st, mn', mx'. split; [reflexivity|]. cbn [handed isEntries]. auto 6.
      + destruct (IH s (mE + 1)%N (N.min mn (te_ts Cert t)) (N.max mx (te_ts Cert t)) F') as [tr [st [mn' [mx' [R [I M]]]]]]; [lia|lia|].
        rewrite R. eexists (_ :: tr), st, mn', mx'. split; [reflexivity|]. cbn [handed isEntries]. auto 6.
  Qed.

  Lemma saved_end s tr (st : logState) : savedAfter s (tr ++ [EState st]) = st.
  Proof. rewrite savedAfter_app. reflexivity. Qed.
End Jobs.

(** One job against a log that behaves.  It succeeds; it hands on the entries that
    follow the saved range, in order and each with its issuer, and moves the end of
    the saved range over just these; it is never further behind than a batch or a tile.
    Unless the state was saved less than ten minutes ago, it moves if there is
    anything new, and reaches the end of the log if less than a batch is missing. *)
Theorem C62_one_job :
  forall (Cert : Type) w bs n ts s (e : tiledEnv Cert) tr o,
    (0 < w)%N -> (0 < bs)%N -> (n + bs < two64)%N -> (ls_maxEntry s < n)%N ->
    goodLog w n ts s e -> runTiled Cert bs s e = (tr, o) ->
    let s' := savedAfter s tr in
    o = OOk /\ (ls_maxEntry s <= ls_maxEntry s' < n)%N /\
    isEntries (tj_logExpired Cert e) (ls_maxEntry s) (firstn (N.to_nat (ls_maxEntry s' - ls_maxEntry s)) (offered e)) (handed tr) /\
    (n <= ls_maxEntry s' + N.max bs w)%N /\
    (tj_recent Cert e = false -> (ls_maxEntry s + 1 < n)%N -> (ls_maxEntry s < ls_maxEntry s')%N) /\
    (tj_recent Cert e = false -> (n <= ls_maxEntry s + bs)%N -> ls_maxEntry s' = (n - 1)%N) /\
    ((ls_maxEntry s + bs < n)%N -> (n - n mod w <= ls_maxEntry s' + 1)%N) /\
    ((ls_maxEntry s + bs < n)%N -> (n - n mod w <= ls_maxEntry s + 1)%N -> ls_maxEntry s' = (n - 1)%N) /\
    (ls_maxEntry s = (n - 1)%N -> (ts <= ls_maxTs s')%N).
Proof.
  intros Cert w bs n ts s e tr o Hw Hbs Hb Hm [Hh [Hsl [es1 [es2 [E1 [E2 [F1 [F2 [[Y1 [Y2 Y3]] [Z1 [Z2 Z3]]]]]]]]]]] R.
  pose proof (N.mod_lt n w ltac:(lia)) as ML.
  pose proof (N.mod_le n w ltac:(lia)) as ML'.
  unfold offered. rewrite E1, E2. cbn [fst].
  unfold runTiled in R. rewrite Hh in R. unfold chooseTaskTiled in R. cbn [sth_size sth_ts] in R.
  rewrite !add64_small in R by lia.
  assert (FN : forall (l1 l2 : list (tiledEntry Cert)), firstn (length l1) (l1 ++ l2) = l1).
  { intros l1 l2. rewrite firstn_app, Nat.sub_diag, firstn_all, app_nil_r. reflexivity. }
  destruct (N.ltb_spec (ls_maxEntry s + bs) n) as [L|L].
  - (* Update *)
    rewrite E1 in R.
    destruct (smooth (tj_logExpired Cert e) bs (tj_now Cert e) Hbs es1 s (ls_maxEntry s) (ls_minTs s) (ls_maxTs s) F1 (N.le_refl _))
      as [tr1 [st [mn' [mx' [R1 [I1 M1]]]]]]; [lia|].
    rewrite R1 in R. injection R as <- <-. cbv zeta. rewrite saved_end, M1, handed_app. cbn [handed]. rewrite app_nil_r.
    split; [reflexivity|]. split; [lia|].
    replace (N.to_nat (ls_maxEntry s + N.of_nat (length es1) - ls_maxEntry s)) with (length es1) by lia. rewrite FN.
    split; [exact I1|]. split; [lia|]. split; [intros _ _; destruct (N.le_gt_cases (n - n mod w) (ls_maxEntry s + 1)) as [Q|Q]; [specialize (Y3 Q)|]; lia|].
    split; [lia|]. split; [lia|]. split; [intros _ Q; specialize (Y3 Q); lia|]. lia.
  - destruct (tj_recent Cert e).
    + (* Sleep *)
      rewrite Hsl in R. destruct (N.eqb_spec (ls_maxEntry s + 1) n) as [Q|Q]; injection R as <- <-; cbv zeta; cbn [savedAfter handed].
      * unfold updateStateTiled. cbn [ls_maxEntry ls_maxTs]. rewrite N.max_id, N.sub_diag. cbn [N.to_nat firstn isEntries].
        split; [reflexivity|]. split; [lia|]. split; [exact I|]. repeat (split; [first [discriminate|lia]|]). lia.
      * rewrite N.sub_diag. cbn [N.to_nat firstn isEntries].
        split; [reflexivity|]. split; [lia|]. split; [exact I|]. repeat (split; [first [discriminate|lia]|]). lia.
    + destruct (N.ltb_spec (ls_maxEntry s + 1) n) as [L'|L'].
      * (* ForceUpdate *)
        rewrite E1 in R.
        destruct (smooth (tj_logExpired Cert e) bs (tj_now Cert e) Hbs es1 s (ls_maxEntry s) (ls_minTs s) (ls_maxTs s) F1 (N.le_refl _))
          as [tr1 [st [mn' [mx' [R1 [I1 M1]]]]]]; [lia|].
        rewrite R1, E2 in R.
        destruct (smooth (tj_logExpired Cert e) bs (tj_now Cert e) Hbs es2 st (ls_maxEntry s + N.of_nat (length es1)) mn' mx' F2)
          as [tr2 [st2 [mn2 [mx2 [R2 [I2 M2]]]]]]; [lia|lia|].
        rewrite R2 in R. injection R as <- <-. cbv zeta.
        rewrite savedAfter_app, !saved_end, M2, !handed_app. cbn [handed]. rewrite !app_nil_r.
        assert (End : (ls_maxEntry s + 1 + N.of_nat (length es1) + N.of_nat (length es2))%N = n).
        { apply Z3. lia. }
        replace (N.to_nat (ls_maxEntry s + N.of_nat (length es1) + N.of_nat (length es2) - ls_maxEntry s)) with (length (es1 ++ es2)) by (rewrite app_length; lia).
        rewrite firstn_all.
        split; [reflexivity|]. split; [lia|]. split; [apply isEntries_app; assumption|]. repeat (split; [lia|]). lia.
      * rewrite Hsl in R. destruct (N.eqb_spec (ls_maxEntry s + 1) n) as [Q|Q]; [|lia]. injection R as <- <-; cbv zeta; cbn [savedAfter handed].
        unfold updateStateTiled. cbn [ls_maxEntry ls_maxTs]. rewrite N.max_id, N.sub_diag. cbn [N.to_nat firstn isEntries].
        split; [reflexivity|]. split; [lia|]. split; [exact I|]. repeat (split; [lia|]). lia.
Qed.
Print Assumptions C62_one_job.

(** Jobs one after the other; each starts from what the one before it saved. *)
Inductive tiledJobs {Cert : Type} (P : logState -> tiledEnv Cert -> Prop) (bs : N) : nat -> logState -> logState -> Prop :=
| tj_none s : tiledJobs P bs 0 s s
| tj_job k s e tr o s' : P s e -> runTiled Cert bs s e = (tr, o) ->
    tiledJobs P bs k (savedAfter s tr) s' -> tiledJobs P bs (S k) s s'.

(** A log that does not grow is covered after two jobs that are not put off, and
    stays covered; from the third job on its time stamp is that of the tree head or later. *)
Theorem C62_catches_up :
  forall (Cert : Type) w bs n ts k s s',
    (0 < w)%N -> (0 < bs)%N -> (n + bs < two64)%N -> (ls_maxEntry s < n)%N -> (2 <= k)%nat ->
    tiledJobs (fun s0 (e : tiledEnv Cert) => goodLog w n ts s0 e /\ tj_recent Cert e = false) bs k s s' ->
    ls_maxEntry s' = (n - 1)%N /\ ((3 <= k)%nat -> (ts <= ls_maxTs s')%N).
Proof.
  intros Cert w bs n ts k s s' Hw Hbs Hb Hm Hk J.
  assert (Stay : forall k s s', ls_maxEntry s = (n - 1)%N -> (0 < n)%N ->
    tiledJobs (fun s0 (e : tiledEnv Cert) => goodLog w n ts s0 e /\ tj_recent Cert e = false) bs k s s' ->
    ls_maxEntry s' = (n - 1)%N /\ ((1 <= k)%nat -> (ts <= ls_maxTs s')%N)).
  { clear - Hw Hbs Hb. induction k as [|k IH]; intros s s' E P J; inversion J; subst; [split; [exact E|lia]|].
    assert (Lt : (ls_maxEntry s < n)%N) by lia. destruct H0 as [G _]. destruct (C62_one_job _ _ _ _ _ _ _ _ _ Hw Hbs Hb Lt G H1) as [_ [A [_ [_ [_ [_ [_ [_ T]]]]]]]].
    assert (E' : ls_maxEntry (savedAfter s tr) = (n - 1)%N) by lia.
    destruct (IH _ _ E' P H2) as [B1 B2]. split; [exact B1|]. intros _.
    destruct k as [|k]; [inversion H2; subst; exact (T E)|apply B2; lia]. }
  destruct k as [|[|k]]; [lia|lia|]. inversion J as [|? ? e1 tr1 o1 ? [G1 N1] R1 J1]; subst.
  inversion J1 as [|? ? e2 tr2 o2 ? [G2 N2] R2 J2]; subst.
  destruct (C62_one_job _ _ _ _ _ _ _ _ _ Hw Hbs Hb Hm G1 R1) as [_ [A1 [_ [_ [_ [A5 [A6 [A7 _]]]]]]]].
  assert (Lt : (ls_maxEntry (savedAfter s tr1) < n)%N) by lia.
  destruct (C62_one_job _ _ _ _ _ _ _ _ _ Hw Hbs Hb Lt G2 R2) as [_ [B1 [_ [_ [_ [B5 [B6 [B7 _]]]]]]]].
  assert (E : ls_maxEntry (savedAfter (savedAfter s tr1) tr2) = (n - 1)%N).
  { destruct (N.le_gt_cases n (ls_maxEntry (savedAfter s tr1) + bs)) as [L|L]; [exact (B5 N2 L)|].
    apply B7; [exact L|]. destruct (N.le_gt_cases n (ls_maxEntry s + bs)) as [L'|L']; [specialize (A5 N1 L'); lia|]. exact (A6 L'). }
  destruct (Stay k _ _ E ltac:(lia) J2) as [C1 C2]. split; [exact C1|]. intros K. apply C2. lia.
Qed.
Print Assumptions C62_catches_up.

(** A log with ten entries and tiles of four; batches of three, from nothing.  The first job reads up
    to the last full tile, the second the rest, the third takes the time of the tree head. *)
Definition yE (k : bytes) (ts : N) (chain : list (issuerFetch bytes)) : tiledEntry bytes :=
  mkTE ts k false (Some (mkPC (B "cert" ++ k) false false)) chain false.
Definition yI : issuerFetch bytes := IFCert (mkPC (B "issuer") false false).
Definition yP : issuerFetch bytes := IFCert (mkPC (B "signer") false true).
Definition yJob (first second : list (tiledEntry bytes)) : tiledEnv bytes :=
  mkTEnv (Some (mkSTH 10 100)) false 7 false (first, false, false) (second, false, false) false.
Definition y1 : tiledEnv bytes := yJob [yE (B "1") 11 [yI]; yE (B "2") 12 [yI]; yE (B "3") 13 [yI]; yE (B "4") 14 [yI]; yE (B "5") 15 [yI]; yE (B "6") 16 [yI]; yE (B "7") 17 [yI]] [yE (B "8") 18 [yP; yI]; yE (B "9") 19 []].
Definition y2 : tiledEnv bytes := yJob [yE (B "8") 18 [yP; yI]; yE (B "9") 19 []] [].
Definition y3 : tiledEnv bytes := yJob [] [].

Lemma yE_readable k ts chain : chain = [] \/ chain = [yI] \/ chain = [yP; yI] -> readable false (yE k ts chain).
Proof.
  intros H. split; [reflexivity|]. split; [reflexivity|]. destruct H as [->|[->| ->]]; eexists.
  - eapply due_root; [reflexivity|left; reflexivity|reflexivity].
  - eapply due_direct; [reflexivity|left; reflexivity|reflexivity|reflexivity].
  - eapply due_pre; [reflexivity|left; reflexivity|reflexivity|reflexivity].
Qed.

Example C62_example :
  exists s', tiledJobs (fun s0 e => goodLog 4 10 100 s0 e /\ tj_recent bytes e = false) 3%N 3 freshState s' /\
    ls_maxEntry s' = 9%N /\ ls_maxTs s' = 100%N /\
    map (fun h => fst (fst (fst h))) (handed (fst (runTiled bytes 3 freshState y1))) = [1; 2; 3; 4; 5; 6; 7]%N.
Proof.
  eexists. split.
  - eapply tj_job with (e := y1); [split; [|reflexivity]|vm_compute; reflexivity|].
    { split; [reflexivity|]. split; [reflexivity|]. do 2 eexists. split; [reflexivity|]. split; [reflexivity|].
      split; [repeat (apply Forall_cons; [apply yE_readable; auto|]); apply Forall_nil|].
      split; [repeat (apply Forall_cons; [apply yE_readable; auto|]); apply Forall_nil|].
      split; (split; [vm_compute; discriminate|split; [vm_compute; discriminate|intros H; first [reflexivity|exfalso; revert H; vm_compute; auto]]]). }
    eapply tj_job with (e := y2); [split; [|reflexivity]|vm_compute; reflexivity|].
    { split; [reflexivity|]. split; [reflexivity|]. do 2 eexists. split; [reflexivity|]. split; [reflexivity|].
      split; [repeat (apply Forall_cons; [apply yE_readable; auto|]); apply Forall_nil|].
      split; [repeat (apply Forall_cons; [apply yE_readable; auto|]); apply Forall_nil|].
      split; (split; [vm_compute; discriminate|split; [vm_compute; discriminate|intros H; first [reflexivity|exfalso; revert H; vm_compute; auto]]]). }
    eapply tj_job with (e := y3); [split; [|reflexivity]|vm_compute; reflexivity|].
    { split; [reflexivity|]. split; [reflexivity|]. do 2 eexists. split; [reflexivity|]. split; [reflexivity|].
      split; [repeat (apply Forall_cons; [apply yE_readable; auto|]); apply Forall_nil|].
      split; [repeat (apply Forall_cons; [apply yE_readable; auto|]); apply Forall_nil|].
      split; (split; [vm_compute; discriminate|split; [vm_compute; discriminate|intros H; first [reflexivity|exfalso; revert H; vm_compute; auto]]]). }
    apply tj_none.
  - vm_compute. auto.
Qed.
