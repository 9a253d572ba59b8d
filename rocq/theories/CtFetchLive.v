(** * Progress of RFC 6962 jobs against an honest log (for C10)

    [honestEnv]: what a worker observes when the log server and the network
    behave.  [savedAfter]: the log state found in the cache after a job. *)
From Verif Require Import Base MerkleModel MerkleSpec MerkleProofs MerkleProofs2 MerkleProofs3
  CtFetchModel CtFetchProofs CtFetchSafety CtFetchJobs P_Merkle.

(** ct-fetch.go:408-475 (see CtSystem.v, C07): the insert worker saves the states in
    the order the job sent them, so the last one stays. *)
Fixpoint savedAfter {Cert} (s : logState) (tr : list (event Cert)) : logState :=
  match tr with
  | [] => s
  | EState s' :: tr' => savedAfter s' tr'
  | EEntry _ _ _ _ :: tr' => savedAfter s tr'
  end.
Lemma savedAfter_app {Cert} (tr1 tr2 : list (event Cert)) : forall s,
  savedAfter s (tr1 ++ tr2) = savedAfter (savedAfter s tr1) tr2.
Proof. induction tr1 as [|[? ? ? ?|s'] tr1 IH]; intros s; cbn; auto. Qed.
Lemma savedAfter_entries {Cert} (tr : list (event Cert)) : forall k s,
  entriesFrom k tr -> savedAfter s tr = s.
Proof.
  induction tr as [|[? ? ? ?|s'] tr IH]; intros k s H; cbn in *; [reflexivity| |contradiction].
  destruct H as [_ [_ H]]. eauto.
Qed.

(** Splitting [tiles] at either end. *)
Lemma tiles_cons a b rs f l : tiles ((a, b) :: rs) f l ->
  a = f /\ (a <= b)%N /\ ((rs = [] /\ b = l) \/ (rs <> [] /\ (b < l)%N /\ tiles rs (b + 1) l)).
Proof.
  destruct rs as [|r rs]; cbn [tiles].
  - intros [H1 [H2 H3]]. auto.
  - intros [H1 [H2 [H3 H4]]]. split; [exact H1|]. split; [exact H2|]. right. split; [discriminate|auto].
Qed.
Lemma tiles_snoc rs : forall a b f l, tiles (rs ++ [(a, b)]) f l ->
  b = l /\ (a <= b)%N /\ ((rs = [] /\ a = f) \/ (rs <> [] /\ (f < a)%N /\ tiles rs f (a - 1))).
Proof.
  induction rs as [|[x y] rs IH]; intros a b f l T.
  - cbn [app tiles] in T. destruct T as [-> [-> H]]. auto.
  - cbn [app] in T. apply tiles_cons in T. destruct T as [-> [H1 [[H2 _]|[_ [H2 T]]]]].
    + destruct rs; discriminate.
    + apply IH in T. destruct T as [-> [H3 T]]. split; [reflexivity|]. split; [exact H3|].
      right. split; [discriminate|].
      destruct T as [[-> ->]|[Nn [H4 T]]].
      * split; [lia|]. replace (y + 1 - 1)%N with y by lia. apply tiles_one. exact H1.
      * split; [lia|]. destruct rs as [|r rs]; [contradiction|].
        pose proof (tiles_le _ _ _ T). cbn [tiles]. repeat split; auto; lia.
Qed.

Section Live.
  Variable sha256 : bytes -> bytes.
  Variable Cert : Type.
  (** The log, and the setting LogExpiredEntries. *)
  Variable L : list (rawEntry Cert).
  Variable le : bool.

  Definition leaves : list bytes := map (re_leaf Cert) L.
  Definition slice (a : N) (k : nat) : list (rawEntry Cert) := firstn k (skipn (N.to_nat a) L).

  (** An entry the worker can process: it parses, its certificates parse, and the
      job is not cancelled while handing it on. *)
  Definition storable (r : rawEntry Cert) : Prop :=
    exists ts c cert chain, re_parsed Cert r = Some (ts, c, cert, chain) /\
      storeLogEntry Cert le c cert chain <> SFatal.

  (** [answers a b rs rest]: answers [rs] of an honest server to a worker that asks for
      entries a..b until it has them all: some entries starting at the first one
      missing, at least one and not more than asked for; it may rate-limit in
      between.  [rest] are the answers to later requests. *)
  Inductive answers : N -> N -> list (resp Cert) -> list (resp Cert) -> Prop :=
  | an_done a b rest : (b < a)%N -> answers a b rest rest
  | an_wait a b rs rest : (a <= b)%N -> answers a b rs rest -> answers a b (R429 false :: rs) rest
  | an_some a b k rs rest : (a <= b)%N -> (0 < k)%nat -> (N.of_nat k <= b - a + 1)%N ->
      answers (a + N.of_nat k) b rs rest -> answers a b (REntries (slice a k) :: rs) rest.
  (** The requests of a job, one range after the other. *)
  Fixpoint served (vs : list subtree) (rs : list (resp Cert)) : Prop :=
    match vs with
    | [] => True
    | st :: vs' => exists rest, answers (st_first st) (st_last st) rs rest /\ served vs' rest
    end.

  (** The log has [n] entries at the time of the job, all of them the first [n] of
      [L]; the consistency proof is the RFC's; nothing is cancelled. *)
  Definition honestEnv (J n : N) (s : logState) (e : jobEnv Cert) : Prop :=
    (n <= N.of_nat (length L) < two64)%N /\
    (exists ts, je_head Cert e = Some (mkSTH n ts)) /\
    je_logExpired Cert e = le /\
    Forall (fun c => c = (false, false)) (je_cancels Cert e) /\
    Forall storable L /\
    (forall h f l, je_head Cert e = Some h ->
       jobRange J (chooseTask J (je_recent Cert e) (Some h) s) h s = Ok (f, l) ->
       (exists p, je_proof Cert e = Some p) /\
       let old := (if (f =? 0)%N then 3 else f)%N in
       ((old < l + 1)%N -> (l < n)%N ->
          exists p, je_proof Cert e = Some p /\
            PROOF sha256 (N.to_nat old) (firstn (N.to_nat (l + 1)) leaves) p) /\
       forall sts, proofTerms J s e sts ->
         served (orderVerifiers (chooseTask J (je_recent Cert e) (Some h) s) f l sts []) (je_resps Cert e)).

  (** ** Downloading from an honest server *)
  Lemma handle_good es : forall index v mn mx v', Forall storable es ->
    consumeAll sha256 v (map (re_leaf Cert) es) = Ok v' ->
    (index + N.of_nat (length es) < two64)%N ->
    exists tr mn' mx', handleEntries sha256 Cert le es index v mn mx
      = (tr, Some (Ok ((index + N.of_nat (length es))%N, v', mn', mx'))).
  Proof.
    induction es as [|r es IH]; intros index v mn mx v' G C B; cbn [handleEntries map consumeAll length] in *.
    - injection C as <-. rewrite N.add_0_r. eauto.
    - inversion G as [|? ? [ts [c [cert [chain [P S]]]]] G']; subst. rewrite P.
      destruct (consume sha256 v (re_leaf Cert r)) as [v1| |] eqn:Ec; try discriminate.
      assert (X : (add64 index 1 + N.of_nat (length es))%N = (index + N.of_nat (Datatypes.S (length es)))%N)
        by (rewrite add64_small by lia; lia).
      destruct (IH (add64 index 1) v1 (minTsUpd mn ts) (maxTsUpd mx ts) v' G' C ltac:(lia)) as [tr [mn' [mx' E]]].
      rewrite E, X.
      destruct (storeLogEntry Cert le c cert chain); [..|congruence]; eauto.
  Qed.

  Lemma firstn_add {A} (a b : nat) (l : list A) : firstn (a + b) l = firstn a l ++ firstn b (skipn a l).
  Proof. revert l; induction a as [|a IH]; intros [|x l]; cbn; auto; [rewrite firstn_nil; reflexivity|]. rewrite IH. reflexivity. Qed.
  Lemma skipn_add {A} (a b : nat) (l : list A) : skipn b (skipn a l) = skipn (a + b) l.
  Proof. revert l; induction a as [|a IH]; intros [|x l]; cbn; auto. rewrite skipn_nil. reflexivity. Qed.
  Lemma entries_split a b k : (a <= b)%N -> (N.of_nat k <= b - a + 1)%N ->
    (b < N.of_nat (length L))%N ->
    (N.of_nat (length (slice a k)) = N.of_nat k) /\
    entries leaves a b = map (re_leaf Cert) (slice a k) ++
      (if (b <? a + N.of_nat k)%N then [] else entries leaves (a + N.of_nat k) b).
  Proof.
    intros H1 H2 H3. split.
    { unfold slice. rewrite firstn_length, skipn_length. lia. }
    unfold entries, leaves, slice. rewrite !skipn_map, !firstn_map.
    replace (N.to_nat (b - a + 1)) with (k + N.to_nat (b + 1 - a - N.of_nat k))%nat by lia.
    rewrite firstn_add, skipn_add, map_app. f_equal.
    destruct (N.ltb_spec b (a + N.of_nat k)).
    - replace (N.to_nat (b + 1 - a - N.of_nat k)) with 0%nat by lia. reflexivity.
    - f_equal.
      replace (N.to_nat (b - (a + N.of_nat k) + 1)) with (N.to_nat (b + 1 - a - N.of_nat k)) by lia.
      f_equal. f_equal. lia.
  Qed.

  Lemma answers_resp a b rs rest : answers a b rs rest -> (b < N.of_nat (length L))%N ->
    (b < two63)%N -> Forall storable L ->
    forall v mn mx v', st_last (v_subtree v) = b ->
      consumeAll sha256 v (if (b <? a)%N then [] else entries leaves a b) = Ok v' ->
      exists tr mn' mx', download sha256 Cert le rs a v mn mx = (tr, DDone v' mn' mx', rest).
  Proof.
    intros An. induction An as [a b rest H|a b rs rest H An IH|a b k rs rest H Hk Hl An IH];
      intros B1 B2 G v mn mx v' Hb C.
    - destruct (N.ltb_spec b a); [|lia]. cbn [consumeAll] in C. injection C as <-.
      destruct rest; cbn [download]; rewrite Hb; destruct (N.ltb_spec b a); try lia; eauto.
    - cbn [download]. rewrite Hb. destruct (N.ltb_spec b a); [lia|].
      apply (IH B1 B2 G v mn mx v' Hb). destruct (N.ltb_spec b a); [lia|exact C].
    - cbn [download]. rewrite Hb. destruct (N.ltb_spec b a); [lia|].
      destruct (entries_split a b k H Hl B1) as [Ls Es]. rewrite Es, consumeAll_app in C.
      destruct (consumeAll sha256 v (map (re_leaf Cert) (slice a k))) as [v1| |] eqn:C1; try discriminate.
      assert (G' : Forall storable (slice a k)).
      { rewrite Forall_forall in *. intros x Hx. apply G.
        rewrite <- (firstn_skipn (N.to_nat a) L). apply in_app_iff. right.
        rewrite <- (firstn_skipn k (skipn (N.to_nat a) L)). apply in_app_iff. left. exact Hx. }
      assert (Sub : v_subtree v1 = v_subtree v).
      { clear - C1. revert v C1. induction (map (re_leaf Cert) (slice a k)) as [|x xs IHx]; intros v C1; cbn in C1.
        - injection C1 as <-. reflexivity.
        - destruct (consume sha256 v x) as [v0| |] eqn:Ec; try discriminate.
          rewrite (IHx _ C1). exact (proj1 (consume_fields sha256 _ _ _ Ec)). }
      assert (Two : (two64 = two63 + two63)%N) by reflexivity.
      destruct (handle_good (slice a k) a v mn mx v1 G' C1 ltac:(lia)) as [tr1 [mn1 [mx1 E1]]].
      rewrite E1, Ls.
      destruct (IH B1 B2 G v1 mn1 mx1 v' ltac:(rewrite Sub; exact Hb) C) as [tr2 [mn2 [mx2 E2]]].
      rewrite E2. eauto.
  Qed.

  Lemma handle_noState es : forall index v mn mx tr r s,
    handleEntries sha256 Cert le es index v mn mx = (tr, r) -> savedAfter s tr = s.
  Proof.
    induction es as [|x es IH]; intros index v mn mx tr r s E; cbn [handleEntries] in E.
    - injection E as <- <-. reflexivity.
    - destruct (re_parsed Cert x) as [[[[ts c] cert] chain]|]; [|eapply IH; eassumption].
      assert (X : forall o, match consume sha256 v (re_leaf Cert x) with
                | Ok v' => let '(tr, r) := handleEntries sha256 Cert le es (add64 index 1) v' (minTsUpd mn ts) (maxTsUpd mx ts) in
                           (EEntry (st_first (v_subtree v) + v_num v) ts (re_leaf Cert x) o :: tr, r)
                | _ => ([], Some Panic) end = (tr, r) -> savedAfter s tr = s).
      { intros o. destruct (consume sha256 v (re_leaf Cert x)) as [v'| |]; try (intros H; injection H as <- <-; reflexivity).
        destruct (handleEntries sha256 Cert le es (add64 index 1) v' (minTsUpd mn ts) (maxTsUpd mx ts)) as [tr1 r1] eqn:Eh.
        intros H; injection H as <- <-. cbn [savedAfter]. eapply IH; eassumption. }
      destruct (storeLogEntry Cert le c cert chain); try exact (X _ E). injection E as <- <-. reflexivity.
  Qed.
  Lemma download_noState rs : forall index v mn mx tr r rest s,
    download sha256 Cert le rs index v mn mx = (tr, r, rest) -> savedAfter s tr = s.
  Proof.
    induction rs as [|x rs IH]; intros index v mn mx tr r rest s E; cbn [download] in E;
      destruct (st_last (v_subtree v) <? index)%N; try (injection E as <- <- <-; reflexivity).
    destruct x as [[|]| |es]; try (injection E as <- <- <-; reflexivity); [eapply IH; eassumption|].
    destruct (handleEntries sha256 Cert le es index v mn mx) as [tr1 r1] eqn:Eh.
    pose proof (handle_noState _ _ _ _ _ _ _ s Eh) as N1.
    destruct r1 as [[[[[i' v'] mn'] mx']| |]|]; try (injection E as <- <- <-; exact N1).
    destruct (download sha256 Cert le rs i' v' mn' mx') as [[tr2 r2] rest2] eqn:Ed.
    injection E as <- <- <-. rewrite savedAfter_app, N1. eapply IH; eassumption.
  Qed.

  (** One subtree of an honest job. *)
  Definition good (st : subtree) : Prop :=
    (st_first st <= st_last st)%N /\ (st_last st < N.of_nat (length L))%N /\ (st_last st < two63)%N /\
    verifyLeaves sha256 st (entries leaves (st_first st) (st_last st)) = Ok tt.

  Lemma one_subtree st vs rs : good st -> Forall storable L -> served (st :: vs) rs ->
    exists tr v mn mx rest, download sha256 Cert le rs (st_first st) (newVerifier st) 0 0 = (tr, DDone v mn mx, rest) /\
      checkClaim v = Ok tt /\ served vs rest /\ forall s, savedAfter s tr = s.
  Proof.
    intros [G1 [G2 [G3 G4]]] GL [rest [An Sv]]. unfold verifyLeaves in G4.
    destruct (consumeAll sha256 (newVerifier st) (entries leaves (st_first st) (st_last st))) as [v| |] eqn:C; try discriminate.
    destruct (answers_resp _ _ _ _ An G2 G3 GL (newVerifier st) 0%N 0%N v eq_refl) as [tr [mn [mx E]]].
    { destruct (N.ltb_spec (st_last st) (st_first st)); [lia|exact C]. }
    exists tr, v, mn, mx, rest. split; [exact E|]. split; [exact G4|]. split; [exact Sv|].
    intros s. eapply download_noState; exact E.
  Qed.

  Definition notCancelled (cs : list (bool * bool)) : Prop := Forall (fun c => c = (false, false)) cs.
  Lemma notCancelled_hd cs : notCancelled cs -> hd (false, false) cs = (false, false) /\ notCancelled (tl cs).
  Proof. intros H. destruct H; cbn; auto. split; [reflexivity|constructor]. Qed.

  Lemma run_step w now st vs s rs cs s1 : good st -> Forall storable L -> served (st :: vs) rs ->
    notCancelled cs ->
    (forall mn mx, exists mn' mx', updateState w (Some (st_first st, st_last st)) mn mx now s
        = Some (mkLS (fst s1) (snd s1) mn' mx' (Some now))) ->
    exists tr mn mx rest, served vs rest /\ notCancelled (tl cs) /\ (forall s, savedAfter s tr = s) /\
      runVerifiers sha256 Cert w le now (st :: vs) s rs cs =
        (let '(tr', o) := runVerifiers sha256 Cert w le now vs (mkLS (fst s1) (snd s1) mn mx (Some now)) rest (tl cs) in
         (tr ++ EState (mkLS (fst s1) (snd s1) mn mx (Some now)) :: tr', o)).
  Proof.
    intros G GL Sv Cs U. destruct (one_subtree _ _ _ G GL Sv) as [tr [v [mn [mx [rest [E [C [Sv' NS]]]]]]]].
    destruct (notCancelled_hd _ Cs) as [Hc Ht]. destruct (U mn mx) as [mn' [mx' U']].
    exists tr, mn', mx', rest. split; [exact Sv'|]. split; [exact Ht|]. split; [exact NS|].
    cbn [runVerifiers]. rewrite E, C, U', Hc. reflexivity.
  Qed.

  Lemma run_asc w now : w = TInit \/ w = TUpdate -> forall vs s rs cs f l,
    tiles (map range vs) f l -> Forall good vs -> Forall storable L -> served vs rs -> notCancelled cs ->
    ls_lastUpdate s <> None -> (ls_maxEntry s + 1 = f)%N -> (l < two63)%N ->
    exists tr, runVerifiers sha256 Cert w le now vs s rs cs = (tr, OOk) /\
      ls_minEntry (savedAfter s tr) = ls_minEntry s /\ ls_maxEntry (savedAfter s tr) = l /\
      ls_lastUpdate (savedAfter s tr) <> None.
  Proof.
    intros Hw. assert (Two : (two64 = two63 + two63)%N) by reflexivity.
    induction vs as [|st vs IH]; intros s rs cs f l T G GL Sv Cs Lu Mx Hl; [destruct T|].
    cbn [map] in T. unfold range at 1 in T. inversion G as [|? ? G1 G2]; subst.
    pose proof (tiles_le _ _ _ T) as Tl.
    apply tiles_cons in T. destruct T as [T1 [T2 T3]].
    destruct (run_step w now st vs s rs cs (ls_minEntry s, st_last st) G1 GL Sv Cs) as [tr [mn [mx [rest [Sv' [Cs' [NS E]]]]]]].
    { intros mn mx. unfold updateState. rewrite T1.
      rewrite sub64_small by lia. replace (ls_maxEntry s + 1 - 1)%N with (ls_maxEntry s) by lia. rewrite N.eqb_refl.
      destruct Hw as [->| ->]; [destruct (ls_lastUpdate s); [|congruence]|]; eauto. }
    rewrite E. cbn [fst snd]. clear E. set (s1 := mkLS _ _ mn mx _).
    destruct T3 as [[Hv <-]|[_ [T3 T4]]].
    - destruct vs as [|? ?]; [|discriminate]. cbn [runVerifiers].
      exists (tr ++ [EState s1]). rewrite savedAfter_app, NS. cbn. repeat split. discriminate.
    - destruct (IH s1 rest (tl cs) (st_last st + 1)%N l T4 G2 GL Sv' Cs' ltac:(discriminate) eq_refl Hl) as [tr' [E [H1 [H2 H3]]]].
      rewrite E. exists (tr ++ EState s1 :: tr'). rewrite savedAfter_app, NS. cbn [savedAfter].
      split; [reflexivity|]. split; [rewrite H1; reflexivity|]. auto.
  Qed.

  Lemma run_init now vs s rs cs f l :
    tiles (map range vs) f l -> Forall good vs -> Forall storable L -> served vs rs -> notCancelled cs ->
    ls_lastUpdate s = None -> (l < two63)%N ->
    exists tr, runVerifiers sha256 Cert TInit le now vs s rs cs = (tr, OOk) /\
      ls_minEntry (savedAfter s tr) = f /\ ls_maxEntry (savedAfter s tr) = l /\
      ls_lastUpdate (savedAfter s tr) <> None.
  Proof.
    destruct vs as [|st vs]; intros T G GL Sv Cs Lu Hl; [destruct T|].
    cbn [map] in T. unfold range at 1 in T. inversion G as [|? ? G1 G2]; subst.
    apply tiles_cons in T. destruct T as [T1 [T2 T3]].
    destruct (run_step TInit now st vs s rs cs (st_first st, st_last st) G1 GL Sv Cs) as [tr [mn [mx [rest [Sv' [Cs' [NS E]]]]]]].
    { intros mn mx. unfold updateState. rewrite Lu. eauto. }
    rewrite E. cbn [fst snd]. clear E. set (s1 := mkLS _ _ mn mx _).
    destruct T3 as [[Hv <-]|[_ [T3 T4]]].
    - destruct vs as [|? ?]; [|discriminate]. cbn [runVerifiers].
      exists (tr ++ [EState s1]). rewrite savedAfter_app, NS. cbn. repeat split; [exact T1|discriminate].
    - destruct (run_asc TInit now (or_introl eq_refl) vs s1 rest (tl cs) (st_last st + 1)%N l T4 G2 GL Sv' Cs' ltac:(discriminate) eq_refl Hl)
        as [tr' [E [H1 [H2 H3]]]].
      rewrite E. exists (tr ++ EState s1 :: tr'). rewrite savedAfter_app, NS. cbn [savedAfter].
      split; [reflexivity|]. split; [rewrite H1; exact T1|]. auto.
  Qed.

  Lemma run_desc now : forall vs s rs cs f l,
    tiles (rev (map range vs)) f l -> Forall good vs -> Forall storable L -> served vs rs -> notCancelled cs ->
    ls_lastUpdate s <> None -> (ls_minEntry s = l + 1)%N -> (l < two63)%N ->
    exists tr, runVerifiers sha256 Cert TBackfill le now vs s rs cs = (tr, OOk) /\
      ls_minEntry (savedAfter s tr) = f /\ ls_maxEntry (savedAfter s tr) = ls_maxEntry s /\
      ls_lastUpdate (savedAfter s tr) <> None.
  Proof.
    assert (Two : (two64 = two63 + two63)%N) by reflexivity.
    induction vs as [|st vs IH]; intros s rs cs f l T G GL Sv Cs Lu Mn Hl; [destruct T|].
    cbn [map rev] in T. unfold range at 2 in T. inversion G as [|? ? G1 G2]; subst.
    apply tiles_snoc in T. destruct T as [T1 [T2 T3]].
    destruct (run_step TBackfill now st vs s rs cs (st_first st, ls_maxEntry s) G1 GL Sv Cs) as [tr [mn [mx [rest [Sv' [Cs' [NS E]]]]]]].
    { intros mn mx. unfold updateState. rewrite T1. rewrite add64_small by lia. rewrite Mn, N.eqb_refl. eauto. }
    rewrite E. cbn [fst snd]. clear E. set (s1 := mkLS _ _ mn mx _).
    destruct T3 as [[Hv <-]|[_ [T3 T4]]].
    - assert (vs = []) as ->.
      { destruct vs; [reflexivity|]. cbn [map rev] in Hv. exfalso. destruct (rev (map range vs)); discriminate. }
      cbn [runVerifiers].
      exists (tr ++ [EState s1]). rewrite savedAfter_app, NS. cbn. repeat split. discriminate.
    - destruct (IH s1 rest (tl cs) f (st_first st - 1)%N T4 G2 GL Sv' Cs' ltac:(discriminate)) as [tr' [E [H1 [H2 H3]]]].
      { cbn [ls_minEntry s1]. lia. } { lia. }
      rewrite E. exists (tr ++ EState s1 :: tr'). rewrite savedAfter_app, NS. cbn [savedAfter].
      split; [reflexivity|]. split; [exact H1|]. split; [rewrite H2; reflexivity|exact H3].
  Qed.

  Hypothesis len32 : forall x, length (sha256 x) = 32%nat.

  Lemma honest_job J n s e h w f l : honestEnv J n s e -> (n <= two63)%N -> je_head Cert e = Some h ->
    chooseTask J (je_recent Cert e) (Some h) s = w -> w = TInit \/ w = TUpdate \/ w = TBackfill ->
    jobRange J w h s = Ok (f, l) -> (f <= l)%N -> (l < n)%N -> (f = 0%N -> (3 <= l)%N) ->
    exists vs, vs <> [] /\ Forall good vs /\ served vs (je_resps Cert e) /\
      tiles (match w with TBackfill => rev (map range vs) | _ => map range vs end) f l /\
      run sha256 Cert J s e = runVerifiers sha256 Cert w le (je_now Cert e) vs s (je_resps Cert e) (je_cancels Cert e).
  Proof.
    intros [Hn [[ts Eh] [El [Cs [GL HB]]]]] H63 Eh' Ew Hw Er Hfl Hln H0.
    assert (Two : (two64 = two63 + two63)%N) by reflexivity.
    assert (Hleaves : length leaves = length L) by apply map_length.
    specialize (HB h f l Eh'). rewrite Ew in HB. destruct (HB Er) as [_ [HP Hs]].
    set (old := (if (f =? 0)%N then 3 else f)%N) in *.
    assert (Hold : (old < l + 1)%N).
    { unfold old. destruct (N.eqb_spec f 0) as [->|]; [specialize (H0 eq_refl)|]; lia. }
    destruct (HP Hold Hln) as [p [Ep PR]].
    rewrite <- Hleaves in Hn.
    destruct (C04_honest_log_accepted sha256 w leaves f l p len32 Hfl ltac:(lia) ltac:(lia) H0 PR) as [sts [Ec V]].
    fold old in Ec.
    assert (Ps : proofSizes (f, l) = (old, l + 1)%N).
    { unfold proofSizes. cbn [fst snd]. rewrite add64_small by lia. reflexivity. }
    assert (PT : proofTerms J s e sts).
    { exists h, (f, l), p. split; [exact Eh'|]. rewrite Ew. split; [exact Er|]. split; [exact Ep|].
      rewrite Ps. exact Ec. }
    specialize (Hs sts PT).
    assert (Ec' : consistencyProofToSubtrees p (fst (proofSizes (f, l))) (snd (proofSizes (f, l))) = Ok sts)
      by (rewrite Ps; exact Ec).
    destruct (job_verifiers_ok w p f l sts ltac:(lia) Ec') as [_ [Ne Bd]].
    pose proof (jobs_tile w p f l sts Hfl ltac:(lia) H0 Ec') as T.
    set (vs := orderVerifiers w f l sts []) in *.
    exists vs. split; [exact Ne|]. split.
    { rewrite Forall_forall. intros st Hst. destruct (Bd st Hst) as [_ [B1 [B2 B3]]].
      unfold good. split; [exact B2|]. split; [lia|]. split; [lia|]. apply V. exact Hst. }
    split; [exact Hs|]. split; [exact T|].
    unfold run. rewrite Eh'. rewrite Ew, Er, Ps, Ep, Ec. cbn [fst snd]. fold vs. rewrite El.
    assert (X : forall (r : list (event Cert) * outcome),
      (let '(tr, o) := r in (tr, match vs, o with [], OOk => OPanic | _, _ => o end)) = r).
    { intros [tr o]. destruct vs; [contradiction|]. reflexivity. }
    destruct Hw as [->|[->| ->]]; apply X.
  Qed.

  (** What an honest job does to the saved range. *)
  Definition progressed (J n : N) (recent : bool) (s s' : logState) : Prop :=
    ls_lastUpdate s' <> None /\
    match ls_lastUpdate s with
    | None => ls_minEntry s' = (n - J)%N /\ ls_maxEntry s' = (n - 1)%N
    | Some _ =>
        if (ls_maxEntry s + J <? n)%N
        then ls_minEntry s' = ls_minEntry s /\ ls_maxEntry s' = (ls_maxEntry s + J)%N
        else if (0 <? ls_minEntry s)%N
        then ls_minEntry s' = ((ls_minEntry s - 1) / J * J)%N /\ ls_maxEntry s' = ls_maxEntry s
        else ls_minEntry s' = 0%N /\ ls_maxEntry s' = (if recent then ls_maxEntry s else n - 1)%N
    end.

  Lemma backfill_first J a : (0 < J)%N -> (0 < a)%N ->
    (if negb (a mod J =? 0)%N then a - a mod J else a - J)%N = ((a - 1) / J * J)%N.
  Proof.
    intros HJ Ha. pose proof (N.div_mod a J ltac:(lia)) as D. pose proof (N.mod_lt a J ltac:(lia)) as M.
    revert D M. generalize (a / J)%N (a mod J)%N. intros q m D M.
    destruct (N.eqb_spec m 0) as [E|E]; cbn [negb].
    - subst m. assert (X : exists q', q = (q' + 1)%N).
      { destruct (N.eq_dec q 0) as [->|]; [lia|]. exists (q - 1)%N. lia. }
      destruct X as [q' ->].
      rewrite <- (N.div_unique (a - 1) J q' (J - 1)); nia.
    - rewrite <- (N.div_unique (a - 1) J q (m - 1)); nia.
  Qed.

  Theorem honest_progress J n s e :
    (0 < J < two63)%N -> (4 <= n <= two63)%N -> honestEnv J n s e ->
    wfState s -> (ls_lastUpdate s <> None -> (ls_maxEntry s < n)%N) ->
    (ls_lastUpdate s <> None -> (ls_maxEntry s + J <? n)%N = false ->
       ls_minEntry s = 0%N \/ (J < ls_minEntry s)%N \/ (3 < ls_minEntry s)%N) ->
    exists tr, run sha256 Cert J s e = (tr, OOk) /\ progressed J n (je_recent Cert e) s (savedAfter s tr).
  Proof.
    intros HJ Hn HE W HM HS. assert (Two : (two64 = two63 + two63)%N) by reflexivity.
    pose proof HE as [HnL [[ts Eh] [El [Cs [GL _]]]]].
    unfold progressed. unfold wfState in W.
    destruct (ls_lastUpdate s) as [u|] eqn:Lu.
    - specialize (HM ltac:(discriminate)). specialize (HS ltac:(discriminate)). destruct W as [W1 W2].
      assert (Ch : forall w, (if (ls_maxEntry s + J <? n)%N then TUpdate
           else if (0 <? ls_minEntry s)%N then TBackfill else if je_recent Cert e then TSleep
           else if (ls_maxEntry s <? n - 1)%N then TUpdate else TSleep) = w ->
           chooseTask J (je_recent Cert e) (Some (mkSTH n ts)) s = w).
      { intros w <-. unfold chooseTask. cbn [sth_size]. destruct (N.leb_spec n 3); [lia|]. rewrite Lu.
        rewrite add64_small, sub64_small by lia. reflexivity. }
      destruct (N.ltb_spec (ls_maxEntry s + J) n) as [Hup|Hup].
      + destruct (honest_job J n s e (mkSTH n ts) TUpdate (ls_maxEntry s + 1)%N (ls_maxEntry s + J)%N HE ltac:(lia) Eh (Ch _ eq_refl) ltac:(auto))
          as [vs [_ [Gd [Sv [T R]]]]]; try lia.
        { cbn [jobRange sth_size]. rewrite !add64_small, sub64_small by lia.
          destruct (N.ltb_spec (n - 1) (ls_maxEntry s + J)); [lia|reflexivity]. }
        destruct (run_asc TUpdate (je_now Cert e) ltac:(auto) vs s (je_resps Cert e) (je_cancels Cert e) _ _ T Gd GL Sv Cs ltac:(congruence) eq_refl ltac:(lia))
          as [tr [E [H1 [H2 H3]]]].
        exists tr. rewrite R, E. split; [reflexivity|]. auto.
      + destruct (N.ltb_spec 0 (ls_minEntry s)) as [Hb|Hb].
        * pose proof (backfill_first J (ls_minEntry s) ltac:(lia) Hb) as BF.
          assert (Hle : ((ls_minEntry s - 1) / J * J <= ls_minEntry s - 1)%N).
          { rewrite N.mul_comm. apply N.mul_div_le. lia. }
          destruct (honest_job J n s e (mkSTH n ts) TBackfill ((ls_minEntry s - 1) / J * J)%N (ls_minEntry s - 1)%N HE ltac:(lia) Eh (Ch _ eq_refl) ltac:(auto))
            as [vs [_ [Gd [Sv [T R]]]]]; try lia.
          { cbn [jobRange sth_size]. destruct (N.eqb_spec J 0); [lia|].
            rewrite (sub64_small n 1), (sub64_small (ls_minEntry s) 1) by lia.
            destruct (N.ltb_spec (n - 1) (ls_minEntry s - 1)); [lia|]. f_equal. f_equal. rewrite <- BF.
            pose proof (N.mod_le (ls_minEntry s) J ltac:(lia)).
            destruct (N.eqb_spec (ls_minEntry s mod J) 0) as [E0|E0]; cbn [negb]; [|apply sub64_small; lia].
            apply sub64_small; [|lia]. pose proof (N.div_mod (ls_minEntry s) J ltac:(lia)) as D. rewrite E0 in D.
            destruct (ls_minEntry s / J)%N; nia. }
          destruct (run_desc (je_now Cert e) vs s (je_resps Cert e) (je_cancels Cert e) _ _ T Gd GL Sv Cs ltac:(congruence) ltac:(lia) ltac:(lia))
            as [tr [E [H1 [H2 H3]]]].
          exists tr. rewrite R, E. split; [reflexivity|]. auto.
        * assert (Hz : ls_minEntry s = 0%N) by lia.
          destruct (je_recent Cert e) eqn:Rc.
          { (* sleep *)
            unfold run. rewrite Eh, Rc, (Ch _ eq_refl). cbn [sth_size sth_ts].
            destruct (ls_maxEntry s =? sub64 n 1)%N.
            - cbn [updateState]. destruct (notCancelled_hd _ Cs) as [Hc _]. rewrite Hc. cbn [fst].
              eexists. split; [reflexivity|]. cbn. split; [discriminate|]. auto.
            - exists []. cbn. rewrite Lu. split; [reflexivity|]. split; [discriminate|]. auto. }
          destruct (N.ltb_spec (ls_maxEntry s) (n - 1)) as [Hl|Hl].
          { destruct (honest_job J n s e (mkSTH n ts) TUpdate (ls_maxEntry s + 1)%N (n - 1)%N HE ltac:(lia) Eh ltac:(rewrite Rc; exact (Ch _ eq_refl)) ltac:(auto))
              as [vs [_ [Gd [Sv [T R]]]]]; try lia.
            { cbn [jobRange sth_size]. rewrite !add64_small, sub64_small by lia.
              destruct (N.ltb_spec (n - 1) (ls_maxEntry s + J)); [reflexivity|]. f_equal. f_equal. lia. }
            destruct (run_asc TUpdate (je_now Cert e) ltac:(auto) vs s (je_resps Cert e) (je_cancels Cert e) _ _ T Gd GL Sv Cs ltac:(congruence) eq_refl ltac:(lia))
              as [tr [E [H1 [H2 H3]]]].
            exists tr. rewrite R, E. split; [reflexivity|]. rewrite H1. auto. }
          unfold run. rewrite Eh, Rc, (Ch _ eq_refl). cbn [sth_size sth_ts].
          rewrite sub64_small by lia. destruct (N.eqb_spec (ls_maxEntry s) (n - 1)); [|lia].
          cbn [updateState]. destruct (notCancelled_hd _ Cs) as [Hc _]. rewrite Hc. cbn [fst].
          eexists. split; [reflexivity|]. cbn. split; [discriminate|]. auto.
    - assert (Ch : chooseTask J (je_recent Cert e) (Some (mkSTH n ts)) s = TInit).
      { unfold chooseTask. cbn [sth_size]. destruct (N.leb_spec n 3); [lia|]. rewrite Lu. reflexivity. }
      destruct (honest_job J n s e (mkSTH n ts) TInit (n - J)%N (n - 1)%N HE ltac:(lia) Eh Ch ltac:(auto))
        as [vs [_ [Gd [Sv [T R]]]]]; try lia.
      { cbn [jobRange sth_size]. rewrite (sub64_small n 1) by lia. rewrite N.ltb_irrefl.
        f_equal. f_equal. destruct (N.ltb_spec n J); [lia|]. apply sub64_small; lia. }
      destruct (run_init (je_now Cert e) vs s (je_resps Cert e) (je_cancels Cert e) _ _ T Gd GL Sv Cs Lu ltac:(lia))
        as [tr [E [H1 [H2 H3]]]].
      exists tr. rewrite R, E. split; [reflexivity|]. auto.
  Qed.
End Live.
