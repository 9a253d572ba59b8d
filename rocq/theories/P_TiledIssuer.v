(** * Property C75: under which issuer the entries of a tiled log are stored.

    Model: TiledIssuerModel.v (the worker with its requests and its cache), on top of
    CtFetchModel.v. *)
From Verif Require Import Base MerkleModel CtFetchModel CtFetchProofs SerialModel SerialProofs LeafModel TiledIssuerModel P_Merkle.

Section Spec.
  Context {Cert : Type}.
  Variable parse : bytes -> option (Cert * Z * bool).

  (** The entries of the jobs. *)
  Definition entriesOfJob (e : wireEnv) : list wireEntry := fst (fst (wj_first e)) ++ fst (fst (wj_second e)).
  Definition entriesOfJobs (js : list (logState * wireEnv)) : list wireEntry := flat_map (fun j => entriesOfJob (snd j)) js.

  (** The issuer of an entry if [table] says which certificate has which fingerprint: the
      first of the chain, or the second if the first one only signs precertificates. *)
  Inductive issuerIn (table : bytes -> Cert * Z * bool -> Prop) : list bytes -> Cert -> Prop :=
  | in_first fp rest c na : table fp (c, na, false) -> issuerIn table (fp :: rest) c
  | in_second fp0 fp rest x nx c na q : table fp0 (x, nx, true) -> table fp (c, na, q) -> issuerIn table (fp0 :: fp :: rest) c.

  Definition storedFrom (table : bytes -> Cert * Z * bool -> Prop) (es : list wireEntry) (ev : event Cert) : Prop :=
    forall i ts leaf c iss, ev = EEntry i ts leaf (SQueued c iss) ->
      exists en na p, In en es /\ ts = we_ts en /\ leaf = we_leaf en /\ parse (we_der en) = Some (c, na, p) /\
        issuerIn table (we_fps en) iss.
End Spec.

Section Proofs.
  Context {Cert : Type}.
  Variable parse : bytes -> option (Cert * Z * bool).
  Notation world := (@world Cert).

  Definition usable (q : bytes * option bytes) : bool :=
    match snd q with Some der => match parse der with Some _ => true | None => false end | None => false end.

  (** The cache holds answers that were given, and nothing that is in it is asked for. *)
  Definition inv (w : world) : Prop :=
    (forall k c, alookup k (w_map w) = Some c -> exists der, In (k, Some der) (w_reqs w) /\ parse der = Some c) /\
    (forall k q, In q (w_reqs w) -> usable q = true -> k = fst q -> alookup k (w_map w) <> None) /\
    NoDup (map fst (filter usable (w_reqs w))).
  Definition ext (w w' : world) : Prop :=
    (forall k c, alookup k (w_map w) = Some c -> alookup k (w_map w') = Some c) /\
    exists l, w_reqs w' = l ++ w_reqs w.
  Lemma ext_refl w : ext w w.
  Proof using Type. split; [auto|exists []; reflexivity]. Qed.
  Lemma ext_trans w1 w2 w3 : ext w1 w2 -> ext w2 w3 -> ext w1 w3.
  Proof using Type.
    intros [A [l E]] [A' [l' E']]. split; [auto|]. exists (l' ++ l). rewrite E', E, app_assoc. reflexivity.
  Qed.

  Definition tableOf (w : world) (fp : bytes) (c : Cert * Z * bool) : Prop := alookup (hexEncode fp) (w_map w) = Some c.
  Lemma issuerIn_ext w w' fps iss : ext w w' -> issuerIn (tableOf w) fps iss -> issuerIn (tableOf w') fps iss.
  Proof using Type.
    intros [A _] H. destruct H as [fp rest c na H|fp0 fp rest x nx c na q H1 H2]; unfold tableOf in *.
    - eapply in_first. apply A. exact H.
    - eapply in_second; apply A; eassumption.
  Qed.

  Lemma getCertificate_spec fp w r w' : getCertificate parse fp w = (r, w') -> inv w ->
    inv w' /\ ext w w' /\ forall c, r = FCert c -> tableOf w' fp c.
  Proof using Type.
    unfold getCertificate, tableOf. intros E [I1 [I2 I3]].
    destruct (alookup (hexEncode fp) (w_map w)) as [c0|] eqn:L.
    { injection E as <- <-. split; [split; [|split]; assumption|]. split; [apply ext_refl|]. intros c X. injection X as <-. exact L. }
    set (k := hexEncode fp) in *.
    destruct (hd None (w_net w)) as [der|] eqn:N.
    - destruct (parse der) as [c0|] eqn:P.
      + injection E as <- <-. cbn [w_map w_reqs w_net]. split; [|split].
        * split; [|split]; cbn [w_map w_reqs w_net].
          -- intros k' c H. destruct (bytes_eq_dec k' k) as [->|Ne].
             ++ rewrite alookup_aset_same in H. injection H as <-. exists der. split; [left; reflexivity|exact P].
             ++ rewrite alookup_aset_other in H by exact Ne. destruct (I1 _ _ H) as [d [X Y]]. exists d. split; [right; exact X|exact Y].
          -- intros k' q [<-|H] U Ek.
             ++ subst k'. cbn [fst]. rewrite alookup_aset_same. discriminate.
             ++ destruct (bytes_eq_dec k' k) as [->|Ne]; [rewrite alookup_aset_same; discriminate|].
                rewrite alookup_aset_other by exact Ne. exact (I2 _ _ H U Ek).
          -- cbn [filter]. unfold usable at 1. cbn [snd]. rewrite P. cbn [map fst]. constructor; [|exact I3].
             intros H. apply in_map_iff in H. destruct H as [q [Eq H]]. apply filter_In in H. destruct H as [H U].
             exact (I2 k q H U (eq_sym Eq) L).
        * split; [|exists [(k, Some der)]; reflexivity]. cbn [w_map]. intros k' c H.
          destruct (bytes_eq_dec k' k) as [->|Ne]; [congruence|]. rewrite alookup_aset_other by exact Ne. exact H.
        * intros c X. injection X as <-. apply alookup_aset_same.
      + injection E as <- <-. split; [|split; [|discriminate]].
        * split; [|split]; cbn [w_map w_reqs].
          -- intros k' c H. destruct (I1 _ _ H) as [d [X Y]]. exists d. split; [right; exact X|exact Y].
          -- intros k' q [<-|H] U Ek; [unfold usable in U; cbn [snd] in U; rewrite P in U; discriminate|exact (I2 _ _ H U Ek)].
          -- cbn [filter]. unfold usable at 1. cbn [snd]. rewrite P. exact I3.
        * split; [auto|exists [(k, Some der)]; reflexivity].
    - injection E as <- <-. split; [|split; [|discriminate]].
      + split; [|split]; cbn [w_map w_reqs].
        * intros k' c H. destruct (I1 _ _ H) as [d [X Y]]. exists d. split; [right; exact X|exact Y].
        * intros k' q [<-|H] U Ek; [discriminate U|exact (I2 _ _ H U Ek)].
        * exact I3.
      + split; [auto|exists [(k, None)]; reflexivity].
  Qed.

  Lemma storeW_spec le e w r w' : storeW parse le e w = (r, w') -> inv w ->
    inv w' /\ ext w w' /\
    forall c iss, r = TSOk (SQueued c iss) -> exists na p, parse (we_der e) = Some (c, na, p) /\ issuerIn (tableOf w') (we_fps e) iss.
  Proof using Type.
    unfold storeW. intros E I.
    destruct (parse (we_der e)) as [[[c na] p]|]; [|injection E as <- <-; split; [exact I|split; [apply ext_refl|discriminate]]].
    destruct ((na <? we_now e)%Z && negb le); [injection E as <- <-; split; [exact I|split; [apply ext_refl|discriminate]]|].
    destruct (we_fps e) as [|fp0 rest]; [injection E as <- <-; split; [exact I|split; [apply ext_refl|discriminate]]|].
    destruct (getCertificate parse fp0 w) as [r1 w1] eqn:G1. destruct (getCertificate_spec _ _ _ _ G1 I) as [I1 [X1 T1]].
    destruct r1 as [[[i0 n0] sg]| |]; try (injection E as <- <-; split; [exact I1|split; [exact X1|discriminate]]).
    specialize (T1 _ eq_refl).
    destruct sg.
    - destruct rest as [|fp1 rest]; [injection E as <- <-; split; [exact I1|split; [exact X1|discriminate]]|].
      destruct (getCertificate parse fp1 w1) as [r2 w2] eqn:G2. destruct (getCertificate_spec _ _ _ _ G2 I1) as [I2 [X2 T2]].
      assert (X : ext w w2) by (eapply ext_trans; eassumption).
      destruct r2 as [[[i1 n1] s1]| |]; try (injection E as <- <-; split; [exact I2|split; [exact X|discriminate]]).
      specialize (T2 _ eq_refl). injection E as <- <-. split; [exact I2|]. split; [exact X|].
      intros c' iss H. destruct (we_cancelled e); [discriminate|]. injection H as <- <-. exists na, p. split; [reflexivity|].
      eapply in_second; [|exact T2]. unfold tableOf in *. apply (proj1 X2). exact T1.
    - injection E as <- <-. split; [exact I1|]. split; [exact X1|].
      intros c' iss H. destruct (we_cancelled e); [discriminate|]. injection H as <- <-. exists na, p. split; [reflexivity|].
      eapply in_first. exact T1.
  Qed.

  Lemma storedFrom_mono w w' es es' ev : ext w w' -> incl es es' ->
    storedFrom parse (tableOf w) es ev -> storedFrom parse (tableOf w') es' ev.
  Proof using Type.
    intros X Inc H i ts leaf c iss E. destruct (H _ _ _ _ _ E) as [en [na [p [A1 [A2 [A3 [A4 A5]]]]]]].
    exists en, na, p. split; [apply Inc; exact A1|]. repeat (split; [assumption|]). eapply issuerIn_ext; eassumption.
  Qed.

  Lemma readW_spec le bs now endc cerr : forall es s mE mn mx w tr vars r w',
    readW parse le bs now es endc cerr s mE mn mx w = (tr, vars, r, w') -> inv w ->
    inv w' /\ ext w w' /\ Forall (storedFrom parse (tableOf w') es) tr.
  Proof using Type.
    assert (St : forall t (ts : list wireEntry) (st : logState), storedFrom parse t ts (EState st)) by (intros t ts st ? ? ? ? ?; discriminate).
    induction es as [|e es IH]; intros s mE mn mx w tr vars r w' E I; cbn [readW] in E.
    - destruct endc; injection E as <- <- <- <-; (split; [exact I|split; [apply ext_refl|repeat constructor; apply St]]).
    - destruct (storeW parse le e w) as [o w1] eqn:S. destruct (storeW_spec _ _ _ _ _ S I) as [I1 [X1 T1]].
      destruct o as [o| |]; try (injection E as <- <- <- <-; split; [exact I1|split; [exact X1|constructor]]).
      assert (Ev : forall i, storedFrom parse (tableOf w1) (e :: es) (EEntry i (we_ts e) (we_leaf e) o)).
      { intros i j ts leaf c iss H. injection H as <- <- <- ->. destruct (T1 _ _ eq_refl) as [na [p [A B]]].
        exists e, na, p. split; [left; reflexivity|]. auto. }
      assert (Inc : incl es (e :: es)) by (intros x; right; assumption).
      destruct (bs =? 0)%N; [injection E as <- <- <- <-; split; [exact I1|split; [exact X1|constructor; [apply Ev|constructor]]]|].
      destruct (add64 mE 1 mod bs =? 0)%N.
      + destruct (we_saveCancelled e); [injection E as <- <- <- <-; split; [exact I1|split; [exact X1|constructor; [apply Ev|constructor]]]|].
        destruct (readW parse le bs now es endc cerr _ _ _ _ w1) as [[[tr' vars'] r'] w2] eqn:R in E.
        injection E as <- <- <- <-. destruct (IH _ _ _ _ _ _ _ _ _ R I1) as [I2 [X2 F2]].
        split; [exact I2|]. split; [eapply ext_trans; eassumption|].
        constructor; [eapply storedFrom_mono; [exact X2|apply incl_refl|apply Ev]|]. constructor; [apply St|].
        eapply Forall_impl; [|exact F2]. intros ev. apply storedFrom_mono; [apply ext_refl|exact Inc].
      + destruct (readW parse le bs now es endc cerr _ _ _ _ w1) as [[[tr' vars'] r'] w2] eqn:R in E.
        injection E as <- <- <- <-. destruct (IH _ _ _ _ _ _ _ _ _ R I1) as [I2 [X2 F2]].
        split; [exact I2|]. split; [eapply ext_trans; eassumption|].
        constructor; [eapply storedFrom_mono; [exact X2|apply incl_refl|apply Ev]|].
        eapply Forall_impl; [|exact F2]. intros ev. apply storedFrom_mono; [apply ext_refl|exact Inc].
  Qed.

  Lemma runW_spec bs s e w tr o w' : runW parse bs s e w = (tr, o, w') -> inv w ->
    inv w' /\ ext w w' /\ Forall (storedFrom parse (tableOf w') (entriesOfJob e)) tr.
  Proof using Type.
    assert (St : forall t (ts : list wireEntry) (st : logState), storedFrom parse t ts (EState st)) by (intros t ts st ? ? ? ? ?; discriminate).
    unfold runW, entriesOfJob. intros E I.
    destruct (wj_head e) as [h|]; [|injection E as <- <- <-; split; [exact I|split; [apply ext_refl|constructor]]].
    destruct (chooseTaskTiled bs (wj_recent e) (Some h) s);
      try (injection E as <- <- <-; split; [exact I|split; [apply ext_refl|constructor]]).
    - destruct (wj_first e) as [[es c] ce]. cbn [fst].
      destruct (readW _ _ _ _ _ _ _ _ _ _ _ _) as [[[tr1 v] r] w1] eqn:R in E. injection E as <- <- <-.
      destruct (readW_spec _ _ _ _ _ _ _ _ _ _ _ _ _ _ _ R I) as [I1 [X1 F1]]. split; [exact I1|]. split; [exact X1|].
      eapply Forall_impl; [|exact F1]. intros ev. apply storedFrom_mono; [apply ext_refl|apply incl_appl, incl_refl].
    - destruct (wj_first e) as [[es c] ce]. cbn [fst].
      destruct (readW _ _ _ _ es _ _ _ _ _ _ _) as [[[tr1 [[[s1 mE] mn] mx]] r] w1] eqn:R in E.
      destruct (readW_spec _ _ _ _ _ _ _ _ _ _ _ _ _ _ _ R I) as [I1 [X1 F1]].
      assert (F1' : forall w2, ext w1 w2 -> forall es2, Forall (storedFrom parse (tableOf w2) (es ++ es2)) tr1).
      { intros w2 X es2. eapply Forall_impl; [|exact F1]. intros ev. apply storedFrom_mono; [exact X|apply incl_appl, incl_refl]. }
      destruct r as [[|]| |]; try (injection E as <- <- <-; split; [exact I1|split; [exact X1|apply F1', ext_refl]]).
      destruct (wj_second e) as [[es2 c2] ce2]. cbn [fst].
      destruct (readW _ _ _ _ _ _ _ _ _ _ _ _) as [[[tr2 v2] r2] w2] eqn:R2 in E. injection E as <- <- <-.
      destruct (readW_spec _ _ _ _ _ _ _ _ _ _ _ _ _ _ _ R2 I1) as [I2 [X2 F2]].
      split; [exact I2|]. split; [eapply ext_trans; eassumption|]. apply Forall_app. split; [apply F1'; exact X2|].
      eapply Forall_impl; [|exact F2]. intros ev. apply storedFrom_mono; [apply ext_refl|apply incl_appr, incl_refl].
    - destruct (add64 (ls_maxEntry s) 1 =? sth_size h)%N; [|injection E as <- <- <-; split; [exact I|split; [apply ext_refl|constructor]]].
      destruct (wj_sleepCancelled e); injection E as <- <- <-; (split; [exact I|split; [apply ext_refl|repeat constructor; apply St]]).
  Qed.

  Lemma jobsW_spec bs js : forall w tr w', jobsW parse bs js w = (tr, w') -> inv w ->
    inv w' /\ ext w w' /\ Forall (storedFrom parse (tableOf w') (entriesOfJobs js)) tr.
  Proof using Type.
    induction js as [|[s e] js IH]; intros w tr w' E I; cbn [jobsW] in E.
    - injection E as <- <-. split; [exact I|split; [apply ext_refl|constructor]].
    - destruct (runW parse bs s e w) as [[tr1 o] w1] eqn:R. destruct (runW_spec _ _ _ _ _ _ _ R I) as [I1 [X1 F1]].
      assert (F1' : forall w2, ext w1 w2 -> Forall (storedFrom parse (tableOf w2) (entriesOfJobs ((s, e) :: js))) tr1).
      { intros w2 X. eapply Forall_impl; [|exact F1]. intros ev. apply storedFrom_mono; [exact X|].
        unfold entriesOfJobs. cbn [flat_map snd]. apply incl_appl, incl_refl. }
      destruct o; try (injection E as <- <-; split; [exact I1|split; [exact X1|apply F1', ext_refl]]).
      destruct (jobsW parse bs js w1) as [tr2 w2] eqn:J. injection E as <- <-.
      destruct (IH _ _ _ J I1) as [I2 [X2 F2]]. split; [exact I2|]. split; [eapply ext_trans; eassumption|].
      apply Forall_app. split; [apply F1'; exact X2|]. eapply Forall_impl; [|exact F2]. intros ev.
      apply storedFrom_mono; [apply ext_refl|]. unfold entriesOfJobs. cbn [flat_map]. apply incl_appr, incl_refl.
  Qed.

  Lemma inv_start net : inv (mkWorld [] net []).
  Proof using Type. split; [discriminate|]. split; [intros ? ? []|constructor]. Qed.
End Proofs.

(** Throughout the jobs of a log there is one table from fingerprints to certificates,
    made of answers the log gave to requests for just these fingerprints; every entry
    that is stored is stored with its own time, leaf and certificate, and with the
    issuer that the table has for its chain.  No fingerprint is asked for again once
    there was a usable answer. *)
Theorem C75_one_table : forall (Cert : Type) (parse : bytes -> option (Cert * Z * bool)) bs js net tr w,
  jobsW parse bs js (mkWorld [] net []) = (tr, w) ->
  (exists table : bytes -> option (Cert * Z * bool),
     (forall fp c, table fp = Some c -> exists der, In (hexEncode fp, Some der) (w_reqs w) /\ parse der = Some c) /\
     Forall (storedFrom parse (fun fp c => table fp = Some c) (entriesOfJobs js)) tr) /\
  NoDup (map fst (filter (fun q => match snd q with
                                   | Some der => match parse der with Some _ => true | None => false end
                                   | None => false
                                   end) (w_reqs w))).
Proof.
  intros Cert parse bs js net tr w E.
  destruct (jobsW_spec parse bs js _ _ _ E (inv_start parse net)) as [[I1 [I2 I3]] [_ F]].
  split; [|exact I3]. exists (fun fp => alookup (hexEncode fp) (w_map w)). split; [intros fp c; apply I1|exact F].
Qed.
Print Assumptions C75_one_table.

(** If the log answers requests for issuers honestly, what is stored is stored under
    a certificate with the fingerprint that is in the entry. *)
Theorem C75_honest_log : forall (sha256 : bytes -> bytes) (Cert : Type) (parse : bytes -> option (Cert * Z * bool)) bs js net tr w,
  jobsW parse bs js (mkWorld [] net []) = (tr, w) ->
  (forall fp der, In (hexEncode fp, Some der) (w_reqs w) -> sha256 der = fp) ->
  Forall (storedFrom parse (fun fp c => exists der, sha256 der = fp /\ parse der = Some c) (entriesOfJobs js)) tr.
Proof.
  intros sha Cert parse bs js net tr w E H.
  destruct (C75_one_table _ _ _ _ _ _ _ E) as [[table [T F]] _].
  eapply Forall_impl; [|exact F]. intros ev S i ts leaf c iss Eq.
  destruct (S _ _ _ _ _ Eq) as [en [na [p [A1 [A2 [A3 [A4 A5]]]]]]]. exists en, na, p. repeat (split; [assumption|]).
  assert (G : forall fp x, table fp = Some x -> exists der, sha der = fp /\ parse der = Some x).
  { intros fp x Hx. destruct (T _ _ Hx) as [der [X Y]]. exists der. split; [exact (H _ _ X)|exact Y]. }
  destruct A5 as [fp rest x nx Hx|fp0 fp rest x0 n0 x nx q H0 Hx]; [eapply in_first|eapply in_second]; apply G; eassumption.
Qed.
Print Assumptions C75_honest_log.


(** ** The worker of CtFetchModel.v, with the outcomes of its look-ups given *)
Section Same.
  Context {Cert : Type}.
  Variable parse : bytes -> option (Cert * Z * bool).

  Definition sameEntry (a : wireEntry) (b : tiledEntry Cert) : Prop :=
    te_ts Cert b = we_ts a /\ te_leaf Cert b = we_leaf a /\ te_cancelled Cert b = we_cancelled a /\
    te_saveCancelled Cert b = we_saveCancelled a /\ te_cert Cert b = parseAt parse (we_now a) (we_der a) /\
    length (te_chain Cert b) = length (we_fps a).
  Definition sameRead (a : list wireEntry * bool * bool) (b : list (tiledEntry Cert) * bool * bool) : Prop :=
    let '(es, c, ce) := a in let '(es', c', ce') := b in Forall2 sameEntry es es' /\ c' = c /\ ce' = ce.
  Definition sameJob (a : wireEnv) (b : tiledEnv Cert) : Prop :=
    tj_head Cert b = wj_head a /\ tj_recent Cert b = wj_recent a /\ tj_now Cert b = wj_now a /\
    tj_logExpired Cert b = wj_logExpired a /\ tj_sleepCancelled Cert b = wj_sleepCancelled a /\
    sameRead (wj_first a) (tj_first Cert b) /\ sameRead (wj_second a) (tj_second Cert b).

  Definition mkEntry (a : wireEntry) (ch : list (issuerFetch Cert)) : tiledEntry Cert :=
    mkTE (we_ts a) (we_leaf a) (we_cancelled a) (parseAt parse (we_now a) (we_der a)) ch (we_saveCancelled a).
  Lemma mkEntry_same a ch : length ch = length (we_fps a) -> sameEntry a (mkEntry a ch).
  Proof using Type. intros H. repeat split. exact H. Qed.
  Lemma filler (es : list wireEntry) : exists es', Forall2 sameEntry es es'.
  Proof using Type.
    induction es as [|e es [es' IH]]; [exists []; constructor|].
    exists (mkEntry e (repeat IFNetErr (length (we_fps e))) :: es'). constructor; [|exact IH].
    apply mkEntry_same, repeat_length.
  Qed.

  Lemma storeW_sim le e w r w' : storeW parse le e w = (r, w') ->
    exists ch, length ch = length (we_fps e) /\
      storeLogEntryTiled Cert le (we_cancelled e) (parseAt parse (we_now e) (we_der e)) ch = r.
  Proof using Type.
    unfold storeW, storeLogEntryTiled, parseAt. intros E.
    assert (Fill : exists ch : list (issuerFetch Cert), length ch = length (we_fps e))
      by (exists (repeat IFNetErr (length (we_fps e))); apply repeat_length).
    destruct (parse (we_der e)) as [[[c na] p]|];
      [|injection E as <- <-; destruct Fill as [ch F]; exists ch; split; [exact F|reflexivity]].
    cbn [pc_expired pc_cert]. destruct ((na <? we_now e)%Z && negb le);
      [injection E as <- <-; destruct Fill as [ch F]; exists ch; split; [exact F|reflexivity]|].
    destruct (we_fps e) as [|fp0 rest]; [injection E as <- <-; exists []; split; reflexivity|].
    destruct (getCertificate parse fp0 w) as [r1 w1].
    destruct r1 as [[[i0 n0] sg]| |].
    - destruct sg.
      + destruct rest as [|fp1 rest].
        { injection E as <- <-. exists [IFCert (mkPC i0 false true)]. split; reflexivity. }
        destruct (getCertificate parse fp1 w1) as [r2 w2].
        destruct r2 as [[[i1 n1] s1]| |]; injection E as <- <-.
        * exists (IFCert (mkPC i0 false true) :: IFCert (mkPC i1 false s1) :: repeat IFNetErr (length rest)).
          split; [cbn [length]; rewrite repeat_length; reflexivity|reflexivity].
        * exists (IFCert (mkPC i0 false true) :: IFNetErr :: repeat IFNetErr (length rest)).
          split; [cbn [length]; rewrite repeat_length; reflexivity|reflexivity].
        * exists (IFCert (mkPC i0 false true) :: IFFatal :: repeat IFNetErr (length rest)).
          split; [cbn [length]; rewrite repeat_length; reflexivity|reflexivity].
      + injection E as <- <-. exists (IFCert (mkPC i0 false false) :: repeat IFNetErr (length rest)).
        split; [cbn [length]; rewrite repeat_length; reflexivity|reflexivity].
    - injection E as <- <-. exists (IFNetErr :: repeat IFNetErr (length rest)).
      split; [cbn [length]; rewrite repeat_length; reflexivity|reflexivity].
    - injection E as <- <-. exists (IFFatal :: repeat IFNetErr (length rest)).
      split; [cbn [length]; rewrite repeat_length; reflexivity|reflexivity].
  Qed.

  Lemma readW_sim le bs now endc cerr : forall es s mE mn mx w tr vars r w',
    readW parse le bs now es endc cerr s mE mn mx w = (tr, vars, r, w') ->
    exists es', Forall2 sameEntry es es' /\ readLogEntries Cert le bs now es' endc cerr s mE mn mx = (tr, vars, r).
  Proof using Type.
    induction es as [|e es IH]; intros s mE mn mx w tr vars r w' E; cbn [readW] in E.
    - exists []. split; [constructor|]. cbn [readLogEntries]. destruct endc; injection E as <- <- <- <-; reflexivity.
    - destruct (storeW parse le e w) as [o w1] eqn:S. destruct (storeW_sim _ _ _ _ _ S) as [ch [L C]].
      assert (Stop : (forall es', readLogEntries Cert le bs now (mkEntry e ch :: es') endc cerr s mE mn mx = (tr, vars, r)) ->
                    exists es', Forall2 sameEntry (e :: es) es' /\ readLogEntries Cert le bs now es' endc cerr s mE mn mx = (tr, vars, r)).
      { intros H. destruct (filler es) as [es' F]. exists (mkEntry e ch :: es').
        split; [constructor; [apply mkEntry_same; exact L|exact F]|]. apply H. }
      destruct o as [o| |].
      2,3: (apply Stop; injection E as <- <- <- <-;
            intros es'; cbn [readLogEntries mkEntry te_cancelled te_cert te_chain]; rewrite C; reflexivity).
      destruct (bs =? 0)%N eqn:B.
      { apply Stop. injection E as <- <- <- <-.
        intros es'. cbn [readLogEntries mkEntry te_cancelled te_cert te_chain te_ts te_leaf te_saveCancelled]. rewrite C, B. reflexivity. }
      destruct (add64 mE 1 mod bs =? 0)%N eqn:M.
      + destruct (we_saveCancelled e) eqn:SC.
        { apply Stop. injection E as <- <- <- <-.
          intros es'. cbn [readLogEntries mkEntry te_cancelled te_cert te_chain te_ts te_leaf te_saveCancelled]. rewrite C, B, M, SC. reflexivity. }
        destruct (readW parse le bs now es endc cerr _ _ _ _ w1) as [[[tr' vars'] r'] w2] eqn:R in E.
        injection E as <- <- <- <-. destruct (IH _ _ _ _ _ _ _ _ _ R) as [es' [F Q]].
        exists (mkEntry e ch :: es'). split; [constructor; [apply mkEntry_same; exact L|exact F]|].
        cbn [readLogEntries mkEntry te_cancelled te_cert te_chain te_ts te_leaf te_saveCancelled]. rewrite C, B, M, SC, Q. reflexivity.
      + destruct (readW parse le bs now es endc cerr _ _ _ _ w1) as [[[tr' vars'] r'] w2] eqn:R in E.
        injection E as <- <- <- <-. destruct (IH _ _ _ _ _ _ _ _ _ R) as [es' [F Q]].
        exists (mkEntry e ch :: es'). split; [constructor; [apply mkEntry_same; exact L|exact F]|].
        cbn [readLogEntries mkEntry te_cancelled te_cert te_chain te_ts te_leaf te_saveCancelled]. rewrite C, B, M, Q. reflexivity.
  Qed.
  Lemma sameRead_fill a : exists b, sameRead a b.
  Proof using Type. destruct a as [[es c] ce]. destruct (filler es) as [es' F]. exists (es', c, ce). repeat split. exact F. Qed.
End Same.

(** Every job is a job of the worker for which C05 to C12 and C62 are stated: the same
    tree head, clock and cancellations, the same entries, the same certificates parsed at
    the same times and chains of the same length.  What those claims say about all jobs of
    that worker is thus also true with the requests and the cache in the picture. *)
Theorem C75_same_jobs : forall (Cert : Type) (parse : bytes -> option (Cert * Z * bool)) bs s e w tr o w',
  runW parse bs s e w = (tr, o, w') ->
  exists e', sameJob parse e e' /\ runTiled Cert bs s e' = (tr, o).
Proof.
  intros Cert parse bs s e w tr o w' E. unfold runW in E.
  destruct (sameRead_fill parse (wj_first e)) as [b1 F1]. destruct (sameRead_fill parse (wj_second e)) as [b2 F2].
  assert (Mk : forall x1 x2, sameRead parse (wj_first e) x1 -> sameRead parse (wj_second e) x2 ->
            sameJob parse e (mkTEnv (wj_head e) (wj_recent e) (wj_now e) (wj_logExpired e) x1 x2 (wj_sleepCancelled e)))
    by (intros x1 x2 X1 X2; repeat split; assumption).
  destruct (wj_head e) as [h|] eqn:Hh.
  2: { eexists. split; [exact (Mk _ _ F1 F2)|]. injection E as <- <- <-. reflexivity. }
  destruct (chooseTaskTiled bs (wj_recent e) (Some h) s) eqn:Ct;
    try (eexists; split; [exact (Mk _ _ F1 F2)|]; unfold runTiled;
         cbn [tj_head tj_recent tj_now tj_logExpired tj_sleepCancelled]; rewrite Ct; injection E as <- <- <-; reflexivity).
  - destruct (wj_first e) as [[es c] ce] eqn:W1.
    destruct (readW _ _ _ _ _ _ _ _ _ _ _ _) as [[[tr1 v] r] w1] eqn:R in E. injection E as <- <- <-.
    destruct (readW_sim _ _ _ _ _ _ _ _ _ _ _ _ _ _ _ _ R) as [es' [F Q]].
    eexists. split; [apply (Mk (es', c, ce) b2); [repeat split; exact F|exact F2]|]. unfold runTiled.
    cbn [tj_head tj_recent tj_now tj_logExpired tj_sleepCancelled tj_first]. rewrite Ct, Q. reflexivity.
  - destruct (wj_first e) as [[es c] ce] eqn:W1.
    destruct (readW _ _ _ _ es _ _ _ _ _ _ _) as [[[tr1 [[[s1 mE] mn] mx]] r] w1] eqn:R in E.
    destruct (readW_sim _ _ _ _ _ _ _ _ _ _ _ _ _ _ _ _ R) as [es' [F Q]].
    assert (FS : sameRead parse (es, c, ce) (es', c, ce)) by (repeat split; exact F).
    destruct r as [[|]| |];
      try (eexists; split; [exact (Mk _ _ FS F2)|]; unfold runTiled;
           cbn [tj_head tj_recent tj_now tj_logExpired tj_sleepCancelled tj_first]; rewrite Ct, Q; injection E as <- <- <-; reflexivity).
    destruct (wj_second e) as [[es2 c2] ce2] eqn:W2.
    destruct (readW _ _ _ _ _ _ _ _ _ _ _ _) as [[[tr2 v2] r2] w2] eqn:R2 in E. injection E as <- <- <-.
    destruct (readW_sim _ _ _ _ _ _ _ _ _ _ _ _ _ _ _ _ R2) as [es2' [G2 Q2]].
    eexists. split; [apply (Mk (es', c, ce) (es2', c2, ce2)); [exact FS|repeat split; exact G2]|]. unfold runTiled.
    cbn [tj_head tj_recent tj_now tj_logExpired tj_sleepCancelled tj_first tj_second]. rewrite Ct, Q, Q2. reflexivity.
  - eexists. split; [exact (Mk _ _ F1 F2)|]. unfold runTiled.
    cbn [tj_head tj_recent tj_now tj_logExpired tj_sleepCancelled]. rewrite Ct.
    destruct (add64 (ls_maxEntry s) 1 =? sth_size h)%N; [|injection E as <- <- <-; reflexivity].
    destruct (wj_sleepCancelled e); injection E as <- <- <-; reflexivity.
Qed.
Print Assumptions C75_same_jobs.

(** ** Concrete jobs *)
(** Certificates are their own bytes; those that begin with "P" sign precertificates. *)
Definition exParse (der : bytes) : option (bytes * Z * bool) :=
  match der with
  | [] => None
  | b :: _ => Some (der, 1000%Z, Byte.eqb b x50)
  end.
Definition exEntry (x : bytes) (ts : N) (fps : list bytes) : wireEntry := mkWE ts x (B "cert" ++ x) fps 10 false false.
Definition fpOf (der : bytes) : bytes := toyHash der.
Definition exJobs : list (logState * wireEnv) :=
  [(freshState, mkWEnv (Some (mkSTH 4 100)) false 7 false
      ([exEntry (B "1") 11 [fpOf (B "CA"); fpOf (B "Root")]; exEntry (B "2") 12 [fpOf (B "PS"); fpOf (B "CA")]], false, false)
      ([exEntry (B "3") 13 [fpOf (B "CB")]], false, false) false);
   (mkLS 0 3 11 13 (Some 7%N), mkWEnv (Some (mkSTH 6 200)) false 8 false
      ([exEntry (B "4") 14 [fpOf (B "CB")]; exEntry (B "5") 15 [fpOf (B "CA")]], false, false)
      ([], false, false) false)].
Definition storedAs (tr : list (event bytes)) : list (bytes * bytes) :=
  flat_map (fun ev => match ev with EEntry _ _ _ (SQueued c i) => [(c, i)] | _ => [] end) tr.

(** An honest log: five entries of two jobs, three requests. *)
Example C75_example :
  let '(tr, w) := jobsW exParse 100 exJobs (mkWorld [] [Some (B "CA"); Some (B "PS"); Some (B "CB")] []) in
  storedAs tr = [(B "cert1", B "CA"); (B "cert2", B "CA"); (B "cert3", B "CB"); (B "cert4", B "CB"); (B "cert5", B "CA")] /\
  length (w_reqs w) = 3 /\
  forall fp der, In (hexEncode fp, Some der) (w_reqs w) -> toyHash der = fp.
Proof.
  destruct (jobsW exParse 100 exJobs _) as [tr w] eqn:E. vm_compute in E. injection E as <- <-.
  split; [reflexivity|]. split; [reflexivity|]. intros fp der H.
  cbn [w_reqs In] in H.
  assert (G : forall x y, hexEncode x = hexEncode y -> x = y).
  { intros x y Hx. assert (Z : hexDecode (hexEncode x) = hexDecode (hexEncode y)) by (rewrite Hx; reflexivity).
    rewrite !hexDecode_encode in Z. congruence. }
  destruct H as [H|[H|[H|[]]]]; injection H as H <-; apply G; rewrite <- H; vm_compute; reflexivity.
Qed.

(** The log is not held to the fingerprints: whatever it answers first is kept for all
    entries of this and of later jobs that name the fingerprint. *)
Theorem C75_wrong_issuer_refuted :
  exists tr w, jobsW exParse 100 exJobs (mkWorld [] [Some (B "Evil"); Some (B "PS"); Some (B "CB"); Some (B "CA")] []) = (tr, w) /\
    storedAs tr = [(B "cert1", B "Evil"); (B "cert2", B "Evil"); (B "cert3", B "CB"); (B "cert4", B "CB"); (B "cert5", B "Evil")] /\
    ~ Forall (storedFrom exParse (fun fp c => exists der, toyHash der = fp /\ exParse der = Some c) (entriesOfJobs exJobs)) tr.
Proof.
  destruct (jobsW exParse 100 exJobs _) as [tr w] eqn:E. exists tr, w. split; [reflexivity|].
  vm_compute in E. injection E as <- <-. split; [reflexivity|].
  intros F. apply Forall_inv in F. destruct (F _ _ _ _ _ eq_refl) as [en [na [p [A1 [A2 [A3 [A4 A5]]]]]]].
  assert (Efp : we_fps en = [fpOf (B "CA"); fpOf (B "Root")]).
  { cbn [entriesOfJobs exJobs flat_map entriesOfJob snd fst wj_first wj_second app In] in A1.
    destruct A1 as [<-|[<-|[<-|[<-|[<-|[]]]]]]; [reflexivity|..]; discriminate A2. }
  rewrite Efp in A5. inversion A5 as [fp rest c n [der [H1 H2]] E1 E2|fp0 fp rest x nx c n q _ [der [H1 H2]] E1 E2]; subst;
    (destruct der as [|b l]; [discriminate|]; assert (Hd : Some (b :: l) = option_map (fun x => fst (fst x)) (exParse (b :: l))) by reflexivity;
     rewrite H2 in Hd; cbn [option_map fst] in Hd; injection Hd as -> ->; vm_compute in H1; discriminate).
Qed.
Print Assumptions C75_wrong_issuer_refuted.

(** ** Which requests are made *)
Section Requests.
  Context {Cert : Type}.
  Variable parse : bytes -> option (Cert * Z * bool).

  (** New requests are for one of the first two fingerprints of an entry that is among
      [es] and is not skipped as expired. *)
  Definition asked (le : bool) (es : list wireEntry) (w w' : @world Cert) : Prop :=
    exists l : list (bytes * option bytes), w_reqs w' = l ++ w_reqs w /\
      forall q, In q l -> exists en fp c na p, In en es /\ In fp (firstn 2 (we_fps en)) /\ fst q = hexEncode fp /\
        parse (we_der en) = Some (c, na, p) /\ ((we_now en <= na)%Z \/ le = true).

  Lemma asked_refl le es w : asked le es w w.
  Proof using Type. exists []. split; [reflexivity|intros q []]. Qed.
  Lemma asked_trans le es w1 w2 w3 : asked le es w1 w2 -> asked le es w2 w3 -> asked le es w1 w3.
  Proof using Type.
    intros [l [E H]] [l' [E' H']]. exists (l' ++ l). split; [rewrite E', E, app_assoc; reflexivity|].
    intros q Hq. apply in_app_or in Hq. destruct Hq; auto.
  Qed.
  Lemma asked_mono le es es' w w' : incl es es' -> asked le es w w' -> asked le es' w w'.
  Proof using Type.
    intros Inc [l [E H]]. exists l. split; [exact E|]. intros q Hq.
    destruct (H q Hq) as [en [fp [c [na [p [A B]]]]]]. exists en, fp, c, na, p. split; [apply Inc; exact A|exact B].
  Qed.
  Lemma getCertificate_asked fp w r w' : getCertificate parse fp w = (r, w') ->
    w_reqs w' = w_reqs w \/ exists a, w_reqs w' = (hexEncode fp, a) :: w_reqs w.
  Proof using Type.
    unfold getCertificate. intros E. destruct (alookup _ _); [injection E as <- <-; left; reflexivity|].
    right. exists (hd None (w_net w)). destruct (hd None (w_net w)) as [der|]; [destruct (parse der)|]; injection E as <- <-; reflexivity.
  Qed.
  Lemma storeW_asked le e w r w' : storeW parse le e w = (r, w') -> asked le [e] w w'.
  Proof using Type.
    unfold storeW. intros E. destruct (parse (we_der e)) as [[[c na] p]|] eqn:P; [|injection E as <- <-; apply asked_refl].
    destruct ((na <? we_now e)%Z && negb le) eqn:X; [injection E as <- <-; apply asked_refl|].
    assert (V : (we_now e <= na)%Z \/ le = true).
    { destruct le; [right; reflexivity|left]. rewrite andb_true_r in X. apply Z.ltb_ge in X. exact X. }
    destruct (we_fps e) as [|fp0 rest] eqn:Fp; [injection E as <- <-; apply asked_refl|].
    assert (One : forall fp u v r, In fp (firstn 2 (we_fps e)) -> getCertificate parse fp u = (r, v) -> asked le [e] u v).
    { intros fp u v rr Hfp G. destruct (getCertificate_asked _ _ _ _ G) as [Q|[a Q]]; rewrite <- ?Q.
      - exists []. split; [symmetry; rewrite Q; reflexivity|intros q []].
      - exists [(hexEncode fp, a)]. split; [exact Q|]. intros q [<-|[]]. exists e, fp, c, na, p.
        split; [left; reflexivity|]. split; [exact Hfp|]. split; [reflexivity|]. split; [exact P|exact V]. }
    rewrite Fp in One.
    destruct (getCertificate parse fp0 w) as [r1 w1] eqn:G1.
    assert (A1 : asked le [e] w w1) by (eapply One; [left; reflexivity|exact G1]).
    destruct r1 as [[[i0 n0] sg]| |]; try (injection E as <- <-; exact A1).
    destruct sg; [|injection E as <- <-; exact A1].
    destruct rest as [|fp1 rest]; [injection E as <- <-; exact A1|].
    destruct (getCertificate parse fp1 w1) as [r2 w2] eqn:G2.
    assert (A2 : asked le [e] w w2) by (eapply asked_trans; [exact A1|eapply One; [right; left; reflexivity|exact G2]]).
    destruct r2 as [[[i1 n1] s1]| |]; injection E as <- <-; exact A2.
  Qed.
  Lemma readW_asked le bs now endc cerr : forall es s mE mn mx w tr vars r w',
    readW parse le bs now es endc cerr s mE mn mx w = (tr, vars, r, w') -> asked le es w w'.
  Proof using Type.
    induction es as [|e es IH]; intros s mE mn mx w tr vars r w' E; cbn [readW] in E.
    - destruct endc; injection E as <- <- <- <-; apply asked_refl.
    - destruct (storeW parse le e w) as [o w1] eqn:S. pose proof (storeW_asked _ _ _ _ _ S) as A.
      apply (asked_mono _ _ (e :: es)) in A; [|intros x [<-|[]]; left; reflexivity].
      destruct o as [o| |]; try (injection E as <- <- <- <-; exact A).
      destruct (bs =? 0)%N; [injection E as <- <- <- <-; exact A|].
      assert (Tl : forall u, asked le es w1 u -> asked le (e :: es) w u).
      { intros u Hu. eapply asked_trans; [exact A|]. eapply asked_mono; [|exact Hu]. intros x Hx. right. exact Hx. }
      destruct (add64 mE 1 mod bs =? 0)%N.
      + destruct (we_saveCancelled e); [injection E as <- <- <- <-; exact A|].
        destruct (readW parse le bs now es endc cerr _ _ _ _ w1) as [[[tr' vars'] r'] w2] eqn:R in E.
        injection E as <- <- <- <-. apply Tl. eapply IH. exact R.
      + destruct (readW parse le bs now es endc cerr _ _ _ _ w1) as [[[tr' vars'] r'] w2] eqn:R in E.
        injection E as <- <- <- <-. apply Tl. eapply IH. exact R.
  Qed.
  Lemma runW_asked bs s e w tr o w' : runW parse bs s e w = (tr, o, w') -> asked (wj_logExpired e) (entriesOfJob e) w w'.
  Proof using Type.
    unfold runW, entriesOfJob. intros E.
    destruct (wj_head e) as [h|]; [|injection E as <- <- <-; apply asked_refl].
    destruct (chooseTaskTiled bs (wj_recent e) (Some h) s); try (injection E as <- <- <-; apply asked_refl).
    - destruct (wj_first e) as [[es c] ce]. cbn [fst].
      destruct (readW _ _ _ _ _ _ _ _ _ _ _ _) as [[[tr1 v] r] w1] eqn:R in E. injection E as <- <- <-.
      eapply asked_mono; [apply incl_appl, incl_refl|eapply readW_asked; exact R].
    - destruct (wj_first e) as [[es c] ce]. cbn [fst].
      destruct (readW _ _ _ _ es _ _ _ _ _ _ _) as [[[tr1 [[[s1 mE] mn] mx]] r] w1] eqn:R in E.
      assert (A1 : asked (wj_logExpired e) (es ++ fst (fst (wj_second e))) w w1)
        by (eapply asked_mono; [apply incl_appl, incl_refl|eapply readW_asked; exact R]).
      destruct r as [[|]| |]; try (injection E as <- <- <-; exact A1).
      destruct (wj_second e) as [[es2 c2] ce2]. cbn [fst] in *.
      destruct (readW _ _ _ _ _ _ _ _ _ _ _ _) as [[[tr2 v2] r2] w2] eqn:R2 in E. injection E as <- <- <-.
      eapply asked_trans; [exact A1|]. eapply asked_mono; [apply incl_appr, incl_refl|eapply readW_asked; exact R2].
    - destruct (add64 (ls_maxEntry s) 1 =? sth_size h)%N; [destruct (wj_sleepCancelled e)|]; injection E as <- <- <-; apply asked_refl.
  Qed.
End Requests.

(** Certificates are requested for the first two fingerprints of an entry of the job and
    for nothing else, and not for entries that are skipped because they are expired. *)
Theorem C75_requests : forall (Cert : Type) (parse : bytes -> option (Cert * Z * bool)) bs s e w tr o w',
  runW parse bs s e w = (tr, o, w') ->
  exists l, w_reqs w' = l ++ w_reqs w /\
    forall q, In q l -> exists en fp c na p, In en (entriesOfJob e) /\ In fp (firstn 2 (we_fps en)) /\ fst q = hexEncode fp /\
      parse (we_der en) = Some (c, na, p) /\ ((we_now en <= na)%Z \/ wj_logExpired e = true).
Proof. intros Cert parse bs s e w tr o w' E. exact (runW_asked parse bs s e w tr o w' E). Qed.
Print Assumptions C75_requests.
