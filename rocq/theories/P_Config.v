(** * C48: where each configuration option comes from *)
From Verif Require Import Base QueryModel TextProofs P_Query ConfigModel.
Local Open Scope Z_scope.

(** ** Specification *)
(** Decimal texts, without and with a sign, in the range of the type. *)
Definition uintText (s : bytes) (v : Z) : Prop := s <> [] /\ forallb isDigit s = true /\ v = Z.of_N (valueOf s) /\ v < 2 ^ 64.
Definition intText (s : bytes) (v : Z) : Prop :=
  exists sign ds, s = sign ++ ds /\ ds <> [] /\ forallb isDigit ds = true /\ - 2 ^ 31 <= v < 2 ^ 31 /\
    ((sign = [] \/ sign = B "+") /\ v = Z.of_N (valueOf ds) \/ sign = B "-" /\ v = - Z.of_N (valueOf ds)).
Definition boolText (s : bytes) (v : bool) : Prop :=
  v = true /\ In s [B "1"; B "t"; B "T"; B "true"; B "TRUE"; B "True"] \/ v = false /\ In s [B "0"; B "f"; B "F"; B "false"; B "FALSE"; B "False"].
(** First choice, second choice, default. *)
Definition picks {A} (first second : A -> Prop) (def v : A) : Prop := first v \/ (forall x, ~ first x) /\ (second v \/ (forall x, ~ second x) /\ v = def).
Definition fromEnv {A} (denotes : bytes -> A -> Prop) (e : env) (key : bytes) (v : A) : Prop := exists s, e key = Some s /\ denotes s v.
Definition fromFile {A} (denotes : bytes -> A -> Prop) (f : file) (key : bytes) (v : A) : Prop := exists section, f = Some section /\ denotes (section key) v.

(** ** Proofs *)
Lemma goUint_spec s v : goUint s = Some v <-> uintText s v.
Proof.
  unfold goUint, uintText. destruct s as [|c s]; [split; [discriminate|intros [H _]; destruct (H eq_refl)]|].
  destruct (decFrom 0 (c :: s)) as [n|] eqn:E.
  - apply (proj1 (dec_value _ _ _)) in E. destruct E as [D V]. fold (valueOf (c :: s)) in V. rewrite <- V. destruct (Z.of_N n <? 2 ^ 64) eqn:L.
    + apply Z.ltb_lt in L. split; [intros H; injection H as <-; repeat split; [discriminate|exact D|exact L]|intros [_ [_ [-> _]]]; reflexivity].
    + apply Z.ltb_ge in L. split; [discriminate|]. intros [_ [_ [-> H]]]. lia.
  - split; [discriminate|]. intros [_ [D _]]. assert (X : decFrom 0 (c :: s) = Some (valueOf (c :: s))) by (apply dec_value; split; [exact D|reflexivity]). congruence.
Qed.
Lemma goInt_spec s v : goInt s = Some v <-> intText s v.
Proof.
  unfold goInt, intText. destruct s as [|c s].
  { split; [discriminate|]. intros (sg & ds & E & N & _). destruct sg; [|discriminate E]. cbn in E. congruence. }
  assert (P31 : 2 ^ 31 < 2 ^ 64) by reflexivity.
  destruct (Byte.eqb c "-") eqn:M; cbn [orb].
  - apply Byte.byte_dec_bl in M. subst c. destruct (goUint s) as [n|] eqn:G.
    + apply goUint_spec in G. destruct G as [N [D [V L]]]. destruct (2 ^ 31 <? n) eqn:R.
      * apply Z.ltb_lt in R. split; [discriminate|]. intros (sg & ds & E & N' & D' & B0 & [[[->| ->] V']|[-> V']]); cbn in E; [subst ds; discriminate D'|discriminate E|]. injection E as ->. lia.
      * apply Z.ltb_ge in R. split.
        -- intros H. injection H as <-. exists (B "-"), s. repeat split; try assumption; [lia|lia|]. right. split; [reflexivity|lia].
        -- intros (sg & ds & E & N' & D' & B0 & [[[->| ->] V']|[-> V']]); cbn in E; [subst ds; discriminate D'|discriminate E|]. injection E as ->. f_equal. lia.
    + split; [discriminate|]. intros (sg & ds & E & N' & D' & B0 & [[[->| ->] V']|[-> V']]); cbn in E; [subst ds; discriminate D'|discriminate E|]. injection E as ->.
      assert (X : goUint ds = Some (Z.of_N (valueOf ds))) by (apply goUint_spec; repeat split; try assumption; lia). congruence.
  - match goal with |- context [goUint ?r] => set (rest := r) end.
    assert (DS : forall sg ds, c :: s = sg ++ ds -> (sg = [] \/ sg = B "+") -> forallb isDigit ds = true -> ds = rest).
    { intros sg ds E [->| ->] D; cbn in E; unfold rest.
      - subst ds. destruct (Byte.eqb c "+") eqn:Q; [apply Byte.byte_dec_bl in Q; subst c; discriminate D|reflexivity].
      - injection E as -> ->. reflexivity. }
    assert (SG : exists sg, c :: s = sg ++ rest /\ (sg = [] \/ sg = B "+")).
    { unfold rest. destruct (Byte.eqb c "+") eqn:Q; [apply Byte.byte_dec_bl in Q; subst c; exists (B "+"); auto|exists []; auto]. }
    assert (NM : forall ds, c :: s <> B "-" ++ ds) by (intros ds E; cbn in E; injection E as -> _; discriminate M).
    destruct (goUint rest) as [n|] eqn:G.
    + apply goUint_spec in G. destruct G as [N [D [V L]]]. destruct (2 ^ 31 <=? n) eqn:R.
      * apply Z.leb_le in R. split; [discriminate|]. intros (sg & ds & E & N' & D' & B0 & [[S V']|[-> V']]); [|destruct (NM ds E)]. rewrite (DS sg ds E S D') in V'. lia.
      * apply Z.leb_gt in R. split.
        -- intros H. injection H as <-. destruct SG as [sg [E S]]. exists sg, rest. repeat split; try assumption; [lia|]. left. split; [exact S|lia].
        -- intros (sg & ds & E & N' & D' & B0 & [[S V']|[-> V']]); [|destruct (NM ds E)]. rewrite (DS sg ds E S D') in V'. f_equal. lia.
    + split; [discriminate|]. intros (sg & ds & E & N' & D' & B0 & [[S V']|[-> V']]); [|destruct (NM ds E)]. pose proof (DS sg ds E S D') as Q. rewrite Q in N', D', V'.
      assert (X : goUint rest = Some (Z.of_N (valueOf rest))) by (apply goUint_spec; repeat split; try assumption; lia). congruence.
Qed.
Lemma goBool_spec s v : goBool s = Some v <-> boolText s v.
Proof.
  unfold goBool, boolText. assert (M : forall l, existsb (beq s) l = true <-> In s l).
  { intros l. rewrite existsb_exists. split; [intros [x [I E]]; apply (proj1 (beq_eq _ _)) in E; subst x; exact I|intros I; exists s; split; [exact I|apply beq_refl]]. }
  set (T := [B "1"; B "t"; B "T"; B "TRUE"; B "true"; B "True"]). set (T' := [B "1"; B "t"; B "T"; B "true"; B "TRUE"; B "True"]).
  set (F := [B "0"; B "f"; B "F"; B "FALSE"; B "false"; B "False"]). set (F' := [B "0"; B "f"; B "F"; B "false"; B "FALSE"; B "False"]).
  assert (TT : In s T <-> In s T') by (cbn; tauto). assert (FF : In s F <-> In s F') by (cbn; tauto).
  assert (X : In s T -> ~ In s F) by (intros IT IF; cbn in IT; repeat (destruct IT as [<-|IT]; [cbn in IF; intuition discriminate|]); exact IT).
  destruct (existsb (beq s) T) eqn:ET.
  - apply M in ET. split; [intros H; injection H as <-; tauto|]. intros [[-> _]|[_ H]]; [reflexivity|exfalso; tauto].
  - assert (NT : ~ In s T) by (intros H; apply M in H; congruence). destruct (existsb (beq s) F) eqn:EF.
    + apply M in EF. split; [intros H; injection H as <-; tauto|]. intros [[_ H]|[-> _]]; [exfalso; tauto|reflexivity].
    + assert (NF : ~ In s F) by (intros H; apply M in H; congruence). split; [discriminate|]. intros [[_ H]|[_ H]]; exfalso; tauto.
Qed.

Lemma conf_picks {A} (ep fp : bytes -> option A) (de : bytes -> A -> Prop) e f key def v : (forall s x, ep s = Some x <-> de s x) ->
  conf ep fp e f key def = v <-> picks (fromEnv de e key) (fromFile (fun s x => fp s = Some x) f key) def v.
Proof.
  intros SP. unfold conf, picks, fromEnv, fromFile. destruct (match e key with Some x => ep x | None => None end) as [a|] eqn:E.
  - destruct (e key) as [s|] eqn:EK; [|discriminate E]. split; [intros ->; left; exists s; split; [reflexivity|apply SP; exact E]|].
    intros [[s' [Q D]]|[N _]]; [injection Q as <-; apply SP in D; congruence|]. exfalso. apply (N a). exists s. split; [reflexivity|apply SP; exact E].
  - assert (N : forall x, ~ exists s, e key = Some s /\ de s x) by (intros x [s [Q D]]; rewrite Q in E; apply SP in D; congruence).
    destruct f as [section|].
    + destruct (fp (section key)) as [a|] eqn:F.
      * split; [intros ->; right; split; [exact N|]; left; exists section; auto|]. intros [H|[_ [[sc [Q D]]|[NF _]]]]; [destruct (N v H)|injection Q as <-; congruence|]. exfalso. apply (NF a). exists section. auto.
      * split; [intros ->; right; split; [exact N|]; right; split; [|reflexivity]; intros x [sc [Q D]]; injection Q as <-; congruence|]. intros [H|[_ [[sc [Q D]]|[_ ->]]]]; [destruct (N v H)|injection Q as <-; congruence|reflexivity].
    + split; [intros ->; right; split; [exact N|]; right; split; [|reflexivity]; intros x [sc [Q _]]; discriminate Q|]. intros [H|[_ [[sc [Q D]]|[_ ->]]]]; [destruct (N v H)|discriminate Q|reflexivity].
Qed.
Lemma confString_picks e f key def v : confString e f key def = v <-> picks (fun x => e key = Some x) (fun x => x <> [] /\ exists section, f = Some section /\ section key = x) def v.
Proof.
  unfold confString, picks. destruct (e key) as [s|].
  - split; [intros ->; auto|]. intros [H|[N _]]; [congruence|]. destruct (N s eq_refl).
  - assert (N : forall x : bytes, None <> Some x) by discriminate. destruct f as [section|].
    + destruct (section key) as [|c r] eqn:S; cbn [length Nat.ltb Nat.leb].
      * split; [intros ->; right; split; [exact N|]; right; split; [|reflexivity]; intros x [NE [sc [Q R]]]; injection Q as <-; congruence|]. intros [H|[_ [[NE [sc [Q R]]]|[_ ->]]]]; [discriminate H|injection Q as <-; congruence|reflexivity].
      * split; [intros <-; right; split; [exact N|]; left; split; [discriminate|]; exists section; auto|]. intros [H|[_ [[NE [sc [Q R]]]|[X _]]]]; [discriminate H|injection Q as <-; congruence|]. exfalso. apply (X (c :: r)). split; [discriminate|]. exists section. auto.
    + split; [intros ->; right; split; [exact N|]; right; split; [|reflexivity]; intros x [_ [sc [Q _]]]; discriminate Q|]. intros [H|[_ [[_ [sc [Q _]]]|[_ ->]]]]; [discriminate H|discriminate Q|reflexivity].
Qed.

Section C48.
  Variable iniInt : bytes -> option Z.
  Variable iniUint : bytes -> option Z.
  Variable iniBool : bytes -> option bool.
  Let ofInt (e : env) (f : file) key := picks (fromEnv intText e key) (fromFile (fun s x => iniInt s = Some x) f key).
  Let ofUint (e : env) (f : file) key := picks (fromEnv uintText e key) (fromFile (fun s x => iniUint s = Some x) f key).
  Let ofBool (e : env) (f : file) key := picks (fromEnv boolText e key) (fromFile (fun s x => iniBool s = Some x) f key).
  Let ofString (e : env) (f : file) key := picks (fun x => e key = Some x) (fun x => x <> [] /\ exists section, f = Some section /\ section key = x).

  (** Every option is the value of the environment variable of its name, if that is a text of the right form; else the value in the file, if there is one; else its default.
      Only -batchSize on the command line comes before these. *)
  Theorem C48_options e f flag : let c := init iniInt iniUint iniBool e f flag in
    (0 < flag /\ cBatchSize c = flag \/ flag <= 0 /\ ofUint e f (B "batchSize") 4096 (cBatchSize c)) /\
    ofUint e f (B "pollingDelay") 600 (cPollingDelay c) /\
    ofUint e f (B "remoteSettingsUpdateInterval") 3600 (cRemoteSettingsUpdateInterval c) /\
    ofInt e f (B "numThreads") 1 (cNumThreads c) /\
    ofInt e f (B "statsdPort") 8125 (cStatsDPort c) /\
    ofBool e f (B "logExpiredEntries") false (cLogExpiredEntries c) /\
    ofBool e f (B "runForever") false (cRunForever c) /\
    ofString e f (B "remoteSettingsURL") [] (cRemoteSettingsURL c) /\
    ofString e f (B "ctLogMetadata") [] (cCTLogMetadata c) /\
    ofString e f (B "savePeriod") (B "15m") (cSavePeriod c) /\
    ofString e f (B "certPath") [] (cCertPath c) /\
    ofString e f (B "googleProjectId") [] (cGoogleProjectId c) /\
    ofString e f (B "redisHost") [] (cRedisHost c) /\
    ofString e f (B "redisTimeout") (B "5s") (cRedisTimeout c) /\
    ofString e f (B "statsRefreshPeriod") (B "10m") (cStatsRefreshPeriod c) /\
    ofString e f (B "statsdHost") [] (cStatsDHost c) /\
    ofString e f (B "healthAddr") (B ":8080") (cHealthAddr c).
  Proof.
    intros c. unfold ofInt, ofUint, ofBool, ofString.
    assert (I : forall key def, picks (fromEnv intText e key) (fromFile (fun s x => iniInt s = Some x) f key) def (confInt iniInt e f key def)) by (intros key def; apply (conf_picks goInt iniInt); [exact goInt_spec|reflexivity]).
    assert (U : forall key def, picks (fromEnv uintText e key) (fromFile (fun s x => iniUint s = Some x) f key) def (confUint64 iniUint e f key def)) by (intros key def; apply (conf_picks goUint iniUint); [exact goUint_spec|reflexivity]).
    assert (BO : forall key def, picks (fromEnv boolText e key) (fromFile (fun s x => iniBool s = Some x) f key) def (confBool iniBool e f key def)) by (intros key def; apply (conf_picks goBool iniBool); [exact goBool_spec|reflexivity]).
    assert (S : forall key def, picks (fun x => e key = Some x) (fun x => x <> [] /\ exists section, f = Some section /\ section key = x) def (confString e f key def)) by (intros key def; apply confString_picks; reflexivity).
    split; [|repeat split; [apply U|apply U|apply I|apply I|apply BO|apply BO|apply S|apply S|apply S|apply S|apply S|apply S|apply S|apply S|apply S|apply S]].
    unfold c, init. cbn [cBatchSize]. destruct (0 <? flag) eqn:F; [apply Z.ltb_lt in F; auto|apply Z.ltb_ge in F]. right. split; [exact F|apply U].
  Qed.
  (** The choice leaves no freedom: what an option is, is determined by the two texts of its own name. *)
  Theorem C48_determined {A} (first second : A -> Prop) def : (forall x y, first x -> first y -> x = y) -> (forall x y, second x -> second y -> x = y) ->
    forall v w, picks first second def v -> picks first second def w -> v = w.
  Proof.
    intros F S v w [H|[N [H|[N2 ->]]]] [H'|[N' [H'|[N2' ->]]]]; try (apply F; assumption); try (apply S; assumption); try reflexivity;
      try (exfalso; eapply N; eassumption); try (exfalso; eapply N'; eassumption); try (exfalso; eapply N2; eassumption); try (exfalso; eapply N2'; eassumption).
  Qed.
  Theorem C48_texts_mean_one_value : (forall s v w, intText s v -> intText s w -> v = w) /\ (forall s v w, uintText s v -> uintText s w -> v = w) /\ (forall s v w, boolText s v -> boolText s w -> v = w).
  Proof.
    split; [|split]; intros s v w H H'; [apply goInt_spec in H, H'|apply goUint_spec in H, H'|apply goBool_spec in H, H']; congruence.
  Qed.

  (** A malformed environment variable is silently skipped; an empty one counts for texts only. *)
  Theorem C48_malformed_refuted : exists e : env, e (B "batchSize") = Some (B "4k") /\ e (B "certPath") = Some [] /\
    forall f, cBatchSize (init iniInt iniUint iniBool e None 0) = 4096 /\ cCertPath (init iniInt iniUint iniBool e f 0) = [].
  Proof.
    exists (fun k => if beq k (B "batchSize") then Some (B "4k") else if beq k (B "certPath") then Some [] else None). split; [reflexivity|]. split; [reflexivity|]. intros f. split; vm_compute; reflexivity.
  Qed.
End C48.
Print Assumptions C48_options.
Print Assumptions C48_determined.
Print Assumptions C48_texts_mean_one_value.
Print Assumptions C48_malformed_refuted.

Example C48_example :
  let e : env := fun k => if beq k (B "batchSize") then Some (B "100") else if beq k (B "numThreads") then Some (B "-2147483649") else if beq k (B "runForever") then Some (B "T") else None in
  let f : file := Some (fun k => if beq k (B "numThreads") then B "4" else if beq k (B "batchSize") then B "7" else if beq k (B "certPath") then B "/ct" else []) in
  let ini (s : bytes) := if beq s (B "4") then Some 4 else if beq s (B "7") then Some 7 else None in
  let c := init ini ini (fun _ => None) e f 0 in
  (cBatchSize c, cNumThreads c, cRunForever c, cCertPath c, cRedisTimeout c) = (100, 4, true, B "/ct", B "5s") /\ cBatchSize (init ini ini (fun _ => None) e f 9) = 9.
Proof. vm_compute. auto. Qed.
