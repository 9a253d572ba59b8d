(** * Proofs about the reader of CsvModel.v *)
From Verif Require Import Base MerkleModel SerialModel SerialProofs IssuersModel CsvModel CsvSpec.
From Coq Require Import Strings.Byte.

Lemma eqbb x y : reflect (x = y) (Byte.eqb x y).
Proof. apply byte_eqb_spec. Qed.
Lemma eqb_same x : Byte.eqb x x = true.
Proof. destruct (eqbb x x); congruence. Qed.

(** ** Lines *)

Definition lineShape (l rest : bytes) : Prop :=
  (exists a, l = a ++ [LF] /\ ~ In LF a) \/ (~ In LF l /\ rest = []).

Lemma sliceLine_spec : forall s l r, sliceLine s = (l, r) -> s = l ++ r /\ lineShape l r.
Proof.
  induction s as [|c s IH]; intros l r E; cbn [sliceLine] in E.
  - injection E as <- <-. split; [reflexivity|]. right. auto.
  - destruct (eqbb c nl) as [->|N].
    + injection E as <- <-. split; [reflexivity|]. left. exists []. auto.
    + destruct (sliceLine s) as [l' r'] eqn:E'. injection E as <- <-. destruct (IH _ _ eq_refl) as [-> S].
      split; [reflexivity|]. destruct S as [[a [-> NI]]|[NI ->]].
      * left. exists (c :: a). split; [reflexivity|]. intros [F|F]; [exact (N F)|exact (NI F)].
      * right. split; [|reflexivity]. intros [F|F]; [exact (N F)|exact (NI F)].
Qed.


Lemma unix_app : forall a x y, ~ In LF a -> x <> LF -> unix (a ++ x :: y) = a ++ unix (x :: y).
Proof.
  induction a as [|c a IH]; intros x y NI N; [reflexivity|].
  assert (E : unix (a ++ x :: y) = a ++ unix (x :: y)) by (apply IH; [intros F; apply NI; right; exact F|exact N]).
  cbn [app unix]. rewrite E. destruct (Byte.eqb c CR); [|reflexivity].
  destruct a as [|d a]; cbn [app].
  - destruct (eqbb x LF); [contradiction|reflexivity].
  - destruct (eqbb d LF) as [->|]; [|reflexivity]. exfalso. apply NI. right. left. reflexivity.
Qed.

Lemma normLine_line a r : ~ In LF a -> exists b, normLine (a ++ [LF]) = b ++ [LF] /\ ~ In LF b /\
  unix (a ++ LF :: r) = b ++ LF :: unix r /\ (length b <= length a)%nat.
Proof.
  intros NI. destruct a as [|d a _] using rev_ind.
  - exists []. repeat split; auto.
  - assert (NA : ~ In LF a) by (intros F; apply NI, in_or_app; left; exact F).
    assert (ND : d <> LF) by (intros F; apply NI, in_or_app; right; left; exact F).
    unfold normLine. rewrite !rev_app_distr. cbn [rev app].
    change (Byte.eqb LF cr) with false. change (Byte.eqb LF nl) with true. cbv iota.
    change cr with CR. destruct (eqbb d CR) as [->|N].
    + exists a. rewrite rev_involutive. split; [reflexivity|]. split; [exact NA|]. split; [|rewrite app_length; cbn; lia].
      rewrite <- app_assoc. cbn [app]. rewrite unix_app; [|exact NA|discriminate]. reflexivity.
    + exists (a ++ [d]). split; [reflexivity|]. split; [exact NI|]. split; [|lia].
      rewrite <- app_assoc. cbn [app]. rewrite unix_app; [|exact NA|exact ND]. cbn [unix].
      destruct (eqbb d CR); [contradiction|]. cbn [app]. rewrite <- app_assoc. reflexivity.
Qed.

Lemma normLine_end l : ~ In LF l -> normLine l = unix l /\ ~ In LF (normLine l) /\ (length (normLine l) <= length l)%nat.
Proof.
  intros NI. destruct l as [|d a _] using rev_ind; [cbn; auto|].
  assert (NA : ~ In LF a) by (intros F; apply NI, in_or_app; left; exact F).
  assert (ND : d <> LF) by (intros F; apply NI, in_or_app; right; left; exact F).
  rewrite unix_app by assumption. unfold normLine. rewrite rev_app_distr. cbn [rev app unix].
  change cr with CR. destruct (eqbb d CR) as [->|N].
  - rewrite rev_involutive, app_nil_r. rewrite app_length. cbn. repeat split; auto. lia.
  - change nl with LF. destruct (eqbb d LF); [contradiction|]. repeat split; auto.
Qed.

Lemma readLine_spec s l r : readLine s = Some (l, r) ->
  unix s = l ++ unix r /\ lineShape l r /\ (length l + length r <= length s)%nat /\ (length r < length s)%nat.
Proof.
  unfold readLine. destruct s as [|c0 s0] eqn:Es; [discriminate|]. rewrite <- Es.
  assert (NS : s <> []) by congruence. clear Es c0 s0.
  destruct (sliceLine s) as [l0 r0] eqn:E. intros H. injection H as <- <-.
  destruct (sliceLine_spec _ _ _ E) as [-> S]. rewrite app_length. destruct S as [[a [-> NI]]|[NI ->]].
  - destruct (normLine_line a r0 NI) as [b [E1 [NB [E2 L]]]]. rewrite E1, <- app_assoc. cbn [app]. rewrite E2, <- app_assoc. cbn [app].
    split; [reflexivity|]. split; [left; exists b; auto|]. rewrite !app_length. cbn [length]. lia.
  - destruct (normLine_end l0 NI) as [E1 [NB L]]. rewrite app_nil_r, E1. cbn [unix]. rewrite app_nil_r. split; [reflexivity|].
    rewrite <- E1. split; [right; auto|]. cbn [length]. split; [lia|]. rewrite app_nil_r in NS. destruct l0; [congruence|cbn; lia].
Qed.
Lemma readLine_none s : readLine s = None -> s = [].
Proof. destruct s; [reflexivity|]. unfold readLine. destruct (sliceLine _). discriminate. Qed.

Lemma shape_suffix x c l rest : c <> LF -> lineShape (x ++ c :: l) rest -> lineShape l rest.
Proof.
  intros N [[a [E NI]]|[NI ->]].
  - left. destruct l as [|d l _] using rev_ind.
    + apply app_inj_tail in E. destruct E as [_ E]. contradiction.
    + rewrite app_comm_cons, app_assoc in E. apply app_inj_tail in E. destruct E as [<- ->]. exists l. split; [reflexivity|].
      intros F. apply NI, in_or_app. right. right. exact F.
  - right. split; [|reflexivity]. intros F. apply NI, in_or_app. right. right. exact F.
Qed.
Lemma shape_first line rest a w : lineShape line rest -> line ++ unix rest = a ++ LF :: w -> ~ In LF a ->
  line = a ++ [LF] /\ unix rest = w.
Proof.
  intros [[b [-> NB]]|[NB ->]] E NI.
  - rewrite <- app_assoc in E. cbn [app] in E.
    enough (b = a /\ unix rest = w) as [-> ->] by auto.
    revert a E NI. induction b as [|x b IH]; intros [|y a] E NI; cbn [app] in E.
    + assert (unix rest = w) by congruence. auto.
    + exfalso. apply NI. left. congruence.
    + exfalso. apply NB. left. congruence.
    + assert (x = y) as <- by congruence. assert (E' : b ++ LF :: unix rest = a ++ LF :: w) by congruence.
      destruct (IH (fun F => NB (or_intror F)) a E' (fun F => NI (or_intror F))) as [-> ->]. auto.
  - exfalso. apply NB. cbn [unix] in E. rewrite app_nil_r in E. rewrite E. apply in_or_app. right. left. reflexivity.
Qed.
Lemma shape_all line rest : lineShape line rest -> ~ In LF (line ++ unix rest) -> rest = [].
Proof.
  intros [[b [-> NB]]|[NB E]] NI; [|exact E]. exfalso. apply NI. apply in_or_app. left. apply in_or_app. right. left. reflexivity.
Qed.
Lemma shape_nil rest : lineShape [] rest -> rest = [].
Proof. intros [[a [E _]]|[_ E]]; [destruct a; discriminate|exact E]. Qed.

(** ** Cells *)

Lemma cutAt_some x : forall l a b, cutAt x l = Some (a, b) -> l = a ++ x :: b /\ ~ In x a.
Proof.
  induction l as [|c l IH]; intros a b E; cbn [cutAt] in E; [discriminate|].
  destruct (eqbb c x) as [->|N].
  - injection E as <- <-. auto.
  - destruct (cutAt x l) as [[a' b']|]; [|discriminate]. injection E as <- <-. destruct (IH _ _ eq_refl) as [-> NI].
    split; [reflexivity|]. intros [F|F]; [exact (N F)|exact (NI F)].
Qed.
Lemma cutAt_none x : forall l, cutAt x l = None <-> ~ In x l.
Proof.
  induction l as [|c l IH]; cbn [cutAt]; [split; auto; intros _ []|].
  destruct (eqbb c x) as [->|N].
  - split; [discriminate|]. intros F. exfalso. apply F. left. reflexivity.
  - destruct (cutAt x l) as [[]|]; split; try discriminate.
    + intros F. exfalso. apply (proj2 IH (fun G => F (or_intror G)) : False) || (assert (X : Some (b, b0) = None) by (apply IH; intros G; apply F; right; exact G); discriminate).
    + intros _ [F|F]; [exact (N F)|]. apply (proj1 IH eq_refl F).
    + reflexivity.
Qed.
Lemma cutAt_app x a b : ~ In x a -> cutAt x (a ++ x :: b) = Some (a, b).
Proof.
  induction a as [|c a IH]; intros NI; cbn [app cutAt]; [rewrite eqb_same; reflexivity|].
  destruct (eqbb c x) as [->|N]; [exfalso; apply NI; left; reflexivity|].
  rewrite IH; [reflexivity|]. intros F. apply NI. right. exact F.
Qed.

Lemma dropNL_line a : dropNL (a ++ [LF]) = a.
Proof.
  induction a as [|c a IH]; [reflexivity|]. cbn [app]. cbn [dropNL]. rewrite IH. destruct (a ++ [LF]) eqn:E; [destruct a; discriminate|reflexivity].
Qed.
Lemma dropNL_none l : ~ In LF l -> dropNL l = l.
Proof.
  induction l as [|c l IH]; intros NI; [reflexivity|]. cbn [dropNL]. rewrite IH by (intros F; apply NI; right; exact F).
  destruct l; [|reflexivity]. change nl with LF. destruct (eqbb c LF) as [->|]; [exfalso; apply NI; left; reflexivity|reflexivity].
Qed.
Lemma onlyNL_spec l : onlyNL l = true <-> l = [] \/ l = [LF].
Proof.
  destruct l as [|c [|d l]]; cbn [onlyNL].
  - split; auto.
  - change nl with LF. destruct (eqbb c LF) as [->|N]; split; auto; [discriminate|]. intros [F|F]; [discriminate|congruence].
  - split; [discriminate|]. intros [F|F]; discriminate.
Qed.

Lemma doubled_app : forall a b, doubled (a ++ b) = doubled a ++ doubled b.
Proof. induction a as [|c a IH]; intros b; [reflexivity|]. cbn [app doubled]. rewrite IH. destruct (Byte.eqb c QUOTE); reflexivity. Qed.
Lemma doubled_none a : ~ In QUOTE a -> doubled a = a.
Proof.
  induction a as [|c a IH]; intros NI; [reflexivity|]. cbn [doubled]. rewrite IH by (intros F; apply NI; right; exact F).
  destruct (eqbb c QUOTE) as [->|]; [exfalso; apply NI; left; reflexivity|reflexivity].
Qed.

(** Where the first quote stands in a quoted text. *)
Lemma doubled_first : forall c tl x y, doubled c ++ QUOTE :: tl = x ++ QUOTE :: y -> ~ In QUOTE x -> (forall t, tl <> QUOTE :: t) ->
  (c = x /\ tl = y) \/ exists c2, c = x ++ QUOTE :: c2 /\ y = QUOTE :: doubled c2 ++ QUOTE :: tl.
Proof.
  induction c as [|d c IH]; intros tl x y E NI NT.
  - cbn [doubled app] in E. destruct x as [|z x]; cbn [app] in E; [left; split; congruence|]. exfalso. apply NI. left. congruence.
  - cbn [doubled] in E. destruct (eqbb d QUOTE) as [->|N].
    + cbn [app] in E. destruct x as [|z x]; cbn [app] in E; [|exfalso; apply NI; left; congruence].
      right. exists c. split; [reflexivity|]. congruence.
    + cbn [app] in E. destruct x as [|z x]; cbn [app] in E; [exfalso; apply N; congruence|].
      assert (d = z) as <- by congruence. assert (E' : doubled c ++ QUOTE :: tl = x ++ QUOTE :: y) by congruence.
      destruct (IH _ _ _ E' (fun F => NI (or_intror F)) NT) as [[-> ->]|[c2 [-> ->]]]; [left; auto|right; exists c2; auto].
Qed.
Lemma doubled_prefix : forall c tl x y, doubled c ++ QUOTE :: tl = x ++ y -> ~ In QUOTE x ->
  exists c2, c = x ++ c2 /\ y = doubled c2 ++ QUOTE :: tl.
Proof.
  induction c as [|d c IH]; intros tl x y E NI.
  - destruct x as [|z x]; [exists []; auto|]. cbn [doubled app] in E. exfalso. apply NI. left. congruence.
  - destruct x as [|z x]; [exists (d :: c); auto|]. cbn [doubled] in E. destruct (eqbb d QUOTE) as [->|N]; cbn [app] in E.
    + exfalso. apply NI. left. congruence.
    + assert (d = z) as <- by congruence. assert (E' : doubled c ++ QUOTE :: tl = x ++ y) by congruence.
      destruct (IH _ _ _ E' (fun F => NI (or_intror F))) as [c2 [-> ->]]. exists c2. auto.
Qed.

(** ** Records *)

(** What follows a row: a line feed and more, or nothing. *)
Definition follows (tail rest : bytes) : Prop := tail = LF :: unix rest \/ (tail = [] /\ rest = []).

Lemma rec_sound : forall n,
  (forall line rest acc cells rest', fields n line rest acc = RDone cells rest' -> lineShape line rest ->
     exists row r tail, cells = acc ++ row /\ rowText row r /\ line ++ unix rest = r ++ tail /\ follows tail rest' /\
       (length rest' <= length rest)%nat) /\
  (forall line rest cell acc cells rest', quoted n line rest cell acc = RDone cells rest' -> lineShape line rest ->
     exists c tail, follows tail rest' /\ (length rest' <= length rest)%nat /\
       ((cells = acc ++ [cell ++ c] /\ line ++ unix rest = doubled c ++ QUOTE :: tail) \/
        exists row r, cells = acc ++ (cell ++ c) :: row /\ rowText row r /\ line ++ unix rest = doubled c ++ QUOTE :: COMMA :: r ++ tail)).
Proof.
  induction n as [|n [IHf IHq]]; [split; intros; discriminate|]. split.
  - intros line rest acc cells rest' E S. cbn [fields] in E.
    set (plain := match cutAt comma line with Some _ => _ | None => _ end) in E.
    assert (P : plain = RDone cells rest' -> exists row r tail, cells = acc ++ row /\ rowText row r /\ line ++ unix rest = r ++ tail /\ follows tail rest' /\
       (length rest' <= length rest)%nat).
    { unfold plain. clear E plain. destruct (cutAt comma line) as [[f line']|] eqn:C.
      - apply cutAt_some in C. destruct C as [-> NC]. destruct (cutAt quote f) eqn:Q; [discriminate|]. apply cutAt_none in Q.
        assert (S' : lineShape line' rest) by (apply (shape_suffix f comma); [discriminate|exact S]).
        assert (NL : ~ In LF f).
        { intros F. destruct S as [[a [Ea NI]]|[NI _]]; [|apply NI, in_or_app; left; exact F].
          destruct line' as [|d l' _] using rev_ind; [apply app_inj_tail in Ea; destruct Ea as [_ Ea]; discriminate|].
          rewrite app_comm_cons, app_assoc in Ea. apply app_inj_tail in Ea. destruct Ea as [<- _]. apply NI, in_or_app. left. exact F. }
        intros E. destruct (IHf _ _ _ _ _ E S') as [row [r [tail [-> [RT [EQ [FO L]]]]]]].
        exists (f :: row), (f ++ COMMA :: r), tail. rewrite <- app_assoc. split; [reflexivity|].
        split; [constructor; [constructor; assumption|exact RT]|]. split; [|auto].
        rewrite <- !app_assoc. cbn [app]. rewrite EQ. reflexivity.
      - apply cutAt_none in C. destruct (cutAt quote (dropNL line)) eqn:Q; [discriminate|]. apply cutAt_none in Q.
        intros E. assert (cells = acc ++ [dropNL line]) as -> by congruence. assert (rest = rest') as <- by congruence.
        destruct S as [[a [-> NI]]|[NI ->]].
        + rewrite dropNL_line in *. exists [a], a, (LF :: unix rest). split; [reflexivity|].
          split; [constructor; constructor; [exact Q| |exact NI]; intros F; apply C, in_or_app; left; exact F|].
          split; [rewrite <- app_assoc; reflexivity|]. split; [left; reflexivity|lia].
        + rewrite (dropNL_none _ NI) in *. exists [line], line, []. split; [reflexivity|].
          split; [constructor; constructor; assumption|]. split; [reflexivity|]. split; [right; auto|lia]. }
    destruct line as [|c line']; [exact (P E)|]. destruct (eqbb c quote) as [->|N]; [|exact (P E)].
    assert (S' : lineShape line' rest) by (apply (shape_suffix [] quote); [discriminate|exact S]).
    destruct (IHq _ _ _ _ _ _ E S') as [c [tail [FO [L [[-> EQ]|[row [r [-> [RT EQ]]]]]]]]].
    + exists [c], (QUOTE :: doubled c ++ [QUOTE]), tail. split; [reflexivity|]. split; [constructor; constructor|].
      split; [|auto]. cbn [app]. rewrite EQ, <- app_assoc. reflexivity.
    + exists (c :: row), ((QUOTE :: doubled c ++ [QUOTE]) ++ COMMA :: r), tail. split; [reflexivity|].
      split; [constructor; [constructor|exact RT]|]. split; [|auto]. cbn [app]. rewrite EQ, <- !app_assoc. reflexivity.
  - intros line rest cell acc cells rest' E S. cbn [quoted] in E.
    destruct (cutAt quote line) as [[x line']|] eqn:C.
    + apply cutAt_some in C. destruct C as [-> NQ].
      assert (S' : lineShape line' rest) by (apply (shape_suffix x quote); [discriminate|exact S]).
      destruct (onlyNL line') eqn:O.
      * assert (cells = acc ++ [cell ++ x]) as -> by congruence. assert (rest = rest') as <- by congruence.
        apply onlyNL_spec in O. exists x. destruct O as [-> | ->].
        -- apply shape_nil in S'. subst rest. exists []. split; [right; auto|]. split; [lia|]. left. split; [reflexivity|].
           rewrite doubled_none by exact NQ. cbn [unix]. rewrite app_nil_r. reflexivity.
        -- exists (LF :: unix rest). split; [left; reflexivity|]. split; [lia|]. left. split; [reflexivity|].
           rewrite doubled_none by exact NQ. rewrite <- app_assoc. reflexivity.
      * destruct line' as [|c line'']; [discriminate|]. destruct (eqbb c quote) as [->|N1]; [|destruct (eqbb c comma) as [->|N2]; [|discriminate]].
        -- assert (S'' : lineShape line'' rest) by (apply (shape_suffix [] quote); [discriminate|exact S']).
           destruct (IHq _ _ _ _ _ _ E S'') as [c [tail [FO [L [[-> EQ]|[row [r [-> [RT EQ]]]]]]]]]; exists (x ++ QUOTE :: c), tail; (split; [exact FO|]); (split; [exact L|]).
           ++ left. split; [rewrite <- !app_assoc; reflexivity|]. rewrite doubled_app, (doubled_none x NQ). cbn [doubled]. rewrite eqb_same.
              rewrite <- !app_assoc. cbn [app]. rewrite EQ. reflexivity.
           ++ right. exists row, r. split; [rewrite <- !app_assoc; reflexivity|]. split; [exact RT|]. rewrite doubled_app, (doubled_none x NQ). cbn [doubled]. rewrite eqb_same.
              rewrite <- !app_assoc. cbn [app]. rewrite EQ. reflexivity.
        -- assert (S'' : lineShape line'' rest) by (apply (shape_suffix [] comma); [discriminate|exact S']).
           destruct (IHf _ _ _ _ _ E S'') as [row [r [tail [-> [RT [EQ [FO L]]]]]]].
           exists x, tail. split; [exact FO|]. split; [exact L|]. right. exists row, r. split; [rewrite <- app_assoc; reflexivity|].
           split; [exact RT|]. rewrite (doubled_none x NQ), <- !app_assoc. cbn [app]. rewrite EQ. reflexivity.
    + apply cutAt_none in C. destruct line as [|c0 l0] eqn:El; [discriminate|]. rewrite <- El in *. clear El c0 l0.
      destruct (readLine rest) as [[line' r']|] eqn:R.
      * destruct (readLine_spec _ _ _ R) as [EU [S' [L1 L2]]].
        destruct (IHq _ _ _ _ _ _ E S') as [c [tail [FO [L [[-> EQ]|[row [r [-> [RT EQ]]]]]]]]]; exists (line ++ c), tail; (split; [exact FO|]); (split; [lia|]);
          rewrite doubled_app, (doubled_none line C), EU.
        -- left. split; [rewrite <- !app_assoc; reflexivity|]. rewrite EQ, <- app_assoc. reflexivity.
        -- right. exists row, r. split; [rewrite <- !app_assoc; reflexivity|]. split; [exact RT|]. rewrite EQ, <- app_assoc. reflexivity.
      * destruct n; [discriminate|]. discriminate E.
Qed.

Lemma rec_complete : forall n,
  (forall line rest acc row r tail, rowText row r -> line ++ unix rest = r ++ tail -> (tail = [] \/ exists w, tail = LF :: w) ->
     lineShape line rest -> (length line + length rest < n)%nat ->
     exists rest', fields n line rest acc = RDone (acc ++ row) rest' /\ follows tail rest') /\
  (forall line rest cell acc c tl, line ++ unix rest = doubled c ++ QUOTE :: tl ->
     lineShape line rest -> (length line + length rest < n)%nat ->
     ((tl = [] \/ exists w, tl = LF :: w) -> exists rest', quoted n line rest cell acc = RDone (acc ++ [cell ++ c]) rest' /\ follows tl rest') /\
     (forall row r tail, tl = COMMA :: r ++ tail -> rowText row r -> (tail = [] \/ exists w, tail = LF :: w) ->
        exists rest', quoted n line rest cell acc = RDone (acc ++ (cell ++ c) :: row) rest' /\ follows tail rest')).
Proof.
  induction n as [|n [IHf IHq]]; [split; intros; lia|]. split.
  - intros line rest acc row r tail RT E T S L. cbn [fields].
    assert (Q : forall c tl, line ++ unix rest = QUOTE :: doubled c ++ QUOTE :: tl -> exists line', line = QUOTE :: line' /\ line' ++ unix rest = doubled c ++ QUOTE :: tl /\
              lineShape line' rest /\ (length line' + length rest < n)%nat).
    { intros c tl E'. destruct line as [|d line'].
      - apply shape_nil in S. subst rest. discriminate E'.
      - cbn [app] in E'. assert (d = QUOTE) as -> by congruence. exists line'. split; [reflexivity|]. split; [congruence|].
        split; [apply (shape_suffix [] QUOTE); [discriminate|exact S]|]. cbn [length] in L. lia. }
    destruct RT as [c t CT|c t row r CT RT].
    + destruct CT as [c NQ NC NL|c].
      * assert (P : exists rest', match cutAt comma line with
           | Some (f, line') => match cutAt quote f with Some _ => RErr | None => fields n line' rest (acc ++ [f]) end
           | None => match cutAt quote (dropNL line) with Some _ => RErr | None => RDone (acc ++ [dropNL line]) rest end end = RDone (acc ++ [c]) rest' /\ follows tail rest').
        { destruct T as [->|[w ->]].
          - rewrite app_nil_r in E. assert (rest = []) as -> by (apply (shape_all line); [exact S|rewrite E; exact NL]).
            cbn [unix] in E. rewrite app_nil_r in E. subst c. rewrite (proj2 (cutAt_none comma line) NC), (dropNL_none _ NL), (proj2 (cutAt_none quote line) NQ).
            exists []. split; [reflexivity|]. right. auto.
          - destruct (shape_first _ _ _ _ S E NL) as [-> <-]. rewrite (proj2 (cutAt_none comma _)).
            + rewrite dropNL_line, (proj2 (cutAt_none quote c) NQ). exists rest. split; [reflexivity|]. left. reflexivity.
            + intros F. apply in_app_or in F. destruct F as [F|[F|[]]]; [exact (NC F)|discriminate F]. }
        destruct line as [|d line']; [exact P|]. destruct (eqbb d quote) as [->|N]; [|exact P].
        exfalso. destruct c as [|x c].
        -- cbn [app] in E. destruct T as [->|[w ->]]; discriminate E.
        -- apply NQ. left. cbn [app] in E. change QUOTE with quote. congruence.
      * cbn [app] in E. rewrite <- app_assoc in E. cbn [app] in E. destruct (Q _ _ E) as [line' [-> [E' [S' L']]]].
        change (Byte.eqb QUOTE quote) with true. cbv iota. destruct (IHq line' rest [] acc c tail E' S' L') as [H _]. exact (H T).
    + destruct CT as [c NQ NC NL|c].
      * assert (X : exists line', line = c ++ COMMA :: line' /\ line' ++ unix rest = r ++ tail).
        { rewrite <- app_assoc in E. cbn [app] in E. clear -E S NL.
          destruct S as [[a [-> NI]]|[NI ->]].
          - rewrite <- app_assoc in E. cbn [app] in E.
            assert (X : exists a', a = c ++ COMMA :: a' /\ a' ++ LF :: unix rest = r ++ tail).
            { revert a E NI. induction c as [|x c IH]; intros [|y a] E NI; cbn [app] in E.
              - discriminate E.
              - assert (y = COMMA) as -> by congruence. exists a. split; [reflexivity|congruence].
              - exfalso. apply NL. left. congruence.
              - assert (y = x) as -> by congruence. destruct (IH (fun F => NL (or_intror F)) a ltac:(congruence) (fun F => NI (or_intror F))) as [a' [-> E']].
                exists a'. auto. }
            destruct X as [a' [-> E']]. exists (a' ++ [LF]). split; [rewrite <- app_assoc; reflexivity|]. rewrite <- app_assoc. exact E'.
          - cbn [unix] in E |- *. rewrite app_nil_r in E. exists (r ++ tail). rewrite app_nil_r. auto. }
        destruct X as [line' [-> E']]. 
        assert (L' : (length line' + length rest < n)%nat) by (rewrite app_length in L; cbn [length] in L; lia).
        assert (S' : lineShape line' rest) by (apply (shape_suffix c COMMA); [discriminate|exact S]).
        destruct (IHf line' rest (acc ++ [c]) row r tail RT E' T S' L') as [rest' [F FO]]. exists rest'. split; [|exact FO].
        rewrite <- app_assoc in F. cbn [app] in F.
        assert (P : match cutAt comma (c ++ COMMA :: line') with
           | Some (f, line') => match cutAt quote f with Some _ => RErr | None => fields n line' rest (acc ++ [f]) end
           | None => match cutAt quote (dropNL (c ++ COMMA :: line')) with Some _ => RErr | None => RDone (acc ++ [dropNL (c ++ COMMA :: line')]) rest end end = RDone (acc ++ c :: row) rest').
        { assert (CA : cutAt comma (c ++ COMMA :: line') = Some (c, line')) by exact (cutAt_app comma c line' NC).
          rewrite CA, (proj2 (cutAt_none quote c) NQ). exact F. }
        destruct c as [|x c]; [exact P|]. cbn [app] in P |- *. destruct (eqbb x quote) as [->|N]; [|exact P].
        exfalso. apply NQ. left. reflexivity.
      * cbn [app] in E. rewrite <- !app_assoc in E. cbn [app] in E. destruct (Q _ _ E) as [line' [-> [E' [S' L']]]].
        change (Byte.eqb QUOTE quote) with true. cbv iota. destruct (IHq line' rest [] acc c (COMMA :: r ++ tail) E' S' L') as [_ H].
        exact (H row r tail eq_refl RT T).
  - intros line rest cell acc c tl E S L. cbn [quoted].
    assert (NT : (tl = [] \/ exists w, tl = LF :: w) \/ (exists r, tl = COMMA :: r) -> forall t, tl <> QUOTE :: t).
    { intros [[->|[w ->]]|[r ->]] t F; discriminate F. }
    destruct (cutAt quote line) as [[x line']|] eqn:C.
    + apply cutAt_some in C. destruct C as [-> NQ].
      assert (S' : lineShape line' rest) by (apply (shape_suffix x quote); [discriminate|exact S]).
      rewrite <- app_assoc in E. cbn [app] in E. symmetry in E. rewrite app_length in L. cbn [length] in L.
      assert (K : (tl = [] \/ exists w, tl = LF :: w) \/ (exists r, tl = COMMA :: r) ->
         (c = x /\ tl = line' ++ unix rest) \/ exists c2 line'', c = x ++ QUOTE :: c2 /\ line' = QUOTE :: line'' /\ line'' ++ unix rest = doubled c2 ++ QUOTE :: tl /\
           lineShape line'' rest /\ (length line'' + length rest < n)%nat).
      { intros NT'. destruct (doubled_first _ _ _ _ E NQ (NT NT')) as [H|[c2 [-> E']]]; [left; exact H|]. right.
        destruct line' as [|d line'']; [apply shape_nil in S'; subst rest; discriminate E'|].
        cbn [app] in E'. assert (d = QUOTE) as -> by congruence. exists c2, line''. split; [reflexivity|]. split; [reflexivity|]. split; [congruence|].
        split; [apply (shape_suffix [] QUOTE); [discriminate|exact S']|]. cbn [length] in L. lia. }
      split.
      * intros T. destruct (K (or_introl T)) as [[-> ET]|[c2 [line'' [-> [-> [E' [S'' L']]]]]]].
        -- destruct T as [->|[w ->]].
           ++ symmetry in ET. apply app_eq_nil in ET. destruct ET as [-> _]. cbn [onlyNL]. apply shape_nil in S'. subst rest. exists []. split; [reflexivity|right; auto].
           ++ symmetry in ET. destruct (shape_first line' rest [] w S' ET (fun F => F)) as [-> <-]. cbn [app onlyNL]. change (Byte.eqb LF nl) with true. cbv iota.
              exists rest. split; [reflexivity|left; reflexivity].
        -- assert (O : onlyNL (QUOTE :: line'') = false) by (destruct line''; reflexivity). rewrite O. change (Byte.eqb QUOTE quote) with true. cbv iota.
           destruct (IHq line'' rest (cell ++ x ++ [quote]) acc c2 tl E' S'' L') as [H _]. destruct (H T) as [rest' [F FO]]. exists rest'. split; [|exact FO].
           rewrite F. rewrite <- !app_assoc. reflexivity.
      * intros row r tail -> RT T. destruct (K (or_intror (ex_intro _ _ eq_refl))) as [[-> ET]|[c2 [line'' [-> [-> [E' [S'' L']]]]]]].
        -- destruct line' as [|d line'']; [apply shape_nil in S'; subst rest; discriminate ET|]. cbn [app] in ET. assert (d = COMMA) as -> by congruence.
           assert (E' : line'' ++ unix rest = r ++ tail) by congruence.
           assert (O : onlyNL (COMMA :: line'') = false) by (destruct line''; reflexivity). rewrite O.
           change (Byte.eqb COMMA quote) with false. change (Byte.eqb COMMA comma) with true. cbv iota.
           assert (S'' : lineShape line'' rest) by (apply (shape_suffix [] COMMA); [discriminate|exact S']).
           destruct (IHf line'' rest (acc ++ [cell ++ x]) row r tail RT E' T S'' ltac:(cbn [length] in L; lia)) as [rest' [F FO]]. exists rest'. split; [|exact FO].
           rewrite F, <- app_assoc. reflexivity.
        -- assert (O : onlyNL (QUOTE :: line'') = false) by (destruct line''; reflexivity). rewrite O. change (Byte.eqb QUOTE quote) with true. cbv iota.
           destruct (IHq line'' rest (cell ++ x ++ [quote]) acc c2 (COMMA :: r ++ tail) E' S'' L') as [_ H]. destruct (H row r tail eq_refl RT T) as [rest' [F FO]]. exists rest'. split; [|exact FO].
           rewrite F. rewrite <- !app_assoc. reflexivity.
    + apply cutAt_none in C. symmetry in E. destruct (doubled_prefix _ _ _ _ E C) as [c2 [-> E']].
      destruct line as [|c0 l0] eqn:El; [apply shape_nil in S; subst rest; cbn [unix] in E'; destruct (doubled c2); discriminate E'|].
      rewrite <- El in *. assert (LL : (0 < length line)%nat) by (rewrite El; cbn; lia). clear El c0 l0.
      destruct (readLine rest) as [[line' r']|] eqn:R.
      * destruct (readLine_spec _ _ _ R) as [EU [S' [L1 L2]]]. rewrite EU in E'.
        destruct (IHq line' r' (cell ++ line) acc c2 tl E' S' ltac:(lia)) as [H1 H2]. split.
        -- intros T. destruct (H1 T) as [rest' [F FO]]. exists rest'. split; [|exact FO]. rewrite F, <- app_assoc. reflexivity.
        -- intros row r tail -> RT T. destruct (H2 row r tail eq_refl RT T) as [rest' [F FO]]. exists rest'. split; [|exact FO]. rewrite F, <- app_assoc. reflexivity.
      * apply readLine_none in R. subst rest. cbn [unix] in E'. destruct (doubled c2); discriminate E'.
Qed.

(** ** The whole text *)

Lemma row_start row r : rowText row r -> forall x, r <> LF :: x.
Proof.
  intros RT x. destruct RT as [c t CT|c t row r CT RT]; destruct CT as [c NQ NC NL|c]; intros E.
  - apply NL. rewrite E. left. reflexivity.
  - discriminate E.
  - destruct c as [|y c]; [discriminate E|]. apply NL. left. cbn [app] in E. congruence.
  - discriminate E.
Qed.
Lemma no_text rows : tableText rows [] -> rows = [].
Proof.
  intros H. remember [] as u eqn:E. destruct H as [|rows u H|row r rows u RT NE H|row r RT NE]; [reflexivity|discriminate| |contradiction].
  destruct r; discriminate.
Qed.
Lemma no_line rows u : tableText rows (LF :: u) -> tableText rows u.
Proof.
  intros H. remember (LF :: u) as v eqn:E. destruct H as [|rows v H|row r rows v RT NE H|row r RT NE]; [discriminate| | |].
  - assert (v = u) as <- by congruence. exact H.
  - destruct r as [|x r]; [contradiction|]. cbn [app] in E. assert (x = LF) as -> by congruence. exfalso. exact (row_start _ _ RT r eq_refl).
  - exfalso. exact (row_start _ _ RT u E).
Qed.

Lemma follows_end tail rest : follows tail rest -> tail = [] \/ exists w, tail = LF :: w.
Proof. intros [->|[-> _]]; eauto. Qed.

Lemma record_row : forall n row rows s, (length s < n)%nat -> tableText (row :: rows) (unix s) ->
  exists rest, record n s = RDone row rest /\ tableText rows (unix rest).
Proof.
  induction n as [|n IH]; intros row rows s L T; [lia|]. cbn [record].
  destruct (readLine s) as [[line rest]|] eqn:R.
  - destruct (readLine_spec _ _ _ R) as [EU [S [L1 L2]]].
    assert (X : forall r tail, rowText row r -> r <> [] -> unix s = r ++ tail -> (tail = [] \/ exists w, tail = LF :: w) ->
              onlyNL line = false /\ exists rest', fields (Datatypes.S (length line + length rest)) line rest [] = RDone row rest' /\ follows tail rest').
    { intros r tail RT NE E Tl. rewrite EU in E. split.
      - destruct (onlyNL line) eqn:O; [|reflexivity]. exfalso. apply onlyNL_spec in O. destruct O as [-> | ->].
        + apply shape_nil in S. subst rest. destruct r; [contradiction|discriminate E].
        + destruct r as [|x r]; [contradiction|]. cbn [app] in E. assert (x = LF) as -> by congruence. exact (row_start _ _ RT r eq_refl).
      - destruct (rec_complete (Datatypes.S (length line + length rest))) as [H _]. apply (H line rest [] row r tail RT E Tl S). lia. }
    remember (unix s) as us eqn:E2. remember (row :: rows) as RS eqn:E1. destruct T as [|RS' u T'|row0 r rows0 u RT NE T'|row0 r RT NE]; [discriminate| | |].
    + subst RS'. symmetry in EU. destruct (shape_first line rest [] u S EU (fun F => F)) as [-> <-].
      cbn [app onlyNL]. change (Byte.eqb LF nl) with true. cbv iota. apply (IH row rows rest); [lia|exact T'].
    + assert (row0 = row) as -> by congruence. assert (rows0 = rows) as -> by congruence.
      destruct (X r (LF :: u) RT NE eq_refl (or_intror (ex_intro _ _ eq_refl))) as [-> [rest' [F FO]]]. exists rest'. split; [exact F|].
      destruct FO as [FO|[FO _]]; [|discriminate FO]. assert (u = unix rest') as <- by congruence. exact T'.
    + assert (row0 = row) as -> by congruence. assert (rows = []) as -> by congruence.
      destruct (X r [] RT NE) as [-> [rest' [F FO]]]; [rewrite app_nil_r; auto|left; reflexivity|]. exists rest'. split; [exact F|].
      destruct FO as [FO|[_ ->]]; [discriminate FO|]. constructor.
  - apply readLine_none in R. subst s. apply no_text in T. discriminate T.
Qed.
Lemma record_eof : forall n s, (length s < n)%nat -> tableText [] (unix s) -> record n s = REof.
Proof.
  induction n as [|n IH]; intros s L T; [lia|]. cbn [record].
  destruct (readLine s) as [[line rest]|] eqn:R; [|reflexivity].
  destruct (readLine_spec _ _ _ R) as [EU [S [L1 L2]]]. rewrite EU in T.
  assert (X : onlyNL line = true /\ tableText [] (unix rest)).
  { remember (line ++ unix rest) as us eqn:E. remember [] as RS eqn:E1. destruct T as [|RS' u T'|row0 r rows0 u RT NE T'|row0 r RT NE]; try discriminate.
    - symmetry in E. apply app_eq_nil in E. destruct E as [-> ->]. split; [reflexivity|constructor].
    - subst RS'. symmetry in E. destruct (shape_first line rest [] u S E (fun F => F)) as [-> <-]. split; [reflexivity|exact T']. }
  destruct X as [-> T']. apply IH; [lia|exact T'].
Qed.
Lemma record_sound : forall n s,
  (forall row rest, record n s = RDone row rest -> (length rest < length s)%nat /\ forall rows, tableText rows (unix rest) -> tableText (row :: rows) (unix s)) /\
  (record n s = REof -> tableText [] (unix s)).
Proof.
  induction n as [|n IH]; intros s; [split; [intros ? ?|]; discriminate|]. cbn [record].
  destruct (readLine s) as [[line rest]|] eqn:R.
  - destruct (readLine_spec _ _ _ R) as [EU [S [L1 L2]]]. rewrite EU. destruct (onlyNL line) eqn:O.
    + destruct (IH rest) as [H1 H2]. apply onlyNL_spec in O.
      assert (P : forall T, tableText T (unix rest) -> tableText T (line ++ unix rest)).
      { intros T HT. destruct O as [-> | ->]; [exact HT|]. cbn [app]. constructor. exact HT. }
      split.
      * intros row rest' E. destruct (H1 _ _ E) as [L3 H]. split; [lia|]. intros rows HR. apply P, H, HR.
      * intros E. apply P, H2, E.
    + split.
      * intros row rest' E. destruct (rec_sound (Datatypes.S (length line + length rest))) as [H _].
        destruct (H _ _ _ _ _ E S) as [row0 [r [tail [-> [RT [EQ [FO L3]]]]]]]. cbn [app]. split; [lia|]. intros rows HR. rewrite EQ.
        assert (NE : r <> []).
        { intros ->. cbn [app] in EQ. assert (onlyNL line = true); [|congruence]. apply onlyNL_spec.
          destruct FO as [->|[-> ->]].
          - right. exact (proj1 (shape_first line rest [] _ S EQ (fun F => F))).
          - left. apply app_eq_nil in EQ. apply EQ. }
        destruct FO as [->|[-> ->]]; [constructor; auto|]. rewrite app_nil_r. apply no_text in HR. subst rows. constructor; auto.
      * intros E. exfalso. assert (X : forall n, (forall l r a, fields n l r a <> REof) /\ (forall l r c a, quoted n l r c a <> REof)).
        { clear. induction n as [|n [IHf IHq]]; [split; intros; discriminate|]. split; intros.
          - cbn [fields].
            assert (P : match cutAt comma l with
              | Some (f, line') => match cutAt quote f with Some _ => RErr | None => fields n line' r (a ++ [f]) end
              | None => match cutAt quote (dropNL l) with Some _ => RErr | None => RDone (a ++ [dropNL l]) r end end <> REof).
            { destruct (cutAt comma l) as [[]|]; [destruct (cutAt quote b); [discriminate|apply IHf]|destruct (cutAt quote (dropNL l)); discriminate]. }
            destruct l; [exact P|]. destruct (Byte.eqb _ _); [apply IHq|exact P].
          - cbn [quoted]. destruct (cutAt quote l) as [[x l']|].
            + destruct (onlyNL l'); [discriminate|]. destruct l'; [discriminate|]. destruct (Byte.eqb b quote); [apply IHq|]. destruct (Byte.eqb b comma); [apply IHf|discriminate].
            + destruct l; [discriminate|]. destruct (readLine r) as [[]|]; apply IHq. }
        exact (proj1 (X _) _ _ _ E).
  - apply readLine_none in R. subst s. split; [intros; discriminate|]. intros _. constructor.
Qed.

Lemma readAll_spec : forall n w s T, (length s < n)%nat ->
  (readAll n w s = Some T <-> tableText T (unix s) /\ forall r, In r T -> length r = w).
Proof.
  induction n as [|n IH]; intros w s T L; [lia|]. cbn [readAll]. unfold readRecord. split.
  - intros E. destruct (record_sound (S (length s)) s) as [H1 H2]. destruct (record (S (length s)) s) as [cells rest| | |] eqn:R; try discriminate.
    + destruct (Nat.eqb_spec (length cells) w) as [EW|]; [|discriminate]. destruct (readAll n w rest) as [l|] eqn:RA; [|discriminate].
      assert (T = cells :: l) as -> by congruence. destruct (H1 _ _ eq_refl) as [L' H]. apply IH in RA; [|lia]. destruct RA as [TT W].
      split; [apply H, TT|]. intros r [<-|I]; [exact EW|exact (W r I)].
    + assert (T = []) as -> by congruence. split; [apply H2; reflexivity|intros r []].
  - intros [TT W]. destruct T as [|row rows].
    + rewrite record_eof; [reflexivity|lia|exact TT].
    + destruct (record_row (S (length s)) row rows s ltac:(lia) TT) as [rest [R TR]]. rewrite R.
      destruct (record_sound (S (length s)) s) as [H1 _]. destruct (H1 _ _ R) as [L' _].
      rewrite (proj2 (Nat.eqb_eq _ _) (W row (or_introl eq_refl))).
      assert (RA : readAll n w rest = Some rows) by (apply IH; [lia|]; split; [exact TR|]; intros r I; apply W; right; exact I).
      rewrite RA. reflexivity.
Qed.

Lemma report_spec s cols rows : readReport s = (Some cols, Some rows) <->
  tableText (cols :: rows) (unix s) /\ forall r, In r rows -> length r = length cols.
Proof.
  unfold readReport, readRecord. split.
  - destruct (record_sound (S (length s)) s) as [H1 _]. destruct (record (S (length s)) s) as [cells rest| | |] eqn:R; try discriminate.
    intros E. assert (cells = cols) as -> by congruence. assert (RA : readAll (S (length rest)) (length cols) rest = Some rows) by congruence.
    apply readAll_spec in RA; [|lia]. destruct RA as [TT W]. split; [apply (proj2 (H1 _ _ eq_refl)), TT|exact W].
  - intros [TT W]. destruct (record_row (S (length s)) cols rows s ltac:(lia) TT) as [rest [R TR]]. rewrite R. f_equal.
    apply readAll_spec; [lia|]. auto.
Qed.

(** ** The reader never runs out of steps *)

Lemma fields_fuel : forall n,
  (forall line rest acc, (length line + length rest < n)%nat -> fields n line rest acc <> RFuel) /\
  (forall line rest cell acc, (length line + length rest < n)%nat -> quoted n line rest cell acc <> RFuel).
Proof.
  induction n as [|n [IHf IHq]]; [split; intros; lia|]. split.
  - intros line rest acc L. cbn [fields].
    assert (P : match cutAt comma line with
              | Some (f, line') => match cutAt quote f with Some _ => RErr | None => fields n line' rest (acc ++ [f]) end
              | None => match cutAt quote (dropNL line) with Some _ => RErr | None => RDone (acc ++ [dropNL line]) rest end end <> RFuel).
    { destruct (cutAt comma line) as [[f l']|] eqn:C; [|destruct (cutAt quote (dropNL line)); discriminate].
      destruct (cutAt quote f); [discriminate|]. apply cutAt_some in C. destruct C as [-> _]. apply IHf. rewrite app_length in L. cbn [length] in L. lia. }
    destruct line as [|c line']; [exact P|]. destruct (Byte.eqb _ _); [|exact P]. apply IHq. cbn [length] in L. lia.
  - intros line rest cell acc L. cbn [quoted]. destruct (cutAt quote line) as [[x l']|] eqn:C.
    + apply cutAt_some in C. destruct C as [-> _]. rewrite app_length in L. cbn [length] in L. destruct (onlyNL l'); [discriminate|].
      destruct l' as [|b l']; [discriminate|]. cbn [length] in L. destruct (Byte.eqb b quote); [apply IHq; lia|]. destruct (Byte.eqb b comma); [apply IHf; lia|discriminate].
    + destruct line as [|c line']; [discriminate|]. cbn [length] in L. destruct (readLine rest) as [[l' r']|] eqn:R.
      * destruct (readLine_spec _ _ _ R) as [_ [_ [L1 _]]]. apply IHq. lia.
      * apply IHq. cbn [length]. lia.
Qed.
Lemma record_fuel : forall n s, (length s < n)%nat -> record n s <> RFuel.
Proof.
  induction n as [|n IH]; intros s L; [lia|]. cbn [record]. destruct (readLine s) as [[line rest]|] eqn:R; [|discriminate].
  destruct (readLine_spec _ _ _ R) as [_ [_ [L1 L2]]]. destruct (onlyNL line); [apply IH; lia|]. apply fields_fuel. lia.
Qed.

(** ** The text means one table only *)

Lemma unix_onto : forall v, exists s, unix s = v.
Proof.
  induction v as [|c v [s E]]; [exists []; reflexivity|]. destruct (eqbb c CR) as [->|N].
  - destruct s as [|d s]; [exists [CR; CR]; cbn in E |- *; rewrite <- E; reflexivity|].
    destruct (eqbb d LF) as [->|ND].
    + exists (CR :: CR :: LF :: s). cbn [unix] in E |- *. change (Byte.eqb CR CR) with true. change (Byte.eqb CR LF) with false. change (Byte.eqb LF LF) with true. cbv iota.
      change (Byte.eqb LF CR) with false in *. cbv iota in *. rewrite E. reflexivity.
    + exists (CR :: d :: s). cbn [unix] in E |- *. change (Byte.eqb CR CR) with true. cbv iota. destruct (eqbb d LF); [contradiction|]. f_equal. exact E.
  - exists (c :: s). cbn [unix]. destruct (eqbb c CR); [contradiction|]. rewrite E. reflexivity.
Qed.
Lemma peel row r T v : rowText row r -> r <> [] -> tableText T (r ++ LF :: v) -> exists T', T = row :: T' /\ tableText T' v.
Proof.
  intros RT NE H. destruct (unix_onto (r ++ LF :: v)) as [s Es]. destruct (unix_onto v) as [s' Es']. rewrite <- Es in H.
  destruct T as [|row' T'].
  - exfalso. rewrite Es in H. destruct r as [|x r]; [contradiction|].
    assert (X : forall T u, tableText T u -> T = [] -> u = (x :: r) ++ LF :: v -> False).
    { clear - RT. intros T u H. destruct H; intros ET E; try discriminate. cbn [app] in E. assert (x = LF) as -> by congruence. exact (row_start _ _ RT r eq_refl). }
    exact (X _ _ H eq_refl eq_refl).
  - assert (K : exists rest, record (S (length s)) s = RDone row rest /\ v = unix rest).
    { (* reading one row of the text *)
      cbn [record]. destruct (readLine s) as [[line rest]|] eqn:R.
      - destruct (readLine_spec _ _ _ R) as [EU [S [L1 L2]]]. rewrite EU in Es.
        destruct (onlyNL line) eqn:O.
        + exfalso. apply onlyNL_spec in O. destruct O as [-> | ->].
          * apply shape_nil in S. subst rest. destruct r; discriminate Es.
          * destruct r as [|x r]; [contradiction|]. cbn [app] in Es. assert (x = LF) as -> by congruence. exact (row_start _ _ RT r eq_refl).
        + destruct (rec_complete (Datatypes.S (length line + length rest))) as [C _].
          destruct (C line rest [] row r (LF :: v) RT Es (or_intror (ex_intro _ _ eq_refl)) S ltac:(lia)) as [rest' [F FO]].
          exists rest'. split; [exact F|]. destruct FO as [FO|[FO _]]; [congruence|discriminate FO].
      - apply readLine_none in R. subst s. destruct r; discriminate Es. }
    destruct K as [rest [R ->]]. destruct (record_row (S (length s)) row' T' s ltac:(lia) H) as [rest' [R' TT]].
    rewrite R in R'. assert (row = row') as <- by congruence. assert (rest = rest') as <- by congruence. exists T'. auto.
Qed.
