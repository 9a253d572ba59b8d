(** * Texts: cutting, numbers, lines, trimming *)
From Verif Require Import Base MerkleModel SerialModel SerialProofs IssuersModel P_Issuers FilterModel FilterProofs QueryModel.
From Coq Require Import Strings.Byte.

Lemma rcut_none c : forall s, rcut c s = None <-> ~ In c s.
Proof.
  induction s as [|x s IH]; cbn [rcut]; [split; [intros _ []|reflexivity]|]. destruct (rcut c s) as [[a b]|] eqn:E.
  - split; [discriminate|]. intros N. exfalso. assert (G : Some (a, b) = None) by (apply IH; intros I; apply N; right; exact I). discriminate G.
  - destruct (Byte.eqb x c) eqn:X.
    + split; [discriminate|]. intros N. exfalso. apply N. left. apply Byte.byte_dec_bl. exact X.
    + split; [|reflexivity]. intros _ [I|I]; [|apply (proj1 IH eq_refl I)]. subst x. rewrite (Byte.byte_dec_lb eq_refl) in X. discriminate X.
Qed.
Lemma rcut_spec c : forall s a b, rcut c s = Some (a, b) <-> s = a ++ c :: b /\ ~ In c b.
Proof.
  induction s as [|x s IH]; intros a b; cbn [rcut].
  - split; [discriminate|]. intros [E _]. destruct a; discriminate E.
  - destruct (rcut c s) as [[y z]|] eqn:E.
    + destruct (proj1 (IH y z) eq_refl) as [Es N]. split.
      * intros H. injection H as <- <-. split; [cbn [app]; f_equal; exact Es|exact N].
      * intros [H NI]. destruct a as [|w a]; cbn [app] in H.
        -- injection H as -> H2. exfalso. apply NI. rewrite <- H2, Es. apply in_or_app. right. left. reflexivity.
        -- injection H as -> H. assert (G : Some (y, z) = Some (a, b)) by (apply IH; auto). injection G as <- <-. reflexivity.
    + apply (proj1 (rcut_none c s)) in E. destruct (Byte.eqb x c) eqn:X.
      * apply Byte.byte_dec_bl in X. subst x. split.
        -- intros H. injection H as <- <-. split; [reflexivity|exact E].
        -- intros [H NI]. destruct a as [|w a]; cbn [app] in H; [injection H as ->; reflexivity|]. injection H as -> H. exfalso. apply E. rewrite H. apply in_or_app. right. left. reflexivity.
      * split; [discriminate|]. intros [H NI]. destruct a as [|w a]; cbn [app] in H; injection H as -> H.
        -- rewrite (Byte.byte_dec_lb eq_refl) in X. discriminate X.
        -- exfalso. apply E. rewrite H. apply in_or_app. right. left. reflexivity.
Qed.

(** The number a text of digits denotes, independently of the parser. *)
Definition valueOf (s : bytes) : N := fold_left (fun n c => 10 * n + (Byte.to_N c - 48))%N s 0%N.

Lemma dec_value : forall s acc n, decFrom acc s = Some n <-> forallb isDigit s = true /\ n = fold_left (fun n c => 10 * n + (Byte.to_N c - 48))%N s acc.
Proof.
  induction s as [|c s IH]; intros acc n; cbn [decFrom forallb fold_left].
  - split; [intros H; injection H as <-; auto|]. intros [_ ->]; reflexivity.
  - destruct (isDigit c); cbn [andb]; [apply IH|]. split; [discriminate|intros [H _]; discriminate H].
Qed.

Lemma parseUint_spec m s n : parseUint m s = Some n <->
  exists sign ds, s = sign ++ ds /\ (sign = [] \/ sign = ["+"%byte]) /\ ds <> [] /\ forallb isDigit ds = true /\ valueOf ds = n /\ (n <= m)%N.
Proof.
  unfold parseUint. set (ds := match s with c :: s' => if Byte.eqb c "+" then s' else s | [] => [] end).
  assert (D : exists sign, s = sign ++ ds /\ (sign = [] \/ sign = ["+"%byte])).
  { unfold ds. destruct s as [|c s']; [exists []; auto|]. destruct (Byte.eqb c "+") eqn:E; [|exists []; auto].
    apply Byte.byte_dec_bl in E. subst. exists ["+"%byte]. auto. }
  assert (U : forall sign ds', s = sign ++ ds' -> (sign = [] \/ sign = ["+"%byte]) -> forallb isDigit ds' = true -> ds' = ds).
  { intros sign ds' -> [->| ->] H; unfold ds; cbn [app].
    - destruct ds' as [|c s']; [reflexivity|]. destruct (Byte.eqb c "+") eqn:E; [|reflexivity]. apply Byte.byte_dec_bl in E. subst. discriminate H.
    - reflexivity. }
  destruct ds as [|c ds1] eqn:E.
  - split; [discriminate|]. intros [sg [d [A [B0 [C [H _]]]]]]. rewrite (U sg d A B0 H) in C. exfalso; apply C; reflexivity.
  - destruct (decFrom 0 (c :: ds1)) as [k|] eqn:K.
    + apply dec_value in K. destruct K as [K1 K2]. destruct (N.leb_spec k m) as [L|L].
      * split.
        -- intros H. injection H as <-. destruct D as [sg [D1 D2]]. exists sg, (c :: ds1). repeat split; auto. discriminate.
        -- intros [sg [d [A [B0 [C [H [V _]]]]]]]. rewrite (U sg d A B0 H) in V. unfold valueOf in V. congruence.
      * split; [discriminate|]. intros [sg [d [A [B0 [C [H [V W]]]]]]]. rewrite (U sg d A B0 H) in V. unfold valueOf in V. rewrite V in K2. lia.
    + split; [discriminate|]. intros [sg [d [A [B0 [C [H [V W]]]]]]]. pose proof (U sg d A B0 H) as ED. subst d.
      assert (X : decFrom 0 (c :: ds1) = Some n) by (apply dec_value; split; [exact H|symmetry; exact V]). congruence.
Qed.


Lemma cut_unique (c : byte) : forall p p' s s', ~ In c p -> ~ In c p' -> p ++ c :: s = p' ++ c :: s' -> p = p' /\ s = s'.
Proof.
  induction p as [|x p IH]; intros [|y p'] s s' N N' E; cbn [app] in E; [injection E as E2; auto|injection E as E1 E2..].
  - subst. exfalso. apply N'. left; reflexivity.
  - subst. exfalso. apply N. left; reflexivity.
  - subst. destruct (IH p' s s') as [-> ->]; auto; intros I; [apply N|apply N']; right; exact I.
Qed.

(** ** Specifications *)

(** A name with a non-empty stem and one of the two extensions. *)
Definition filterFile (name : bytes) : Prop :=
  exists stem, stem <> [] /\ (name = stem ++ B ".filter" \/ name = stem ++ B ".delta").

Lemma isFilterName_spec name : isFilterName name = true <-> filterFile name.
Proof.
  unfold isFilterName, extension. destruct (rcut "."%byte name) as [[a b]|] eqn:E.
  - apply (proj1 (rcut_spec _ _ _ _)) in E. destruct E as [E N]. destruct a as [|x a].
    + split; [discriminate|]. intros [stem [NE H]]. exfalso. destruct stem as [|y stem]; [congruence|].
      assert (I : In "."%byte b). { cbn [app] in E. rewrite E in H. destruct H as [H|H]; cbn [app] in H; injection H as _ H; rewrite H; apply in_or_app; right; left; reflexivity. }
      exact (N I).
    + rewrite orb_true_iff, !beq_eq. split.
      * intros [->| ->]; exists (x :: a); (split; [discriminate|]); [right|left]; exact E.
      * intros [stem [_ [H|H]]]; [right|left].
        -- assert (G : Some (x :: a, b) = Some (stem, B "filter")) by (transitivity (rcut "."%byte name); [symmetry|]; apply rcut_spec; (split; [assumption|]); [exact N|intros I; vm_compute in I; repeat (destruct I as [I|I]; [discriminate I|]); exact I]). congruence.
        -- assert (G : Some (x :: a, b) = Some (stem, B "delta")) by (transitivity (rcut "."%byte name); [symmetry|]; apply rcut_spec; (split; [assumption|]); [exact N|intros I; vm_compute in I; repeat (destruct I as [I|I]; [discriminate I|]); exact I]). congruence.
  - apply (proj1 (rcut_none _ _)) in E. split; [discriminate|]. intros [stem [_ H]]. exfalso. apply E. destruct H as [->| ->]; apply in_or_app; right; left; reflexivity.
Qed.
Lemma isFilterName_false name : isFilterName name = false <-> ~ filterFile name.
Proof. rewrite <- isFilterName_spec. destruct (isFilterName name); split; intros H; try discriminate; try reflexivity; try congruence. Qed.

(** [host] or [host:port], cut at the last colon; the port is a decimal number
    below 2^16. *)
Definition namesHost (s host : bytes) (port : N) : Prop :=
  (~ In ":"%byte s /\ host = s /\ port = 443%N) \/
  exists sign ds, s = host ++ ":"%byte :: sign ++ ds /\ (sign = [] \/ sign = ["+"%byte]) /\
    ds <> [] /\ forallb isDigit ds = true /\ valueOf ds = port /\ (port < 65536)%N.

Lemma hostPort_spec s host port : (exists p, hostPort s = (host, p) /\ parseUint 65535 p = Some port) <-> namesHost s host port.
Proof.
  unfold hostPort, namesHost. destruct (rcut ":"%byte s) as [[a b]|] eqn:E.
  - apply (proj1 (rcut_spec _ _ _ _)) in E. destruct E as [E N]. split.
    + intros [p [H P]]. injection H as <- <-. right. apply parseUint_spec in P. destruct P as (sign & ds & P1 & P2 & P3 & P4 & P5 & P6).
      exists sign, ds. rewrite <- P1. repeat split; auto. lia.
    + intros [[H _]|(sign & ds & H1 & H2 & H3 & H4 & H5 & H6)].
      * exfalso. apply H. rewrite E. apply in_or_app. right. left. reflexivity.
      * assert (N2 : ~ In ":"%byte (sign ++ ds)).
        { intros I. apply in_app_or in I. destruct I as [I|I].
          - destruct H2 as [->| ->]; [destruct I|destruct I as [I|[]]; discriminate I].
          - rewrite forallb_forall in H4. specialize (H4 _ I). discriminate H4. }
        assert (G : Some (a, b) = Some (host, sign ++ ds)) by (transitivity (rcut ":"%byte s); [symmetry|]; apply rcut_spec; auto).
        injection G as -> ->. exists (sign ++ ds). split; [reflexivity|]. apply parseUint_spec. exists sign, ds. repeat split; auto. lia.
  - apply (proj1 (rcut_none _ _)) in E. split.
    + intros [p [H P]]. injection H as <- <-. left. split; [exact E|]. split; [reflexivity|]. vm_compute in P. injection P as <-. reflexivity.
    + intros [[_ [-> ->]]|(sign & ds & H1 & _)].
      * exists (B "443"). split; reflexivity.
      * exfalso. apply E. rewrite H1. apply in_or_app. right. left. reflexivity.
Qed.

(** [l] is a line of [t]: a maximal part without newline. *)
Definition lineOf (t l : bytes) : Prop :=
  exists a b, t = a ++ l ++ b /\ ~ In nl l /\ (a = [] \/ exists a', a = a' ++ [nl]) /\ (b = [] \/ exists b', b = nl :: b').

Lemma splitLines_head : forall data cur, ~ In nl data -> splitLines cur data = match rev cur ++ data with [] => [] | _ => [rev cur ++ data] end.
Proof.
  induction data as [|c data IH]; intros cur N; cbn [splitLines].
  - rewrite app_nil_r. destruct cur as [|c cur]; [reflexivity|]. destruct (rev (c :: cur)) eqn:E; [|reflexivity].
    apply (f_equal (@length byte)) in E. rewrite rev_length in E. discriminate E.
  - destruct (Byte.eqb c nl) eqn:E; [apply Byte.byte_dec_bl in E; exfalso; apply N; left; exact E|].
    rewrite IH by (intros I; apply N; right; exact I). cbn [rev]. rewrite <- app_assoc. reflexivity.
Qed.

Lemma splitLines_cons data : In nl data -> exists l rest, data = l ++ nl :: rest /\ ~ In nl l /\ splitLines [] data = l :: splitLines [] rest.
Proof.
  intros I. assert (G : forall data, In nl data -> exists l rest, data = l ++ nl :: rest /\ ~ In nl l).
  { clear. induction data as [|c data IH]; [intros []|]. destruct (Byte.eqb c nl) eqn:E.
    - intros _. apply Byte.byte_dec_bl in E. subst c. exists [], data. split; [reflexivity|intros []].
    - intros [H|H]; [subst c; discriminate E|]. destruct (IH H) as [l [rest [-> N]]]. exists (c :: l), rest. split; [reflexivity|].
      intros [X|X]; [subst c; discriminate E|exact (N X)]. }
  destruct (G data I) as [l [rest [-> N]]]. exists l, rest. split; [reflexivity|]. split; [exact N|]. apply (splitLines_line l rest N).
Qed.

Lemma splitLines_in : forall n t l, (length t <= n)%nat -> l <> [] -> (In l (splitLines [] t) <-> lineOf t l).
Proof.
  induction n as [|n IH]; intros t l L NE.
  { destruct t; [|cbn in L; lia]. cbn. split; [intros []|]. intros (a & b & H & _). destruct a; [|discriminate H]. destruct l; [congruence|discriminate H]. }
  destruct (in_dec Byte.byte_eq_dec nl t) as [I|I].
  - destruct (splitLines_cons t I) as (h & rest & -> & N & ->). cbn [In]. rewrite IH; [|rewrite app_length in L; cbn in L; lia|exact NE]. split.
    + intros [<-|(a & b & -> & N2 & A & B0)].
      * exists [], (nl :: rest). repeat split; auto. right. eauto.
      * exists (h ++ nl :: a), b. split; [rewrite <- app_assoc; reflexivity|]. split; [exact N2|]. split; [|exact B0]. right.
        destruct A as [->|[a' ->]]; [exists h; reflexivity|]. exists (h ++ nl :: a'). rewrite <- app_assoc. reflexivity.
    + intros (a & b & H & N2 & A & B0). destruct A as [->|[a' ->]].
      * left. cbn [app] in H. destruct B0 as [->|[b' ->]].
        -- exfalso. rewrite app_nil_r in H. apply N2. rewrite <- H. apply in_or_app. right. left. reflexivity.
        -- destruct (cut_unique nl h l rest b' N N2 H) as [E _]. exact E.
      * right. assert (K : exists a2, a' ++ [nl] = h ++ nl :: a2 /\ rest = a2 ++ l ++ b).
        { clear -H N. revert a' H. induction h as [|x h IHh]; intros a' H.
          - destruct a' as [|y a']; cbn [app] in *; [injection H as H; exists []; auto|]. injection H as <- H. exists (a' ++ [nl]). split; [reflexivity|]. exact H.
          - destruct a' as [|y a']; cbn [app] in H; injection H as -> H.
            + exfalso. apply N. left. reflexivity.
            + destruct (IHh ltac:(intros X; apply N; right; exact X) a' H) as [a2 [E1 E2]]. exists a2. split; [cbn [app]; f_equal; exact E1|exact E2]. }
        destruct K as [a2 [E1 ->]]. exists a2, b. split; [reflexivity|]. split; [exact N2|]. split; [|exact B0].
        destruct a2 as [|y a2] using rev_ind; [left; reflexivity|]. right. exists a2.
        assert (X : y = nl). { change (h ++ nl :: a2 ++ [y]) with (h ++ (nl :: a2) ++ [y]) in E1. rewrite app_assoc in E1. apply app_inj_tail in E1. symmetry. apply E1. }
        subst. reflexivity.
  - rewrite splitLines_head by exact I. cbn [rev app]. destruct t as [|c t].
    + split; [intros []|]. intros (a & b & H & _). destruct a; [|discriminate H]. destruct l; [congruence|discriminate H].
    + split.
      * intros [<-|[]]. exists [], []. rewrite app_nil_r. repeat split; auto.
      * intros (a & b & H & N2 & A & B0). left. destruct A as [->|[a' ->]].
        -- destruct B0 as [->|[b' ->]]; [rewrite app_nil_r in H; exact H|]. exfalso. apply I. rewrite H. cbn [app]. apply in_or_app. right. left. reflexivity.
        -- exfalso. apply I. rewrite H. apply in_or_app. left. apply in_or_app. right. left. reflexivity.
Qed.

(** [s] is [l] without the white space around it. *)
Definition stripped (l s : bytes) : Prop :=
  exists a b, l = a ++ s ++ b /\ forallb isSpace a = true /\ forallb isSpace b = true /\
    match s with [] => True | c :: _ => isSpace c = false end /\ match rev s with [] => True | c :: _ => isSpace c = false end.

Lemma dropWhile_split p : forall s, exists w, s = w ++ dropWhile p s /\ forallb p w = true /\ match dropWhile p s with [] => True | c :: _ => p c = false end.
Proof.
  induction s as [|c s IH]; cbn [dropWhile]; [exists []; auto|]. destruct (p c) eqn:E.
  - destruct IH as [w [H1 [H2 H3]]]. exists (c :: w). cbn [app forallb]. rewrite E, H2. split; [f_equal; exact H1|auto].
  - exists []. cbn. auto.
Qed.
Lemma forallb_rev {A} (p : A -> bool) l : forallb p (rev l) = forallb p l.
Proof. induction l as [|x l IH]; [reflexivity|]. cbn [rev forallb]. rewrite forallb_app, IH. cbn [forallb]. rewrite andb_true_r. apply andb_comm. Qed.
Lemma trim_stripped l : stripped l (trim isSpace l).
Proof.
  unfold stripped, trim. destruct (dropWhile_split isSpace l) as [w [H1 [H2 H3]]]. set (m := dropWhile isSpace l) in *. clearbody m.
  destruct (dropWhile_split isSpace (rev m)) as [v [K1 [K2 K3]]]. set (k := dropWhile isSpace (rev m)) in *. clearbody k.
  assert (M : m = rev k ++ rev v) by (rewrite <- rev_app_distr, <- K1, rev_involutive; reflexivity).
  exists w, (rev v). rewrite <- M, forallb_rev, rev_involutive. repeat split; auto.
  destruct (rev k) as [|c r] eqn:R; [exact I|]. rewrite M in H3. exact H3.
Qed.
Lemma stripped_trim l s : s <> [] -> stripped l s -> trim isSpace l = s.
Proof.
  intros NE (a & b & -> & A & B0 & S1 & S2). apply trim_around; auto.
Qed.

(** The hosts of a list: the non-empty lines without the white space around them,
    except comments. *)
Definition listed (t s : bytes) : Prop :=
  s <> [] /\ hd_error s <> Some "#"%byte /\ exists l, lineOf t l /\ stripped l s.

Lemma dropCR_trim l : trim isSpace (dropCR l) = trim isSpace l.
Proof.
  unfold dropCR. destruct (rev l) as [|c r] eqn:E; [reflexivity|]. destruct (Byte.eqb c cr) eqn:C; [|reflexivity].
  apply Byte.byte_dec_bl in C. subst c. assert (L : l = rev r ++ [cr]) by (rewrite <- (rev_involutive l), E; reflexivity).
  destruct (trim isSpace (rev r)) as [|x s] eqn:T.
  - (* all space *)
    destruct (trim_stripped (rev r)) as (a & b & H & A & B0 & _). rewrite T in H. cbn [app] in H.
    symmetry. rewrite L, H. unfold trim. rewrite <- (app_nil_r ((a ++ b) ++ [cr])). rewrite dropWhile_all; [reflexivity|]. rewrite !forallb_app, A, B0. reflexivity.
  - symmetry. apply stripped_trim; [discriminate|]. destruct (trim_stripped (rev r)) as (a & b & H & A & B0 & S1 & S2). rewrite T in *.
    exists a, (b ++ [cr]). split; [rewrite L, H, <- !app_assoc; reflexivity|]. rewrite forallb_app, B0. auto.
Qed.

Lemma hostLines_spec t s : In s (hostLines t) <-> listed t s.
Proof.
  unfold hostLines, listed. rewrite filter_In, in_map_iff. split.
  - intros [[l [E I]] C]. rewrite dropCR_trim in E. destruct s as [|c s]; [discriminate C|]. split; [discriminate|]. split.
    + cbn [hd_error]. intros X. injection X as ->. discriminate C.
    + exists l. assert (NE : l <> []) by (intros ->; discriminate E). split; [apply (splitLines_in (length t) t l (le_n _) NE); exact I|]. rewrite <- E. apply trim_stripped.
  - intros [NE [C [l [I S]]]]. split.
    + exists l. rewrite dropCR_trim. split; [apply stripped_trim; assumption|]. apply (splitLines_in (length t) t l (le_n _)); [|exact I].
      intros ->. destruct S as (a & b & H & _). destruct a; [|discriminate H]. destruct s; [congruence|discriminate H].
    + destruct s as [|c s]; [congruence|]. cbn [hd_error] in C. destruct (Byte.eqb c "#") eqn:X; [|reflexivity]. apply Byte.byte_dec_bl in X. subst. congruence.
Qed.
