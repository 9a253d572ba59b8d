(** * C78: certificates survive their PEM text *)
From Verif Require Import Base SerialModel StoreModel IssuersModel Base64 Base64Spec PemModel SerialProofs JsonSpec JsonProofs P_Issuers P_Json.
From Coq Require Import Strings.Byte Permutation.

(** ** Specification *)
(** Spaces and tabs; a carriage return may stand directly before the line end. *)
Definition blanks (s : bytes) : Prop := Forall (fun c => c = x20 \/ c = x09) s.
Definition blankEnd (s : bytes) : Prop := exists sp, blanks sp /\ (s = sp ++ [x0a] \/ s = sp ++ [x0d; x0a]).
(** What may follow the last dashes: nothing but blanks up to the end of the line or text *)
Definition tail (s : bytes) : Prop := blanks s \/ exists e more, blankEnd e /\ s = e ++ more.
(** Base64 characters with any blanks and line ends between them *)
Inductive spread : bytes -> bytes -> Prop :=
| sp_nil : spread [] []
| sp_char c t s : c <> x20 -> c <> x09 -> c <> x0a -> c <> x0d -> spread t s -> spread (c :: t) (c :: s)
| sp_gap c t s : c = x20 \/ c = x09 \/ c = x0a \/ c = x0d -> spread t s -> spread t (c :: s).
(** A PEM text of the contents [raw] *)
Definition pemText (raw text : bytes) : Prop :=
  exists e txt body t,
    blankEnd e /\ tail t /\ b64Text stdAlphabet raw txt /\ spread txt body /\
    (body = [] \/ exists b, body = b ++ [x0a]) /\
    text = B "-----BEGIN CERTIFICATE-----" ++ e ++ body ++ B "-----END CERTIFICATE-----" ++ t.
(** The text has no line that begins a block *)
Definition noBlock (text : bytes) : Prop :=
  (forall r, text <> B "-----BEGIN " ++ r) /\ (forall a r, text <> a ++ [x0a] ++ B "-----BEGIN " ++ r).

(** ** Searching *)
Lemma isPrefix_app p r : isPrefix p (p ++ r) = true.
Proof. induction p as [|x p IH]; [reflexivity|]. cbn. destruct (byte_eqb_spec x x); [exact IH|congruence]. Qed.
Lemma isPrefix_true p l : isPrefix p l = true -> exists r, l = p ++ r.
Proof.
  revert l. induction p as [|x p IH]; intros l; [exists l; reflexivity|].
  destruct l as [|y l]; [discriminate|]. cbn. destruct (byte_eqb_spec x y) as [->|]; [|discriminate].
  intros E. destruct (IH _ E) as [r ->]. exists r. reflexivity.
Qed.
Lemma skipn_exact {A} (p r : list A) : skipn (length p) (p ++ r) = r.
Proof. induction p; [reflexivity|assumption]. Qed.
Lemma cut_some sep l a b : cut sep l = Some (a, b) -> l = a ++ sep ++ b.
Proof.
  revert a b. induction l as [|c r IH]; intros a b.
  - cbn. destruct (isPrefix sep []) eqn:P; [|discriminate].
    destruct sep; [|discriminate]. intros H. injection H as <- <-. reflexivity.
  - cbn [cut]. destruct (isPrefix sep (c :: r)) eqn:P.
    + destruct (isPrefix_true _ _ P) as [x E]. rewrite E, skipn_exact. intros H. injection H as <- <-. reflexivity.
    + destruct (cut sep r) as [[a' b']|]; [|discriminate]. intros H. injection H as <- <-.
      cbn. f_equal. apply IH. reflexivity.
Qed.
Lemma cut_none sep l : cut sep l = None -> forall a b, l <> a ++ sep ++ b.
Proof.
  induction l as [|c r IH]; intros E a b.
  - cbn in E. destruct (isPrefix sep []) eqn:P; [discriminate|]. intros F. symmetry in F.
    destruct (app_eq_nil _ _ F) as [_ F2]. destruct (app_eq_nil _ _ F2) as [-> _]. discriminate.
  - cbn [cut] in E. destruct (isPrefix sep (c :: r)) eqn:P; [discriminate|].
    destruct (cut sep r) as [[]|]; [discriminate|]. intros F. destruct a as [|x a].
    + cbn in F. rewrite F, isPrefix_app in P. discriminate.
    + cbn in F. assert (F2 : r = a ++ sep ++ b) by congruence. exact (IH eq_refl _ _ F2).
Qed.
(** The first newline *)
Lemma cut_line a r : ~ In x0a a -> cut [x0a] (a ++ x0a :: r) = Some (a, r).
Proof.
  induction a as [|c a IH]; intros N; [reflexivity|]. cbn [app cut isPrefix].
  destruct (byte_eqb_spec x0a c) as [<-|]; [exfalso; apply N; left; reflexivity|]. cbn [andb].
  rewrite IH by (intros I; apply N; right; exact I). reflexivity.
Qed.
Lemma cut_no_line a : ~ In x0a a -> cut [x0a] a = None.
Proof.
  induction a as [|c a IH]; intros N; [reflexivity|]. cbn [cut isPrefix].
  destruct (byte_eqb_spec x0a c) as [<-|]; [exfalso; apply N; left; reflexivity|]. cbn [andb].
  rewrite IH by (intros I; apply N; right; exact I). reflexivity.
Qed.
(** A separator that starts with a newline and a dash, after a text without dashes *)
Lemma cut_dash b rest r : ~ In "-"%byte b ->
  cut (x0a :: "-"%byte :: rest) (b ++ (x0a :: "-"%byte :: rest) ++ r) = Some (b, r).
Proof.
  induction b as [|c b IH]; intros N.
  - cbn [app]. change (x0a :: "-"%byte :: rest ++ r) with ((x0a :: "-"%byte :: rest) ++ r).
    destruct ((x0a :: "-"%byte :: rest) ++ r) as [|c l] eqn:E; [discriminate|].
    unfold cut. fold cut. rewrite <- E. rewrite isPrefix_app, skipn_exact. reflexivity.
  - cbn [app cut isPrefix].
    replace (Byte.eqb x0a c && _) with false.
    + change (x0a :: "-"%byte :: rest ++ r) with ((x0a :: "-"%byte :: rest) ++ r).
      rewrite IH by (intros I; apply N; right; exact I). reflexivity.
    + symmetry. destruct (byte_eqb_spec x0a c) as [<-|]; [|reflexivity]. cbn [andb].
      destruct b as [|d b]; [reflexivity|]. cbn [app].
      destruct (byte_eqb_spec "-"%byte d) as [<-|]; [exfalso; apply N; right; left; reflexivity|reflexivity].
Qed.

(** ** Lines *)
Lemma trimRight_blanks s : blanks s -> trimRight s = [].
Proof. induction 1 as [|c s [->| ->] _ IH]; [reflexivity| |]; cbn; rewrite IH; reflexivity. Qed.
Lemma trimRight_app l s : blanks s -> trimRight (l ++ s) = trimRight l.
Proof. intros Bs. induction l as [|c l IH]; [apply trimRight_blanks; exact Bs|]. cbn. rewrite IH. reflexivity. Qed.
Lemma dropCR_cr l : dropCR (l ++ [x0d]) = l.
Proof. induction l as [|c l IH]; [reflexivity|]. cbn [app dropCR]. destruct (l ++ [x0d]) eqn:E; [destruct l; discriminate|]. rewrite IH. reflexivity. Qed.
Lemma dropCR_other l : (forall c, In c l -> c <> x0d) -> dropCR l = l.
Proof.
  induction l as [|c l IH]; intros H; [reflexivity|]. cbn [dropCR]. destruct l as [|d l].
  - destruct (byte_eqb_spec c x0d) as [->|]; [exfalso; apply (H x0d); [left|]; reflexivity|reflexivity].
  - rewrite IH by (intros; apply H; right; assumption). reflexivity.
Qed.
Lemma in_blanks s c : blanks s -> In c s -> c = x20 \/ c = x09.
Proof. intros Bs I. unfold blanks in Bs. rewrite Forall_forall in Bs. exact (Bs c I). Qed.
(** A line of ordinary characters with blanks at its end *)
Definition plain (l : bytes) : Prop := trimRight l = l /\ forall c, In c l -> c <> x0a /\ c <> x0d.
Lemma getLine_end l e r : plain l -> blankEnd e -> getLine (l ++ e ++ r) = (l, r).
Proof.
  intros [Tr P] (sp & Bs & E).
  assert (NL : forall x, In x (l ++ sp) -> x <> x0a /\ x <> x0d).
  { intros x I. apply in_app_or in I. destruct I as [I|I]; [exact (P _ I)|].
    destruct (in_blanks _ _ Bs I) as [->| ->]; split; discriminate. }
  unfold getLine. destruct E as [->| ->].
  - rewrite <- app_assoc, app_assoc. cbn [app]. rewrite cut_line.
    + rewrite dropCR_other by (intros c I; apply NL; exact I).
      rewrite trimRight_app, Tr by exact Bs. reflexivity.
    + intros I. destruct (NL _ I) as [F _]. apply F. reflexivity.
  - replace (l ++ (sp ++ [x0d; x0a]) ++ r) with (((l ++ sp) ++ [x0d]) ++ x0a :: r) by (rewrite <- !app_assoc; reflexivity).
    rewrite cut_line.
    + rewrite dropCR_cr, trimRight_app, Tr by exact Bs. reflexivity.
    + intros I. apply in_app_or in I. destruct I as [I|[I|[]]]; [|discriminate].
      destruct (NL _ I) as [F _]. apply F. reflexivity.
Qed.
Lemma getLine_tail l t : plain l -> tail t -> fst (getLine (l ++ t)) = l.
Proof.
  intros P [Bs|(e & more & Be & ->)]; [|rewrite getLine_end by assumption; reflexivity]. destruct P as [Tr P].
  unfold getLine. rewrite cut_no_line; [cbn; rewrite trimRight_app; [exact Tr|exact Bs]|].
  intros I. apply in_app_or in I. destruct I as [I|I]; [destruct (P _ I) as (F & _); apply F; reflexivity|].
  destruct (in_blanks _ _ Bs I); discriminate.
Qed.
Lemma in_trimRight c l : In c (trimRight l) -> In c l.
Proof.
  induction l as [|d l IH]; [intros []|]. cbn. destruct (trimRight l) as [|x t].
  - destruct (isBlank d); [intros []|intros [->|[]]; left; reflexivity].
  - intros [->|I]; [left; reflexivity|right; apply IH; exact I].
Qed.
Lemma in_dropCR c l : In c (dropCR l) -> In c l.
Proof.
  induction l as [|d l IH]; [intros []|]. cbn [dropCR]. destruct l as [|x l].
  - destruct (Byte.eqb d x0d); [intros []|exact (fun I => I)].
  - intros [->|I]; [left; reflexivity|right; apply IH; exact I].
Qed.
Lemma first_newline (b : bytes) : In x0a b -> exists l r, b = l ++ x0a :: r /\ ~ In x0a l.
Proof.
  induction b as [|c b IH]; [intros []|]. intros I. destruct (byte_eqb_spec c x0a) as [->|N].
  - exists [], b. split; [reflexivity|intros []].
  - destruct I as [->|I]; [congruence|]. destruct (IH I) as (l & r & -> & Nl).
    exists (c :: l), r. split; [reflexivity|]. intros [->|J]; [congruence|exact (Nl J)].
Qed.
(** The first line is part of what stands before a newline. *)
Lemma in_line c b r : In x0a b -> In c (fst (getLine (b ++ r))) -> In c b.
Proof.
  intros I. destruct (first_newline _ I) as (l & r' & -> & Nl). unfold getLine.
  rewrite <- app_assoc. cbn [app]. rewrite cut_line by exact Nl. cbn [fst]. intros J.
  apply in_trimRight, in_dropCR in J. apply in_or_app. left. exact J.
Qed.

(** ** Base64 text with gaps *)
Lemma keep_spread t s : spread t s -> filter keep s = t.
Proof.
  induction 1 as [|c t s N1 N2 N3 N4 _ IH|c t s G _ IH]; [reflexivity| |].
  - cbn. unfold keep at 1. destruct (byte_eqb_spec c x20), (byte_eqb_spec c x09), (byte_eqb_spec c x0a), (byte_eqb_spec c x0d); try congruence.
    cbn. rewrite IH. reflexivity.
  - cbn. destruct G as [->|[->|[->| ->]]]; exact IH.
Qed.
Lemma spread_chars t s c : spread t s -> In c s -> In c t \/ c = x20 \/ c = x09 \/ c = x0a \/ c = x0d.
Proof.
  induction 1 as [|d t s _ _ _ _ _ IH|d t s G _ IH]; [intros []| |].
  - intros [->|I]; [left; left; reflexivity|]. destruct (IH I) as [J|J]; [left; right; exact J|right; exact J].
  - intros [->|I]; [right; exact G|exact (IH I)].
Qed.

Lemma isPrefix_stop rest p r : ~ In x0a rest -> isPrefix rest (p ++ x0a :: r) = isPrefix rest p.
Proof.
  revert p. induction rest as [|x rest IH]; intros p N; [destruct p; reflexivity|].
  destruct p as [|c p]; cbn.
  - destruct (byte_eqb_spec x x0a) as [->|]; [exfalso; apply N; left; reflexivity|reflexivity].
  - rewrite IH by (intros I; apply N; right; exact I). reflexivity.
Qed.
(** The first separator is the one after a text that has none. *)
Lemma cut_first rest p r : ~ In x0a rest -> (forall a b, p <> a ++ (x0a :: rest) ++ b) ->
  cut (x0a :: rest) (p ++ (x0a :: rest) ++ r) = Some (p, r).
Proof.
  intros N. induction p as [|c p IH]; intros F.
  - assert (E : cut (x0a :: rest) (x0a :: rest ++ r) =
      if isPrefix (x0a :: rest) ((x0a :: rest) ++ r) then Some ([], skipn (length (x0a :: rest)) ((x0a :: rest) ++ r))
      else match cut (x0a :: rest) (rest ++ r) with Some (a, b) => Some (x0a :: a, b) | None => None end) by reflexivity.
    cbn [app] in *. rewrite E. change (x0a :: rest ++ r) with ((x0a :: rest) ++ r).
    rewrite isPrefix_app, skipn_exact. reflexivity.
  - change ((c :: p) ++ (x0a :: rest) ++ r) with (c :: p ++ (x0a :: rest) ++ r). cbn [cut].
    assert (P : isPrefix (x0a :: rest) (c :: p ++ (x0a :: rest) ++ r) = false).
    { cbn [isPrefix app]. destruct (byte_eqb_spec x0a c) as [<-|]; [|reflexivity]. cbn [andb].
      rewrite isPrefix_stop by exact N. destruct (isPrefix rest p) eqn:P; [|reflexivity].
      destruct (isPrefix_true _ _ P) as [b ->]. exfalso. apply (F [] b). reflexivity. }
    rewrite P, IH; [reflexivity|]. intros a b E. apply (F (c :: a) b). rewrite E. reflexivity.
Qed.

(** ** Reading *)
Lemma stripSuffix_app s t : stripSuffix s (t ++ s) = Some t.
Proof.
  unfold stripSuffix. rewrite app_length. replace (length t + length s - length s)%nat with (length t) by lia.
  rewrite skipn_exact, beq_refl, firstn_app, Nat.sub_diag, firstn_all. cbn. rewrite app_nil_r. reflexivity.
Qed.
Lemma stripSuffix_some s l t : stripSuffix s l = Some t -> l = t ++ s.
Proof.
  unfold stripSuffix. destruct (beq _ s) eqn:E; [|discriminate]. intros H. injection H as <-.
  rewrite beq_eq in E. transitivity (firstn (length l - length s) l ++ skipn (length l - length s) l); [symmetry; apply firstn_skipn|]. rewrite E. reflexivity.
Qed.
Lemma enc_chars raw txt c : b64Text stdAlphabet raw txt -> In c txt -> c <> "-"%byte /\ c <> ":"%byte.
Proof.
  intros T I. apply (b64Text_char _ _ _ _ T) in I. destruct I as [->|I]; [split; discriminate|].
  assert (H : forallb (fun c => negb (Byte.eqb c "-") && negb (Byte.eqb c ":")) stdAlphabet = true) by reflexivity.
  rewrite forallb_forall in H. specialize (H _ I). apply andb_prop in H. destruct H as [H1 H2].
  destruct (byte_eqb_spec c "-"%byte), (byte_eqb_spec c ":"%byte); try discriminate. split; assumption.
Qed.
Lemma no_colon l : (forall c, In c l -> c <> ":"%byte) -> existsb (Byte.eqb ":") l = false.
Proof.
  intros H. destruct (existsb _ l) eqn:E; [|reflexivity]. apply existsb_exists in E. destruct E as (c & I & E).
  destruct (byte_eqb_spec ":"%byte c) as [<-|]; [|discriminate]. exfalso. apply (H _ I). reflexivity.
Qed.
Lemma plain_of (l : bytes) : trimRight l = l -> forallb (fun c => negb (Byte.eqb c x0a) && negb (Byte.eqb c x0d)) l = true -> plain l.
Proof.
  intros T H. split; [exact T|]. intros c I. rewrite forallb_forall in H. specialize (H _ I).
  destruct (byte_eqb_spec c x0a), (byte_eqb_spec c x0d); try discriminate. split; assumption.
Qed.
Lemma pem_block raw e txt body t f :
  blankEnd e -> tail t -> b64Text stdAlphabet raw txt -> spread txt body -> (body = [] \/ exists b, body = b ++ [x0a]) ->
  forall rest, (isPrefix pemBegin rest = true /\ rest = pemBegin ++ certType ++ dashes ++ e ++ body ++ pemEnd ++ certType ++ dashes ++ t \/
    isPrefix pemBegin rest = false /\ exists p, cut (x0a :: pemBegin) rest = Some (p, certType ++ dashes ++ e ++ body ++ pemEnd ++ certType ++ dashes ++ t)) ->
  pemLoop (S f) rest = Some (certType, raw).
Proof.
  intros He Ht Tx Sp Eb rest R. cbn [pemLoop].
  replace (if isPrefix pemBegin rest then _ else _) with (Some (certType ++ dashes ++ e ++ body ++ pemEnd ++ certType ++ dashes ++ t)).
  2:{ destruct R as [[-> ->]|[-> [p ->]]]; [rewrite skipn_exact|]; reflexivity. }
  rewrite app_assoc, getLine_end; [|apply plain_of; reflexivity|exact He].
  rewrite stripSuffix_app.
  set (tr := certType ++ dashes ++ t).
  assert (H0 : skipHeaders (S (length (body ++ pemEnd ++ tr))) 0 (body ++ pemEnd ++ tr) = Some (0%nat, body ++ pemEnd ++ tr)).
  { cbn [skipHeaders]. destruct (body ++ pemEnd ++ tr) as [|c0 l0] eqn:E0; [destruct body; discriminate|]. rewrite <- E0.
    destruct (getLine (body ++ pemEnd ++ tr)) as [line next] eqn:G.
    assert (EL : line = fst (getLine (body ++ pemEnd ++ tr))) by (rewrite G; reflexivity).
    rewrite no_colon; [reflexivity|]. intros c I. rewrite EL in I. destruct Eb as [->|[b ->]].
    - cbn [app] in I. unfold tr in I. rewrite (app_assoc certType), (app_assoc pemEnd) in I.
      rewrite getLine_tail in I; [|apply plain_of; reflexivity|exact Ht].
      assert (H : forallb (fun c => negb (Byte.eqb c ":")) (pemEnd ++ certType ++ dashes) = true) by reflexivity.
      rewrite forallb_forall in H. specialize (H _ I). destruct (byte_eqb_spec c ":"%byte); [discriminate|assumption].
    - apply in_line in I; [|apply in_or_app; right; left; reflexivity].
      destruct (spread_chars _ _ _ Sp I) as [J|[->|[->|[->| ->]]]]; try discriminate. apply (enc_chars raw txt); assumption. }
  rewrite H0.
  assert (FE : exists b', findEnd 0 (body ++ pemEnd ++ tr) = Some (b', tr) /\ filter keep b' = txt).
  { pose proof (keep_spread _ _ Sp) as K. destruct Eb as [->|[b ->]].
    - exists []. split; [|exact K]. unfold findEnd. cbn [app]. rewrite isPrefix_app, skipn_exact. reflexivity.
    - exists b. split; [|rewrite filter_app in K; cbn in K; rewrite app_nil_r in K; exact K].
      assert (ND : ~ In "-"%byte b).
      { intros I. destruct (spread_chars _ _ "-"%byte Sp) as [J|[J|[J|[J|J]]]]; try discriminate.
        - apply in_or_app. left. exact I.
        - apply (enc_chars _ _ _ Tx) in J. destruct J as [J _]. apply J. reflexivity. }
      unfold findEnd. rewrite <- app_assoc.
      replace (isPrefix pemEnd (b ++ [x0a] ++ pemEnd ++ tr)) with false.
      + rewrite andb_false_r. change ([x0a] ++ pemEnd ++ tr) with ((x0a :: pemEnd) ++ tr). apply cut_first.
        * intros I. assert (H : forallb (fun c => negb (Byte.eqb c x0a)) pemEnd = true) by reflexivity.
          rewrite forallb_forall in H. specialize (H _ I). discriminate.
        * intros a r E. apply ND. rewrite E. apply in_or_app. right. right. left. reflexivity.
      + destruct b as [|c b]; [reflexivity|]. destruct (isPrefix pemEnd ((c :: b) ++ [x0a] ++ pemEnd ++ tr)) eqn:P; [|reflexivity].
        destruct (isPrefix_true _ _ P) as [x Ex]. apply (f_equal (hd x00)) in Ex. cbn in Ex.
        exfalso. apply ND. left. exact Ex. }
  destruct FE as (b' & -> & K). unfold tr. rewrite (app_assoc certType), isPrefix_app, skipn_exact.
  assert (T0 : fst (getLine t) = []) by (apply (getLine_tail [] t); [split; [reflexivity|intros c []]|exact Ht]). rewrite T0.
  cbn [andb]. unfold decodeBody. rewrite K, (proj2 (b64decode_spec _ std_good _ _) Tx). reflexivity.
Qed.

(** ** Theorems *)
(** C78.  A PEM text of a certificate, with other line lengths, blanks or line ends than the
    program writes, and after any text in which no line begins a block, is read back. *)
Theorem C78_reads raw pre text :
  pemText raw text -> noBlock pre -> pre = [] \/ (exists p, pre = p ++ [x0a]) ->
  pemDecode (pre ++ text) = Some (B "CERTIFICATE", raw).
Proof.
  intros (e & txt & body & t & He & Ht & Tx & Sp & Eb & ->) [N1 N2] Pr. unfold pemDecode.
  apply (pem_block raw e txt body t); try assumption.
  replace (pre ++ _) with (pre ++ pemBegin ++ certType ++ dashes ++ e ++ body ++ pemEnd ++ certType ++ dashes ++ t) by reflexivity.
  set (more := certType ++ _).
  destruct Pr as [->|[p ->]]; [left; split; [apply (isPrefix_app pemBegin more)|reflexivity]|right].
  assert (NB : ~ In x0a pemBegin).
  { intros I. assert (H : forallb (fun c => negb (Byte.eqb c x0a)) pemBegin = true) by reflexivity.
    rewrite forallb_forall in H. specialize (H _ I). discriminate. }
  split.
  - rewrite <- app_assoc. cbn [app]. rewrite isPrefix_stop by exact NB.
    destruct (isPrefix pemBegin p) eqn:P; [|reflexivity]. destruct (isPrefix_true _ _ P) as [r ->].
    exfalso. apply (N1 (r ++ [x0a])). rewrite <- app_assoc. reflexivity.
  - exists p. rewrite <- app_assoc. change ([x0a] ++ pemBegin ++ more) with ((x0a :: pemBegin) ++ more).
    apply cut_first; [exact NB|]. intros a b E. apply (N2 a (b ++ [x0a])). rewrite E, <- !app_assoc. reflexivity.
Qed.

Lemma spread_line t s l : (forall c, In c l -> c <> x20 /\ c <> x09 /\ c <> x0a /\ c <> x0d) -> spread t s -> spread (l ++ t) (l ++ [x0a] ++ s).
Proof.
  intros H Sp. induction l as [|c l IH]; [cbn; apply sp_gap; [auto|exact Sp]|].
  destruct (H c) as (A & A2 & A3 & A4); [left; reflexivity|]. cbn. apply sp_char; try assumption.
  apply IH. intros d I. apply H. right. exact I.
Qed.
Lemma linesOf_spread f b : (length b <= f)%nat -> (forall c, In c b -> c <> x20 /\ c <> x09 /\ c <> x0a /\ c <> x0d) ->
  spread b (linesOf f b) /\ (linesOf f b = [] \/ exists l, linesOf f b = l ++ [x0a]).
Proof.
  revert b. induction f as [|f IH]; intros b L H.
  - destruct b; [|cbn in L; lia]. split; [constructor|left; reflexivity].
  - destruct b as [|c b]; [split; [constructor|left; reflexivity]|].
    assert (E : linesOf (S f) (c :: b) = firstn 64 (c :: b) ++ [x0a] ++ linesOf f (skipn 64 (c :: b))) by reflexivity.
    rewrite E. assert (HF : forall d, In d (firstn 64 (c :: b)) -> In d (c :: b)) by (intros d I; rewrite <- (firstn_skipn 64 (c :: b)); apply in_or_app; left; exact I).
    assert (HS : forall d, In d (skipn 64 (c :: b)) -> In d (c :: b)) by (intros d I; rewrite <- (firstn_skipn 64 (c :: b)); apply in_or_app; right; exact I).
    destruct (IH (skipn 64 (c :: b))) as [Sp En]; [rewrite skipn_length; cbn [length] in *; lia|intros d I; apply H, HS, I|].
    split.
    + rewrite <- (firstn_skipn 64 (c :: b)) at 1. apply spread_line; [intros d I; apply H, HF, I|exact Sp].
    + right. destruct En as [->|[l ->]]; [exists (firstn 64 (c :: b)); reflexivity|].
      exists (firstn 64 (c :: b) ++ [x0a] ++ l). rewrite <- !app_assoc. reflexivity.
Qed.
(** C78.  What the program writes is such a text ... *)
Theorem C78_writes raw : pemText raw (certificateToPEM raw).
Proof.
  unfold certificateToPEM. set (b := b64encode stdAlphabet raw).
  destruct (linesOf_spread (length b) b) as [Sp En]; [lia|intros c I|].
  { apply (b64encode_chars _ std_good) in I. destruct I as [I| ->]; [|repeat split; discriminate].
    assert (H : forallb keep stdAlphabet = true) by reflexivity. rewrite forallb_forall in H. specialize (H _ I).
    unfold keep in H. destruct (byte_eqb_spec c x20), (byte_eqb_spec c x09), (byte_eqb_spec c x0a), (byte_eqb_spec c x0d); try discriminate. repeat split; assumption. }
  exists [x0a], b, (linesOf (length b) b), []. repeat apply conj.
  - exists []. split; [constructor|left; reflexivity].
  - left. constructor.
  - apply b64encode_text. exact std_good.
  - exact Sp.
  - exact En.
  - rewrite app_nil_r. reflexivity.
Qed.
(** ... of characters that are one byte each in UTF-8, so that it also survives JSON (C77). *)
Theorem C78_ascii raw c : In c (certificateToPEM raw) -> (Byte.to_N c < 128)%N.
Proof.
  intros I. unfold certificateToPEM in I. set (b := b64encode stdAlphabet raw) in *.
  assert (A : forall l : bytes, forallb (fun c => Byte.to_N c <? 128)%N l = true -> In c l -> (Byte.to_N c < 128)%N).
  { intros l H J. rewrite forallb_forall in H. apply N.ltb_lt, H, J. }
  rewrite !in_app_iff in I.
  destruct I as [I|[I|[I|[I|[I|[I|[I|I]]]]]]]; try (refine (A _ _ I); vm_compute; reflexivity).
  destruct (linesOf_spread (length b) b) as [Sp En]; [lia|intros d J|].
  { apply (b64encode_chars _ std_good) in J. destruct J as [J| ->]; [|repeat split; discriminate].
    assert (H : forallb keep stdAlphabet = true) by reflexivity. rewrite forallb_forall in H. specialize (H _ J).
    unfold keep in H. destruct (byte_eqb_spec d x20), (byte_eqb_spec d x09), (byte_eqb_spec d x0a), (byte_eqb_spec d x0d); try discriminate. repeat split; assumption. }
  destruct (spread_chars _ _ _ Sp I) as [J|[->|[->|[->| ->]]]]; try reflexivity.
  apply (b64encode_chars _ std_good) in J. destruct J as [J| ->]; [refine (A _ _ J); vm_compute; reflexivity|reflexivity].
Qed.
(** C78.  Saving a certificate and reading it gives it back; [parse] reads what it was made from. *)
Theorem C78_round_trip {Cert} (rawOf : Cert -> bytes) (parse : bytes -> option Cert) c :
  parse (rawOf c) = Some c -> pemToCertificate parse (certificateToPEM (rawOf c)) = Some c.
Proof.
  intros P. unfold pemToCertificate.
  assert (E : pemDecode ([] ++ certificateToPEM (rawOf c)) = Some (B "CERTIFICATE", rawOf c)).
  { apply C78_reads; [apply C78_writes|split; [intros r; discriminate|intros [|] r; discriminate]|left; reflexivity]. }
  cbn [app] in E. rewrite E. replace (beq (B "CERTIFICATE") certType) with true by reflexivity. exact P.
Qed.

(** ** What is accepted *)
(** A piece that ends at a line end *)
Definition lines (a : bytes) : Prop := a = [] \/ exists p, a = p ++ [x0a].
Lemma lines_app a b : lines a -> lines b -> lines (a ++ b).
Proof. intros A [->|[p ->]]; [rewrite app_nil_r; exact A|right; exists (a ++ p); apply app_assoc]. Qed.
Lemma ends_app a b : (exists p, a = p ++ [x0a]) -> lines b -> exists p, a ++ b = p ++ [x0a].
Proof. intros A [->|[p ->]]; [rewrite app_nil_r; exact A|exists (a ++ p); apply app_assoc]. Qed.
Lemma getLine_split d : exists e, d = fst (getLine d) ++ e ++ snd (getLine d) /\
  (snd (getLine d) = [] \/ exists p, e = p ++ [x0a]).
Proof.
  assert (T : forall l, exists e, l = trimRight l ++ e).
  { induction l as [|c l [e IH]]; [exists []; reflexivity|]. cbn. destruct (trimRight l) as [|x t'] eqn:E.
    - destruct (isBlank c); [exists (c :: l); reflexivity|exists l; reflexivity].
    - exists e. cbn [app]. f_equal. exact IH. }
  assert (D : forall l, exists e, l = dropCR l ++ e).
  { induction l as [|c l [e IH]]; [exists []; reflexivity|]. cbn [dropCR]. destruct l as [|x l].
    - destruct (Byte.eqb c x0d); [exists [c]|exists []]; reflexivity.
    - exists e. cbn [app]. f_equal. exact IH. }
  unfold getLine. destruct (cut [x0a] d) as [[l r]|] eqn:E; cbn [fst snd].
  - apply cut_some in E. destruct (D l) as [e1 E1]. destruct (T (dropCR l)) as [e2 E2].
    exists (e2 ++ e1 ++ [x0a]). split; [|right; exists (e2 ++ e1); apply app_assoc].
    rewrite E. rewrite E1 at 1. rewrite E2 at 1. rewrite <- !app_assoc. reflexivity.
  - destruct (T d) as [e1 E1]. exists e1. split; [rewrite app_nil_r; exact E1|left; reflexivity].
Qed.
Lemma skipHeaders_split f n d k r : skipHeaders f n d = Some (k, r) -> r <> [] /\ exists h, d = h ++ r /\ lines h.
Proof.
  revert n d. induction f as [|f IH]; intros n d; [discriminate|]. cbn [skipHeaders]. destruct d as [|c d]; [discriminate|].
  destruct (getLine (c :: d)) as [line next] eqn:G. destruct (existsb _ line).
  - intros H. destruct (IH _ _ H) as (Nr & h & E & Lh). split; [exact Nr|].
    destruct (getLine_split (c :: d)) as (e & S & En). rewrite G in S, En. cbn [fst snd] in S, En.
    exists (line ++ e ++ h). split; [rewrite S, E, <- !app_assoc; reflexivity|].
    destruct En as [En|[p ->]].
    + rewrite En in E. symmetry in E. apply app_eq_nil in E. destruct E as [_ E]. congruence.
    + rewrite app_assoc. apply lines_app; [right; exists (line ++ p); apply app_assoc|exact Lh].
  - intros H. assert (E : c :: d = r) by congruence. rewrite <- E. split; [discriminate|].
    exists []. split; [reflexivity|left; reflexivity].
Qed.
Lemma filter_spread b : spread (filter keep b) b.
Proof.
  induction b as [|c b IH]; [constructor|]. cbn. destruct (keep c) eqn:K; unfold keep in K;
    destruct (byte_eqb_spec c x20), (byte_eqb_spec c x09), (byte_eqb_spec c x0a), (byte_eqb_spec c x0d); try discriminate;
    first [apply sp_char; assumption|apply sp_gap; [auto|exact IH]].
Qed.
Lemma pem_accepted f rest typ raw : pemLoop f rest = Some (typ, raw) ->
  exists pre mid body txt t, rest = pre ++ pemBegin ++ typ ++ dashes ++ mid ++ body ++ pemEnd ++ typ ++ dashes ++ t /\
    lines pre /\ (exists q, mid ++ body = q ++ [x0a]) /\ spread txt body /\ b64Text stdAlphabet raw txt.
Proof.
  revert rest. induction f as [|f IH]; intros rest; [discriminate|]. cbn [pemLoop].
  destruct (if isPrefix pemBegin rest then _ else _) as [r1|] eqn:R1; [|discriminate].
  assert (E1 : exists pre, rest = pre ++ pemBegin ++ r1 /\ lines pre).
  { destruct (isPrefix pemBegin rest) eqn:P.
    - destruct (isPrefix_true _ _ P) as [x ->]. rewrite skipn_exact in R1. injection R1 as ->. exists []. split; [reflexivity|left; reflexivity].
    - destruct (cut _ rest) as [[p r]|] eqn:C; [|discriminate]. injection R1 as ->. apply cut_some in C.
      exists (p ++ [x0a]). split; [rewrite C, <- !app_assoc; reflexivity|right; exists p; reflexivity]. }
  clear R1. destruct E1 as (pre & E1 & Pr). destruct (getLine r1) as [line r2] eqn:G.
  destruct (getLine_split r1) as (e & E2 & En). rewrite G in E2, En. cbn [fst snd] in E2, En. clear G.
  assert (Later : forall a b, b <> [] -> r2 = a ++ b -> lines a -> pemLoop f b = Some (typ, raw) ->
    exists pre mid body txt t, rest = pre ++ pemBegin ++ typ ++ dashes ++ mid ++ body ++ pemEnd ++ typ ++ dashes ++ t /\
    lines pre /\ (exists q, mid ++ body = q ++ [x0a]) /\ spread txt body /\ b64Text stdAlphabet raw txt).
  { intros a b Nb E La H. destruct (IH _ H) as (pre' & mid & body & txt & t & E' & Lp & Lm & Sp & D).
    exists (pre ++ pemBegin ++ line ++ e ++ a ++ pre'), mid, body, txt, t. split; [|split; [|auto]].
    - rewrite E1, E2, E, E', <- !app_assoc. reflexivity.
    - destruct En as [En|[p ->]]; [rewrite En in E; symmetry in E; apply app_eq_nil in E; destruct E; congruence|].
      rewrite !app_assoc. apply lines_app; [|exact Lp]. apply lines_app; [|exact La].
      right. exists (((pre ++ pemBegin) ++ line) ++ p). rewrite <- !app_assoc. reflexivity. }
  assert (NoneNil : pemLoop f [] = None) by (destruct f; reflexivity).
  destruct (stripSuffix dashes line) as [ty|] eqn:SS.
  2:{ intros H. apply (Later [] r2); [intros ->; congruence|reflexivity|left; reflexivity|exact H]. }
  apply stripSuffix_some in SS.
  destruct (skipHeaders _ 0 r2) as [[n r3]|] eqn:SH; [|discriminate].
  destruct (skipHeaders_split _ _ _ _ _ SH) as (Nr3 & h & E3 & Lh). clear SH.
  destruct (findEnd n r3) as [[body tr]|] eqn:FE; [|apply (Later h r3); assumption].
  assert (E4 : exists nl, r3 = body ++ nl ++ pemEnd ++ tr /\ (nl = [x0a] \/ nl = [] /\ body = [])).
  { unfold findEnd in FE. destruct ((n =? 0)%nat && isPrefix pemEnd r3) eqn:P.
    - apply andb_prop in P. destruct P as [_ P]. destruct (isPrefix_true _ _ P) as [x ->]. rewrite skipn_exact in FE.
      injection FE as <- <-. exists []. split; [reflexivity|right; split; reflexivity].
    - apply cut_some in FE. exists [x0a]. split; [exact FE|left; reflexivity]. }
  clear FE. destruct E4 as (nl & E4 & Nl).
  destruct (isPrefix (ty ++ dashes) tr && _) eqn:T; [|apply (Later h r3); assumption].
  apply andb_prop in T. destruct T as [T _]. destruct (isPrefix_true _ _ T) as [t ->].
  destruct (decodeBody body) as [w|] eqn:DB; [|apply (Later h r3); assumption].
  intros H. assert (ty = typ) by congruence. assert (w = raw) by congruence. subst ty w. clear H.
  exists pre, (e ++ h), (body ++ nl), (filter keep (body ++ nl)), t. split; [|split; [exact Pr|split; [|split]]].
  - rewrite E1, E2, SS, E3, E4, <- !app_assoc. reflexivity.
  - destruct Nl as [->|[-> ->]]; [exists ((e ++ h) ++ body); apply app_assoc|].
    cbn [app]. rewrite app_nil_r. destruct En as [En|[p ->]]; [rewrite En in E3; symmetry in E3; apply app_eq_nil in E3; destruct E3; congruence|].
    apply ends_app; [exists p; reflexivity|exact Lh].
  - apply filter_spread.
  - unfold decodeBody in DB. rewrite filter_app. replace (filter keep nl) with (@nil byte) by (destruct Nl as [->|[-> _]]; reflexivity).
    rewrite app_nil_r. apply (b64decode_spec _ std_good). exact DB.
Qed.
(** C78.  A text is read as a certificate only if lines of it begin and end a CERTIFICATE block,
    and what [parse] is given is what the Base64 text before the end line stands for. *)
Theorem C78_accepts {Cert} (parse : bytes -> option Cert) p c : pemToCertificate parse p = Some c ->
  exists pre mid body txt t raw,
    p = pre ++ B "-----BEGIN CERTIFICATE-----" ++ mid ++ body ++ B "-----END CERTIFICATE-----" ++ t /\
    (pre = [] \/ exists q, pre = q ++ [x0a]) /\ (exists q, mid ++ body = q ++ [x0a]) /\
    spread txt body /\ b64Text stdAlphabet raw txt /\ parse raw = Some c.
Proof.
  unfold pemToCertificate. destruct (pemDecode p) as [[typ raw]|] eqn:D; [|discriminate].
  destruct (beq typ certType) eqn:E; [|discriminate]. rewrite beq_eq in E. subst typ. intros P.
  destruct (pem_accepted _ _ _ _ D) as (pre & mid & body & txt & t & E & Lp & Lm & Sp & Db).
  exists pre, mid, body, txt, t, raw. split; [exact E|]. split; [exact Lp|]. split; [exact Lm|auto].
Qed.

(** The fuel of the model is never used up: more makes no difference. *)
Lemma getLine_shorter d : d <> [] -> (length (snd (getLine d)) < length d)%nat.
Proof.
  intros N. unfold getLine. destruct (cut [x0a] d) as [[l r]|] eqn:E; cbn [snd].
  - apply cut_some in E. rewrite E, !app_length. cbn. lia.
  - destruct d; [congruence|cbn; lia].
Qed.
Lemma skipHeaders_fuel : forall f g n d, (length d < f)%nat -> (length d < g)%nat -> skipHeaders f n d = skipHeaders g n d.
Proof.
  induction f as [|f IH]; intros g n d Hf Hg; [lia|]. destruct g as [|g]; [lia|]. cbn [skipHeaders].
  destruct d as [|c d]; [reflexivity|]. pose proof (getLine_shorter (c :: d) ltac:(discriminate)) as S.
  destruct (getLine (c :: d)) as [line next]. cbn [snd length] in *. destruct (existsb _ line); [|reflexivity].
  apply IH; lia.
Qed.
Lemma pemLoop_fuel : forall f g d, (length d < f)%nat -> (length d < g)%nat -> pemLoop f d = pemLoop g d.
Proof.
  induction f as [|f IH]; intros g d Hf Hg; [lia|]. destruct g as [|g]; [lia|]. cbn [pemLoop].
  destruct (if isPrefix pemBegin d then _ else _) as [r1|] eqn:R1; [|reflexivity].
  assert (L1 : (length r1 < length d)%nat).
  { destruct (isPrefix pemBegin d) eqn:P.
    - destruct (isPrefix_true _ _ P) as [x ->]. rewrite skipn_exact in R1. injection R1 as ->. rewrite app_length. cbn. lia.
    - destruct (cut _ d) as [[p r]|] eqn:C; [|discriminate]. injection R1 as ->. apply cut_some in C.
      rewrite C, !app_length. cbn. lia. }
  destruct (getLine_split r1) as (e & E2 & _). destruct (getLine r1) as [line r2]. cbn [fst snd] in E2.
  assert (L2 : (length r2 < length d)%nat) by (apply (f_equal (@length _)) in E2; rewrite !app_length in E2; lia).
  destruct (stripSuffix dashes line); [|apply IH; lia].
  destruct (skipHeaders _ 0 r2) as [[n r3]|] eqn:SH; [|reflexivity].
  destruct (skipHeaders_split _ _ _ _ _ SH) as (_ & h & E3 & _).
  assert (L3 : (length r3 < length d)%nat) by (apply (f_equal (@length _)) in E3; rewrite !app_length in E3; lia).
  rewrite (IH g r3) by lia. reflexivity.
Qed.
(** C78.  A text without a line that begins a block holds no certificate. *)
Theorem C78_refuses {Cert} (parse : bytes -> option Cert) p : noBlock p -> pemToCertificate parse p = None.
Proof.
  intros [N1 N2]. destruct (pemToCertificate parse p) as [c|] eqn:E; [|reflexivity]. exfalso.
  destruct (C78_accepts _ _ _ E) as (pre & mid & body & txt & t & raw & -> & [->|[q ->]] & _).
  - apply (N1 (B "CERTIFICATE-----" ++ mid ++ body ++ B "-----END CERTIFICATE-----" ++ t)). reflexivity.
  - apply (N2 q (B "CERTIFICATE-----" ++ mid ++ body ++ B "-----END CERTIFICATE-----" ++ t)). rewrite <- app_assoc. reflexivity.
Qed.
Theorem C78_fuel p n : (length p < n)%nat -> pemLoop n p = pemDecode p.
Proof. intros L. apply pemLoop_fuel; lia. Qed.

(** ** enrolled.json *)
Lemma valid_ascii s : (forall c, In c s -> (Byte.to_N c < 128)%N) -> validUtf8 s.
Proof.
  intros H. exists (map Byte.to_N s). split.
  - apply Forall_forall. intros c I. apply in_map_iff in I. destruct I as (b & <- & I). specialize (H _ I). left. lia.
  - induction s as [|c s IH]; [reflexivity|]. cbn [map flat_map]. rewrite utf8_ascii by (apply H; left; reflexivity).
    rewrite byteOf_to_N. cbn [app]. f_equal. apply IH. intros d I. apply H. right. exact I.
Qed.
(** C78.  The table of issuers survives saving and loading, in PEM inside JSON: the only
    condition is that the parser of certificates reads what a certificate was made from. *)
Theorem C78_issuers_file (Cert : Type) (sha256 : bytes -> bytes) (spki rawSubject subject rawOf : Cert -> bytes) (parse : bytes -> option Cert) xs order :
  (forall c, parse (rawOf c) = Some c) ->
  let toPEM c := certificateToPEM (rawOf c) in
  let m := fold_left (ins Cert sha256 spki) xs emptyMoz in
  Permutation order (m_issuers m) ->
  let '(m', ok) := loadEnrolled Cert sha256 spki (pemToCertificate parse) decodeFile emptyMoz
                     (Some (saveIssuers Cert sha256 spki rawSubject subject toPEM encodeFile order)) in
  ok = true /\ forall i, alookup i (m_issuers m') = alookup i (m_issuers m) /\ crlsOf (m_crls m') i = [].
Proof.
  intros P toPEM m PM. apply (C77_issuers_file Cert sha256 spki rawSubject subject toPEM (pemToCertificate parse)).
  - intros c. apply C78_round_trip, P.
  - intros c. apply valid_ascii. intros d. apply C78_ascii.
  - exact PM.
Qed.

(** ** Examples *)
(** 54 bytes make 72 characters: a line of 64 and one of 8. *)
Definition exRaw : bytes := map (fun n => byteOf (N.of_nat n * 5)) (seq 0 49) ++ B "\x00-:!".
Example C78_ex_written : certificateToPEM exRaw =
  B "-----BEGIN CERTIFICATE-----" ++ [x0a] ++ B "AAUKDxQZHiMoLTI3PEFGS1BVWl9kaW5zeH2Ch4yRlpugpaqvtLm+w8jN0tfc4ebr" ++ [x0a] ++
  B "8Fx4MDAtOiE=" ++ [x0a] ++ B "-----END CERTIFICATE-----".
Proof. vm_compute. reflexivity. Qed.
(** Other line ends and lengths, blanks, text before and after *)
Definition exForeign : bytes :=
  B "-----BEGIN CERTIFICATE----- " ++ [x0d; x0a] ++ B "AAUKDxQZHiMoLTI3PEFGS1BVWl9kaW5zeH2Ch4yRlpugpaqvtLm+w8jN0tfc" ++ [x0d; x0a] ++
  B "4ebr 8Fx4MDAtOiE=" ++ [x0d; x0a] ++ B "-----END CERTIFICATE-----" ++ [x0d; x0a] ++ B "subject: next".
Example C78_ex_meets : pemText exRaw exForeign /\ noBlock (B "issuer: a -----BEGIN b" ++ [x0a]).
Proof.
  split.
  - exists [x20; x0d; x0a], (b64encode stdAlphabet exRaw), (B "AAUKDxQZHiMoLTI3PEFGS1BVWl9kaW5zeH2Ch4yRlpugpaqvtLm+w8jN0tfc" ++ [x0d; x0a] ++ B "4ebr 8Fx4MDAtOiE=" ++ [x0d; x0a]),
      ([x0d; x0a] ++ B "subject: next"). repeat apply conj.
    + exists [x20]. split; [repeat constructor|right; reflexivity].
    + right. exists [x0d; x0a], (B "subject: next"). split; [exists []; split; [constructor|right; reflexivity]|reflexivity].
    + apply b64encode_text. exact std_good.
    + match goal with |- spread ?a ?b => let v := eval vm_compute in a in let w := eval vm_compute in b in change (spread v w) end.
      repeat first [apply sp_nil|apply sp_char; [discriminate|discriminate|discriminate|discriminate|]|apply sp_gap; [auto 5|]].
    + right. eexists (B "AAUKDxQZHiMoLTI3PEFGS1BVWl9kaW5zeH2Ch4yRlpugpaqvtLm+w8jN0tfc" ++ [x0d; x0a] ++ B "4ebr 8Fx4MDAtOiE=" ++ [x0d]). reflexivity.
    + reflexivity.
  - split; [intros r; discriminate|]. intros a r E.
    assert (C : cut (x0a :: B "-----BEGIN ") (B "issuer: a -----BEGIN b" ++ [x0a]) = None) by reflexivity.
    apply (cut_none _ _ C a r). exact E.
Qed.
Example C78_ex_read : pemDecode (B "issuer: a -----BEGIN b" ++ [x0a] ++ exForeign) = Some (B "CERTIFICATE", exRaw).
Proof. vm_compute. reflexivity. Qed.
Example C78_ex_refused :
  pemToCertificate Some (B "-----BEGIN X509 CRL-----" ++ [x0a] ++ B "AAUK" ++ [x0a] ++ B "-----END X509 CRL-----") = None /\
  pemToCertificate Some (B "-----BEGIN CERTIFICATE-----" ++ [x0a] ++ B "AAU!" ++ [x0a] ++ B "-----END CERTIFICATE-----") = None /\
  pemToCertificate Some (B "-----BEGIN CERTIFICATE-----" ++ [x0a] ++ B "AAUK" ++ [x0a] ++ B "-----END CERTIFICATE----- x") = None /\
  pemToCertificate Some (B "AAUK") = None.
Proof. vm_compute. auto. Qed.
(** A table of two issuers, one with two certificates, goes through the file. *)
Example C78_ex_file :
  let spki (c : bytes) := firstn 1 c in
  let m := fold_left (ins bytes (fun x => x) spki) [(B "k1", [B "u"], true); (B "l2", [], false); (B "k3", [B "v"], false)] emptyMoz in
  let toPEM c := certificateToPEM c in
  let '(m', ok) := loadEnrolled bytes (fun x => x) spki (pemToCertificate Some) decodeFile emptyMoz
     (Some (saveIssuers bytes (fun x => x) spki (fun c => c) (fun c => xff :: c) toPEM encodeFile (rev (m_issuers m)))) in
  Permutation (rev (m_issuers m)) (m_issuers m) /\ ok = true /\ alookup (issuerID (B "k")) (m_issuers m') = Some (mkData [B "k1"; B "k3"] true).
Proof.
  assert (E : forall A (x : A * bool) (P : Prop) (Q : A -> Prop), P -> snd x = true -> Q (fst x) -> let '(a, ok) := x in P /\ ok = true /\ Q a) by (intros A [a ok] P Q; cbn; auto).
  apply (E _ _ _ (fun m' => alookup (issuerID (B "k")) (m_issuers m') = Some (mkData [B "k1"; B "k3"] true))).
  - symmetry. apply Permutation_rev.
  - vm_compute. reflexivity.
  - vm_compute. reflexivity.
Qed.

Print Assumptions C78_reads.
Print Assumptions C78_writes.
Print Assumptions C78_ascii.
Print Assumptions C78_round_trip.
Print Assumptions C78_accepts.
Print Assumptions C78_refuses.
Print Assumptions C78_fuel.
Print Assumptions C78_issuers_file.
