(** * The parser of JsonModel.v sees only what it reads (for P_Json.v) *)
From Verif Require Import Base SerialModel SerialProofs TimeModel QueryModel PublishModel JsonModel JsonSpec JsonProofs.
From Coq Require Import Strings.Byte.
Local Open Scope N_scope.

Lemma skipWs_more b c r q : skipWs b = c :: r -> skipWs (b ++ q) = c :: r ++ q.
Proof.
  induction b as [|d b IH]; [discriminate|]. cbn [skipWs app]. destruct (isWs d); [exact IH|].
  intros E. assert (d = c) by congruence. assert (b = r) by congruence. subst. reflexivity.
Qed.
Lemma skipWs_nonempty b : skipWs b <> [] -> exists c r, skipWs b = c :: r.
Proof. destruct (skipWs b) as [|c r]; [congruence|]. intros _. exists c, r. reflexivity. Qed.
Lemma consed_some l o t r : consed l o = Some (t, r) -> exists t', o = Some (t', r) /\ t = l ++ t'.
Proof. destruct o as [[a b]|]; [|discriminate]. cbn. intros E. assert (b = r) by congruence. assert (l ++ a = t) by congruence. subst. exists a. split; reflexivity. Qed.
Lemma scanStr_more : forall n b t r q, (length b <= n)%nat -> scanStr b = Some (t, r) -> scanStr (b ++ q) = Some (t, r ++ q).
Proof.
  induction n as [|n IH]; intros b t r q L E; [destruct b; [discriminate|cbn in L; lia]|].
  destruct b as [|x b]; [discriminate|]. cbn [length] in L. cbn [scanStr app] in *.
  destruct (Byte.to_N x =? 34); [assert (t = []) by congruence; assert (b = r) by congruence; subst; reflexivity|].
  destruct (Byte.to_N x =? 92).
  - destruct b as [|c b]; [discriminate|]. cbn [app length] in *. destruct (Byte.to_N c =? 117).
    + destruct b as [|h1 [|h2 [|h3 [|h4 b]]]]; try discriminate. cbn [app length] in *. destruct (_ && isHex h4); [|discriminate].
      apply consed_some in E. destruct E as (t' & E & ->). rewrite (IH b t' r q) by (exact E || lia). reflexivity.
    + destruct (isEsc c); [|discriminate]. apply consed_some in E. destruct E as (t' & E & ->). rewrite (IH b t' r q) by (exact E || lia). reflexivity.
  - destruct (Byte.to_N x <? 32); [discriminate|]. apply consed_some in E. destruct E as (t' & E & ->). rewrite (IH b t' r q) by (exact E || lia). reflexivity.
Qed.
Lemma lit_more w v b u r q : lit w v b = Some (u, r) -> lit w v (b ++ q) = Some (u, r ++ q).
Proof.
  unfold lit. destruct (beq (firstn (length w) b) w) eqn:E; [|discriminate]. intros H.
  rewrite beq_eq in E. assert (L : (length w <= length b)%nat) by (rewrite <- E at 1; rewrite firstn_length; lia).
  rewrite firstn_app. replace (length w - length b)%nat with 0%nat by lia. cbn [firstn]. rewrite app_nil_r, E, beq_refl.
  rewrite skipn_app. replace (length w - length b)%nat with 0%nat by lia. cbn [skipn].
  assert (skipn (length w) b = r) by congruence. assert (v = u) by congruence. subst. reflexivity.
Qed.
Lemma takeDigits_more b d c r q : takeDigits b = (d, c :: r) -> takeDigits (b ++ q) = (d, c :: r ++ q).
Proof.
  revert d. induction b as [|x b IH]; intros d; [discriminate|]. cbn [takeDigits app]. destruct (isDigit x).
  - destruct (takeDigits b) as [d' r'] eqn:T. intros E. assert (r' = c :: r) by congruence. subst r'. assert (d = x :: d') by congruence. subst d. rewrite (IH d' eq_refl). reflexivity.
  - intros E. assert (d = []) by congruence. assert (x :: b = c :: r) by congruence. assert (x = c) by congruence. assert (b = r) by congruence. subst. reflexivity.
Qed.
Lemma oneOf_more l b q : b <> [] -> oneOf l (b ++ q) = (fst (oneOf l b), snd (oneOf l b) ++ q).
Proof. destruct b as [|c b]; [congruence|]. intros _. cbn. destruct (existsb _ l); reflexivity. Qed.
Lemma takeDigits_rest b d r : takeDigits b = (d, r) -> b = d ++ r.
Proof.
  revert d. induction b as [|x b IH]; intros d; cbn [takeDigits]; [intros E; assert (d = []) by congruence; assert (r = []) by congruence; subst; reflexivity|].
  destruct (isDigit x); [|intros E; assert (d = []) by congruence; assert (r = x :: b) by congruence; subst; reflexivity].
  destruct (takeDigits b) as [d' r'] eqn:T. intros E. assert (d = x :: d') by congruence. assert (r' = r) by congruence. subst. cbn. f_equal. apply IH. reflexivity.
Qed.
Lemma oneOf_rest l b : b = fst (oneOf l b) ++ snd (oneOf l b).
Proof. destruct b as [|c b]; [reflexivity|]. cbn. destruct (existsb _ l); reflexivity. Qed.
Lemma scanNum_more b t c r q : scanNum b = Some (t, c :: r) -> scanNum (b ++ q) = Some (t, c :: r ++ q).
Proof.
  unfold scanNum. destruct b as [|x b]; [discriminate|]. rewrite oneOf_more by discriminate.
  destruct (oneOf [45] (x :: b)) as [sg b1]. cbn [fst snd]. destruct (takeDigits b1) as [[|k d] r1] eqn:T; [discriminate|].
  pose proof (takeDigits_rest _ _ _ T) as Eb. intros H.
  assert (X : exists k' r', takeDigits (b1 ++ q) = (k :: d ++ k', r') /\ (k' ++ r' = r1 ++ q) /\ (r1 <> [] -> k' = [] /\ r' = r1 ++ q)).
  { destruct r1 as [|y r1].
    - rewrite app_nil_r in Eb. subst b1. clear -T. 
      assert (G : forall a rr, takeDigits a = (a, []) -> takeDigits (a ++ rr) = (a ++ fst (takeDigits rr), snd (takeDigits rr))).
      { induction a as [|z a IH]; intros rr E; [cbn; destruct (takeDigits rr); reflexivity|]. cbn [takeDigits app] in *.
        destruct (isDigit z); [|discriminate]. destruct (takeDigits a) as [a1 r1] eqn:Ta. assert (a1 = a) by congruence. assert (r1 = []) by congruence. subst.
        rewrite (IH rr eq_refl). reflexivity. }
      exists (fst (takeDigits q)), (snd (takeDigits q)). rewrite G by exact T. split; [reflexivity|]. split; [|congruence].
      cbn [app]. symmetry. apply takeDigits_rest. destruct (takeDigits q); reflexivity.
    - exists [], (y :: r1 ++ q). rewrite (takeDigits_more _ _ _ _ q T), app_nil_r. split; [reflexivity|]. split; [reflexivity|]. intros _. split; reflexivity. }
  destruct X as (k' & r' & -> & Ek & Er). destruct (Byte.to_N k =? 48) eqn:K0.
  - assert (Ed : (d ++ k') ++ r' = (d ++ r1) ++ q) by (rewrite <- !app_assoc; f_equal; exact Ek). rewrite Ed.
    destruct (d ++ r1) as [|y r2] eqn:E2; [cbn in H; congruence|]. rewrite oneOf_more by discriminate.
    destruct (oneOf [46] (y :: r2)) as [[|p ps] r3]; cbn [fst snd].
    + assert (A1 : sg ++ [k] = t) by congruence. assert (A2 : y :: r2 = c :: r) by congruence. change (c :: r ++ q) with ((c :: r) ++ q). rewrite <- A2, <- A1. reflexivity.
    + destruct (takeDigits r3) as [[|f fs] r4] eqn:T3; [discriminate|]. assert (r4 = c :: r) by congruence. subst r4.
      rewrite (takeDigits_more _ _ _ _ q T3). match type of H with Some (?a, _) = Some (?b, _) => assert (A1 : a = b) by congruence end. rewrite <- A1. reflexivity.
  - destruct r1 as [|y r1]; [cbn in H; congruence|]. destruct (Er ltac:(discriminate)) as [-> ->]. rewrite app_nil_r, oneOf_more by discriminate.
    destruct (oneOf [46] (y :: r1)) as [[|p ps] r3]; cbn [fst snd].
    + assert (A1 : sg ++ k :: d = t) by congruence. assert (A2 : y :: r1 = c :: r) by congruence. change (c :: r ++ q) with ((c :: r) ++ q). rewrite <- A2, <- A1. reflexivity.
    + destruct (takeDigits r3) as [[|f fs] r4] eqn:T3; [discriminate|]. assert (r4 = c :: r) by congruence. subst r4.
      rewrite (takeDigits_more _ _ _ _ q T3). match type of H with Some (?a, _) = Some (?b, _) => assert (A1 : a = b) by congruence end. rewrite <- A1. reflexivity.
Qed.
Lemma number_more b t c r q : scanExp (scanNum b) = Some (t, c :: r) -> scanExp (scanNum (b ++ q)) = Some (t, c :: r ++ q).
Proof.
  destruct (scanNum b) as [[t1 [|y r1]]|] eqn:S; [cbn; congruence| |discriminate]. rewrite (scanNum_more _ _ _ _ q S). cbn [scanExp].
  change (y :: r1 ++ q) with ((y :: r1) ++ q). rewrite oneOf_more by discriminate.
  destruct (oneOf [69; 101] (y :: r1)) as [[|e es] r2]; cbn [fst snd]; [intros H; assert (A2 : y :: r1 = c :: r) by congruence; change (c :: r ++ q) with ((c :: r) ++ q); rewrite <- A2; assert (A1 : t1 = t) by congruence; rewrite A1; reflexivity|].
  destruct r2 as [|z r2]; [discriminate|]. rewrite oneOf_more by discriminate. destruct (oneOf [43; 45] (z :: r2)) as [s r3]. cbn [fst snd].
  destruct (takeDigits r3) as [[|f fs] r4] eqn:T3; [discriminate|]. intros H. assert (r4 = c :: r) by congruence. subst r4.
  rewrite (takeDigits_more _ _ _ _ q T3). match type of H with Some (?a, _) = Some (?b, _) => assert (A1 : a = b) by congruence end. rewrite <- A1. reflexivity.
Qed.

Definition notNum (v : json) : Prop := match v with JNum _ => False | _ => True end.
Theorem parse_more : forall f,
  (forall b v r q, value f b = Some (v, r) -> notNum v \/ r <> [] -> value f (b ++ q) = Some (v, r ++ q)) /\
  (forall b l r q, elems f b = Some (l, r) -> elems f (b ++ q) = Some (l, r ++ q)) /\
  (forall b l r q, members f b = Some (l, r) -> members f (b ++ q) = Some (l, r ++ q)).
Proof.
  induction f as [|f (IHv & IHe & IHm)]; [repeat split; discriminate|]. split; [|split].
  - intros b v r q E N. destruct b as [|c b]; [discriminate|]. cbn [value app] in *. cbv zeta in *.
    destruct (Byte.to_N c =? 123).
    { destruct (skipWs b) as [|d r1] eqn:S; [discriminate|]. rewrite (skipWs_more _ _ _ q S). destruct (Byte.to_N d =? 125); [injection E as <- <-; reflexivity|].
      destruct (members f b) as [[l r2]|] eqn:M; [|discriminate]. rewrite (IHm _ _ _ q M). injection E as <- <-. reflexivity. }
    destruct (Byte.to_N c =? 91).
    { destruct (skipWs b) as [|d r1] eqn:S; [discriminate|]. rewrite (skipWs_more _ _ _ q S). destruct (Byte.to_N d =? 93); [injection E as <- <-; reflexivity|].
      destruct (elems f b) as [[l r2]|] eqn:M; [|discriminate]. rewrite (IHe _ _ _ q M). injection E as <- <-. reflexivity. }
    destruct (Byte.to_N c =? 34).
    { destruct (scanStr b) as [[t r1]|] eqn:S; [|discriminate]. rewrite (scanStr_more _ _ _ _ q (le_n _) S). injection E as <- <-. reflexivity. }
    destruct (Byte.to_N c =? 110); [apply (lit_more _ _ (c :: b)); exact E|].
    destruct (Byte.to_N c =? 116); [apply (lit_more _ _ (c :: b)); exact E|].
    destruct (Byte.to_N c =? 102); [apply (lit_more _ _ (c :: b)); exact E|].
    destruct (scanExp (scanNum (c :: b))) as [[t r1]|] eqn:S; [|discriminate]. assert (v = JNum t) by congruence. assert (r1 = r) by congruence. subst.
    destruct N as [[]|N]. destruct r as [|d r]; [congruence|]. pose proof (number_more _ _ _ _ q S) as S2. cbn [app] in S2 |- *. rewrite S2. reflexivity.
  - intros b l r q E. cbn [elems] in *. destruct (value f (skipWs b)) as [[v r1]|] eqn:V; [|discriminate].
    destruct (skipWs r1) as [|d r2] eqn:S; [discriminate|].
    assert (Nr : r1 <> []) by (intros ->; discriminate S).
    assert (Nb : exists c0 b0, skipWs b = c0 :: b0) by (destruct (skipWs b) as [|c0 b0]; [destruct f; discriminate V|exists c0, b0; reflexivity]).
    destruct Nb as (c0 & b0 & Sb). rewrite (skipWs_more _ _ _ q Sb). rewrite Sb in V. pose proof (IHv _ _ _ q V (or_intror Nr)) as V2. cbn [app] in V2. rewrite V2.
    rewrite (skipWs_more _ _ _ q S). destruct (Byte.to_N d =? 44).
    + destruct (elems f r2) as [[l2 r3]|] eqn:M; [|discriminate]. rewrite (IHe _ _ _ q M). injection E as <- <-. reflexivity.
    + destruct (Byte.to_N d =? 93); [injection E as <- <-; reflexivity|discriminate].
  - intros b l r q E. cbn [members] in *. destruct (skipWs b) as [|qt b1] eqn:Sb; [discriminate|]. rewrite (skipWs_more _ _ _ q Sb).
    destruct (Byte.to_N qt =? 34); [|discriminate]. destruct (scanStr b1) as [[t r0]|] eqn:S0; [|discriminate]. rewrite (scanStr_more _ _ _ _ q (le_n _) S0).
    destruct (skipWs r0) as [|c r1] eqn:S1; [discriminate|]. rewrite (skipWs_more _ _ _ q S1). destruct (Byte.to_N c =? 58); [|discriminate].
    destruct (value f (skipWs r1)) as [[v r2]|] eqn:V; [|discriminate]. cbv zeta in *. destruct (skipWs r2) as [|d r3] eqn:S; [discriminate|].
    assert (Nr : r2 <> []) by (intros ->; discriminate S).
    assert (Nb : exists c0 b0, skipWs r1 = c0 :: b0) by (destruct (skipWs r1) as [|c0 b0]; [destruct f; discriminate V|exists c0, b0; reflexivity]).
    destruct Nb as (c0 & b0 & Sr). rewrite (skipWs_more _ _ _ q Sr). rewrite Sr in V. pose proof (IHv _ _ _ q V (or_intror Nr)) as V2. cbn [app] in V2. rewrite V2.
    rewrite (skipWs_more _ _ _ q S). destruct (Byte.to_N d =? 44).
    + destruct (members f r3) as [[l2 r4]|] eqn:M; [|discriminate]. rewrite (IHm _ _ _ q M). injection E as <- <-. reflexivity.
    + destruct (Byte.to_N d =? 125); [injection E as <- <-; reflexivity|discriminate].
Qed.
Theorem parse_fuel : forall f,
  (forall g b x, (f <= g)%nat -> value f b = Some x -> value g b = Some x) /\
  (forall g b x, (f <= g)%nat -> elems f b = Some x -> elems g b = Some x) /\
  (forall g b x, (f <= g)%nat -> members f b = Some x -> members g b = Some x).
Proof.
  induction f as [|f (IHv & IHe & IHm)]; [repeat split; discriminate|].
  split; [|split]; intros g b x L E; (destruct g as [|g]; [lia|]); assert (L2 : (f <= g)%nat) by lia.
  - destruct b as [|c b]; [discriminate|]. cbn [value] in *. cbv zeta in *.
    destruct (Byte.to_N c =? 123).
    { destruct (skipWs b) as [|d r1]; [discriminate|]. destruct (Byte.to_N d =? 125); [exact E|].
      destruct (members f b) as [y|] eqn:M; [|discriminate]. rewrite (IHm g _ _ L2 M). exact E. }
    destruct (Byte.to_N c =? 91); [|exact E].
    destruct (skipWs b) as [|d r1]; [discriminate|]. destruct (Byte.to_N d =? 93); [exact E|].
    destruct (elems f b) as [y|] eqn:M; [|discriminate]. rewrite (IHe g _ _ L2 M). exact E.
  - cbn [elems] in *. destruct (value f (skipWs b)) as [[v r1]|] eqn:V; [|discriminate]. rewrite (IHv g _ _ L2 V).
    destruct (skipWs r1) as [|d r2]; [discriminate|]. destruct (Byte.to_N d =? 44); [|exact E].
    destruct (elems f r2) as [y|] eqn:M; [|discriminate]. rewrite (IHe g _ _ L2 M). exact E.
  - cbn [members] in *. destruct (skipWs b) as [|qt b1]; [discriminate|]. destruct (Byte.to_N qt =? 34); [|discriminate].
    destruct (scanStr b1) as [[t r0]|]; [|discriminate]. destruct (skipWs r0) as [|c r1]; [discriminate|]. destruct (Byte.to_N c =? 58); [|discriminate].
    destruct (value f (skipWs r1)) as [[v r2]|] eqn:V; [|discriminate]. rewrite (IHv g _ _ L2 V). cbv zeta in *.
    destruct (skipWs r2) as [|d r3]; [discriminate|]. destruct (Byte.to_N d =? 44); [|exact E].
    destruct (members f r3) as [y|] eqn:M; [|discriminate]. rewrite (IHm g _ _ L2 M). exact E.
Qed.
