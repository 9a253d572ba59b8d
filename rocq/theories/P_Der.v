(** * Property C76: serial numbers are the contents octets of the DER encoding, in
    certificates and in CRLs alike.

    Model: DerModel.v (the decoder), AggModel.v ([processCRL]). *)
From Verif Require Import Base SerialModel SerialProofs AggModel LeafModel P_Leaf DerModel.

Local Open Scope N_scope.

(** ** The encoding, after X.690 *)

(** The value of digits, the most significant one first. *)
Definition number (base : N) (ds : list N) : N := fold_left (fun a d => a * base + d) ds 0.

(** 8.1.2.4: a tag number of 31 or more (and the numbers of an object identifier, 8.19.2):
    seven bits in each octet, all but the last with the top bit, none superfluous. *)
Definition digits128 (n : N) (ds : bytes) : Prop :=
  exists init last, ds = init ++ [last] /\ Forall (fun x => 128 <= Byte.to_N x) init /\ Byte.to_N last < 128 /\
    hd_error ds <> Some x80 /\ n = number 128 (map (fun x => Byte.to_N x mod 128) ds) /\ n < 2 ^ 31.
(** 8.1.2: class, constructed or not, tag number *)
Definition tagOf (c : N) (k : bool) (t : N) (i : bytes) : Prop :=
  c < 4 /\
  ((t < 31 /\ i = [byteOf (64 * c + (if k then 32 else 0) + t)]) \/
   (31 <= t /\ exists ds, digits128 t ds /\ i = byteOf (64 * c + (if k then 32 else 0) + 31) :: ds)).
(** 8.1.3, 10.1: a definite length in as few octets as possible *)
Definition lenOf (n : N) (l : bytes) : Prop :=
  (n < 128 /\ l = [byteOf n]) \/
  (128 <= n < 2 ^ 31 /\ exists ds, l = byteOf (128 + N.of_nat (length ds)) :: ds /\
     n = number 256 (map Byte.to_N ds) /\ hd_error ds <> Some x00).
(** [e] is an element with the contents [s]. *)
Definition element (c : N) (k : bool) (t : N) (s e : bytes) : Prop :=
  exists i l, tagOf c k t i /\ lenOf (N.of_nat (length s)) l /\ e = i ++ l ++ s.
(** [b] begins with the tag and length of an element of class [c] etc. *)
Definition begins (c : N) (k : bool) (t n : N) (b r : bytes) : Prop :=
  exists i l, tagOf c k t i /\ lenOf n l /\ b = i ++ l ++ r.

(** *** Certificates *)

(** [b] is a TBSCertificate with the serial number [s]: a SEQUENCE that begins with an
    optional explicit version and the serial number. *)
Inductive tbsSays : bytes -> bytes -> Prop :=
| tbs_version k v ev c k' t s es more e trail :
    element 2 k 0 v ev -> k = true \/ v = [] -> element c k' t s es ->
    element 0 true 16 (ev ++ es ++ more) e -> tbsSays (e ++ trail) s
| tbs_plain c k t s es more e trail :
    element c k t s es -> ~ (c = 2 /\ t = 0 /\ (k = true \/ s = [])) -> s <> [] \/ more <> [] ->
    element 0 true 16 (es ++ more) e -> tbsSays (e ++ trail) s.

(** *** CRLs *)

(** An optional element of a universal type: there, or something else or nothing is. *)
Inductive maybe {A} (comp : bool) (tag : N) (P : bytes -> A -> Prop) : bytes -> option A -> bytes -> Prop :=
| maybe_there s a e r : element 0 comp tag s e -> P s a -> maybe comp tag P (e ++ r) (Some a) r
| maybe_end : maybe comp tag P [] None []
| maybe_other c k t n b r : begins c k t n b r -> ~ (c = 0 /\ k = comp /\ t = tag) -> maybe comp tag P b None b.

Inductive listSays {A} (P : bytes -> A -> Prop) : bytes -> list A -> Prop :=
| list_nil : listSays P [] []
| list_cons s a e b l : element 0 true 16 s e -> P s a -> listSays P b l -> listSays P (e ++ b) (a :: l).

Definition integer (b : bytes) : Prop :=
  b <> [] /\ (length b <= 8)%nat /\
  ~ (exists y r, b = x00 :: y :: r /\ Byte.to_N y < 128) /\ ~ (exists y r, b = xff :: y :: r /\ 128 <= Byte.to_N y).
Definition validOID (id : bytes) : Prop :=
  id <> [] /\ exists ns dss, Forall2 digits128 ns dss /\ id = concat dss.
(** id-ce-cRLReasons, 2.5.29.21 *)
Definition reasonId : bytes := [x55; x1d; x15].
(** An ENUMERATED with a value from 0 to 255 *)
Definition enumIs (v : bytes) (n : N) : Prop :=
  n < 256 /\ exists e more, element 0 false 10 (if n <? 128 then [byteOf n] else [x00; byteOf n]) e /\ v = e ++ more.

Definition extSays (b : bytes) (x : bytes * bytes) : Prop :=
  exists eid ec ev more, b = eid ++ ec ++ ev ++ more /\ element 0 false 6 (fst x) eid /\ validOID (fst x) /\
    (ec = [] \/ exists y, element 0 false 1 [y] ec /\ (y = x00 \/ y = xff)) /\ element 0 false 4 (snd x) ev.
(** The reason of an entry: at most one extension gives one. *)
Definition reasonIs (exts : list (bytes * bytes)) (n : N) : Prop :=
  ((forall v, ~ In (reasonId, v) exts) /\ n = 0) \/
  exists x v y, exts = x ++ (reasonId, v) :: y /\ (forall w, ~ In (reasonId, w) (x ++ y)) /\ enumIs v n.

Section Crl.
  Variable timeOk : N -> bytes -> bool.
  Definition isDate (e : bytes) : Prop :=
    exists t s, (t = 23 \/ t = 24) /\ element 0 false t s e /\ timeOk t s = true.
  Definition noDate (b : bytes) : Prop :=
    b = [] \/ exists c k t n r, begins c k t n b r /\ ~ (c = 0 /\ k = false /\ (t = 23 \/ t = 24)).

  Definition entrySays (b : bytes) (x : bytes * N) : Prop :=
    exists c k t es et b' exts r, b = es ++ et ++ b' /\ element c k t (fst x) es /\ isDate et /\
      maybe true 16 (listSays extSays) b' exts r /\ reasonIs (match exts with Some l => l | None => [] end) (snd x).

  (** [b] is a TBSCertList with the entries [l]. *)
  Definition crlSays (b : bytes) (l : list (bytes * N)) : Prop :=
    exists e trail b0 v b1 c1 k1 t1 s1 e1 c2 k2 t2 s2 e2 e3 e4 b5 o r,
      b = e ++ trail /\ element 0 true 16 b0 e /\
      maybe false 2 (fun s (v : bytes) => integer s /\ v = s) b0 v b1 /\
      element c1 k1 t1 s1 e1 /\ element c2 k2 t2 s2 e2 /\ isDate e3 /\
      b1 = e1 ++ e2 ++ e3 ++ e4 ++ b5 /\
      (isDate e4 \/ e4 = [] /\ noDate b5) /\
      maybe true 16 (listSays entrySays) b5 o r /\
      l = match o with Some l => l | None => [] end.
End Crl.

(** ** Numbers *)
Lemma fold_number base ds : forall a,
  fold_left (fun a d => a * base + d) ds a = a * base ^ N.of_nat (length ds) + number base ds.
Proof.
  unfold number. induction ds as [|d ds IH]; intros a; cbn [fold_left length].
  - change (base ^ N.of_nat 0) with 1. lia.
  - rewrite IH, (IH (0 * base + d)). rewrite Nat2N.inj_succ, N.pow_succ_r'.
    generalize (fold_left (fun a d => a * base + d) ds 0) (base ^ N.of_nat (length ds)). intros x y. lia.
Qed.

Lemma base128_iff k : forall first acc b n r,
  base128 k first acc b = Some (n, r) <->
  exists init last, b = init ++ last :: r /\ (length init < k)%nat /\ Forall (fun x => 128 <= Byte.to_N x) init /\
    Byte.to_N last < 128 /\ (first = true -> hd_error (init ++ [last]) <> Some x80) /\
    n = fold_left (fun a d => a * 128 + d) (map (fun x => Byte.to_N x mod 128) (init ++ [last])) acc /\ n < 2 ^ 31.
Proof.
  induction k as [|k IH]; intros first acc b n r.
  { split; [discriminate|]. intros (init & last & _ & H & _). lia. }
  split.
  - cbn [base128]. destruct b as [|x b]; [discriminate|].
    destruct (first && (Byte.to_N x =? 128)) eqn:F; [discriminate|].
    assert (Fx : first = true -> x <> x80).
    { intros -> ->. discriminate F. }
    destruct (N.ltb_spec (Byte.to_N x) 128) as [L|L].
    + destruct (N.ltb_spec 2147483647 (acc * 128 + Byte.to_N x mod 128)) as [G|G]; [discriminate|].
      intros E. injection E as <- <-. exists [], x. cbn [app length map fold_left hd_error].
      split; [reflexivity|]. split; [lia|]. split; [constructor|]. split; [exact L|]. split.
      { intros Ft. specialize (Fx Ft). congruence. }
      split; [reflexivity|]. change (2 ^ 31) with 2147483648. lia.
    + intros E. apply IH in E. destruct E as (init & last & -> & Li & Fi & La & _ & En & Ln).
      exists (x :: init), last. cbn [app length map fold_left hd_error]. repeat split; try assumption; try lia.
      * constructor; assumption.
      * intros Ft. specialize (Fx Ft). congruence.
  - intros (init & last & -> & Li & Fi & La & Hh & En & Ln). destruct init as [|x init]; cbn [app length map fold_left hd_error] in *.
    + cbn [base128]. destruct (first && (Byte.to_N last =? 128)) eqn:F.
      { apply andb_true_iff in F. destruct F as [_ F]. apply N.eqb_eq in F. lia. }
      destruct (N.ltb_spec (Byte.to_N last) 128) as [L|L]; [|lia].
      destruct (N.ltb_spec 2147483647 (acc * 128 + Byte.to_N last mod 128)) as [G|G].
      { change (2 ^ 31) with 2147483648 in Ln. lia. }
      rewrite En. reflexivity.
    + cbn [base128]. inversion Fi as [|? ? Fx Fi']; subst.
      destruct (first && (Byte.to_N x =? 128)) eqn:F.
      { apply andb_true_iff in F. destruct F as [-> F]. apply N.eqb_eq in F.
        exfalso. apply (Hh eq_refl). f_equal. apply to_N_inj. rewrite F. reflexivity. }
      destruct (N.ltb_spec (Byte.to_N x) 128) as [L|L]; [lia|].
      apply IH. exists init, last. repeat split; try assumption; try lia; discriminate.
Qed.

Lemma number_ge base d ds : 1 <= d -> base ^ N.of_nat (length ds) <= number base (d :: ds).
Proof.
  intros H. unfold number. cbn [fold_left]. rewrite fold_number.
  generalize (base ^ N.of_nat (length ds)). intros x. nia.
Qed.
Lemma digits_bounded base k d ds n : 1 < base -> 1 <= d -> n = number base (d :: ds) -> n < base ^ N.of_nat k -> (length ds < k)%nat.
Proof.
  intros B H -> L. pose proof (number_ge base d ds H) as G.
  destruct (Nat.lt_ge_cases (length ds) k) as [?|M]; [assumption|exfalso].
  assert (P : base ^ N.of_nat k <= base ^ N.of_nat (length ds)) by (apply N.pow_le_mono_r; lia).
  lia.
Qed.

Lemma base128_digits b n r : base128 5 true 0 b = Some (n, r) <-> exists ds, digits128 n ds /\ b = ds ++ r.
Proof.
  rewrite base128_iff. split.
  - intros (init & last & -> & _ & Fi & La & Hh & En & Ln). exists (init ++ [last]). split.
    + exists init, last. repeat split; try assumption. apply Hh. reflexivity.
    + rewrite <- app_assoc. reflexivity.
  - intros (ds & (init & last & -> & Fi & La & Hh & En & Ln) & ->). exists init, last.
    rewrite <- app_assoc. repeat split; try assumption; [|intros _; exact Hh].
    destruct init as [|x init]; cbn [length]; [lia|]. cbn [app map hd_error] in *.
    assert (1 <= Byte.to_N x mod 128).
    { inversion Fi as [|? ? Fx _]; subst. pose proof (to_N_lt x).
      assert (Byte.to_N x <> 128) by (intros E; apply Hh; f_equal; apply to_N_inj; rewrite E; reflexivity).
      rewrite (N.mod_eq _ 128) by lia. assert (Byte.to_N x / 128 = 1) as -> by (symmetry; apply (N.div_unique _ _ _ (Byte.to_N x - 128)); lia). lia. }
    assert (n < 128 ^ N.of_nat 5) by (change (128 ^ N.of_nat 5) with 34359738368; change (2 ^ 31) with 2147483648 in Ln; lia).
    assert (D : (length (map (fun x => (Byte.to_N x mod 128)%N) (init ++ [last])) < 5)%nat) by (eapply digits_bounded; [| |exact En|eassumption]; lia).
    rewrite map_length, app_length in D. cbn in D. lia.
Qed.

(** ** Tags and lengths *)
Lemma byteOf_small n : n < 256 -> Byte.to_N (byteOf n) = n.
Proof. intros H. rewrite to_N_byteOf. apply N.mod_small. exact H. Qed.

Lemma split_id n : n < 256 -> n = 64 * (n / 64) + (if (n / 32) mod 2 =? 1 then 32 else 0) + n mod 32 /\ n / 64 < 4 /\ n mod 32 < 32.
Proof.
  intros H.
  pose proof (N.div_mod n 32 ltac:(lia)) as D. pose proof (N.mod_lt n 32 ltac:(lia)) as M.
  pose proof (N.div_mod (n / 32) 2 ltac:(lia)) as D2. pose proof (N.mod_lt (n / 32) 2 ltac:(lia)) as M2.
  assert (E : n / 32 / 2 = n / 64) by (rewrite N.div_div by lia; reflexivity). rewrite E in D2.
  destruct (N.eqb_spec ((n / 32) mod 2) 1); lia.
Qed.
Lemma join_id c (k : bool) t : c < 4 -> t < 32 ->
  let n := 64 * c + (if k then 32 else 0) + t in
  n < 256 /\ n / 64 = c /\ ((n / 32) mod 2 =? 1) = k /\ n mod 32 = t.
Proof.
  intros Hc Ht n. assert (n < 256) by (unfold n; destruct k; lia).
  assert (E1 : n / 64 = c) by (symmetry; apply (N.div_unique _ _ _ ((if k then 32 else 0) + t)); unfold n; destruct k; lia).
  assert (E2 : n / 32 = 2 * c + (if k then 1 else 0)) by (symmetry; apply (N.div_unique _ _ _ t); unfold n; destruct k; lia).
  assert (E3 : n mod 32 = t) by (symmetry; apply (N.mod_unique _ _ (2 * c + (if k then 1 else 0))); unfold n; destruct k; lia).
  repeat split; try assumption. rewrite E2.
  replace ((2 * c + (if k then 1 else 0)) mod 2) with (if k then 1 else 0); [destruct k; reflexivity|].
  apply (N.mod_unique _ _ c); destruct k; lia.
Qed.

Lemma getTag_iff b c k t r : getTag b = Some (c, k, t, r) <-> exists i, tagOf c k t i /\ b = i ++ r.
Proof.
  split.
  - destruct b as [|x b]; [discriminate|]. cbn [getTag]. cbv zeta.
    destruct (split_id (Byte.to_N x) (to_N_lt x)) as (E & Hc & Ht).
    destruct (N.eqb_spec (Byte.to_N x mod 32) 31) as [T|T].
    + destruct (base128 5 true 0 b) as [[t' r']|] eqn:B; [|discriminate].
      destruct (N.ltb_spec t' 31) as [L|L]; [discriminate|]. intros H. injection H as <- <- <- <-.
      apply base128_digits in B. destruct B as (ds & D & ->).
      exists (x :: ds). split; [|reflexivity]. split; [exact Hc|]. right. split; [exact L|]. exists ds. split; [exact D|].
      f_equal. rewrite <- (byteOf_to_N x) at 1. f_equal. rewrite T in E. exact E.
    + intros H. injection H as <- <- <- <-. exists [x]. split; [|reflexivity]. split; [exact Hc|]. left. split; [lia|].
      f_equal. rewrite <- (byteOf_to_N x) at 1. f_equal. exact E.
  - intros (i & (Hc & [(Ht & ->)|(Ht & ds & D & ->)]) & ->); cbn [app getTag]; cbv zeta.
    + destruct (join_id c k t Hc ltac:(lia)) as (S & E1 & E2 & E3). rewrite (byteOf_small _ S), E1, E2, E3.
      destruct (N.eqb_spec t 31); [lia|reflexivity].
    + destruct (join_id c k 31 Hc ltac:(lia)) as (S & E1 & E2 & E3). rewrite (byteOf_small _ S), E1, E2, E3.
      change (31 =? 31) with true. cbv iota.
      assert (B : base128 5 true 0 (ds ++ r) = Some (t, r)) by (apply base128_digits; exists ds; split; [exact D|reflexivity]).
      rewrite B. destruct (N.ltb_spec t 31); [lia|reflexivity].
Qed.

Lemma longLen_iff k : forall acc b n r, acc < 2 ^ 31 ->
  longLen k acc b = Some (n, r) <->
  exists ds, b = ds ++ r /\ length ds = k /\ n = fold_left (fun a d => a * 256 + d) (map Byte.to_N ds) acc /\
    n < 2 ^ 31 /\ (acc = 0 -> hd_error ds <> Some x00).
Proof.
  induction k as [|k IH]; intros acc b n r Ha; cbn [longLen].
  - split.
    + intros E. injection E as <- <-. exists []. repeat split; [exact Ha|discriminate].
    + intros (ds & -> & L & -> & _). destruct ds; [reflexivity|discriminate].
  - change (2 ^ 31) with 2147483648 in *. split.
    + destruct b as [|x b]; [discriminate|].
      destruct (N.leb_spec 8388608 acc) as [G|G]; [discriminate|].
      destruct (N.eqb_spec (acc * 256 + Byte.to_N x) 0) as [Z|Z]; [discriminate|]. intros E.
      pose proof (to_N_lt x). apply IH in E; [|lia]. destruct E as (ds & -> & L & En & Ln & _).
      exists (x :: ds). cbn [app length map fold_left hd_error]. repeat split; try assumption; try lia.
      intros -> E. injection E as ->. apply Z. reflexivity.
    + intros (ds & -> & L & En & Ln & Hh). destruct ds as [|x ds]; [discriminate|]. cbn [app length map fold_left hd_error] in *.
      pose proof (to_N_lt x).
      assert (acc * 256 + Byte.to_N x < 2147483648).
      { rewrite fold_number in En.
        pose proof (N.pow_nonzero 256 (N.of_nat (length (map Byte.to_N ds))) ltac:(lia)) as Np.
        revert En Np. generalize (256 ^ N.of_nat (length (map Byte.to_N ds))) (number 256 (map Byte.to_N ds)) (acc * 256 + Byte.to_N x).
        intros p q a En Np. assert (a * 1 <= a * p) by (apply N.mul_le_mono_l; lia). lia. }
      destruct (N.leb_spec 8388608 acc) as [G|G]; [lia|].
      destruct (N.eqb_spec (acc * 256 + Byte.to_N x) 0) as [Z|Z].
      { exfalso. apply Hh; [lia|]. f_equal. apply to_N_inj. change (Byte.to_N x00) with 0. lia. }
      apply IH; [assumption|]. exists ds. repeat split; try assumption; lia.
Qed.

Lemma getLen_iff b n r : getLen b = Some (n, r) <-> exists l, lenOf n l /\ b = l ++ r.
Proof.
  split.
  - destruct b as [|x b]; [discriminate|]. cbn [getLen]. cbv zeta.
    destruct (N.ltb_spec (Byte.to_N x) 128) as [L|L].
    + intros E. injection E as <- <-. exists [x]. split; [|reflexivity]. left. split; [exact L|]. rewrite byteOf_to_N. reflexivity.
    + destruct (N.eqb_spec (Byte.to_N x) 128) as [Q|Q]; [discriminate|].
      destruct (longLen _ 0 b) as [[l r']|] eqn:E; [|discriminate].
      destruct (N.ltb_spec l 128) as [M|M]; [discriminate|]. intros H. injection H as <- <-.
      apply longLen_iff in E; [|reflexivity]. destruct E as (ds & -> & Ld & En & Ln & Hh).
      exists (x :: ds). split; [|reflexivity]. right. split; [lia|]. exists ds. repeat split; [|exact En|apply Hh; reflexivity].
      f_equal. rewrite <- (byteOf_to_N x) at 1. f_equal. lia.
  - intros (l & [(L & ->)|(L & ds & -> & En & Hh)] & ->); cbn [app getLen]; cbv zeta.
    + rewrite byteOf_small by lia. destruct (N.ltb_spec n 128); [reflexivity|lia].
    + assert (D : (length ds <= 4)%nat).
      { destruct ds as [|x ds]; cbn [length]; [lia|]. cbn [map hd_error] in *.
        assert (1 <= Byte.to_N x).
        { destruct (N.eq_dec (Byte.to_N x) 0) as [Z|Z]; [|lia]. exfalso. apply Hh. f_equal. apply to_N_inj. exact Z. }
        assert (n < 256 ^ N.of_nat 4) by (change (256 ^ N.of_nat 4) with 4294967296; change (2 ^ 31) with 2147483648 in L; lia).
        assert (Q : (length (map Byte.to_N ds) < 4)%nat) by (eapply digits_bounded; [| |exact En|eassumption]; lia).
        rewrite map_length in Q. lia. }
      assert (ds <> []) by (intros ->; cbn in En; lia).
      assert (1 <= length ds)%nat by (destruct ds; [congruence|cbn; lia]).
      rewrite byteOf_small by lia.
      destruct (N.ltb_spec (128 + N.of_nat (length ds)) 128); [lia|].
      destruct (N.eqb_spec (128 + N.of_nat (length ds)) 128); [lia|].
      replace (N.to_nat (128 + N.of_nat (length ds) - 128)) with (length ds) by lia.
      assert (E : longLen (length ds) 0 (ds ++ r) = Some (n, r)).
      { apply longLen_iff; [reflexivity|]. exists ds. repeat split; [exact En|lia|intros _; exact Hh]. }
      rewrite E. destruct (N.ltb_spec n 128); [lia|reflexivity].
Qed.

Lemma header_iff b c k t n r : header b = Some (mkHdr c k t n, r) <-> begins c k t n b r.
Proof.
  unfold header, begins. split.
  - destruct (getTag b) as [[[[c' k'] t'] r1]|] eqn:T; [|discriminate].
    destruct (getLen r1) as [[n' r2]|] eqn:L; [|discriminate]. intros E. injection E as <- <- <- <- <-.
    apply getTag_iff in T. destruct T as (i & Ti & ->). apply getLen_iff in L. destruct L as (l & Ll & ->).
    exists i, l. split; [exact Ti|]. split; [exact Ll|reflexivity].
  - intros (i & l & Ti & Ll & ->).
    assert (T : getTag (i ++ l ++ r) = Some (c, k, t, l ++ r)) by (apply getTag_iff; exists i; split; [exact Ti|reflexivity]).
    assert (L : getLen (l ++ r) = Some (n, r)) by (apply getLen_iff; exists l; split; [exact Ll|reflexivity]).
    rewrite T, L. reflexivity.
Qed.
Lemma contents_iff h b s r : contents h b = Some (s, r) <-> b = s ++ r /\ N.of_nat (length s) = h_len h.
Proof.
  unfold contents. split.
  - destruct (N.ltb_spec (N.of_nat (length b)) (h_len h)); [discriminate|]. intros E. apply takeB_iff in E.
    destruct E as [-> E]. split; [reflexivity|lia].
  - intros [-> E]. rewrite app_length, Nat2N.inj_add.
    destruct (N.ltb_spec (N.of_nat (length s) + N.of_nat (length r)) (h_len h)); [lia|]. apply takeB_iff. split; [reflexivity|lia].
Qed.
Lemma element_begins c k t s e r : element c k t s e -> begins c k t (N.of_nat (length s)) (e ++ r) (s ++ r).
Proof.
  intros (i & l & Ti & Ll & ->). exists i, l. split; [exact Ti|]. split; [exact Ll|]. rewrite <- !app_assoc. reflexivity.
Qed.
Lemma begins_element c k t n b s r : begins c k t n b (s ++ r) -> N.of_nat (length s) = n -> exists e, element c k t s e /\ b = e ++ r.
Proof.
  intros (i & l & Ti & Ll & ->) <-. exists (i ++ l ++ s). split; [exists i, l; split; [exact Ti|]; split; [exact Ll|reflexivity]|].
  rewrite <- !app_assoc. reflexivity.
Qed.
Lemma element_nonempty c k t s e : element c k t s e -> e <> [].
Proof. intros (i & l & (_ & [(_ & ->)|(_ & ds & _ & ->)]) & _ & ->); discriminate. Qed.
Lemma element_length c k t s e : element c k t s e -> (2 <= length e)%nat.
Proof.
  intros (i & l & (_ & T) & L & ->). rewrite !app_length.
  assert (1 <= length i)%nat by (destruct T as [(_ & ->)|(_ & ds & _ & ->)]; cbn; lia).
  assert (1 <= length l)%nat by (destruct L as [(_ & ->)|(_ & ds & -> & _)]; cbn; lia). lia.
Qed.
Lemma begins_nonempty c k t n b r : begins c k t n b r -> b <> [].
Proof. intros (i & l & (_ & [(_ & ->)|(_ & ds & _ & ->)]) & _ & ->); discriminate. Qed.

Lemma header_element c k t s e r : element c k t s e ->
  header (e ++ r) = Some (mkHdr c k t (N.of_nat (length s)), s ++ r) /\
  contents (mkHdr c k t (N.of_nat (length s))) (s ++ r) = Some (s, r).
Proof.
  intros E. split; [apply header_iff, element_begins, E|]. apply contents_iff. split; reflexivity.
Qed.
Lemma element_header b h r s r' : header b = Some (h, r) -> contents h r = Some (s, r') ->
  exists e, element (h_class h) (h_comp h) (h_tag h) s e /\ b = e ++ r'.
Proof.
  destruct h as [c k t n]. intros H C. apply header_iff in H. apply contents_iff in C. cbn in C. destruct C as [-> L].
  exact (begins_element _ _ _ _ _ _ _ H L).
Qed.

(** One element has one reading. *)
Lemma element_unique c k t s e r c' k' t' s' e' r' :
  element c k t s e -> element c' k' t' s' e' -> e ++ r = e' ++ r' ->
  c = c' /\ k = k' /\ t = t' /\ s = s' /\ r = r' /\ e = e'.
Proof.
  intros E E' Q. pose proof (header_element _ _ _ _ _ r E) as [H C]. pose proof (header_element _ _ _ _ _ r' E') as [H' C'].
  rewrite Q in H. rewrite H in H'. injection H' as E1 E2 E3 E4 E5. rewrite <- E4, <- E5 in C'.
  subst c' k' t'. rewrite C in C'. injection C' as <- <-. repeat split. apply app_inv_tail in Q. exact Q.
Qed.

(** ** Fields *)
Lemma rawField_iff b s r : rawField b = Some (s, r) <-> exists c k t e, element c k t s e /\ b = e ++ r.
Proof.
  unfold rawField. split.
  - destruct (header b) as [[h r1]|] eqn:H; [|discriminate]. intros C.
    destruct (element_header _ _ _ _ _ H C) as (e & E & ->). exists (h_class h), (h_comp h), (h_tag h), e. split; [exact E|reflexivity].
  - intros (c & k & t & e & E & ->). destruct (header_element _ _ _ _ _ r E) as [-> C]. exact C.
Qed.
Lemma isType_iff c k t n comp tag : isType (mkHdr c k t n) comp tag = true <-> c = 0 /\ k = comp /\ t = tag.
Proof.
  unfold isType. cbn [h_class h_comp h_tag]. rewrite !andb_true_iff, !N.eqb_eq, Bool.eqb_true_iff. tauto.
Qed.

Lemma field_iff {A} comp tag (p : bytes -> option A) b a r :
  field comp tag p b = Some (a, r) <-> exists s e, element 0 comp tag s e /\ p s = Some a /\ b = e ++ r.
Proof.
  unfold field. split.
  - destruct (header b) as [[h r1]|] eqn:H; [|discriminate]. destruct (isType h comp tag) eqn:T; [|discriminate].
    destruct (contents h r1) as [[s r2]|] eqn:C; [|discriminate]. destruct (p s) as [a'|] eqn:P; [|discriminate].
    intros Q. injection Q as <- <-. destruct (element_header _ _ _ _ _ H C) as (e & E & ->).
    destruct h as [c k t n]. apply isType_iff in T. destruct T as (-> & -> & ->). exists s, e. repeat split; assumption.
  - intros (s & e & E & P & ->). destruct (header_element _ _ _ _ _ r E) as [-> C].
    assert (T : isType (mkHdr 0 comp tag (N.of_nat (length s))) comp tag = true) by (apply isType_iff; repeat split).
    rewrite T, C, P. reflexivity.
Qed.

Lemma optField_iff {A B} comp tag (p : bytes -> option A) (P : bytes -> B -> Prop) (f : B -> A) b o r :
  (forall s a, p s = Some a <-> exists x, P s x /\ a = f x) ->
  optField comp tag p b = Some (o, r) <-> exists x, maybe comp tag P b x r /\ o = option_map f x.
Proof.
  intros HP. split.
  - unfold optField. destruct b as [|y b].
    { intros Q. injection Q as <- <-. exists None. split; [constructor|reflexivity]. }
    destruct (header (y :: b)) as [[h r1]|] eqn:H; [|discriminate]. destruct h as [c k t n].
    destruct (isType _ comp tag) eqn:T.
    + destruct (contents _ r1) as [[s r2]|] eqn:C; [|discriminate]. destruct (p s) as [a'|] eqn:E; [|discriminate].
      intros Q. injection Q as <- <-. destruct (element_header _ _ _ _ _ H C) as (e & El & ->).
      apply isType_iff in T. destruct T as (-> & -> & ->). apply HP in E. destruct E as (x & Px & ->).
      exists (Some x). split; [|reflexivity]. exact (maybe_there comp tag P s x e r2 El Px).
    + intros Q. injection Q as <- <-. exists None. split; [|reflexivity]. apply header_iff in H.
      apply (maybe_other _ _ _ _ _ _ _ _ _ H). intros (-> & -> & ->).
      assert (X : isType (mkHdr 0 comp tag n) comp tag = true) by (apply isType_iff; repeat split). congruence.
  - intros (x & M & ->). destruct M as [s a e r El Pa| |c k t n b r Bg Ne]; cbn [option_map].
    + destruct (header_element _ _ _ _ _ r El) as [H C]. unfold optField.
      destruct (e ++ r) as [|y b] eqn:Eb. { apply app_eq_nil in Eb. destruct Eb as [Eb _]. destruct (element_nonempty _ _ _ _ _ El Eb). }
      rewrite H. assert (T : isType (mkHdr 0 comp tag (N.of_nat (length s))) comp tag = true) by (apply isType_iff; repeat split).
      rewrite T, C. assert (E : p s = Some (f a)) by (apply HP; exists a; split; [exact Pa|reflexivity]). rewrite E. reflexivity.
    + reflexivity.
    + unfold optField. destruct b as [|y b]; [destruct (begins_nonempty _ _ _ _ _ _ Bg eq_refl)|].
      apply header_iff in Bg. rewrite Bg.
      destruct (isType _ comp tag) eqn:T; [|reflexivity]. apply isType_iff in T. destruct (Ne T).
Qed.

Lemma seqOf_iff {A B} (p : bytes -> option A) (P : bytes -> B -> Prop) (f : B -> A) :
  (forall s a, p s = Some a <-> exists x, P s x /\ a = f x) ->
  forall fuel b l, (length b <= fuel)%nat ->
  seqOf fuel p b = Some l <-> exists xs, listSays P b xs /\ l = map f xs.
Proof.
  intros HP. induction fuel as [|fuel IH]; intros b l L.
  - destruct b as [|y b]; [|cbn in L; lia]. cbn [seqOf]. split.
    + intros Q. injection Q as <-. exists []. split; [constructor|reflexivity].
    + intros (xs & M & ->). inversion M as [|s a e b' l' El Pa Ml Eb]; subst; [reflexivity|].
      apply app_eq_nil in Eb. destruct Eb as [Eb _]. destruct (element_nonempty _ _ _ _ _ El Eb).
  - split.
    + destruct b as [|y b]; cbn [seqOf].
      { intros Q. injection Q as <-. exists []. split; [constructor|reflexivity]. }
      destruct (field true 16 p (y :: b)) as [[a r]|] eqn:F; [|discriminate].
      destruct (seqOf fuel p r) as [l'|] eqn:S; [|discriminate]. intros Q. injection Q as <-.
      apply field_iff in F. destruct F as (s & e & El & Pa & Eb). pose proof (element_length _ _ _ _ _ El).
      rewrite Eb, app_length in L. apply IH in S; [|lia]. destruct S as (xs & M & ->).
      apply HP in Pa. destruct Pa as (x & Px & ->). exists (x :: xs). rewrite Eb. split; [|reflexivity].
      exact (list_cons P s x e r xs El Px M).
    + intros (xs & M & ->). destruct M as [|s x e b xs El Px M]; [reflexivity|].
      pose proof (element_length _ _ _ _ _ El). rewrite app_length in L.
      destruct (e ++ b) as [|y b0] eqn:Eb. { apply app_eq_nil in Eb. destruct Eb as [Eb _]. destruct (element_nonempty _ _ _ _ _ El Eb). }
      cbn [seqOf map]. rewrite <- Eb.
      assert (F : field true 16 p (e ++ b) = Some (f x, b)).
      { apply field_iff. exists s, e. repeat split; [exact El|]. apply HP. exists x. split; [exact Px|reflexivity]. }
      rewrite F. assert (S : seqOf fuel p b = Some (map f xs)) by (apply IH; [lia|]; exists xs; split; [exact M|reflexivity]).
      rewrite S. reflexivity.
Qed.

(** ** Certificates *)

(** The serial number recorded for a certificate is the contents of the first element of
    the TBSCertificate after the version; it is read exactly if the text has that form,
    and the program panics exactly if it has not. *)
Theorem C76_certificate : forall tbs s, serialOfTBS tbs = Some s <-> tbsSays tbs s.
Proof.
  intros b s. unfold serialOfTBS. split.
  - destruct (field true 16 _ b) as [[[s' r1] r2]|] eqn:F; [|discriminate]. intros Q. injection Q as ->.
    apply field_iff in F. destruct F as (body & e & El & P & ->). unfold versionField in P.
    destruct body as [|y body]; [discriminate|].
    destruct (header (y :: body)) as [[h r]|] eqn:H; [|discriminate]. destruct r as [|z r]; [discriminate|].
    destruct h as [c k t n]. cbn [h_class h_comp h_tag h_len] in P.
    destruct ((c =? 2) && (t =? 0) && ((n =? 0) || k)) eqn:V.
    + destruct (contents (mkHdr c k t n) (z :: r)) as [[v r3]|] eqn:C; [|discriminate].
      destruct (element_header _ _ _ _ _ H C) as (ev & Ev & Eb). cbn [h_class h_comp h_tag] in Ev.
      apply contents_iff in C. cbn [h_len] in C. destruct C as [_ C].
      rewrite !andb_true_iff, orb_true_iff, !N.eqb_eq in V. destruct V as ((-> & ->) & V).
      apply rawField_iff in P. destruct P as (c & k' & t & es & Es & ->). rewrite Eb in El.
      apply (tbs_version k v ev c k' t s es r1 e r2 Ev); [|exact Es|exact El].
      destruct V as [->|V]; [right; destruct v; [reflexivity|cbn in C; lia]|left; exact V].
    + apply rawField_iff in P. destruct P as (c' & k' & t' & es & Es & Eb).
      pose proof (header_element _ _ _ _ _ r1 Es) as [H' _]. rewrite <- Eb, H in H'. injection H' as <- <- <- En Er. rewrite Eb in El.
      apply (tbs_plain c k t s es r1 e r2 Es); [| |exact El].
      * intros (-> & -> & K). rewrite (N.eqb_refl 2), (N.eqb_refl 0) in V. cbn [andb] in V. apply orb_false_iff in V. destruct V as [V1 V2].
        destruct K as [->| ->]; [discriminate V2|]. rewrite En in V1. discriminate V1.
      * destruct s; [|left; discriminate]. right. intros ->. discriminate Er.
  - intros T. destruct T as [k v ev c k' t s es more e trail Ev Kv Es El|c k t s es more e trail Es Ne Em El].
    + assert (F : field true 16 (fun c => match versionField c with Some r => rawField r | None => None end) (e ++ trail) = Some ((s, more), trail)).
      { apply field_iff. exists (ev ++ es ++ more), e. repeat split; [exact El|].
        assert (V : versionField (ev ++ es ++ more) = Some (es ++ more)).
        { unfold versionField. destruct (header_element _ _ _ _ _ (es ++ more) Ev) as [H C].
          destruct (ev ++ es ++ more) as [|y b] eqn:Eb. { apply app_eq_nil in Eb. destruct Eb as [Eb _]. destruct (element_nonempty _ _ _ _ _ Ev Eb). }
          rewrite H. destruct (v ++ es ++ more) as [|z b2] eqn:Eb2.
          { apply app_eq_nil in Eb2. destruct Eb2 as [_ Eb2]. apply app_eq_nil in Eb2. destruct Eb2 as [Eb2 _]. destruct (element_nonempty _ _ _ _ _ Es Eb2). }
          cbn [h_class h_tag h_len h_comp]. rewrite !N.eqb_refl. cbn [andb].
          assert (K : (N.of_nat (length v) =? 0) || k = true).
          { destruct Kv as [->| ->]; [apply orb_true_r|reflexivity]. }
          rewrite K, C. reflexivity. }
        rewrite V. apply rawField_iff. exists c, k', t, es. split; [exact Es|reflexivity]. }
      rewrite F. reflexivity.
    + assert (F : field true 16 (fun c => match versionField c with Some r => rawField r | None => None end) (e ++ trail) = Some ((s, more), trail)).
      { apply field_iff. exists (es ++ more), e. repeat split; [exact El|].
        assert (V : versionField (es ++ more) = Some (es ++ more)).
        { unfold versionField. destruct (header_element _ _ _ _ _ more Es) as [H _].
          destruct (es ++ more) as [|y b] eqn:Eb. { apply app_eq_nil in Eb. destruct Eb as [Eb _]. destruct (element_nonempty _ _ _ _ _ Es Eb). }
          rewrite H. destruct (s ++ more) as [|z b2] eqn:Eb2.
          { apply app_eq_nil in Eb2. destruct Eb2 as [-> ->]. destruct Em; congruence. }
          cbn [h_class h_tag h_len h_comp].
          destruct ((c =? 2) && (t =? 0) && ((N.of_nat (length s) =? 0) || k)) eqn:W; [exfalso|reflexivity].
          rewrite !andb_true_iff, orb_true_iff, !N.eqb_eq in W. destruct W as ((-> & ->) & W). apply Ne. repeat split.
          destruct W as [W|W]; [right; destruct s; [reflexivity|cbn in W; lia]|left; exact W]. }
        rewrite V. apply rawField_iff. exists c, k, t, es. split; [exact Es|reflexivity]. }
      rewrite F. reflexivity.
Qed.

(** ** Integers, identifiers, extensions *)
Lemma getLE_snoc l x : getLE (l ++ [x]) = getLE l + 256 ^ N.of_nat (length l) * Byte.to_N x.
Proof.
  induction l as [|y l IH]; cbn [app getLE length].
  - change (256 ^ N.of_nat 0) with 1. lia.
  - rewrite IH, Nat2N.inj_succ, N.pow_succ_r'. generalize (256 ^ N.of_nat (length l)) (getLE l) (Byte.to_N x). intros p q n. nia.
Qed.
Lemma getBE_cons x l : getBE (x :: l) = Byte.to_N x * 256 ^ N.of_nat (length l) + getBE l.
Proof. unfold getBE. cbn [rev]. rewrite getLE_snoc, rev_length. lia. Qed.

Lemma minimalInt_iff b : minimalInt b = true <->
  b <> [] /\ ~ (exists y r, b = x00 :: y :: r /\ Byte.to_N y < 128) /\ ~ (exists y r, b = xff :: y :: r /\ 128 <= Byte.to_N y).
Proof.
  destruct b as [|x [|y b]]; cbn [minimalInt].
  - split; [discriminate|]. intros (H & _). destruct (H eq_refl).
  - split; [|reflexivity]. intros _. repeat split; [discriminate| |]; intros (? & ? & H & _); discriminate.
  - rewrite negb_true_iff, orb_false_iff, !andb_false_iff, negb_false_iff, N.ltb_lt, N.ltb_ge, !N.eqb_neq.
    split.
    + intros [H1 H2]. repeat split; [discriminate| |].
      * intros (y' & r & E & L). injection E as -> -> ->. change (Byte.to_N x00) with 0 in H1. lia.
      * intros (y' & r & E & L). injection E as -> -> ->. change (Byte.to_N xff) with 255 in H2. lia.
    + intros (_ & H1 & H2). split.
      * destruct (N.eq_dec (Byte.to_N x) 0) as [Z|Z]; [|left; exact Z]. right.
        destruct (N.lt_ge_cases (Byte.to_N y) 128) as [L|L]; [|exact L]. exfalso. apply H1. exists y, b. split; [|exact L].
        f_equal. apply to_N_inj. exact Z.
      * destruct (N.eq_dec (Byte.to_N x) 255) as [Z|Z]; [|left; exact Z]. right.
        destruct (N.lt_ge_cases (Byte.to_N y) 128) as [L|L]; [exact L|]. exfalso. apply H2. exists y, b. split; [|exact L].
        f_equal. apply to_N_inj. exact Z.
Qed.
Lemma parseInt64_iff s a : parseInt64 s = Some a <-> exists v, (integer s /\ v = s) /\ a = signed v.
Proof.
  unfold parseInt64. split.
  - destruct (minimalInt s) eqn:M; [|discriminate]. apply minimalInt_iff in M.
    destruct (N.ltb_spec 8 (N.of_nat (length s))) as [L|L]; [discriminate|]. intros E. injection E as <-.
    exists s. repeat split; try tauto. lia.
  - intros (v & ((Ne & L & H1 & H2) & ->) & ->).
    assert (M : minimalInt s = true) by (apply minimalInt_iff; tauto). rewrite M.
    destruct (N.ltb_spec 8 (N.of_nat (length s))); [lia|reflexivity].
Qed.

(** ENUMERATED values from 0 to 255 *)
Lemma parseInt32_iff s n : n < 256 ->
  parseInt32 s = Some (Z.of_N n) <-> s = if n <? 128 then [byteOf n] else [x00; byteOf n].
Proof.
  intros Hn. split.
  - unfold parseInt32. destruct (parseInt64 s) as [v|] eqn:P; [|discriminate].
    destruct ((-2147483648 <=? v) && (v <=? 2147483647))%Z; [|discriminate]. intros E. injection E as ->.
    unfold parseInt64 in P. destruct (minimalInt s) eqn:M; [|discriminate]. destruct (8 <? N.of_nat (length s)); [discriminate|].
    assert (S : signed s = Z.of_N n) by congruence. clear P. apply minimalInt_iff in M. destruct M as (Ne & M0 & _).
    destruct s as [|x s]; [congruence|]. clear Ne. unfold signed in S.
    pose proof (getBE_lt (x :: s)) as G. pose proof (to_N_lt x) as Lx.
    destruct (N.ltb_spec (Byte.to_N x) 128) as [L|L].
    + rewrite Z.sub_0_r in S. apply N2Z.inj in S. rewrite getBE_cons in S. destruct s as [|y s].
      * cbn [length] in S. change (256 ^ N.of_nat 0) with 1 in S. change (getBE []) with 0 in S.
        destruct (N.ltb_spec n 128); [|lia]. f_equal. rewrite <- (byteOf_to_N x). f_equal. lia.
      * assert (P1 : 1 <= 256 ^ N.of_nat (length s)) by (pose proof (N.pow_nonzero 256 (N.of_nat (length s)) ltac:(lia)); lia).
        assert (Px : Byte.to_N x = 0).
        { destruct (N.eq_dec (Byte.to_N x) 0) as [Z|Z]; [exact Z|exfalso]. cbn [length] in S. rewrite Nat2N.inj_succ, N.pow_succ_r' in S.
          revert S P1. generalize (256 ^ N.of_nat (length s)) (getBE (y :: s)). intros p q S P1. nia. }
        assert (x = x00) as -> by (apply to_N_inj; exact Px).
        assert (Ly : 128 <= Byte.to_N y).
        { destruct (N.lt_ge_cases (Byte.to_N y) 128) as [L'|L']; [|exact L']. exfalso. apply M0. exists y, s. split; [reflexivity|exact L']. }
        rewrite Px, N.mul_0_l, N.add_0_l, getBE_cons in S. pose proof (to_N_lt y).
        destruct s as [|z s].
        -- cbn [length] in S. change (256 ^ N.of_nat 0) with 1 in S. change (getBE []) with 0 in S.
           destruct (N.ltb_spec n 128); [lia|]. do 2 f_equal. rewrite <- (byteOf_to_N y). f_equal. lia.
        -- exfalso. assert (P2 : 1 <= 256 ^ N.of_nat (length s)) by (pose proof (N.pow_nonzero 256 (N.of_nat (length s)) ltac:(lia)); lia).
           cbn [length] in S. rewrite Nat2N.inj_succ, N.pow_succ_r' in S.
           revert S P2. generalize (256 ^ N.of_nat (length s)) (getBE (z :: s)). intros p q S P2. nia.
    + exfalso. assert (G' : (Z.of_N (getBE (x :: s)) < 256 ^ Z.of_nat (length (x :: s)))%Z).
      { apply N2Z.inj_lt in G. rewrite N2Z.inj_pow in G. rewrite nat_N_Z in G. exact G. }
      lia.
  - intros ->. pose proof (to_N_byteOf n) as Bn. rewrite (N.mod_small _ _ Hn) in Bn.
    destruct (N.ltb_spec n 128) as [L|L]; unfold parseInt32, parseInt64, minimalInt.
    + change (8 <? N.of_nat (length [byteOf n])) with false. unfold signed. rewrite getBE_cons, Bn.
      change (getBE []) with 0. change (256 ^ N.of_nat (length (@nil byte))) with 1.
      destruct (N.ltb_spec n 128); [|lia]. rewrite Z.sub_0_r, N.mul_1_r, N.add_0_r.
      destruct (Z.leb_spec (-2147483648) (Z.of_N n)); [|lia]. destruct (Z.leb_spec (Z.of_N n) 2147483647); [reflexivity|lia].
    + rewrite Bn. destruct (N.ltb_spec n 128); [lia|]. change (Byte.to_N x00) with 0. cbn [N.eqb andb orb negb].
      change (8 <? N.of_nat (length [x00; byteOf n])) with false. unfold signed. rewrite !getBE_cons, Bn.
      change (getBE []) with 0. change (256 ^ N.of_nat (length (@nil byte))) with 1. change (Byte.to_N x00) with 0.
      change (0 <? 128) with true. cbv iota. rewrite Z.sub_0_r, N.mul_0_l, N.add_0_l, N.mul_1_r, N.add_0_r.
      destruct (Z.leb_spec (-2147483648) (Z.of_N n)); [|lia]. destruct (Z.leb_spec (Z.of_N n) 2147483647); [reflexivity|lia].
Qed.
Lemma enumerated_iff v n : n < 256 -> enumerated v = Some (Z.of_N n) <-> enumIs v n.
Proof.
  intros Hn. unfold enumerated, enumIs. split.
  - destruct (field false 10 parseInt32 v) as [[z r]|] eqn:F; [|discriminate]. intros E. injection E as ->.
    apply field_iff in F. destruct F as (s & e & El & P & ->). apply (parseInt32_iff s n Hn) in P. subst s.
    split; [exact Hn|]. exists e, r. split; [exact El|reflexivity].
  - intros (_ & e & more & El & ->).
    assert (F : field false 10 parseInt32 (e ++ more) = Some (Z.of_N n, more)).
    { apply field_iff. eexists _, e. repeat split; [exact El|]. apply (parseInt32_iff _ n Hn). reflexivity. }
    rewrite F. reflexivity.
Qed.

Lemma digits128_nonempty n ds : digits128 n ds -> (1 <= length ds)%nat.
Proof. intros (init & last & -> & _). rewrite app_length. cbn. lia. Qed.
Lemma digits128_small n ds : n < 128 -> digits128 n ds <-> ds = [byteOf n].
Proof.
  intros Hn. split.
  - intros (init & last & -> & Fi & La & Hh & En & _). destruct init as [|x init].
    + unfold number in En. cbn [app map fold_left] in *. rewrite N.mod_small in En by exact La.
      f_equal. rewrite <- (byteOf_to_N last). f_equal. lia.
    + exfalso. cbn [app map hd_error] in *. inversion Fi as [|? ? Fx _]; subst.
      assert (D : 1 <= Byte.to_N x mod 128).
      { pose proof (to_N_lt x).
        assert (Byte.to_N x <> 128) by (intros E; apply Hh; f_equal; apply to_N_inj; rewrite E; reflexivity).
        rewrite (N.mod_eq _ 128) by lia. assert (Byte.to_N x / 128 = 1) as -> by (symmetry; apply (N.div_unique _ _ _ (Byte.to_N x - 128)); lia). lia. }
      pose proof (number_ge 128 _ (map (fun x => Byte.to_N x mod 128) (init ++ [last])) D) as G.
      rewrite map_length, app_length, Nat2N.inj_add, N.pow_add_r in G. change (128 ^ N.of_nat (length [last])) with 128 in G.
      pose proof (N.pow_nonzero 128 (N.of_nat (length init)) ltac:(lia)). nia.
  - intros ->. exists [], (byteOf n). cbn [app map hd_error]. rewrite (byteOf_small n) by lia. unfold number. cbn [fold_left].
    split; [reflexivity|]. split; [constructor|]. split; [exact Hn|]. split.
    + intros E. injection E as E. apply (f_equal Byte.to_N) in E. rewrite byteOf_small in E by lia. change (Byte.to_N x80) with 128 in E. lia.
    + rewrite N.mod_small by exact Hn. change (2 ^ 31) with 2147483648. lia.
Qed.

Lemma arcs_iff fuel : forall b ns, (length b <= fuel)%nat ->
  arcs fuel b = Some ns <-> exists dss, Forall2 digits128 ns dss /\ b = concat dss.
Proof.
  induction fuel as [|fuel IH]; intros b ns L.
  - destruct b as [|y b]; [|cbn in L; lia]. cbn [arcs]. split.
    + intros E. injection E as <-. exists []. split; [constructor|reflexivity].
    + intros (dss & F & E). destruct F as [|n ds ns dss D F]; [reflexivity|]. cbn [concat] in E. symmetry in E. apply app_eq_nil in E.
      destruct E as [-> _]. pose proof (digits128_nonempty _ _ D) as X. cbn in X. lia.
  - split.
    + destruct b as [|y b]; cbn [arcs].
      { intros E. injection E as <-. exists []. split; [constructor|reflexivity]. }
      destruct (base128 5 true 0 (y :: b)) as [[v r]|] eqn:B; [|discriminate].
      destruct (arcs fuel r) as [l|] eqn:A; [|discriminate]. intros E. injection E as <-.
      apply base128_digits in B. destruct B as (ds & D & Eb). pose proof (digits128_nonempty _ _ D).
      rewrite Eb, app_length in L. apply IH in A; [|lia]. destruct A as (dss & F & ->).
      exists (ds :: dss). split; [constructor; assumption|]. exact Eb.
    + intros (dss & F & ->). destruct F as [|n ds ns dss D F]; [reflexivity|]. cbn [concat] in *.
      pose proof (digits128_nonempty _ _ D). rewrite app_length in L.
      assert (B : base128 5 true 0 (ds ++ concat dss) = Some (n, concat dss)) by (apply base128_digits; exists ds; split; [exact D|reflexivity]).
      assert (A : arcs fuel (concat dss) = Some ns) by (apply IH; [lia|]; exists dss; split; [exact F|reflexivity]).
      destruct (ds ++ concat dss) as [|y b] eqn:Eb; [discriminate B|]. cbn [arcs]. rewrite B, A. reflexivity.
Qed.
Lemma parseOID_valid id : (exists l, parseOID id = Some l) <-> validOID id.
Proof.
  unfold parseOID, validOID. split.
  - intros (l & E). destruct (arcs (length id) id) as [[|v ns]|] eqn:A; try discriminate.
    apply arcs_iff in A; [|lia]. destruct A as (dss & F & ->). split; [|exists (v :: ns), dss; split; [exact F|reflexivity]].
    inversion F as [|n ds ? dss' D F']; subst. intros E'. cbn [concat] in E'. apply app_eq_nil in E'. destruct E' as [-> _].
    pose proof (digits128_nonempty _ _ D) as X. cbn in X. lia.
  - intros (Ne & ns & dss & F & Ei).
    assert (A : arcs (length id) id = Some ns) by (apply arcs_iff; [lia|]; exists dss; split; assumption).
    rewrite A. destruct ns as [|v ns]; [|eexists; reflexivity]. inversion F; subst. cbn in Ne. congruence.
Qed.
Lemma parseOID_reason id l : parseOID id = Some l -> listNeqb l oidReason = beq id reasonId.
Proof.
  intros P. unfold listNeqb. destruct (list_eq_dec N.eq_dec l oidReason) as [->|N].
  - symmetry. apply beq_eq. unfold parseOID in P. destruct (arcs (length id) id) as [[|v ns]|] eqn:A; try discriminate.
    apply arcs_iff in A; [|lia]. destruct A as (dss & F & ->).
    assert (Q : v = 85 /\ ns = [29; 21]).
    { unfold oidReason in P. destruct (N.ltb_spec v 80) as [L|L].
      - assert (E : v / 40 = 2) by congruence. assert (v / 40 < 2) by (apply N.div_lt_upper_bound; lia). lia.
      - assert (E : v - 80 = 5) by congruence. assert (ns = [29; 21]) by congruence. split; [lia|assumption]. }
    destruct Q as [-> ->].
    inversion F as [|? d1 ? ? D1 F1]; subst. inversion F1 as [|? d2 ? ? D2 F2]; subst. inversion F2 as [|? d3 ? ? D3 F3]; subst. inversion F3; subst.
    apply digits128_small in D1; [|lia]. apply digits128_small in D2; [|lia]. apply digits128_small in D3; [|lia]. subst. reflexivity.
  - symmetry. apply beq_neq. intros ->. apply N.
    assert (E : parseOID reasonId = Some oidReason) by reflexivity. congruence.
Qed.

Definition extOf (x : bytes * bytes) : bool * option Z := (beq (fst x) reasonId, enumerated (snd x)).
Lemma extension_iff b a : extension b = Some a <-> exists x, extSays b x /\ a = extOf x.
Proof.
  unfold extension. split.
  - destruct (field false 6 parseOID b) as [[l r]|] eqn:F; [|discriminate].
    destruct (optField false 1 parseBool r) as [[o r1]|] eqn:O; [|discriminate].
    destruct (field false 4 Some r1) as [[v r2]|] eqn:V; [|discriminate]. intros E.
    apply field_iff in F. destruct F as (id & eid & Ei & Pi & ->). apply field_iff in V. destruct V as (v' & ev & Ev & Pv & ->).
    injection Pv as ->. exists (id, v). split.
    + assert (X : exists ec, r = ec ++ ev ++ r2 /\ (ec = [] \/ exists y, element 0 false 1 [y] ec /\ (y = x00 \/ y = xff))).
      { apply (optField_iff false 1 parseBool (fun s x => parseBool s = Some x) (fun x => x)) in O.
        2:{ intros s a0. split; [intros Hp; exists a0; split; [exact Hp|reflexivity]|intros (x0 & Hp & ->); exact Hp]. }
        destruct O as (x & M & _). inversion M as [s y ec r' Ec Py E1 E2 E3|E1 E2 E3|c k t n b' r' Bg Ne E1 E2 E3]; subst.
        - exists ec. split; [reflexivity|right]. destruct s as [|z [|? ?]]; try discriminate Py. exists z. split; [exact Ec|].
          unfold parseBool in Py. destruct (N.eqb_spec (Byte.to_N z) 0) as [Z|Z]; [left; apply to_N_inj; exact Z|].
          destruct (N.eqb_spec (Byte.to_N z) 255) as [Y|Y]; [right; apply to_N_inj; exact Y|discriminate].
        - exfalso. symmetry in E3. apply app_eq_nil in E3. destruct E3 as [-> _]. destruct (element_nonempty _ _ _ _ _ Ev eq_refl).
        - exists []. split; [reflexivity|left; reflexivity]. }
      destruct X as (ec & -> & X). exists eid, ec, ev, r2. cbn [fst snd].
      split; [reflexivity|]. split; [exact Ei|]. split; [apply parseOID_valid; exists l; exact Pi|]. split; [exact X|exact Ev].
    + unfold extOf. cbn [fst snd]. rewrite <- (parseOID_reason id l Pi). congruence.
  - intros ([id v] & (eid & ec & ev & more & -> & Ei & Vi & X & Ev) & ->). cbn [fst snd] in *.
    apply parseOID_valid in Vi. destruct Vi as (l & Pi).
    assert (F : field false 6 parseOID (eid ++ ec ++ ev ++ more) = Some (l, ec ++ ev ++ more)).
    { apply field_iff. exists id, eid. repeat split; assumption. }
    rewrite F. clear F.
    assert (O : exists o, optField false 1 parseBool (ec ++ ev ++ more) = Some (o, ev ++ more)).
    { destruct X as [->|(y & Ey & Hy)].
      - exists None. cbn [app]. apply (optField_iff false 1 parseBool (fun s x => parseBool s = Some x) (fun x => x)).
        { intros s a0. split; [intros Hp; exists a0; split; [exact Hp|reflexivity]|intros (x0 & Hp & ->); exact Hp]. }
        exists None. split; [|reflexivity]. eapply maybe_other; [apply element_begins; exact Ev|]. intros (_ & _ & T). discriminate T.
      - exists (Some (if Byte.to_N y =? 0 then false else true)).
        apply (optField_iff false 1 parseBool (fun s x => parseBool s = Some x) (fun x => x)).
        { intros s a0. split; [intros Hp; exists a0; split; [exact Hp|reflexivity]|intros (x0 & Hp & ->); exact Hp]. }
        eexists (Some _). split; [|reflexivity]. apply maybe_there with (s := [y]); [exact Ey|]. destruct Hy as [-> | ->]; reflexivity. }
    destruct O as (o & ->).
    assert (V : field false 4 Some (ev ++ more) = Some (v, more)).
    { apply field_iff. exists v, ev. repeat split; assumption. }
    rewrite V. unfold extOf. cbn [fst snd]. rewrite (parseOID_reason id l Pi). reflexivity.
Qed.

(** ** Entries *)
Lemma reasonLoop_seen exts : forall code z,
  reasonLoop true code (map extOf exts) = Some z <-> z = code /\ (0 <= code <= 255)%Z /\ forall v, ~ In (reasonId, v) exts.
Proof.
  induction exts as [|[id v] exts IH]; intros code z; cbn [map reasonLoop extOf fst snd].
  - destruct ((code <? 0) || (255 <? code))%Z eqn:C.
    + split; [discriminate|]. intros (_ & R & _). apply orb_true_iff in C. rewrite !Z.ltb_lt in C. lia.
    + apply orb_false_iff in C. rewrite !Z.ltb_ge in C. split.
      * intros E. injection E as <-. repeat split; try lia. intros v [].
      * intros (-> & _). reflexivity.
  - destruct (beq_spec id reasonId) as [->|N].
    + split; [discriminate|]. intros (_ & _ & H). destruct (H v). left. reflexivity.
    + rewrite IH. split; intros (E & R & H); (split; [exact E|]; split; [exact R|]).
      * intros w [E'|I]; [congruence|exact (H w I)].
      * intros w I. apply (H w). right. exact I.
Qed.
Lemma reasonLoop_iff exts n : n < 256 -> reasonLoop false 0 (map extOf exts) = Some (Z.of_N n) <-> reasonIs exts n.
Proof.
  intros Hn. unfold reasonIs. induction exts as [|[id v] exts IH]; cbn [map reasonLoop extOf fst snd].
  - change ((0 <? 0) || (255 <? 0))%Z with false. cbv iota. split.
    + intros E. left. split; [intros v []|]. assert (0%Z = Z.of_N n) by congruence. lia.
    + intros [(_ & ->)|(x & v & y & E & _)]; [reflexivity|]. destruct x; discriminate.
  - destruct (beq_spec id reasonId) as [->|N].
    + split.
      * intros H. right. exists [], v, exts. cbn [app]. destruct (enumerated v) as [z|] eqn:Ev; [|discriminate].
        apply reasonLoop_seen in H. destruct H as (<- & _ & H). repeat split; [exact H| |].
        -- exact Hn.
        -- apply (enumerated_iff v n Hn) in Ev. destruct Ev as [_ Ev]. exact Ev.
      * intros [(H & _)|(x & w & y & E & H & Ei)]; [destruct (H v); left; reflexivity|].
        destruct x as [|q x]; cbn [app] in E.
        -- injection E as <- <-. apply (enumerated_iff v n Hn) in Ei. rewrite Ei. apply reasonLoop_seen.
           repeat split; [lia|lia|exact H].
        -- injection E as <- ->. exfalso. apply (H v). left. reflexivity.
    + rewrite IH. split.
      * intros [(H & ->)|(x & w & y & -> & H & Ei)].
        -- left. split; [|reflexivity]. intros w [E|I]; [congruence|exact (H w I)].
        -- right. exists ((id, v) :: x), w, y. repeat split; try apply Ei. intros w' [E|I]; [congruence|exact (H w' I)].
      * intros [(H & ->)|(x & w & y & E & H & Ei)].
        -- left. split; [|reflexivity]. intros w I. apply (H w). right. exact I.
        -- right. destruct x as [|q x]; cbn [app] in E; [congruence|]. injection E as <- ->. exists x, w, y.
           repeat split; try apply Ei. intros w' I. apply (H w'). right. exact I.
Qed.
Lemma reasonLoop_range exts : forall seen code z, reasonLoop seen code exts = Some z -> (0 <= z <= 255)%Z.
Proof.
  induction exts as [|[i v] exts IH]; intros seen code z; cbn [reasonLoop].
  - destruct ((code <? 0) || (255 <? code))%Z eqn:C; [discriminate|]. apply orb_false_iff in C. rewrite !Z.ltb_ge in C.
    intros E. injection E as <-. lia.
  - destruct i; [|apply IH]. destruct seen; [discriminate|]. destruct v; [apply IH|discriminate].
Qed.

Lemma exts_iff s a : seqOf (length s) extension s = Some a <-> exists xs, listSays extSays s xs /\ a = map extOf xs.
Proof. apply (seqOf_iff extension extSays extOf extension_iff). lia. Qed.

Definition entryOf (x : bytes * list (bytes * bytes)) : crlEntry := mkEntry (fst x) (map extOf (snd x)).
Lemma allSerials_iff xs : forall l, allSerials (map entryOf xs) = Some l <->
  Forall2 (fun x y => fst x = fst y /\ reasonIs (snd x) (snd y)) xs l.
Proof.
  assert (S : forall x y, serialAndReason (entryOf x) = Some y <-> fst x = fst y /\ reasonIs (snd x) (snd y)).
  { intros [s exts] [s' n]. unfold serialAndReason, reasonOf, entryOf. cbn [fst snd ce_exts ce_serial]. split.
    - destruct (reasonLoop false 0 (map extOf exts)) as [z|] eqn:R; [|discriminate]. intros E.
      pose proof (reasonLoop_range _ _ _ _ R) as B. assert (s = s') by congruence. assert (En : n = Z.to_N (z mod 256)) by congruence.
      rewrite Z.mod_small in En by lia. split; [assumption|]. apply reasonLoop_iff; [lia|]. rewrite R, En. f_equal. lia.
    - intros [-> R]. assert (n < 256).
      { destruct R as [(_ & ->)|(x & v & y & _ & _ & (L & _))]; lia. }
      apply reasonLoop_iff in R; [|assumption]. rewrite R. rewrite Z.mod_small by lia. rewrite N2Z.id. reflexivity. }
  induction xs as [|x xs IH]; intros l; cbn [map allSerials].
  - split; [intros E; injection E as <-; constructor|intros F; inversion F; reflexivity].
  - split.
    + destruct (serialAndReason (entryOf x)) as [y|] eqn:E; [|discriminate].
      destruct (allSerials (map entryOf xs)) as [ys|] eqn:A; [|discriminate]. intros Q. injection Q as <-.
      constructor; [apply S; exact E|apply IH; reflexivity].
    + intros F. inversion F as [|? y ? ys Hy Fy]; subst. apply S in Hy. rewrite Hy. apply IH in Fy. rewrite Fy. reflexivity.
Qed.

Section Entries.
  Variable timeOk : N -> bytes -> bool.

  Lemma date_iff b r : timeField timeOk false b = Some r <-> exists e, isDate timeOk e /\ b = e ++ r.
  Proof using Type.
    unfold timeField. split.
    - destruct b as [|y b]; [discriminate|]. destruct (header (y :: b)) as [[[c k t n] r1]|] eqn:H; [|discriminate].
      destruct (isTime _) eqn:T; [|discriminate]. destruct (contents _ r1) as [[s r2]|] eqn:C; [|discriminate].
      destruct (timeOk _ s) eqn:O; [|discriminate]. intros E. injection E as <-.
      destruct (element_header _ _ _ _ _ H C) as (e & El & ->). cbn [h_class h_comp h_tag] in *.
      exists e. split; [|reflexivity]. exists t, s. unfold isTime in T. apply orb_true_iff in T. rewrite !isType_iff in T.
      destruct T as [(-> & -> & ->)|(-> & -> & ->)]; (split; [lia|]; split; assumption).
    - intros (e & (t & s & T & El & O) & ->). destruct (header_element _ _ _ _ _ r El) as [H C].
      destruct (e ++ r) as [|y b] eqn:Eb. { apply app_eq_nil in Eb. destruct Eb as [Eb _]. destruct (element_nonempty _ _ _ _ _ El Eb). }
      rewrite H. assert (X : isTime (mkHdr 0 false t (N.of_nat (length s))) = true).
      { unfold isTime. apply orb_true_iff. rewrite !isType_iff. destruct T as [->| ->]; [left|right]; repeat split. }
      rewrite X, C. cbn [h_tag]. rewrite O. reflexivity.
  Qed.
  Lemma optDate_iff b r : timeField timeOk true b = Some r <->
    exists e, b = e ++ r /\ (isDate timeOk e \/ e = [] /\ noDate r).
  Proof using Type.
    split.
    - intros E. unfold timeField in E. destruct b as [|y b].
      { injection E as <-. exists []. split; [reflexivity|]. right. split; [reflexivity|]. left. reflexivity. }
      destruct (header (y :: b)) as [[[c k t n] r1]|] eqn:H; [|discriminate].
      destruct (isTime _) eqn:T.
      + assert (F : timeField timeOk false (y :: b) = Some r).
        { unfold timeField. rewrite H, T. exact E. }
        apply date_iff in F. destruct F as (e & D & Eb). exists e. split; [exact Eb|left; exact D].
      + injection E as <-. exists []. split; [reflexivity|]. right. split; [reflexivity|]. right.
        exists c, k, t, n, r1. split; [apply header_iff; exact H|]. intros (-> & -> & Q).
        unfold isTime in T. apply orb_false_iff in T. destruct T as [T1 T2].
        destruct Q as [->| ->].
        * assert (X : isType (mkHdr 0 false 23 n) false 23 = true) by (apply isType_iff; repeat split). congruence.
        * assert (X : isType (mkHdr 0 false 24 n) false 24 = true) by (apply isType_iff; repeat split). congruence.
    - intros (e & -> & [D|(-> & ND)]).
      + assert (F : timeField timeOk false (e ++ r) = Some r) by (apply date_iff; exists e; split; [exact D|reflexivity]).
        unfold timeField in *. destruct (e ++ r); [discriminate|]. destruct (header _) as [[h r1]|]; [|discriminate].
        destruct (isTime h); [exact F|discriminate].
      + cbn [app]. destruct ND as [->|(c & k & t & n & r1 & Bg & Ne)]; [reflexivity|].
        unfold timeField. destruct r as [|y r]; [reflexivity|]. apply header_iff in Bg. rewrite Bg.
        destruct (isTime _) eqn:T; [|reflexivity]. exfalso. apply Ne. unfold isTime in T. apply orb_true_iff in T. rewrite !isType_iff in T.
        destruct T as [(-> & -> & ->)|(-> & -> & ->)]; repeat split; lia.
  Qed.

  (** An entry with the extensions as they stand *)
  Definition rawEntry (b : bytes) (x : bytes * list (bytes * bytes)) : Prop :=
    exists c k t es et b' exts r, b = es ++ et ++ b' /\ element c k t (fst x) es /\ isDate timeOk et /\
      maybe true 16 (listSays extSays) b' exts r /\ snd x = match exts with Some l => l | None => [] end.

  Lemma revokedEntry_iff b a : revokedEntry timeOk b = Some a <-> exists x, rawEntry b x /\ a = entryOf x.
  Proof using Type.
    unfold revokedEntry. split.
    - destruct (rawField b) as [[s r]|] eqn:R; [|discriminate]. destruct (timeField timeOk false r) as [r1|] eqn:T; [|discriminate].
      destruct (optField true 16 _ r1) as [[o r2]|] eqn:O; [|discriminate]. intros E. injection E as <-.
      apply rawField_iff in R. destruct R as (c & k & t & es & Es & ->). apply date_iff in T. destruct T as (et & D & ->).
      apply (optField_iff true 16 _ (listSays extSays) (map extOf)) in O; [|exact exts_iff]. destruct O as (x & M & ->).
      exists (s, match x with Some l => l | None => [] end). split.
      + exists c, k, t, es, et, r1, x, r2. cbn [fst snd]. split; [reflexivity|]. split; [exact Es|]. split; [exact D|]. split; [exact M|reflexivity].
      + unfold entryOf. cbn [fst snd]. destruct x; reflexivity.
    - intros ([s exts] & (c & k & t & es & et & b' & x & r & -> & Es & D & M & Ex) & ->). cbn [fst snd] in *. subst exts.
      assert (R : rawField (es ++ et ++ b') = Some (s, et ++ b')) by (apply rawField_iff; exists c, k, t, es; split; [exact Es|reflexivity]).
      assert (T : timeField timeOk false (et ++ b') = Some b') by (apply date_iff; exists et; split; [exact D|reflexivity]).
      assert (O : optField true 16 (fun c => seqOf (length c) extension c) b' = Some (option_map (map extOf) x, r)).
      { apply (optField_iff true 16 _ (listSays extSays) (map extOf)); [exact exts_iff|]. exists x. split; [exact M|reflexivity]. }
      rewrite R, T, O. unfold entryOf. cbn [fst snd]. destruct x; reflexivity.
  Qed.
  Lemma entries_iff s a : seqOf (length s) (revokedEntry timeOk) s = Some a <-> exists xs, listSays rawEntry s xs /\ a = map entryOf xs.
  Proof using Type. apply (seqOf_iff (revokedEntry timeOk) rawEntry entryOf revokedEntry_iff). reflexivity. Qed.

  Lemma entry_split b y : entrySays timeOk b y <-> exists x, rawEntry b x /\ fst x = fst y /\ reasonIs (snd x) (snd y).
  Proof using Type.
    destruct y as [s n]. cbn [fst snd]. split.
    - intros (c & k & t & es & et & b' & exts & r & Eb & Es & D & M & R). cbn [fst snd] in *.
      exists (s, match exts with Some l => l | None => [] end). cbn [fst snd]. split; [|split; [reflexivity|exact R]].
      exists c, k, t, es, et, b', exts, r. cbn [fst snd]. repeat (split; [assumption|]). reflexivity.
    - intros ([s' exts'] & (c & k & t & es & et & b' & exts & r & Eb & Es & D & M & Ex) & Q & R). cbn [fst snd] in *. subst s' exts'.
      exists c, k, t, es, et, b', exts, r. cbn [fst snd]. repeat (split; [assumption|]). assumption.
  Qed.
  Lemma list_split b l : listSays (entrySays timeOk) b l <->
    exists xs, listSays rawEntry b xs /\ Forall2 (fun x y => fst x = fst y /\ reasonIs (snd x) (snd y)) xs l.
  Proof using Type.
    split.
    - induction 1 as [|s y e b l El P M (xs & Mx & F)].
      + exists []. split; constructor.
      + apply entry_split in P. destruct P as (x & Px & Q). exists (x :: xs). split; [|constructor; assumption].
        exact (list_cons rawEntry s x e b xs El Px Mx).
    - intros (xs & M & F). revert l F. induction M as [|s x e b xs El P M IH]; intros l F; inversion F as [|? y ? ys Q Fy]; subst.
      + constructor.
      + apply list_cons with (s := s); [exact El| |apply IH; exact Fy]. apply entry_split. exists x. split; [exact P|exact Q].
  Qed.

  (** What is made of the signed part of a CRL: it is used exactly if it is a TBSCertList
      all of whose entries have at most one reason, from 0 to 255, and then the serials are
      the contents of the first elements of the entries, in order, each with its reason. *)
  Theorem C76_crl : forall thisUpdate b l,
    processCRL (mkCrl thisUpdate (decodeRawTBSCertList timeOk b)) = Some l <-> crlSays timeOk b l.
  Proof using Type.
    intros tu b l. unfold processCRL, crlSays. cbn [crl_entries]. split.
    - destruct (decodeRawTBSCertList timeOk b) as [ents|] eqn:Dc; [|discriminate]. intros A.
      unfold decodeRawTBSCertList in Dc. destruct (field true 16 (tbsCertList timeOk) b) as [[ents' trail]|] eqn:F; [|discriminate].
      injection Dc as ->. apply field_iff in F. destruct F as (b0 & e & El & P & ->). unfold tbsCertList in P.
      destruct (optField false 2 parseInt64 b0) as [[v b1]|] eqn:O; [|discriminate].
      apply (optField_iff false 2 parseInt64 (fun s (v : bytes) => integer s /\ v = s) signed) in O; [|exact parseInt64_iff].
      destruct O as (ver & M1 & _).
      destruct (rawField b1) as [[s1 r1]|] eqn:R1; [|discriminate]. apply rawField_iff in R1. destruct R1 as (c1 & k1 & t1 & e1 & E1 & ->).
      destruct (rawField r1) as [[s2 r2]|] eqn:R2; [|discriminate]. apply rawField_iff in R2. destruct R2 as (c2 & k2 & t2 & e2 & E2 & ->).
      destruct (timeField timeOk false r2) as [r3|] eqn:T3; [|discriminate]. apply date_iff in T3. destruct T3 as (e3 & D3 & ->).
      destruct (timeField timeOk true r3) as [r4|] eqn:T4; [|discriminate]. apply optDate_iff in T4. destruct T4 as (e4 & -> & D4).
      destruct (optField true 16 _ r4) as [[o r]|] eqn:O; [|discriminate].
      apply (optField_iff true 16 _ (listSays rawEntry) (map entryOf)) in O; [|exact entries_iff]. destruct O as (x & M2 & ->).
      injection P as <-.
      assert (Ex : exists y, maybe true 16 (listSays (entrySays timeOk)) r4 y r /\ l = match y with Some l => l | None => [] end).
      { inversion M2 as [s xs e5 r' E5 Px Q1 Q2 Q3|Q1 Q2 Q3|c k t n b' r' Bg Ne Q1 Q2 Q3]; subst; cbn [option_map] in A.
        - apply allSerials_iff in A. exists (Some l). split; [|reflexivity]. apply maybe_there with (s := s); [exact E5|].
          apply list_split. exists xs. split; assumption.
        - exists None. split; [constructor|]. cbn in A. congruence.
        - exists None. split; [|cbn in A; congruence]. eapply maybe_other; eassumption. }
      destruct Ex as (y & My & El').
      exists e, trail, b0, ver, (e1 ++ e2 ++ e3 ++ e4 ++ r4), c1, k1, t1, s1, e1, c2, k2, t2, s2, e2, e3, e4, r4, y, r.
      repeat (split; [first [assumption|reflexivity]|]). exact El'.
    - intros (e & trail & b0 & v & b1 & c1 & k1 & t1 & s1 & e1 & c2 & k2 & t2 & s2 & e2 & e3 & e4 & b5 & o & r &
              -> & El & M1 & E1 & E2 & D3 & -> & D4 & M2 & ->).
      assert (Ex : exists x, maybe true 16 (listSays rawEntry) b5 x r /\
                     allSerials (match x with Some xs => map entryOf xs | None => [] end) = Some (match o with Some l => l | None => [] end)).
      { inversion M2 as [s xs e5 r' E5 Px Q1 Q2 Q3|Q1 Q2 Q3|c k t n b' r' Bg Ne Q1 Q2 Q3]; subst.
        - apply list_split in Px. destruct Px as (ys & My & Fy). exists (Some ys). split; [|apply allSerials_iff; exact Fy].
          apply maybe_there with (s := s); assumption.
        - exists None. split; [constructor|reflexivity].
        - exists None. split; [|reflexivity]. eapply maybe_other; eassumption. }
      destruct Ex as (x & Mx & A).
      assert (Dc : decodeRawTBSCertList timeOk (e ++ trail) = Some (match x with Some xs => map entryOf xs | None => [] end)).
      { unfold decodeRawTBSCertList.
        assert (F : field true 16 (tbsCertList timeOk) (e ++ trail) = Some (match x with Some xs => map entryOf xs | None => [] end, trail)).
        { apply field_iff. exists b0, e. split; [exact El|]. split; [|reflexivity]. unfold tbsCertList.
          assert (O1 : optField false 2 parseInt64 b0 = Some (option_map signed v, e1 ++ e2 ++ e3 ++ e4 ++ b5)).
          { apply (optField_iff false 2 parseInt64 (fun s (v : bytes) => integer s /\ v = s) signed); [exact parseInt64_iff|].
            exists v. split; [exact M1|reflexivity]. }
          rewrite O1. clear O1.
          assert (R1 : rawField (e1 ++ e2 ++ e3 ++ e4 ++ b5) = Some (s1, e2 ++ e3 ++ e4 ++ b5)) by (apply rawField_iff; exists c1, k1, t1, e1; split; [exact E1|reflexivity]).
          assert (R2 : rawField (e2 ++ e3 ++ e4 ++ b5) = Some (s2, e3 ++ e4 ++ b5)) by (apply rawField_iff; exists c2, k2, t2, e2; split; [exact E2|reflexivity]).
          assert (T3 : timeField timeOk false (e3 ++ e4 ++ b5) = Some (e4 ++ b5)) by (apply date_iff; exists e3; split; [exact D3|reflexivity]).
          assert (T4 : timeField timeOk true (e4 ++ b5) = Some b5) by (apply optDate_iff; exists e4; split; [reflexivity|exact D4]).
          rewrite R1, R2, T3, T4. clear R1 R2 T3 T4.
          assert (O2 : optField true 16 (fun c => seqOf (length c) (revokedEntry timeOk) c) b5 = Some (option_map (map entryOf) x, r)).
          { apply (optField_iff true 16 _ (listSays rawEntry) (map entryOf)); [exact entries_iff|]. exists x. split; [exact Mx|reflexivity]. }
          rewrite O2. destruct x; reflexivity. }
        rewrite F. reflexivity. }
      rewrite Dc. exact A.
  Qed.
End Entries.

(** ** Numbers and octets *)

(** 8.3.3: the number of an INTEGER's contents, in two's complement *)
Definition numberOf (s : bytes) : Z :=
  (Z.of_N (number 256 (map Byte.to_N s)) -
   match s with x :: _ => if (128 <=? Byte.to_N x)%N then 256 ^ Z.of_nat (length s) else 0 | [] => 0 end)%Z.
(** 8.3.2: the first nine bits are not all the same. *)
Definition minimal (s : bytes) : Prop :=
  s <> [] /\ ~ (exists y r, s = x00 :: y :: r /\ Byte.to_N y < 128) /\ ~ (exists y r, s = xff :: y :: r /\ 128 <= Byte.to_N y).

Lemma number_getBE s : number 256 (map Byte.to_N s) = getBE s.
Proof.
  induction s as [|x s IH]; [reflexivity|]. unfold number. cbn [map fold_left]. rewrite fold_number, getBE_cons, IH, map_length. lia.
Qed.
Lemma pow_Z k : Z.of_N (256 ^ N.of_nat k) = (256 ^ Z.of_nat k)%Z.
Proof. rewrite N2Z.inj_pow. rewrite nat_N_Z. reflexivity. Qed.
Lemma pow_S k : (256 ^ Z.of_nat (S k) = 256 * 256 ^ Z.of_nat k)%Z.
Proof. rewrite Nat2Z.inj_succ, Z.pow_succ_r by lia. reflexivity. Qed.
(** Where numbers of [S k] octets lie *)
Lemma numberOf_range x s : (- (128 * 256 ^ Z.of_nat (length s)) <= numberOf (x :: s) < 128 * 256 ^ Z.of_nat (length s))%Z.
Proof.
  unfold numberOf. rewrite number_getBE, getBE_cons. cbn [length]. rewrite pow_S.
  pose proof (getBE_lt s) as G. pose proof (to_N_lt x) as X. rewrite N2Z.inj_add, N2Z.inj_mul, pow_Z.
  assert (G' : (Z.of_N (getBE s) < 256 ^ Z.of_nat (length s))%Z) by (rewrite <- pow_Z; lia).
  assert (0 <= Z.of_N (getBE s))%Z by lia. clear G. revert G' H.
  generalize (256 ^ Z.of_nat (length s))%Z (Z.of_N (getBE s)). intros p g G' H.
  destruct (N.leb_spec 128 (Byte.to_N x)); split; nia.
Qed.
Lemma numberOf_minimal x y s : minimal (x :: y :: s) ->
  (numberOf (x :: y :: s) < - (128 * 256 ^ Z.of_nat (length s)) \/ 128 * 256 ^ Z.of_nat (length s) <= numberOf (x :: y :: s))%Z.
Proof.
  intros (_ & H0 & H1). unfold numberOf. rewrite number_getBE, !getBE_cons. cbn [length]. rewrite !pow_S.
  pose proof (getBE_lt s) as G. pose proof (to_N_lt x) as X. pose proof (to_N_lt y) as Y.
  rewrite !N2Z.inj_add, !N2Z.inj_mul, !pow_Z, pow_S.
  assert (G' : (Z.of_N (getBE s) < 256 ^ Z.of_nat (length s))%Z) by (rewrite <- pow_Z; lia).
  assert (G0 : (0 <= Z.of_N (getBE s))%Z) by lia. clear G.
  assert (A : Byte.to_N x = 0 -> 128 <= Byte.to_N y).
  { intros E. destruct (N.lt_ge_cases (Byte.to_N y) 128) as [L|L]; [|exact L]. exfalso. apply H0. exists y, s.
    split; [|exact L]. f_equal. apply to_N_inj. rewrite E. reflexivity. }
  assert (B : Byte.to_N x = 255 -> Byte.to_N y < 128).
  { intros E. destruct (N.lt_ge_cases (Byte.to_N y) 128) as [L|L]; [exact L|]. exfalso. apply H1. exists y, s.
    split; [|exact L]. f_equal. apply to_N_inj. rewrite E. reflexivity. }
  revert G' G0. generalize (256 ^ Z.of_nat (length s))%Z (Z.of_N (getBE s)). intros p g G' G0.
  destruct (N.leb_spec 128 (Byte.to_N x)) as [L|L].
  - left. destruct (N.eq_dec (Byte.to_N x) 255) as [E|E].
    + specialize (B E). rewrite E. nia.
    + assert (Byte.to_N x <= 254) by lia. nia.
  - right. destruct (N.eq_dec (Byte.to_N x) 0) as [E|E].
    + specialize (A E). rewrite E. nia.
    + assert (1 <= Byte.to_N x) by lia. nia.
Qed.
Lemma numberOf_shorter s s' : minimal s -> minimal s' -> (length s < length s')%nat -> numberOf s <> numberOf s'.
Proof.
  intros M M' L E. destruct s as [|x s]; [destruct M as [M _]; destruct (M eq_refl)|].
  destruct s' as [|x' [|y' s']]; cbn [length] in L; [lia|lia|].
  pose proof (numberOf_range x s) as R. pose proof (numberOf_minimal _ _ _ M') as R'. rewrite E in R.
  assert (P : (256 ^ Z.of_nat (length s) <= 256 ^ Z.of_nat (length s'))%Z) by (apply Z.pow_le_mono_r; lia).
  lia.
Qed.
(** In the shortest form a number has one encoding. *)
Lemma numberOf_inj s s' : minimal s -> minimal s' -> numberOf s = numberOf s' -> s = s'.
Proof.
  intros M M' E. destruct (Nat.lt_total (length s) (length s')) as [L|[L|L]].
  - destruct (numberOf_shorter s s' M M' L E).
  - rewrite <- (be_getBE s), <- (be_getBE s'), L. f_equal. pose proof (getBE_lt s) as G. pose proof (getBE_lt s') as G'. rewrite L in G.
    unfold numberOf in E. rewrite !number_getBE, L in E.
    assert (P : (Z.of_N (256 ^ N.of_nat (length s')) = 256 ^ Z.of_nat (length s'))%Z) by apply pow_Z.
    assert (Hi : forall s, exists q, (match s with x :: _ => if (128 <=? Byte.to_N x)%N then 256 ^ Z.of_nat (length s') else 0 | [] => 0 end = q * 256 ^ Z.of_nat (length s'))%Z /\ (0 <= q <= 1)%Z).
    { intros [|x r]; [exists 0%Z; lia|]. destruct (128 <=? _); [exists 1%Z|exists 0%Z]; lia. }
    destruct (Hi s) as (q & Eq & Q). destruct (Hi s') as (q' & Eq' & Q'). rewrite Eq, Eq' in E. rewrite <- P in E.
    revert E G G'. generalize (256 ^ N.of_nat (length s')) (getBE s) (getBE s'). intros p g g' E G G'.
    assert (Cq : (q = 0 \/ q = 1)%Z) by lia. assert (Cq' : (q' = 0 \/ q' = 1)%Z) by lia.
    destruct Cq as [->| ->], Cq' as [->| ->]; lia.
  - destruct (numberOf_shorter s' s M' M L (eq_sym E)).
Qed.

(** A certificate with a serial number in the shortest form is found among the serials of a
    CRL, all in the shortest form, exactly if the CRL names its number. *)
Theorem C76_matched : forall timeOk thisUpdate tbs s0 crl l0,
  tbsSays tbs s0 -> crlSays timeOk crl l0 -> minimal s0 -> (forall s n, In (s, n) l0 -> minimal s) ->
  exists s l, serialOfTBS tbs = Some s /\ processCRL (mkCrl thisUpdate (decodeRawTBSCertList timeOk crl)) = Some l /\
    forall n, In (s, n) l <-> exists s', In (s', n) l0 /\ numberOf s' = numberOf s0.
Proof.
  intros timeOk tu tbs s0 crl l0 T C M Ml. exists s0, l0. split; [apply C76_certificate; exact T|].
  split; [apply C76_crl; exact C|]. intros n. split.
  - intros I. exists s0. split; [exact I|reflexivity].
  - intros (s' & I & E). rewrite <- (numberOf_inj s' s0 (Ml _ _ I) M E). exact I.
Qed.

(** Two certificates with the same serial number, one of them not in the shortest form, are
    two serials, and a CRL that names the number in the shortest form matches only one. *)
Theorem C76_number_refuted : exists tbs tbs' crl s s',
  serialOfTBS tbs = Some s /\ serialOfTBS tbs' = Some s' /\ numberOf s = numberOf s' /\
  (exists l, processCRL (mkCrl 0 (decodeRawTBSCertList (fun _ _ => true) crl)) = Some l /\ In (s, 0) l /\ ~ In (s', 0) l).
Proof.
  exists [x30; x03; x02; x01; x05], [x30; x04; x02; x02; x00; x05],
    [x30; x11; x30; x00; x30; x00; x17; x01; x30; x30; x08; x30; x06; x02; x01; x05; x17; x01; x30], [x05], [x00; x05].
  split; [reflexivity|]. split; [reflexivity|]. split; [reflexivity|].
  exists [([x05], 0)]. split; [reflexivity|]. split; [left; reflexivity|]. intros [E|[]]. discriminate E.
Qed.

(** A certificate with a version and the serial 129, and a CRL with two entries, the second
    for that serial, with a critical extension and a reason. *)
Definition exTBS : bytes := [x30; x0b; xa0; x03; x02; x01; x02; x02; x02; x00; x81; x30; x00].
Definition exCRL : bytes :=
  [x30; x3c; x02; x01; x01; x30; x00; x30; x00; x17; x01; x30; x17; x01; x30; x30; x2d; x30; x06; x02; x01; x05; x17; x01; x30; x30; x23; x02; x02; x00; x81; x17; x01; x30; x30; x1a; x30; x0c; x06; x03; x55; x1d; x18; x01; x01; xff; x04; x02; x01; x02; x30; x0a; x06; x03; x55; x1d; x15; x04; x03; x0a; x01; x01].
Example C76_example :
  serialOfTBS exTBS = Some [x00; x81] /\ tbsSays exTBS [x00; x81] /\
  processCRL (mkCrl 0 (decodeRawTBSCertList (fun _ _ => true) exCRL)) = Some [([x05], 0); ([x00; x81], 1)] /\
  crlSays (fun _ _ => true) exCRL [([x05], 0); ([x00; x81], 1)] /\
  minimal [x00; x81] /\ numberOf [x00; x81] = 129%Z /\ numberOf [x81] = (-127)%Z.
Proof.
  assert (T : serialOfTBS exTBS = Some [x00; x81]) by reflexivity.
  assert (C : processCRL (mkCrl 0 (decodeRawTBSCertList (fun _ _ => true) exCRL)) = Some [([x05], 0); ([x00; x81], 1)]) by reflexivity.
  split; [exact T|]. split; [apply C76_certificate; exact T|]. split; [exact C|]. split; [apply C76_crl in C; exact C|].
  split; [|split; reflexivity]. apply minimalInt_iff. reflexivity.
Qed.
(** Two reasons in an entry, an indefinite length, a number with a superfluous octet in the
    version: refused. *)
Example C76_example_refused :
  processCRL (mkCrl 0 (decodeRawTBSCertList (fun _ _ => true)
    [x30; x31; x02; x01; x01; x30; x00; x30; x00; x17; x01; x30; x17; x01; x30; x30; x22; x30; x20; x02; x01; x05; x17; x01; x30; x30; x18; x30; x0a; x06; x03; x55; x1d; x15; x04; x03; x0a; x01; x01; x30; x0a; x06; x03; x55; x1d; x15; x04; x03; x0a; x01; x01])) = None /\
  serialOfTBS [x30; x80; x02; x01; x05; x00; x00] = None /\
  decodeRawTBSCertList (fun _ _ => true) [x30; x0b; x02; x02; x00; x01; x30; x00; x30; x00; x17; x01; x30] = None /\
  decodeRawTBSCertList (fun _ _ => true) [x30; x0a; x02; x01; x01; x30; x00; x30; x00; x17; x01; x30] = Some [].
Proof. repeat split; reflexivity. Qed.

Print Assumptions C76_certificate.
Print Assumptions C76_crl.
Print Assumptions C76_matched.
Print Assumptions C76_number_refuted.
