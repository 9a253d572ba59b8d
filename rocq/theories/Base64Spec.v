(** * Base64 texts
    RFC 4648, section 4, as a relation between contents and text: groups of four characters
    stand for three bytes, a last group with padding for one or two.  The bits that a last group
    has left over may be anything. *)
From Verif Require Import Base SerialModel SerialProofs Base64.
Local Open Scope N_scope.

Lemma indexFrom_nth c : forall l i j, indexFrom c l i = Some j -> i <= j /\ nth_error l (N.to_nat (j - i)) = Some c.
Proof.
  induction l as [|x l IH]; intros i j; [discriminate|]. cbn [indexFrom]. destruct (byte_eqb_spec x c) as [->|].
  - intros E. assert (i = j) by congruence. subst j. split; [lia|]. rewrite N.sub_diag. reflexivity.
  - intros E. destruct (IH _ _ E) as [L H]. split; [lia|].
    replace (N.to_nat (j - i)) with (S (N.to_nat (j - (i + 1)))) by lia. exact H.
Qed.
Lemma to_byteOf n : n < 256 -> Byte.to_N (byteOf n) = n.
Proof.
  intros H. unfold byteOf. rewrite N.mod_small by lia. destruct (Byte.of_N n) eqn:E; [apply Byte.to_of_N; exact E|].
  apply Byte.of_N_None_iff in E. lia.
Qed.
Section Text.
  Variable alphabet : bytes.

  Definition digit (c : byte) (i : N) : Prop := i < 64 /\ nth_error alphabet (N.to_nat i) = Some c.

  Inductive b64Text : bytes -> bytes -> Prop :=
  | BtNil : b64Text [] []
  | BtOne a c1 c2 i j x : digit c1 i -> digit c2 j -> x < 16 ->
      i * 64 + j = Byte.to_N a * 16 + x -> b64Text [a] [c1; c2; "="%byte; "="%byte]
  | BtTwo a b c1 c2 c3 i j k x : digit c1 i -> digit c2 j -> digit c3 k -> x < 4 ->
      (i * 64 + j) * 64 + k = (Byte.to_N a * 256 + Byte.to_N b) * 4 + x -> b64Text [a; b] [c1; c2; c3; "="%byte]
  | BtThree a b c raw c1 c2 c3 c4 i j k m txt : digit c1 i -> digit c2 j -> digit c3 k -> digit c4 m ->
      ((i * 64 + j) * 64 + k) * 64 + m = (Byte.to_N a * 256 + Byte.to_N b) * 256 + Byte.to_N c ->
      b64Text raw txt -> b64Text (a :: b :: c :: raw) (c1 :: c2 :: c3 :: c4 :: txt).

  Hypothesis good : goodAlphabet alphabet = true.

  Lemma good_length : length alphabet = 64%nat.
  Proof using good.
    unfold goodAlphabet in good. apply andb_prop in good. destruct good as [G _].
    apply andb_prop in G. destruct G as [G _]. apply Nat.eqb_eq in G. exact G.
  Qed.
  Lemma indexOf_digit c i : indexOf alphabet c = Some i <-> digit c i.
  Proof using good.
    split.
    - intros E. destruct (indexFrom_nth _ _ _ _ E) as [_ H]. rewrite N.sub_0_r in H. split; [|exact H].
      assert (N.to_nat i < length alphabet)%nat by (apply nth_error_Some; congruence). rewrite good_length in *. lia.
    - intros [L H]. apply (nth_error_nth _ _ pad) in H. rewrite <- (indexOf_charAt _ good i L). unfold charAt. rewrite H. reflexivity.
  Qed.
  Lemma digit_pad c i : digit c i -> Byte.eqb c pad = false.
  Proof using good. intros [L H]. apply (nth_error_nth _ _ pad) in H. rewrite <- H. apply (charAt_pad _ good i L). Qed.
  Ltac dm := Z.to_euclidean_division_equations; lia.

  Lemma b64decode_sound : forall n txt raw, (length txt <= n)%nat -> b64decode alphabet txt = Some raw -> b64Text raw txt.
  Proof using good.
    induction n as [|n IH]; intros txt raw Hn; [destruct txt; [|cbn in Hn; lia]; intros E; injection E as <-; constructor|].
    destruct txt as [|c1 [|c2 [|c3 [|c4 txt]]]]; try discriminate; [intros E; injection E as <-; constructor|]. cbn [b64decode].
    destruct (indexOf alphabet c1) as [i|] eqn:E1; [|discriminate]. destruct (indexOf alphabet c2) as [j|] eqn:E2; [|discriminate].
    apply indexOf_digit in E1, E2. pose proof (proj1 E1). pose proof (proj1 E2).
    destruct (byte_eqb_spec c3 pad) as [->|].
    { destruct txt; [|discriminate]. destruct (byte_eqb_spec c4 pad) as [->|]; [|discriminate]. intros E. injection E as <-.
      apply (BtOne _ c1 c2 i j (j mod 16)); [assumption|assumption|dm|]. rewrite to_byteOf by dm. dm. }
    destruct (indexOf alphabet c3) as [k|] eqn:E3; [|discriminate]. apply indexOf_digit in E3. pose proof (proj1 E3).
    destruct (byte_eqb_spec c4 pad) as [->|].
    { destruct txt; [|discriminate]. intros E. injection E as <-.
      apply (BtTwo _ _ c1 c2 c3 i j k (k mod 4)); [assumption|assumption|assumption|dm|]. rewrite !to_byteOf by dm. dm. }
    destruct (indexOf alphabet c4) as [m|] eqn:E4; [|discriminate]. apply indexOf_digit in E4. pose proof (proj1 E4).
    destruct (b64decode alphabet txt) as [r|] eqn:R; [|discriminate]. intros E. injection E as <-.
    apply (BtThree _ _ _ r c1 c2 c3 c4 i j k m); try assumption.
    - rewrite !to_byteOf by dm. dm.
    - apply IH; [cbn in Hn; lia|exact R].
  Qed.
  (** The decoder reads these texts and no other, each as what it stands for. *)
  Theorem b64decode_spec txt raw : b64decode alphabet txt = Some raw <-> b64Text raw txt.
  Proof using good.
    split; [apply (b64decode_sound (length txt)); lia|].
    induction 1 as [|a c1 c2 i j x D1 D2 L E|a b c1 c2 c3 i j k x D1 D2 D3 L E|a b c raw c1 c2 c3 c4 i j k m txt D1 D2 D3 D4 E T IH];
      [reflexivity|..]; cbn [b64decode]; change "="%byte with pad;
      try (pose proof (digit_pad _ _ D3) as P3; pose proof (proj1 D3); apply indexOf_digit in D3);
      try (pose proof (digit_pad _ _ D4) as P4; pose proof (proj1 D4); apply indexOf_digit in D4);
      pose proof (proj1 D1); pose proof (proj1 D2); apply indexOf_digit in D1, D2; rewrite D1, D2; pose proof (to_N_lt a).
    - change (Byte.eqb pad pad) with true. cbv iota. f_equal. f_equal. apply byteOf_is. dm.
    - pose proof (to_N_lt b). rewrite P3, D3. change (Byte.eqb pad pad) with true. cbv iota zeta. f_equal. f_equal; [apply byteOf_is; dm|]. f_equal. apply byteOf_is. dm.
    - pose proof (to_N_lt b). pose proof (to_N_lt c). rewrite P3, D3, P4, D4, IH. cbv zeta. f_equal. f_equal; [apply byteOf_is; dm|]. f_equal; [apply byteOf_is; dm|]. f_equal. apply byteOf_is. dm.
  Qed.
  Lemma b64encode_text raw : b64Text raw (b64encode alphabet raw).
  Proof using good. apply b64decode_spec. apply b64decode_encode. exact good. Qed.
  Lemma b64Text_char raw txt c : b64Text raw txt -> In c txt -> c = "="%byte \/ In c alphabet.
  Proof using Type.
    assert (D : forall x i, digit x i -> In x alphabet) by (intros x i [_ H]; apply nth_error_In in H; exact H).
    induction 1; cbn [In]; intros I; repeat (destruct I as [I|I]; [subst; eauto|]); try contradiction. auto.
  Qed.
End Text.

(** Any last bits are read: 'QQ==' and 'QR==' are both the letter A. *)
Example b64Text_example : b64Text stdAlphabet (B "A") (B "QQ==") /\ b64Text stdAlphabet (B "A") (B "QR==") /\
  b64Text stdAlphabet (B "ABCDE") (B "QUJDREU=") /\ (forall raw, ~ b64Text stdAlphabet raw (B "QQ=A")).
Proof.
  repeat split; try (apply b64decode_spec; [exact std_good|vm_compute; reflexivity]).
  intros raw H. apply (b64decode_spec _ std_good) in H. vm_compute in H. discriminate H.
Qed.
