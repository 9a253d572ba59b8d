(** * Base64 with padding
    Go's base64.StdEncoding and base64.URLEncoding (used by /repo/go/types.go
    lines 154, 240, 249; /repo/go/storage/rediscache.go:279) and their Rust and
    Python counterparts, for well-formed texts. *)
From Verif Require Import Base SerialModel SerialProofs.
Local Open Scope N_scope.

(** RFC 4648, tables 1 and 2. *)
Definition stdAlphabet : bytes := B "ABCDEFGHIJKLMNOPQRSTUVWXYZabcdefghijklmnopqrstuvwxyz0123456789+/".
Definition urlAlphabet : bytes := B "ABCDEFGHIJKLMNOPQRSTUVWXYZabcdefghijklmnopqrstuvwxyz0123456789-_".

Definition pad : byte := "="%byte.

Lemma to_N_lt (b : byte) : Byte.to_N b < 256.
Proof. pose proof (Byte.to_N_bounded b). lia. Qed.

Lemma byteOf_is n b : n = Byte.to_N b -> byteOf n = b.
Proof. intros ->. apply byteOf_to_N. Qed.

Section Alphabet.
  Variable alphabet : bytes.

  Definition charAt (i : N) : byte := nth (N.to_nat i) alphabet pad.

  Fixpoint indexFrom (c : byte) (l : bytes) (i : N) : option N :=
    match l with
    | [] => None
    | x :: l' => if Byte.eqb x c then Some i else indexFrom c l' (i + 1)
    end.
  Definition indexOf (c : byte) : option N := indexFrom c alphabet 0.

  Definition enc3 (a b c : byte) : bytes :=
    let v := Byte.to_N a * 65536 + Byte.to_N b * 256 + Byte.to_N c in
    [charAt (v / 262144); charAt (v / 4096 mod 64); charAt (v / 64 mod 64); charAt (v mod 64)].

  Fixpoint b64encode (l : bytes) : bytes :=
    match l with
    | [] => []
    | [a] => let v := Byte.to_N a * 16 in [charAt (v / 64); charAt (v mod 64); pad; pad]
    | [a; b] => let v := (Byte.to_N a * 256 + Byte.to_N b) * 4 in
        [charAt (v / 4096); charAt (v / 64 mod 64); charAt (v mod 64); pad]
    | a :: b :: c :: l' => enc3 a b c ++ b64encode l'
    end.

  (** Unused bits of the last group are ignored, as by Go's non-strict decoders;
      Go also skips line breaks, which this decoder does not. *)
  Fixpoint b64decode (l : bytes) : option bytes :=
    match l with
    | [] => Some []
    | c1 :: c2 :: c3 :: c4 :: l' =>
        match indexOf c1, indexOf c2 with
        | Some i, Some j =>
            if Byte.eqb c3 pad then
              match l' with
              | [] => if Byte.eqb c4 pad then Some [byteOf (i * 4 + j / 16)] else None
              | _ => None
              end
            else
              match indexOf c3 with
              | None => None
              | Some k =>
                  let v := i * 4096 + j * 64 + k in
                  if Byte.eqb c4 pad then
                    match l' with [] => Some [byteOf (v / 1024); byteOf (v / 4 mod 256)] | _ => None end
                  else
                    match indexOf c4, b64decode l' with
                    | Some m, Some r =>
                        let w := v * 64 + m in
                        Some (byteOf (w / 65536) :: byteOf (w / 256 mod 256) :: byteOf (w mod 256) :: r)
                    | _, _ => None
                    end
              end
        | _, _ => None
        end
    | _ => None
    end.

  (** An alphabet of 64 different characters, not the padding one. *)
  Definition goodAlphabet : bool :=
    (length alphabet =? 64)%nat &&
    forallb (fun i => match indexOf (charAt (N.of_nat i)) with Some j => N.of_nat i =? j | None => false end) (seq 0 64) &&
    negb (existsb (Byte.eqb pad) alphabet).

  Hypothesis good : goodAlphabet = true.

  Lemma indexOf_charAt i : i < 64 -> indexOf (charAt i) = Some i.
  Proof using good.
    intros H. unfold goodAlphabet in good. apply andb_prop in good. destruct good as [G _].
    apply andb_prop in G. destruct G as [_ G]. rewrite forallb_forall in G.
    specialize (G (N.to_nat i)). rewrite in_seq in G. rewrite N2Nat.id in G.
    assert (A : (0 <= N.to_nat i < 0 + 64)%nat) by lia. specialize (G A).
    destruct (indexOf (charAt i)); [|discriminate]. apply N.eqb_eq in G. congruence.
  Qed.

  Lemma charAt_in i : i < 64 -> In (charAt i) alphabet.
  Proof using good.
    intros H. unfold charAt. apply nth_In. unfold goodAlphabet in good. apply andb_prop in good. destruct good as [G _].
    apply andb_prop in G. destruct G as [G _]. apply Nat.eqb_eq in G. rewrite G. lia.
  Qed.

  Lemma charAt_pad i : i < 64 -> Byte.eqb (charAt i) pad = false.
  Proof using good.
    intros H. destruct (byte_eqb_spec (charAt i) pad) as [E|]; [|reflexivity]. exfalso.
    pose proof (charAt_in i H) as I. rewrite E in I.
    unfold goodAlphabet in good. apply andb_prop in good. destruct good as [_ G].
    apply negb_true_iff in G. rewrite <- not_true_iff_false in G. apply G. apply existsb_exists.
    exists pad. split; [exact I|]. destruct (byte_eqb_spec pad pad); congruence.
  Qed.

  Ltac dm := Z.to_euclidean_division_equations; lia.

  Lemma b64decode_encode : forall l, b64decode (b64encode l) = Some l.
  Proof using good.
    assert (G : forall n l, (length l <= n)%nat -> b64decode (b64encode l) = Some l).
    { induction n as [|n IH]; intros l Hl; [destruct l; [reflexivity|cbn in Hl; lia]|].
      destruct l as [|a [|b [|c l]]].
      - reflexivity.
      - cbn [b64encode]. pose proof (to_N_lt a). cbn [b64decode].
        rewrite !indexOf_charAt by dm.
        destruct (byte_eqb_spec pad pad) as [_|N]; [|congruence].
        f_equal. f_equal. apply byteOf_is. dm.
      - cbn [b64encode]. pose proof (to_N_lt a). pose proof (to_N_lt b). cbn [b64decode].
        rewrite !indexOf_charAt by dm. rewrite charAt_pad by dm.
        destruct (byte_eqb_spec pad pad) as [_|N]; [|congruence].
        f_equal. f_equal; [apply byteOf_is; dm|]. f_equal. apply byteOf_is. dm.
      - cbn [b64encode enc3 app]. pose proof (to_N_lt a). pose proof (to_N_lt b). pose proof (to_N_lt c). cbn [b64decode].
        rewrite !indexOf_charAt by dm. rewrite !charAt_pad by dm.
        rewrite IH by (cbn in Hl; lia).
        f_equal. f_equal; [|f_equal; [|f_equal]].
        + apply byteOf_is. dm.
        + apply byteOf_is. dm.
        + apply byteOf_is. dm. }
    intros l. apply (G (length l)). lia.
  Qed.

  Lemma b64encode_inj l l' : b64encode l = b64encode l' -> l = l'.
  Proof using good. intros E. apply (f_equal b64decode) in E. rewrite !b64decode_encode in E. congruence. Qed.

  Lemma b64encode_length l : (length (b64encode l) = 4 * ((length l + 2) / 3))%nat.
  Proof using Type.
    assert (G : forall n l, (length l <= n)%nat -> (length (b64encode l) = 4 * ((length l + 2) / 3))%nat).
    { induction n as [|n IH]; intros k Hl; [destruct k; [reflexivity|cbn in Hl; lia]|].
      destruct k as [|a [|b [|c k]]]; try reflexivity.
      cbn [b64encode]. rewrite app_length. rewrite IH by (cbn in Hl; lia). cbn [length enc3].
      replace (S (S (S (length k))) + 2)%nat with (length k + 2 + 1 * 3)%nat by lia. rewrite Nat.div_add by lia. lia. }
    apply (G (length l)). lia.
  Qed.

  Lemma b64encode_chars l x : In x (b64encode l) -> In x alphabet \/ x = pad.
  Proof using good.
    assert (G : forall n l, (length l <= n)%nat -> In x (b64encode l) -> In x alphabet \/ x = pad).
    { induction n as [|n IH]; intros k Hl; [destruct k; [intros []|cbn in Hl; lia]|].
      destruct k as [|a [|b [|c k]]]; [intros []| | |]; cbn [b64encode].
      - pose proof (to_N_lt a). intros [<-|[<-|[<-|[<-|[]]]]]; auto; left; apply charAt_in; dm.
      - pose proof (to_N_lt a). pose proof (to_N_lt b). intros [<-|[<-|[<-|[<-|[]]]]]; auto; left; apply charAt_in; dm.
      - pose proof (to_N_lt a). pose proof (to_N_lt b). pose proof (to_N_lt c). intros H2. apply in_app_or in H2.
        destruct H2 as [H2|H2]; [|apply (IH k); [cbn in Hl; lia|exact H2]].
        left. cbn [enc3] in H2. destruct H2 as [<-|[<-|[<-|[<-|[]]]]]; apply charAt_in; dm. }
    apply (G (length l)). lia.
  Qed.
End Alphabet.

Lemma std_good : goodAlphabet stdAlphabet = true. Proof. vm_compute. reflexivity. Qed.
Lemma url_good : goodAlphabet urlAlphabet = true. Proof. vm_compute. reflexivity. Qed.
