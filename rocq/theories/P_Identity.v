(** * C81: whose log the recorded progress belongs to *)
From Coq Require Import ZArith.
From Verif Require Import Base SerialModel SerialProofs Base64 Base64Spec StoreModel StoreProofs MerkleModel MerkleSpec MerkleProofs
  MerkleProofs2 MerkleProofs3 CtFetchModel CtFetchProofs CtFetchSafety CtFetchJobs CtFetchTiled CtFetchMin CtSystem
  CtFetchEnd JsonModel IdentityModel P_Merkle P_CtFetch.

(** ** Facts about the states *)
Lemma zeroTime_neg : (zeroTime < 0)%Z.
Proof. vm_compute. reflexivity. Qed.

Lemma view_put s v : view (put s v) = v.
Proof.
  destruct v as [a b c d [n|]]; unfold view, put; cbn [s_minEntry s_maxEntry s_minTs s_maxTs s_time
    ls_minEntry ls_maxEntry ls_minTs ls_maxTs ls_lastUpdate].
  - pose proof zeroTime_neg. destruct (Z.eqb_spec (Z.of_N n) zeroTime) as [E|_]; [lia|]. rewrite N2Z.id. reflexivity.
  - rewrite Z.eqb_refl. reflexivity.
Qed.
Lemma view_adopt m s : view (adopt m s) = view s.
Proof. reflexivity. Qed.
Lemma view_fresh m : view (fresh m) = freshState.
Proof. unfold view, fresh. cbn [s_time s_minEntry s_maxEntry s_minTs s_maxTs]. rewrite Z.eqb_refl. reflexivity. Qed.

Section Identity.
  Variable sha256 : bytes -> bytes.
  Context {Cert : Type}.
  Notation event := (event Cert).
  Variable J : N.
  Hypothesis HJ : (0 < J < two63)%N.
  Notation job := (@job Cert sha256 J).
  Notation reach := (@reach Cert sha256 J).

  (** What one job adds: every newly claimed index but 0 was handed on before. *)
  Lemma job_claims (t : bool) s0 en tr pre sp post i :
    Wall sha256 J (fun _ => t) (fun _ _ => True) [] s0 en tr -> wfAll (fun _ => t) [] s0 ->
    tr = pre ++ EState sp :: post -> claims sp i -> i <> 0%N ->
    claims s0 i \/ exists ts leaf (o : storeOutcome Cert), In (EEntry i ts leaf o) pre /\ (ts <= ls_maxTs sp)%N.
  Proof using HJ.
    unfold Wall, wfAll. intros Hw W0 E C1 NZ.
    assert (Two : (two64 = two63 + two63)%N) by reflexivity.
    destruct en as [e|e]; destruct Hw as [T Hw]; rewrite T in W0.
    - destruct Hw as [[[EH ER] EX] [o Rn]].
      destruct (run_sound sha256 J s0 e tr o HJ EH ER W0 Rn) as [[sts [P S]]|[->|[s' [h [-> [H1 [H2 [H3 [H4 [H5 [H6 H7]]]]]]]]]]].
      + destruct (S _ _ _ E) as [_ [_ [_ [_ Ju]]]].
        destruct (Ju i C1) as [X|[V [ts [leaf [oo [I [O Tl]]]]]]]; [left; exact (proj1 X)|].
        right. exists ts, leaf, oo. split; [exact I|exact Tl].
      + destruct pre; discriminate.
      + destruct pre as [|? [|? ?]]; try discriminate. injection E as <- <-.
        left. unfold claims in *. rewrite H3, H4 in C1. unfold wfState in W0.
        destruct (ls_lastUpdate s0) as [u|] eqn:El; [split; [discriminate|tauto]|]. lia.
    - destruct Hw as [HB [o R]].
      destruct (runTiled_sound J s0 e tr o) as [Nm Hs]; [unfold tEnvOk, two63, two64 in *; lia|exact R|].
      destruct (Hs _ _ _ E) as [A1 [A2 [A3 [A4 [A5 _]]]]].
      destruct C1 as [_ C1]. destruct W0 as [W1 [W2 W3]].
      destruct (N.le_gt_cases i (ls_maxEntry s0)) as [Le|Gt].
      + left. split; [intros X; rewrite (W3 X) in Le; lia|lia].
      + right. rewrite E in Nm.
        assert (G : forall (t : list event) k, numbered k t -> forall j, (k < j <= k + nEntries t)%N ->
                    exists ts leaf o, In (EEntry j ts leaf o) t).
        { clear. induction t as [|[j x l oo|st] t IH]; intros k H i Hi; cbn [numbered nEntries] in *; [lia| |].
          - destruct H as [-> [_ H]]. destruct (N.eq_dec i (k + 1)) as [->|Ne].
            + do 3 eexists. left. reflexivity.
            + destruct (IH _ H i ltac:(lia)) as [a [b [c Hin]]]. exists a, b, c. right. exact Hin.
          - destruct (IH _ H i Hi) as [a [b [c Hin]]]. exists a, b, c. right. exact Hin. }
        assert (Nm' : numbered (ls_maxEntry s0) pre).
        { clear - Nm. revert Nm. generalize (ls_maxEntry s0). induction pre as [|[j x l oo|st] p IH]; intros k H; cbn [numbered app] in *; [exact I| |].
          - destruct H as [A [B H]]. split; [exact A|]. split; [exact B|]. exact (IH _ H).
          - exact (IH _ H). }
        destruct (G _ _ Nm' i ltac:(lia)) as [ts [leaf [oo Hin]]]. exists ts, leaf, oo. split; [exact Hin|].
        exact (A5 _ _ _ _ Hin).
  Qed.

  Lemma fold_states k s pre : forall w key st,
    alookup key (w_states (fold_left (@deliver Cert k s) pre w)) = Some st ->
    alookup key (w_states w) = Some st \/
    (key = logKey (s_url s) /\ exists p v q, pre = p ++ EState v :: q /\ st = put s v).
  Proof using Type.
    induction pre as [|e pre IH]; intros w key st H; cbn [fold_left] in H; [left; exact H|].
    destruct (IH _ _ _ H) as [H1|[-> [p [v [q [-> ->]]]]]].
    2:{ right. split; [reflexivity|]. exists (e :: p), v, q. split; reflexivity. }
    destruct e as [i ts leaf [c iss| | |]|v]; cbn [deliver w_states] in H1; auto.
    destruct (beq_spec key (logKey (s_url s))) as [->|Ne].
    - rewrite alookup_aset_same in H1. injection H1 as <-. right. split; [reflexivity|].
      exists [], v, pre. split; reflexivity.
    - rewrite alookup_aset_other in H1 by exact Ne. left. exact H1.
  Qed.
  Lemma fold_items k s pre : forall w it,
    In it (w_items (fold_left (@deliver Cert k s) pre w)) <->
    In it (w_items w) \/ exists i ts leaf c iss, In (EEntry i ts leaf (SQueued c iss)) pre /\ it = mkItem k c iss ts.
  Proof using Type.
    induction pre as [|e pre IH]; intros w it; cbn [fold_left].
    - split; [auto|]. intros [H|[i [ts [leaf [c [iss [[] _]]]]]]]. exact H.
    - rewrite IH. split.
      + intros [H|[i [ts [leaf [c [iss [H ->]]]]]]].
        2:{ right. exists i, ts, leaf, c, iss. split; [right; exact H|reflexivity]. }
        destruct e as [i ts leaf [c iss| | |]|v]; cbn [deliver w_items] in H; auto.
        destruct H as [<-|H]; auto. right. exists i, ts, leaf, c, iss. split; [left; reflexivity|reflexivity].
      + intros [H|[i [ts [leaf [c [iss [[->|H] ->]]]]]]].
        * left. destruct e as [i ts leaf [c iss| | |]|v]; cbn [deliver w_items]; auto. right. exact H.
        * left. left. reflexivity.
        * right. exists i, ts, leaf, c, iss. auto.
  Qed.

  (** The log list does not turn an RFC 6962 log into a tiled one at the same address. *)
  Definition sameKind (h : list (meta * list event)) : Prop :=
    forall m pre m' pre', In (m, pre) h -> In (m', pre') h -> addressOf m = addressOf m' -> m_tiled m = m_tiled m'.
  (** ... and does not give an address to another log. *)
  Definition sameLog (h : list (meta * list event)) : Prop :=
    forall m pre m' pre', In (m, pre) h -> In (m', pre') h -> addressOf m = addressOf m' -> m_id m = m_id m'.

  Definition savedOk (h : list (meta * list event)) (key : bytes) (st : state) : Prop :=
    logKey (s_url st) = key /\
    exists m pre, In (m, pre) h /\ addressOf m = key /\
      s_logID st = m_id m /\ Z.of_N (s_mmd st) = (m_mmd m mod 2 ^ 64)%Z /\
      wfAll (fun _ => m_tiled m) [] (view st) /\
      forall i, i <> 0%N -> claims (view st) i ->
        exists m' pre' ts leaf (o : storeOutcome Cert), In (m', pre') h /\ addressOf m' = key /\
          In (EEntry i ts leaf o) pre' /\ (ts <= s_maxTs st)%N.

  Lemma savedOk_more h key st x : savedOk h key st -> savedOk (x :: h) key st.
  Proof using Type.
    intros [U [m [pre [H1 [H2 [H3 [H4 [H5 H6]]]]]]]]. split; [exact U|]. exists m, pre. split; [right; exact H1|].
    split; [exact H2|]. split; [exact H3|]. split; [exact H4|]. split; [exact H5|].
    intros i NZ C. destruct (H6 i NZ C) as [m' [pre' [ts [leaf [o [A B]]]]]].
    exists m', pre', ts, leaf, o. split; [right; exact A|exact B].
  Qed.

  Lemma reach_saved h w : reach h w -> sameKind h -> forall key st, alookup key (w_states w) = Some st -> savedOk h key st.
  Proof using HJ.
    induction 1 as [|h w m pre w' R IH Hj]; intros SK key st L; [discriminate|].
    assert (SK' : sameKind h) by (intros a b c d A B; exact (SK a b c d (or_intror A) (or_intror B))).
    specialize (IH SK').
    destruct Hj as [k lost en tr pre post K W E].
    set (s0 := load (if lost then [] else w_states w) m) in *.
    assert (S0 : s0 = fresh m \/ alookup (addressOf m) (w_states w) = Some s0).
    { unfold s0, load. destruct lost; [left; reflexivity|]. destruct (alookup (addressOf m) (w_states w)); auto. }
    assert (U0 : logKey (s_url s0) = addressOf m).
    { destruct S0 as [->|S0]; [reflexivity|]. exact (proj1 (IH _ _ S0)). }
    assert (W0 : wfAll (fun _ => m_tiled m) [] (view s0)).
    { destruct S0 as [->|S0]; [rewrite view_fresh; apply (wfAll_fresh (fun _ => m_tiled m) [])|].
      destruct (IH _ _ S0) as [_ [m' [pre' [A1 [A2 [_ [_ [A5 _]]]]]]]].
      assert (Ek : m_tiled m = m_tiled m').
      { apply (SK m pre m' pre'); [left; reflexivity|right; exact A1|symmetry; exact A2]. }
      unfold wfAll in *. rewrite Ek. exact A5. }
    destruct (fold_states _ _ _ _ _ _ L) as [L'|[-> [p [v [q [Ep ->]]]]]].
    - apply savedOk_more. exact (IH _ _ L').
    - rewrite view_adopt in W. change (s_url (adopt m s0)) with (s_url s0).
      assert (Et : tr = p ++ EState v :: (q ++ post)).
      { rewrite E, Ep, <- app_assoc. reflexivity. }
      assert (Iv : In (EState v) tr) by (rewrite Et; apply in_app_iff; right; left; reflexivity).
      split; [reflexivity|]. exists m, pre. split; [left; reflexivity|]. split; [symmetry; exact U0|].
      split; [reflexivity|]. split.
      { unfold put, adopt. cbn [s_mmd]. rewrite Z2N.id; [reflexivity|]. apply Z.mod_pos_bound. reflexivity. }
      rewrite view_put.
      split; [exact (Wall_wf sha256 J (fun _ => m_tiled m) (fun _ _ => True) HJ [] _ en tr v W W0 Iv)|].
      intros i NZ C. rewrite U0.
      destruct (job_claims _ _ _ _ _ _ _ i W W0 Et C NZ) as [C0|[ts [leaf [o [I T]]]]].
      + destruct S0 as [S0|S0]; [rewrite S0, view_fresh in C0; destruct C0 as [C0 _]; cbn in C0; congruence|].
        destruct (IH _ _ S0) as [_ [_ [_ [_ [_ [_ [_ [_ A6]]]]]]]].
        destruct (A6 i NZ C0) as [m' [pre' [ts [leaf [o [B1 [B2 [B3 B4]]]]]]]].
        exists m', pre', ts, leaf, o. split; [right; exact B1|]. split; [exact B2|]. split; [exact B3|].
        destruct (Wall_mono sha256 J (fun _ => m_tiled m) (fun _ _ => True) HJ [] _ en tr v W W0 Iv (proj1 C0)) as [Mx _].
        exact (N.le_trans _ _ _ B4 Mx).
      + exists m, pre, ts, leaf, o. split; [left; reflexivity|]. split; [reflexivity|]. split; [|exact T].
        rewrite Ep. apply in_app_iff. left. exact I.
  Qed.

  Lemma reach_items h w : reach h w -> forall it, In it (w_items w) <->
    exists m pre i leaf, In (m, pre) h /\ keyID (m_id m) = Some (it_key it) /\
      In (EEntry i (it_ts it) leaf (SQueued (it_cert it) (it_issuer it))) pre.
  Proof using Type.
    induction 1 as [|h w m pre w' R IH Hj]; intros it.
    - split; [intros []|]. intros [m [pre [i [leaf [[] _]]]]].
    - destruct Hj as [k lost en tr pre post K W E]. rewrite fold_items, IH. split.
      + intros [[m' [pre' [i [leaf [A B]]]]]|[i [ts [leaf [c [iss [A ->]]]]]]].
        * exists m', pre', i, leaf. split; [right; exact A|exact B].
        * exists m, pre, i, leaf. split; [left; reflexivity|]. split; [exact K|exact A].
      + intros [m' [pre' [i [leaf [[A|A] [B C]]]]]].
        * right. injection A as -> ->. exists i, (it_ts it), leaf, (it_cert it), (it_issuer it). split; [exact C|].
          destruct it as [a b c d]. cbn [it_key it_cert it_issuer it_ts] in *. congruence.
        * left. exists m', pre', i, leaf. auto.
  Qed.

  (** ** C81 *)
  (** Progress is recorded under the id and merge delay of a job on its address, and every
      index it claims, but 0, was handed on by a job at that address. *)
  Theorem C81_address h w key st :
    reach h w -> sameKind h -> alookup key (w_states w) = Some st ->
    exists m pre, In (m, pre) h /\ addressOf m = key /\ s_logID st = m_id m /\
      Z.of_N (s_mmd st) = (m_mmd m mod 2 ^ 64)%Z /\
      forall i, i <> 0%N -> claims (view st) i ->
        exists m' pre' ts leaf (o : storeOutcome Cert), In (m', pre') h /\ addressOf m' = key /\
          In (EEntry i ts leaf o) pre' /\ (ts <= s_maxTs st)%N.
  Proof using HJ.
    intros R SK L. destruct (reach_saved _ _ R SK _ _ L) as [_ [m [pre [A1 [A2 [A3 [A4 [_ A6]]]]]]]].
    exists m, pre. auto.
  Qed.

  (** If no address passes to another log, it was handed on by a job of the very log named
      in the state, and what that job queued is in the cache under the key of that log. *)
  Theorem C81_attributed h w key st i :
    reach h w -> sameKind h -> sameLog h -> alookup key (w_states w) = Some st ->
    i <> 0%N -> claims (view st) i ->
    exists k m pre ts leaf (o : storeOutcome Cert),
      keyID (s_logID st) = Some k /\ In (m, pre) h /\ addressOf m = key /\ m_id m = s_logID st /\
      In (EEntry i ts leaf o) pre /\ (ts <= s_maxTs st)%N /\
      forall c iss, o = SQueued c iss -> In (mkItem k c iss ts) (w_items w).
  Proof using HJ.
    intros R SK SL L NZ C. destruct (C81_address _ _ _ _ R SK L) as [m [pre [A1 [A2 [A3 [A4 A5]]]]]].
    destruct (A5 i NZ C) as [m' [pre' [ts [leaf [o [B1 [B2 [B3 B4]]]]]]]].
    assert (Em : m_id m' = m_id m) by (apply (SL m' pre' m pre); congruence).
    assert (K : forall h w, reach h w -> forall m pre, In (m, pre) h -> exists k, keyID (m_id m) = Some k).
    { clear. induction 1 as [|h w m pre w' R IH Hj]; intros m' pre' Hin; [destruct Hin|].
      destruct Hin as [Hin|Hin]; [|exact (IH _ _ Hin)]. injection Hin as <- <-.
      destruct Hj as [k lost en tr pre post K W E]. exists k. exact K. }
    destruct (K _ _ R _ _ B1) as [k Hk].
    exists k, m', pre', ts, leaf, o. split; [rewrite A3, <- Em; exact Hk|]. split; [exact B1|].
    split; [exact B2|]. split; [congruence|]. split; [exact B3|]. split; [exact B4|].
    intros c iss ->. apply (reach_items _ _ R). exists m', pre', i, leaf. auto.
  Qed.

  (** Whatever addresses are shared: a stored entry carries the key of the log it was
      downloaded from, and every queued entry is stored so. *)
  Theorem C81_items h w : reach h w -> forall it, In it (w_items w) <->
    exists m pre i leaf, In (m, pre) h /\ keyID (m_id m) = Some (it_key it) /\
      In (EEntry i (it_ts it) leaf (SQueued (it_cert it) (it_issuer it))) pre.
  Proof using Type. exact (reach_items h w). Qed.

  (** No job runs for a log whose id is not the base64 text of 32 bytes. *)
  Theorem C81_bad_id h w : reach h w -> forall m pre, In (m, pre) h ->
    exists k, length k = 32%nat /\ b64Text stdAlphabet k (filter (fun c => negb (Byte.eqb c x0d || Byte.eqb c x0a)) (m_id m)).
  Proof using Type.
    induction 1 as [|h w m pre w' R IH Hj]; intros m' pre' Hin; [destruct Hin|].
    destruct Hin as [Hin|Hin]; [|exact (IH _ _ Hin)]. injection Hin as <- <-.
    destruct Hj as [k lost en tr pre post K W E]. unfold keyID, noBreak in K.
    destruct (b64decode stdAlphabet _) as [k'|] eqn:D; [|discriminate]. apply (b64decode_spec _ std_good) in D.
    destruct (Nat.eqb_spec (length k') 32) as [L|]; [|discriminate]. exists k'. split; [exact L|exact D].
  Qed.
End Identity.
Print Assumptions C81_address.
Print Assumptions C81_attributed.
Print Assumptions C81_items.
Print Assumptions C81_bad_id.

(** ** Witnesses *)
Definition keyA : bytes := repeat x41 32.
Definition keyB : bytes := repeat x42 32.
Definition logA : meta := mkMeta (b64encode stdAlphabet keyA) 86400 (B "ct.example") (B "/2026h1/") false.
(** Another log under the same address, up to a slash. *)
Definition logB : meta := mkMeta (b64encode stdAlphabet keyB) 86400 (B "ct.example") (B "/2026h1") false.
(** A negative merge delay is stored modulo 2^64. *)
Definition logC : meta := mkMeta (b64encode stdAlphabet keyA) (-1) (B "ct.example") (B "/2026h1") false.
(** The log at the same address, now listed as tiled. *)
Definition logT : meta := mkMeta (b64encode stdAlphabet keyA) 86400 (B "ct.example") (B "/2026h1") true.
(** The log at that address now has ten entries: the next job asks for [5,8]. *)
Definition exNext : jobEnv bytes :=
  mkEnv (Some (mkSTH 10 200)) false 8
        (Some [lh (B "4"); lh (B "5"); ph (lh (B "6")) (lh (B "7")); B "any"; lh (B "8")])
        [REntries [raw (B "5") false 25]; REntries [raw (B "6") false 26; raw (B "7") false 27];
         REntries [raw (B "8") false 28]] [] false.
(** Eight entries; the first job fetches [4,7]. *)
Definition exEight : jobEnv bytes :=
  mkEnv (Some (mkSTH 8 100)) false 7 (Some [ph (ph (lh (B "4")) (lh (B "5"))) (ph (lh (B "6")) (lh (B "7")))])
        [REntries [raw (B "4") false 14; raw (B "5") false 15; raw (B "6") false 16; raw (B "7") false 17]] [] false.
Definition exIdleTiled : tiledEnv bytes :=
  mkTEnv (Some (mkSTH 8 200)) true 9 false ([], false, false) ([], false, false) false.

Definition st1 : state := adopt logA (fresh logA).
Definition tr1 : list (event bytes) := fst (run toyHash bytes 4 (view st1) exEnv).
Definition w1 : world bytes := fold_left (deliver keyA st1) tr1 (mkWorld [] []).
Definition stN (m : meta) (w : world bytes) : state := adopt m (load (w_states w) m).
Definition tr2 (m : meta) : list (event bytes) := fst (run toyHash bytes 4 (view (stN m w1)) exNext).
Definition w2 (m : meta) (k : bytes) : world bytes := fold_left (deliver k (stN m w1)) (tr2 m) w1.

Lemma job1 : @job bytes toyHash 4 (mkWorld [] []) logA tr1 w1.
Proof.
  assert (K : keyID (m_id logA) = Some keyA) by (vm_compute; reflexivity).
  refine (job_runs toyHash 4 (mkWorld [] []) logA keyA false (inl exEnv) tr1 tr1 [] K _ _).
  - split; [reflexivity|]. split; [split; [|exact I]|].
    + split; [vm_compute; discriminate|]. repeat constructor; vm_compute; reflexivity.
    + exists (snd (run toyHash bytes 4 (view st1) exEnv)). unfold tr1. apply surjective_pairing.
  - symmetry. apply List.app_nil_r.
Qed.
Lemma job2 m k : keyID (m_id m) = Some k -> m_tiled m = false -> @job bytes toyHash 4 w1 m (tr2 m) (w2 m k).
Proof.
  intros K T.
  refine (job_runs toyHash 4 w1 m k false (inl exNext) (tr2 m) (tr2 m) [] K _ _).
  - split; [exact T|]. split; [split; [|exact I]|].
    + split; [vm_compute; discriminate|]. repeat constructor; vm_compute; reflexivity.
    + exists (snd (run toyHash bytes 4 (view (stN m w1)) exNext)). unfold tr2. apply surjective_pairing.
  - symmetry. apply List.app_nil_r.
Qed.
Lemma reach1 : @reach bytes toyHash 4 [(logA, tr1)] w1.
Proof. exact (reach_job toyHash 4 [] _ logA tr1 w1 (reach_empty toyHash 4) job1). Qed.

Lemma reach2 m k : keyID (m_id m) = Some k -> m_tiled m = false ->
  @reach bytes toyHash 4 [(m, tr2 m); (logA, tr1)] (w2 m k).
Proof. intros K T. exact (reach_job toyHash 4 _ _ m (tr2 m) (w2 m k) reach1 (job2 m k K T)). Qed.

(** Exactly the base64 texts of 32 bytes, with any line breaks, are ids. *)
Theorem C81_ids t k : keyID t = Some k <->
  length k = 32%nat /\ b64Text stdAlphabet k (filter (fun c => negb (Byte.eqb c x0d || Byte.eqb c x0a)) t).
Proof.
  unfold keyID, noBreak. split.
  - destruct (b64decode stdAlphabet _) as [k'|] eqn:D; [|discriminate]. apply (b64decode_spec _ std_good) in D.
    destruct (Nat.eqb_spec (length k') 32) as [L|]; [|discriminate]. intros E. assert (k' = k) by congruence. subst k'. split; assumption.
  - intros [L T]. apply (b64decode_spec _ std_good) in T. rewrite T, L. reflexivity.
Qed.
Print Assumptions C81_ids.
Example C81_ids_example : b64Text stdAlphabet keyA (filter (fun c => negb (Byte.eqb c x0d || Byte.eqb c x0a)) (b64encode stdAlphabet keyA ++ [x0d; x0a])).
Proof. apply (C81_ids _ keyA). vm_compute. reflexivity. Qed.

(** The id a log of key [k] is listed under is read as [k], and nothing shorter or longer
    than 32 bytes is read as a key. *)
Theorem C81_key k : keyID (b64encode stdAlphabet k) = if Nat.eqb (length k) 32 then Some k else None.
Proof.
  assert (F : filter noBreak (b64encode stdAlphabet k) = b64encode stdAlphabet k).
  { assert (FI : forall l, (forall c, In c l -> noBreak c = true) -> filter noBreak l = l).
    { induction l as [|c l IH]; intros H; [reflexivity|]. cbn [filter]. rewrite (H c (or_introl eq_refl)). f_equal.
      apply IH. intros x I. apply H. right. exact I. }
    apply FI. intros c I. apply (b64encode_chars _ std_good) in I.
    destruct I as [I| ->]; [|reflexivity].
    assert (G : forallb noBreak stdAlphabet = true) by (vm_compute; reflexivity).
    rewrite forallb_forall in G. exact (G c I). }
  unfold keyID. rewrite F, (b64decode_encode _ std_good). reflexivity.
Qed.
Print Assumptions C81_key.

(** Two listed logs share an address exactly if host and path are the same up to slashes at
    the end. *)
Definition upToSlashes (u v : bytes) : Prop := exists base i j, u = base ++ repeat slash i /\ v = base ++ repeat slash j.
Lemma trim_some u : exists i, u = trimSlashes u ++ repeat slash i.
Proof.
  unfold trimSlashes. assert (G : forall r, exists i, r = repeat slash i ++ dropSlashes r).
  { induction r as [|c r [i IH]]; [exists O; reflexivity|]. cbn [dropSlashes]. destruct (Byte.eqb c slash) eqn:E; [|exists O; reflexivity].
    exists (S i). cbn [repeat app]. rewrite <- IH. f_equal. apply Byte.byte_dec_bl. exact E. }
  destruct (G (rev u)) as [i E]. exists i. apply (f_equal (@rev byte)) in E. rewrite rev_involutive, rev_app_distr in E. rewrite E at 1. f_equal.
  clear. induction i as [|i IH]; [reflexivity|]. cbn [repeat rev]. rewrite IH. clear. induction i as [|i IH]; [reflexivity|]. cbn [repeat app]. rewrite IH. reflexivity.
Qed.
Lemma trim_repeat u i : trimSlashes (u ++ repeat slash i) = trimSlashes u.
Proof.
  revert u. induction i as [|i IH]; intros u; [rewrite app_nil_r; reflexivity|]. change (repeat slash (S i)) with ([slash] ++ repeat slash i). rewrite app_assoc, IH. apply trim_slash.
Qed.
Theorem C81_addresses m m' : addressOf m = addressOf m' <-> upToSlashes (m_host m ++ m_path m) (m_host m' ++ m_path m').
Proof.
  assert (T : forall n, trimSlashes (shortOf n) = trimSlashes (m_host n ++ m_path n)).
  { intros n. destruct (trim_some (m_path n)) as [i E]. unfold shortOf, shortURL. rewrite E at 2. rewrite app_assoc, trim_repeat. reflexivity. }
  unfold addressOf. rewrite logKey_trim, !T. split.
  - intros E. destruct (trim_some (m_host m ++ m_path m)) as [i Ei]. destruct (trim_some (m_host m' ++ m_path m')) as [j Ej]. exists (trimSlashes (m_host m ++ m_path m)), i, j. split; [exact Ei|]. rewrite E. exact Ej.
  - intros [base [i [j [-> ->]]]]. rewrite !trim_repeat. reflexivity.
Qed.
Print Assumptions C81_addresses.
Example C81_addresses_example :
  let at_ p := addressOf (mkMeta [] 0 (B "ct.example") p false) in
  at_ (B "/2026h1/") = at_ (B "/2026h1") /\ at_ (B "/2026h1/") <> at_ (B "/2026h2/").
Proof. split; [reflexivity|]. vm_compute. discriminate. Qed.

(** Distinct ids may stand for the same key: Go's decoder is not strict. *)
Theorem C81_key_unique_refuted : exists t t' k, t <> t' /\ keyID t = Some k /\ keyID t' = Some k.
Proof.
  exists (b64encode stdAlphabet keyA), (b64encode stdAlphabet keyA ++ [x0a]), keyA.
  split; [vm_compute; discriminate|]. split; vm_compute; reflexivity.
Qed.
Print Assumptions C81_key_unique_refuted.

Definition without (i : N) (tr : list (event bytes)) : bool :=
  forallb (fun e => match e with EEntry j _ _ _ => negb (N.eqb j i) | EState _ => true end) tr.
Lemma without_spec i tr ts leaf o : without i tr = true -> ~ In (EEntry i ts leaf o) tr.
Proof.
  intros H I. unfold without in H. rewrite forallb_forall in H. specialize (H _ I). cbn beta iota in H.
  rewrite N.eqb_refl in H. discriminate H.
Qed.

Lemma two_cases {A B : Type} (a a' m : A) (b b' p : B) :
  In (m, p) [(a, b); (a', b')] -> (m = a /\ p = b) \/ (m = a' /\ p = b').
Proof. intros [H|[H|[]]]; injection H as <- <-; auto. Qed.
Definition stB : state := put (stN logB w1) (mkLS 1 8 11 28 (Some 8%N)).
Lemma stB_id : s_logID stB = m_id logB.
Proof. reflexivity. Qed.
Lemma logs_differ : m_id logA <> m_id logB.
Proof. vm_compute. discriminate. Qed.
Lemma logB_without : without 3 (tr2 logB) = true.
Proof. vm_compute. reflexivity. Qed.

(** An address that passes to another log: the state is saved under the id of the new log
    and claims entries no job of that log has handed on. *)
Theorem C81_reused_address_refuted :
  exists h w st i, @reach bytes toyHash 4 h w /\ sameKind h /\ alookup (addressOf logB) (w_states w) = Some st /\
    s_logID st = m_id logB /\ i <> 0%N /\ claims (view st) i /\
    (forall m pre, In (m, pre) h -> m_id m = s_logID st -> forall ts leaf o, ~ In (EEntry i ts leaf o) pre) /\
    (forall it, In it (w_items w) -> it_key it = keyB -> (25 <= it_ts it)%N) /\ (s_minTs st = 11)%N.
Proof.
  exists [(logB, tr2 logB); (logA, tr1)], (w2 logB keyB), stB, 3%N.
  split; [apply reach2; [exact (C81_key _)|reflexivity]|].
  split; [intros m p m' p' H H' _; destruct (two_cases _ _ _ _ _ _ H) as [[-> _]|[-> _]];
    destruct (two_cases _ _ _ _ _ _ H') as [[-> _]|[-> _]]; reflexivity|].
  split; [vm_compute; reflexivity|]. split; [exact stB_id|]. split; [discriminate|].
  split; [unfold stB; rewrite view_put; split; [discriminate|cbn; lia]|].
  split.
  { intros m p H E ts leaf o Hin. destruct (two_cases _ _ _ _ _ _ H) as [[-> ->]|[-> ->]].
    - exact (without_spec 3 (tr2 logB) ts leaf o logB_without Hin).
    - rewrite stB_id in E. exact (logs_differ E). }
  split; [|reflexivity].
  assert (G : forallb (fun it => negb (beq (it_key it) keyB) || (25 <=? it_ts it)%N) (w_items (w2 logB keyB)) = true)
    by (vm_compute; reflexivity).
  intros it Hin Hk. rewrite forallb_forall in G. specialize (G it Hin). rewrite Hk, beq_refl in G.
  apply N.leb_le. exact G.
Qed.
Print Assumptions C81_reused_address_refuted.

(** A log that becomes tiled without changing its address: the next state claims the
    entries that were still to be backfilled. *)
Theorem C81_kind_refuted :
  exists h w st i, @reach bytes toyHash 4 h w /\ sameLog h /\ alookup (addressOf logT) (w_states w) = Some st /\
    i <> 0%N /\ claims (view st) i /\
    (forall m pre, In (m, pre) h -> forall ts leaf o, ~ In (EEntry i ts leaf o) pre).
Proof.
  set (ta := fst (run toyHash bytes 4 (view st1) exEight)).
  set (wa := fold_left (deliver keyA st1) ta (mkWorld [] [])).
  set (tb := fst (runTiled bytes 4 (view (stN logT wa)) exIdleTiled)).
  set (wb := fold_left (deliver keyA (stN logT wa)) tb wa).
  assert (Ra : @reach bytes toyHash 4 [(logA, ta)] wa).
  { refine (reach_job toyHash 4 [] _ logA ta wa (reach_empty toyHash 4) _).
    refine (job_runs toyHash 4 (mkWorld [] []) logA keyA false (inl exEight) ta ta [] _ _ _).
    - exact (C81_key keyA).
    - split; [reflexivity|]. split; [split; [|exact I]|].
      + split; [vm_compute; discriminate|]. repeat constructor; vm_compute; reflexivity.
      + exists (snd (run toyHash bytes 4 (view st1) exEight)). unfold ta. apply surjective_pairing.
    - symmetry. apply List.app_nil_r. }
  exists [(logT, tb); (logA, ta)], wb, (put (stN logT wa) (mkLS 0 7 14 200 (Some 9%N))), 2%N.
  split.
  { refine (reach_job toyHash 4 _ _ logT tb wb Ra _).
    refine (job_runs toyHash 4 wa logT keyA false (inr exIdleTiled) tb tb [] _ _ _).
    - exact (C81_key keyA).
    - split; [reflexivity|]. split; [vm_compute; reflexivity|].
      exists (snd (runTiled bytes 4 (view (stN logT wa)) exIdleTiled)). unfold tb. apply surjective_pairing.
    - symmetry. apply List.app_nil_r. }
  split; [intros m p m' p' H H' _; destruct (two_cases _ _ _ _ _ _ H) as [[-> _]|[-> _]];
    destruct (two_cases _ _ _ _ _ _ H') as [[-> _]|[-> _]]; reflexivity|].
  split; [vm_compute; reflexivity|]. split; [discriminate|].
  split; [rewrite view_put; split; [discriminate|cbn; lia]|].
  assert (Wa : without 2 ta = true) by (vm_compute; reflexivity).
  assert (Wb : without 2 tb = true) by (vm_compute; reflexivity).
  intros m p H ts leaf o Hin. destruct (two_cases _ _ _ _ _ _ H) as [[-> ->]|[-> ->]].
  - exact (without_spec 2 tb ts leaf o Wb Hin).
  - exact (without_spec 2 ta ts leaf o Wa Hin).
Qed.
Print Assumptions C81_kind_refuted.

(** Two jobs of the same log, listed with and without a slash and with a new merge delay. *)
Example C81_example :
  let h := [(logC, tr2 logC); (logA, tr1)] in
  @reach bytes toyHash 4 h (w2 logC keyA) /\ sameKind h /\ sameLog h /\
  exists st, alookup (addressOf logA) (w_states (w2 logC keyA)) = Some st /\ s_logID st = m_id logA /\
    s_mmd st = 18446744073709551615%N /\ s_minEntry st = 1%N /\ s_maxEntry st = 8%N /\ claims (view st) 3 /\
    length (w_items (w2 logC keyA)) = 7%nat.
Proof.
  split; [apply reach2; [exact (C81_key _)|reflexivity]|].
  split; [intros m p m' p' H H' _; destruct (two_cases _ _ _ _ _ _ H) as [[-> _]|[-> _]];
    destruct (two_cases _ _ _ _ _ _ H') as [[-> _]|[-> _]]; reflexivity|].
  split; [intros m p m' p' H H' _; destruct (two_cases _ _ _ _ _ _ H) as [[-> _]|[-> _]];
    destruct (two_cases _ _ _ _ _ _ H') as [[-> _]|[-> _]]; reflexivity|].
  exists (put (stN logC w1) (mkLS 1 8 11 28 (Some 8%N))).
  split; [vm_compute; reflexivity|]. split; [reflexivity|]. split; [vm_compute; reflexivity|].
  split; [reflexivity|]. split; [reflexivity|].
  split; [rewrite view_put; split; [discriminate|cbn; lia]|]. vm_compute. reflexivity.
Qed.
