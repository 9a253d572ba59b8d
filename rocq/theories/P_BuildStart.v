(** * C65: when the filter builder starts, and what happens to earlier outputs *)
From Verif Require Import Base BuildStartModel.

Lemma get_put_same {C} n (c : C) d : get n (put n c d) = Some c.
Proof. unfold get, put. cbn [find fst]. destruct (beq_spec n n); [reflexivity|contradiction]. Qed.

Lemma get_put_other {C} n n' (c : C) d : n <> n' -> get n (put n' c d) = get n d.
Proof.
  intros N. unfold get, put. cbn [find fst]. destruct (beq_spec n n'); [contradiction|]. f_equal.
  induction d as [|[k x] d IH]; [reflexivity|]. cbn [filter find fst].
  destruct (beq_spec n' k) as [<-|K]; cbn [negb find fst].
  - destruct (beq_spec n n'); [contradiction|]. exact IH.
  - destruct (beq_spec n k); [reflexivity|exact IH].
Qed.

Lemma has_get {C} n (d : entries C) : has n d = match get n d with Some _ => true | None => false end.
Proof.
  unfold has, get. induction d as [|[k x] d IH]; [reflexivity|]. cbn [existsb find fst].
  destruct (beq n k); [reflexivity|exact IH].
Qed.

Lemma get_write {C} (l : list (bytes * C)) : forall e n,
  (~ In n (map fst l) /\ get n (write l e) = get n e) \/ (exists c, In (n, c) l /\ get n (write l e) = Some c).
Proof.
  induction l as [|[k c] l IH]; intros e n; cbn [write fold_left fst snd map].
  - left. split; [intros []|reflexivity].
  - destruct (IH (put k c e) n) as [[N E]|[c' [I E]]].
    + destruct (bytes_eq_dec n k) as [->|D].
      * right. exists c. split; [left; reflexivity|]. unfold write in E. rewrite E. apply get_put_same.
      * left. split; [intros [X|X]; [congruence|contradiction]|]. unfold write in E. rewrite E. apply get_put_other, D.
    + right. exists c'. split; [right; exact I|exact E].
Qed.

Lemma assoc_unique {C} (l : list (bytes * C)) n c c' : NoDup (map fst l) -> In (n, c) l -> In (n, c') l -> c' = c.
Proof.
  induction l as [|[k x] l IH]; cbn [map fst]; intros D; [intros []|]. apply NoDup_cons_iff in D. destruct D as [N D].
  intros [E|I] [E'|I'].
  - congruence.
  - exfalso. apply N. replace k with n by congruence. apply (in_map fst) in I'. exact I'.
  - exfalso. apply N. replace k with n by congruence. apply (in_map fst) in I. exact I.
  - apply IH; auto.
Qed.

Section C65.
  Variable C : Type.
  Variable empty : C.

  (** The entry [n] of the output directory. *)
  Definition file (o : option (entries C)) (n : bytes) : option C := match o with Some e => get n e | None => None end.
  Definition theOutputs : list bytes :=
    [B "filter"; B "filter.stash"; B "revset.bin"; B "delta"; B "filter.delta"].

  (** The builder starts exactly if its inputs are there, the output directory can be
      made, and - unless it may remove it - none of its outputs is there. *)
  Definition free (a : args) (t : trouble) (o : option (entries C)) : Prop :=
    (a_clobber a = true -> o <> None -> t_remove t = None) /\
    (a_clobber a = false -> forall n, In n theOutputs -> file o n = None).
  Definition canMake (a : args) (t : trouble) (o : option (entries C)) : Prop :=
    (o = None \/ a_clobber a = true -> t_mkOut t = false) /\ t_mkDelta t = false.

  Theorem C65_starts : forall a t d,
    fst (start empty a t d) = true <->
    d_known d = true /\ d_revoked d = true /\ (a_clubcard a = true -> d_ctlogs d = true) /\
    free a t (d_out d) /\ canMake a t (d_out d).
  Proof.
    intros [clob club] [rm mo md] [kn rv ct o]. unfold start, inputsMissing, free, canMake.
    cbn [a_clobber a_clubcard t_remove t_mkOut t_mkDelta d_known d_revoked d_ctlogs d_out].
    destruct clob.
    - destruct o as [e|]; unfold clobberStep; cbn [a_clobber t_remove].
      + destruct rm as [keep|]; cbn [mkOutStep].
        * destruct (mkDeltaStep empty _ _) as [e3 o3]. cbn [fst]. rewrite orb_true_r. split; [discriminate|].
          intros [_ [_ [_ [[X _] _]]]]. discriminate X; [reflexivity|discriminate].
        * unfold mkOutStep; cbn [t_mkOut]. destruct mo.
          -- destruct (mkDeltaStep empty _ _) as [e3 o3]. cbn [fst]. rewrite !orb_true_r. split; [discriminate|].
             intros [_ [_ [_ [_ [X _]]]]]. discriminate X. right; reflexivity.
          -- unfold mkDeltaStep; cbn [has existsb t_mkDelta]. destruct md, kn, rv, club, ct; cbn; intuition (auto; try discriminate).
      + unfold mkOutStep; cbn [t_mkOut]. destruct mo.
        * destruct (mkDeltaStep empty _ _) as [e3 o3]. cbn [fst]. rewrite !orb_true_r. split; [discriminate|].
          intros [_ [_ [_ [_ [X _]]]]]. discriminate X. right; reflexivity.
        * unfold mkDeltaStep; cbn [has existsb t_mkDelta]. destruct md, kn, rv, club, ct; cbn; intuition (auto; try discriminate).
    - unfold clobberStep; cbn [a_clobber].
      assert (O : forall e : entries C, existsb (fun n => has n e) [nFilter; nStash; nRevset; nDelta; nDeltaFilter] = false <->
                (forall n, In n theOutputs -> get n e = None)).
      { intros e. rewrite <- not_true_iff_false, existsb_exists. split.
        - intros H n I. destruct (get n e) eqn:G; [|reflexivity]. exfalso. apply H. exists n. split; [exact I|]. rewrite has_get, G. reflexivity.
        - intros H [n [I E]]. rewrite has_get, (H n I) in E. discriminate. }
      destruct o as [e|]; cbn [mkOutStep].
      + destruct (existsb _ _) eqn:X.
        * destruct (mkDeltaStep empty _ _) as [e3 o3]. cbn [fst]. rewrite orb_true_r. split; [discriminate|].
          intros [_ [_ [_ [[_ F] _]]]]. specialize (F eq_refl). cbn [file] in F. apply (proj2 (O e)) in F. congruence.
        * pose proof (proj1 (O e) X) as X'. unfold mkDeltaStep. rewrite has_get, (X' nDelta) by (cbn; auto). cbn [t_mkDelta].
          destruct md, kn, rv, club, ct; cbn [fst negb orb andb]; split; intros H; try discriminate;
            try (decompose [and] H; congruence);
            try (decompose [and] H; match goal with Y : true = true -> _ |- _ => specialize (Y eq_refl) end; congruence);
            repeat split; auto; try discriminate; intros [Q|Q]; discriminate.
      + unfold mkOutStep; cbn [t_mkOut]. destruct mo.
        * destruct (mkDeltaStep empty _ _) as [e3 o3]. cbn [fst]. rewrite !orb_true_r. split; [discriminate|].
          intros [_ [_ [_ [_ [X _]]]]]. discriminate X. left; reflexivity.
        * unfold mkDeltaStep; cbn [has existsb t_mkDelta]. destruct md, kn, rv, club, ct; cbn; intuition (auto; try discriminate).
  Qed.

  (** Without "--clobber" the builder leaves every earlier file as it is, reason_codes.csv
      excepted: whether it starts or not, and also if it panics half way. *)
  Theorem C65_keeps : forall a t d m panic n c,
    a_clobber a = false -> n <> B "reason_codes.csv" -> file (d_out d) n = Some c ->
    file (snd (builder empty a t d m panic)) n = Some c.
  Proof.
    intros a t d m panic n c K N G.
    assert (ST : exists e', snd (start empty a t d) = Some e' /\ get n e' = Some c).
    { unfold start, clobberStep. rewrite K. destruct (d_out d) as [e|]; [|discriminate]. cbn [file] in G. cbn [mkOutStep].
      unfold mkDeltaStep. destruct (has nDelta e) eqn:H; [exists e; split; [reflexivity|exact G]|].
      destruct (t_mkDelta t); [exists e; split; [reflexivity|exact G]|].
      exists (put nDelta empty e). split; [reflexivity|]. rewrite get_put_other; [exact G|].
      intros ->. rewrite has_get, G in H. discriminate. }
    destruct ST as [e' [S G']]. pose proof (C65_starts a t d) as Q. unfold builder.
    destruct (start empty a t d) as [go o]. cbn [snd] in S. subst o. destruct go; [|exact G'].
    destruct (proj1 Q eq_refl) as [_ [_ [_ [[_ F] _]]]]. specialize (F K).
    assert (W : forall l, incl l (writes m) -> get n (write l e') = Some c).
    { intros l L. destruct (get_write l e' n) as [[_ E]|[c' [I _]]]; [rewrite E; exact G'|]. exfalso.
      apply L in I. cbn in I.
      assert (In n theOutputs) as O.
      { destruct I as [I|[I|[I|[I|[I|[I|[]]]]]]]; injection I as <- <-; [contradiction N; reflexivity|..]; repeat (first [left; reflexivity|right]). }
      specialize (F n O). congruence. }
    destruct panic as [k|]; cbn [snd file]; apply W; [|apply incl_refl].
    intros x X. rewrite <- (firstn_skipn k (writes m)). apply in_or_app. left. exact X.
  Qed.

  (** With "--clobber", a run that starts leaves nothing of what was there before. *)
  Theorem C65_fresh : forall a t d m panic n c,
    a_clobber a = true -> fst (start empty a t d) = true ->
    file (snd (builder empty a t d m panic)) n = Some c ->
    In (n, c) (writes m) \/ (n = B "delta" /\ c = empty).
  Proof.
    intros a t d m panic n c K S G.
    assert (E : snd (start empty a t d) = Some [(nDelta, empty)]).
    { pose proof (proj1 (C65_starts a t d) S) as [_ [_ [_ [[F _] [M D]]]]].
      unfold start, clobberStep. rewrite K. specialize (F K). specialize (M (or_intror K)).
      destruct (d_out d) as [e|]; [rewrite (F ltac:(discriminate))|]; unfold mkOutStep; rewrite M; unfold mkDeltaStep; cbn [has existsb];
        rewrite D; reflexivity. }
    unfold builder in G. destruct (start empty a t d) as [go o]. cbn [fst snd] in *. subst go o.
    assert (W : forall l, incl l (writes m) -> get n (write l [(nDelta, empty)]) = Some c -> In (n, c) (writes m) \/ (n = B "delta" /\ c = empty)).
    { intros l L H. destruct (get_write l [(nDelta, empty)] n) as [[_ X]|[c' [I X]]]; rewrite X in H.
      - right. unfold get in H. cbn [find fst] in H. destruct (beq_spec n nDelta) as [->|]; [|discriminate]. injection H as <-. auto.
      - left. injection H as <-. apply L, I. }
    destruct panic as [k|]; cbn [snd file] in G; apply (W _) in G; auto; [|apply incl_refl].
    intros x X. rewrite <- (firstn_skipn k (writes m)). apply in_or_app. left. exact X.
  Qed.

  (** A finished run that had started leaves all six outputs. *)
  Theorem C65_complete : forall a t d m, fst (start empty a t d) = true ->
    forall n c, In (n, c) (writes m) -> file (snd (builder empty a t d m None)) n = Some c.
  Proof.
    intros a t d m S n c I. unfold builder. destruct (start empty a t d) as [go o]. cbn [fst] in S. subst go. cbn [snd file].
    destruct (get_write (writes m) (match o with Some e => e | None => [] end) n) as [[N _]|[c' [I' E]]].
    - exfalso. apply N. apply (in_map fst) in I. exact I.
    - rewrite E. f_equal.
      apply (assoc_unique (writes m) n); auto. repeat constructor; cbn; intuition discriminate.
  Qed.
  (** The exit status: 101 exactly if the builder starts and panics, and 0 otherwise. *)
  Theorem C65_status : forall a t d m panic,
    (fst (builder empty a t d m panic) = 101%N <-> fst (start empty a t d) = true /\ panic <> None) /\
    (fst (builder empty a t d m panic) <> 101%N -> fst (builder empty a t d m panic) = 0%N).
  Proof.
    intros a t d m panic. unfold builder. destruct (start empty a t d) as [[] o]; cbn [fst].
    - destruct panic as [k|]; cbn [fst].
      + split; [split; [intros _; split; [reflexivity|discriminate]|reflexivity]|intros H; contradiction H; reflexivity].
      + split; [split; [discriminate|intros [_ H]; contradiction H; reflexivity]|reflexivity].
    - split; [split; [discriminate|intros [H _]; discriminate H]|reflexivity].
  Qed.

  (** A builder that refuses to start adds nothing but an empty "delta": what is there
      afterwards was there before. *)
  Theorem C65_refusal_adds_nothing : forall a t d m panic n c,
    fst (start empty a t d) = false -> file (snd (builder empty a t d m panic)) n = Some c ->
    file (d_out d) n = Some c \/ n = B "delta" /\ c = empty.
  Proof.
    intros a t d m panic n c S G. unfold builder in G.
    assert (E : snd (start empty a t d) = snd (mkDeltaStep empty t (snd (mkOutStep t (snd (clobberStep a t (d_out d))))))).
    { unfold start. destruct (clobberStep a t (d_out d)) as [e1 o1]. cbn [snd]. destruct (mkOutStep t o1) as [e2 o2]. cbn [snd].
      destruct (mkDeltaStep empty t o2). reflexivity. }
    destruct (start empty a t d) as [go o]. cbn [fst snd] in *. subst go. cbn [snd] in G. subst o.
    assert (K : forall o, (forall n c, file o n = Some c -> file (d_out d) n = Some c) ->
              file (snd (mkDeltaStep empty t o)) n = Some c -> file (d_out d) n = Some c \/ n = B "delta" /\ c = empty).
    { intros o O. unfold mkDeltaStep. destruct (has nDelta _); [intros H; left; apply O; exact H|].
      destruct (t_mkDelta t); [intros H; left; apply O; exact H|]. cbn [snd file].
      destruct (bytes_eq_dec n nDelta) as [->|D].
      - rewrite get_put_same. intros H. injection H as <-. right. split; reflexivity.
      - rewrite get_put_other by exact D. intros H. left. destruct o as [e|]; [apply O; exact H|discriminate H]. }
    revert G. apply K. clear n c K. intros n c. unfold clobberStep.
    destruct (a_clobber a).
    - destruct (d_out d) as [e|].
      + destruct (t_remove t) as [keep|]; cbn [snd mkOutStep].
        * cbn [file]. unfold get. induction e as [|[k x] e IH]; [exact (fun H => H)|]. cbn [filter fst find].
          destruct (keep k) eqn:Ke; cbn [find fst].
          -- destruct (beq n k); [exact (fun H => H)|exact IH].
          -- destruct (beq_spec n k) as [->|D]; [|exact IH]. intros H. exfalso. revert H. clear IH.
             induction e as [|[k' x'] e IH]; [discriminate|]. cbn [filter fst]. destruct (keep k') eqn:K'; cbn [find fst]; [|exact IH].
             destruct (beq_spec k k') as [<-|]; [congruence|exact IH].
        * unfold mkOutStep. destruct (t_mkOut t); discriminate.
      + unfold mkOutStep. cbn [snd]. destruct (t_mkOut t); discriminate.
    - cbn [snd]. destruct (d_out d) as [e|]; [exact (fun H => H)|]. unfold mkOutStep. destruct (t_mkOut t); discriminate.
  Qed.
End C65.

Print Assumptions C65_starts.
Print Assumptions C65_keeps.
Print Assumptions C65_fresh.
Print Assumptions C65_complete.
Print Assumptions C65_status.
Print Assumptions C65_refusal_adds_nothing.

(** ** What does not hold *)

Definition calm := mkTrouble None false false.
Definition someRun := mkMade 1 2 3 4 5 6.

(** Without "--clobber" reason_codes.csv is overwritten nevertheless. *)
Theorem C65_reasons_refuted : exists (d : disk nat) m,
  file nat (d_out d) (B "reason_codes.csv") = Some 7 /\
  file nat (snd (builder 0 (mkArgs false true) calm d m None)) (B "reason_codes.csv") <> Some 7.
Proof. exists (mkDisk true true true (Some [(B "reason_codes.csv", 7)])), someRun. vm_compute. split; [reflexivity|discriminate]. Qed.

(** Exit status 0 does not mean that there is a filter: a builder that refuses to start
    ends with 0, and with "--clobber" the filter of an earlier run is gone all the same. *)
Theorem C65_refused_refuted : exists (d : disk nat) m,
  d_known d = false /\ file nat (d_out d) (B "filter") = Some 7 /\
  fst (builder 0 (mkArgs true true) calm d m None) = 0%N /\
  file nat (snd (builder 0 (mkArgs true true) calm d m None)) (B "filter") = None.
Proof. exists (mkDisk false true true (Some [(B "filter", 7)])), someRun. vm_compute. auto. Qed.

(** A refusal is not without consequence: it leaves "delta" behind, and then the builder
    refuses for good (without "--clobber"), also once the input is there. *)
Theorem C65_blocked_refuted : exists (d : disk nat) m, d_out d = None /\ d_known d = false /\
  let later o := mkDisk true (d_revoked d) (d_ctlogs d) o in
  fst (start 0 (mkArgs false true) calm (later (d_out d))) = true /\
  fst (start 0 (mkArgs false true) calm (later (snd (builder 0 (mkArgs false true) calm d m None)))) = false.
Proof. exists (mkDisk false true true None), someRun. vm_compute. auto. Qed.

Print Assumptions C65_reasons_refuted.
Print Assumptions C65_refused_refuted.
Print Assumptions C65_blocked_refuted.

(** A run that starts beside a file of the user's, and one that clears the directory. *)
Example C65_example :
  let d := mkDisk true true true (Some [(B "notes.txt", 9)]) in
  let full := mkDisk true true true (Some [(B "notes.txt", 9); (B "filter", 8); (B "delta", 8)]) in
  fst (start 0 (mkArgs false true) calm d) = true /\
  file nat (snd (builder 0 (mkArgs false true) calm d someRun None)) (B "notes.txt") = Some 9 /\
  file nat (snd (builder 0 (mkArgs false true) calm d someRun None)) (B "filter") = Some 2 /\
  fst (start 0 (mkArgs false true) calm full) = false /\
  file nat (snd (builder 0 (mkArgs false true) calm full someRun None)) (B "filter") = Some 8 /\
  fst (start 0 (mkArgs true true) calm full) = true /\
  file nat (snd (builder 0 (mkArgs true true) calm full someRun (Some 1))) (B "filter") = None /\
  file nat (snd (builder 0 (mkArgs true true) calm full someRun None)) (B "notes.txt") = None.
Proof. vm_compute. repeat split. Qed.

(** A panic after two files, and a refusal whose removal of the directory stopped half way. *)
Example C65_status_example :
  let d := mkDisk true true true (Some [(B "notes.txt", 9); (B "filter", 8)]) in
  let stuck := mkTrouble (Some (fun n => beq n (B "notes.txt"))) false false in
  fst (builder 0 (mkArgs true true) calm d someRun (Some 2)) = 101%N /\
  fst (start 0 (mkArgs true true) stuck d) = false /\ fst (builder 0 (mkArgs true true) stuck d someRun (Some 2)) = 0%N /\
  file nat (snd (builder 0 (mkArgs true true) stuck d someRun None)) (B "notes.txt") = Some 9 /\
  file nat (snd (builder 0 (mkArgs true true) stuck d someRun None)) (B "delta") = Some 0.
Proof. vm_compute. repeat split. Qed.
