(** * aggregate-known: C31 *)
From Verif Require Import Base MerkleModel SerialModel SerialProofs P_SerialFile TimeModel StoreModel StoreProofs KnownModel P_Serial P_Store.
From Coq Require Import Sorting.Permutation.

(** ** The queue never overflows *)
Theorem C31_queue_never_overflows : forall inProgram l,
  (forall i dates, In (i, dates) l -> dates <> []) ->
  makeQueue inProgram l = Ok (map (fun x => mkUnit (fst x) (snd x)) (filter (fun x => inProgram (fst x)) l)).
Proof.
  intros inP l H.
  assert (G : forall l cap q, (forall i dates, In (i, dates) l -> dates <> []) ->
    (length q + capacity inP l <= cap)%nat ->
    fill inP cap q l = Ok (q ++ map (fun x => mkUnit (fst x) (snd x)) (filter (fun x => inP (fst x)) l))).
  { clear. induction l as [|[i dates] l IH]; intros cap q H C; cbn [fill filter fst].
    - rewrite app_nil_r. reflexivity.
    - unfold capacity in C. cbn [map list_sum fold_right fst snd] in C. fold (capacity inP l) in C.
      assert (N : dates <> []) by (apply (H i); left; reflexivity).
      assert (H' : forall i0 d0, In (i0, d0) l -> d0 <> []) by (intros i0 d0 I; apply (H i0); right; exact I).
      change (list_sum (map (fun x => if inP (fst x) then length (snd x) else 0%nat) l)) with (capacity inP l) in C.
      destruct (inP i).
      + assert (L : (0 < length dates)%nat) by (destruct dates; [congruence|cbn; lia]).
        replace (length q <? cap)%nat with true by (symmetry; apply Nat.ltb_lt; unfold capacity, list_sum in *; lia).
        rewrite IH; [|exact H'|rewrite app_length; cbn [length]; unfold capacity, list_sum in *; lia].
        cbn [map fst snd]. rewrite <- app_assoc. reflexivity.
      + apply IH; [exact H'|]. unfold capacity, list_sum in *; lia. }
  unfold makeQueue. rewrite G; [reflexivity|exact H|]. cbn. lia.
Qed.
Print Assumptions C31_queue_never_overflows.

Lemma NoDup_app_swap_mid {A} (a b c : list A) x : NoDup (a ++ b ++ x :: c) -> NoDup (a ++ b ++ c).
Proof. rewrite !app_assoc. apply NoDup_remove_1. Qed.

Section C31.
  Variable store : bytes -> option bytes.

  (** What one expiry bin contributes to the file of its issuer: nothing if it
      was seen expired at some time between [t0] and [t1], otherwise its header
      and its serials. *)
  Definition piece (i : bytes) (t0 t1 : Z) (d : expDate) (x : bytes) : Prop :=
    exists t, (t0 <= t <= t1)%Z /\
      (isExpiredAt d t = true /\ x = [] \/
       isExpiredAt d t = false /\ exists ss, readBin store i d = Ok ss /\ x = writeSerialList (expUnix d) ss).

  Definition holds (i : bytes) (t0 t1 : Z) (ds : list expDate) (data : bytes) : Prop :=
    exists xs, Forall2 (piece i t0 t1) ds xs /\ data = concat xs.

  Lemma holds_later i t0 t1 t2 ds data : (t1 <= t2)%Z -> holds i t0 t1 ds data -> holds i t0 t2 ds data.
  Proof using Type.
    intros L [xs [F E]]. exists xs. split; [|exact E]. clear E. induction F as [|d x ds xs P F IH]; constructor; [|exact IH].
    destruct P as [t [B P]]. exists t. split; [lia|exact P].
  Qed.

  Lemma holds_snoc i t0 t1 ds d data x : holds i t0 t1 ds data -> piece i t0 t1 d x -> holds i t0 t1 (ds ++ [d]) (data ++ x).
  Proof using Type.
    intros [xs [F ->]] P. exists (xs ++ [x]). split; [apply Forall2_app; [exact F|constructor; [exact P|constructor]]|].
    rewrite concat_app. cbn. rewrite app_nil_r. reflexivity.
  Qed.

  Definition working (w : wstate) : option bytes := match w with WWork u _ _ _ => Some (ku_issuer u) | _ => None end.

  (** The issuers still to be handled: in the queue or in the hands of a worker. *)
  Definition pending (s : kst) : list bytes :=
    map ku_issuer (k_queue s) ++ flat_map (fun w => match working w with Some i => [i] | None => [] end) (k_workers s).

  Definition wOk (q0 : list unit_) (t0 now : Z) (w : wstate) : Prop :=
    match w with
    | WWork u dn td buf => In u q0 /\ ku_dates u = dn ++ td /\ holds (ku_issuer u) t0 now dn buf
    | _ => True
    end.

  Definition inv (q0 : list unit_) (f0 : list (bytes * bytes)) (t0 : Z) (s : kst) : Prop :=
    (t0 <= k_now s)%Z /\
    NoDup (pending s) /\
    (exists p, q0 = p ++ k_queue s) /\
    (k_cancelled s = false -> Forall (wOk q0 t0 (k_now s)) (k_workers s)) /\
    (forall i, In i (pending s) -> In i (map ku_issuer q0)) /\
    (k_cancelled s = false -> k_lost s = false -> forall u, In u q0 -> In (ku_issuer u) (pending s) \/
       exists data, alookup (ku_issuer u) (k_files s) = Some data /\ holds (ku_issuer u) t0 (k_now s) (ku_dates u) data) /\
    (forall i, ~ In i (map ku_issuer q0) -> alookup i (k_files s) = alookup i f0).

  Lemma Forall_mid {A} (P : A -> Prop) a x b : Forall P (a ++ x :: b) <-> Forall P a /\ P x /\ Forall P b.
  Proof using Type. rewrite Forall_app, Forall_cons_iff. tauto. Qed.

  Definition pw (ws : list wstate) : list bytes := flat_map (fun w => match working w with Some i => [i] | None => [] end) ws.

  Lemma pw_mid a w b : pw (a ++ w :: b) = pw a ++ (match working w with Some i => [i] | None => [] end) ++ pw b.
  Proof using Type. unfold pw. rewrite flat_map_app. reflexivity. Qed.

  Lemma wOk_later q0 t0 t1 t2 w : (t1 <= t2)%Z -> wOk q0 t0 t1 w -> wOk q0 t0 t2 w.
  Proof using Type.
    intros L. destruct w; cbn; try tauto. intros [I [D H]]. split; [exact I|]. split; [exact D|].
    eapply holds_later; eassumption.
  Qed.

  Lemma inv_step q0 f0 t0 s s' : NoDup (map ku_issuer q0) -> inv q0 f0 t0 s -> kstep store s s' -> inv q0 f0 t0 s'.
  Proof using Type.
    intros ND0 [T [ND [[p Q] [W [IN [FI FR]]]]]] H.
    assert (KEY : forall u u', In u q0 -> In u' q0 -> ku_issuer u = ku_issuer u' -> u = u').
    { clear -ND0. induction q0 as [|x q IH]; intros u u' I I' E; [destruct I|]. cbn [map] in ND0. apply NoDup_cons_iff in ND0.
      destruct ND0 as [N ND]. destruct I as [<-|I], I' as [<-|I']; [reflexivity| | |apply (IH ND); assumption].
      - exfalso. apply N. rewrite E. apply in_map. exact I'.
      - exfalso. apply N. rewrite <- E. apply in_map. exact I. }
    unfold inv, pending in *. fold (pw (k_workers s)) in *. fold (pw (k_workers s')) in *.
    destruct H; cbn [k_queue k_workers k_cancelled k_crashed k_files k_lost k_now] in *;
      try rewrite !pw_mid in *; cbn [working app] in *.
    - (* mkdir *) repeat (split; [assumption|]). split; [exists p; exact Q|]. split; [|split; [assumption|split; assumption]].
      intros C. specialize (W C). apply Forall_mid in W. apply Forall_mid. cbn; tauto.
    - (* mkdirErr *) repeat (split; [assumption|]). split; [exists p; exact Q|]. split; [discriminate|]. split; [assumption|]. split; [discriminate|assumption].
    - (* open *)
      assert (Iu : In u q0) by (rewrite Q; apply in_or_app; right; left; reflexivity).
      assert (P : forall x, In x (map ku_issuer q ++ pw a ++ ku_issuer u :: pw b) <-> In x (map ku_issuer (u :: q) ++ pw a ++ pw b)).
      { intros x. cbn [map app]. rewrite !in_app_iff. cbn [In]. rewrite !in_app_iff. tauto. }
      split; [assumption|]. split.
      { apply (Permutation_NoDup (l := map ku_issuer (u :: q) ++ pw a ++ pw b)); [|exact ND]. cbn [map].
        rewrite !app_assoc. apply Permutation_cons_app. reflexivity. }
      split; [exists (p ++ [u]); rewrite <- app_assoc; exact Q|].
      split. { intros C. specialize (W C). apply Forall_mid in W. apply Forall_mid. split; [apply W|]. split; [|apply W].
        cbn. split; [exact Iu|]. split; [reflexivity|]. exists []. split; [constructor|reflexivity]. }
      split. { intros i I. apply IN. apply P. exact I. }
      split. { intros C L v Iv. destruct (FI C L v Iv) as [I|[data [E HH]]]; [left; apply P; exact I|].
        destruct (beq_spec (ku_issuer v) (ku_issuer u)) as [Ei|Ni].
        - left. apply P. cbn [map]. left. symmetry; exact Ei.
        - right. exists data. split; [|exact HH]. rewrite alookup_aset_other by exact Ni. exact E. }
      intros i Ni. rewrite alookup_aset_other; [apply FR; exact Ni|]. intros ->. apply Ni. apply in_map; exact Iu.
    - (* openErr *)
      split; [assumption|]. split. { cbn [map] in ND. apply NoDup_cons_iff in ND. apply ND. }
      split; [exists (p ++ [u]); rewrite <- app_assoc; exact Q|]. split; [discriminate|].
      split; [intros i I; apply IN; right; exact I|]. split; [discriminate|assumption].
    - (* closed *) repeat (split; [assumption|]). split; [exists p; exact Q|]. split; [|split; [assumption|split; assumption]].
      intros C. specialize (W C). apply Forall_mid in W. apply Forall_mid. cbn; tauto.
    - (* quit *)
      assert (Iu : In (ku_issuer u) (map ku_issuer q0)).
      { apply IN. rewrite !in_app_iff. cbn [In]. tauto. }
      split; [assumption|]. split. { apply NoDup_app_swap_mid with (x := ku_issuer u). exact ND. }
      split; [exists p; exact Q|]. split; [discriminate|].
      split; [intros i I; apply IN; rewrite !in_app_iff in *; cbn [In]; tauto|]. split; [discriminate|].
      intros i Ni. rewrite alookup_aset_other; [apply FR; exact Ni|]. intros ->. contradiction.
    - (* expired *)
      split; [assumption|]. split; [assumption|]. split; [exists p; exact Q|].
      split. { intros C. specialize (W C). apply Forall_mid in W. apply Forall_mid. split; [apply W|]. split; [|apply W].
        destruct W as [_ [[I [D HH]] _]]. split; [exact I|]. split; [rewrite <- app_assoc; exact D|].
        rewrite <- (app_nil_r buf). apply holds_snoc; [exact HH|]. exists t. split; [lia|left; auto]. }
      split; [assumption|]. split; assumption.
    - (* bin *)
      split; [assumption|]. split; [assumption|]. split; [exists p; exact Q|].
      split. { intros C. specialize (W C). apply Forall_mid in W. apply Forall_mid. split; [apply W|]. split; [|apply W].
        destruct W as [_ [[I [D HH]] _]]. split; [exact I|]. split; [rewrite <- app_assoc; exact D|].
        apply holds_snoc; [exact HH|]. exists t. split; [lia|right]. split; [assumption|]. exists ss. auto. }
      split; [assumption|]. split; assumption.
    - (* binErr *)
      assert (Iu : In (ku_issuer u) (map ku_issuer q0)).
      { apply IN. rewrite !in_app_iff. cbn [In]. tauto. }
      split; [assumption|]. split. { apply NoDup_app_swap_mid with (x := ku_issuer u). exact ND. }
      split; [exists p; exact Q|]. split; [discriminate|].
      split; [intros i I; apply IN; rewrite !in_app_iff in *; cbn [In]; tauto|]. split; [discriminate|].
      intros i Ni. rewrite alookup_aset_other; [apply FR; exact Ni|]. intros ->. contradiction.
    - (* panic *)
      split; [assumption|]. split; [assumption|]. split; [exists p; exact Q|]. split; [assumption|].
      split; [assumption|]. split; assumption.
    - (* finish *)
      assert (Iu : In (ku_issuer u) (map ku_issuer q0)).
      { apply IN. rewrite !in_app_iff. cbn [In]. tauto. }
      assert (WI : working (if c then WDone else WIdle) = None) by (destruct c; reflexivity). rewrite WI. cbn [app].
      split; [assumption|]. split. { apply NoDup_app_swap_mid with (x := ku_issuer u). exact ND. }
      split; [exists p; exact Q|].
      split. { intros C. specialize (W C). apply Forall_mid in W. apply Forall_mid. split; [apply W|]. split; [|apply W]. destruct c; exact Logic.I. }
      split; [intros i I; apply IN; rewrite !in_app_iff in *; cbn [In]; tauto|].
      split. { intros C L v Iv. specialize (W C). apply Forall_mid in W. destruct W as [_ [[I [D HH]] _]].
        destruct (beq_spec (ku_issuer v) (ku_issuer u)) as [Ei|Ni].
        - right. assert (v = u) by (apply KEY; assumption). subst v. exists buf. split; [apply alookup_aset_same|].
          rewrite app_nil_r in D. rewrite D. exact HH.
        - destruct (FI C L v Iv) as [J|[data [E HV]]].
          + left. rewrite !in_app_iff in *. cbn [In] in J. destruct J as [J|[J|[J|J]]]; auto. congruence.
          + right. exists data. rewrite alookup_aset_other by exact Ni. auto. }
      intros i Ni. rewrite alookup_aset_other; [apply FR; exact Ni|]. intros ->. contradiction.
    - (* finishLost *)
      assert (Iu : In (ku_issuer u) (map ku_issuer q0)).
      { apply IN. rewrite !in_app_iff. cbn [In]. tauto. }
      assert (WI : working (if c then WDone else WIdle) = None) by (destruct c; reflexivity). rewrite WI. cbn [app].
      split; [assumption|]. split. { apply NoDup_app_swap_mid with (x := ku_issuer u). exact ND. }
      split; [exists p; exact Q|].
      split. { intros C. specialize (W C). apply Forall_mid in W. apply Forall_mid. split; [apply W|]. split; [|apply W]. destruct c; exact Logic.I. }
      split; [intros i I; apply IN; rewrite !in_app_iff in *; cbn [In]; tauto|].
      split; [discriminate|].
      intros i Ni. rewrite alookup_aset_other; [apply FR; exact Ni|]. intros ->. contradiction.
    - (* signal *) repeat (split; [assumption|]). split; [exists p; exact Q|]. split; [discriminate|]. split; [assumption|]. split; [discriminate|assumption].
    - (* tick *)
      split; [lia|]. split; [assumption|]. split; [exists p; exact Q|].
      split. { intros C. specialize (W C). revert W. apply Forall_impl. intros w. apply wOk_later; assumption. }
      split; [assumption|]. split; [|assumption].
      intros C L v Iv. destruct (FI C L v Iv) as [J|[data [E HV]]]; [left; exact J|right]. exists data. split; [exact E|].
      eapply holds_later; eassumption.
  Qed.

  Lemma inv_steps q0 f0 t0 s s' : NoDup (map ku_issuer q0) -> inv q0 f0 t0 s -> ksteps store s s' -> inv q0 f0 t0 s'.
  Proof using Type. intros ND I H. induction H; [exact I|]. eapply inv_step; eassumption. Qed.

  Lemma pw_repeat n : pw (repeat WStart n) = [].
  Proof using Type. induction n; [reflexivity|exact IHn]. Qed.

  Lemma inv_init n q f t : NoDup (map ku_issuer q) -> inv q f t (kinit n q f t).
  Proof using Type.
    intros ND. unfold inv, pending, kinit. cbn [k_queue k_workers k_cancelled k_crashed k_files k_lost k_now].
    fold (pw (repeat WStart n)). rewrite pw_repeat, app_nil_r. split; [lia|]. split; [exact ND|]. split; [exists []; reflexivity|].
    split; [intros _; apply Forall_forall; intros w I; apply repeat_spec in I; subst w; exact Logic.I|].
    split; [auto|]. split; [|reflexivity]. intros _ _ u I. left. apply in_map. exact I.
  Qed.

  (** A worker ends without a cancellation only when the queue is empty. *)
  Lemma done_empty n q f t s : ksteps store (kinit n q f t) s ->
    length (k_workers s) = n /\ (k_cancelled s = false -> In WDone (k_workers s) -> k_queue s = []).
  Proof using Type.
    intros H. induction H as [|s1 s2 H [IH1 IH2] K].
    - cbn. split; [apply repeat_length|]. intros _ I. apply repeat_spec in I. discriminate.
    - destruct K; cbn [k_queue k_workers k_cancelled] in *; (split; [rewrite ?app_length in *; cbn [length] in *; exact IH1|]);
        try discriminate; try exact IH2; try reflexivity.
      all: try (intros C I; apply IH2; [exact C|]; rewrite in_app_iff in *; cbn [In] in *; destruct I as [I|[I|I]]; auto; discriminate).
      + intros C I. rewrite in_app_iff in *. cbn [In] in *.
        assert (X : u :: q0 = []) by (apply IH2; [exact C|]; destruct I as [I|[I|I]]; auto; discriminate). discriminate X.
      + intros C I. subst c. apply IH2; [reflexivity|]. rewrite in_app_iff in *. cbn [In] in *. destruct I as [I|[I|I]]; auto; discriminate.
      + intros C I. subst c. apply IH2; [reflexivity|]. rewrite in_app_iff in *. cbn [In] in *. destruct I as [I|[I|I]]; auto; discriminate.
  Qed.

  (** ** When the program ends without an error, and no flush failed, the file of
      every issuer in the program holds its bins, whatever the interleaving; no
      other file changed. *)
  Theorem C31_known_files : forall inProgram l q threads f0 t0 s,
    NoDup (map fst l) -> (forall i dates, In (i, dates) l -> dates <> []) ->
    makeQueue inProgram l = Ok q -> (0 < threads)%nat ->
    ksteps store (kinit threads q f0 t0) s -> kended s -> kok s = true -> k_lost s = false ->
    (forall i dates, In (i, dates) l -> inProgram i = true ->
       exists data, alookup i (k_files s) = Some data /\ holds i t0 (k_now s) dates data) /\
    (forall i, ~ (In i (map fst l) /\ inProgram i = true) -> alookup i (k_files s) = alookup i f0).
  Proof using Type.
    intros inP l q n f0 t0 s ND NE MQ TH H [CR E] OK L.
    rewrite C31_queue_never_overflows in MQ by exact NE. injection MQ as <-.
    set (q := map (fun x : bytes * list expDate => mkUnit (fst x) (snd x)) (filter (fun x => inP (fst x)) l)) in *.
    assert (MI : map ku_issuer q = map fst (filter (fun x => inP (fst x)) l)).
    { unfold q. rewrite map_map. reflexivity. }
    assert (NDQ : NoDup (map ku_issuer q)).
    { rewrite MI. clear -ND. induction l as [|x l IH]; [constructor|]. cbn [map] in ND. apply NoDup_cons_iff in ND. destruct ND as [N ND].
      cbn [filter]. destruct (inP (fst x)); [|apply IH; exact ND]. cbn [map]. constructor; [|apply IH; exact ND].
      intros I. apply N. apply in_map_iff in I. destruct I as [y [Q I]]. apply filter_In in I. rewrite <- Q. apply in_map. apply I. }
    pose proof (inv_steps q f0 t0 _ _ NDQ (inv_init n q f0 t0 NDQ) H) as [T [_ [_ [_ [_ [FI FR]]]]]].
    destruct (done_empty _ _ _ _ _ H) as [LN DE].
    unfold kok in OK. apply negb_true_iff in OK.
    assert (QE : k_queue s = []).
    { apply DE; [exact OK|]. destruct (k_workers s) as [|w ws]; [cbn in LN; lia|]. inversion E; subst. left; reflexivity. }
    assert (PE : pending s = []).
    { unfold pending. rewrite QE. cbn [map app]. clear -E. induction E as [|w ws -> E IH]; [reflexivity|exact IH]. }
    split.
    - intros i dates I P. destruct (FI OK L (mkUnit i dates)) as [J|J].
      + unfold q. apply in_map_iff. exists (i, dates). split; [reflexivity|]. apply filter_In. auto.
      + rewrite PE in J. destruct J.
      + exact J.
    - intros i N. apply FR. rewrite MI. intros I. apply N. apply in_map_iff in I. destruct I as [x [<- I]]. apply filter_In in I.
      split; [apply in_map; apply I|apply I].
  Qed.

  (** A file that the run wrote, perhaps in part. *)
  Definition begun (q0 : list unit_) (t0 t1 : Z) (i data : bytes) : Prop :=
    exists u ds rest whole more, In u q0 /\ ku_issuer u = i /\ ku_dates u = ds ++ rest /\ holds i t0 t1 ds whole /\ whole = data ++ more.

  Lemma begun_later q0 t0 t1 t2 i data : (t1 <= t2)%Z -> begun q0 t0 t1 i data -> begun q0 t0 t2 i data.
  Proof using Type.
    intros L [u [ds [rest [whole [more [A [B [C [D E]]]]]]]]]. exists u, ds, rest, whole, more.
    split; [exact A|]. split; [exact B|]. split; [exact C|]. split; [eapply holds_later; eassumption|exact E].
  Qed.

  Definition anyInv (q0 : list unit_) (f0 : list (bytes * bytes)) (t0 : Z) (s : kst) : Prop :=
    (t0 <= k_now s)%Z /\ incl (k_queue s) q0 /\ Forall (wOk q0 t0 (k_now s)) (k_workers s) /\
    (forall i data, alookup i (k_files s) = Some data -> alookup i f0 = Some data \/ begun q0 t0 (k_now s) i data) /\
    ((forall u d, In u q0 -> In d (ku_dates u) -> readBin store (ku_issuer u) d <> Panic) -> k_crashed s = false).

  Lemma anyInv_step q0 f0 t0 s s' : anyInv q0 f0 t0 s -> kstep store s s' -> anyInv q0 f0 t0 s'.
  Proof using Type.
    intros [T [Q [W [F C]]]] H.
    assert (PUT : forall now f u dn td buf n, In u q0 -> ku_dates u = dn ++ td -> holds (ku_issuer u) t0 now dn buf ->
              (forall i data, alookup i f = Some data -> alookup i f0 = Some data \/ begun q0 t0 now i data) ->
              forall i data, alookup i (aset (ku_issuer u) (firstn n buf) f) = Some data -> alookup i f0 = Some data \/ begun q0 t0 now i data).
    { intros now f u dn td buf n Iu D HH F0 i data L. destruct (beq_spec i (ku_issuer u)) as [->|N].
      - rewrite alookup_aset_same in L. injection L as <-. right. exists u, dn, td, buf, (skipn n buf).
        split; [exact Iu|]. split; [reflexivity|]. split; [exact D|]. split; [exact HH|]. symmetry. apply firstn_skipn.
      - rewrite alookup_aset_other in L by exact N. apply F0; exact L. }
    assert (WHOLE : forall now f u dn td buf, In u q0 -> ku_dates u = dn ++ td -> holds (ku_issuer u) t0 now dn buf ->
              (forall i data, alookup i f = Some data -> alookup i f0 = Some data \/ begun q0 t0 now i data) ->
              forall i data, alookup i (aset (ku_issuer u) buf f) = Some data -> alookup i f0 = Some data \/ begun q0 t0 now i data).
    { intros now f u dn td buf Iu D HH F0. rewrite <- (firstn_all buf). apply (PUT now f u dn td buf (length buf) Iu D HH F0). }
    unfold anyInv. destruct H; cbn [k_queue k_workers k_cancelled k_crashed k_files k_lost k_now] in *.
    - (* mkdir *) apply Forall_mid in W. split; [exact T|]. split; [exact Q|]. split; [apply Forall_mid; cbn; tauto|]. split; [exact F|exact C].
    - (* mkdirErr *) apply Forall_mid in W. split; [exact T|]. split; [exact Q|]. split; [apply Forall_mid; cbn; tauto|]. split; [exact F|exact C].
    - (* open *) assert (Iu : In u q0) by (apply Q; left; reflexivity). apply Forall_mid in W. split; [exact T|].
      split; [intros x I; apply Q; right; exact I|].
      assert (H0 : holds (ku_issuer u) t0 t [] []) by (exists []; split; [constructor|reflexivity]).
      split; [apply Forall_mid; split; [apply W|]; split; [|apply W]; cbn; auto|].
      split; [|exact C]. apply (WHOLE t f u [] (ku_dates u) []); auto.
    - (* openErr *) apply Forall_mid in W. split; [exact T|]. split; [intros x I; apply Q; right; exact I|].
      split; [apply Forall_mid; cbn; tauto|]. split; [exact F|exact C].
    - (* closed *) apply Forall_mid in W. split; [exact T|]. split; [exact Q|]. split; [apply Forall_mid; cbn; tauto|]. split; [exact F|exact C].
    - (* quit *) apply Forall_mid in W. destruct W as [W1 [[Iu [D HH]] W2]]. split; [exact T|]. split; [exact Q|].
      split; [apply Forall_mid; cbn; tauto|]. split; [|exact C]. eapply PUT; eassumption.
    - (* expired *) apply Forall_mid in W. destruct W as [W1 [[Iu [D HH]] W2]]. split; [exact T|]. split; [exact Q|].
      split; [apply Forall_mid; split; [exact W1|]; split; [|exact W2]|split; [exact F|exact C]].
      split; [exact Iu|]. split; [rewrite <- app_assoc; exact D|]. rewrite <- (app_nil_r buf). apply holds_snoc; [exact HH|].
      exists t. split; [lia|left; auto].
    - (* bin *) apply Forall_mid in W. destruct W as [W1 [[Iu [D HH]] W2]]. split; [exact T|]. split; [exact Q|].
      split; [apply Forall_mid; split; [exact W1|]; split; [|exact W2]|split; [exact F|exact C]].
      split; [exact Iu|]. split; [rewrite <- app_assoc; exact D|]. apply holds_snoc; [exact HH|].
      exists t. split; [lia|right]. split; [assumption|]. exists ss. auto.
    - (* binErr *) apply Forall_mid in W. destruct W as [W1 [[Iu [D HH]] W2]]. split; [exact T|]. split; [exact Q|].
      split; [apply Forall_mid; cbn; tauto|]. split; [|exact C]. eapply PUT; eassumption.
    - (* panic *) split; [exact T|]. split; [exact Q|]. split; [exact W|]. split; [exact F|]. intros NP.
      apply Forall_mid in W. destruct W as [_ [[Iu [D _]] _]]. exfalso. apply (NP u d Iu); [|assumption].
      rewrite D. apply in_or_app; right; left; reflexivity.
    - (* finish *) apply Forall_mid in W. destruct W as [W1 [[Iu [D HH]] W2]]. split; [exact T|]. split; [exact Q|].
      split; [apply Forall_mid; split; [exact W1|]; split; [destruct c; exact Logic.I|exact W2]|]. split; [|exact C]. eapply WHOLE; eassumption.
    - (* finishLost *) apply Forall_mid in W. destruct W as [W1 [[Iu [D HH]] W2]]. split; [exact T|]. split; [exact Q|].
      split; [apply Forall_mid; split; [exact W1|]; split; [destruct c; exact Logic.I|exact W2]|]. split; [|exact C]. eapply PUT; eassumption.
    - (* signal *) split; [exact T|]. split; [exact Q|]. split; [exact W|]. split; [exact F|exact C].
    - (* tick *) split; [lia|]. split; [exact Q|]. split; [revert W; apply Forall_impl; intros w; apply wOk_later; assumption|].
      split; [|exact C]. intros i data L. destruct (F i data L) as [X|X]; [left; exact X|right]. eapply begun_later; eassumption.
  Qed.

  (** At every moment, and however the run ends, every file is as it was, or is of
      an issuer in the program and is a beginning of what its first bins
      contribute; and the process does not crash if no stored bin makes it. *)
  Theorem C31_at_any_moment : forall inProgram l q threads f0 t0 s,
    (forall i dates, In (i, dates) l -> dates <> []) -> makeQueue inProgram l = Ok q ->
    ksteps store (kinit threads q f0 t0) s ->
    (forall i data, alookup i (k_files s) = Some data -> alookup i f0 = Some data \/
       inProgram i = true /\ exists dates ds rest whole more, In (i, dates) l /\ dates = ds ++ rest /\
         holds i t0 (k_now s) ds whole /\ whole = data ++ more) /\
    ((forall i dates d, In (i, dates) l -> In d dates -> readBin store i d <> Panic) -> k_crashed s = false).
  Proof using Type.
    intros inP l q n f0 t0 s NE MQ H.
    rewrite C31_queue_never_overflows in MQ by exact NE. injection MQ as <-.
    set (q := map (fun x : bytes * list expDate => mkUnit (fst x) (snd x)) (filter (fun x => inP (fst x)) l)) in *.
    assert (IQ : forall u, In u q -> In (ku_issuer u, ku_dates u) l /\ inP (ku_issuer u) = true).
    { intros u I. unfold q in I. apply in_map_iff in I. destruct I as [[i ds] [<- I]]. cbn [fst snd ku_issuer ku_dates].
      apply filter_In in I. exact I. }
    assert (A : anyInv q f0 t0 s).
    { induction H as [|s1 s2 H IH K]; [|apply (anyInv_step _ _ _ _ _ IH K)].
      unfold anyInv, kinit. cbn [k_queue k_workers k_files k_now k_crashed]. split; [lia|]. split; [apply incl_refl|].
      split; [apply Forall_forall; intros w I; apply repeat_spec in I; subst w; exact Logic.I|]. split; [auto|reflexivity]. }
    destruct A as [_ [_ [_ [F C]]]]. split.
    - intros i data L. destruct (F i data L) as [X|[u [ds [rest [whole [more [A [B [D [E G]]]]]]]]]]; [left; exact X|right].
      destruct (IQ u A) as [I P]. rewrite B in *. split; [exact P|]. exists (ku_dates u), ds, rest, whole, more. auto.
    - intros NP. apply C. intros u d Iu Id. destruct (IQ u Iu) as [I _]. apply (NP _ _ d I Id).
  Qed.

  Lemma ksteps_trans s1 s2 s3 : ksteps store s1 s2 -> ksteps store s2 s3 -> ksteps store s1 s3.
  Proof using Type. intros A B. induction B; [exact A|]. eapply KS_step; eassumption. Qed.

  Lemma ksteps_one s1 s2 : kstep store s1 s2 -> ksteps store s1 s2.
  Proof using Type. intros A. eapply KS_step; [apply KS_refl|exact A]. Qed.

  (** With at least one thread and readable bins, a run without faults succeeds. *)
  Theorem C31_can_succeed : forall q threads f0 t0, (0 < threads)%nat ->
    (forall u d, In u q -> In d (ku_dates u) -> isExpiredAt d t0 = false -> exists ss, readBin store (ku_issuer u) d = Ok ss) ->
    exists s, ksteps store (kinit threads q f0 t0) s /\ kended s /\ kok s = true /\ k_lost s = false.
  Proof using Type.
    intros q n f0 t0 N R.
    assert (S1 : forall b a, ksteps store (mkK q (repeat WIdle a ++ repeat WStart b) false false f0 false t0)
                               (mkK q (repeat WIdle (a + b)) false false f0 false t0)).
    { induction b as [|b IH]; intros a; cbn [repeat]; [rewrite app_nil_r, Nat.add_0_r; apply KS_refl|].
      eapply ksteps_trans; [apply ksteps_one; apply K_mkdir|]. specialize (IH (S a)).
      replace (repeat WIdle a ++ WIdle :: repeat WStart b) with (repeat WIdle (S a) ++ repeat WStart b).
      - replace (a + S b)%nat with (S a + b)%nat by lia. exact IH.
      - cbn [repeat]. rewrite repeat_cons, <- app_assoc. reflexivity. }
    destruct n as [|n]; [lia|]. set (b := repeat WIdle n).
    assert (S2 : forall u q' f td dn buf,
              (forall d, In d td -> isExpiredAt d t0 = false -> exists ss, readBin store (ku_issuer u) d = Ok ss) ->
              exists dn' buf', ksteps store (mkK q' ([] ++ WWork u dn td buf :: b) false false f false t0) (mkK q' ([] ++ WWork u dn' [] buf' :: b) false false f false t0)).
    { intros u q' f. induction td as [|d td IH]; intros dn buf RD; [exists dn, buf; apply KS_refl|].
      assert (RD' : forall d0, In d0 td -> isExpiredAt d0 t0 = false -> exists ss, readBin store (ku_issuer u) d0 = Ok ss)
        by (intros d0 I0; apply RD; right; exact I0).
      destruct (isExpiredAt d t0) eqn:E.
      - destruct (IH (dn ++ [d]) buf RD') as [dn' [buf' H]]. exists dn', buf'. eapply ksteps_trans; [apply ksteps_one; apply K_expired; exact E|exact H].
      - destruct (RD d (or_introl eq_refl) E) as [ss RS].
        destruct (IH (dn ++ [d]) (buf ++ writeSerialList (expUnix d) ss) RD') as [dn' [buf' H]]. exists dn', buf'.
        eapply ksteps_trans; [apply ksteps_one; apply (K_bin store q' u dn d td buf ss [] b); [exact E|exact RS]|exact H]. }
    assert (S3 : forall q' f, incl q' q -> exists f', ksteps store (mkK q' ([] ++ WIdle :: b) false false f false t0) (mkK [] ([] ++ WIdle :: b) false false f' false t0)).
    { induction q' as [|u q' IH]; intros f IQ; [exists f; apply KS_refl|].
      destruct (S2 u q' (aset (ku_issuer u) [] f) (ku_dates u) [] []) as [dn [buf H2]].
      { intros d Id. apply R; [apply IQ; left; reflexivity|exact Id]. }
      destruct (IH (aset (ku_issuer u) buf (aset (ku_issuer u) [] f))) as [f' H3]; [intros x I; apply IQ; right; exact I|].
      exists f'. eapply ksteps_trans; [apply ksteps_one; apply K_open|]. eapply ksteps_trans; [exact H2|].
      eapply ksteps_trans; [apply ksteps_one; apply (K_finish store q' u dn buf [] b false)|]. exact H3. }
    assert (S4 : forall m a f, ksteps store (mkK [] (repeat WDone a ++ repeat WIdle m) false false f false t0)
                               (mkK [] (repeat WDone (a + m)) false false f false t0)).
    { induction m as [|m IH]; intros a f; cbn [repeat]; [rewrite app_nil_r, Nat.add_0_r; apply KS_refl|].
      eapply ksteps_trans; [apply ksteps_one; apply K_closed|]. specialize (IH (S a) f).
      replace (repeat WDone a ++ WDone :: repeat WIdle m) with (repeat WDone (S a) ++ repeat WIdle m).
      - replace (a + S m)%nat with (S a + m)%nat by lia. exact IH.
      - cbn [repeat]. rewrite repeat_cons, <- app_assoc. reflexivity. }
    destruct (S3 q f0 (incl_refl q)) as [f' H3]. exists (mkK [] (repeat WDone (S n)) false false f' false t0).
    split.
    - eapply ksteps_trans; [apply (S1 (S n) 0%nat)|]. eapply ksteps_trans; [exact H3|]. apply (S4 (S n) 0%nat).
    - split; [split; [reflexivity|]|split; reflexivity]. cbn [k_workers]. apply Forall_forall. intros w I. apply repeat_spec in I. exact I.
  Qed.

  (** What the filter builder reads from such a file: every serial of a bin that
      is not expired when the run ends, and nothing but serials of the bins of
      this issuer that were not expired when it started. *)
  Theorem C31_read_by_the_builder : forall i t0 t1 dates data,
    holds i t0 t1 dates data -> (forall d, In d dates -> (0 <= expUnix d < 2 ^ 63)%Z) ->
    exists out, rustReadKnown data = Ok out /\
      (forall u h, In (u, h) out -> exists d ss s, In d dates /\ isExpiredAt d t0 = false /\ readBin store i d = Ok ss /\
         In s ss /\ spells s h /\ u = Z.to_N (expUnix d)) /\
      (forall d, In d dates -> isExpiredAt d t1 = false -> exists ss, readBin store i d = Ok ss /\
         forall s, In s ss -> In (Z.to_N (expUnix d), hexEncode s) out).
  Proof using Type.
    intros i t0 t1 dates data [xs [F ->]] U.
    assert (G : exists l : list (Z * list bytes), concat xs = flat_map (fun p => writeSerialList (fst p) (snd p)) l /\
       (forall u ss, In (u, ss) l -> exists d, In d dates /\ isExpiredAt d t0 = false /\ readBin store i d = Ok ss /\ u = expUnix d) /\
       (forall d, In d dates -> isExpiredAt d t1 = false -> exists ss, readBin store i d = Ok ss /\ In (expUnix d, ss) l)).
    { clear U. induction F as [|d x ds xs P F [l [E [A C]]]].
      - exists []. split; [reflexivity|]. split; [intros u ss []|intros d []].
      - destruct P as [t [B [[X ->]|[X [ss [R ->]]]]]].
        + exists l. cbn [concat app]. split; [exact E|]. split.
          * intros u ss I. destruct (A u ss I) as [d' [I' H]]. exists d'. split; [right; exact I'|exact H].
          * intros d' [<-|I'] N; [|apply C; assumption]. exfalso. unfold isExpiredAt in *. lia.
        + exists ((expUnix d, ss) :: l). cbn [concat flat_map fst snd]. split; [rewrite E; reflexivity|]. split.
          * intros u ss' [I|I].
            -- injection I as <- <-. exists d. split; [left; reflexivity|]. split; [unfold isExpiredAt in *; lia|]. auto.
            -- destruct (A u ss' I) as [d' [I' H]]. exists d'. split; [right; exact I'|exact H].
          * intros d' [<-|I'] N.
            -- exists ss. split; [exact R|left; reflexivity].
            -- destruct (C d' I' N) as [ss' [R' I2]]. exists ss'. split; [exact R'|right; exact I2]. }
    destruct G as [l [E [A C]]]. rewrite E.
    assert (UL : forall u ss, In (u, ss) l -> (0 <= u < 2 ^ 63)%Z).
    { intros u ss I. destruct (A u ss I) as [d [Id [_ [_ ->]]]]. apply U; exact Id. }
    exists (flat_map (fun p => map (fun s => (Z.to_N (fst p), hexEncode s)) (snd p)) l).
    split; [apply rustKnown_lists; exact UL|]. split.
    - intros u h I. apply in_flat_map in I. destruct I as [[u0 ss] [I1 I2]]. apply in_map_iff in I2. cbn [fst snd] in I2.
      destruct I2 as [s0 [Q I2]]. injection Q as <- <-. destruct (A u0 ss I1) as [d [Id [X [R ->]]]].
      exists d, ss, s0. repeat (split; [assumption|]). split; [apply spells_decode, hexDecode_encode|reflexivity].
    - intros d Id X. destruct (C d Id X) as [ss [R I]]. exists ss. split; [exact R|]. intros s0 Is.
      apply in_flat_map. exists (expUnix d, ss). split; [exact I|]. cbn [fst snd].
      apply in_map_iff. exists s0. auto.
  Qed.

  (** ** No deadlock, and the workers stop *)

  Definition wWeight (w : wstate) : nat :=
    match w with WStart => 3 | WIdle => 2 | WWork _ _ td _ => 3 + length td | WDone => 0 end.
  Definition weight (s : kst) : nat :=
    list_sum (map (fun u => 3 + length (ku_dates u))%nat (k_queue s)) + list_sum (map wWeight (k_workers s)).

  Definition external (s s' : kst) : Prop :=
    k_queue s' = k_queue s /\ k_workers s' = k_workers s /\ k_files s' = k_files s.

  Lemma sum_mid f a (w : wstate) b : list_sum (map f (a ++ w :: b)) = (list_sum (map f a) + (f w + list_sum (map f b)))%nat.
  Proof using Type. rewrite map_app, list_sum_app. reflexivity. Qed.

  (** Every step is a step of a worker, which reduces the remaining work, or the
      signal, the clock or the crash; and as long as the program has neither
      ended nor crashed a worker can move. *)
  Theorem C31_workers_finish : forall s,
    (forall s', kstep store s s' -> external s s' \/ (weight s' < weight s)%nat) /\
    (k_crashed s = false -> ~ kended s -> exists s', kstep store s s' /\ (k_crashed s' = true \/ (weight s' < weight s)%nat)).
  Proof using Type.
    intros s.
    assert (A : forall s', kstep store s s' -> external s s' \/ (weight s' < weight s)%nat).
    { intros s' H. destruct H; try (left; repeat split; reflexivity); right; unfold weight; cbn [k_queue k_workers];
        rewrite !sum_mid; cbn [wWeight map length]; try (destruct c; cbn [wWeight]); cbn [list_sum fold_right];
        try change (fold_right Nat.add 0%nat) with list_sum; lia. }
    split; [exact A|]. intros C N.
    assert (X : exists a w b, k_workers s = a ++ w :: b /\ w <> WDone).
    { unfold kended in N. assert (N' : ~ Forall (fun w => w = WDone) (k_workers s)) by (intros F; apply N; auto). clear -N'.
      induction (k_workers s) as [|w ws IH]; [exfalso; apply N'; constructor|].
      assert (D : w = WDone \/ w <> WDone) by (destruct w; [right|right|right|left]; congruence).
      destruct D as [->|D]; [|exists [], w, ws; auto]. destruct IH as [a [w [b [-> W]]]].
      - intros F. apply N'. constructor; [reflexivity|exact F].
      - exists (WDone :: a), w, b. auto. }
    destruct X as [a [w [b [E W]]]]. destruct s as [q ws c cr f l t]. cbn [k_workers k_crashed] in *. subst ws cr.
    assert (M : exists s', kstep store (mkK q (a ++ w :: b) c false f l t) s' /\ (k_crashed s' = true \/ ~ external (mkK q (a ++ w :: b) c false f l t) s')).
    { assert (NE : forall w', w' <> w -> a ++ w' :: b <> a ++ w :: b) by (intros w' D Q; apply app_inv_head in Q; congruence).
      destruct w as [| |u dn td buf|]; [| | |congruence].
      - eexists. split; [apply K_mkdir|]. right. intros [_ [Q _]]. cbn [k_workers] in Q. revert Q. apply NE. discriminate.
      - destruct q as [|u q].
        + eexists. split; [apply K_closed|]. right. intros [_ [Q _]]. cbn [k_workers] in Q. revert Q. apply NE. discriminate.
        + eexists. split; [apply K_open|]. right. intros [_ [Q _]]. cbn [k_workers] in Q. revert Q. apply NE. discriminate.
      - destruct td as [|d td].
        + eexists. split; [apply K_finish|]. right. intros [_ [Q _]]. cbn [k_workers] in Q. revert Q. apply NE. destruct c; discriminate.
        + destruct c.
          * eexists. split; [apply (K_quit store q u dn d td buf 0)|]. right. intros [_ [Q _]]. cbn [k_workers] in Q. revert Q. apply NE. discriminate.
          * destruct (isExpiredAt d t) eqn:X.
            -- eexists. split; [apply K_expired; exact X|]. right. intros [_ [Q _]]. cbn [k_workers] in Q. revert Q. apply NE.
               intros Q. injection Q as _ Q. apply (f_equal (@length expDate)) in Q. cbn in Q. lia.
            -- destruct (readBin store (ku_issuer u) d) as [ss| |] eqn:R.
               ++ eexists. split; [apply (K_bin store q u dn d td buf ss); assumption|]. right. intros [_ [Q _]]. cbn [k_workers] in Q. revert Q. apply NE.
                  intros Q. injection Q as _ Q _. apply (f_equal (@length expDate)) in Q. cbn in Q. lia.
               ++ eexists. split; [apply (K_binErr store q u dn d td buf 0)|]. right. intros [_ [Q _]]. cbn [k_workers] in Q. revert Q. apply NE. discriminate.
               ++ eexists. split; [apply (K_panic store q u dn d td buf); assumption|]. left. reflexivity. }
    destruct M as [s' [K M]]. exists s'. split; [exact K|]. destruct M as [M|M]; [left; exact M|right].
    destruct (A s' K) as [X|X]; [contradiction|exact X].
  Qed.
End C31.
Print Assumptions C31_known_files.
Print Assumptions C31_at_any_moment.
Print Assumptions C31_can_succeed.
Print Assumptions C31_read_by_the_builder.
Print Assumptions C31_workers_finish.

(** One issuer with an expired and a current bin, one issuer outside the program. *)
Definition kHour (h : Z) : expDate := newExpDateFromTime (h * nsHour).
Definition kStore (path : bytes) : option bytes :=
  if beq path (serialFile (expID (kHour 500000)) (B "I")) then Some (writeSerialList (expUnix (kHour 500000)) [B "ab"; B "c"]) else None.
Definition kList := [(B "I", [kHour 100; kHour 500000]); (B "O", [kHour 500000])].
Definition kIn (i : bytes) : bool := beq i (B "I").

Example C31_example : exists q s,
  makeQueue kIn kList = Ok q /\ ksteps kStore (kinit 1 q [] (400000 * nsHour)) s /\
  kended s /\ kok s = true /\ k_lost s = false /\
  alookup (B "I") (k_files s) = Some (writeSerialList (expUnix (kHour 500000)) [B "ab"; B "c"]) /\
  alookup (B "O") (k_files s) = None.
Proof.
  set (t := (400000 * nsHour)%Z). set (u := mkUnit (B "I") [kHour 100; kHour 500000]).
  exists [u]. eexists. split; [vm_compute; reflexivity|]. split.
  - eapply KS_step; [eapply KS_step; [eapply KS_step; [eapply KS_step; [eapply KS_step; [eapply KS_step; [apply KS_refl|]|]|]|]|]|].
    + apply (K_mkdir kStore [u] [] []).
    + apply (K_open kStore u [] [] []).
    + apply (K_expired kStore [] u [] (kHour 100) [kHour 500000] [] [] []). vm_compute. reflexivity.
    + apply (K_bin kStore [] u [kHour 100] (kHour 500000) [] [] [B "ab"; B "c"] [] []); vm_compute; reflexivity.
    + apply (K_finish kStore [] u [kHour 100; kHour 500000] ([] ++ writeSerialList (expUnix (kHour 500000)) [B "ab"; B "c"]) [] [] false).
    + apply (K_closed kStore [] []).
  - split; [split; [reflexivity|repeat constructor]|]. split; [reflexivity|]. split; [reflexivity|]. split; vm_compute; reflexivity.
Qed.

(** Without threads nothing is done and no error is reported; and a flush that
    fails leaves a short file and no error. *)
Theorem C31_no_threads_refuted : exists q s,
  makeQueue kIn kList = Ok q /\ ksteps kStore (kinit 0 q [] (400000 * nsHour)) s /\
  kended s /\ kok s = true /\ alookup (B "I") (k_files s) = None.
Proof.
  eexists _, _. split; [vm_compute; reflexivity|]. split; [apply KS_refl|]. repeat split; constructor.
Qed.
Print Assumptions C31_no_threads_refuted.

Theorem C31_lost_flush_refuted : exists q s,
  makeQueue kIn kList = Ok q /\ ksteps kStore (kinit 1 q [] (400000 * nsHour)) s /\
  kended s /\ kok s = true /\ alookup (B "I") (k_files s) = Some [].
Proof.
  set (t := (400000 * nsHour)%Z). set (u := mkUnit (B "I") [kHour 100; kHour 500000]).
  exists [u]. eexists. split; [vm_compute; reflexivity|]. split.
  - eapply KS_step; [eapply KS_step; [eapply KS_step; [eapply KS_step; [eapply KS_step; [eapply KS_step; [apply KS_refl|]|]|]|]|]|].
    + apply (K_mkdir kStore [u] [] []).
    + apply (K_open kStore u [] [] []).
    + apply (K_expired kStore [] u [] (kHour 100) [kHour 500000] [] [] []). vm_compute. reflexivity.
    + apply (K_bin kStore [] u [kHour 100] (kHour 500000) [] [] [B "ab"; B "c"] [] []); vm_compute; reflexivity.
    + apply (K_finishLost kStore [] u [kHour 100; kHour 500000] ([] ++ writeSerialList (expUnix (kHour 500000)) [B "ab"; B "c"]) 0 [] [] false).
    + apply (K_closed kStore [] []).
  - split; [split; [reflexivity|repeat constructor]|]. split; [reflexivity|]. vm_compute; reflexivity.
Qed.
Print Assumptions C31_lost_flush_refuted.

(** A run that a signal stops after the first of two bins: the file of "I" has the
    first five bytes of that bin, the file of "O" is the old one, and nothing crashed. *)
Definition kTwo := [(B "I", [kHour 500000; kHour 500001]); (B "O", [kHour 500000])].

Example C31_stopped_example : exists q s,
  makeQueue kIn kTwo = Ok q /\ ksteps kStore (kinit 1 q [(B "O", B "old")] (400000 * nsHour)) s /\
  kended s /\ kok s = false /\ k_crashed s = false /\
  alookup (B "I") (k_files s) = Some (firstn 5 (writeSerialList (expUnix (kHour 500000)) [B "ab"; B "c"])) /\
  alookup (B "O") (k_files s) = Some (B "old").
Proof.
  set (t := (400000 * nsHour)%Z). set (u := mkUnit (B "I") [kHour 500000; kHour 500001]).
  exists [u]. eexists. split; [vm_compute; reflexivity|]. split.
  - eapply KS_step; [eapply KS_step; [eapply KS_step; [eapply KS_step; [eapply KS_step; [apply KS_refl|]|]|]|]|].
    + apply (K_mkdir kStore [u] [] []).
    + apply (K_open kStore u [] [] []).
    + apply (K_bin kStore [] u [] (kHour 500000) [kHour 500001] [] [B "ab"; B "c"] [] []); vm_compute; reflexivity.
    + apply (K_signal kStore).
    + apply (K_quit kStore [] u [kHour 500000] (kHour 500001) [] ([] ++ writeSerialList (expUnix (kHour 500000)) [B "ab"; B "c"]) 5 [] []).
  - split; [split; [reflexivity|repeat constructor]|]. split; [reflexivity|]. split; [reflexivity|]. split; vm_compute; reflexivity.
Qed.
