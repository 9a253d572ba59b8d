(** * C67: where the issuer list of a run comes from *)
From Verif Require Import Base MerkleModel AggModel AggProofs LoadModel P_Download IssuersModel StoreModel.
Local Open Scope Z_scope.

Section C67.
  Variable T : Type.
  Variable table : bytes -> option T.

  (** A file younger than twelve hours. *)
  Definition recent (now : Z) (f : file) : Prop := now < f_mtime f + 12 * 60 * 60 * 1000 * 1000 * 1000.

  (** Nothing is asked of the network if there is a usable, recent report. *)
  Theorem C67_local : forall e f m, le_open1 e = true -> table (f_data f) = Some m -> recent (le_now e) f ->
    load table e (Some f) = (Some m, Some f, false).
  Proof.
    intros e f m O U R. unfold load, fromDisk. rewrite O, U.
    destruct (Z.ltb_spec (le_now e - f_mtime f) maxAge) as [L|L]; [reflexivity|].
    unfold maxAge, recent in *. lia.
  Qed.

  (** If loading succeeds, the table is that of the file now on disk, and of it alone;
      and the file is a recent one that was there, or one that a download has left: at one
      of four attempts a complete answer arrived, or the server said that the file is current. *)
  Theorem C67_success : forall e t m t' net, load table e t = (Some m, t', net) ->
    exists f, t' = Some f /\ table (f_data f) = Some m /\
      ((net = false /\ t = Some f /\ recent (le_now e) f) \/
       (net = true /\ exists i ti, (i <= 3)%nat /\ failing (fun i => (false, le_dl e i)) t i ti /\ settled (le_dl e i) ti (Some f))).
  Proof.
    intros e t m t' net. unfold load.
    assert (FD : forall o t m, option_map fst (fromDisk table o t) = Some m -> exists f, t = Some f /\ table (f_data f) = Some m).
    { intros o [f|] x; cbn [fromDisk]; [|discriminate]. destruct o; [|discriminate].
      destruct (table (f_data f)) eqn:U; [|discriminate]. cbn. intros E. injection E as <-. exists f. auto. }
    assert (DL : (let '(_, t', ok) := downloadFileSync 3 (fun i => (false, le_dl e i)) t in
                  (if ok then option_map fst (fromDisk table (le_open2 e) t') else None, t', true)) = (Some m, t', net) ->
      exists f, t' = Some f /\ table (f_data f) = Some m /\ net = true /\
        exists i ti, (i <= 3)%nat /\ failing (fun i => (false, le_dl e i)) t i ti /\ settled (le_dl e i) ti (Some f)).
    { destruct (downloadFileSync 3 _ t) as [[tr t1] ok] eqn:D. pose proof (C58_download _ _ _ _ _ _ D) as H.
      intros E. assert ((if ok then option_map fst (fromDisk table (le_open2 e) t1) else None) = Some m) as E1 by congruence.
      assert (t1 = t') as <- by congruence. assert (true = net) as <- by congruence.
      destruct ok; [|discriminate]. destruct (FD _ _ _ E1) as [f [-> U]]. exists f. split; [reflexivity|]. split; [exact U|]. split; [reflexivity|].
      destruct H as [i [ti [L [F [[X _]|[_ S]]]]]]; [discriminate|]. exists i, ti. auto. }
    destruct (fromDisk table (le_open1 e) t) as [[m1 md]|] eqn:F.
    - destruct (Z.ltb_spec (le_now e - md) maxAge) as [L|L].
      + intros E. injection E as <- <- <-. unfold fromDisk in F. destruct t as [f|]; [|discriminate]. destruct (le_open1 e); [|discriminate].
        destruct (table (f_data f)) as [x|] eqn:U; [|discriminate]. injection F as <- <-. exists f. split; [reflexivity|]. split; [exact U|].
        left. repeat split. unfold recent, maxAge in *. lia.
      + intros E. destruct (DL E) as [f [H1 [H2 [H3 H4]]]]. exists f. auto.
    - intros E. destruct (DL E) as [f [H1 [H2 [H3 H4]]]]. exists f. auto.
  Qed.

  (** If loading fails, there was no usable recent report, and four downloads failed or
      left a file that cannot be used. *)
  Theorem C67_failure : forall e t t' net, load table e t = (None, t', net) ->
    net = true /\
    (forall f m, t = Some f -> le_open1 e = true -> table (f_data f) = Some m -> ~ recent (le_now e) f) /\
    (failing (fun i => (false, le_dl e i)) t 4 t' \/
     le_open2 e = false \/ t' = None \/ exists f, t' = Some f /\ table (f_data f) = None).
  Proof.
    intros e t t' net E. split; [|split].
    - unfold load in E. destruct (downloadFileSync 3 _ t) as [[tr t1] ok]. destruct (fromDisk table (le_open1 e) t) as [[m md]|]; [destruct (_ <? _)|]; congruence.
    - intros f m -> O U R. rewrite (C67_local e f m O U R) in E. discriminate.
    - unfold load in E. destruct (downloadFileSync 3 (fun i => (false, le_dl e i)) t) as [[tr t1] ok] eqn:D.
      assert ((if ok then option_map fst (fromDisk table (le_open2 e) t1) else None, t1) = (None, t')) as E1.
      { destruct (fromDisk table (le_open1 e) t) as [[m md]|]; [destruct (_ <? _); [discriminate|]|]; congruence. }
      pose proof (C58_download _ _ _ _ _ _ D) as H. destruct ok; [|left; congruence]. right.
      assert (t1 = t') as <- by congruence. assert (option_map fst (fromDisk table (le_open2 e) t1) = None) as E2 by congruence.
      unfold fromDisk in E2. destruct t1 as [f|]; [|auto]. destruct (le_open2 e); [|auto]. right. right. exists f. split; [reflexivity|].
      destruct (table (f_data f)); [discriminate|reflexivity].
  Qed.

  (** A server that answers gets the report in: whatever was on disk before, unless it is
      usable and recent, or has the announced length and date. *)
  Theorem C67_renews : forall e t d m lastMod,
    (forall f, t = Some f -> ~ recent (le_now e) f \/ table (f_data f) = None) ->
    (forall f, t = Some f -> ~ current (le_dl e 0) f) ->
    de_get (le_dl e 0) = GResp 200 [d] false lastMod -> de_openErr (le_dl e 0) = false -> de_cancelled (le_dl e 0) = false ->
    le_open2 e = true -> table d = Some m ->
    exists t', load table e t = (Some m, t', true) /\ exists f, t' = Some f /\ f_data f = d /\
      (forall x, lastMod = Some x -> de_chtimesErr (le_dl e 0) = false -> f_mtime f = x).
  Proof.
    intros e t d m lm NR NC G O NCan O2 U.
    assert (DL : exists tr f, downloadFileSync 3 (fun i => (false, le_dl e i)) t = (tr, Some f, true) /\ f_data f = d /\
                 (forall x, lm = Some x -> de_chtimesErr (le_dl e 0) = false -> f_mtime f = x)).
    { unfold downloadFileSync. cbn [downloadLoop]. destruct (download (le_dl e 0) t) as [[tr t1] ok] eqn:D.
      pose proof (C58_attempt _ _ _ _ _ D) as A. destruct ok.
      - inversion A as [f Ef C|status chunks lm' start f NC' G' Op Ca Df M]; subst.
        + exfalso. apply (NC f); auto.
        + rewrite G in G'. injection G' as <- <- <-. exists tr, f. split; [reflexivity|].
          destruct Op as [_ [[_ ->]|[X _]]]; [|discriminate]. cbn [concat app] in Df. rewrite app_nil_r in Df. split; [exact Df|exact M].
      - exfalso. inversion A as [NC' W|status chunks err lm' start f NC' G' Op W]; subst.
        + destruct W as [W|[st [ch [er [l [W N]]]]]]; [congruence|]. rewrite G in W. injection W as <- <- <- <-.
          apply (N []). split; [exact O|left; auto].
        + rewrite G in G'. injection G' as <- <- <- <-. destruct W as [[W _]|[_ [W _]]]; congruence. }
    destruct DL as [tr [f [D [Df M]]]]. exists (Some f). split; [|exists f; auto].
    assert (R : (let '(_, t', ok) := downloadFileSync 3 (fun i => (false, le_dl e i)) t in
                 (if ok then option_map fst (fromDisk table (le_open2 e) t') else None, t', true)) = (Some m, Some f, true)).
    { rewrite D. unfold fromDisk. rewrite O2, Df, U. reflexivity. }
    unfold load. destruct (fromDisk table (le_open1 e) t) as [[m1 md]|] eqn:F; [|exact R].
    destruct (Z.ltb_spec (le_now e - md) maxAge) as [L|L]; [|exact R]. exfalso.
    unfold fromDisk in F. destruct t as [g|]; [|discriminate]. destruct (le_open1 e); [|discriminate].
    destruct (table (f_data g)) as [x|] eqn:Ug; [|discriminate]. injection F as <- <-.
    destruct (NR g eq_refl) as [X|X]; [|congruence]. apply X. unfold recent, maxAge in *. lia.
  Qed.
End C67.

Print Assumptions C67_local.
Print Assumptions C67_success.
Print Assumptions C67_failure.
Print Assumptions C67_renews.

(** ** What does not hold

    A report whose rows are single letters, each the certificate of an intermediate. *)
Definition wcols := [colPem; colType; colRevoked; colFull; colPart].
Definition wrow (c : byte) : list bytes := [[c]; B "Intermediate Certificate"; []; []; []].
(** A letter per row; "!" is not CSV. *)
Definition wtable (data : bytes) : option (moz bytes) :=
  match loadFromDisk bytes (fun x => x) (fun c => c) Some Some (fun _ _ _ => true) (fun x => x) (fun _ => None) (fun l => l)
          (Some wcols) (if existsb (Byte.eqb "!") data then None else Some (map wrow data)) with
  | Ok m => Some m | _ => None
  end.
Definition listed (m : option (moz bytes)) (c : byte) : bool :=
  match m with Some m => inProgram bytes m (issuerID [c]) | None => false end.

Definition hour : Z := 3600 * 1000000000.
(** The server offers the report [body], dated at time 0; [cut]: the connection breaks after
    that many bytes. *)
Definition wserver (body : bytes) (cut : option nat) (now : Z) : dlEnv :=
  mkDl false (Some (mkHead (Some 0) (Some (Z.of_nat (length body))) false))
    (match cut with Some k => GResp 200 [firstn k body] true None | None => GResp 200 [body] false (Some 0) end) false false false now.
Definition wcall (body : bytes) (cut : option nat) (now : Z) : loadEnv := mkLoad true now (fun _ => wserver body cut now) true.

(** A report that was cut off is used by the next run, without a word: the download goes
    to the file itself, so the failed run leaves a part of the report with the date of
    the day, and if that part ends with a row the next run takes it for a recent report.
    One run fails, the next succeeds with an issuer missing, although the server is well. *)
Theorem C67_truncated_refuted : exists body k r1 r2 t,
  loads wtable [wcall body (Some k) (20 * hour); wcall body None (21 * hour)] None = ([r1; r2], t) /\
  r1 = None /\ r2 <> None /\ listed (wtable body) "b" = true /\ listed r2 "a" = true /\ listed r2 "b" = false.
Proof.
  exists (B "ab"), 1%nat. eexists. eexists. eexists. split; [vm_compute; reflexivity|].
  split; [reflexivity|]. split; [discriminate|]. vm_compute. auto.
Qed.

(** A file that cannot be used but has the length and date that the server announces is
    never replaced: every run fails as long as the server offers this report. *)
Theorem C67_stuck_refuted : exists body, wtable body <> None /\
  forall nows, exists t, loads wtable (map (wcall body None) nows) (Some (mkFile (B "a!") 0)) =
    (repeat None (length nows), t).
Proof.
  exists (B "ab"). split; [vm_compute; discriminate|].
  intros nows. exists (Some (mkFile (B "a!") 0)). induction nows as [|now nows IH]; [reflexivity|].
  cbn [map loads length repeat].
  assert (E : load wtable (wcall (B "ab") None now) (Some (mkFile (B "a!") 0)) = (None, Some (mkFile (B "a!") 0), true)) by reflexivity.
  rewrite E, IH. reflexivity.
Qed.

Print Assumptions C67_truncated_refuted.
Print Assumptions C67_stuck_refuted.

(** The first run downloads, the second one uses the file, the third - the report is more
    than twelve hours old and the server has a new one - downloads again; an issuer that
    is no longer in the report is gone. *)
Example C67_example :
  let new := mkDl false (Some (mkHead (Some (30 * hour)) (Some 2) false)) (GResp 200 [B "bc"] false (Some (30 * hour))) false false false (40 * hour) in
  let '(rs, t) := loads wtable [wcall (B "ab") None (2 * hour); mkLoad true (11 * hour) (fun _ => new) true; mkLoad true (40 * hour) (fun _ => new) true] None in
  map (fun r => (listed r "a", listed r "b", listed r "c")) rs = [(true, true, false); (true, true, false); (false, true, true)] /\
  t = Some (mkFile (B "bc") (30 * hour)).
Proof. vm_compute. split; reflexivity. Qed.
