(** * The ct-fetch process: log workers, channel, insert worker, restarts
    /repo/go/cmd/ct-fetch/ct-fetch.go lines 94-269,
    /repo/go/storage/certdatabase.go lines 260-292.

    A job (one NewLogWorker/NewTiledLogWorker + Run) is represented by what it
    observes from outside ([Env]) and the whole trace it is going to emit, chosen
    when it starts ([W]); its events are then
    put on the channel one at a time, interleaved arbitrarily with everything
    else, and the job may be abandoned after any event.  Any number of jobs may
    run at once, also on the same log (SyncLog runs one at a time per log; more
    interleavings are allowed here). *)
From Verif Require Import Base MerkleModel CtFetchModel CtFetchSafety.

Section System.
  Context {Cert Env : Type}.
  Notation event := (event Cert).

  (** certdatabase.go:278-283 [PrepareSetMember]: a cache item is determined by
      the certificate, its issuer, the timestamp and the log. *)
  Record item := mkItem { it_log : bytes; it_cert : Cert; it_issuer : Cert; it_ts : N }.

  (** ct-fetch.go:60-66 [LogSyncMessage]: either a certificate or a log state. *)
  Inductive msg := MItem (it : item) | MState (lg : bytes) (s : logState).

  (** What a job on log [lg] puts on the channel for an event; skipped entries
      send nothing (rfc6962.go:558-565). *)
  Definition msgOf (lg : bytes) (e : event) : list msg :=
    match e with
    | EEntry _ ts _ (SQueued c i) => [MItem (mkItem lg c i ts)]
    | EEntry _ _ _ _ => []
    | EState s => [MState lg s]
    end.

  (** The certificates a list of events sends to the store. *)
  Fixpoint itemsOf (lg : bytes) (tr : list event) : list item :=
    match tr with
    | [] => []
    | EEntry _ ts _ (SQueued c i) :: t => mkItem lg c i ts :: itemsOf lg t
    | _ :: t => itemsOf lg t
    end.

  Record job := mkJob { j_log : bytes; j_start : logState; j_env : Env; j_done : list event; j_rest : list event }.

  (** The insert worker (ct-fetch.go:217-269): reading the channel, inside the
      retry loop with the log state of the current message, or returned. *)
  Inductive mode := Reading | Trying (ls : option (bytes * logState)) | Returned.

  Record sys := mkSys {
    db : list item;                       (* items inserted in the cache so far *)
    saved : list (bytes * logState);      (* log states in the cache *)
    chan : list msg;
    queue : list item;
    wmode : mode;
    jobs : list job;
    received : list msg;                  (* ghost: taken off the channel since start *)
    history : list (bytes * logState * Env * list event) }.
      (* ghost: everything jobs ever emitted: log, start state, environment and the
         events so far, one record per event *)

  Definition initial : sys := mkSys [] [] [] [] Reading [] [] [].

  (** certdatabase.go:264-276 [GetLogState]: a missing entry and a cache error
      both give a brand-new state. *)
  Definition loadable (s : sys) (lg : bytes) (st : logState) : Prop :=
    alookup lg (saved s) = Some st \/ st = freshState.

  Variable batchSize : N.
  (** [W lg s0 en tr]: a job on [lg] started with state [s0] that observes [en]
      may have trace [tr]. *)
  Variable W : bytes -> logState -> Env -> list event -> Prop.

  (** ct-fetch.go:237-240 *)
  Definition enqueue (q : list item) (m : msg) : list item :=
    match m with MItem it => q ++ [it] | MState _ _ => q end.
  Definition stateOf (m : msg) : option (bytes * logState) :=
    match m with MItem _ => None | MState lg s => Some (lg, s) end.
  (** ct-fetch.go:244: continue without dispatching? *)
  Definition keepReading (q : list item) (m : msg) : bool :=
    (w64 (N.of_nat (length q) + 1) <? batchSize)%N &&
    match stateOf m with None => true | Some _ => false end.

  Inductive step : sys -> sys -> Prop :=
  | st_start s lg s0 en tr :
      loadable s lg s0 -> W lg s0 en tr ->
      step s (mkSys (db s) (saved s) (chan s) (queue s) (wmode s)
                    (mkJob lg s0 en [] tr :: jobs s) (received s) (history s))
  | st_emit s js1 js2 lg s0 en dn e rest :
      jobs s = js1 ++ mkJob lg s0 en dn (e :: rest) :: js2 ->
      step s (mkSys (db s) (saved s) (chan s ++ msgOf lg e) (queue s) (wmode s)
                    (js1 ++ mkJob lg s0 en (dn ++ [e]) rest :: js2) (received s)
                    ((lg, s0, en, dn ++ [e]) :: history s))
  | st_end s js1 js2 j :        (* job finished or abandoned *)
      jobs s = js1 ++ j :: js2 ->
      step s (mkSys (db s) (saved s) (chan s) (queue s) (wmode s) (js1 ++ js2) (received s) (history s))
  | st_recv s m ms :
      wmode s = Reading -> chan s = m :: ms ->
      step s (mkSys (db s) (saved s) ms (enqueue (queue s) m)
                    (if keepReading (enqueue (queue s) m) m then Reading else Trying (stateOf m))
                    (jobs s) (received s ++ [m]) (history s))
  (* tryUpdate, ct-fetch.go:198-215: the store may fail having inserted any part
     of the queue *)
  | st_store_fails s ls part :
      wmode s = Trying ls -> incl part (queue s) ->
      step s (mkSys (db s ++ part) (saved s) (chan s) (queue s) (wmode s) (jobs s) (received s) (history s))
  (* everything stored, saving the state reported an error; it may or may not
     have been written *)
  | st_save_fails s lg st (written : bool) :
      wmode s = Trying (Some (lg, st)) ->
      step s (mkSys (db s ++ queue s) (if written then aset lg st (saved s) else saved s)
                    (chan s) (queue s) (wmode s) (jobs s) (received s) (history s))
  | st_ok s ls :
      wmode s = Trying ls ->
      step s (mkSys (db s ++ queue s)
                    (match ls with Some (lg, st) => aset lg st (saved s) | None => saved s end)
                    (chan s) [] Reading (jobs s) (received s) (history s))
  (* ctx.Done() in the retry loop: the worker returns *)
  | st_return s ls :
      wmode s = Trying ls ->
      step s (mkSys (db s) (saved s) (chan s) (queue s) Returned (jobs s) (received s) (history s))
  (* the process dies (or exits) and is started again *)
  | st_restart s :
      step s (mkSys (db s) (saved s) [] [] Reading [] [] (history s)).

  Inductive reachable : sys -> Prop :=
  | r_init : reachable initial
  | r_step s s' : reachable s -> step s s' -> reachable s'.

  (** ** Proofs *)
  Variable wf : bytes -> logState -> Prop.
  Hypothesis wf_fresh : forall lg, wf lg freshState.
  Hypothesis W_wf : forall lg s0 en tr st, W lg s0 en tr -> wf lg s0 -> In (EState st) tr -> wf lg st.
  (** The timestamps of [b] bound those of [a]. *)
  Definition wider (a b : logState) : Prop :=
    (ls_maxTs a <= ls_maxTs b)%N /\ (ls_minTs b <= ls_minTs a)%N.
  Hypothesis W_mono : forall lg s0 en tr st, W lg s0 en tr -> wf lg s0 -> In (EState st) tr ->
    ls_lastUpdate s0 <> None -> wider s0 st.

  Lemma wider_refl a : wider a a.
  Proof using Type. split; apply N.le_refl. Qed.
  Lemma wider_trans a b c : wider a b -> wider b c -> wider a c.
  Proof using Type. intros [A1 A2] [B1 B2]. split; eapply N.le_trans; eassumption. Qed.

  Definition past : Type := list (bytes * logState * Env * list event).

  (** Why index [i] may be claimed by state [cur]: some job in the history had
      a save point claiming it, which it did not start with, all certificates
      the job queued before that save point are stored, and the timestamps of
      [cur] bound those of that save point. *)
  Definition Just (d : list item) (hs : past) (lg : bytes) (cur : logState) (i : N) : Prop :=
    exists s0 en tr pre st post, W lg s0 en tr /\ wf lg s0 /\ tr = pre ++ EState st :: post /\
      In (lg, s0, en, pre ++ [EState st]) hs /\
      claims st i /\ ~ claims s0 i /\ wider st cur /\ incl (itemsOf lg pre) d.

  Lemma Just_mono d d' hs hs' lg cur cur' i : incl d d' -> incl hs hs' -> wider cur cur' ->
    Just d hs lg cur i -> Just d' hs' lg cur' i.
  Proof.
    intros H Hh Hm [s0 [en [tr [pre [st [post [A [B [C [X [D [E [G F]]]]]]]]]]]]].
    exists s0, en, tr, pre, st, post. split; [exact A|]. split; [exact B|]. split; [exact C|].
    split; [apply Hh, X|]. split; [exact D|]. split; [exact E|].
    split; [exact (wider_trans _ _ _ G Hm)|]. intros x Hx. apply H, F, Hx.
  Qed.

  Definition msgItems (ms : list msg) : list item :=
    flat_map (fun m => match m with MItem it => [it] | MState _ _ => [] end) ms.

  Definition pipeline (s : sys) : list msg :=
    map MItem (queue s) ++
    match wmode s with Trying (Some (lg, st)) => [MState lg st] | _ => [] end ++ chan s.

  Definition goodState (d : list item) (hs : past) (lg : bytes) (st : logState) : Prop :=
    wf lg st /\ forall i, claims st i -> Just d hs lg st i.

  Definition Inv (s : sys) : Prop :=
    (forall lg st, alookup lg (saved s) = Some st -> goodState (db s) (history s) lg st) /\
    (forall j, In j (jobs s) -> W (j_log j) (j_start j) (j_env j) (j_done j ++ j_rest j) /\
       goodState (db s) (history s) (j_log j) (j_start j) /\
       (wmode s <> Returned -> incl (itemsOf (j_log j) (j_done j)) (db s ++ msgItems (pipeline s)))) /\
    (wmode s <> Returned -> forall a lg st b, pipeline s = a ++ MState lg st :: b ->
       goodState (db s ++ msgItems a) (history s) lg st).

  Lemma msgItems_app a b : msgItems (a ++ b) = msgItems a ++ msgItems b.
  Proof. unfold msgItems. apply flat_map_app. Qed.
  Lemma msgItems_map q : msgItems (map MItem q) = q.
  Proof. unfold msgItems. induction q as [|x q IH]; cbn [map flat_map app]; [reflexivity|rewrite IH; reflexivity]. Qed.
  Lemma itemsOf_app lg a b : itemsOf lg (a ++ b) = itemsOf lg a ++ itemsOf lg b.
  Proof. induction a as [|[i ts l [c is| | |]|st] a IH]; cbn; congruence. Qed.
  Lemma itemsOf_msg lg e : itemsOf lg [e] = msgItems (msgOf lg e).
  Proof. destruct e as [i ts l [c is| | |]|st]; reflexivity. Qed.
  Lemma goodState_mono2 d d' hs hs' lg st : incl d d' -> incl hs hs' ->
    goodState d hs lg st -> goodState d' hs' lg st.
  Proof. intros H Hh [A B]. split; [exact A|]. intros i C. eapply Just_mono; eauto. apply wider_refl. Qed.
  Lemma goodState_mono d d' hs lg st : incl d d' -> goodState d hs lg st -> goodState d' hs lg st.
  Proof. intros H. apply goodState_mono2; [exact H|apply incl_refl]. Qed.

  Lemma N_le_dec (a b : N) : {(a <= b)%N} + {~ (a <= b)%N}.
  Proof. destruct (a <=? b)%N eqn:E; [left|right]; lia. Qed.
  Lemma claims_dec st i : {claims st i} + {~ claims st i}.
  Proof.
    unfold claims. destruct (ls_lastUpdate st); [|right; intros [H _]; apply H; reflexivity].
    destruct (N_le_dec (ls_minEntry st) i); [|right; lia].
    destruct (N_le_dec i (ls_maxEntry st)); [|right; lia].
    left; split; [discriminate|lia].
  Qed.

  Lemma queue_no_state q a lg st b x : map MItem q ++ x = a ++ MState lg st :: b ->
    exists a', a = map MItem q ++ a' /\ x = a' ++ MState lg st :: b.
  Proof.
    revert a; induction q as [|y q IH]; intros a H; cbn in H.
    - exists a. auto.
    - destruct a as [|z a]; [discriminate|]. injection H as <- H.
      destruct (IH _ H) as [a' [-> E]]. exists a'. auto.
  Qed.

  Lemma app_split_end {A} (p q a : list A) (x : A) b : p ++ q = a ++ x :: b ->
    (exists b', p = a ++ x :: b' /\ b = b' ++ q) \/ (exists a', a = p ++ a' /\ q = a' ++ x :: b).
  Proof.
    revert a; induction p as [|y p IH]; intros a H; cbn in H.
    - right. exists a. auto.
    - destruct a as [|z a]; cbn in H.
      + injection H as E1 E2. subst. left. exists p. split; reflexivity.
      + injection H as <- H. destruct (IH _ H) as [[b' [-> ->]]|[a' [-> ->]]].
        * left. exists b'. auto.
        * right. exists a'. auto.
  Qed.

  Lemma Inv_initial : Inv initial.
  Proof.
    split; [|split].
    - intros lg st H. discriminate H.
    - intros j [].
    - intros _ a lg st b H. cbn in H. destruct a; discriminate.
  Qed.

  Lemma fresh_good d hs lg : goodState d hs lg freshState.
  Proof. split; [apply wf_fresh|]. intros i [H _]. exfalso. apply H; reflexivity. Qed.

  Lemma Inv_step s s' : Inv s -> step s s' -> Inv s'.
  Proof.
    intros [I1 [I2 I3]] St.
    destruct St as [s lg s0 en tr L Hw|s js1 js2 lg s0 en dn e rest Ej|s js1 js2 j Ej|s m ms Em Ec
                   |s ls part Em Hp|s lg st wr Em|s ls Em|s ls Em|s].
    - (* start *)
      split; [exact I1|]. split; [|exact I3].
      intros j [<-|Hj]; [|exact (I2 _ Hj)].
      cbn [j_log j_start j_env j_done j_rest app]. split; [exact Hw|]. split.
      + destruct L as [L| ->]; [exact (I1 _ _ L)|apply fresh_good].
      + intros _ x [].
    - (* emit *)
      assert (Hj : In (mkJob lg s0 en dn (e :: rest)) (jobs s)) by (rewrite Ej; apply in_elt).
      destruct (I2 _ Hj) as [J1 [J2 J3]]. cbn [j_log j_start j_env j_done j_rest] in *.
      assert (Hh : incl (history s) ((lg, s0, en, dn ++ [e]) :: history s)) by (intros x Hx; right; exact Hx).
      split; [|split].
      + intros lg' st H. cbn [saved db history] in *.
        eapply goodState_mono2; [apply incl_refl|exact Hh|exact (I1 _ _ H)].
      + intros j Hin. unfold pipeline. cbn [db wmode jobs history queue chan] in *.
        assert (P : map MItem (queue s) ++
            match wmode s with Trying (Some (lg, st)) => [MState lg st] | _ => [] end ++ chan s ++ msgOf lg e
                = pipeline s ++ msgOf lg e).
        { unfold pipeline. rewrite <- !app_assoc. reflexivity. }
        rewrite P.
        apply in_app_iff in Hin. destruct Hin as [Hin|[<-|Hin]].
        * destruct (I2 j) as [A [B C]]; [rewrite Ej; apply in_app_iff; auto|].
          split; [exact A|]. split; [eapply goodState_mono2; [apply incl_refl|exact Hh|exact B]|].
          intros Nr x Hx. specialize (C Nr x Hx).
          rewrite msgItems_app. rewrite app_assoc. apply in_app_iff. auto.
        * cbn [j_log j_start j_env j_done j_rest]. split; [rewrite <- app_assoc; exact J1|].
          split; [eapply goodState_mono2; [apply incl_refl|exact Hh|exact J2]|].
          intros Nr. rewrite itemsOf_app, msgItems_app, itemsOf_msg. rewrite app_assoc.
          apply incl_app; [apply incl_appl; exact (J3 Nr)|apply incl_appr, incl_refl].
        * destruct (I2 j) as [A [B C]]; [rewrite Ej; apply in_app_iff; right; right; exact Hin|].
          split; [exact A|]. split; [eapply goodState_mono2; [apply incl_refl|exact Hh|exact B]|].
          intros Nr x Hx. specialize (C Nr x Hx).
          rewrite msgItems_app. rewrite app_assoc. apply in_app_iff. auto.
      + cbn [wmode]. intros Nr a lg' st b H. unfold pipeline in H. cbn [queue wmode chan db history] in *.
        assert (H' : pipeline s ++ msgOf lg e = a ++ MState lg' st :: b).
        { unfold pipeline. rewrite <- !app_assoc. exact H. }
        destruct (app_split_end _ _ _ _ _ H') as [[b' [Hb _]]|[a' [-> Hq]]].
        * eapply goodState_mono2; [apply incl_refl|exact Hh|]. eapply I3; eassumption.
        * destruct e as [i ts l [c is| | |]|st']; cbn in Hq;
            try (destruct a'; discriminate); try (destruct a' as [|? [|? ?]]; discriminate).
          destruct a' as [|? a']; [|destruct a'; discriminate].
          injection Hq as <- <- <-. rewrite app_nil_r.
          split.
          -- eapply W_wf; [exact J1|exact (proj1 J2)|]. apply in_app_iff. right. left. reflexivity.
          -- intros i Ci. destruct (claims_dec s0 i) as [C0|C0].
             ++ eapply Just_mono; [|exact Hh| |exact (proj2 J2 i C0)]; [apply incl_appl, incl_refl|].
                eapply W_mono; [exact J1|exact (proj1 J2)| |exact (proj1 C0)].
                apply in_app_iff. right. left. reflexivity.
             ++ exists s0, en, (dn ++ EState st' :: rest), dn, st', rest.
                split; [exact J1|]. split; [exact (proj1 J2)|]. split; [reflexivity|].
                split; [left; reflexivity|]. split; [exact Ci|].
                split; [exact C0|]. split; [apply wider_refl|]. exact (J3 Nr).
    - (* end *)
      split; [exact I1|]. split; [|exact I3].
      intros j' Hin. apply (I2 j'). rewrite Ej. cbn [jobs] in Hin. apply in_app_iff in Hin.
      apply in_app_iff. destruct Hin; [auto|right; right; assumption].
    - (* recv *)
      assert (P : exists tailm, pipeline {| db := db s; saved := saved s; chan := ms; queue := enqueue (queue s) m;
               wmode := if keepReading (enqueue (queue s) m) m then Reading else Trying (stateOf m);
               jobs := jobs s; received := received s ++ [m]; history := history s |} = tailm /\
               tailm = pipeline s).
      { eexists; split; [reflexivity|]. unfold pipeline. cbn [queue wmode chan]. rewrite Em, Ec.
        destruct m as [it|lg st]; cbn [enqueue stateOf keepReading].
        - rewrite map_app. cbn [map]. rewrite <- app_assoc. cbn [app].
          destruct (keepReading (queue s ++ [it]) (MItem it)); reflexivity.
        - unfold keepReading. cbn [stateOf]. rewrite andb_false_r. cbn [app]. reflexivity. }
      destruct P as [tailm [P1 P2]].
      assert (Nr : wmode s <> Returned) by (rewrite Em; discriminate).
      split; [exact I1|]. split.
      + intros j Hj. cbn [jobs] in Hj. destruct (I2 j Hj) as [A [B C]].
        split; [exact A|]. split; [exact B|]. intros _. rewrite P1, P2. exact (C Nr).
      + intros _ a lg st b H. rewrite P1, P2 in H. exact (I3 Nr _ _ _ _ H).
    - (* store fails *)
      assert (Nr : wmode s <> Returned) by (rewrite Em; discriminate).
      split; [|split].
      + intros lg st H. cbn [db saved] in *. eapply goodState_mono; [|exact (I1 _ _ H)]. apply incl_appl, incl_refl.
      + intros j Hj. cbn [jobs db] in *. destruct (I2 j Hj) as [A [B C]].
        split; [exact A|]. split; [eapply goodState_mono; [|exact B]; apply incl_appl, incl_refl|].
        intros _ x Hx. specialize (C Nr x Hx). apply in_app_iff in C. apply in_app_iff.
        destruct C as [C|C]; [left; apply in_app_iff; auto|right; exact C].
      + intros _ a lg st b H. cbn [db]. eapply goodState_mono; [|exact (I3 Nr _ _ _ _ H)].
        apply incl_app; [|apply incl_appr, incl_refl]. apply incl_appl, incl_appl, incl_refl.
    - (* save fails *)
      assert (Nr : wmode s <> Returned) by (rewrite Em; discriminate).
      assert (Q : pipeline s = map MItem (queue s) ++ MState lg st :: chan s).
      { unfold pipeline. rewrite Em. reflexivity. }
      pose proof (I3 Nr _ _ _ _ Q) as G. rewrite msgItems_map in G.
      split; [|split].
      + intros lg' st' H. cbn [db saved] in *. destruct wr.
        * destruct (beq_spec lg' lg) as [->|Ne].
          -- rewrite alookup_aset_same in H. injection H as <-. exact G.
          -- rewrite alookup_aset_other in H by exact Ne.
             eapply goodState_mono; [|exact (I1 _ _ H)]. apply incl_appl, incl_refl.
        * eapply goodState_mono; [|exact (I1 _ _ H)]. apply incl_appl, incl_refl.
      + intros j Hj. cbn [jobs db] in *. destruct (I2 j Hj) as [A [B C]].
        split; [exact A|]. split; [eapply goodState_mono; [|exact B]; apply incl_appl, incl_refl|].
        intros _ x Hx. specialize (C Nr x Hx). apply in_app_iff in C. apply in_app_iff.
        destruct C as [C|C]; [left; apply in_app_iff; auto|right; exact C].
      + intros _ a lg' st' b H. cbn [db]. eapply goodState_mono; [|exact (I3 Nr _ _ _ _ H)].
        apply incl_app; [|apply incl_appr, incl_refl]. apply incl_appl, incl_appl, incl_refl.
    - (* ok *)
      assert (Nr : wmode s <> Returned) by (rewrite Em; discriminate).
      assert (Mono : incl (db s) (db s ++ queue s)) by (apply incl_appl, incl_refl).
      split; [|split].
      + intros lg' st' H. cbn [db saved] in *. destruct ls as [[lg st]|].
        * destruct (beq_spec lg' lg) as [->|Ne].
          -- rewrite alookup_aset_same in H. injection H as <-.
             assert (Q : pipeline s = map MItem (queue s) ++ MState lg st :: chan s).
             { unfold pipeline. rewrite Em. reflexivity. }
             pose proof (I3 Nr _ _ _ _ Q) as G. rewrite msgItems_map in G. exact G.
          -- rewrite alookup_aset_other in H by exact Ne.
             eapply goodState_mono; [exact Mono|exact (I1 _ _ H)].
        * eapply goodState_mono; [exact Mono|exact (I1 _ _ H)].
      + intros j Hj. cbn [jobs db] in *. destruct (I2 j Hj) as [A [B C]].
        split; [exact A|]. split; [eapply goodState_mono; [exact Mono|exact B]|].
        intros _ x Hx. specialize (C Nr x Hx). unfold pipeline in *. cbn [queue wmode chan db] in *.
        rewrite Em in C. rewrite !msgItems_app, msgItems_map in C. cbn [map app].
        apply in_app_iff in C. apply in_app_iff. destruct C as [C|C]; [left; apply in_app_iff; auto|].
        apply in_app_iff in C. destruct C as [C|C]; [left; apply in_app_iff; auto|].
        apply in_app_iff in C. destruct C as [C|C]; [destruct ls as [[? ?]|]; destruct C|right; exact C].
      + intros _ a lg' st' b H. unfold pipeline in H. cbn [queue wmode chan db map app] in *.
        destruct ls as [[lg st]|].
        * assert (Q : pipeline s = (map MItem (queue s) ++ MState lg st :: a) ++ MState lg' st' :: b).
          { unfold pipeline. rewrite Em, <- app_assoc. cbn [app]. rewrite H. reflexivity. }
          pose proof (I3 Nr _ _ _ _ Q) as G. eapply goodState_mono; [|exact G].
          rewrite msgItems_app, msgItems_map. cbn. rewrite <- app_assoc. apply incl_refl.
        * assert (Q : pipeline s = (map MItem (queue s) ++ a) ++ MState lg' st' :: b).
          { unfold pipeline. rewrite Em, <- app_assoc. cbn [app]. rewrite H. reflexivity. }
          pose proof (I3 Nr _ _ _ _ Q) as G. eapply goodState_mono; [|exact G].
          rewrite msgItems_app, msgItems_map. cbn. rewrite <- app_assoc. apply incl_refl.
    - (* return *)
      split; [exact I1|]. split.
      + intros j Hj. cbn [jobs] in Hj. destruct (I2 j Hj) as [A [B _]].
        split; [exact A|]. split; [exact B|]. intros X. cbn [wmode] in X. congruence.
      + intros X. cbn [wmode] in X. congruence.
    - (* restart *)
      split; [exact I1|]. split; [intros j []|].
      intros _ a lg st b H. cbn in H. destruct a; discriminate.
  Qed.

  Lemma Inv_reachable s : reachable s -> Inv s.
  Proof. induction 1 as [|s s' _ IH St]; [apply Inv_initial|exact (Inv_step _ _ IH St)]. Qed.

  (** A saved state is backed by jobs whose earlier certificates are all stored. *)
  Lemma saved_justified s lg st i :
    reachable s -> alookup lg (saved s) = Some st -> claims st i ->
    wf lg st /\ Just (db s) (history s) lg st i.
  Proof.
    intros R L C. destruct (Inv_reachable _ R) as [I1 _]. destruct (I1 _ _ L) as [A B]. auto.
  Qed.
End System.

(** ** C07: order of stores and saves, for any worker whatsoever *)
Section Order.
  Context {Cert Env : Type}.
  Variable batchSize : N.
  Variable W : bytes -> logState -> Env -> list (event Cert) -> Prop.

  Definition InvR (s : @sys Cert Env) : Prop :=
    wmode s <> Returned -> incl (msgItems (received s)) (db s ++ queue s).

  Lemma InvR_step s s' : InvR s -> step batchSize W s s' -> InvR s'.
  Proof.
    unfold InvR. intros I St.
    destruct St as [s lg s0 en tr L Hw|s js1 js2 lg s0 en dn e rest Ej|s js1 js2 j Ej|s m ms Em Ec
                   |s ls part Em Hp|s lg st wr Em|s ls Em|s ls Em|s]; cbn [wmode received db queue]; auto.
    - intros _. rewrite msgItems_app. specialize (I ltac:(rewrite Em; discriminate)).
      apply incl_app.
      + intros x Hx. specialize (I x Hx). apply in_app_iff in I. apply in_app_iff.
        destruct I as [I|I]; [auto|right]. destruct m; cbn; [apply in_app_iff|]; auto.
      + destruct m as [it|lg st]; cbn; [|intros x []].
        intros x [<-|[]]. apply in_app_iff. right. apply in_app_iff. right. left. reflexivity.
    - intros Nr x Hx. specialize (I Nr x Hx). rewrite <- app_assoc. apply in_app_iff.
      apply in_app_iff in I. destruct I; [auto|right; apply in_app_iff; auto].
    - intros Nr x Hx. specialize (I Nr x Hx). apply in_app_iff. left. exact I.
    - intros Nr. rewrite app_nil_r. apply I. rewrite Em. discriminate.
    - intros _ x [].
  Qed.

  Lemma InvR_reachable s : reachable batchSize W s -> InvR s.
  Proof.
    induction 1 as [|s s' _ IH St]; [intros _ x []|exact (InvR_step _ _ IH St)].
  Qed.

  Lemma save_after_store s s' : reachable batchSize W s -> step batchSize W s s' ->
    saved s' <> saved s -> forall it, In (MItem it) (received s) -> In it (db s').
  Proof.
    intros R St Ch it Hin. pose proof (InvR_reachable _ R) as I.
    destruct St as [s lg s0 en tr L Hw|s js1 js2 lg s0 en dn e rest Ej|s js1 js2 j Ej|s m ms Em Ec
                   |s ls part Em Hp|s lg st wr Em|s ls Em|s ls Em|s]; cbn [saved db] in *;
      try (exfalso; apply Ch; reflexivity).
    all: apply I; [rewrite Em; discriminate|].
    all: unfold msgItems; apply in_flat_map; exists (MItem it); split; [exact Hin|left; reflexivity].
  Qed.
End Order.

(** ** Every job can run to completion and have its last save point saved *)
Section Completes.
  Context {Cert Env : Type}.
  Variable batchSize : N.
  Variable W : bytes -> logState -> Env -> list (event Cert) -> Prop.

  Definition lastState (tr : list (event Cert)) (s : option logState) : option logState :=
    fold_left (fun acc e => match e with EState st => Some st | _ => acc end) tr s.

  Lemma job_drains rest : forall s lg s0 en dn,
    reachable batchSize W s -> wmode s = Reading -> chan s = [] -> jobs s = [mkJob lg s0 en dn rest] ->
    exists s', reachable batchSize W s' /\
      alookup lg (saved s') = lastState rest (alookup lg (saved s)) /\
      incl (db s' ++ queue s') (db s ++ queue s ++ itemsOf lg rest).
  Proof.
    induction rest as [|e rest IH]; intros s lg s0 en dn R M C Jb.
    - exists s. split; [exact R|]. split; [reflexivity|cbn [itemsOf]; rewrite app_nil_r; apply incl_refl].
    - pose proof (r_step _ _ _ _ R (st_emit _ W s [] [] lg s0 en dn e rest Jb)) as R1.
      set (s1 := mkSys _ _ _ _ _ _ _ _) in R1.
      assert (D : msgOf lg e = [] \/ exists m, msgOf lg e = [m]).
      { destruct e as [i ts l [c is| | |]|st]; cbn; eauto. }
      destruct D as [D|[m D]].
      + destruct (IH s1 lg s0 en (dn ++ [e]) R1) as [s' [A [B I]]]; subst s1; cbn [wmode chan jobs];
          [exact M|rewrite C, D; reflexivity|reflexivity|].
        exists s'. split; [exact A|]. cbn [saved db queue] in *. split.
        { rewrite B. destruct e as [i ts l o|st]; [reflexivity|discriminate D]. }
        destruct e as [i ts l [c is| | |]|st]; cbn in D; try discriminate D; exact I.
      + assert (C1 : chan s1 = [m]) by (subst s1; cbn; rewrite C, D; reflexivity).
        pose proof (r_step _ _ _ _ R1 (st_recv _ W s1 m [] M C1)) as R2.
        set (s2 := mkSys _ _ _ _ _ _ _ _) in R2.
        destruct (keepReading batchSize (enqueue (queue s1) m) m) eqn:K.
        * destruct (IH s2 lg s0 en (dn ++ [e]) R2) as [s' [A [B I]]]; subst s2 s1; cbn [wmode chan jobs];
            [reflexivity|reflexivity|reflexivity|].
          exists s'. split; [exact A|]. cbn [saved db queue] in *. split.
          { rewrite B. destruct e as [i ts l o|st]; [reflexivity|].
            cbn in D. injection D as <-. unfold keepReading in K. cbn [stateOf] in K. rewrite andb_false_r in K. discriminate. }
          destruct e as [i ts l [c is| | |]|st]; cbn in D; try discriminate D; injection D as <-; cbn [enqueue itemsOf] in *.
          { rewrite <- (app_assoc (queue s)) in I. exact I. }
          exact I.
        * assert (M2 : wmode s2 = Trying (stateOf m)) by reflexivity.
          pose proof (r_step _ _ _ _ R2 (st_ok _ W s2 (stateOf m) M2)) as R3.
          set (s3 := mkSys _ _ _ _ _ _ _ _) in R3.
          destruct (IH s3 lg s0 en (dn ++ [e]) R3) as [s' [A [B I]]]; subst s3 s2 s1; cbn [wmode chan jobs];
            [reflexivity|reflexivity|reflexivity|].
          exists s'. split; [exact A|]. cbn [saved db queue] in *. split.
          -- rewrite B. destruct e as [i ts l [c is| | |]|st]; cbn in D; try discriminate D; injection D as <-; cbn [stateOf];
               [reflexivity|]. rewrite alookup_aset_same. reflexivity.
          -- cbn [app] in I. destruct e as [i ts l [c is| | |]|st]; cbn in D; try discriminate D; injection D as <-; cbn [enqueue itemsOf] in *.
             { rewrite <- (app_assoc (db s)) in I. cbn [app] in I. rewrite <- (app_assoc (queue s)) in I. exact I. }
             rewrite <- (app_assoc (db s)) in I. exact I.
  Qed.

  (** [s] was idle: nothing in flight. *)
  Lemma job_completes s lg s0 en tr :
    reachable batchSize W s -> wmode s = Reading -> chan s = [] -> jobs s = [] ->
    loadable s lg s0 -> W lg s0 en tr ->
    exists s', reachable batchSize W s' /\
      alookup lg (saved s') = lastState tr (alookup lg (saved s)) /\
      incl (db s') (db s ++ queue s ++ itemsOf lg tr).
  Proof.
    intros R M C Jb L Hw.
    pose proof (r_step _ _ _ _ R (st_start _ W s lg s0 en tr L Hw)) as R1.
    set (s1 := mkSys _ _ _ _ _ _ _ _) in R1.
    destruct (job_drains tr s1 lg s0 en [] R1) as [s' [A [B I]]]; subst s1; cbn [wmode chan jobs]; auto.
    - rewrite Jb. reflexivity.
    - exists s'. split; [exact A|]. split; [exact B|]. intros x Hx. apply I. apply in_app_iff. auto.
  Qed.

  Lemma job_completes_initial lg en tr :
    W lg freshState en tr -> exists s', reachable batchSize W s' /\ alookup lg (saved s') = lastState tr None /\
      incl (db s') (itemsOf lg tr).
  Proof.
    intros Hw. destruct (job_completes initial lg freshState en tr) as [s' H]; auto.
    - constructor.
    - right; reflexivity.
    - exists s'. exact H.
  Qed.
End Completes.
