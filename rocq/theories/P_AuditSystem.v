(** * C72 for all workers
    The audit report of a run of aggregate-crls with any number of workers, in any order. *)
From Verif Require Import Base MerkleModel SerialModel AggModel AggProofs P_Agg P_Audit AggSystem P_AggSystem.
From Coq Require Import Strings.Byte Permutation.

Section Report.
  Variables (sha256 lower : bytes -> bytes) (Cert : Type) (parseCRL : bytes -> option crl) (checkSig : Cert -> bytes -> bool).
  Variable allowedFetch : task Cert -> url -> fetchEnv -> Prop.
  Variable allowedProc : task Cert -> url -> procEnv -> Prop.
  Local Notation runs := (runs sha256 lower Cert parseCRL checkSig allowedFetch allowedProc).
  Local Notation keeps := (keeps sha256 lower Cert parseCRL checkSig).
  Local Notation crlPath := (crlPath sha256 lower).

  Definition signed (t : task Cert) (d : disk) (u : url) : Prop :=
    exists f c, alookup (crlPath (t_issuer Cert t) u) d = Some f /\ parseCRL (f_data f) = Some c /\ checkSig (t_cert Cert t) (f_data f) = true.

  (** What an entry says about a URL of [t]; [d0], [d]: the CRL directory before and after. *)
  Definition says (t : task Cert) (d0 d : disk) (u : url) (a : audit) : Prop :=
    let path := crlPath (t_issuer Cert t) u in
    match a with
    | AuValid n data => exists f l, alookup path d = Some f /\ f_data f = data /\ keeps t d u l /\ l <> [] /\ n = N.of_nat (length l)
    | AuNoRevocations => keeps t d u []
    | AuFailedProcess => signed t d u /\ forall l, ~ keeps t d u l
    | AuFailedVerifyPath => ~ signed t d u \/ exists v pe, In v (t_urls Cert t) /\ allowedProc t v pe /\ pe_readErr pe = true
    | AuWrongIDP => t_partitioned Cert t = true /\ signed t d u
    | AuOld => signed t d u /\ exists e f, allowedFetch t u e /\ alookup path d = Some f /\ (14 * day < fe_now e - f_mtime f)%Z
    | AuFailedDownload => alookup path d = alookup path d0 /\
        exists e, allowedFetch t u e /\ forall i, (i < 4)%nat -> fst (dv_attempts (fe_dv e) i) = false /\ ~ wholeFile (snd (dv_attempts (fe_dv e) i))
    | AuFailedVerifyUrl => alookup path d = alookup path d0
    end.

  (** Every entry is about a URL of one of the issuers and true of what the run leaves; and
      for an issuer whose list was written in this run, the numbers that the report has for
      its URLs add up to the lines of the list. *)
  Theorem C72_all_workers : forall n ts d r s, goodQueue Cert ts -> (0 < n)%nat ->
    (forall t, In t ts -> NoDup (map (makeFilename sha256 lower) (t_urls Cert t))) ->
    runs (init Cert n ts d r) s -> s_phase Cert s = Ended 0 -> s_cancelled Cert s = false ->
    (forall i u a, In (i, u, a) (s_audit Cert s) ->
       exists t, In t ts /\ t_issuer Cert t = i /\ In u (t_urls Cert t) /\ says t d (s_disk Cert s) u a) /\
    (forall t data, In t ts -> alookup (t_issuer Cert t) r = None -> alookup (t_issuer Cert t) (s_rev Cert s) = Some data ->
       exists ns, N.of_nat (count_occ Byte.byte_eq_dec data nl) = total ns /\
         Forall2 (fun u k => (k = 0%N /\ In (t_issuer Cert t, u, AuNoRevocations) (s_audit Cert s)) \/
                             (0 < k)%N /\ exists crl, In (t_issuer Cert t, u, AuValid k crl) (s_audit Cert s)) (t_urls Cert t) ns).
  Proof using Type.
    intros n ts d r s G N W R P C.
    destruct (C68_one_after_the_other sha256 lower Cert parseCRL checkSig allowedFetch allowedProc n ts d r s G N R P C)
      as (js & d' & r' & os & au & TS & A & D & Rv & AU & OK & J).
    assert (NJ : NoDup (map j_issuer js)).
    { replace (map j_issuer js) with (map (t_issuer Cert) ts); [apply (proj1 G)|]. rewrite <- TS, map_map. reflexivity. }
    assert (DI : distinct sha256 lower Cert js).
    { split; [exact NJ|]. intros j Hj. assert (Tj : In (queued Cert j) ts) by (rewrite <- TS; apply in_map; exact Hj).
      split; [apply (proj2 G _ Tj)|]. pose proof (W _ Tj) as W1. cbn [t_urls queued] in W1. rewrite map_map in W1. exact W1. }
    assert (KP : forall j u l, hasCrl sha256 lower Cert parseCRL checkSig j d' u l <-> keeps (queued Cert j) (s_disk Cert s) u l).
    { intros j u l. unfold P_AggSystem.keeps, hasCrl. cbn [t_issuer t_cert queued]. split; intros (g & c & L & K); exists g, c; (split; [|exact K]); [rewrite D|rewrite <- D]; exact L. }
    assert (SG : forall j u, signedCrl sha256 lower Cert parseCRL checkSig j d' u <-> signed (queued Cert j) (s_disk Cert s) u).
    { intros j u. unfold signedCrl, signed. cbn [t_issuer t_cert queued]. split; intros (g & c & L & K); exists g, c; (split; [|exact K]); [rewrite D|rewrite <- D]; exact L. }
    split.
    - intros i u a I. apply (Permutation_in _ AU) in I.
      destruct (C72_entries_are_true sha256 lower Cert parseCRL checkSig js d r d' r' os au A DI i u a I) as (j & Ij & Ei & Iu & T).
      exists (queued Cert j). split; [rewrite <- TS; apply in_map; exact Ij|]. split; [exact Ei|]. split; [exact Iu|].
      destruct (J j Ij) as (_ & JF & JP). unfold truth in T. unfold says. cbn [t_issuer t_partitioned t_urls queued]. rewrite D. destruct a.
      + destruct T as [T1 (e & Ie & T2)]. split; [exact T1|]. exists e. split; [apply JF; exact Ie|exact T2].
      + exact T.
      + destruct T as [T|(pe & Ip & T)]; [left; intros X; apply T, SG, X|right]. destruct (JP pe Ip) as [_ (v & Iv & AP)]. exists v, pe. auto.
      + destruct T as [T1 (e & f & Ie & T2 & T3)]. split; [apply SG; exact T1|]. exists e, f. split; [apply JF; exact Ie|]. auto.
      + destruct T as (T1 & T2 & _). split; [exact T1|apply SG; exact T2].
      + destruct T as [T1 T2]. split; [apply SG; exact T1|]. intros l X. apply (T2 l), KP, X.
      + apply KP. exact T.
      + destruct T as (f & l & T1 & T2 & T3 & T4). exists f, l. split; [exact T1|]. split; [exact T2|]. split; [apply KP; exact T3|exact T4].
    - intros t data It R0 R1. rewrite <- TS in It. apply in_map_iff in It. destruct It as [j [<- Ij]]. cbn [t_issuer t_urls queued] in *.
      assert (WR : In (j_issuer j, AgWritten) os).
      { assert (DEC : forall a b : bytes * aggOutcome, {a = b} + {a <> b}) by (decide equality; [decide equality|apply bytes_eq_dec]).
        destruct (in_dec DEC (j_issuer j, AgWritten) os) as [I|NI]; [exact I|]. exfalso.
        assert (X : alookup (j_issuer j) r' = alookup (j_issuer j) r).
        { apply (C29_otherwise_untouched sha256 lower Cert parseCRL checkSig js d r d' r' os au A NJ); [exact NI|]. intros I. destruct (OK _ _ I); discriminate. }
        rewrite <- Rv, R1, R0 in X. discriminate X. }
      destruct (C72_counts_add_up sha256 lower Cert parseCRL checkSig js d r d' r' os au A DI j Ij WR) as (data' & ns & L & T & F).
      assert (E : data' = data) by (rewrite <- Rv, R1 in L; congruence). subst data'. exists ns. split; [exact T|].
      clear -F AU. induction F as [|ue k us ns H F IH]; cbn [map]; constructor; [|exact IH].
      destruct H as [[H1 H2]|[H1 [crl H2]]]; [left; split; [exact H1|]|right; split; [exact H1|exists crl]]; apply (Permutation_in _ (Permutation_sym AU)); exact H2.
  Qed.
End Report.
Print Assumptions C72_all_workers.

(** Two workers on two issuers (P_AggSystem.v), with no list before. *)
Example C72_all_workers_example : goodQueue byte xTwo /\ (forall t, In t xTwo -> NoDup (map (makeFilename xHash (fun s => s)) (t_urls byte t))) /\ exists s,
  xRuns (init byte 2 xTwo [] []) s /\ s_phase byte s = Ended 0 /\ s_cancelled byte s = false /\
  alookup (B "I") (s_rev byte s) = Some (B "0061" ++ [nl] ++ B "0062" ++ [nl]) /\
  In (B "I", xI1, AuValid 2 xBody) (s_audit byte s) /\ In (B "J", xJ1, AuWrongIDP) (s_audit byte s).
Proof.
  split; [exact (proj1 C68_example)|]. split; [intros t [<-|[<-|[]]]; constructor; try (intros []); constructor|].
  eexists. split.
  { unfold xTwo. tidy. fetchBoth.
    aggTake (@nil (aworker byte)) [AIdle byte].
    match goal with |- xRuns (mkSt _ _ _ _ _ _ [?a; _] _ _ _ _ _ _ _) _ => aggTake [a] (@nil (aworker byte)); aggCrl [a] (@nil (aworker byte)); aggOpen [a] (@nil (aworker byte)) end.
    match goal with |- xRuns (mkSt _ _ _ _ _ _ [_; ?b] _ _ _ _ _ _ _) _ => aggCrl (@nil (aworker byte)) [b]; aggOpen (@nil (aworker byte)) [b] end.
    match goal with |- xRuns (mkSt _ _ _ _ _ _ [?a; ABusy _ (mkA _ ?t ?dn ?pes (AWrite ?c ?k))] _ _ _ _ _ _ _) _ =>
      eapply xRuns_cons; [eapply (StAgg _ _ _ _ _ _ _ _ [a] []); [reflexivity|reflexivity|apply (AmWrite _ _ _ _ _ t dn pes c k (length c)); vm_compute; lia]|]; tidy;
      eapply xRuns_cons; [eapply (StAgg _ _ _ _ _ _ _ _ [a] []); [reflexivity|reflexivity|apply AmWritten]|]; tidy;
      eapply xRuns_cons; [eapply (StALeave _ _ _ _ _ _ _ _ [a] []); reflexivity|]; tidy end.
    match goal with |- xRuns (mkSt _ _ _ _ _ _ [ABusy _ (mkA _ ?t ?dn ?pes (AWrite ?c ?k)); ?b] _ _ _ _ _ _ _) _ =>
      eapply xRuns_cons; [eapply (StAgg _ _ _ _ _ _ _ _ [] [b]); [reflexivity|reflexivity|apply (AmWrite _ _ _ _ _ t dn pes c k (length c)); vm_compute; lia]|]; tidy;
      eapply xRuns_cons; [eapply (StAgg _ _ _ _ _ _ _ _ [] [b]); [reflexivity|reflexivity|apply AmWritten]|]; tidy;
      eapply xRuns_cons; [eapply (StALeave _ _ _ _ _ _ _ _ [] [b]); reflexivity|]; tidy end.
    eapply xRuns_cons; [eapply StSave; [reflexivity|constructor; [reflexivity|constructor; [reflexivity|constructor]]]|]; tidy.
    apply RunsRefl. }
  split; [reflexivity|]. split; [reflexivity|]. split; [vm_compute; reflexivity|]. cbn [s_audit]. split; vm_compute; tauto.
Qed.
