(** * C85: waiting for the commit lock *)
From Verif Require Import Base RetryModel WaitModel P_Retry.
From Coq Require Import Strings.Byte.
Local Open Scope Z_scope.

(** ** Specification *)

(** The end of a try, and tries as a clock shows them: no time goes back and there is a
    second between the end of a try and the next. *)
Definition endOf (x : try) : Z := match tr_sent x with [] => tr_look x | _ => timeOf (tr_sent x) end.
Fixpoint paced (t : Z) (l : list try) : Prop :=
  match l with
  | [] => True
  | x :: l' => t <= tr_look x /\ clock (tr_look x) (tr_sent x) /\ paced (endOf x + 1) l'
  end.
(** A try that reaches the server at most once, and gets its answer if it does. *)
Definition smooth (x : try) : Prop := exists a, tr_sent x = [a] /\ (at_done a = true -> tr_answered x = true).
(** What the other clients did during the tries. *)
Definition byOthers (l : list try) : list (Z * cmd) := flat_map (fun x => flat_map at_others (tr_sent x)) l.

(** ** Proofs *)

Lemma deliver_answered c : forall l ans s r s', deliver c l ans s = (Some r, s') -> ans = true.
Proof.
  induction l as [|a l IH]; intros ans s r s' H; [discriminate H|]. cbn [deliver] in H. destruct l as [|b l]; [|exact (IH _ _ _ _ H)].
  destruct (at_done a); [|discriminate H]. destruct (exec (at_now a) c (execs (at_others a) s)) as [r0 s2]. destruct ans; [reflexivity|discriminate H].
Qed.
Lemma acquire_answered token l ans s k s' : acquire token l ans s = (Some k, s') -> ans = true.
Proof.
  unfold acquire. destruct (deliver (SetNX lockKey token lockTime) l ans s) as [[r|] s1] eqn:D; [|discriminate]. intros _. exact (deliver_answered _ _ _ _ _ _ D).
Qed.
Lemma wait_app start : forall l0 l1 s, waitLock start (l0 ++ l1) s = match fst (waitLock start l0 s) with Waiting => waitLock start l1 (snd (waitLock start l0 s)) | _ => waitLock start l0 s end.
Proof.
  induction l0 as [|x l0 IH]; intros l1 s; [reflexivity|]. cbn [app waitLock]. destruct (tr_look x - start <? waitTime); [|reflexivity].
  destruct (acquire (tr_token x) (tr_sent x) (tr_answered x) s) as [[k|] s']; [reflexivity|]. apply IH.
Qed.

(** A run that gets the lock got it at a try of the first fifteen minutes, by its own new
    token; when the server gave it nobody had the lock, and it has it for four hours.  A
    run that gives up did so at the first look at the clock after fifteen minutes. *)
Theorem C85_outcome : forall start tries s, let (o, s') := waitLock start tries s in
  match o with
  | Got k => exists l0 x l1, tries = l0 ++ x :: l1 /\ fst (waitLock start l0 s) = Waiting /\ tr_look x < start + 900 /\
      k = tr_token x /\ tr_answered x = true /\
      (exists before, live (timeOf (tr_sent x)) lockKey before = None /\ alookup lockKey s' = Some (VStr k, Some (timeOf (tr_sent x) + 14400)) /\
         forall k', k' <> lockKey -> alookup k' s' = alookup k' before)
  | TimedOut => exists l0 x l1, tries = l0 ++ x :: l1 /\ start + 900 <= tr_look x /\ forall y, In y l0 -> tr_look y < start + 900
  | Waiting => forall y, In y tries -> tr_look y < start + 900
  end.
Proof.
  intros start tries. induction tries as [|x tries IH]; intros s; cbn [waitLock]; [intros y []|].
  destruct (Z.ltb_spec (tr_look x - start) waitTime) as [LT|GE]; unfold waitTime in *; [|exists [], x, tries; split; [reflexivity|]; split; [lia|intros y []]].
  destruct (acquire (tr_token x) (tr_sent x) (tr_answered x) s) as [[k|] s1] eqn:A.
  - exists [], x, tries. split; [reflexivity|]. split; [reflexivity|]. split; [lia|]. pose proof (acquire_answered _ _ _ _ _ _ A) as AN. rewrite AN in A.
    pose proof (C83_lock _ _ _ _ _ A) as [-> _]. split; [reflexivity|]. split; [exact AN|].
    unfold acquire in A. destruct (deliver (SetNX lockKey (tr_token x) lockTime) (tr_sent x) true s) as [r s2] eqn:D.
    destruct r as [[| | |[]|]|]; try discriminate A. assert (s2 = s1) by congruence. subst s2.
    destruct (answered_last _ _ _ _ _ D) as [l0 [a [s0 [-> [_ E]]]]]. rewrite timeOf_last. exists s0. cbn [exec] in E. destruct (live (at_now a) lockKey s0) eqn:L; [discriminate E|].
    assert (Q : s1 = aset lockKey (VStr (tr_token x), Some (at_now a + lockTime)) s0) by congruence. rewrite Q. split; [reflexivity|]. split; [apply alookup_aset_same|].
    intros k' N. apply alookup_aset_other. exact N.
  - specialize (IH s1). destruct (waitLock start tries s1) as [o s'] eqn:W. destruct o as [k| |].
    + destruct IH as (l0 & y & l1 & -> & F & R). exists (x :: l0), y, l1. split; [reflexivity|]. split; [|exact R].
      cbn [waitLock]. replace (tr_look x - start <? waitTime) with true by (symmetry; apply Z.ltb_lt; unfold waitTime; lia). rewrite A. exact F.
    + destruct IH as (l0 & y & l1 & -> & G & H). exists (x :: l0), y, l1. split; [reflexivity|]. split; [exact G|]. intros z [<-|I]; [lia|exact (H z I)].
    + intros z [<-|I]; [lia|exact (IH z I)].
Qed.
Print Assumptions C85_outcome.

(** It always ends: no run is still waiting after nine hundred tries. *)
Theorem C85_ends : forall start tries s, paced start tries -> fst (waitLock start tries s) = Waiting -> (length tries <= 900)%nat.
Proof.
  intros start tries s P W.
  assert (L : forall y, In y tries -> tr_look y < start + 900) by (pose proof (C85_outcome start tries s) as O; destruct (waitLock start tries s) as [o s']; cbn [fst] in W; subst o; exact O).
  assert (G : forall l t, paced t l -> (forall y, In y l -> tr_look y < start + 900) -> Z.of_nat (length l) <= Z.max 0 (start + 900 - t)).
  { clear. induction l as [|x l IH]; intros t P L; [cbn; lia|]. destruct P as (P1 & P2 & P3).
    assert (E : tr_look x <= endOf x).
    { unfold endOf. destruct (tr_sent x) as [|a l'] eqn:S; [lia|]. destruct (exists_last (l := a :: l') ltac:(discriminate)) as [l2 [b Q]]. rewrite Q in *. rewrite timeOf_last. exact (clock_last _ _ _ _ P2). }
    specialize (IH _ P3 (fun y I => L y (or_intror I))). pose proof (L x (or_introl eq_refl)). cbn [length]. lia. }
  specialize (G tries start P L). lia.
Qed.
Print Assumptions C85_ends.

(** If at some try of the fifteen minutes the lock is free and the try goes well, the run
    gets the lock, at this try or before. *)
Theorem C85_gets : forall start l0 x l1 s a, (forall y, In y (l0 ++ [x]) -> tr_look y < start + 900) ->
  tr_sent x = [a] -> at_done a = true -> tr_answered x = true ->
  live (at_now a) lockKey (execs (at_others a) (snd (waitLock start l0 s))) = None ->
  exists y, In y (l0 ++ [x]) /\ fst (waitLock start (l0 ++ x :: l1) s) = Got (tr_token y).
Proof.
  intros start l0 x l1 s a L S D AN F. rewrite wait_app. pose proof (C85_outcome start l0 s) as O. destruct (waitLock start l0 s) as [o s'] eqn:W. cbn [fst snd] in *. destruct o as [k| |].
  - destruct O as (m0 & y & m1 & -> & _ & _ & -> & _). exists y. split; [|reflexivity]. rewrite <- app_assoc. apply in_or_app. right. left. reflexivity.
  - exfalso. destruct O as (m0 & y & m1 & -> & G & _). specialize (L y). assert (I : In y ((m0 ++ y :: m1) ++ [x])) by (rewrite <- app_assoc; apply in_or_app; right; left; reflexivity). apply L in I. lia.
  - exists x. split; [apply in_or_app; right; left; reflexivity|]. cbn [waitLock]. assert (LX : tr_look x < start + 900) by (apply L; apply in_or_app; right; left; reflexivity).
    replace (tr_look x - start <? waitTime) with true by (symmetry; apply Z.ltb_lt; unfold waitTime; lia).
    unfold acquire. rewrite S, AN. cbn [deliver]. rewrite D. cbn [exec]. rewrite F. reflexivity.
Qed.
Print Assumptions C85_gets.

(** As long as no answer is lost, a run that has not got the lock has left the server as
    the other clients made it. *)
Theorem C85_leaves : forall start tries s, (forall x, In x tries -> smooth x) ->
  match waitLock start tries s with
  | (Got _, _) => True
  | (TimedOut, s') => exists l0 x l1, tries = l0 ++ x :: l1 /\ s' = execs (byOthers l0) s
  | (Waiting, s') => s' = execs (byOthers tries) s
  end.
Proof.
  intros start. induction tries as [|x tries IH]; intros s SM; [reflexivity|]. cbn [waitLock].
  destruct (tr_look x - start <? waitTime); [|exists [], x, tries; split; reflexivity].
  destruct (SM x (or_introl eq_refl)) as [a [S AN]].
  assert (EX : forall h1 h2 s0, execs (h1 ++ h2) s0 = execs h2 (execs h1 s0)) by (clear; induction h1 as [|[n c] h1 IH]; intros h2 s0; [reflexivity|cbn [app execs]; apply IH]).
  assert (A : let (r, s1) := acquire (tr_token x) (tr_sent x) (tr_answered x) s in r = None -> s1 = execs (at_others a) s).
  { unfold acquire. rewrite S. cbn [deliver]. destruct (at_done a); [|intros _; reflexivity]. rewrite (AN eq_refl). cbn [exec].
    destruct (live (at_now a) lockKey (execs (at_others a) s)); [intros _; reflexivity|discriminate]. }
  destruct (acquire (tr_token x) (tr_sent x) (tr_answered x) s) as [[k|] s1]; [exact I|]. rewrite (A eq_refl).
  assert (B : forall l, byOthers (x :: l) = at_others a ++ byOthers l) by (intros l; unfold byOthers; cbn [flat_map]; rewrite S; cbn [flat_map]; rewrite app_nil_r; reflexivity).
  specialize (IH (execs (at_others a) s) (fun y I => SM y (or_intror I))).
  destruct (waitLock start tries (execs (at_others a) s)) as [[k| |] s']; [exact I| |].
  - destruct IH as (l0 & y & l1 & -> & ->). exists (x :: l0), y, l1. split; [reflexivity|]. rewrite B, EX. reflexivity.
  - rewrite B, EX. exact IH.
Qed.
Print Assumptions C85_leaves.

(** One holder, who is done after ten seconds, then a client that waits. *)
Definition tryAt (t : Z) (k : bytes) (o : list (Z * cmd)) : try := mkTry t k [mkAttempt o t true] true.
Example C85_example :
  let s := snd (acquire (B "them") [seen 0] true []) in
  let l := [tryAt 5 (B "a") []; tryAt 6 (B "b") []; tryAt 12 (B "c") [(10, Del lockKey)]; tryAt 13 (B "d") []] in
  paced 5 l /\ (forall x, In x l -> smooth x) /\ waitLock 5 l s = (Got (B "c"), [(lockKey, (VStr (B "c"), Some 14412))]) /\
  fst (waitLock 5 (firstn 2 l ++ [tryAt 905 (B "e") []]) s) = TimedOut.
Proof.
  cbv zeta. split; [vm_compute; intuition discriminate|]. split; [|split; vm_compute; reflexivity].
  intros x [<-|[<-|[<-|[<-|[]]]]]; eexists; (split; [reflexivity|reflexivity]).
Qed.

(** One lost answer is enough: nobody else asks for the lock, it is free at the start, and
    still the run gives up; its first token, which it does not know to be in force, keeps
    everybody out for hours. *)
Theorem C85_alone_refuted : exists tries, paced 0 tries /\ byOthers tries = [] /\ (forall x y, In x tries -> In y tries -> tr_answered x = false -> tr_answered y = false -> x = y) /\
  let (o, s') := waitLock 0 tries [] in o = TimedOut /\
  forall token t, t <= 14400 -> fst (acquire token [seen t] true s') = None.
Proof.
  set (later := map (fun i => tryAt (Z.of_nat i) (B "later") []) (List.seq 1 900)).
  exists (mkTry 0 (B "first") [seen 0] false :: later).
  assert (O : forall l, byOthers (map (fun i => tryAt (Z.of_nat i) (B "later") []) l) = []) by (induction l as [|i l IH]; [reflexivity|exact IH]).
  assert (P : forall n i t, t <= Z.of_nat i -> paced t (map (fun i => tryAt (Z.of_nat i) (B "later") []) (List.seq i n))).
  { induction n as [|n IH]; intros i t H; [exact I|]. cbn [List.seq map paced tryAt tr_look tr_sent clock at_now]. split; [exact H|]. split; [split; [lia|exact I]|]. apply IH. unfold endOf, timeOf, tryAt. cbn -[Z.of_nat Z.add]. lia. }
  split; [|split; [|split]].
  - cbn [paced tr_look tr_sent clock at_now seen]. split; [lia|]. split; [split; [lia|exact I]|]. apply P. vm_compute. discriminate.
  - unfold byOthers. cbn [flat_map tr_sent at_others seen app]. apply O.
  - assert (A : forall x, In x later -> tr_answered x = true) by (intros x Ix; apply in_map_iff in Ix; destruct Ix as [i [<- _]]; reflexivity).
    intros x y [<-|Ix] [<-|Iy] H1 H2; [reflexivity| | |]; exfalso; [rewrite (A y Iy) in H2|rewrite (A x Ix) in H1|rewrite (A x Ix) in H1]; discriminate.
  - assert (E : waitLock 0 (mkTry 0 (B "first") [seen 0] false :: later) [] = (TimedOut, [(lockKey, (VStr (B "first"), Some 14400))])) by (vm_compute; reflexivity).
    rewrite E. split; [reflexivity|]. intros token t L. unfold acquire, seen. cbn [deliver at_others at_now at_done execs exec].
    replace (live t lockKey [(lockKey, (VStr (B "first"), Some 14400))]) with (if t <=? 14400 then Some (VStr (B "first"), Some 14400) else None) by reflexivity.
    destruct (Z.leb_spec t 14400); [reflexivity|lia].
Qed.
Print Assumptions C85_alone_refuted.
