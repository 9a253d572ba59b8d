(** * C87: a file of issuers is used as a whole or not at all *)
From Verif Require Import Base MerkleModel SerialModel StoreModel IssuersModel JsonModel PemModel SaveModel P_Issuers P_Json P_Pem.
From Coq Require Import Strings.Byte Permutation.

Lemma issuers_newline l x p c : encodeIssuers l = Some x -> x = p ++ [c] -> decodeIssuers p = decodeIssuers x.
Proof.
  intros E Ex. destruct (list_written issuerStruct (fun _ => True) (fun _ _ _ => True) l) as (x' & vs & l' & E' & (t & J & Et) & _).
  { intros e _. destruct (issuer_written e) as (y & m & s' & E1 & J & _). exists y, (JObj m), s'. auto. }
  { apply Forall_forall. intros; exact I. }
  unfold encodeIssuers in E. assert (Hx : x = t ++ [x0a]) by congruence. rewrite Hx in Ex. apply app_inj_tail in Ex. destruct Ex as [<- _]. rewrite Hx.
  unfold decodeIssuers. rewrite (text_whole t (JArr vs)), (text_whole (t ++ [x0a]) (JArr vs)); [reflexivity| |].
  - exists [], t, [x0a]. repeat split; [constructor|exact ws_newline|exact J].
  - exists [], t, []. repeat split; [constructor|constructor|exact J|]. rewrite app_nil_r. reflexivity.
Qed.

Section Save.
  Variables (Cert : Type) (sha256 : bytes -> bytes) (spki rawSubject subject rawOf : Cert -> bytes) (parse : bytes -> option Cert).
  Local Notation toPEM := (fun c => certificateToPEM (rawOf c)).
  Local Notation text order := (saveIssuers Cert sha256 spki rawSubject subject toPEM encodeFile order).
  Local Notation load := (loadEnrolled Cert sha256 spki (pemToCertificate parse) decodeFile emptyMoz).
  Local Notation table xs := (fold_left (ins Cert sha256 spki) xs emptyMoz).

  (** Whatever goes wrong while the table of issuers is written over a file: who loads the
      file later gets the whole table, or an error and nothing.  If the file could not be
      opened it is as before, and that is reported. *)
  Theorem C87_whole_or_nothing : forall xs order f old,
    (forall c, parse (rawOf c) = Some c) -> Permutation order (m_issuers (table xs)) ->
    let (file, reported) := saveTo (text order) f old in
    (sv_open f = true -> let (m', ok) := load file in
       if ok then forall i, alookup i (m_issuers m') = alookup i (m_issuers (table xs)) /\ crlsOf (m_crls m') i = [] else m' = emptyMoz) /\
    (sv_open f = false -> file = old /\ reported = false) /\
    (sv_open f = true -> sv_wrote f = None -> snd (load file) = true).
  Proof using Type.
    intros xs order f old P PM. pose proof (C78_issuers_file Cert sha256 spki rawSubject subject rawOf parse xs order P PM) as FULL.
    unfold saveTo. destruct (sv_open f); [|repeat split; try discriminate; reflexivity].
    assert (WHOLE : forall file, decodeFile file = decodeFile (text order) -> let (m', ok) := load (Some file) in
       ok = true /\ if ok then forall i, alookup i (m_issuers m') = alookup i (m_issuers (table xs)) /\ crlsOf (m_crls m') i = [] else m' = emptyMoz).
    { intros file E. unfold loadEnrolled in *. rewrite E. destruct (decodeFile (text order)); [|destruct FULL; discriminate]. destruct (loadList _ _ _ _ _ _) as [m' ok]. destruct FULL as [-> F]. split; [reflexivity|exact F]. }
    assert (WHOLE2 : forall file, decodeFile file = decodeFile (text order) -> let (m', ok) := load (Some file) in
       if ok then forall i, alookup i (m_issuers m') = alookup i (m_issuers (table xs)) /\ crlsOf (m_crls m') i = [] else m' = emptyMoz).
    { intros file E. specialize (WHOLE file E). destruct (load (Some file)) as [m' ok]. exact (proj2 WHOLE). }
    split; [intros _|split; [discriminate|intros _ W; rewrite W; specialize (WHOLE _ eq_refl); destruct (load _) as [m' ok]; exact (proj1 WHOLE)]].
    destruct (sv_wrote f) as [n|]; [|exact (WHOLE2 _ eq_refl)].
    cbv beta iota. set (x := text order) in *. pose proof (firstn_skipn n x) as CUT. destruct (encodeIssuers (map toIssuer (saveList Cert sha256 spki rawSubject subject toPEM order))) as [y|] eqn:E.
    2:{ exfalso. destruct (C77_issuers (map toIssuer (saveList Cert sha256 spki rawSubject subject toPEM order))) as (z & _ & Z & _). congruence. }
    assert (X : x = y) by (unfold x, saveIssuers, encodeFile; rewrite E; reflexivity). rewrite X in *. clear X x.
    destruct (skipn n y) as [|c [|d q]] eqn:SK.
    - rewrite app_nil_r in CUT. rewrite CUT. exact (WHOLE2 y eq_refl).
    - assert (D : decodeFile (firstn n y) = decodeFile y) by (unfold decodeFile; rewrite (issuers_newline _ y (firstn n y) c E (eq_sym CUT)); reflexivity).
      exact (WHOLE2 _ D).
    - pose proof (proj2 (proj2 C77_cut_short) _ y (firstn n y) (c :: d :: q) E (eq_sym CUT) ltac:(cbn; lia)) as N.
      unfold loadEnrolled, decodeFile. rewrite N. reflexivity.
  Qed.
End Save.
Print Assumptions C87_whole_or_nothing.

(** A table of three certificates of two issuers.  Cut after 100 bytes it is refused, cut
    before the end of the line it is read. *)
Definition kx (c : bytes) : bytes := firstn 1 c.
Definition three := fold_left (ins bytes (fun x => x) kx) [(B "k1", [B "u"], true); (B "l2", [], false); (B "k3", [B "v"], false)] emptyMoz.
Definition threeText : bytes := saveIssuers bytes (fun x => x) kx (fun c => c) (fun c => c) (fun c => certificateToPEM c) encodeFile (rev (m_issuers three)).
Definition loadThree (f : saving) := let (file, reported) := saveTo threeText f (Some (B "[]")) in
  let (m, ok) := loadEnrolled bytes (fun x => x) kx (pemToCertificate Some) decodeFile emptyMoz file in (reported, ok, map fst (m_issuers m)).
Example C87_example : Permutation (rev (m_issuers three)) (m_issuers three) /\ (length threeText > 300)%nat /\
  loadThree (mkSaving true None true) = (true, true, [issuerID (B "k"); issuerID (B "l")]) /\
  loadThree (mkSaving true (Some (length threeText - 1)) false) = (false, true, [issuerID (B "k"); issuerID (B "l")]) /\
  loadThree (mkSaving false (Some 0%nat) true) = (false, true, []).
Proof.
  split; [symmetry; apply Permutation_rev|]. split; [vm_compute; lia|]. repeat split; vm_compute; reflexivity.
Qed.

(** That success is reported does not mean that the table was saved. *)
Theorem C87_reported_refuted : exists f, let (file, reported) := saveTo threeText f None in
  reported = true /\ snd (loadEnrolled bytes (fun x => x) kx (pemToCertificate Some) decodeFile emptyMoz file) = false.
Proof. exists (mkSaving true (Some 100%nat) true). vm_compute. split; reflexivity. Qed.
Print Assumptions C87_reported_refuted.
