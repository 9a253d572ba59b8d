(** * C79: the text of the CCADB report *)
From Verif Require Import Base MerkleModel SerialModel SerialProofs StoreModel IssuersModel P_Issuers CsvModel CsvSpec CsvProofs.
From Coq Require Import Strings.Byte Permutation.

(** The reader succeeds exactly on the texts that say a table, with rows as long as the
    header, and gives that table. *)
Theorem C79_reads : forall s cols rows, readReport s = (Some cols, Some rows) <->
  tableText (cols :: rows) (unix s) /\ forall r, In r rows -> length r = length cols.
Proof. exact report_spec. Qed.
Print Assumptions C79_reads.

(** The steps that the model gives the reader are enough, for every text. *)
Theorem C79_fuel : forall s, readRecord s <> RFuel.
Proof. intros s. apply record_fuel. lia. Qed.
Print Assumptions C79_fuel.

(** ** Writing and reading back *)

Lemma unix_other c z : c <> CR -> unix (c :: z) = c :: unix z.
Proof. intros N. cbn [unix]. destruct (eqbb c CR); [contradiction|reflexivity]. Qed.
Lemma unix_plain : forall a z, ~ In CR a -> unix (a ++ z) = a ++ unix z.
Proof.
  induction a as [|c a IH]; intros z NI; [reflexivity|]. cbn [app]. rewrite unix_other by (intros F; apply NI; left; exact F).
  rewrite IH; [reflexivity|]. intros F. apply NI. right. exact F.
Qed.
Lemma crlf_plain : forall a, ~ In CR a -> crlf a = a.
Proof.
  induction a as [|c a IH]; intros NI; [reflexivity|]. cbn [crlf]. rewrite IH by (intros F; apply NI; right; exact F).
  destruct (eqbb c CR) as [->|]; [exfalso; apply NI; left; reflexivity|reflexivity].
Qed.
Lemma unix_doubled : forall c z, unix (doubled c ++ QUOTE :: z) = doubled (crlf c) ++ QUOTE :: unix z.
Proof.
  induction c as [|x c IH]; intros z; [apply unix_other; discriminate|].
  cbn [doubled crlf]. destruct (eqbb x QUOTE) as [->|N].
  - change (Byte.eqb QUOTE CR) with false. cbv iota. cbn [doubled app]. rewrite eqb_same. rewrite !unix_other by discriminate. rewrite IH. reflexivity.
  - destruct (eqbb x CR) as [->|NC].
    + destruct c as [|d c].
      * cbn [doubled app unix]. reflexivity.
      * destruct (eqbb d LF) as [->|NL].
        -- rewrite <- IH. cbn [doubled app]. change (Byte.eqb LF QUOTE) with false. cbv iota. cbn [app unix]. reflexivity.
        -- assert (E : exists y, doubled (d :: c) = d :: y) by (cbn [doubled]; destruct (Byte.eqb d QUOTE); eauto). destruct E as [y Ey].
           change (doubled (CR :: crlf (d :: c))) with (CR :: doubled (crlf (d :: c))). cbn [app]. rewrite <- IH, Ey. cbn [app]. cbn [unix].
           change (Byte.eqb CR CR) with true. cbv iota. destruct (eqbb d LF); [contradiction|]. reflexivity.
    + cbn [app]. rewrite unix_other by exact NC. rewrite IH. cbn [doubled]. destruct (eqbb x QUOTE); [contradiction|]. reflexivity.
Qed.
Definition unixCell (x : bool * bytes) : bool * bytes := (fst x, crlf (snd x)).
Lemma unix_cell x z : okCell x -> unix (cellOut x ++ z) = cellOut (unixCell x) ++ unix z.
Proof.
  destruct x as [[|] c]; unfold cellOut, unixCell, okCell; cbn [fst snd].
  - intros _. cbn [app]. rewrite unix_other by discriminate. rewrite <- !app_assoc. cbn [app]. rewrite unix_doubled. reflexivity.
  - intros [F|[_ [_ [_ NC]]]]; [discriminate|]. rewrite unix_plain, crlf_plain by exact NC. reflexivity.
Qed.
Lemma unix_row : forall l z, (forall x, In x l -> okCell x) -> unix (rowOut l ++ z) = rowOut (map unixCell l) ++ unix z.
Proof.
  induction l as [|x l IH]; intros z O; [reflexivity|]. destruct l as [|y l].
  - cbn [rowOut map]. apply unix_cell, O. left. reflexivity.
  - change (rowOut (x :: y :: l)) with (cellOut x ++ COMMA :: rowOut (y :: l)).
    change (rowOut (map unixCell (x :: y :: l))) with (cellOut (unixCell x) ++ COMMA :: rowOut (map unixCell (y :: l))).
    rewrite <- !app_assoc. cbn [app]. rewrite unix_cell by (apply O; left; reflexivity). rewrite unix_other by discriminate.
    rewrite IH by (intros u U; apply O; right; exact U). reflexivity.
Qed.
Lemma in_crlf : forall c x, In x (crlf c) -> In x c.
Proof.
  induction c as [|y c IH]; intros x I; [exact I|]. cbn [crlf] in I. destruct (eqbb y CR) as [->|].
  - destruct c as [|d c]; [exact I|]. destruct (Byte.eqb d LF); [right; apply IH, I|]. destruct I as [I|I]; [left; exact I|right; apply IH, I].
  - destruct I as [I|I]; [left; exact I|right; apply IH, I].
Qed.
Lemma row_text : forall l, l <> [] -> (forall x, In x l -> okCell x) -> rowText (map (fun x => crlf (snd x)) l) (rowOut (map unixCell l)).
Proof.
  assert (C : forall x, okCell x -> cellText (crlf (snd x)) (cellOut (unixCell x))).
  { intros [[|] c] O; unfold cellOut, unixCell; cbn [fst snd]; [constructor|]. destruct O as [F|[N1 [N2 [N3 N4]]]]; [discriminate|]. cbn [snd] in *.
    constructor; intros F; apply in_crlf in F; contradiction. }
  induction l as [|x l IH]; intros NE O; [contradiction|]. destruct l as [|y l].
  - cbn. constructor. apply C, O. left. reflexivity.
  - change (rowOut (map unixCell (x :: y :: l))) with (cellOut (unixCell x) ++ COMMA :: rowOut (map unixCell (y :: l))).
    cbn [map]. constructor; [apply C, O; left; reflexivity|]. apply IH; [discriminate|]. intros u U. apply O. right. exact U.
Qed.
Lemma row_nonempty l : okRow l -> rowOut (map unixCell l) <> [].
Proof.
  intros [NE [N1 O]]. destruct l as [|[q c] l]; [contradiction|]. destruct l as [|y l].
  - cbn. unfold cellOut, unixCell. cbn [fst snd]. destruct q; [discriminate|]. destruct c as [|x c]; [contradiction|].
    destruct (O (false, x :: c) (or_introl eq_refl)) as [F|[_ [_ [_ NC]]]]; [discriminate|]. cbn [snd] in NC. rewrite (crlf_plain _ NC). discriminate.
  - change (rowOut (map unixCell ((q, c) :: y :: l))) with (cellOut (unixCell (q, c)) ++ COMMA :: rowOut (map unixCell (y :: l))).
    intros F. apply app_eq_nil in F. destruct F. discriminate.
Qed.
Definition cellsOf (l : list (bool * bytes)) : list bytes := map (fun x => crlf (snd x)) l.
Lemma unix_table : forall t z, (forall r, In r t -> okRow (fst r)) ->
  unix (tableOut t ++ z) = flat_map (fun r : list (bool * bytes) * bool => rowOut (map unixCell (fst r)) ++ [LF]) t ++ unix z.
Proof.
  induction t as [|[l e] t IH]; intros z O; [reflexivity|]. cbn [tableOut flat_map lineOut fst snd].
  unfold lineOut at 1. cbn [fst snd]. rewrite <- !app_assoc, unix_row by (apply (O _ (or_introl eq_refl))).
  f_equal. fold (tableOut t). destruct e; cbn [app]; (rewrite <- IH by (intros r R; apply O; right; exact R)).
  - cbn [unix]. reflexivity.
  - rewrite unix_other by discriminate. reflexivity.
Qed.
Lemma table_text : forall t z T, (forall r, In r t -> okRow (fst r)) -> tableText T z ->
  tableText (map (fun r : list (bool * bytes) * bool => cellsOf (fst r)) t ++ T) (flat_map (fun r : list (bool * bytes) * bool => rowOut (map unixCell (fst r)) ++ [LF]) t ++ z).
Proof.
  induction t as [|[l e] t IH]; intros z T O H; [exact H|]. cbn [map flat_map app fst]. rewrite <- !app_assoc. cbn [app].
  destruct (O _ (or_introl eq_refl)) as [NE [N1 OC]]. cbn [fst] in *.
  constructor; [apply row_text; assumption|apply row_nonempty; repeat split; assumption|].
  apply IH; [intros r R; apply O; right; exact R|exact H].
Qed.

(** A table that is written row by row, with any choice of quoting the cells that do not need
    it and of the line ends, with or without a line end after the last row, is read back.
    Only a CR LF inside a cell becomes LF. *)
Theorem C79_writes : forall header rows last,
  okRow (fst header) -> (forall r, In r rows -> okRow (fst r) /\ length (fst r) = length (fst header)) ->
  (forall l, last = Some l -> okRow l /\ length l = length (fst header)) ->
  readReport (tableOut (header :: rows) ++ match last with Some l => rowOut l | None => [] end) =
    (Some (cellsOf (fst header)),
     Some (map (fun r : list (bool * bytes) * bool => cellsOf (fst r)) rows ++ match last with Some l => [cellsOf l] | None => [] end)).
Proof.
  intros header rows last H R L. apply report_spec.
  assert (O : forall r, In r (header :: rows) -> okRow (fst r)) by (intros r [<-|I]; [exact H|apply R, I]).
  split.
  - rewrite unix_table by exact O.
    change (cellsOf (fst header) :: map (fun r : list (bool * bytes) * bool => cellsOf (fst r)) rows ++ match last with Some l => [cellsOf l] | None => [] end)
      with (map (fun r : list (bool * bytes) * bool => cellsOf (fst r)) (header :: rows) ++ match last with Some l => [cellsOf l] | None => [] end).
    apply table_text; [exact O|]. destruct last as [l|]; [|constructor]. destruct (L l eq_refl) as [OL _].
    pose proof (unix_row l [] (proj2 (proj2 OL))) as E. cbn [unix] in E. rewrite !app_nil_r in E. rewrite E.
    constructor; [apply row_text; apply OL|apply row_nonempty; exact OL].
  - unfold cellsOf. intros r I. rewrite map_length. apply in_app_or in I. destruct I as [I|I].
    + apply in_map_iff in I. destruct I as [x [<- I]]. rewrite map_length. apply R, I.
    + destruct last as [l|]; [|destruct I]. destruct I as [<-|[]]. rewrite map_length. apply (L l eq_refl).
Qed.
Print Assumptions C79_writes.

(** A report with quotes, commas and line ends in its cells. *)
Definition wq (s : bytes) := (true, s). Definition wp (s : bytes) := (false, s).
Definition wheader : list (bool * bytes) * bool := ([wp (B "name"); wq (B "pem, quoted"); wp (B "url")], true).
Definition wrow1 : list (bool * bytes) * bool := ([wq (B "say ""hi"""); wq ([CR; LF] ++ B "pem" ++ [LF]); wp []], true).
Definition wrow2 : list (bool * bytes) * bool := ([wp []; wp (B "x"); wq []], false).
Example C79_ex_writes : okRow (fst wheader) /\ (forall r, In r [wrow1; wrow2] -> okRow (fst r) /\ length (fst r) = length (fst wheader)) /\
  readReport (tableOut [wheader; wrow1; wrow2]) =
    (Some [B "name"; B "pem, quoted"; B "url"],
     Some [[B "say ""hi"""; [LF] ++ B "pem" ++ [LF]; []]; [[]; B "x"; []]]).
Proof.
  assert (P : forall s, (fun s => forallb (fun c => negb (Byte.eqb c QUOTE || Byte.eqb c COMMA || Byte.eqb c LF || Byte.eqb c CR)) s) s = true ->
              okCell (false, s)).
  { intros s H. right. cbn [snd]. rewrite forallb_forall in H.
    assert (forall c, In c s -> c <> QUOTE /\ c <> COMMA /\ c <> LF /\ c <> CR) as K.
    { intros c I. specialize (H c I). repeat split; intros ->; discriminate H. }
    repeat split; intros I; apply K in I; tauto. }
  assert (Q : forall s, okCell (true, s)) by (intros s; left; reflexivity).
  split; [|split].
  - split; [discriminate|]. split; [discriminate|]. intros x I. repeat (destruct I as [<-|I]; [first [apply Q|apply P; vm_compute; reflexivity]|]). destruct I.
  - intros r [<-|[<-|[]]]; (split; [|reflexivity]); (split; [discriminate|]); (split; [discriminate|]); intros x I;
      repeat (destruct I as [<-|I]; [first [apply Q|apply P; vm_compute; reflexivity]|]); destruct I.
  - vm_compute. reflexivity.
Qed.

(** ** Texts that are refused *)

Definition quotes (s : bytes) : nat := count_occ Byte.byte_eq_dec s QUOTE.
Lemma quotes_app a b : quotes (a ++ b) = (quotes a + quotes b)%nat.
Proof. apply count_occ_app. Qed.
Lemma quotes_none a : ~ In QUOTE a -> quotes a = 0%nat.
Proof. apply count_occ_not_In. Qed.
Lemma quotes_cons c a : c <> QUOTE -> quotes (c :: a) = quotes a.
Proof. apply count_occ_cons_neq. Qed.
Lemma quotes_unix : forall s, quotes (unix s) = quotes s.
Proof.
  induction s as [|c s IH]; [reflexivity|]. cbn [unix]. destruct (eqbb c CR) as [->|N].
  - rewrite (quotes_cons CR s) by discriminate. destruct s as [|d s]; [reflexivity|]. destruct (Byte.eqb d LF); [exact IH|]. rewrite quotes_cons by discriminate. exact IH.
  - unfold quotes in *. cbn [count_occ]. rewrite IH. reflexivity.
Qed.
Lemma quotes_doubled : forall c, Nat.even (quotes (doubled c)) = true.
Proof.
  induction c as [|x c IH]; [reflexivity|]. cbn [doubled]. destruct (eqbb x QUOTE) as [->|N].
  - unfold quotes in *. rewrite !count_occ_cons_eq by reflexivity. exact IH.
  - rewrite quotes_cons by exact N. exact IH.
Qed.
Lemma even_plus a b : Nat.even a = true -> Nat.even b = true -> Nat.even (a + b) = true.
Proof. intros A B. rewrite Nat.even_add, A, B. reflexivity. Qed.
Lemma quotes_row : forall row r, rowText row r -> Nat.even (quotes r) = true.
Proof.
  assert (C : forall c t, cellText c t -> Nat.even (quotes t) = true).
  { intros c t [x NQ _ _|x]; [rewrite quotes_none by exact NQ; reflexivity|].
    change (QUOTE :: doubled x ++ [QUOTE]) with ([QUOTE] ++ doubled x ++ [QUOTE]). rewrite !quotes_app.
    replace (quotes [QUOTE] + (quotes (doubled x) + quotes [QUOTE]))%nat with (quotes (doubled x) + 2)%nat by (change (quotes [QUOTE]) with 1%nat; lia).
    apply even_plus; [apply quotes_doubled|reflexivity]. }
  induction 1 as [c t H|c t row r H RT IH]; [exact (C _ _ H)|]. rewrite quotes_app, quotes_cons by discriminate. apply even_plus; [exact (C _ _ H)|exact IH].
Qed.
Lemma quotes_table : forall T u, tableText T u -> Nat.even (quotes u) = true.
Proof.
  induction 1 as [|T u H IH|row r T u RT NE H IH|row r RT NE].
  - reflexivity.
  - rewrite quotes_cons by discriminate. exact IH.
  - rewrite quotes_app, quotes_cons by discriminate. apply even_plus; [exact (quotes_row _ _ RT)|exact IH].
  - exact (quotes_row _ _ RT).
Qed.

Section Load.
  Variable Cert : Type.
  Variable sha256 : bytes -> bytes.
  Variable spki : Cert -> bytes.
  Variable rawOfPEM : bytes -> option bytes.
  Variable ctParse : bytes -> option Cert.
  Variable chains : list bytes -> list bytes -> bytes -> bool.
  Variable upper : bytes -> bytes.
  Variable parseUrl : bytes -> option (bytes * bytes).
  Local Notation loadText := (loadText Cert sha256 spki rawOfPEM ctParse chains upper parseUrl).

  Lemma report_ok s cols rows : readReport s = (Some cols, Some rows) -> forall r, In r rows -> length r = length cols.
  Proof using Type. intros E. apply report_spec in E. apply E. Qed.

  (** Loading a file with any contents ends with a table or with an error, never with a
      crash.  If it gives a table, then the contents say a table with the five columns and
      rows of equal length; any other file is refused. *)
  Theorem C79_accepts : forall order s, (forall l, Permutation (order l) l) ->
    (exists m, loadText order s = Ok m /\ exists cols rows, tableText (cols :: rows) (unix s) /\
       (forall r, In r rows -> length r = length cols) /\ forall n, In n required -> In n cols) \/
    (loadText order s = Err /\ ~ exists cols rows, tableText (cols :: rows) (unix s) /\
       (forall r, In r rows -> length r = length cols) /\ forall n, In n required -> In n cols).
  Proof using Type.
    intros order s PO. unfold CsvModel.loadText. destruct (readReport s) as [header rows] eqn:R.
    assert (NO : (header = None \/ rows = None) -> ~ exists cols rows, tableText (cols :: rows) (unix s) /\
       (forall r, In r rows -> length r = length cols) /\ forall n, In n required -> In n cols).
    { intros N [cols [rows' [T [W _]]]]. pose proof (proj2 (report_spec s cols rows') (conj T W)) as E. rewrite R in E. destruct N as [-> | ->]; discriminate E. }
    destruct header as [cols|]; [|right; split; [reflexivity|apply NO; left; reflexivity]].
    destruct (forallb (fun n => if in_dec (list_eq_dec Byte.byte_eq_dec) n cols then true else false) required) eqn:Q.
    - assert (RQ : forall n, In n required -> In n cols).
      { intros n I. rewrite forallb_forall in Q. specialize (Q n I). destruct (in_dec (list_eq_dec Byte.byte_eq_dec) n cols); [assumption|discriminate]. }
      destruct rows as [rows|].
      + left. apply report_spec in R. destruct R as [T W].
        destruct (C33_load_exact Cert sha256 spki rawOfPEM ctParse chains upper parseUrl order cols rows PO RQ W) as [m [E _]].
        exists m. split; [exact E|]. exists cols, rows. auto.
      + right. split; [|apply NO; right; reflexivity]. unfold loadFromDisk. match goal with |- (if ?b then _ else _) = _ => destruct b end; reflexivity.
    - assert (X : exists n, In n required /\ ~ In n cols).
      { apply Bool.not_true_iff_false in Q. rewrite forallb_forall in Q. clear -Q. revert Q. generalize required. induction l as [|n l IH]; intros Q; [exfalso; apply Q; intros x []|].
        destruct (in_dec (list_eq_dec Byte.byte_eq_dec) n cols) as [I|N]; [|exists n; split; [left; reflexivity|exact N]].
        destruct IH as [x [I1 N1]]; [|exists x; split; [right; exact I1|exact N1]].
        intros H. apply Q. intros x [<-|J]; [|apply H, J]. destruct (in_dec (list_eq_dec Byte.byte_eq_dec) n cols); [reflexivity|contradiction]. }
      destruct X as [n [I N]]. right. split; [exact (C33_missing_column Cert sha256 spki rawOfPEM ctParse chains upper parseUrl order cols rows n I N)|].
      intros [cols' [rows' [T [W RQ]]]]. pose proof (proj2 (report_spec s cols' rows') (conj T W)) as E. rewrite R in E.
      assert (cols = cols') as <- by congruence. exact (N (RQ n I)).
  Qed.

  (** From the text to the issuers: C33 for a file. *)
  Theorem C79_report : forall order s cols rows, (forall l, Permutation (order l) l) ->
    tableText (cols :: rows) (unix s) -> (forall r, In r rows -> length r = length cols) -> (forall n, In n required -> In n cols) ->
    let entries := entryOf rawOfPEM in
    let roots := map e_raw (flat_map (entries tyRoot cols) rows) in
    let cands := firsts sha256 upper [] (flat_map (entries tyInter cols) rows) in
    let accepted i e := In e cands /\ chains roots (map e_raw cands) (e_raw e) = true /\
                        exists c, ctParse (e_raw e) = Some c /\ issuerID (sha256 (spki c)) = i in
    exists m, loadText order s = Ok m /\
      forall i, (inProgram Cert m i = true <-> exists e, accepted i e) /\
        (forall u, In u (crlsOf (m_crls m) i) <-> exists e, accepted i e /\ In u (fst (decodeCrls parseUrl (e_full e) (e_part e)))).
  Proof using Type.
    intros order s cols rows PO T W RQ. unfold CsvModel.loadText. rewrite (proj2 (report_spec s cols rows) (conj T W)).
    destruct (C33_load_exact Cert sha256 spki rawOfPEM ctParse chains upper parseUrl order cols rows PO RQ W) as [m [E H]].
    exists m. split; [exact E|]. intros i. destruct (H i) as [H1 [H2 _]]. split; [exact H1|exact H2].
  Qed.

  (** A text with an odd number of quotes is refused, so one cut inside a quoted cell,
      before or after a pair of quotes. *)
  Theorem C79_odd_quotes : forall order s, (forall l, Permutation (order l) l) ->
    Nat.odd (quotes s) = true -> loadText order s = Err.
  Proof using Type.
    intros order s PO O. destruct (C79_accepts order s PO) as [[m [_ [cols [rows [T _]]]]]|[E _]]; [|exact E].
    exfalso. apply quotes_table in T. rewrite quotes_unix in T. unfold Nat.odd in O. rewrite T in O. discriminate O.
  Qed.
End Load.
Print Assumptions C79_accepts.
Print Assumptions C79_report.
Print Assumptions C79_odd_quotes.

(** ** Texts that are cut short *)

Lemma unix_prefix : forall p q, exists y, unix (p ++ q) = unix p ++ y.
Proof.
  induction p as [|c p IH]; intros q; [exists (unix q); reflexivity|]. destruct (IH q) as [y E]. cbn [app unix].
  destruct (Byte.eqb c CR).
  - destruct p as [|d p]; [cbn [app]; destruct q as [|d q]; [exists []; reflexivity|eexists; reflexivity]|]. cbn [app] in E |- *.
    destruct (Byte.eqb d LF); [exists y; exact E|]. exists y. rewrite E. reflexivity.
  - exists y. rewrite E. reflexivity.
Qed.

(** The first separator decides where a plain cell ends. *)
Lemma plain_ends : forall c c1 a b, ~ In COMMA c -> ~ In COMMA c1 -> c ++ a = c1 ++ COMMA :: b ->
  (c = c1 /\ a = COMMA :: b) \/ (a = [] /\ False) \/ (exists x a', a = x :: a' /\ x <> COMMA /\ exists z, c1 = c ++ x :: z).
Proof.
  induction c as [|x c IH]; intros c1 a b N N1 E.
  - cbn [app] in E. destruct c1 as [|y c1]; [left; auto|]. right. right. exists y, (c1 ++ COMMA :: b). split; [exact E|].
    split; [intros ->; apply N1; left; reflexivity|]. exists c1. reflexivity.
  - destruct c1 as [|y c1]; cbn [app] in E; [exfalso; apply N; left; congruence|].
    assert (x = y) as <- by congruence. assert (E' : c ++ a = c1 ++ COMMA :: b) by congruence.
    destruct (IH c1 a b (fun F => N (or_intror F)) (fun F => N1 (or_intror F)) E') as [[-> ->]|[[_ []]|[z [a' [-> [NZ [w ->]]]]]]].
    + left. auto.
    + right. right. exists z, a'. split; [reflexivity|]. split; [exact NZ|]. exists w. reflexivity.
Qed.
Lemma plain_prefix : forall c c1 a b, ~ In COMMA c1 -> (a = [] \/ exists a', a = COMMA :: a') -> c1 ++ b = c ++ a -> exists d, c = c1 ++ d.
Proof.
  induction c as [|x c IH]; intros c1 a b N A E.
  - cbn [app] in E. destruct c1 as [|y c1]; [exists []; reflexivity|]. destruct A as [->|[a' ->]]; [discriminate E|].
    exfalso. apply N. left. cbn [app] in E. congruence.
  - destruct c1 as [|y c1]; [exists (x :: c); reflexivity|]. cbn [app] in E. assert (x = y) as <- by congruence.
    destruct (IH c1 a b (fun F => N (or_intror F)) A ltac:(congruence)) as [d ->]. exists d. reflexivity.
Qed.
Lemma doubled_two : forall c c1 A B, doubled c ++ QUOTE :: A = doubled c1 ++ QUOTE :: B -> (forall t, A <> QUOTE :: t) ->
  (c = c1 /\ A = B) \/ exists c2 B', c = c1 ++ QUOTE :: c2 /\ B = QUOTE :: B'.
Proof.
  induction c as [|x c IH]; intros c1 A B E N.
  - cbn [doubled app] in E. destruct c1 as [|y c1]; cbn [doubled app] in E; [left; split; congruence|].
    destruct (eqbb y QUOTE) as [->|NY]; cbn [app] in E; [exfalso; apply (N (doubled c1 ++ QUOTE :: B)); congruence|exfalso; apply NY; congruence].
  - destruct c1 as [|y c1]; cbn [doubled app] in E.
    + destruct (eqbb x QUOTE) as [->|NX]; cbn [app] in E; [|exfalso; apply NX; congruence]. right. exists c. eexists. split; [reflexivity|].
      assert (X : QUOTE :: doubled c ++ QUOTE :: A = B) by congruence. symmetry. exact X.
    + assert (x = y /\ doubled c ++ QUOTE :: A = doubled c1 ++ QUOTE :: B) as [<- E'].
      { destruct (eqbb x QUOTE) as [->|NX]; destruct (eqbb y QUOTE) as [->|NY]; cbn [app] in E.
        - split; [reflexivity|congruence].
        - exfalso. apply NY. congruence.
        - exfalso. apply NX. congruence.
        - split; congruence. }
      destruct (IH c1 A B E' N) as [[-> ->]|[c2 [B' [-> ->]]]]; [left; auto|right; exists c2, B'; auto].
Qed.

(** What begins with the text of a row and goes on like a table can not be the beginning of
    the text of another row, except that this is cut short. *)
Lemma cut_row : forall row1 r1, rowText row1 r1 -> forall row r tail x, rowText row r -> r = r1 ++ tail ++ x ->
  (tail = [] \/ exists w, tail = LF :: w) -> tail = [] /\ shortened row1 row.
Proof.
  assert (HD : forall row r, rowText row r -> exists c t a more, row = c :: more /\ r = t ++ a /\ cellText c t /\
            ((a = [] /\ more = []) \/ exists r', a = COMMA :: r' /\ rowText more r')).
  { intros row r [c t CT|c t more r' CT RT]; [exists c, t, [], []; rewrite app_nil_r; auto 10|].
    exists c, t, (COMMA :: r'), more. split; [reflexivity|]. split; [reflexivity|]. split; [exact CT|]. right. exists r'. auto. }
  assert (SH : forall c1 d more, shortened [c1] ((c1 ++ d) :: more)) by (intros c1 d more; unfold shortened; exists [], c1, d, more; auto).
  assert (SH0 : forall c1 more, shortened [c1] (c1 :: more)) by (intros c1 more; rewrite <- (app_nil_r c1) at 2; apply SH).
  assert (SL : forall c a b, shortened a b -> shortened (c :: a) (c :: b)).
  { intros c a b [pre [x [d [more [-> ->]]]]]. unfold shortened. exists (c :: pre), x, d, more. auto. }
  induction 1 as [c1 t1 CT1|c1 t1 row1 r1 CT1 RT1 IH]; intros row r tail x RT E T; destruct (HD _ _ RT) as [c [t [a [more [-> [-> [CT A]]]]]]].
  - assert (AN : forall y, a <> QUOTE :: y) by (intros y; destruct A as [[-> _]|[r' [-> _]]]; discriminate).
    destruct CT1 as [c1 NQ1 NC1 NL1|c1].
    + destruct CT as [c NQ NC NL|c].
      * destruct T as [->|[w ->]].
        -- split; [reflexivity|]. cbn [app] in E. destruct (plain_prefix c c1 a x NC1) as [d ->].
           ++ destruct A as [[-> _]|[r' [-> _]]]; [left; reflexivity|right; eauto].
           ++ congruence.
           ++ apply SH.
        -- exfalso. cbn [app] in E. assert (K : forall c c1, ~ In LF c -> ~ In COMMA c1 -> c ++ a = c1 ++ LF :: w ++ x -> False).
           { clear -A. induction c as [|y c IHc]; intros c1 NL N1 E.
             - cbn [app] in E. destruct A as [[-> _]|[r' [-> _]]]; destruct c1 as [|z c1]; try discriminate E. apply N1. left. cbn [app] in E. congruence.
             - destruct c1 as [|z c1]; cbn [app] in E; [apply NL; left; congruence|]. apply (IHc c1 (fun F => NL (or_intror F)) (fun F => N1 (or_intror F))). congruence. }
           exact (K c c1 NL NC1 E).
      * cbn [app] in E. destruct c1 as [|y c1]; [|exfalso; apply NQ1; left; cbn [app] in E; congruence].
        cbn [app] in E. destruct T as [->|[w ->]]; [|discriminate E]. split; [reflexivity|]. apply (SH [] c more).
    + destruct CT as [c NQ NC NL|c].
      * exfalso. destruct c as [|y c]; cbn [app] in E; [exact (AN _ E)|]. apply NQ. left. congruence.
      * cbn [app] in E. rewrite <- !app_assoc in E. cbn [app] in E.
        assert (E' : doubled c ++ QUOTE :: a = doubled c1 ++ QUOTE :: tail ++ x) by congruence.
        destruct (doubled_two _ _ _ _ E' AN) as [[-> EA]|[c2 [B' [-> EB]]]].
        -- destruct T as [->|[w ->]]; [split; [reflexivity|apply SH0]|]. exfalso. destruct A as [[-> _]|[r' [-> _]]]; discriminate EA.
        -- destruct T as [->|[w ->]]; [|discriminate EB]. split; [reflexivity|apply SH].
  - rewrite <- !app_assoc in E. cbn [app] in E.
    assert (AN : forall y, a <> QUOTE :: y) by (intros y; destruct A as [[-> _]|[r' [-> _]]]; discriminate).
    assert (G : c = c1 -> a = COMMA :: r1 ++ tail ++ x -> tail = [] /\ shortened (c1 :: row1) (c :: more)).
    { intros -> EA. destruct A as [[-> _]|[r' [-> RT']]]; [discriminate EA|].
      destruct (IH more r' tail x RT' ltac:(congruence) T) as [-> S]. split; [reflexivity|apply SL, S]. }
    destruct CT1 as [c1 NQ1 NC1 NL1|c1]; destruct CT as [c NQ NC NL|c].
    + destruct (plain_ends c c1 a (r1 ++ tail ++ x) NC NC1 E) as [[H1 H2]|[[_ []]|[z [a' [-> [NZ [w H]]]]]]]; [apply G; assumption|].
      exfalso. destruct A as [[A _]|[r' [A _]]]; [discriminate A|congruence].
    + exfalso. cbn [app] in E. destruct c1 as [|y c1]; cbn [app] in E; [discriminate E|]. apply NQ1. left. congruence.
    + exfalso. destruct c as [|y c]; cbn [app] in E; [exact (AN _ E)|]. apply NQ. left. congruence.
    + cbn [app] in E. rewrite <- !app_assoc in E. cbn [app] in E.
      assert (E' : doubled c ++ QUOTE :: a = doubled c1 ++ QUOTE :: COMMA :: r1 ++ tail ++ x) by congruence.
      destruct (doubled_two _ _ _ _ E' AN) as [[-> EA]|[c2 [B' [_ EB]]]]; [apply G; [reflexivity|exact EA]|discriminate EB].
Qed.

Lemma cut_in_row row r v x T T0 : rowText row r -> r = v ++ x -> tableText T v -> cutTable (row :: T0) T.
Proof.
  intros RT E H. destruct v as [|y v]; [apply no_text in H; subst T; constructor|].
  assert (ST : forall z, y :: v <> LF :: z) by (intros z F; apply (row_start _ _ RT (z ++ x)); rewrite E, F; reflexivity).
  remember (y :: v) as u eqn:Eu. destruct H as [|T u H|row1 r1 T u RT1 NE H|row1 r1 RT1 NE].
  - constructor.
  - exfalso. apply (ST u). reflexivity.
  - destruct (cut_row row1 r1 RT1 row r (LF :: u) x RT) as [F _]; [rewrite E; rewrite <- app_assoc; reflexivity|right; eauto|discriminate F].
  - destruct (cut_row row1 r1 RT1 row r [] x RT) as [_ S]; [exact E|left; reflexivity|]. constructor. exact S.
Qed.

Lemma cut_table : forall T u, tableText T u -> forall v y T', u = v ++ y -> tableText T' v -> cutTable T T'.
Proof.
  induction 1 as [|T u H IH|row r T u RT NE H IH|row r RT NE]; intros v y T' E H'.
  - symmetry in E. apply app_eq_nil in E. destruct E as [-> ->]. apply no_text in H'. subst. constructor.
  - destruct v as [|z v]; [apply no_text in H'; subst; constructor|]. cbn [app] in E. assert (z = LF) as -> by congruence.
    apply no_line in H'. apply (IH v y T'); [congruence|exact H'].
  - assert (X : (exists z, r = v ++ z) \/ exists v', v = r ++ LF :: v' /\ u = v' ++ y).
    { clear -E. revert v E. induction r as [|c r IHr]; intros v E; cbn [app] in E.
      - destruct v as [|z v]; [left; exists []; reflexivity|]. right. cbn [app] in E. assert (z = LF) as -> by congruence. exists v. split; [reflexivity|congruence].
      - destruct v as [|z v]; [left; exists (c :: r); reflexivity|]. cbn [app] in E. assert (z = c) as -> by congruence.
        destruct (IHr v ltac:(congruence)) as [[w ->]|[v' [-> ->]]]; [left; exists w; reflexivity|right; exists v'; auto]. }
    destruct X as [[z Ez]|[v' [-> ->]]].
    + exact (cut_in_row _ _ _ _ _ _ RT Ez H').
    + destruct (peel _ _ _ _ RT NE H') as [T'' [-> H'']]. constructor. apply (IH v' y T'' eq_refl H'').
  - exact (cut_in_row _ _ _ _ _ _ RT E H').
Qed.

(** If a report is cut short anywhere and what is left is read, then it has the rows of the
    whole report up to some point; only its last row can differ, and then the text was cut
    inside that row's last cell. *)
Theorem C79_cut_short : forall p q cols rows cols' rows',
  readReport (p ++ q) = (Some cols, Some rows) -> readReport p = (Some cols', Some rows') ->
  cutTable (cols :: rows) (cols' :: rows').
Proof.
  intros p q cols rows cols' rows' E E'. apply report_spec in E. apply report_spec in E'. destruct E as [T _]. destruct E' as [T' _].
  destruct (unix_prefix p q) as [y Ey]. exact (cut_table _ _ T _ _ _ Ey T').
Qed.
Print Assumptions C79_cut_short.

(** ** A report *)

Definition zrow (pem ty rv full part : bytes) : list (bool * bytes) * bool := ([wp (B "?"); wq pem; wp ty; wq rv; wp full; wq part], true).
Definition zhead : list (bool * bytes) * bool := (map wq ycols, true).
Definition zr1 := zrow (B "R1") tyRoot (B "Not Revoked") [] [].
Definition zr2 := zrow (B "a1" ++ [CR; LF]) tyInter [] (B "http://full") [].
Definition zr3 := zrow (B "b1") tyInter (B "Not Revoked") [] (B "[""http://p1"",""http://p2""]").
Definition zreport : bytes := tableOut [zhead; zr1; zr2; zr3].
Definition zload (s : bytes) : res (moz bytes) :=
  loadText bytes (fun x => x) (firstn 1) (fun p => match p with [] => None | _ => Some p end) Some
    (fun _ _ _ => true) (fun x => x) yurl (fun l => l) s.
(** The issuers [a] and [b] and their CRLs. *)
Definition zsees (s : bytes) : option (bool * list bytes * (bool * list bytes)) :=
  match zload s with
  | Ok m => Some (inProgram bytes m (issuerID (B "a")), crlsOf (m_crls m) (issuerID (B "a")),
                  (inProgram bytes m (issuerID (B "b")), crlsOf (m_crls m) (issuerID (B "b"))))
  | _ => None
  end.

Example C79_ex_report : zsees zreport = Some (true, [B "http://full"], (true, [B "http://p1"; B "http://p2"])) /\
  exists rows, readReport zreport = (Some ycols, Some rows) /\ length rows = 3%nat.
Proof. split; [vm_compute; reflexivity|]. eexists. split; [vm_compute; reflexivity|]. vm_compute. reflexivity. Qed.

(** Refused: a quote in a plain cell, a cell that goes on after its quotes, a row with a cell
    too few, one with a cell too many, quotes that are not closed, an empty file, a byte
    order mark before a quoted header. *)
Example C79_ex_refused :
  map zsees [B "a""b" ++ [LF] ++ zreport; B """a""b" ++ [LF] ++ zreport; zreport ++ B "a"; zreport ++ B "1,2,3,4,5,6,7";
             firstn (length zreport - 4) zreport; []; [xef; xbb; xbf] ++ zreport] = repeat None 7 /\
  Nat.odd (quotes (zreport ++ [QUOTE])) = true /\ zsees (zreport ++ [LF; CR; LF; CR]) = zsees zreport.
Proof. split; [vm_compute; reflexivity|]. split; vm_compute; reflexivity. Qed.

(** A report that was cut at the end of a line is used without complaint: an issuer is
    missing, as if it were not in the report. *)
Theorem C79_cut_at_line_refuted : exists p q us vs, zsees (p ++ q) = Some (true, us, (true, vs)) /\ q <> [] /\
  zsees p = Some (true, us, (false, [])).
Proof.
  exists (tableOut [zhead; zr1; zr2]), (tableOut [zr3]), [B "http://full"], [B "http://p1"; B "http://p2"].
  split; [vm_compute; reflexivity|]. split; [vm_compute; discriminate|]. vm_compute. reflexivity.
Qed.
Print Assumptions C79_cut_at_line_refuted.

(** One that was cut between two quotes of the last cell is used too: the issuer is there,
    and one of its CRLs is missing. *)
Theorem C79_cut_in_cell_refuted : exists p q us vs v, zsees (p ++ q) = Some (true, us, (true, vs ++ [v])) /\
  zsees p = Some (true, us, (true, vs)).
Proof.
  exists (firstn (length zreport - 16) zreport), (skipn (length zreport - 16) zreport), [B "http://full"], [B "http://p1"], (B "http://p2").
  split; vm_compute; reflexivity.
Qed.
Print Assumptions C79_cut_in_cell_refuted.

(** A cut report that is read, as in [C79_cut_short]: both kinds. *)
Example C79_ex_cut : cutTable [[B "a"; B "b"]; [B "c"; B "de"]] [[B "a"; B "b"]; [B "c"; B "d"]] /\
  readReport (B "a,b" ++ [LF] ++ B "c,de") = (Some [B "a"; B "b"], Some [[B "c"; B "de"]]) /\
  readReport (B "a,b" ++ [LF] ++ B "c,d") = (Some [B "a"; B "b"], Some [[B "c"; B "d"]]) /\
  readReport (B "a,b" ++ [LF] ++ B "c,""d") = (Some [B "a"; B "b"], None).
Proof.
  split; [|vm_compute; auto]. constructor. constructor. exists [B "c"], (B "d"), (B "e"), []. split; reflexivity.
Qed.
