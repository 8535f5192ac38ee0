(** Property C91: error texts name the line, and the element that was there instead of the one expected. *)
From Coq Require Import String.
From Coq Require Import ZArith List Bool Lia ZifyBool ZifyNat.
From Verif Require Import Base Utf8 NameTables Lexer Decoder DecoderSpec DecoderProofs PropertiesDecoder ByteDecoder ByteRuns BytePlace PropertiesPosition DurationSpec Printer PropertiesHelpers GoType Schema TypeInfo Simple ValueSpec Unmarshal Io UnmarshalProofs PropertiesUnmarshal LeafProofs RoundTripSpec RoundTripTest PropertiesDocument PropertiesRoundTrip Infoset PropertiesInfoset.
Import ListNotations.
Open Scope Z_scope.

(** *** The model *)
(** xml/xml.go:36-38 SyntaxError.Error. Itoa is for numbers that are not negative: lines are counted from one. *)
Definition syntax_text (msg : bytes) (line : Z) : bytes := str "XML syntax error on line " ++ Printer.itoa line ++ str ": " ++ msg.
(** xml/read.go:447-457: the texts of the two UnmarshalErrors for an element with another name than the type's; read.go:166 Error returns the text. *)
Definition expected_text (want have : name) : bytes :=
  if negb (beq (local want) []) && negb (beq (local want) (local have)) then str "expected element type <" ++ local want ++ str "> but have <" ++ local have ++ str ">"
  else str "expected element <" ++ local want ++ str "> in namespace " ++ space want ++ str " but have " ++ (if beq (space have) [] then str "no namespace" else space have).

(** *** Proofs *)
(** The number at the beginning of a text. *)
Fixpoint leading (s : bytes) : bytes := match s with c :: t => if (48 <=? c) && (c <=? 57) then c :: leading t else [] | [] => [] end.
Lemma leading_digits : forall d t, digits d -> leading (d ++ str ": " ++ t) = d.
Proof. intros d t D. induction D as [|c d H D IH]; [reflexivity|]. cbn [app leading]. replace ((48 <=? c) && (c <=? 57)) with true by lia. rewrite IH. reflexivity. Qed.
Lemma line_pos : forall p, 1 <= line_of p.
Proof. intros p. rewrite C61_line. lia. Qed.
(** C91. When Token or RawToken fails with a syntax error, after whatever calls and with whatever options, the number in the text of the error is that of the line: one more than the line ends in the input so far. *)
Theorem C91_line : forall r d k t msg n d', after r d -> allowed k d -> perform k d = Some ((t, Some (LSyntax msg n)), d') ->
  exists num, syntax_text msg n = str "XML syntax error on line " ++ num ++ str ": " ++ msg /\ digits num /\ num <> [] /\ dec_val num = 1 + Z.of_nat (count_occ Z.eq_dec (consumed r d') 10).
Proof.
  intros r d k t msg n d' A K H. destruct (C61_places r d k A K) as (t' & e & d2 & H' & _ & _ & _ & L & _). rewrite H in H'. injection H' as <- <- <-. rewrite (L msg n eq_refl), <- C61_line.
  pose proof (line_pos (consumed r d')) as P. destruct (dec_spec (line_of (consumed r d')) ltac:(lia)) as (D & V & N). exists (dec (line_of (consumed r d'))). split; [reflexivity|]. split; [exact D|]. split; [exact N|exact V].
Qed.
Print Assumptions C91_line.
(** C91. Different syntax errors have different texts. *)
Theorem C91_text : forall m m' n n', 0 <= n -> 0 <= n' -> syntax_text m n = syntax_text m' n' -> m = m' /\ n = n'.
Proof.
  intros m m' n n' P P' H. unfold syntax_text in H. apply app_inv_head in H. destruct (dec_spec n P) as (D & V & _). destruct (dec_spec n' P') as (D' & V' & _). change (Printer.itoa n) with (dec n) in H. change (Printer.itoa n') with (dec n') in H.
  assert (E : dec n = dec n') by (rewrite <- (leading_digits (dec n) m D), H; apply leading_digits; exact D'). rewrite E in H. apply app_inv_head in H. apply app_inv_head in H. split; [exact H|congruence].
Qed.
Print Assumptions C91_text.
(** C91. Unmarshal of a document into a struct whose type has a name fails if the first element has another one, whatever else there is before and after in the document, and the error says so. *)
Definition no_start (t : token) : Prop := match t with TStart _ _ => False | _ => True end.
Lemma start_first : forall ts d d1, calls d ts d1 -> Forall no_start ts -> forall n a d', next_token d1 = TokOk (TStart n a) d' -> forall j, (length ts < j)%nat -> find_start j d = Ok (n, a, d').
Proof.
  induction 1 as [d|d t d1 ts d' N C IH]; intros F n a d2 N2 [|j] L; try (cbn in L; lia); cbn [find_start]; [rewrite N2; reflexivity|]. inversion F; subst. cbn [length] in L. rewrite N. destruct t; try contradiction; apply (IH H2 n a d2 N2); lia.
Qed.
Theorem C91_element : forall F env ek s ti x v inp ts n a d1 d', type_info ek env s = Ok ti -> ti_xmlname ti = Some x ->
  calls (new_decoder inp) ts d1 -> Forall no_start ts -> next_token d1 = TokOk (TStart n a) d' ->
  (fi_name x <> [] /\ local n <> fi_name x -> decode F env ek (enough inp) (TStruct s) v inp = Err (UExpected (mkname (fi_xmlns x) (fi_name x)) n) /\
     expected_text (mkname (fi_xmlns x) (fi_name x)) n = str "expected element type <" ++ fi_name x ++ str "> but have <" ++ local n ++ str ">") /\
  (fi_name x = [] \/ local n = fi_name x -> fi_xmlns x <> [] /\ space n <> fi_xmlns x -> decode F env ek (enough inp) (TStruct s) v inp = Err (UExpected (mkname (fi_xmlns x) (fi_name x)) n) /\
     exists have, expected_text (mkname (fi_xmlns x) (fi_name x)) n = str "expected element <" ++ fi_name x ++ str "> in namespace " ++ fi_xmlns x ++ str " but have " ++ have /\ (have = space n \/ space n = [] /\ have = str "no namespace")).
Proof.
  intros F env ek s ti x v inp ts n a d1 d' TI XN C NS N.
  assert (L : (length ts < enough inp)%nat).
  { destruct (calls_bound _ _ _ C) as [B|S]; [unfold left_to_read, enough in *; cbn in B; lia|]. rewrite (stray_hangs _ S) in N. discriminate. }
  assert (D : negb (beq (fi_name x) []) && negb (beq (fi_name x) (local n)) || negb (beq (fi_xmlns x) []) && negb (beq (fi_xmlns x) (space n)) = true -> decode F env ek (enough inp) (TStruct s) v inp = Err (UExpected (mkname (fi_xmlns x) (fi_name x)) n)).
  { intros H. unfold decode. rewrite (start_first _ _ _ C NS _ _ _ N _ L). cbn [bind]. unfold max_depth. replace (Z.to_nat 10000) with (S (Z.to_nat 9999)) by lia. cbn [unmarshal unmarshal_body]. rewrite TI. cbn [bind]. rewrite XN, H. reflexivity. }
  assert (NB : forall p q : bytes, p <> q -> beq p q = false) by (intros p q X; destruct (beq p q) eqn:B; [apply beq_eq in B; contradiction|reflexivity]).
  assert (YB : forall p : bytes, beq p p = true) by (intros; apply beq_eq; reflexivity). split.
  - intros (X & Y). assert (Y' : fi_name x <> local n) by congruence. rewrite (NB _ _ X), (NB _ _ Y') in D. cbn [negb andb orb] in D. split; [exact (D eq_refl)|]. unfold expected_text. cbn [local space]. rewrite (NB _ _ X), (NB _ _ Y'). reflexivity.
  - intros Z (X & Y). assert (Y' : fi_xmlns x <> space n) by congruence. rewrite (NB _ _ X), (NB _ _ Y') in D. cbn [negb andb] in D. rewrite orb_true_r in D. split; [exact (D eq_refl)|]. unfold expected_text. cbn [local space].
    assert (E : negb (beq (fi_name x) []) && negb (beq (fi_name x) (local n)) = false) by (destruct Z as [->| ->]; rewrite YB; [reflexivity|apply andb_false_r]). rewrite E. eexists. split; [reflexivity|]. destruct (beq (space n) []) eqn:B; [right; apply beq_eq in B; auto|left; reflexivity].
Qed.
Print Assumptions C91_element.
(** C91 for MPDFromBytes: a document whose first element is not called MPD, in whatever namespace. *)
Theorem C91_mpd : forall F inp ts n a d1 d', calls (new_decoder inp) ts d1 -> Forall no_start ts -> next_token d1 = TokOk (TStart n a) d' -> local n <> str "MPD" ->
  exists want, read_mpd F inp = Err (UExpected want n) /\ expected_text want n = str "expected element type <MPD> but have <" ++ local n ++ str ">".
Proof.
  intros F inp ts n a d1 d' C NS N NE. destruct (type_info embed_depth mpd_types MPD) as [ti| | |] eqn:TI; try (exfalso; revert TI; vm_compute; discriminate).
  assert (X : exists x, ti_xmlname ti = Some x /\ fi_name x = str "MPD").
  { assert (H : match type_info embed_depth mpd_types MPD with Ok ti => option_map fi_name (ti_xmlname ti) | _ => None end = Some (str "MPD")) by (vm_compute; reflexivity). rewrite TI in H. destruct (ti_xmlname ti) as [x|]; [|discriminate]. exists x. split; [reflexivity|]. cbn [option_map] in H. congruence. }
  destruct X as (x & XN & NM). destruct (C91_element F mpd_types embed_depth MPD ti x (zero embed_depth mpd_types (TStruct MPD)) inp ts n a d1 d' TI XN C NS N) as (H & _). rewrite NM in H. destruct H as (H1 & H2); [split; [discriminate|exact NE]|]. exists (mkname (fi_xmlns x) (str "MPD")). split; [exact H1|exact H2].
Qed.
Print Assumptions C91_mpd.
Definition wrong_root : bytes := str "<?xml version=""1.0""?><!-- a --><Manifest><MPD/></Manifest>".
Example C91_ex : (exists ts d1 a d', calls (new_decoder wrong_root) ts d1 /\ ts <> [] /\ Forall no_start ts /\ next_token d1 = TokOk (TStart (mkname [] (str "Manifest")) a) d') /\
  (exists want, read_mpd fl1 wrong_root = Err (UExpected want (mkname [] (str "Manifest"))) /\ expected_text want (mkname [] (str "Manifest")) = str "expected element type <MPD> but have <Manifest>") /\
  (exists d msg, Token std (PropertiesPosition.text (str "<a" ++ nl ++ str "b" ++ nl ++ str ">")) = Some ((None, Some (LSyntax msg 3)), d) /\ syntax_text msg 3 = str "XML syntax error on line 3: attribute name without = in element").
Proof.
  split.
  { exists (firstn 2 (tokens_of wrong_root)), (snd (PropertiesDecoder.run 2 (new_decoder wrong_root))). do 2 eexists. split; [|split; [vm_compute; discriminate|split; [vm_compute; repeat constructor|vm_compute; reflexivity]]]. pose proof (run_calls 2 (new_decoder wrong_root)) as C. exact C. }
  split; [eexists; split; [vm_compute; reflexivity|vm_compute; reflexivity]|]. do 2 eexists. split; [vm_compute; reflexivity|vm_compute; reflexivity].
Qed.
