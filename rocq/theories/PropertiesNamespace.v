(** Properties C34, C35, C36: the namespaces of written start tags when they are read back. *)
From Coq Require Import String.
From Coq Require Import ZArith List Bool Lia ZifyBool ZifyNat.
From Verif Require Import Base Utf8 NameTables Lexer Escape EscapeSpec EscapeProofs NameProofs Decoder DecoderSpec DecoderProofs Printer Writer WriterProofs PrinterProofs EncoderSpec EncoderProofs PropertiesEncoder
  TagText NsSpec NsProofs NsHistory.
From Verif Require PropertiesDecoder CdataProofs.
Import ListNotations.
Open Scope Z_scope.

(** ** C34 *)
Lemma merge_decls : forall ws s, Forall decls_ok ws -> Forall decls_ok (merge s ws).
Proof.
  induction ws as [|w ws IH]; intros s F; cbn [merge]; [destruct s; repeat constructor|]. inversion F; subst. destruct w; try (apply IH; auto; fail); destruct s; repeat (constructor; auto); auto.
Qed.
(** C34. The text of any session of accepted calls, in which every start tag fits where it stands under some assignment
    [pol] of namespaces to prefixes, is read back as the tokens of the calls: names in their namespaces, attributes in
    order with their values, declarations given by hand still there, and white space from indentation. *)
Theorem C34_round_trip : forall o inh pol i h e, willing o -> session o inh pol i h e ->
  exists ts d, calls (new_decoder (total e)) (merge [] ts) d /\ d_inp d = [] /\ resembles inh (layout i) h ts.
Proof.
  intros o inh pol i h e W S. destruct (session_ok o inh pol i h e W S) as (ps & ts & open & TE & FP & I & FD & L & RS & _).
  assert (WR : written (d_inp (new_decoder (total e))) (d_close (new_decoder (total e))) (merge [] (map snd ps)) [] None).
  { cbn. rewrite TE. apply (pieces_read ps [] []); auto. apply chars_nil. }
  destruct (read_all (merge [] (map snd ps)) (new_decoder (total e)) [] [] None (merge [] ts) open (rel_new _) WR) as (d & C & D & _ & _); [apply interp_merge; auto|apply merge_decls; auto|].
  exists ts, d. auto.
Qed.
Print Assumptions C34_round_trip.

(** The tags open at the end of a text are determined by the text. *)
Lemma written_det : forall inp c ws inp' c', written inp c ws inp' c' -> inp' = [] -> c' = None -> forall ws', written inp c ws' [] None -> ws' = ws.
Proof.
  induction 1 as [inp c|inp n ts inp' c' H IH|inp t c inp1 ts inp' c' R H IH]; intros E1 E2 ws' W'; subst.
  - inversion W' as [| |? ? ? ? ? ? ? R]; subst; auto. discriminate R.
  - inversion W'; subst. f_equal. auto.
  - inversion W' as [| |? t' c0 inp2 ? ? ? R' W2]; subst; [discriminate R|]. rewrite R in R'. injection R' as <- <- <-. f_equal. auto.
Qed.
Lemma interp_det : forall o ws ts o1, interp o ws ts o1 -> forall ts' o2, interp o ws ts' o2 -> ts = ts' /\ o1 = o2.
Proof.
  induction 1 as [o|o n a ws ts o' H IH|o n a ws ts o' H IH|o t ws ts o' N1 N2 H IH]; intros ts' o2 I2; inversion I2; subst; auto;
    try (exfalso; match goal with X : forall n a, TStart ?p ?q <> TStart n a |- _ => apply (X p q); reflexivity | X : forall n, TEnd ?p <> TEnd n |- _ => apply (X p); reflexivity end);
    match goal with X : interp _ _ _ o2 |- _ => destruct (IH _ _ X) as [-> ->]; auto end.
Qed.
Theorem C34_open_unique : forall text o1 o2, open_in text o1 -> open_in text o2 -> o1 = o2.
Proof.
  intros text o1 o2 (ws & ts & W & I) (ws' & ts' & W' & I'). rewrite (written_det _ _ _ _ _ W eq_refl eq_refl _ W') in I'. eapply interp_det; eauto.
Qed.
Print Assumptions C34_open_unique.
(** C34 for one start tag: it is accepted; the text added is white space and one tag, which reads with the given names,
    every prefix of it being declared in it or around it. *)
Definition declared_prefix (open : list tag) (n : name) : Prop :=
  space n = [] \/ space n = str "xml" \/ space n = str "xmlns" \/ exists u, resolve open (space n) = Some u.
Theorem C34_start : forall o inh pol i h e open n a, willing o -> session o inh pol i h e -> open_in (total e) open -> fits inh pol open n a ->
  exists e' w y m b, enc_token o (TStart n a) e = Some (e', Done) /\ total e' = total e ++ w ++ y /\ layout i w /\
    (forall rest, raw_token (y ++ rest) = ROk (TStart m b, None) rest) /\
    tag_name inh n (expand ((m, b) :: open) true m) /\ plain_attrs a (map (expand_attr ((m, b) :: open)) b) /\ (tidy n a -> NoDup (map aname b)).
Proof.
  intros o inh pol i h e open n a W S OP FT. destruct (session_ok o inh pol i h e W S) as (ps & ts & open' & TE & FP & I & FD & L & RS & F & T & Q & LP & LI).
  assert (open' = open) as -> by (eapply C34_open_unique; [|exact OP]; eapply state_open; eauto; eapply session_ok; eauto).
  destruct (token_step o (TStart n a) e W F T Q) as (e1 & r1 & R1 & F1 & T1 & P1 & X1 & D1). cbn [encode_token] in *.
  destruct (start_ns inh pol n a (en_p e) open Q L FT) as (cs & s' & el & ras & WW & E & EL & Q' & LY & CT & WH & WN & L' & PN & PA & TD). rewrite E in *. cbn [fst snd] in *.
  destruct (link_head inh pol _ _ _ ltac:(rewrite <- EL; exact L')) as (ras' & open' & OE & _ & RN & RA & SN & _). injection OE as <- <-.
  assert (r1 = Done) as -> by (apply D1; exists tt; reflexivity). exists e1, WW, (start_text (mkname (el_prefix el) (el_name el)) ras), (mkname (el_prefix el) (el_name el)), ras.
  split; [exact R1|]. split; [rewrite X1, CT; reflexivity|]. split; [exact (layout_W i _ _ WW LP LI WH WN)|]. split; [intro rest; apply start_reads; auto|]. split; [exact PN|]. split; [exact PA|exact TD].
Qed.
Print Assumptions C34_start.

(** ** C36 *)
(** C36. No attribute name is repeated in a start tag, under the same conditions, if the attributes given have different
    names, ask for no prefix and have the declarations first. *)
Theorem C36_once : forall o inh pol i h e open n a, willing o -> session o inh pol i h e -> open_in (total e) open -> fits inh pol open n a -> tidy n a ->
  exists e' w y m b, enc_token o (TStart n a) e = Some (e', Done) /\ total e' = total e ++ w ++ y /\ raw_token y = ROk (TStart m b, None) [] /\ NoDup (map aname b).
Proof.
  intros o inh pol i h e open n a W S OP FT TD. destruct (C34_start o inh pol i h e open n a W S OP FT) as (e' & w & y & m & b & R & TT & _ & RT & _ & _ & ND).
  exists e', w, y, m, b. split; [exact R|]. split; [exact TT|]. split; [rewrite <- (app_nil_r y) at 1; apply RT|auto].
Qed.
Print Assumptions C36_once.

(** ** C35 *)
Lemma unprefixed_link : forall pol es open u, link false pol es open -> unprefixed_in open u -> existsb (fun x => beq (el_prefix x) [] && beq (el_ns x) u) es = true.
Proof.
  intros pol es open u L (inner & m & a & outer & E & M & R). revert inner E. induction L as [|e es n ras open L IH NE RN RA EX NX SA TB]; intros inner E; [destruct inner; discriminate|].
  cbn [existsb]. destruct inner as [|t inner]; cbn in E; injection E as E1 E2; subst.
  - subst. cbn [space] in M. rewrite M in *. destruct EX as (w & EX & [->|[X _]]); [|discriminate]. rewrite exp_unprefixed in EX by auto. rewrite R in EX. injection EX as ->. rewrite !beq_refl. reflexivity.
  - rewrite (IH inner eq_refl). apply orb_true_r.
Qed.
(** An element without attributes and without a prefix asked for. *)
Definition bare (l : bytes) : Prop := simple l /\ l <> str "xmlns".
Lemma bare_start : forall pol n s open, link false pol (p_elems s) open -> bare (local n) -> space n = [] \/ unprefixed_in open (space n) ->
  exists cs s' W, write_start n [] s = (cs, s', Ok tt) /\ concat cs = W ++ start_text (mkname [] (local n)) [] /\ (white (p_prefix s) -> white (p_indent s) -> white W) /\ (p_prefix s = [] -> p_indent s = [] -> W = []).
Proof.
  intros pol n s open L [SL NX] C. pose proof (simple_nonempty _ SL) as LN. destruct SL as [SN SC]. unfold write_start. replace (beq (local n) []) with false by (symmetry; now apply beq_neq).
  assert (NE : new_element n = mkel (space n) [] (local n) [] []) by (unfold new_element; rewrite (simple_split _ SC); reflexivity). rewrite NE.
  unfold mbind at 1. unfold mget at 1. unfold mbind at 1. unfold mput at 1. set (e0 := mkel (space n) [] (local n) [] []). set (s0 := with_elems (e0 :: p_elems s) s).
  destruct (indent_white 1 s0) as (ci & s2 & WI & EL2 & SQ2 & LY2 & WH & WN).
  assert (SD : exists b, space_defined (p_elems s) e0 [] s0 = ([], s0, Ok b) /\ (space n <> [] -> b = true)).
  { unfold space_defined. cbn [el_ns el_prefix e0]. destruct (beq (space n) []) eqn:E; [exists false; split; [reflexivity|]; intro; apply beq_eq in E; congruence|]. apply beq_neq in E. destruct C as [C|C]; [congruence|]. cbn [existsb]. change (beq [] []) with true. cbn [negb].
    rewrite (unprefixed_link pol _ _ _ L C). exists true. split; [reflexivity|auto]. }
  destruct SD as (b & SD & BT). unfold mbind at 1. rewrite SD. unfold mbind at 1. rewrite WI. unfold mbind at 1. unfold emit at 1. unfold mbind at 1. unfold mget at 1.
  assert (TP : top_prefix s2 = []) by (unfold top_prefix; rewrite EL2; reflexivity). rewrite TP. cbn [beq negb]. cbn [el_ns el_name e0].
  assert (NAME : (if negb (beq (space n) []) then emit ([local n] ++ (if b then [] else [str " xmlns="""] ++ esc_writes EAttr (space n) ++ [[34]])) else emit [local n]) s2 = ([local n], s2, Ok tt)).
  { destruct (beq (space n) []) eqn:E; [reflexivity|]. apply beq_neq in E. rewrite (BT E). reflexivity. }
  change (beq [] []) with true. cbn [negb]. unfold mbind at 1. rewrite NAME. cbn [write_attrs]. unfold mbind, mret, emit.
  eexists _, _, (concat ci). split; [reflexivity|]. split; [|split; auto]. unfold start_text, name_text. cbn [space local flat_map]. flat. reflexivity.
Qed.
(** C35. Exactly when an element written without prefix and attributes comes back in its own namespace: if no open
    element without prefix has that namespace, or the innermost default namespace is that namespace; and for no namespace,
    if there is no default namespace. *)
Theorem C35_exact : forall o pol i h e open n, willing o -> session o false pol i h e -> open_in (total e) open -> bare (local n) -> xml_text (space n) -> agrees pol (space n) [] ->
  exists e' w y m b, enc_token o (TStart n []) e = Some (e', Done) /\ total e' = total e ++ w ++ y /\ layout i w /\ (forall rest, raw_token (y ++ rest) = ROk (TStart m b, None) rest) /\
    (expand ((m, b) :: open) true m = n <->
     if beq (space n) [] then resolve open [] = None \/ resolve open [] = Some [] else unprefixed_in open (space n) -> resolve open [] = Some (space n)).
Proof.
  intros o pol i h e open n W S OP [SL NX] XT AG.
  assert (PT : parts (local n) [] (local n)) by (apply parts_simple; apply SL).
  assert (NP : forall p l, ~ prefixed (local n) p l).
  { intros p l X. destruct (parts_fun _ _ _ _ _ PT (or_introl X)) as [Y _]. destruct X as (_ & Z & _). congruence. }
  (* the good case *)
  assert (GOOD : (if beq (space n) [] then resolve open [] = None \/ resolve open [] = Some [] else unprefixed_in open (space n) -> resolve open [] = Some (space n)) ->
    exists e' w y m b, enc_token o (TStart n []) e = Some (e', Done) /\ total e' = total e ++ w ++ y /\ layout i w /\ (forall rest, raw_token (y ++ rest) = ROk (TStart m b, None) rest) /\ expand ((m, b) :: open) true m = n).
  { intro C. destruct (C34_start o false pol i h e open n [] W S OP) as (e' & w & y & m & b & R & TT & LW & RT & TN & _ & _).
    - split; [|constructor]. unfold good_element. destruct (beq (space n) []) eqn:E; [split; [auto|]; split; [auto|]; right; right; exact C|]. apply beq_neq in E. split; [|split; [exact NX|right; auto]].
      split; [exact E|]. split; [exact XT|]. exists [], (local n). split; auto.
    - exists e', w, y, m, b. split; [exact R|]. split; [exact TT|]. split; [exact LW|]. split; [exact RT|]. destruct TN as [[TN|[X _]] (q & PQ)]; [|discriminate]. destruct (parts_fun _ _ _ _ _ PT PQ) as [_ LE].
      destruct (expand ((m, b) :: open) true m) as [sp lo], n as [sp' lo']. cbn in *. congruence. }
  destruct (session_ok o false pol i h e W S) as (ps & ts & open' & TE & FP & I & FD & L & RS & F & T & Q & LP & LI).
  assert (open' = open) as -> by (eapply C34_open_unique; [|exact OP]; eapply state_open; eauto; eapply session_ok; eauto).
  assert (DEC : (space n = [] \/ unprefixed_in open (space n)) \/ ~ (space n = [] \/ unprefixed_in open (space n))).
  { destruct (bytes_dec (space n) []) as [E|E]; [left; auto|]. destruct (existsb (fun x => beq (el_prefix x) [] && beq (el_ns x) (space n)) (p_elems (en_p e))) eqn:X.
    - left. right. eapply link_unprefixed; eauto.
    - right. intros [Y|Y]; [congruence|]. rewrite (unprefixed_link pol _ _ _ L Y) in X. discriminate. }
  destruct DEC as [C|C].
  - destruct (bare_start pol n (en_p e) open L (conj SL NX) C) as (cs & s' & WW & E & CT & WH & WN).
    destruct (token_step o (TStart n []) e W F T Q) as (e1 & r1 & R1 & F1 & T1 & P1 & X1 & D1). cbn [encode_token] in *. rewrite E in *. cbn [fst snd] in *.
    assert (r1 = Done) as -> by (apply D1; exists tt; reflexivity). exists e1, WW, (start_text (mkname [] (local n)) []), (mkname [] (local n)), [].
    split; [exact R1|]. split; [rewrite X1, CT; reflexivity|]. split; [exact (layout_W i _ _ WW LP LI WH WN)|]. split; [intro rest; apply start_reads; [split; [left; auto|exact SL]|constructor]|].
    rewrite exp_unprefixed by exact NX. cbn [resolve declared]. destruct n as [sp lo]. cbn [space local] in *. destruct (beq sp []) eqn:SE.
    + apply beq_eq in SE. subst sp. destruct (resolve open []) as [u|]; split; intro H; auto; [injection H as ->; auto|destruct H as [H|H]; [discriminate|injection H as ->; reflexivity]].
    + apply beq_neq in SE. destruct C as [C|C]; [congruence|]. destruct (resolve open []) as [u|]; split; intro H; [intros _; injection H as ->; auto|specialize (H C); injection H as ->; reflexivity|congruence|specialize (H C); discriminate].
  - destruct GOOD as (e' & w & y & m & b & R & TT & LW & RT & EX).
    + destruct (beq (space n) []) eqn:SE; [apply beq_eq in SE; tauto|intro; tauto].
    + exists e', w, y, m, b. split; [exact R|]. split; [exact TT|]. split; [exact LW|]. split; [exact RT|]. split; [intros _|auto]. destruct (beq (space n) []) eqn:SE; [apply beq_eq in SE; tauto|intro; tauto].
Qed.
Print Assumptions C35_exact.

(** ** Examples *)
(** The prefixes that may be chosen, computed. *)
Definition pick (s : bytes) : bytes :=
  let p := after_last 47 s in
  let p := if beq p [] || negb (is_name p) || existsb (Z.eqb 58) p then str "_" else p in
  if (3 <=? length p)%nat && equal_fold (firstn 3 p) (str "xml") then str "_" ++ p else p.
Lemma last_part_det : forall s x y, last_part s x -> last_part s y -> x = y.
Proof.
  assert (A : forall a b x y, ~ In 47 x -> ~ In 47 y -> a ++ 47 :: x = b ++ 47 :: y -> x = y).
  { induction a as [|c a IH]; intros b x y X Y E; destruct b as [|d b]; cbn in E; injection E; intros; subst; auto.
    - exfalso. apply X. apply in_app_iff. cbn. auto.
    - exfalso. apply Y. apply in_app_iff. cbn. auto.
    - eapply IH; eauto. }
  intros s x y [X [->|[a ->]]] [Y [E|[b E]]]; auto.
  - exfalso. apply X. rewrite E. apply in_app_iff. cbn. auto.
  - exfalso. apply Y. rewrite <- E. apply in_app_iff. cbn. auto.
  - eapply A; eauto.
Qed.
Lemma stem_det : forall s r r', stem s r -> stem s r' -> r = r'.
Proof.
  intros s r r' A B. destruct A as [x L U|x L N C X|x L O]; destruct B as [y L' U'|y L' N' C' X'|y L' O']; rewrite <- (last_part_det _ _ _ L L') in *; auto; exfalso.
  - apply U; auto. - apply O'. split; apply U. - apply U'; auto. - apply O'; auto. - apply O. split; apply U'. - apply O; auto.
Qed.
Lemma trimmed_det : forall s x y, trimmed s x -> trimmed s y -> x = y.
Proof.
  intros s x y [[j E] X] [[k F] Y]. subst s. revert j F. induction k as [|k IH]; intros j F.
  - cbn in F. rewrite app_nil_r in F. destruct j as [|j]; [cbn in F; rewrite app_nil_r in F; auto|]. exfalso. apply (Y (x ++ repeat 47 j)). rewrite <- F, <- app_assoc. f_equal. change [47] with (repeat 47 1). rewrite <- repeat_app. f_equal. lia.
  - destruct j as [|j].
    + exfalso. apply (X (y ++ repeat 47 k)). cbn in F. rewrite app_nil_r in F. rewrite F, <- app_assoc. f_equal. change [47] with (repeat 47 1). rewrite <- repeat_app. change (47 :: repeat 47 k) with (repeat 47 (S k)). f_equal. lia.
    + apply (IH j). assert (G : forall n, repeat 47 (S n) = repeat 47 n ++ [47]) by (intro n; change [47] with (repeat 47 1); rewrite <- repeat_app; f_equal; lia). rewrite !G, !app_assoc in F. apply app_inj_tail in F. apply F.
Qed.
Lemma candidate_cases : forall u q p, candidate u q p -> exists r, (r = pick (trim_right 47 u) \/ q <> [] /\ r = pick q) /\ (p = r \/ exists d, p = r ++ 95 :: d).
Proof.
  intros u q p (s & r & S & T & P). exists r. split; [|destruct P as [P|(d & _ & P)]; eauto]. pose proof (stem_det _ _ _ T (pick_stem s)) as ->. fold (pick s). destruct S as [[-> N]|S]; [auto|left].
  rewrite (trimmed_det _ _ _ S (trim_right_spec u)). reflexivity.
Qed.
Ltac agree := intros p C; apply candidate_cases in C; destruct C as (r & [E|[N E]] & P); vm_compute in E; subst r; (destruct P as [->|[d ->]]; first [reflexivity|congruence]).
Definition ns1 : bytes := str "http://ns/one/".
Definition ns2 : bytes := str "http://ns/two".
(** Prefixes with "o" stand for the first namespace, the others for the second. *)
Definition pol2 (p : bytes) : bytes := match p with 111 :: _ => ns1 | _ => ns2 end.
Lemma uri_text : forall s, Forall (fun b => 32 <= b < 127) s -> xml_text s.
Proof. intros s H. apply CdataProofs.xml_text_ascii. eapply Forall_impl; [|exact H]. cbn. lia. Qed.
Ltac ascii := apply uri_text; vm_compute; repeat constructor; discriminate.
Definition doc2 : list token :=
  [TStart (mkname ns1 (str "A")) [mkattr (mkname xmlns_uri (str "p")) ns2; mkattr (mkname ns2 (str "x")) (str "1<")]; TStart (mkname ns1 (str "B")) []; TStart (mkname ns2 (str "C")) []; TChar (str "hi");
   TEnd (mkname ns2 (str "C")); TEnd (mkname ns1 (str "B")); TEnd (mkname ns1 (str "A"))].
Definition tags2 : list tag := [(mkname [] (str "B"), []); (mkname [] (str "A"), [mkattr (mkname [] (str "xmlns")) ns1; mkattr (mkname (str "xmlns") (str "p")) ns2; mkattr (mkname (str "p") (str "x")) (str "1<")])].
Lemma at_open : forall text open o, open_in text open -> open_in text o -> o = open. Proof. intros. eapply C34_open_unique; eauto. Qed.
Ltac opened := eexists _, _; split; [repeat (first [apply W_nil | eapply W_tok; [vm_compute; reflexivity|]]) | repeat (first [apply I_nil | eapply I_start | eapply I_end | eapply I_other; [discriminate|discriminate|]])].
Definition enc2 (k : nat) : encoder := match PropertiesEncoder.run all_taken (firstn k doc2) (new_encoder new_dest) with Some (e, _) => e | None => new_encoder new_dest end.
Definition texts2 : list bytes := [str "<A xmlns=""http://ns/one/"" xmlns:p=""http://ns/two"" p:x=""1&lt;"">"; str "<B>"; str "<p:C>"; str "hi"; str "</p:C>"; str "</B>"; str "</A>"].
Definition calls2 (k : nat) : list call := firstn k (map (fun p => mkcall (fst p) true (snd p)) (combine doc2 texts2)).
(** A session of C34, its text and what is read. *)
Example C34_example : session all_taken false pol2 false (calls2 7) (enc2 7) /\ total (enc2 7) = concat texts2 /\
  fst (fst (PropertiesDecoder.run 20 (new_decoder (total (enc2 7))))) =
    [TStart (mkname ns1 (str "A")) [mkattr (mkname [] (str "xmlns")) ns1; mkattr (mkname xmlns_uri (str "p")) ns2; mkattr (mkname ns2 (str "x")) (str "1<")]; TStart (mkname ns1 (str "B")) []; TStart (mkname ns2 (str "C")) []; TChar (str "hi");
     TEnd (mkname ns2 (str "C")); TEnd (mkname ns1 (str "B")); TEnd (mkname ns1 (str "A"))].
Proof.
  assert (AG1 : agrees pol2 ns1 []) by agree. assert (AG2 : agrees pol2 ns2 []) by agree. assert (AGp : agrees pol2 ns2 (str "p")) by agree.
  assert (X1 : xml_text ns1) by ascii. assert (X2 : xml_text ns2) by ascii.
  assert (SI : forall l, is_name l = true -> existsb (Z.eqb 58) l = false -> simple l).
  { intros l A B. split; auto. intro I. assert (existsb (Z.eqb 58) l = true) by (apply existsb_exists; exists 58; auto). congruence. }
  assert (QL : forall u l, u <> [] -> xml_text u -> agrees pol2 u [] -> is_name l = true -> existsb (Z.eqb 58) l = false -> qualified pol2 u l).
  { intros u l N X A S1 S2. pose proof (SI _ S1 S2) as S. split; [exact N|]. split; [exact X|]. exists [], l. split; [apply parts_simple; apply S|auto]. }
  split; [|split; vm_compute; reflexivity].
  assert (ST : forall k t x, enc_token all_taken t (enc2 k) = Some (enc2 (S k), Done) -> total (enc2 (S k)) = total (enc2 k) ++ x -> calls2 (S k) = calls2 k ++ [mkcall t true x] -> suits false pol2 (total (enc2 k)) t x ->
    session all_taken false pol2 false (calls2 k) (enc2 k) -> session all_taken false pol2 false (calls2 (S k)) (enc2 (S k))).
  { intros k t x E T C U S. rewrite C. exact (S_token _ _ _ _ _ _ t _ Done x S E T (fun _ => U)). }
  assert (UP : usable (str "p")). { split; [reflexivity|]. split; [intros [H|[]]; discriminate H|]. intros (a & b & c & d & E & _). discriminate E. }
  apply (ST 6%nat (nth 6 doc2 (TChar [])) (nth 6 texts2 [])); [vm_compute; reflexivity|vm_compute; reflexivity|reflexivity|exact I|].
  apply (ST 5%nat (nth 5 doc2 (TChar [])) (nth 5 texts2 [])); [vm_compute; reflexivity|vm_compute; reflexivity|reflexivity|exact I|].
  apply (ST 4%nat (nth 4 doc2 (TChar [])) (nth 4 texts2 [])); [vm_compute; reflexivity|vm_compute; reflexivity|reflexivity|exact I|].
  apply (ST 3%nat (nth 3 doc2 (TChar [])) (nth 3 texts2 [])); [vm_compute; reflexivity|vm_compute; reflexivity|reflexivity|cbn [suits nth doc2]; ascii|].
  apply (ST 2%nat (nth 2 doc2 (TChar [])) (nth 2 texts2 [])); [vm_compute; reflexivity|vm_compute; reflexivity|reflexivity| |].
  { intros open O. assert (open = tags2) as -> by (apply (at_open (total (enc2 2)) tags2 open); [opened|exact O]). split; [|constructor].
    unfold good_element. change (beq (space _) []) with false. cbv iota. split; [apply QL; auto; discriminate|]. split; [discriminate|]. intros _ (i & m & a & r & E & M & R).
    exfalso. destruct i as [|t1 [|t2 i]]; cbn in E; injection E; intros; subst; try discriminate. destruct i; discriminate. }
  apply (ST 1%nat (nth 1 doc2 (TChar [])) (nth 1 texts2 [])); [vm_compute; reflexivity|vm_compute; reflexivity|reflexivity| |].
  { intros open O. assert (open = tl tags2) as -> by (apply (at_open (total (enc2 1)) (tl tags2) open); [opened|exact O]). split; [|constructor].
    unfold good_element. change (beq (space _) []) with false. cbv iota. split; [apply QL; auto; discriminate|]. split; [discriminate|]. intros _ _. right. reflexivity. }
  apply (ST 0%nat (nth 0 doc2 (TChar [])) (nth 0 texts2 [])); [vm_compute; reflexivity|vm_compute; reflexivity|reflexivity| |apply S_new; reflexivity].
  intros open O. assert (open = []) as -> by (apply (at_open (total (enc2 0)) [] open); [opened|exact O]). split.
  - unfold good_element. change (beq (space _) []) with false. cbv iota. split; [apply QL; auto; discriminate|]. split; [discriminate|]. intros _ (i & m & a & r & E & _). destruct i; discriminate.
  - constructor; [|constructor; [|constructor]].
    + split; [exact X2|]. change (beq (space _) xmlns_uri) with true. cbv iota. split; [exact UP|split; [discriminate|exact AGp]].
    + split; [ascii|]. change (beq (space _) xmlns_uri) with false. change (beq (space _) []) with false. cbv iota. apply QL; auto; discriminate.
Qed.
(** Its first start tag is also one of C36. *)
Example C36_example : tidy (mkname ns1 (str "A")) [mkattr (mkname xmlns_uri (str "p")) ns2; mkattr (mkname ns2 (str "x")) (str "1<")].
Proof.
  assert (UN : forall s, existsb (Z.eqb 58) s = false -> unprefixed s).
  { intros s E p l (-> & _). rewrite <- not_true_iff_false in E. apply E. apply existsb_exists. exists 58. split; [apply in_app_iff; cbn; auto|reflexivity]. }
  split; [apply UN; reflexivity|]. split; [apply DF_decl; [reflexivity|apply DF_rest; constructor; [split; [discriminate|apply UN; reflexivity]|constructor]]|].
  repeat constructor; cbn; intuition discriminate.
Qed.

(** ** Where the properties fail *)
(** The text written for some calls, all accepted, and the start tags read back from it. *)
Definition starts (ts : list token) : list token := filter (fun t => match t with TStart _ _ => true | _ => false end) ts.
Definition trip (ts : list token) : option (bytes * list token) :=
  match PropertiesEncoder.run all_taken ts (new_encoder new_dest) with
  | Some (e, rs) => if forallb (fun r => match r with Done => true | _ => false end) rs then Some (total e, starts (fst (fst (PropertiesDecoder.run 20 (new_decoder (total e)))))) else None
  | None => None
  end.
Definition at_ (s l v : string) : attr := mkattr (nm s l) (str v).
Definition XN : string := "http://www.w3.org/2000/xmlns/".
(** C35: three elements, the innermost in the namespace of the outermost. *)
Theorem C35_refuted : trip [TStart (nm "ns1" "A") []; TStart (nm "ns2" "B") []; TStart (nm "ns1" "C") []] =
  Some (str "<A xmlns=""ns1""><B xmlns=""ns2""><C>", [TStart (nm "ns1" "A") [at_ "" "xmlns" "ns1"]; TStart (nm "ns2" "B") [at_ "" "xmlns" "ns2"]; TStart (nm "ns2" "C") []]).
Proof. vm_compute. reflexivity. Qed.
Print Assumptions C35_refuted.
(** C35: no namespace inside a default namespace. *)
Theorem C35_none_refuted : trip [TStart (nm "ns1" "A") []; TStart (nm "" "B") []] = Some (str "<A xmlns=""ns1""><B>", [TStart (nm "ns1" "A") [at_ "" "xmlns" "ns1"]; TStart (nm "ns1" "B") []]).
Proof. vm_compute. reflexivity. Qed.
Print Assumptions C35_none_refuted.
(** C34: a prefix found in an outer element is declared again, for an attribute, in the very tag that uses it. *)
Theorem C34_shadow_refuted : trip [TStart (nm "ns1" "p:a") []; TStart (nm "ns1" "p:b") [at_ "ns2" "p:x" "1"]] =
  Some (str "<p:a xmlns:p=""ns1""><p:b xmlns:p=""ns2"" p:x=""1"">", [TStart (nm "ns1" "a") [at_ XN "p" "ns1"]; TStart (nm "ns2" "b") [at_ XN "p" "ns2"; at_ "ns2" "x" "1"]]).
Proof. vm_compute. reflexivity. Qed.
Print Assumptions C34_shadow_refuted.
(** C34: a declaration by hand of a prefix that starts with "xml" is remembered under another prefix, which is then
    written without being declared. *)
Theorem C34_xml_refuted : trip [TStart (nm "" "a") [at_ XN "xmlfoo" "u"; at_ "u" "x" "1"]] =
  Some (str "<a xmlns:xmlfoo=""u"" _xmlfoo:x=""1"">", [TStart (nm "" "a") [at_ XN "xmlfoo" "u"; at_ "_xmlfoo" "x" "1"]]).
Proof. vm_compute. reflexivity. Qed.
Print Assumptions C34_xml_refuted.
(** C34: a prefix asked for is written but not declared, beside a default declaration by hand or without a namespace;
    and the prefix of an attribute without a namespace is lost. *)
Theorem C34_prefix_refuted :
  trip [TStart (nm "u" "p:a") [at_ "" "xmlns" "u"]] = Some (str "<p:a xmlns=""u"">", [TStart (nm "p" "a") [at_ "" "xmlns" "u"]]) /\
  trip [TStart (nm "" "p:a") []] = Some (str "<p:a>", [TStart (nm "p" "a") []]) /\
  trip [TStart (nm "" "a") [at_ "" "p:x" "1"]] = Some (str "<a x=""1"">", [TStart (nm "" "a") [at_ "" "x" "1"]]).
Proof. split; [|split]; vm_compute; reflexivity. Qed.
Print Assumptions C34_prefix_refuted.
(** C36: a declaration is written twice, (1) for a prefix asked for and declared by hand, (2) for an attribute that
    stands before the declaration of its prefix; and a prefix is declared twice, for two namespaces, (3) when a
    declaration by hand repeats an outer one and an attribute's namespace ends with the same word. *)
Theorem C36_refuted :
  trip [TStart (nm "u" "p:a") [at_ XN "p" "u"]] = Some (str "<p:a xmlns:p=""u"" xmlns:p=""u"">", [TStart (nm "u" "a") [at_ XN "p" "u"; at_ XN "p" "u"]]) /\
  trip [TStart (nm "" "a") [at_ "u" "p:x" "1"; at_ XN "p" "u"]] = Some (str "<a xmlns:p=""u"" p:x=""1"" xmlns:p=""u"">", [TStart (nm "" "a") [at_ XN "p" "u"; at_ "u" "x" "1"; at_ XN "p" "u"]]) /\
  trip [TStart (nm "" "a") [at_ XN "p" "u"]; TStart (nm "" "b") [at_ XN "p" "u"; at_ "http://x/p" "y" "1"]] =
    Some (str "<a xmlns:p=""u""><b xmlns:p=""u"" xmlns:p=""http://x/p"" p:y=""1"">", [TStart (nm "" "a") [at_ XN "p" "u"]; TStart (nm "" "b") [at_ XN "p" "u"; at_ XN "p" "http://x/p"; at_ "http://x/p" "y" "1"]]).
Proof. split; [|split]; vm_compute; reflexivity. Qed.
Print Assumptions C36_refuted.
