(** C68-C70: the options of the decoder: DefaultSpace, Entity, CharsetReader. *)
From Coq Require Import String.
From Coq Require Import ZArith List Bool Lia.
From Coq Require Import ZifyBool ZifyNat.
From Verif Require Import Base Utf8 NameTables Lexer EscapeSpec LexerProofs TagText Decoder DecoderProofs.
From Verif Require Import ByteDecoder ByteRuns ByteLoud ByteSim ByteToken BytePlace ByteScope ByteEnd ByteNear PropertiesPosition.
Import ListNotations.
Open Scope Z_scope.
Local Opaque lmust lfuel getc mustgetc.

Lemma new_interned : interned []. Proof. split; [simpl; unfold max_intern; lia|]. split; constructor. Qed.
Lemma got_first : forall c d t d1 ts d2, Token c d = Some ((t, None), d1) -> got_tokens c d1 ts d2 -> got_tokens c d (t :: ts) d2.
Proof. intros. eapply got_cons; eauto. Qed.

(** ** C69 *)
(** The names that XML defines; whatever Entity says of them, the decoder reads the same. *)
Definition standard : list bytes := [str "lt"; str "gt"; str "amp"; str "apos"; str "quot"].
Definition with_entity (e : bytes -> option bytes) (c : cfg) : cfg :=
  mkcfg (c_strict c) (c_close c) (c_fold c) e (c_charset c) (c_default c).
Lemma entity_none : forall n, entity n = None -> ~ In n standard.
Proof.
  intros n E I. unfold entity in E. simpl in I. repeat destruct I as [<-|I]; try (vm_compute in E; discriminate E). exact I.
Qed.
Lemma shift0 : forall e, shift 0 e = e. Proof. intros [r|m l|m]; simpl; auto. rewrite Z.add_0_r. reflexivity. Qed.
Lemma shift0_opt : forall e, option_map (shift 0) e = e. Proof. intros [e|]; simpl; rewrite ?shift0; reflexivity. Qed.
Theorem C69_entity : forall c e r ts d, (forall n, ~ In n standard -> e n = c_entity c n) -> got_tokens c (new_bdec r) ts d ->
  exists d', got_tokens (with_entity e c) (new_bdec r) ts d' /\
    forall x y, Token c d = Some (x, y) -> exists y', Token (with_entity e c) d' = Some (x, y').
Proof.
  intros c e r ts d H G. set (c2 := with_entity e c).
  assert (AL : alike c c2).
  { constructor; [reflexivity | | simpl; destruct (c_charset c); auto]. intros n N. simpl. symmetry. apply H, entity_none, N. }
  pose proof (token_ctx 0 true c c2 None AL eq_refl eq_refl eq_refl I) as ST.
  assert (P : exists d', got_tokens c2 (new_bdec r) ts d' /\ context 0 true None d d').
  { induction G as [|ts d1 t d2 G (x & GX & CX) E].
    - exists (new_bdec r). split; [constructor|]. constructor; simpl; auto.
      constructor; simpl; auto; try lia; apply new_interned.
    - destruct (ST d1 x t None d2 CX E ltac:(auto) ltac:(auto)) as (x' & E' & CX'). exists x'. split; [econstructor; eauto | exact CX']. }
  destruct P as (x & GX & CX). exists x. split; [exact GX|]. intros [t er] y E. destruct (ST d x t er y CX E ltac:(auto) ltac:(auto)) as (x' & E' & _).
  rewrite shift0_opt in E'. eauto.
Qed.
(** A map that says something else of lt and adds nbsp: only the addition counts. *)
Example C69_example : forall d,
  let e := fun n => if beq n (str "lt") then Some (str "XX") else if beq n (str "nbsp") then Some (str "_") else None in
  d = new_bdec (mksrc (str "<a>&lt;&nbsp;</a>") FEof) ->
  map fst (tokens 3 (with_entity e std) d) = [Some (TStart (nm "" "a") []); Some (TChar (str "<_")); Some (TEnd (nm "" "a"))] /\
  nth_error (map snd (tokens 3 std d)) 1 = Some (Some (LSyntax (str "invalid character entity") 1)).
Proof. intros d e ->. vm_compute. split; reflexivity. Qed.

(** ** C68 *)
Definition with_default (u : bytes) (c : cfg) : cfg :=
  mkcfg (c_strict c) (c_close c) (c_fold c) (c_entity c) (c_charset c) u.
(** The start tag with the one attribute xmlns. *)
Definition wrapper (l u : bytes) : bytes := start_text (mkname [] l) [mkattr (mkname [] (str "xmlns")) u].
Lemma must_clean : forall s b s', lmust s = Some (Some b, s') -> l_err s' = None.
Proof.
  intros s b s' E. Transparent lmust mustgetc getc. unfold lmust, mustgetc, getc in E. Opaque lmust mustgetc getc. destruct (l_err s); [discriminate E|].
  destruct (l_next s); [inversion E; reflexivity|]. destruct (s_bytes (l_src s)); inversion E; reflexivity.
Qed.
Lemma attrs_clean : forall c k acc s r s', c_strict c = true -> attrs_loop_b k c acc s = Some (Some r, s') -> l_err s' = None.
Proof.
  intros c. induction k as [|k IH]; intros acc s r s' ST E; [discriminate|]. cbn [attrs_loop_b] in E. unfold ltry at 1 in E.
  destruct (lspace s) as [[[u|] s1]|]; try discriminate.
  assert (LM : lmust s1 = Some (mustgetc s1)) by reflexivity. destruct (mustgetc s1) as [[b|] s2].
  2: { rewrite ST, andb_false_r in E. discriminate. }
  destruct (b =? 47).
  { unfold ltry in E. destruct (lmust s2) as [[[b1|] s3]|] eqn:M; try discriminate. destruct (b1 =? 62); inversion E; subst. eapply must_clean; eauto. }
  destruct (b =? 62); [inversion E; subst; eapply must_clean; eauto|]. rewrite ldo_eq in E. unfold ltry_msg in E.
  destruct (nsname_b (ungetc b s2)) as [[[n|] s3]|]; try discriminate. unfold ltry at 1 in E. destruct (lspace s3) as [[[?|] s4]|]; try discriminate.
  unfold ltry at 1 in E. destruct (lmust s4) as [[[b1|] s5]|]; try discriminate. destruct (negb (b1 =? 61)); [rewrite ST in E; discriminate|].
  unfold ltry at 1 in E. destruct (lspace s5) as [[[?|] s6]|]; try discriminate. unfold ltry in E. destruct (attrval_b c s6) as [[[v|] s7]|]; try discriminate.
  eapply IH; eauto.
Qed.
Lemma start_clean : forall c s n a cl s', c_strict c = true -> raw_token_b c s = Some (Some (TStart n a, cl), s') -> l_err s' = None.
Proof.
  intros c s n a cl s' ST E. unfold raw_token_b in E. destruct (getc s) as [[b|] s1]; [|discriminate].
  destruct (negb (b =? 60)).
  { rewrite ldo_eq in E. unfold ltry in E. destruct (text_b c None false (ungetc b s1)) as [[[x|] ?]|]; discriminate. }
  unfold ltry at 1 in E. destruct (lmust s1) as [[[b1|] s2]|]; try discriminate. destruct (b1 =? 47).
  { unfold ltry_msg in E. destruct (nsname_b s2) as [[[x|] s3]|]; try discriminate. unfold ltry at 1 in E. destruct (lspace s3) as [[[?|] s4]|]; try discriminate.
    unfold ltry in E. destruct (lmust s4) as [[[b2|] s5]|]; try discriminate. destruct (b2 =? 62); discriminate. }
  destruct (b1 =? 63).
  { unfold ltry_msg in E. destruct (name_b s2) as [[[x|] s3]|]; try discriminate. unfold ltry at 1 in E. destruct (lspace s3) as [[[?|] s4]|]; try discriminate.
    rewrite ldo_eq in E. unfold ltry at 1 in E. destruct (pi_loop_b (lfuel (reset s4)) 0 (reset s4)) as [[[?|] s5]|]; try discriminate. cbv zeta in E.
    unfold ltry in E. destruct ((if beq x (str "xml") then charset_b c (firstn (length (l_buf s5) - 2) (l_buf s5)) else lret tt) s5) as [[[?|] s6]|]; discriminate. }
  destruct (b1 =? 33).
  { unfold ltry at 1 in E. destruct (lmust s2) as [[[b2|] s3]|]; try discriminate. destruct (b2 =? 45).
    - unfold ltry at 1 in E. destruct (lmust s3) as [[[b3|] s4]|]; try discriminate. destruct (negb (b3 =? 45)); [discriminate|]. rewrite ldo_eq in E.
      unfold ltry in E. destruct (comment_loop_b (lfuel (reset s4)) 0 0 (reset s4)) as [[[?|] s5]|]; discriminate.
    - destruct (b2 =? 91).
      + unfold ltry at 1 in E. destruct (expect_b (str "CDATA[") s3) as [[[?|] s4]|]; try discriminate. unfold ltry in E.
        destruct (text_b c None true s4) as [[[?|] s5]|]; discriminate.
      + rewrite !ldo_eq in E. unfold ltry in E. destruct (directive_loop_b (2 * lfuel (put b2 (reset s3))) None 0 0 (put b2 (reset s3))) as [[[?|] s4]|]; discriminate. }
  rewrite ldo_eq in E. unfold ltry_msg in E. destruct (nsname_b (ungetc b1 s2)) as [[[x|] s3]|]; try discriminate. unfold ltry in E.
  destruct (attrs_loop_b (lfuel s3) c [] s3) as [[[[acc ec]|] s4]|] eqn:A; try discriminate. inversion E; subst. eapply attrs_clean; eauto.
Qed.
Lemma first_raw : forall c d t cl s, c_strict c = true -> b_stk d = [] -> b_tok d = None -> b_err d = None -> b_close d = None ->
  raw_token_b c (b_lex d) = Some (Some (t, cl), s) -> Token c d = Some (finish c (Some t) (with_close cl (with_lex s d))).
Proof. intros c d t cl s ST K TK ER CL R. unfold Token, raw_b. rewrite K, TK, ER, CL, R. unfold auto. rewrite ST. reflexivity. Qed.
(** Tokens that a decoder with DefaultSpace [u] returns are those of a decoder without it that has read the start tag of an
    element with the attribute xmlns="u". *)
Theorem C68_default_space : forall c l u T fe ts d, c_strict c = true -> (forall s, c_entity c s = None) -> c_charset c = None ->
  ncname l -> xml_text u -> got_tokens (with_default u c) (new_bdec (mksrc T fe)) ts d -> ~ In None ts ->
  exists n a d', local n = l /\ got_tokens (with_default [] c) (new_bdec (mksrc (wrapper l u ++ T) fe)) (Some (TStart n a) :: ts) d'.
Proof.
  intros c l u T fe ts d ST EN CS NL XU G NN. set (c1 := with_default u c) in *. set (c2 := with_default [] c).
  assert (U : usual c2) by (constructor; auto). set (d0 := new_bdec (mksrc (wrapper l u ++ T) fe)).
  assert (RD : rd fe (wrapper l u ++ T) [] (b_lex d0)).
  { split; [reflexivity|]. split; [reflexivity|]. split; [left; reflexivity|]. split; [apply new_interned | reflexivity]. }
  assert (XN : rawname (mkname [] (str "xmlns"))).
  { split; [left; reflexivity|]. split; [vm_compute; reflexivity|]. cbn. intros X. repeat destruct X as [X|X]; try discriminate X. exact X. }
  pose proof (raw_sim c2 fe _ _ _ U RD eq_refl) as R. unfold wrapper in R.
  rewrite start_reads in R; [|split; [left; reflexivity | exact NL] | constructor; [split; [exact XN | exact XU] | constructor]].
  destruct R as (s' & buf & RD' & [[R _]|(_ & _ & X)]); [|discriminate]. pose proof (start_clean c2 _ _ _ _ _ ST R) as NE.
  assert (PL : placed (wrapper l u ++ T) fe None (b_lex d0)) by (destruct (new_steady (mksrc (wrapper l u ++ T) fe)) as [P _]; exact P).
  destruct (raw_token_runs c2 (length (view (b_lex d0))) CS _ _ _ _ PL (or_introl eq_refl) ltac:(lia)) as (r & s'' & R1 & _ & _ & R4).
  assert (RR := eq_trans (eq_sym R1) R).
  inversion RR; subst r s''. destruct R4 as [_ R4]. specialize (R4 eq_refl).
  set (m1 := ns_set (fun _ : bytes => @None bytes) [] u).
  set (d1 := mkb s' None [BStart (mkname [] l); BNs [] [] false] m1 None 0).
  assert (T1 : exists n a, local n = l /\ Token c2 d0 = Some ((Some (TStart n a), None), d1)).
  { rewrite (first_raw c2 d0 _ _ _ ST eq_refl eq_refl eq_refl eq_refl R). do 2 eexists. split; [|reflexivity]. apply translate_local. }
  destruct T1 as (n & a & LN & T1).
  assert (AL : alike c1 c2) by (constructor; simpl; auto; rewrite CS; exact I).
  set (wr := Some (mkname [] l, u)).
  pose proof (token_ctx (l_line s' - 1) false c1 c2 wr AL eq_refl eq_refl eq_refl ltac:(left; exact ST)) as STEP.
  assert (P : exists d', got_tokens c2 d1 ts d' /\ context (l_line s' - 1) false wr d d').
  { revert NN. induction G as [|ts x1 t x2 G IH E]; intros NN.
    - exists d1. split; [constructor|]. constructor; simpl; auto; [|intros [|b p]; reflexivity].
      destruct RD' as (V & FE & _ & IT & _).
      constructor; cbn [b_lex d1 new_bdec new_lst l_src l_next l_line l_buf l_fresh l_err l_intern]; auto; [| lia | discriminate | apply new_interned].
      unfold view in V. rewrite R4 in V. destruct (l_src s') as [b e]. simpl in *. congruence.
    - destruct IH as (x & GX & CX); [intros X; apply NN, in_app_iff; auto|].
      destruct (STEP x1 x t None x2 CX E ltac:(auto)) as (x' & E' & CX').
      { right. split; [exact ST|]. left. intros ->. apply NN, in_app_iff. right. left. reflexivity. }
      exists x'. split; [econstructor; eauto | exact CX']. }
  destruct P as (x & GX & _). exists n, a, x. split; [exact LN|]. eapply got_first; eauto.
Qed.
(** A document whose names have no prefix, and one that undoes the default inside. *)
Example C68_example :
  let c := with_default (str "u") std in let T := str "<a b='1'><c xmlns=''/></a>" in
  let ts := [Some (TStart (nm "u" "a") [mkattr (nm "" "b") (str "1")]); Some (TStart (nm "" "c") [mkattr (nm "" "xmlns") []]);
             Some (TEnd (nm "" "c")); Some (TEnd (nm "u" "a"))] in
  map fst (tokens 4 c (new_bdec (mksrc T FEof))) = ts /\
  map fst (tokens 5 std (new_bdec (mksrc (wrapper (str "w") (str "u") ++ T) FEof))) = Some (TStart (nm "u" "w") [mkattr (nm "" "xmlns") (str "u")]) :: ts.
Proof. vm_compute. split; reflexivity. Qed.

(** ** C70 *)
(** [81] EncName of XML 1.0 and the spellings of UTF-8. *)
Definition enc_char (b : Z) : Prop := 65 <= b <= 90 \/ 97 <= b <= 122 \/ 48 <= b <= 57 \/ b = 46 \/ b = 95 \/ b = 45.
Definition enc_name (e : bytes) : Prop := e <> [] /\ Forall enc_char e.
Definition utf8_names : list bytes := [str "utf-8"; str "utF-8"; str "uTf-8"; str "uTF-8"; str "Utf-8"; str "UtF-8"; str "UTf-8"; str "UTF-8"].
Definition content (e : bytes) : bytes := str "version=""1.0"" encoding=""" ++ e ++ [34].
Definition declaration (e : bytes) : bytes := str "<?xml " ++ content e ++ str "?>".

Lemma fold_utf8 : forall e, equal_fold e (str "utf-8") = true <-> In e utf8_names.
Proof.
  intros e. split.
  - unfold equal_fold. intros E. apply beq_eq in E. do 6 (destruct e as [|? e]; try discriminate E).
    change (map lower_byte (str "utf-8")) with [117; 116; 102; 45; 56] in E. cbn [map] in E. injection E as A B C D F.
    assert (L : forall b k, lower_byte b = k -> (b = k \/ b = k - 32) /\ (k < 97 -> b = k)) by (intros b k <-; unfold lower_byte, within; destruct ((65 <=? b) && (b <=? 90)) eqn:X; lia).
    apply L in A, B, C, D, F. destruct D as [_ D], F as [_ F]. rewrite (D ltac:(lia)), (F ltac:(lia)).
    destruct A as [[-> | ->] _], B as [[-> | ->] _], C as [[-> | ->] _]; vm_compute; tauto.
  - intros I. repeat destruct I as [<-|I]; try reflexivity. contradiction I.
Qed.
Lemma enc_plain : forall e b, enc_name e -> In b e -> b <> 34 /\ b <> 63 /\ b <> 10.
Proof. intros e b [_ F] I. rewrite Forall_forall in F. specialize (F b I). unfold enc_char in F. lia. Qed.
Lemma content_plain : forall e b, enc_name e -> In b (content e) -> b <> 63 /\ b <> 10.
Proof.
  intros e b N I. unfold content in I. rewrite !in_app_iff in I. destruct I as [I|[I|I]].
  - cbn in I. repeat (destruct I as [<-|I]; [split; discriminate|]). contradiction.
  - destruct (enc_plain e b N I) as (_ & A & B). auto.
  - destruct I as [<-|[]]. split; discriminate.
Qed.
Lemma pi_reads : forall x b0 buf rest, ~ In 63 x -> b0 <> 63 -> pi_loop b0 buf (x ++ 63 :: 62 :: rest) = ROk (buf ++ x) rest.
Proof.
  induction x as [|b x IH]; intros b0 buf rest N B0.
  - cbn [app pi_loop]. assert (X : (b0 =? 63) = false) by lia. rewrite X. cbn [andb]. change ((63 =? 63) && (62 =? 62)) with true. cbv iota.
    rewrite app_length, app_nil_r. cbn [length]. replace (length buf + 1 - 1)%nat with (length buf) by lia. rewrite firstn_app, firstn_all, Nat.sub_diag. cbn. rewrite app_nil_r. reflexivity.
  - cbn [app pi_loop]. assert (X : (b0 =? 63) = false) by lia. rewrite X. cbn [andb]. rewrite IH.
    + rewrite <- app_assoc. reflexivity.
    + intros I. apply N. right. exact I.
    + intros ->. apply N. left. reflexivity.
Qed.
Lemma pi_stops : forall k b0 s s', pi_loop_b k b0 s = Some (Some tt, s') -> l_next s' = None /\ l_err s' = None.
Proof.
  induction k as [|k IH]; intros b0 s s' E; [discriminate|]. cbn [pi_loop_b] in E. unfold ltry in E.
  destruct (lmust s) as [[[b|] s1]|] eqn:M; try discriminate. rewrite ldo_eq in E. destruct ((b0 =? 63) && (b =? 62)).
  - inversion E; subst. cbn. split; [|eapply must_clean; eauto]. clear E. Transparent lmust mustgetc getc. unfold lmust, mustgetc, getc in M. Opaque lmust mustgetc getc.
    destruct (l_err s); [discriminate M|]. destruct (l_next s); [inversion M; reflexivity|]. destruct (s_bytes (l_src s)); inversion M; reflexivity.
  - eapply IH; eauto.
Qed.
Lemma index_quote : forall e, enc_name e -> index_byte 34 (e ++ [34]) = Some (length e).
Proof.
  intros e [_ F]. induction F as [|b e H F IH]; [reflexivity|]. cbn [app index_byte length]. assert (X : (b =? 34) = false) by (unfold enc_char in H; lia).
  rewrite X, IH. reflexivity.
Qed.
Lemma content_version : forall e, proc_inst (str "version") (content e) = str "1.0".
Proof. intros e. reflexivity. Qed.
Lemma content_encoding : forall e, enc_name e -> proc_inst (str "encoding") (content e) = e.
Proof.
  intros e N. unfold proc_inst. change (proc_inst_loop (S (length (content e))) (str "encoding" ++ [61]) (content e)) with (Some (34, e ++ [34])).
  cbv iota beta. rewrite index_quote by exact N. rewrite firstn_app, firstn_all, Nat.sub_diag. cbn. apply app_nil_r.
Qed.
Lemma plain_line : forall p, ~ In 10 p -> line_of p = 1.
Proof.
  induction p as [|b p IH]; intros N; [reflexivity|]. cbn [line_of]. rewrite IH by (intros I; apply N; right; exact I).
  destruct (Z.eqb_spec b 10) as [->|_]; [destruct N; left; reflexivity | reflexivity].
Qed.
(** The state behind the declaration, before the checks. *)
Lemma declaration_read : forall c e rest fe, enc_name e -> exists s,
  l_src s = mksrc rest fe /\ l_next s = None /\ l_line s = 1 /\ l_err s = None /\ interned (l_intern s) /\
  raw_token_b c (new_lst (mksrc (declaration e ++ rest) fe)) =
    match charset_b c (content e) s with
    | Some (Some _, s') => Some (Some (TProc (str "xml") (content e), None), s')
    | Some (None, s') => Some (None, s')
    | None => None
    end.
Proof.
  intros c e rest fe NE. set (T := declaration e ++ rest). set (s0 := new_lst (mksrc T fe)).
  assert (TT : T = 60 :: 63 :: 120 :: 109 :: 108 :: 32 :: content e ++ 63 :: 62 :: rest).
  { unfold T, declaration. rewrite <- !app_assoc. reflexivity. }
  assert (PL : placed T fe None s0) by (destruct (new_steady (mksrc T fe)) as [P _]; exact P).
  assert (RD : rd fe T [] s0).
  { split; [reflexivity|]. split; [reflexivity|]. split; [left; reflexivity|]. split; [apply new_interned | reflexivity]. }
  rewrite TT in RD. destruct (getc_some _ _ _ _ _ RD) as (s1 & E1 & N1). pose proof (getc_placed _ _ _ _ PL (or_introl eq_refl)) as G.
  rewrite E1 in G. destruct G as ((_ & _ & P1 & _) & _).
  destruct (must_some _ _ _ _ _ (new_rd _ _ _ _ N1)) as (s2 & E2 & N2).
  pose proof (mustgetc_placed _ _ _ _ P1 (or_introl (proj2 (proj2 N1)))) as G.
  assert (M2 : mustgetc s1 = (Some 63, s2)) by (change (lmust s1) with (Some (mustgetc s1)) in E2; congruence).
  rewrite M2 in G. destruct G as ((_ & _ & P2 & _) & _). clear M2.
  pose proof (name_sim _ _ _ _ (new_rd _ _ _ _ N2)) as H.
  change (get_name (120 :: 109 :: 108 :: 32 :: content e ++ 63 :: 62 :: rest)) with
    (@inl (bytes * bytes) (option derr) (str "xml", 32 :: content e ++ 63 :: 62 :: rest)) in H.
  destruct H as (s3 & E3 & R3 & NE3).
  destruct (name_runs (length (view s2)) _ _ _ _ P2 (or_introl (proj2 (proj2 N2))) ltac:(lia)) as (r & y & E & P3 & _ & C3).
  assert (Y := eq_trans (eq_sym E) E3). inversion Y; subst r y. clear E Y.
  destruct (lspace_sim _ _ _ _ R3) as (s4 & E4 & R4).
  destruct (lspace_runs (length (view s3)) _ _ _ _ P3 C3 ltac:(lia)) as (r & y & E & P4 & _ & C4).
  assert (Y := eq_trans (eq_sym E) E4). inversion Y; subst r y. clear E Y.
  change (skip_space (32 :: content e ++ 63 :: 62 :: rest)) with (content e ++ 63 :: 62 :: rest) in R4.
  pose proof (rd_reset _ _ _ _ R4) as R5.
  assert (P5 : placed T fe None (reset s4)) by (eapply placed_same; [apply same_reset | exact P4]).
  assert (C5 : calm (reset s4)) by (eapply calm_same; [apply same_reset | exact C4]).
  pose proof (pi_loop_sim fe (lfuel (reset s4)) _ 0 [] (reset s4) R5 (rd_fuel _ _ _ _ R5)) as H.
  rewrite pi_reads in H; [|intros I; destruct (content_plain e 63 NE I); congruence | lia]. destruct H as (s6 & E6 & R6 & D6). rewrite app_nil_l in D6.
  destruct (pi_loop_runs (lfuel (reset s4)) (length (view (reset s4))) 0 (fuel_view _) _ _ _ _ P5 C5 ltac:(lia)) as (r & y & E & P6 & _ & _).
  assert (Y := eq_trans (eq_sym E) E6). inversion Y; subst r y. clear E Y.
  destruct (pi_stops _ _ _ _ E6) as [NX ER]. destruct R6 as (V & FE & _ & IT & _).
  exists s6. repeat match goal with |- _ /\ _ => split end; auto.
  - unfold view in V. rewrite NX in V. destruct (l_src s6). simpl in *. congruence.
  - destruct P6 as [p PT _ _ PLN _ _ _ _ _]. rewrite PLN. rewrite V in PT. unfold T in PT. apply app_inv_tail in PT. subst p.
    apply plain_line. intros I. unfold declaration in I. rewrite !in_app_iff in I. destruct I as [I|[I|I]].
    + cbn in I. repeat (destruct I as [I|I]; [discriminate|]). contradiction.
    + destruct (content_plain e 10 NE I); congruence.
    + cbn in I. repeat (destruct I as [I|I]; [discriminate|]). contradiction.
  - unfold raw_token_b. rewrite E1. change (negb (60 =? 60)) with false. cbv iota. rewrite !(try_some _ _ _ _ _ _ _ E2).
    change (63 =? 47) with false. change (63 =? 63) with true. cbv iota. rewrite !(msg_some _ _ _ _ _ _ _ _ E3), !(try_some _ _ _ _ _ _ _ E4), !ldo_eq.
    rewrite !(try_some _ _ _ _ _ _ _ E6). cbv zeta. rewrite D6. change (beq (str "xml") (str "xml")) with true. cbv iota. unfold ltry, lret.
    destruct (charset_b c (content e) s6) as [[[?|] ?]|]; reflexivity.
Qed.

(** What is read behind the declaration: the rest itself for UTF-8, else what the CharsetReader gives for it. *)
Definition opens (c : cfg) (e : bytes) (r r' : source) : Prop :=
  (In e utf8_names /\ r' = r) \/ (~ In e utf8_names /\ exists f, c_charset c = Some f /\ f e r = inl r').
Lemma enc_nonempty : forall e, enc_name e -> beq e [] = false.
Proof. intros [|b e] [N _]; [congruence | reflexivity]. Qed.
Theorem C70_charset : forall c e rest fe r', c_strict c = true -> enc_name e -> opens c e (mksrc rest fe) r' ->
  exists d0, Token c (new_bdec (mksrc (declaration e ++ rest) fe)) = Some ((Some (TProc (str "xml") (content e)), None), d0) /\
    forall ts d, got_tokens c (new_bdec r') ts d -> ~ In None ts ->
    exists d', got_tokens c d0 ts d' /\
      forall t er y, Token c d = Some ((t, er), y) -> t <> None \/ er <> None -> exists y', Token c d' = Some ((t, er), y').
Proof.
  intros c e rest fe r' ST NE O. destruct (declaration_read c e rest fe NE) as (s & SR & NX & LN & ER & IT & R).
  assert (CH : charset_b c (content e) s = Some (Some tt, set_src r' s)).
  { unfold charset_b. cbv zeta. rewrite content_version, (content_encoding e NE), (enc_nonempty e NE). rewrite SR.
    change (beq (str "1.0") (str "1.0")) with true. rewrite andb_false_r. cbv iota. cbn [negb andb].
    destruct O as [[U ->]|[U (f & F & FE)]].
    - apply fold_utf8 in U. rewrite U. cbn [negb]. cbv iota. rewrite <- SR. destruct s. reflexivity.
    - destruct (equal_fold e (str "utf-8")) eqn:X; [apply fold_utf8 in X; contradiction|]. cbn [negb]. rewrite F, FE. reflexivity. }
  rewrite CH in R. set (d := new_bdec (mksrc (declaration e ++ rest) fe)) in *.
  set (d0 := with_close None (with_lex (set_src r' s) d)).
  exists d0. split; [exact (first_raw c d _ _ _ ST eq_refl eq_refl eq_refl eq_refl R)|].
  assert (AL : alike c c) by (constructor; auto; destruct (c_charset c); auto).
  pose proof (token_ctx 0 false c c None AL eq_refl eq_refl eq_refl I) as STEP. intros ts d1 G NN.
  assert (P : exists d', got_tokens c d0 ts d' /\ context 0 false None d1 d').
  { induction G as [|ts x1 t x2 G IH E].
    - exists d0. split; [constructor|]. constructor; simpl; auto.
      clear R CH STEP O. unfold d0, d. split; cbn [with_close with_lex b_lex set_src new_bdec new_lst l_src l_next l_line l_buf l_fresh l_err l_intern option_map].
      + reflexivity.
      + exact NX.
      + lia.
      + discriminate.
      + reflexivity.
      + exact ER.
      + apply new_interned.
      + exact IT.
    - destruct IH as (x & GX & CX); [intros X; apply NN, in_app_iff; auto|].
      destruct (STEP x1 x t None x2 CX E ltac:(auto)) as (x' & E' & CX').
      { right. split; [exact ST|]. left. intros ->. apply NN, in_app_iff. right. left. reflexivity. }
      exists x'. split; [econstructor; eauto | exact CX']. }
  destruct P as (x & GX & CX). exists x. split; [exact GX|]. intros t er y E NT.
  destruct (STEP d1 x t er y CX E ltac:(auto) ltac:(auto)) as (x' & E' & _). rewrite shift0_opt in E'. eauto.
Qed.
(** Nothing that can read the encoding: an error, and no token ever after. *)
Definition cannot_open (c : cfg) (e : bytes) (r : source) : Prop :=
  ~ In e utf8_names /\ match c_charset c with None => True | Some f => exists m, f e r = inr m end.
Theorem C70_unknown : forall c e rest fe, enc_name e -> cannot_open c e (mksrc rest fe) ->
  exists m d, Token c (new_bdec (mksrc (declaration e ++ rest) fe)) = Some ((None, Some (LOther m)), d) /\
    Token c d = Some ((None, Some (LOther m)), d).
Proof.
  intros c e rest fe NE [U O]. destruct (declaration_read c e rest fe NE) as (s & SR & NX & LN & ER & IT & R).
  assert (CH : exists m, charset_b c (content e) s = Some (None, set_err (LOther m) s)).
  { unfold charset_b. cbv zeta. rewrite content_version, (content_encoding e NE), (enc_nonempty e NE). rewrite SR.
    change (beq (str "1.0") (str "1.0")) with true. rewrite andb_false_r. cbv iota. cbn [negb andb].
    destruct (equal_fold e (str "utf-8")) eqn:X; [apply fold_utf8 in X; contradiction|]. cbn [negb].
    destruct (c_charset c) as [f|]; [destruct O as [m ->]|]; eexists; reflexivity. }
  destruct CH as [m CH]. rewrite CH in R. set (d := new_bdec (mksrc (declaration e ++ rest) fe)) in *.
  exists m, (with_lex (set_err (LOther m) s) d). split.
  - unfold Token, raw_b. change (b_stk d) with (@nil bent). change (b_tok d) with (@None token). change (b_err d) with (@None lerr).
    change (b_close d) with (@None name). change (b_lex d) with (new_lst (mksrc (declaration e ++ rest) fe)). cbv iota. rewrite R. reflexivity.
  - reflexivity.
Qed.
(** A reader that turns every A into a B. *)
Definition b_for_a : cfg :=
  mkcfg true (c_close std) (c_fold std) (c_entity std)
    (Some (fun e r => if beq e (str "x-b") then inl (mksrc (map (fun b => if b =? 65 then 66 else b) (s_bytes r)) (s_end r)) else inr (str "?")))
    (c_default std).
Example C70_example :
  tokens 3 b_for_a (new_bdec (mksrc (declaration (str "x-b") ++ str "<A>") FEof)) =
    [(Some (TProc (str "xml") (str "version=""1.0"" encoding=""x-b""")), None); (Some (TStart (nm "" "B") []), None);
     (None, Some (LSyntax (str "unexpected EOF") 1))] /\
  opens b_for_a (str "x-b") (mksrc (str "<A>") FEof) (mksrc (str "<B>") FEof) /\
  cannot_open b_for_a (str "x-c") (mksrc [] FEof) /\ cannot_open std (str "x-b") (mksrc [] FEof).
Proof.
  assert (N : forall x, existsb (beq x) utf8_names = false -> ~ In x utf8_names).
  { intros x E I. enough (existsb (beq x) utf8_names = true) by congruence. apply existsb_exists. exists x. split; [exact I | apply beq_eq; reflexivity]. }
  split; [vm_compute; reflexivity|]. split; [right|split]; (split; [apply N; vm_compute; reflexivity|]); cbn; eauto.
Qed.
