(** Whole documents: the text of a history of calls as a sequence of pieces, and reading it back. *)
From Coq Require Import String.
From Coq Require Import ZArith List Bool Lia ZifyBool ZifyNat.
From Verif Require Import Base Utf8 NameTables Lexer Escape EscapeSpec EscapeProofs LexerProofs CdataProofs NameProofs Decoder DecoderSpec DecoderProofs Printer Writer WriterProofs PrinterProofs EncoderSpec EncoderProofs TagText NsSpec NsProofs.
Import ListNotations.
Open Scope Z_scope.

(** *** Character data *)
(** [x] reads as [s], in whatever character data it stands. *)
Definition chars (x s : bytes) : Prop :=
  xml_text s /\ (x = [] <-> s = []) /\ (forall y, x <> 60 :: y) /\
  forall b0 b1 buf t, b1 <> 13 -> exists c0 c1, c1 <> 13 /\ tloop None false b0 b1 buf (x ++ t) = tloop None false c0 c1 (buf ++ s) t.
Lemma chars_nil : chars [] [].
Proof. split; [constructor|]. split; [tauto|]. split; [discriminate|]. intros b0 b1 buf t N. exists b0, b1. rewrite app_nil_r. auto. Qed.
Lemma chars_app : forall x s y t, chars x s -> chars y t -> chars (x ++ y) (s ++ t).
Proof.
  intros x s y t (A1 & A2 & A3 & A4) (B1 & B2 & B3 & B4). split; [apply xml_text_app; auto|]. split; [|split].
  - split; intro H; apply app_eq_nil in H; destruct H as [H1 H2]; [apply A2 in H1; apply B2 in H2|apply A2 in H1; apply B2 in H2]; subst; reflexivity.
  - intros z H. destruct x as [|c x]; [apply (B3 z); exact H|]. cbn in H. injection H as -> _. apply (A3 x). reflexivity.
  - intros b0 b1 buf r N. rewrite <- app_assoc. destruct (A4 b0 b1 buf (y ++ r) N) as (c0 & c1 & N1 & E1). destruct (B4 c0 c1 (buf ++ s) r N1) as (e0 & e1 & N2 & E2).
    exists e0, e1. split; auto. rewrite E1, E2, app_assoc. reflexivity.
Qed.
Lemma chars_reads : forall x s rest, chars x s -> x <> [] -> rest = [] \/ (exists r, rest = 60 :: r) -> raw_token (x ++ rest) = ROk (TChar s, None) rest.
Proof.
  intros x s rest (A1 & A2 & A3 & A4) N R. destruct x as [|c x]; [congruence|]. cbn [app]. unfold raw_token. replace (c =? 60) with false by (symmetry; apply Z.eqb_neq; intros ->; apply (A3 x); reflexivity).
  cbn [negb]. unfold text. fold (tloop None false 0 0 [] (c :: x ++ rest)). destruct (A4 0 0 [] rest) as (c0 & c1 & N1 & E); [lia|]. cbn [app] in E. rewrite E.
  assert (E2 : tloop None false c0 c1 s rest = ROk s rest).
  { destruct R as [->|(r & ->)]; [reflexivity|]. unfold tloop. cbn [length text_loop negb]. change (60 =? 62) with false. rewrite andb_false_r. reflexivity. }
  rewrite E2, xml_text_good by auto. reflexivity.
Qed.
Lemma escape_nonempty : forall m s, s <> [] -> escape m s <> [].
Proof.
  intros m s N E. rewrite escape_pieces in E. rewrite pieces_cons in E by auto. cbn [flat_map] in E. apply app_eq_nil in E. destruct E as [E _].
  unfold esc_piece in E. cbn [fst snd] in E. pose proof (decode_size s N) as [D1 D2]. destruct (esc_for m _ _) as [e|] eqn:F.
  - apply esc_for_cases in F. destruct F as [[-> _]|(_ & _ & e' & -> & _)]; discriminate.
  - apply (f_equal (@length Z)) in E. rewrite firstn_length_le in E by auto. cbn in E. lia.
Qed.
Lemma escape_chars : forall m s, xml_text s -> chars (escape m s) s.
Proof.
  intros m s X. pose proof (xml_text_bytes s X) as B. split; [exact X|]. split; [|split].
  - split; [|intros ->; reflexivity]. intro E. destruct s as [|c s]; auto. exfalso. eapply escape_nonempty; [|exact E]. discriminate.
  - intros y E. pose proof (escape_no_markup m s B) as NM. rewrite E in NM. remember (60 :: y) as w eqn:W. destruct NM as [|r u s' U XX NI _|e s' R' _]; [discriminate| |].
    + destruct U as [r HR| | |]; cbn [app] in W; apply (f_equal (hd 0)) in W; cbn [hd] in W; try lia. subst r. apply NI. cbn. auto.
    + destruct R'; discriminate.
  - intros b0 b1 buf t N. rewrite escape_pieces. destruct (read_pieces m None (pieces s)) with (b0 := b0) (b1 := b1) (buf := buf) (t := t) as (c0 & c1 & N1 & E); auto; [left; auto|apply pieces_kind; auto|].
    exists c0, c1. split; auto. fold (EscapeProofs.clean s) in E. rewrite (clean_id s X) in E. exact E.
Qed.
Lemma white_chars : forall w, white w -> chars w w.
Proof.
  intros w W. split; [|split; [tauto|split]].
  - apply xml_text_ascii. eapply Forall_impl; [|exact W]. cbn. lia.
  - intros y ->. inversion W; subst. lia.
  - intros b0 b1 buf t N. apply tloop_bytes; auto; [left; auto|]. eapply Forall_impl; [|exact W]. cbn. lia.
Qed.

(** *** Pieces of text *)
Definition is_char (t : token) : bool := match t with TChar _ => true | _ => false end.
Definition piece (p : bytes * token) : Prop :=
  match snd p with
  | TChar s => chars (fst p) s
  | w => forall rest, raw_token (fst p ++ rest) = ROk (w, None) rest
  end.
Lemma raw_other_head : forall x w rest, is_char w = false -> raw_token (x ++ rest) = ROk (w, None) rest -> raw_token (x ++ rest) <> RErr EEof -> exists y, x ++ rest = 60 :: y.
Proof.
  intros x w rest C E N. destruct (x ++ rest) as [|b t]; [cbn in N; congruence|]. unfold raw_token in E. destruct (b =? 60) eqn:B; [exists t; f_equal; lia|].
  exfalso. cbn [negb] in E. destruct (text None false (b :: t)); try discriminate. cbn in E. injection E as <- _. discriminate.
Qed.
Lemma pieces_read : forall ps x s, Forall piece ps -> chars x s -> written (x ++ concat (map fst ps)) None (merge s (map snd ps)) [] None.
Proof.
  induction ps as [|[y w] ps IH]; intros x s F C.
  - cbn. rewrite app_nil_r. pose proof C as (_ & CE & _). destruct s as [|c s].
    + destruct CE as [_ CE]. rewrite CE by auto. constructor.
    + eapply W_tok; [|constructor]. rewrite <- (app_nil_r x) at 1. apply chars_reads; auto. intro X. apply CE in X. discriminate.
  - inversion F as [|? ? P F']; subst. cbn [map fst snd concat]. unfold piece in P. cbn [fst snd] in P. pose proof C as (_ & CE & _).
    assert (OTHER : is_char w = false -> (forall rest, raw_token (y ++ rest) = ROk (w, None) rest) -> written (x ++ y ++ concat (map fst ps)) None (match s with [] => w :: merge [] (map snd ps) | _ => TChar s :: w :: merge [] (map snd ps) end) [] None).
    { intros NC R. assert (T : written (y ++ concat (map fst ps)) None (w :: merge [] (map snd ps)) [] None) by (eapply W_tok; [apply R|apply (IH [] []); auto; apply chars_nil]).
      destruct s as [|c s]; [destruct CE as [_ CE]; rewrite CE by auto; exact T|]. eapply W_tok; [|exact T]. apply chars_reads; auto; [intro X; apply CE in X; discriminate|].
      right. apply (raw_other_head y w); auto. rewrite R. discriminate. }
    destruct w; try (apply OTHER; auto; fail). cbn [merge]. rewrite app_assoc. apply IH; auto. apply chars_app; auto.
Qed.

(** *** Reading names back *)
(** Merging character data does not matter for names. *)
Definition inert (t : token) : Prop := (forall n a, t <> TStart n a) /\ (forall n, t <> TEnd n).
Lemma inert_char : forall s, inert (TChar s). Proof. split; discriminate. Qed.
Lemma interp_merge : forall o ws ts o', interp o ws ts o' -> forall s, interp o (merge s ws) (merge s ts) o'.
Proof.
  induction 1 as [o|o n a ws ts o' H IH|o n a ws ts o' H IH|o t ws ts o' N1 N2 H IH]; intro s.
  - cbn. destruct s; [constructor|apply I_other; [discriminate|discriminate|constructor]].
  - cbn [merge]. destruct s; [constructor; apply IH|apply I_other; [discriminate|discriminate|]; constructor; apply IH].
  - cbn [merge]. destruct s; [constructor; apply IH|apply I_other; [discriminate|discriminate|]; constructor; apply IH].
  - destruct t; cbn [merge]; try (exfalso; (eapply N1 || eapply N2); reflexivity); try apply IH;
      (destruct s; [apply I_other; auto|apply I_other; [discriminate|discriminate|]; apply I_other; auto]).
Qed.
Lemma interp_app : forall o ws ts o1, interp o ws ts o1 -> forall ws2 ts2 o2, interp o1 ws2 ts2 o2 -> interp o (ws ++ ws2) (ts ++ ts2) o2.
Proof. induction 1; intros; cbn; auto; constructor; auto. Qed.
Lemma interp_step : forall o w ws ts o2, interp o (w :: ws) ts o2 -> exists t ts' o1, ts = t :: ts' /\ interp o [w] [t] o1 /\ interp o1 ws ts' o2.
Proof.
  intros o w ws ts o2 H. inversion H; subst; eexists _, _, _; (split; [reflexivity|]); (split; [|eassumption]); try (repeat constructor; fail).
  apply I_other; auto. constructor.
Qed.
Lemma interp_one_det : forall o w t o1 t' o1', interp o [w] [t] o1 -> interp o [w] [t'] o1' -> t = t' /\ o1 = o1'.
Proof.
  intros o w t o1 t' o1' A B. inversion A; subst; inversion B; subst;
    repeat match goal with H : interp _ [] [] _ |- _ => inversion H; subst; clear H end; auto;
    exfalso; match goal with X : forall n a, _ <> TStart n a |- _ => try (eapply X; reflexivity) end; match goal with X : forall n, _ <> TEnd n |- _ => try (eapply X; reflexivity) end.
Qed.
(** Declarations that are not rejected: a prefix is not empty and not bound to the empty name. *)
Definition decls_ok (w : token) : Prop :=
  match w with TStart _ a => forall x, In x a -> space (aname x) = xmlnsPrefix -> avalue x <> [] /\ local (aname x) <> [] | _ => True end.
Lemma declare_works : forall a s, (forall x, In x a -> space (aname x) = xmlnsPrefix -> avalue x <> [] /\ local (aname x) <> []) -> exists s', declare a s = inl s'.
Proof.
  induction a as [|[n v] a IH]; intros s H; cbn [declare]; [eauto|].
  destruct (beq (space n) xmlnsPrefix) eqn:B.
  - apply beq_eq in B. destruct (H (mkattr n v) (or_introl eq_refl) B) as [V L]. cbn in V, L. replace (beq v []) with false by (symmetry; now apply beq_neq). replace (beq (local n) []) with false by (symmetry; now apply beq_neq).
    cbn [andb]. apply IH. intros; apply H; cbn; auto.
  - cbn [andb]. apply IH. intros; apply H; cbn; auto.
Qed.
Lemma read_one : forall d o w inp1 c1 t o1, rel d o -> written (d_inp d) (d_close d) [w] inp1 c1 -> interp o [w] [t] o1 -> decls_ok w ->
  exists d', next_token d = TokOk t d' /\ d_inp d' = inp1 /\ d_close d' = c1 /\ rel d' o1.
Proof.
  intros d o w inp1 c1 t o1 R W I D.
  assert (OK : exists t' d', next_token d = TokOk t' d' /\ d_inp d' = inp1 /\ d_close d' = c1).
  { destruct d as [inp c stk m err]. destruct R as [R1 R2 R3 R4 R5]. cbn in *. subst err. unfold next_token, raw_step. cbn [d_err d_close d_inp d_stk d_ns].
    assert (POP : forall n a o', o = (n, a) :: o' -> exists n' stk' m', pop_element n stk m = inl (n', stk', m')).
    { intros n a o' ->. inversion R3 as [|? ? us stk0 ? G F U]; subst. cbn [pop_element]. rewrite !beq_refl. cbn [negb]. destruct (undo (us ++ stk0) m). eauto. }
    inversion W as [|? n ? ? ? W'|? ? c2 inp2 ? ? ? RT W']; subst.
    - inversion W'; subst. destruct (R5 n eq_refl) as (a & o' & ->). cbn [d_stk d_ns d_inp d_close]. destruct (POP n a o' eq_refl) as (n' & stk' & m' & ->). eexists _, _. split; [reflexivity|]. cbn. auto.
    - inversion W'; subst. rewrite RT. destruct w as [n a|n|s|s|tg s|s]; cbn [d_stk d_ns d_inp d_close]; try (eexists _, _; split; [reflexivity|cbn; auto]; fail).
      + destruct (declare_works a (stk, m) D) as ([stk' m'] & ->). eexists _, _. split; [reflexivity|cbn; auto].
      + inversion I; subst; [|exfalso; match goal with X : forall n, _ <> TEnd n |- _ => eapply X; reflexivity end]. edestruct POP as (n' & stk' & m' & ->); [reflexivity|]. eexists _, _. split; [reflexivity|cbn; auto]. }
  destruct OK as (t' & d' & E & E1 & E2). destruct (next_ok _ _ _ _ R E) as (w' & o' & W' & I' & R').
  assert (w' = w).
  { clear - W W'. inversion W; subst; inversion W'; subst; try congruence. }
  subst w'. specialize (I' [] [] o' (I_nil _)). destruct (interp_one_det _ _ _ _ _ _ I I') as [-> ->]. exists d'. auto.
Qed.
Lemma written_step : forall inp c w ws inp2 c2, written inp c (w :: ws) inp2 c2 -> exists inp1 c1, written inp c [w] inp1 c1 /\ written inp1 c1 ws inp2 c2.
Proof. intros inp c w ws inp2 c2 H. inversion H; subst; eexists _, _; (split; [|eassumption]); econstructor; eauto; constructor. Qed.
(** Written tokens that nest are returned one by one, with expanded names. *)
Lemma read_all : forall ws d o inp' c' ts o', rel d o -> written (d_inp d) (d_close d) ws inp' c' -> interp o ws ts o' -> Forall decls_ok ws ->
  exists d', calls d ts d' /\ d_inp d' = inp' /\ d_close d' = c' /\ rel d' o'.
Proof.
  induction ws as [|w ws IH]; intros d o inp' c' ts o' R W I F.
  - inversion W; subst. inversion I; subst. exists d. split; [constructor|auto].
  - inversion F; subst. destruct (written_step _ _ _ _ _ _ W) as (inp1 & c1 & W1 & W2). destruct (interp_step _ _ _ _ _ I) as (t & ts' & o1 & -> & I1 & I2).
    destruct (read_one d o w inp1 c1 t o1 R W1 I1) as (d1 & N & <- & <- & R1); auto. destruct (IH d1 o1 inp' c' ts' o' R1 W2 I2) as (d' & C & A); auto.
    exists d'. split; [econstructor; eauto|auto].
Qed.

(** *** Sessions *)
(** The tags that are open at the end of a text. *)
Definition open_in (text : bytes) (open : list tag) : Prop := exists ws ts, written text None ws [] None /\ interp [] ws ts open.
(** What is asked of an accepted call: a start tag fits where it stands, text is XML text, and comments, instructions
    and directives are written so that they read back (C48 and C49 tell when). *)
Definition suits (inh : bool) (pol : bytes -> bytes) (text : bytes) (t : token) (x : bytes) : Prop :=
  match t with
  | TStart n a => forall open, open_in text open -> fits inh pol open n a
  | TEnd _ => True
  | TChar s => xml_text s
  | _ => forall rest, raw_token (x ++ rest) = ROk (t, None) rest
  end.
(** Calls on one encoder whose writer accepts everything and has nothing yet; the flag tells whether indentation was
    ever asked for, which must be white space. *)
Inductive session (o : writer) (inh : bool) (pol : bytes -> bytes) : bool -> list call -> encoder -> Prop :=
| S_new u : counted u -> u_out u = [] -> session o inh pol false [] (new_encoder u)
| S_token i h e t e' r x : session o inh pol i h e -> enc_token o t e = Some (e', r) -> total e' = total e ++ x -> (r = Done -> suits inh pol (total e) t x) ->
    session o inh pol i (h ++ [mkcall t (match r with Done => true | _ => false end) x]) e'
| S_flush i h e : session o inh pol i h e -> session o inh pol i h (fst (enc_flush o e))
| S_indent i h e p n : session o inh pol i h e -> white p -> white n -> session o inh pol true h (enc_indent p n e).
Definition layout (i : bool) (w : bytes) : Prop := if i then white w else w = [].

Lemma refused_nothing : forall k t s, 0 <= p_seq s -> ~ (exists x, snd (encode_token k t s) = Ok x) -> fst (fst (encode_token k t s)) = [] /\ snd (fst (encode_token k t s)) = s.
Proof.
  intros k t s Q N. assert (OT : (forall n a, t <> TStart n a) -> (forall n, t <> TEnd n) -> fst (fst (encode_token k t s)) = [] /\ snd (fst (encode_token k t s)) = s).
  { intros A B. split; [destruct (other_refused k t s A B) as [O|[_ O]]; [contradiction|exact O]|apply other_elems; auto]. }
  destruct t as [n a|n|y|y|tg y|y]; try (apply OT; discriminate); cbn [encode_token] in *.
  - destruct (beq (local n) []) eqn:L; [unfold write_start; rewrite L; split; reflexivity|]. exfalso. apply N. apply beq_neq in L.
    destruct (write_start_ok n a s Q L) as (cs & s' & el & ind & rest & E & _). rewrite E. exists tt. reflexivity.
  - assert (RF : exists m, write_end n s = ([], s, Err (EncErr m))).
    { apply write_end_refused. intros el es EL (O1 & O2 & O3). apply N. destruct (write_end_ok n s el es EL O1 O2 O3) as (cs & s' & ind & E & _). rewrite E. exists tt. reflexivity. }
    destruct RF as [m ->]. split; reflexivity.
Qed.
Ltac flat := repeat (progress (cbn [concat app flat_map]; rewrite ?app_nil_r, ?concat_app, <- ?app_assoc)).
Lemma end_layout : forall n s e es, p_elems s = e :: es -> forall x, snd (write_end n s) = Ok x ->
  exists cs s' W, write_end n s = (cs, s', Ok tt) /\ p_elems s' = es /\ p_seq s' = p_seq s /\ same_layout s s' /\ concat cs = W ++ end_text (mkname (el_prefix e) (el_name e)) /\
    (white (p_prefix s) -> white (p_indent s) -> white W) /\ (p_prefix s = [] -> p_indent s = [] -> W = []) /\ space n = el_ns e /\ snd (split_prefixed (local n)) = el_name e.
Proof.
  intros n s e es E x H. unfold write_end in *. destruct (beq (local n) []); [discriminate|]. unfold mbind at 1 in H. unfold mget at 1 in H. unfold mbind at 1. unfold mget at 1. rewrite E in *.
  destruct (beq (el_name e) []); [discriminate|]. destruct (split_prefixed (local n)) as [p l]. cbn [snd]. destruct (_ && _ && _); [discriminate|].
  destruct (beq l (el_name e)) eqn:B1; [|discriminate]. destruct (beq (space n) (el_ns e)) eqn:B2; [|discriminate]. cbn [negb] in *. apply beq_eq in B1, B2.
  destruct (indent_white (-1) s) as (ci & s1 & E1 & EL & SQ & LY & WH & WN). unfold mbind at 1. rewrite E1. unfold mbind, emit, mget, mput.
  eexists _, _, (concat ci). split; [reflexivity|]. cbn. rewrite EL, E. split; auto. split; auto. split; [destruct LY; split; auto|]. split; [|auto].
  unfold end_text. rewrite name_text_join. unfold join_prefixed. destruct (el_prefix e) as [|c pr] eqn:PE; cbn [beq]; flat; reflexivity.
Qed.

Definition state_ok (inh : bool) (pol : bytes -> bytes) (i : bool) (h : list call) (e : encoder) : Prop :=
  exists ps ts open, total e = concat (map fst ps) /\ Forall piece ps /\ interp [] (map snd ps) ts open /\ Forall decls_ok (map snd ps) /\ link inh pol (p_elems (en_p e)) open /\
    resembles inh (layout i) h ts /\ fine e /\ etook e (total e) /\ 0 <= p_seq (en_p e) /\ layout i (p_prefix (en_p e)) /\ layout i (p_indent (en_p e)).
Lemma state_open : forall inh pol i h e ps ts open, total e = concat (map fst ps) -> Forall piece ps -> interp [] (map snd ps) ts open -> state_ok inh pol i h e -> open_in (total e) open.
Proof.
  intros inh pol i h e ps ts open T F I _. exists (merge [] (map snd ps)), (merge [] ts). split; [|apply interp_merge; auto]. rewrite T. apply (pieces_read ps [] []); auto. apply chars_nil.
Qed.
Lemma resembles_mono : forall inh (l1 l2 : bytes -> Prop), (forall w, l1 w -> l2 w) -> forall h ts, resembles inh l1 h ts -> resembles inh l2 h ts.
Proof. intros inh l1 l2 L h ts H. induction H; constructor; auto. Qed.
Lemma layout_W : forall i p n W, layout i p -> layout i n -> (white p -> white n -> white W) -> (p = [] -> n = [] -> W = []) -> layout i W.
Proof. intros [] p n W A B C D; cbn in *; auto. Qed.
Lemma layout_white : forall i W, layout i W -> white W.
Proof. intros [] W H; cbn in *; [auto|subst; constructor]. Qed.
Lemma white_piece : forall W, white W -> piece (W, TChar W). Proof. intros W H. apply white_chars. exact H. Qed.
Lemma link_head : forall inh pol e es open, link inh pol (e :: es) open -> exists ras open', open = (mkname (el_prefix e) (el_name e), ras) :: open' /\ link inh pol es open' /\
  rawname (mkname (el_prefix e) (el_name e)) /\ Forall rawattr ras /\ sane pol ras /\ exists u, expand open true (mkname (el_prefix e) (el_name e)) = mkname u (el_name e) /\ (u = el_ns e \/ inh = true /\ el_ns e = []).
Proof. intros inh pol e es open H. inversion H; subst. eexists _, _. split; [reflexivity|]. auto. Qed.
Lemma sane_decls : forall pol n ras, sane pol ras -> decls_ok (TStart n ras).
Proof.
  intros pol n ras S x I E. destruct x as [[sp lo] v]. cbn in *. subst sp. destruct (S lo v) as (U & _ & V); [exact I|]. split; [exact V|]. apply usable_nonempty; auto.
Qed.

Lemma session_ok : forall o inh pol i h e, willing o -> session o inh pol i h e -> state_ok inh pol i h e.
Proof.
  intros o inh pol i h e W H. induction H as [u C U|i h e t e' r x H IH R X SU|i h e H IH|i h e p n H IH WP WN].
  - exists [], [], []. destruct (new_inv u C) as (_ & _ & F & T & Q). split; [unfold total; cbn; rewrite U; reflexivity|]. split; [constructor|]. split; [constructor|]. split; [constructor|]. split; [constructor|]. split; [constructor|].
    split; [exact F|]. split; [exact T|]. split; [exact Q|]. split; reflexivity.
  - pose proof IH as (ps & ts & open & TE & FP & I & FD & L & RS & F & T & Q & LP & LI).
    destruct (token_step o t e W F T Q) as (e1 & r1 & R1 & F1 & T1 & P1 & X1 & D1). rewrite R in R1. injection R1 as <- <-.
    assert (XE : x = concat (fst (fst (encode_token (length (b_buf (en_b e))) t (en_p e))))) by (eapply app_inv_head; rewrite <- X; exact X1). clear X1.
    set (k := length (b_buf (en_b e))) in *. pose proof (state_open _ _ _ _ _ _ _ _ TE FP I IH) as OP.
    assert (DR : r = Done \/ r <> Done) by (destruct r; [left; reflexivity|right; discriminate|right; discriminate]). destruct DR as [DR|DR].
    2: { destruct (refused_nothing k t (en_p e) Q) as [N1 N2]; [intro Y; apply D1 in Y; contradiction|]. rewrite N1 in XE. rewrite N2 in P1. cbn in XE. subst x. rewrite app_nil_r in X.
         exists ps, ts, open. rewrite P1, X. split; auto. split; auto. split; auto. split; auto. split; auto. split; [|split; [auto|split; [rewrite <- X; auto|auto]]]. destruct r; try (apply Re_refused; auto). congruence. }
    subst r. destruct D1 as [D1 _]. destruct (D1 eq_refl) as [z Z]. specialize (SU eq_refl).
    assert (OTHER : (forall n a, t <> TStart n a) -> (forall n, t <> TEnd n) -> piece (x, t) -> state_ok inh pol i (h ++ [mkcall t true x]) e').
    { intros A1 A2 PC. exists (ps ++ [(x, t)]), (ts ++ [t]), open. rewrite (other_elems k t (en_p e) A1 A2) in P1. rewrite P1, !map_app, concat_app. cbn [map fst snd concat]. rewrite app_nil_r.
      split; [congruence|]. split; [apply Forall_app; auto|]. split; [eapply interp_app; eauto; apply I_other; auto; constructor|]. split; [apply Forall_app; split; auto; constructor; auto; destruct t; cbn; auto; exfalso; eapply A1; reflexivity|].
      split; auto. split; [apply Re_other; auto|]. auto. }
    destruct t as [n a|n|y|y|tg y|y].
    + cbn [encode_token suits] in *. specialize (SU open OP). destruct (start_ns inh pol n a (en_p e) open Q L SU) as (cs & s' & el & ras & WW & E & EL & Q' & LY & CT & WH & WN & L' & PN & PA & _).
      rewrite E in *. cbn [fst snd] in *. rewrite CT in XE. pose proof (layout_W i _ _ WW LP LI WH WN) as LW.
      destruct (link_head inh pol _ _ _ ltac:(rewrite <- EL; exact L')) as (ras' & open' & OE & _ & RN & RA & SN & _). injection OE as <- <-.
      eexists (ps ++ [(WW, TChar WW); (start_text _ ras, TStart _ ras)]), _, _. rewrite P1, !map_app, concat_app. cbn [map fst snd concat]. rewrite app_nil_r.
      split; [rewrite X, XE, TE; reflexivity|]. split; [apply Forall_app; split; auto; constructor; [apply white_piece; eapply layout_white; eauto|constructor; [|constructor]]; intro rest; apply start_reads; auto|].
      split; [eapply interp_app; [exact I|]; apply I_other; [discriminate|discriminate|]; constructor; constructor|].
      split; [apply Forall_app; split; auto; constructor; [exact Logic.I|constructor; [eapply sane_decls; eauto|constructor]]|]. split; [exact L'|].
      split; [apply Re_start; auto|]. split; auto. split; auto. split; auto. destruct LY as [-> ->]. auto.
    + cbn [encode_token] in *. destruct (p_elems (en_p e)) as [|el es] eqn:EL.
      { destruct (write_end_refused n (en_p e)) as [m Y]; [congruence|]. rewrite Y in Z. discriminate. }
      destruct (end_layout n (en_p e) el es EL z Z) as (cs & s' & WW & E & EL' & SQ & LY & CT & WH & WN & NS & NL). rewrite E in *. cbn [fst snd] in *. rewrite CT in XE. pose proof (layout_W i _ _ WW LP LI WH WN) as LW.
      destruct (link_head inh pol _ _ _ L) as (ras & open' & -> & L' & RN & RA & SN & u & EX & XU).
      eexists (ps ++ [(WW, TChar WW); (end_text _, TEnd _)]), _, open'. rewrite P1, !map_app, concat_app. cbn [map fst snd concat]. rewrite app_nil_r.
      split; [rewrite X, XE, TE; reflexivity|]. split; [apply Forall_app; split; auto; constructor; [apply white_piece; eapply layout_white; eauto|constructor; [|constructor]]; intro rest; apply end_reads; auto|].
      split; [eapply interp_app; [exact I|]; apply I_other; [discriminate|discriminate|]; constructor; constructor|].
      split; [apply Forall_app; split; auto; repeat constructor|]. split; [rewrite EL'; exact L'|].
      split; [apply Re_end; auto; rewrite EX; split; [cbn; destruct XU as [->|[X1 X2]]; [left; congruence|right; split; congruence]|]; exists (fst (split_prefixed (local n))); cbn; rewrite <- NL; apply split_parts|]. split; auto. split; auto. split; [rewrite SQ; auto|]. destruct LY as [-> ->]. auto.
    + apply OTHER; try discriminate. cbn [encode_token emit fst snd] in XE. rewrite XE. apply (escape_chars (EText false) y). exact SU.
    + apply OTHER; try discriminate. exact SU.
    + apply OTHER; try discriminate. exact SU.
    + apply OTHER; try discriminate. exact SU.
  - destruct IH as (ps & ts & open & TE & FP & I & FD & L & RS & F & T & Q & LP & LI). destruct (enc_flush_fine o e W F) as [F' D'].
    assert (PE : en_p (fst (enc_flush o e)) = en_p e) by reflexivity.
    destruct T as (T & T2 & T3). destruct (flush_took o _ _ (willing_obeys _ W) T) as [T' _].
    assert (TE' : etook (fst (enc_flush o e)) (total e)). { split; [exact T'|]. destruct F' as (A1 & A2 & A3). split; auto. congruence. }
    exists ps, ts, open. rewrite PE, <- (fine_took _ _ TE' F'). repeat (split; [assumption|]). assumption.
  - destruct IH as (ps & ts & open & TE & FP & I & FD & L & RS & F & T & Q & LP & LI). exists ps, ts, open. split; [exact TE|]. split; [exact FP|]. split; [exact I|]. split; [exact FD|]. split; [exact L|].
    split; [eapply resembles_mono; [|exact RS]; intros w LW; eapply layout_white; eauto|]. split; [exact F|]. split; [exact T|]. split; [exact Q|]. split; [exact WP|exact WN].
Qed.
