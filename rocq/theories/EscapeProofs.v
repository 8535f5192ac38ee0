(** Escaped text is read back. *)
From Coq Require Import String.
From Coq Require Import ZArith List Bool Lia.
From Coq Require Import ZifyBool ZifyNat ZifyN.
From Verif Require Import Base Utf8 NameTables Lexer LexerProofs Escape EscapeSpec.
Import ListNotations.
Open Scope Z_scope.

(** *** The encoding relation and the model *)
Lemma utf8_encode : forall r u, utf8 r u <-> scalar r /\ u = encode_rune r.
Proof.
  intros r u. split.
  - intro H. unfold scalar, encode_rune. destruct H as [r H|a b H1 H2 H3|a b c H1 H2 H3 H4 H5|a b c d H1 H2 H3 H4 H5].
    + split; [lia|]. unb; auto; lia.
    + set (r := a * 64 + b) in *.
      assert (E1 : r / 64 = a) by (subst r; Z.to_euclidean_division_equations; lia).
      assert (E2 : r mod 64 = b) by (subst r; Z.to_euclidean_division_equations; lia).
      rewrite E1, E2. assert (r < 2048) by (subst r; lia). split; [lia|]. unb; auto; lia.
    + set (r := a * 4096 + b * 64 + c) in *.
      assert (E1 : r / 4096 = a) by (subst r; Z.to_euclidean_division_equations; lia).
      assert (E2 : (r / 64) mod 64 = b) by (subst r; Z.to_euclidean_division_equations; lia).
      assert (E3 : r mod 64 = c) by (subst r; Z.to_euclidean_division_equations; lia).
      rewrite E1, E2, E3. assert (r < 65536) by (subst r; lia). split; [lia|]. unb; auto; lia.
    + set (r := a * 262144 + b * 4096 + c * 64 + d) in *.
      assert (E1 : r / 262144 = a) by (subst r; Z.to_euclidean_division_equations; lia).
      assert (E2 : (r / 4096) mod 64 = b) by (subst r; Z.to_euclidean_division_equations; lia).
      assert (E3 : (r / 64) mod 64 = c) by (subst r; Z.to_euclidean_division_equations; lia).
      assert (E4 : r mod 64 = d) by (subst r; Z.to_euclidean_division_equations; lia).
      rewrite E1, E2, E3, E4. split; [lia|]. unb; auto; lia.
  - intros [S ->]. unfold scalar, encode_rune in *.
    destruct ((r <? 0) || (1114111 <? r) || ((55296 <=? r) && (r <=? 57343))) eqn:E0; [lia|].
    destruct (r <? 128) eqn:E1; [constructor; lia|].
    destruct (r <? 2048) eqn:E2.
    { replace r with (r / 64 * 64 + r mod 64) at 1 by (Z.to_euclidean_division_equations; lia).
      apply U2; Z.to_euclidean_division_equations; lia. }
    destruct (r <? 65536) eqn:E3.
    { assert (V : r = r / 4096 * 4096 + (r / 64) mod 64 * 64 + r mod 64) by (Z.to_euclidean_division_equations; lia).
      rewrite V at 1. apply U3; rewrite <- ?V; try (Z.to_euclidean_division_equations; lia). }
    assert (V : r = r / 262144 * 262144 + (r / 4096) mod 64 * 4096 + (r / 64) mod 64 * 64 + r mod 64) by (Z.to_euclidean_division_equations; lia).
    rewrite V at 1. apply U4; rewrite <- ?V; try (Z.to_euclidean_division_equations; lia).
Qed.
Lemma in_char_range_iff : forall r, in_char_range r = true <-> xml_char r.
Proof. intro r. unfold in_char_range, xml_char. lia. Qed.

(** A string starting with an invalid byte has no encoding as a prefix. *)
Lemma no_encoding : forall s r u s', is_bytes s -> s <> [] -> decode_rune s = (rune_error, 1%nat) -> utf8 r u -> s <> u ++ s'.
Proof.
  intros s r u s' B N D U E. apply utf8_encode in U. destruct U as [S ->]. subst s. rewrite decode_encode in D by auto.
  injection D as -> D. discriminate.
Qed.

(** *** Escaping, piece by piece *)
Definition esc_piece (m : emode) (p : Z * bytes) : bytes :=
  match esc_for m (fst p) (length (snd p)) with Some e => e | None => snd p end.
Definition clean_piece (p : Z * bytes) : bytes := if good_piece p then snd p else replacement.
Definition clean (s : bytes) : bytes := flat_map clean_piece (pieces s).

Lemma esc_loop_pieces : forall k m seg s, (length s <= k)%nat -> concat (esc_loop k m seg s) = seg ++ flat_map (esc_piece m) (pieces s).
Proof.
  induction k as [|k IH]; intros m seg s L.
  - destruct s; cbn in *; [|lia]. now rewrite app_nil_r.
  - destruct s as [|b t]; [cbn; now rewrite !app_nil_r|]. cbn [esc_loop].
    rewrite pieces_cons by discriminate. pose proof (decode_size (b :: t) ltac:(discriminate)) as [D1 D2].
    destruct (decode_rune (b :: t)) as [r n] eqn:E. cbn [fst snd] in *. cbn [flat_map]. unfold esc_piece at 1. cbn [fst snd].
    rewrite firstn_length_le by auto.
    assert (LS : (length (skipn n (b :: t)) <= k)%nat) by (rewrite skipn_length; cbn [length] in *; lia).
    destruct (esc_for m r n).
    + cbn [concat]. rewrite IH by auto. reflexivity.
    + rewrite IH by auto. now rewrite app_assoc.
Qed.
Lemma escape_pieces : forall m s, escape m s = flat_map (esc_piece m) (pieces s).
Proof. intros. unfold escape, esc_writes. rewrite esc_loop_pieces by lia. reflexivity. Qed.

(** The pieces of the cleaned string are the cleaned pieces. *)
Definition clean_pair (p : Z * bytes) : Z * bytes := if good_piece p then p else (rune_error, replacement).
Lemma pieces_clean : forall s, is_bytes s -> pieces (clean s) = map clean_pair (pieces s).
Proof.
  intros s B. unfold clean. pose proof (pieces_kind s B) as K. induction K as [|[r u] ps H K IH]; [reflexivity|].
  cbn [flat_map map]. unfold clean_piece at 1, clean_pair at 1.
  destruct (good_piece (r, u)) eqn:G.
  - destruct H as [[S E]|[E (b & Eb & _)]]; cbn [fst snd] in *.
    + subst u. rewrite pieces_encode by auto. now rewrite IH.
    + subst r u. discriminate.
  - change replacement with (encode_rune rune_error). rewrite pieces_encode by apply rune_error_scalar. now rewrite IH.
Qed.
Lemma clean_good : forall s, is_bytes s -> forallb good_piece (pieces (clean s)) = true.
Proof.
  intros s B. rewrite pieces_clean by auto. rewrite forallb_forall. intros x I. apply in_map_iff in I.
  destruct I as (p & <- & _). unfold clean_pair. destruct (good_piece p) eqn:G; auto.
Qed.

Lemma clean_cleaned : forall s, is_bytes s -> cleaned s (clean s).
Proof.
  intro s. pattern s. apply pieces_ind; [intros; constructor|]. clear s. intros s N IH B. unfold clean. rewrite pieces_cons by auto.
  cbn [flat_map]. fold (clean (skipn (snd (decode_rune s)) s)).
  pose proof (IH (is_bytes_skip _ _ B)) as IH'. clear IH.
  destruct (decode_rune s) as [r n] eqn:D. cbn [fst snd] in *.
  assert (SP : s = firstn n s ++ skipn n s) by (symmetry; apply firstn_skipn).
  pose proof (decode_size s N) as [D1 D2]. rewrite D in D1, D2. cbn [snd] in D1, D2.
  assert (LF : length (firstn n s) = n) by (apply firstn_length_le; auto).
  unfold clean_piece, good_piece, bad_piece. cbn [fst snd]. rewrite LF.
  destruct ((r =? rune_error) && (n =? 1)%nat) eqn:BAD; cbn [negb andb].
  - assert (r = rune_error /\ n = 1%nat) as [-> ->] by lia. destruct s as [|b t]; [congruence|].
    cbn [skipn]. apply C_byte; [|exact IH']. intros r u s' U. eapply no_encoding; eauto.
  - assert (NF : ~ (r = rune_error /\ n = 1%nat)) by lia.
    destruct (decode_sound s r n B N D NF) as [S E].
    assert (U : utf8 r (firstn n s)) by (apply utf8_encode; auto).
    rewrite SP at 1. destruct (in_char_range r) eqn:R.
    + apply C_good with r; auto. now apply in_char_range_iff.
    + apply C_char with r; auto. intro X. apply in_char_range_iff in X. congruence.
Qed.

(** [cleaned] determines its result. *)
Lemma utf8_nonempty : forall r u, utf8 r u -> u <> []. Proof. intros r u H. destruct H; discriminate. Qed.
Lemma utf8_prefix : forall r u r' u' s s', utf8 r u -> utf8 r' u' -> u ++ s = u' ++ s' -> r = r' /\ u = u' /\ s = s'.
Proof.
  intros r u r' u' s s' U U' E. apply utf8_encode in U, U'. destruct U as [S ->], U' as [S' ->].
  assert (D := decode_encode r s S). rewrite E, decode_encode in D by auto. injection D as -> _. split; auto. split; auto.
  now apply app_inv_head in E.
Qed.
Lemma cleaned_det : forall s t, cleaned s t -> forall t', cleaned s t' -> t = t'.
Proof.
  induction 1 as [|r u s t U X H IH|r u s t U X H IH|b s t N H IH]; intros t' H'.
  - inversion H' as [|r u ? ? U ? ? E|r u ? ? U ? ? E|]; subst; auto.
    all: apply utf8_nonempty in U; destruct u; cbn in E; congruence.
  - remember (u ++ s) as w eqn:W. destruct H' as [|r' u' s' t' U' X' H'|r' u' s' t' U' X' H'|b s' t' N' H'].
    + apply utf8_nonempty in U. destruct u; cbn in W; congruence.
    + destruct (utf8_prefix _ _ _ _ _ _ U' U W) as (-> & -> & ->). f_equal. auto.
    + destruct (utf8_prefix _ _ _ _ _ _ U' U W) as (-> & -> & ->). contradiction.
    + exfalso. eapply N'; eauto.
  - remember (u ++ s) as w eqn:W. destruct H' as [|r' u' s' t' U' X' H'|r' u' s' t' U' X' H'|b s' t' N' H'].
    + apply utf8_nonempty in U. destruct u; cbn in W; congruence.
    + destruct (utf8_prefix _ _ _ _ _ _ U' U W) as (-> & -> & ->). contradiction.
    + destruct (utf8_prefix _ _ _ _ _ _ U' U W) as (-> & -> & ->). f_equal. auto.
    + exfalso. eapply N'; eauto.
  - remember (b :: s) as w eqn:W. destruct H' as [|r' u' s' t' U' X' H'|r' u' s' t' U' X' H'|b' s' t' N' H']; try discriminate.
    + exfalso. eapply N; eauto.
    + exfalso. eapply N; eauto.
    + injection W as -> ->. f_equal. auto.
Qed.
Lemma xml_text_bytes : forall s, xml_text s -> is_bytes s.
Proof.
  induction 1 as [|r u s U X H IH]; [constructor|]. apply is_bytes_app. split; auto. apply utf8_encode in U. destruct U as [_ ->]. apply encode_bytes.
Qed.
Lemma xml_text_cleaned : forall s, xml_text s -> cleaned s s.
Proof. induction 1; [constructor|]. eapply C_good; eauto. Qed.
Lemma clean_id : forall s, xml_text s -> clean s = s.
Proof. intros s H. eapply cleaned_det; [apply clean_cleaned, xml_text_bytes, H|apply xml_text_cleaned, H]. Qed.
Lemma clean_text : forall s, is_bytes s -> xml_text (clean s).
Proof.
  intros s B. unfold clean. pose proof (pieces_kind s B) as K. induction K as [|[r u] ps H K IH]; [constructor|].
  cbn [flat_map]. unfold clean_piece at 1. destruct (good_piece (r, u)) eqn:G.
  - unfold good_piece in G. apply andb_true_iff in G. cbn [fst snd] in *. destruct H as [[S E]|[E (b & Eb & _)]].
    + apply X_cons with r; auto; [apply utf8_encode; auto|]. now apply in_char_range_iff.
    + subst r u. destruct G. discriminate.
  - apply X_cons with rune_error; auto; [|unfold xml_char, rune_error; lia].
    apply utf8_encode. split; [apply rune_error_scalar|reflexivity].
Qed.
Lemma cleaned_iff : forall s t, is_bytes s -> (cleaned s t <-> t = clean s).
Proof.
  intros s t B. split; [intro H; eapply cleaned_det; eauto using clean_cleaned|]. intros ->. now apply clean_cleaned.
Qed.

(** *** Reading the escaped text *)
(** The loop with exactly enough budget. *)
Definition tloop q c b0 b1 buf inp := text_loop (S (length inp)) q c b0 b1 buf inp.
Lemma tloop_eq : forall k q c b0 b1 buf inp, (length inp < k)%nat -> text_loop k q c b0 b1 buf inp = tloop q c b0 b1 buf inp.
Proof. intros. unfold tloop. apply text_loop_fuel; lia. Qed.

Definition qok (q : option Z) : Prop := q = None \/ q = Some 34 \/ q = Some 39.
Lemma tloop_byte : forall q b0 b1 buf b t, qok q -> ~ In b [60; 62; 38; 13; 34; 39] -> b1 <> 13 ->
  tloop q false b0 b1 buf (b :: t) = tloop q false b1 b (buf ++ [b]) t.
Proof.
  intros q b0 b1 buf b t Q N N1. unfold tloop at 1. cbn [length]. remember (S (length t)) as k eqn:K. cbn [text_loop].
  assert (b <> 60 /\ b <> 62 /\ b <> 38 /\ b <> 13 /\ b <> 34 /\ b <> 39) as (A & B & C & D & E & F) by (cbn in N; lia).
  replace (b =? 62) with false by lia. replace (b =? 60) with false by lia. replace (b =? 38) with false by lia.
  replace (b =? 13) with false by lia. replace (b1 =? 13) with false by lia. rewrite andb_false_r. cbn [andb].
  assert (QF : match q with Some q => b =? q | None => false end = false) by (destruct Q as [->|[->| ->]]; lia).
  rewrite QF. subst k. reflexivity.
Qed.
Lemma tloop_bytes : forall u q b0 b1 buf t, qok q -> Forall (fun b => ~ In b [60; 62; 38; 13; 34; 39]) u -> b1 <> 13 ->
  exists c0 c1, c1 <> 13 /\ tloop q false b0 b1 buf (u ++ t) = tloop q false c0 c1 (buf ++ u) t.
Proof.
  induction u as [|b u IH]; intros q b0 b1 buf t Q F N.
  - exists b0, b1. rewrite app_nil_r. auto.
  - inversion F; subst. cbn [app]. rewrite tloop_byte by auto.
    destruct (IH q b1 b (buf ++ [b]) t Q) as (c0 & c1 & N' & E); auto. { cbn in *. lia. }
    exists c0, c1. split; auto. rewrite E. now rewrite <- app_assoc.
Qed.
Lemma tloop_entity : forall q b0 b1 buf e x t, qok q -> (forall t, char_entity (e ++ t) = ROk x t) ->
  tloop q false b0 b1 buf (38 :: e ++ t) = tloop q false 0 0 (buf ++ x) t.
Proof.
  intros q b0 b1 buf e x t Q H. unfold tloop at 1. cbn [length]. remember (S (length (e ++ t))) as k eqn:K. cbn [text_loop].
  replace (38 =? 62) with false by reflexivity. replace (38 =? 60) with false by reflexivity. rewrite andb_false_r. cbn [andb].
  assert (QF : match q with Some q => 38 =? q | None => false end = false) by (destruct Q as [->|[->| ->]]; reflexivity).
  rewrite QF. cbn [andb negb Z.eqb]. change (38 =? 38) with true. cbn [andb]. rewrite H. apply tloop_eq. subst k. rewrite app_length. lia.
Qed.

(** Each escape is an entity for the rune, except the replacement of what XML cannot hold. *)
Lemma esc_for_cases : forall m r n e, esc_for m r n = Some e ->
  (e = replacement /\ (in_char_range r = false \/ (r = rune_error /\ n = 1%nat))) \/
  (in_char_range r = true /\ 0 <= r < 128 /\ exists e', e = 38 :: e' /\ reference e /\ forall t, char_entity (e' ++ t) = ROk [r] t).
Proof.
  intros m r n e H. unfold esc_for in H.
  assert (IR : True) by exact I.
  assert (RD : forall a b, 48 <= a <= 57 -> 48 <= b <= 57 -> reference (38 :: 35 :: [a; b] ++ [59])).
  { intros. apply R_dec; [discriminate|]. repeat constructor; lia. }
  assert (RH : forall a, 48 <= a <= 57 \/ 65 <= a <= 70 -> reference (38 :: 35 :: 120 :: [a] ++ [59])).
  { intros. apply R_hex; [discriminate|]. constructor; [lia|constructor]. }
  destruct (Z.eqb_spec r 34) as [->|N34].
  { right. injection H as <-. split; [reflexivity|]. split; [lia|]. exists (str "#34;"). split; [reflexivity|]. split; [apply RD; lia|reflexivity]. }
  destruct (Z.eqb_spec r 39) as [->|N39].
  { right. injection H as <-. split; [reflexivity|]. split; [lia|]. exists (str "#39;"). split; [reflexivity|]. split; [apply RD; lia|reflexivity]. }
  destruct (Z.eqb_spec r 38) as [->|N38].
  { right. injection H as <-. split; [reflexivity|]. split; [lia|]. exists (str "amp;"). split; [reflexivity|]. split; [|reflexivity].
    apply (R_named [97;109;112]). cbn. auto. }
  destruct (Z.eqb_spec r 60) as [->|N60].
  { right. injection H as <-. split; [reflexivity|]. split; [lia|]. exists (str "lt;"). split; [reflexivity|]. split; [|reflexivity].
    apply (R_named [108;116]). cbn. auto. }
  destruct (Z.eqb_spec r 62) as [->|N62].
  { right. injection H as <-. split; [reflexivity|]. split; [lia|]. exists (str "gt;"). split; [reflexivity|]. split; [|reflexivity].
    apply (R_named [103;116]). cbn. auto. }
  destruct ((r =? 9) && _) eqn:E9.
  { right. assert (r = 9) by lia. subst r. injection H as <-. split; [reflexivity|]. split; [lia|]. exists (str "#x9;"). split; [reflexivity|]. split; [apply RH; lia|reflexivity]. }
  destruct (Z.eqb_spec r 10) as [->|N10].
  { right. destruct m as [[|]|]; try discriminate; injection H as <-; (split; [reflexivity|]; split; [lia|]; exists (str "#xA;"); split; [reflexivity|]; split; [apply RH; lia|reflexivity]). }
  destruct (Z.eqb_spec r 13) as [->|N13].
  { right. injection H as <-. split; [reflexivity|]. split; [lia|]. exists (str "#xD;"). split; [reflexivity|]. split; [apply RH; lia|reflexivity]. }
  destruct (negb (in_char_range r) || ((r =? 65533) && (n =? 1)%nat)) eqn:EB; [|discriminate].
  left. injection H as <-. split; [reflexivity|]. unfold rune_error. lia.
Qed.
Lemma esc_for_none : forall m r n, esc_for m r n = None ->
  in_char_range r = true /\ ~ (r = rune_error /\ n = 1%nat) /\ ~ In r [60; 62; 38; 13; 34; 39].
Proof.
  intros m r n H. unfold esc_for in H. unfold rune_error.
  destruct (r =? 34) eqn:?; [discriminate|]. destruct (r =? 39) eqn:?; [discriminate|]. destruct (r =? 38) eqn:?; [discriminate|].
  destruct (r =? 60) eqn:?; [discriminate|]. destruct (r =? 62) eqn:?; [discriminate|]. destruct ((r =? 9) && _); [discriminate|].
  destruct (r =? 10) eqn:?.
  { split; [unfold in_char_range; lia|]. split; [lia|]. cbn. lia. }
  destruct (r =? 13) eqn:?; [discriminate|].
  destruct (negb (in_char_range r) || ((r =? 65533) && (n =? 1)%nat)) eqn:?; [discriminate|].
  split; [lia|]. split; [lia|]. cbn. lia.
Qed.
Lemma encode_plain : forall r, scalar r -> ~ In r [60; 62; 38; 13; 34; 39] -> Forall (fun b => ~ In b [60; 62; 38; 13; 34; 39]) (encode_rune r).
Proof.
  intros r S N. unfold scalar, encode_rune in *. cbn [In] in *.
  destruct ((r <? 0) || (1114111 <? r) || ((55296 <=? r) && (r <=? 57343))) eqn:E0; [lia|].
  unb; repeat constructor; try lia; Z.to_euclidean_division_equations; lia.
Qed.
Lemma replacement_plain : Forall (fun b => ~ In b [60; 62; 38; 13; 34; 39]) replacement.
Proof. unfold replacement. repeat constructor; cbn; lia. Qed.

Lemma clean_piece_eq : forall r u, (scalar r /\ u = encode_rune r) -> clean_piece (r, u) = if in_char_range r then u else replacement.
Proof.
  intros r u [S ->]. unfold clean_piece, good_piece, bad_piece. cbn [fst snd].
  destruct (r =? rune_error) eqn:E; cbn [andb negb]; auto.
  assert (r = rune_error) by lia. subst r. reflexivity.
Qed.

Lemma read_pieces : forall m q ps, qok q ->
  Forall (fun p => (scalar (fst p) /\ snd p = encode_rune (fst p)) \/ (fst p = rune_error /\ exists b, snd p = [b] /\ 128 <= b)) ps ->
  forall b0 b1 buf t, b1 <> 13 ->
  exists c0 c1, c1 <> 13 /\ tloop q false b0 b1 buf (flat_map (esc_piece m) ps ++ t) = tloop q false c0 c1 (buf ++ flat_map clean_piece ps) t.
Proof.
  intros m q ps Q K. induction K as [|[r u] ps H K IH]; intros b0 b1 buf t N.
  - exists b0, b1. cbn. now rewrite app_nil_r.
  - cbn [flat_map]. rewrite <- app_assoc.
    assert (ST : exists c0 c1, c1 <> 13 /\ tloop q false b0 b1 buf (esc_piece m (r, u) ++ flat_map (esc_piece m) ps ++ t) = tloop q false c0 c1 (buf ++ clean_piece (r, u)) (flat_map (esc_piece m) ps ++ t)).
    { cbn [fst snd] in H. unfold esc_piece at 1 3. cbn [fst snd].
      destruct H as [[S E]|[E (b & Eb & Hb)]].
      - rewrite clean_piece_eq by auto. destruct (esc_for m r (length u)) as [e|] eqn:F.
        + apply esc_for_cases in F. destruct F as [[-> [F|[F1 F2]]]|(F1 & F2 & e' & -> & _ & F3)].
          * rewrite F. apply tloop_bytes; auto using replacement_plain.
          * subst r u. discriminate.
          * rewrite F1. exists 0, 0. split; [lia|]. cbn [app]. rewrite (tloop_entity q b0 b1 buf e' [r]) by auto.
            replace u with [r]; auto. rewrite E. unfold encode_rune, in_char_range in *. unb; auto; lia.
        + apply esc_for_none in F. destruct F as (F1 & F2 & F3). rewrite F1. apply tloop_bytes; auto. rewrite E. now apply encode_plain.
      - subst r u. change (esc_for m rune_error (length [b])) with (Some replacement).
        change (clean_piece (rune_error, [b])) with replacement. apply tloop_bytes; auto using replacement_plain. }
    destruct ST as (c0 & c1 & N1 & ->). destruct (IH c0 c1 (buf ++ clean_piece (r, u)) t N1) as (d0 & d1 & N2 & E).
    exists d0, d1. split; auto. rewrite E. now rewrite <- app_assoc.
Qed.

Lemma text_escape_quoted : forall m q s rest, q = 34 \/ q = 39 -> is_bytes s ->
  text (Some q) false (escape m s ++ q :: rest) = ROk (clean s) rest.
Proof.
  intros m q s rest Q B. unfold text. fold (tloop (Some q) false 0 0 [] (escape m s ++ q :: rest)). rewrite escape_pieces.
  destruct (read_pieces m (Some q) (pieces s)) with (b0 := 0) (b1 := 0) (buf := @nil Z) (t := q :: rest) as (c0 & c1 & N & ->).
  { unfold qok. destruct Q as [->| ->]; auto. } { now apply pieces_kind. } { lia. }
  cbn [app]. fold (clean s).
  assert (E : tloop (Some q) false c0 c1 (clean s) (q :: rest) = ROk (clean s) rest).
  { unfold tloop. cbn [length text_loop]. rewrite Z.eqb_refl. cbn [negb andb].
    replace (q =? 60) with false by lia. cbn [andb]. rewrite andb_false_r. reflexivity. }
  rewrite E. rewrite clean_good by auto. reflexivity.
Qed.
Lemma text_escape_plain : forall m s rest, (rest = [] \/ exists r, rest = 60 :: r) -> is_bytes s ->
  text None false (escape m s ++ rest) = ROk (clean s) rest.
Proof.
  intros m s rest R B. unfold text. fold (tloop None false 0 0 [] (escape m s ++ rest)). rewrite escape_pieces.
  destruct (read_pieces m None (pieces s)) with (b0 := 0) (b1 := 0) (buf := @nil Z) (t := rest) as (c0 & c1 & N & ->).
  { now left. } { now apply pieces_kind. } { lia. }
  cbn [app]. fold (clean s).
  assert (E : tloop None false c0 c1 (clean s) rest = ROk (clean s) rest).
  { destruct R as [->|(r & ->)]; [reflexivity|]. unfold tloop. cbn [length text_loop negb].
    change (60 =? 62) with false. rewrite andb_false_r. reflexivity. }
  rewrite E. rewrite clean_good by auto. reflexivity.
Qed.

(** *** No markup *)
Lemma escape_no_markup : forall m s, is_bytes s -> no_markup (escape m s).
Proof.
  intros m s B. rewrite escape_pieces. pose proof (pieces_kind s B) as K. induction K as [|[r u] ps H K IH]; [constructor|].
  cbn [flat_map]. unfold esc_piece at 1. cbn [fst snd] in *.
  assert (REPL : no_markup (replacement ++ flat_map (esc_piece m) ps)).
  { apply (N_char rune_error); auto; [|unfold xml_char, rune_error; lia|cbn; unfold rune_error; lia].
    apply utf8_encode. split; [apply rune_error_scalar|reflexivity]. }
  destruct H as [[S E]|[E (b & Eb & Hb)]].
  - destruct (esc_for m r (length u)) as [e|] eqn:F.
    + apply esc_for_cases in F. destruct F as [[-> _]|(F1 & F2 & e' & E' & F3 & _)]; auto. apply N_ref; auto.
    + apply esc_for_none in F. destruct F as (F1 & F2 & F3). apply N_char with r; auto.
      * now apply utf8_encode.
      * now apply in_char_range_iff.
      * intro I. apply F3. cbn in *. tauto.
  - subst r u. change (esc_for m rune_error (length [b])) with (Some replacement). exact REPL.
Qed.
