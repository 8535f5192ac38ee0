(** What the tokenizer reads does not depend on what follows, but for the next byte. *)
From Coq Require Import String.
From Coq Require Import ZArith List Bool Lia.
From Coq Require Import ZifyBool ZifyNat ZifyN.
From Verif Require Import Base Utf8 NameTables Lexer LexerProofs.
Import ListNotations.
Open Scope Z_scope.

(** The same next byte. *)
Definition front (a b : bytes) : Prop := hd_error a = hd_error b.
Lemma front_app : forall w a b, front a b -> front (w ++ a) (w ++ b).
Proof. intros [|x w] a b H; [exact H|reflexivity]. Qed.
Lemma front_cons : forall a b t, front a (b :: t) -> exists t', a = b :: t'.
Proof. intros [|x a] b t H; [discriminate|]. injection H as ->. eauto. Qed.

Ltac flat := repeat (progress (rewrite <- ?app_assoc; cbn [app])).

Lemma span_name_local : forall inp acc s rest, span_name acc inp = NOk s rest -> exists w, inp = w ++ rest /\ forall rest', front rest' rest -> span_name acc (w ++ rest') = NOk s rest'.
Proof.
  induction inp as [|b t IH]; intros acc s rest H; cbn in H; [discriminate|]. destruct (name_byte b) eqn:B.
  - destruct (IH _ _ _ H) as (w & -> & L). exists (b :: w). split; auto. intros rest' F. cbn. rewrite B. auto.
  - injection H as <- <-. exists []. split; auto. intros rest' F. destruct (front_cons _ _ _ F) as (t' & ->). cbn. rewrite B. reflexivity.
Qed.
Lemma read_name_local : forall inp s rest, read_name inp = NOk s rest -> exists w, w <> [] /\ inp = w ++ rest /\ forall rest', front rest' rest -> read_name (w ++ rest') = NOk s rest'.
Proof.
  intros [|b t] s rest H; cbn in H; [discriminate|]. destruct (name_byte b) eqn:B; [|discriminate]. destruct (span_name_local _ _ _ _ H) as (w & -> & L).
  exists (b :: w). split; [discriminate|]. split; auto. intros rest' F. cbn. rewrite B. auto.
Qed.
Lemma get_name_local : forall inp s rest, get_name inp = inl (s, rest) -> exists w, w <> [] /\ inp = w ++ rest /\ forall rest', front rest' rest -> get_name (w ++ rest') = inl (s, rest').
Proof.
  intros inp s rest H. unfold get_name in H. destruct (read_name inp) as [s0 r| |] eqn:E; try discriminate. destruct (is_name s0) eqn:N; [|discriminate]. injection H as <- <-.
  destruct (read_name_local _ _ _ E) as (w & NE & -> & L). exists w. split; auto. split; auto. intros rest' F. unfold get_name. rewrite (L rest' F), N. reflexivity.
Qed.
Lemma get_nsname_local : forall inp n rest, get_nsname inp = inl (n, rest) -> exists w, w <> [] /\ inp = w ++ rest /\ forall rest', front rest' rest -> get_nsname (w ++ rest') = inl (n, rest').
Proof.
  intros inp n rest H. unfold get_nsname in H. destruct (get_name inp) as [[s r]|] eqn:E; [|discriminate]. destruct (split_ns s) eqn:N; [|discriminate]. injection H as <- <-.
  destruct (get_name_local _ _ _ E) as (w & NE & -> & L). exists w. split; auto. split; auto. intros rest' F. unfold get_nsname. rewrite (L rest' F), N. reflexivity.
Qed.
Lemma skip_space_local : forall inp, exists w, inp = w ++ skip_space inp /\ forall rest', front rest' (skip_space inp) -> skip_space (w ++ rest') = rest'.
Proof.
  induction inp as [|b t IH]; cbn [skip_space].
  - exists []. split; auto. intros [|x r] F; [reflexivity|discriminate].
  - destruct (is_space b) eqn:B.
    + destruct IH as (w & E & L). exists (b :: w). split; [cbn; congruence|]. intros rest' F. cbn. rewrite B. auto.
    + exists []. split; auto. intros rest' F. destruct (front_cons _ _ _ F) as (t' & ->). cbn. rewrite B. reflexivity.
Qed.
Lemma span_digits_local : forall b16 inp acc ds rest, span_digits b16 acc inp = Some (ds, rest) -> exists w, inp = w ++ rest /\ forall rest', front rest' rest -> span_digits b16 acc (w ++ rest') = Some (ds, rest').
Proof.
  induction inp as [|b t IH]; intros acc ds rest H; cbn in H; [discriminate|]. destruct (hex_digit b16 b) eqn:B.
  - destruct (IH _ _ _ H) as (w & -> & L). exists (b :: w). split; auto. intros rest' F. cbn. rewrite B. auto.
  - injection H as <- <-. exists []. split; auto. intros rest' F. destruct (front_cons _ _ _ F) as (t' & ->). cbn. rewrite B. reflexivity.
Qed.
Lemma char_entity_local : forall inp s rest, char_entity inp = ROk s rest -> exists w, inp = w ++ rest /\ forall rest', char_entity (w ++ rest') = ROk s rest'.
Proof.
  intros [|b t] s rest H; [discriminate|]. unfold char_entity in H. destruct (b =? 35) eqn:B.
  - destruct t as [|x t']; [discriminate|].
    destruct (x =? 120) eqn:X.
    + destruct (span_digits true [] t') as [[ds r]|] eqn:E; [|discriminate]. destruct r as [|c r']; [discriminate|]. destruct (span_digits_local _ _ _ _ _ E) as (w & -> & L).
      destruct ((c =? 59) && negb (length ds =? 0)%nat && (digits_value 16 ds <=? 1114111)) eqn:G; [|discriminate]. injection H as <- <-.
      exists (b :: x :: w ++ [c]). split; [cbn; rewrite <- app_assoc; reflexivity|]. intros rest'. cbn [app]. unfold char_entity. rewrite B, X. rewrite <- app_assoc. cbn [app]. rewrite (L (c :: rest') eq_refl), G. reflexivity.
    + destruct (span_digits false [] (x :: t')) as [[ds r]|] eqn:E; [|discriminate]. destruct r as [|c r']; [discriminate|]. destruct (span_digits_local _ _ _ _ _ E) as (w & W & L).
      destruct ((c =? 59) && negb (length ds =? 0)%nat && (digits_value 10 ds <=? 1114111)) eqn:G; [|discriminate]. injection H as <- <-.
      assert (w <> []). { intros ->. cbn [app] in W. injection W as -> ->. cbn [span_digits] in E. destruct (hex_digit false c); [apply span_digits_len in E; cbn in E; lia|]. injection E as <-. rewrite !andb_true_iff in G. destruct G as [[_ G] _]. discriminate. }
      destruct w as [|y w]; [congruence|]. cbn [app] in W. injection W as <- ->.
      exists (b :: x :: w ++ [c]). split; [cbn; rewrite <- app_assoc; reflexivity|]. intros rest'. cbn [app]. unfold char_entity. rewrite B, X. rewrite <- app_assoc. cbn [app].
      specialize (L (c :: rest') eq_refl). cbn [app] in L. rewrite L, G. reflexivity.
  - destruct (read_name (b :: t)) as [nm r| |] eqn:E; try discriminate. destruct (read_name_local _ _ _ E) as (w & NE & W & L).
    destruct r as [|c r']; [discriminate|]. destruct ((c =? 59) && is_name nm) eqn:G; [|discriminate].
    destruct (entity nm) eqn:EN; [|discriminate]. injection H as <- <-. destruct w as [|y w]; [congruence|]. cbn [app] in W. injection W as <- ->.
    exists (b :: w ++ [c]). split; [cbn; rewrite <- app_assoc; reflexivity|]. intros rest'. cbn [app]. unfold char_entity. rewrite B. rewrite <- app_assoc. cbn [app].
    specialize (L (c :: rest') eq_refl). cbn [app] in L. rewrite L, G, EN. reflexivity.
Qed.
Lemma text_loop_local : forall k q c b0 b1 buf inp d rest, text_loop k q c b0 b1 buf inp = ROk d rest -> exists w, inp = w ++ rest /\
  forall k' rest', front rest' rest -> (length (w ++ rest') < k')%nat -> text_loop k' q c b0 b1 buf (w ++ rest') = ROk d rest'.
Proof.
  induction k as [|k IH]; intros q c b0 b1 buf inp d rest H; [discriminate|]. cbn [text_loop] in H. destruct inp as [|b t].
  { destruct c; [discriminate|]. injection H as <- <-. exists []. split; auto. intros [|k'] [|x r] F L; cbn in *; try lia; [reflexivity|discriminate]. }
  set (quoted := match q with Some _ => true | None => false end) in *.
  destruct (negb quoted && (b0 =? 93) && (b1 =? 93) && (b =? 62)) eqn:G1.
  { destruct c; [|discriminate]. injection H as <- <-. exists [b]. split; auto. intros [|k'] rest' F L; [lia|]. cbn [text_loop app]. fold quoted. rewrite G1. reflexivity. }
  destruct ((b =? 60) && negb c) eqn:G2.
  { destruct quoted eqn:Q; [discriminate|]. injection H as <- <-. exists []. split; auto. intros [|k'] rest' F L; [lia|]. destruct (front_cons _ _ _ F) as (t' & ->). cbn [text_loop app]. fold quoted. rewrite Q, G1, G2. reflexivity. }
  destruct ((b =? 62) && negb c && negb quoted) eqn:G3.
  { injection H as <- <-. exists []. split; auto. intros [|k'] rest' F L; [lia|]. destruct (front_cons _ _ _ F) as (t' & ->). cbn [text_loop app]. fold quoted. rewrite G1, G2, G3. reflexivity. }
  destruct (match q with Some q0 => b =? q0 | None => false end) eqn:G4.
  { injection H as <- <-. exists [b]. split; auto. intros [|k'] rest' F L; [lia|]. cbn [text_loop app]. fold quoted. rewrite G1, G2, G3, G4. reflexivity. }
  destruct ((b =? 38) && negb c) eqn:G5.
  { destruct (char_entity t) as [s r|e|] eqn:E; try discriminate. destruct (char_entity_local _ _ _ E) as (w1 & -> & L1). destruct (IH _ _ _ _ _ _ _ _ H) as (w2 & -> & L2).
    exists (b :: w1 ++ w2). split; [cbn; rewrite <- app_assoc; reflexivity|]. intros [|k'] rest' F L; [lia|]. cbn [text_loop app]. fold quoted. rewrite G1, G2, G3, G4, G5, <- app_assoc, L1.
    apply L2; auto. cbn [app length] in L. rewrite !app_length in *. lia. }
  destruct (IH _ _ _ _ _ _ _ _ H) as (w2 & -> & L2). exists (b :: w2). split; auto. intros [|k'] rest' F L; [lia|]. cbn [text_loop app]. fold quoted. rewrite G1, G2, G3, G4, G5.
  apply L2; auto. cbn [app length] in L. lia.
Qed.
Lemma text_local : forall q c inp d rest, text q c inp = ROk d rest -> exists w, inp = w ++ rest /\ forall rest', front rest' rest -> text q c (w ++ rest') = ROk d rest'.
Proof.
  intros q c inp d rest H. unfold text in H. destruct (text_loop _ _ _ _ _ _ _) as [d0 r|e|] eqn:E; try discriminate.
  destruct (forallb _ _) eqn:G; [|discriminate]. injection H as <- <-. destruct (text_loop_local _ _ _ _ _ _ _ _ _ E) as (w & -> & L).
  exists w. split; auto. intros rest' F. unfold text. rewrite L by (auto; lia). rewrite G. reflexivity.
Qed.
Lemma attrval_local : forall inp v rest, attrval inp = ROk v rest -> exists w, w <> [] /\ inp = w ++ rest /\ forall rest', front rest' rest -> attrval (w ++ rest') = ROk v rest'.
Proof.
  intros [|b t] v rest H; [discriminate|]. unfold attrval in H. destruct (_ || _) eqn:G; [|discriminate]. destruct (text_local _ _ _ _ _ H) as (w & -> & L).
  exists (b :: w). split; [discriminate|]. split; auto. intros rest' F. cbn [app attrval]. rewrite G. auto.
Qed.
Lemma pi_loop_local : forall inp b0 buf d rest, pi_loop b0 buf inp = ROk d rest -> exists w, inp = w ++ rest /\ w <> [] /\ forall rest', pi_loop b0 buf (w ++ rest') = ROk d rest'.
Proof.
  induction inp as [|b t IH]; intros b0 buf d rest H; cbn in H; [discriminate|]. destruct (_ && _) eqn:G.
  - injection H as <- <-. exists [b]. split; auto. split; [discriminate|]. intros rest'. cbn. rewrite G. reflexivity.
  - destruct (IH _ _ _ _ H) as (w & -> & _ & L). exists (b :: w). split; auto. split; [discriminate|]. intros rest'. cbn. rewrite G. auto.
Qed.
Lemma comment_loop_local : forall inp b0 b1 buf d rest, comment_loop b0 b1 buf inp = ROk d rest -> exists w, inp = w ++ rest /\ forall rest', comment_loop b0 b1 buf (w ++ rest') = ROk d rest'.
Proof.
  induction inp as [|b t IH]; intros b0 b1 buf d rest H; cbn in H; [discriminate|]. destruct (_ && _) eqn:G.
  - destruct (b =? 62) eqn:B; [|discriminate]. injection H as <- <-. exists [b]. split; auto. intros rest'. cbn. rewrite G, B. reflexivity.
  - destruct (IH _ _ _ _ _ H) as (w & -> & L). exists (b :: w). split; auto. intros rest'. cbn. rewrite G. auto.
Qed.
Lemma expect_local : forall p inp u rest, expect p inp = ROk u rest -> exists w, inp = w ++ rest /\ forall rest', expect p (w ++ rest') = ROk u rest'.
Proof.
  induction p as [|c p IH]; intros inp u rest H; cbn in H; [injection H as <- <-; exists []; split; auto|].
  destruct inp as [|b t]; [discriminate|]. destruct (b =? c) eqn:G; [|discriminate]. destruct (IH _ _ _ H) as (w & -> & L). exists (b :: w). split; auto. intros rest'. cbn. rewrite G. auto.
Qed.
Lemma skip_comment_local : forall inp b0 b1 rest, skip_comment b0 b1 inp = Some rest -> exists w, inp = w ++ rest /\ forall rest', skip_comment b0 b1 (w ++ rest') = Some rest'.
Proof.
  induction inp as [|b t IH]; intros b0 b1 rest H; cbn in H; [discriminate|]. destruct (_ && _) eqn:G.
  - injection H as <-. exists [b]. split; auto. intros rest'. cbn. rewrite G. reflexivity.
  - destruct (IH _ _ _ H) as (w & -> & L). exists (b :: w). split; auto. intros rest'. cbn. rewrite G. auto.
Qed.
Lemma match_bang_local : forall p n inp,
  match match_bang p n inp with
  | inl rest => exists w, inp = w ++ rest /\ forall rest', match_bang p n (w ++ rest') = inl rest'
  | inr (Some (m, b, rest)) => exists w, inp = w ++ rest /\ forall rest', match_bang p n (w ++ rest') = inr (Some (m, b, rest'))
  | inr None => True
  end.
Proof.
  induction p as [|c p IH]; intros n inp; cbn [match_bang]; [exists []; auto|]. destruct inp as [|b t]; [exact I|]. destruct (b =? c) eqn:G.
  - specialize (IH (S n) t). destruct (match_bang p (S n) t) as [r|[[[m x] r]|]]; auto; destruct IH as (w & -> & L); exists (b :: w); split; auto; intros rest'; cbn; rewrite G; auto.
  - exists [b]. split; auto. intros rest'. cbn. rewrite G. reflexivity.
Qed.
(** What a directive needs to be read. *)
Lemma directive_local : forall k pend inq depth buf inp d rest, directive_loop k pend inq depth buf inp = ROk d rest -> exists w, inp = w ++ rest /\
  forall k' rest', (2 * length (w ++ rest') + pend_size pend < k')%nat -> directive_loop k' pend inq depth buf (w ++ rest') = ROk d rest'.
Proof.
  induction k as [|k IH]; intros pend inq depth buf inp d rest H; [discriminate|]. cbn [directive_loop] in H.
  assert (HB : forall b inp1,
    (if b =? inq then directive_loop k None 0 depth (buf ++ [b]) inp1
     else if negb (inq =? 0) then directive_loop k None inq depth (buf ++ [b]) inp1
     else if (b =? 39) || (b =? 34) then directive_loop k None b depth (buf ++ [b]) inp1
     else if b =? 62 then directive_loop k None inq (depth - 1) (buf ++ [b]) inp1
     else if b =? 60 then
       match match_bang (str "!--") 0 inp1 with
       | inl rest0 => match skip_comment 0 0 rest0 with Some rest' => directive_loop k None inq depth (buf ++ [32]) rest' | None => RErr unexpected_eof end
       | inr (Some (n, b1, rest0)) => directive_loop k (Some b1) inq (depth + 1) ((buf ++ [b]) ++ firstn n (str "!--")) rest0
       | inr None => RErr unexpected_eof
       end
     else directive_loop k None inq depth (buf ++ [b]) inp1) = ROk d rest -> exists w, inp1 = w ++ rest /\
     forall k' rest', (2 * length (w ++ rest') < k')%nat ->
    (if b =? inq then directive_loop k' None 0 depth (buf ++ [b]) (w ++ rest')
     else if negb (inq =? 0) then directive_loop k' None inq depth (buf ++ [b]) (w ++ rest')
     else if (b =? 39) || (b =? 34) then directive_loop k' None b depth (buf ++ [b]) (w ++ rest')
     else if b =? 62 then directive_loop k' None inq (depth - 1) (buf ++ [b]) (w ++ rest')
     else if b =? 60 then
       match match_bang (str "!--") 0 (w ++ rest') with
       | inl rest0 => match skip_comment 0 0 rest0 with Some rest' => directive_loop k' None inq depth (buf ++ [32]) rest' | None => RErr unexpected_eof end
       | inr (Some (n, b1, rest0)) => directive_loop k' (Some b1) inq (depth + 1) ((buf ++ [b]) ++ firstn n (str "!--")) rest0
       | inr None => RErr unexpected_eof
       end
     else directive_loop k' None inq depth (buf ++ [b]) (w ++ rest')) = ROk d rest').
  { intros b inp1 G.
    destruct (b =? inq); [destruct (IH _ _ _ _ _ _ _ G) as (w & -> & L); exists w; split; auto; intros k' rest' LK; apply L; cbn; lia|].
    destruct (negb (inq =? 0)); [destruct (IH _ _ _ _ _ _ _ G) as (w & -> & L); exists w; split; auto; intros k' rest' LK; apply L; cbn; lia|].
    destruct ((b =? 39) || (b =? 34)); [destruct (IH _ _ _ _ _ _ _ G) as (w & -> & L); exists w; split; auto; intros k' rest' LK; apply L; cbn; lia|].
    destruct (b =? 62); [destruct (IH _ _ _ _ _ _ _ G) as (w & -> & L); exists w; split; auto; intros k' rest' LK; apply L; cbn; lia|].
    destruct (b =? 60); [|destruct (IH _ _ _ _ _ _ _ G) as (w & -> & L); exists w; split; auto; intros k' rest' LK; apply L; cbn; lia].
    pose proof (match_bang_local (str "!--") 0 inp1) as M. pose proof (match_bang_len (str "!--") 0 inp1) as ML. destruct (match_bang (str "!--") 0 inp1) as [r|[[[n x] r]|]]; [| |discriminate].
    - destruct M as (w1 & -> & L1). destruct (skip_comment 0 0 r) as [r2|] eqn:E; [|discriminate]. destruct (skip_comment_local _ _ _ _ E) as (w2 & -> & L2). destruct (IH _ _ _ _ _ _ _ G) as (w3 & -> & L3).
      exists (w1 ++ w2 ++ w3). rewrite !app_assoc. split; [reflexivity|]. intros k' rest' LK. rewrite <- !app_assoc in *. rewrite L1, L2. apply L3. cbn. rewrite !app_length in *. lia.
    - destruct M as (w1 & -> & L1). destruct (IH _ _ _ _ _ _ _ G) as (w3 & -> & L3). exists (w1 ++ w3). split; [rewrite app_assoc; reflexivity|]. intros k' rest' LK. rewrite <- (app_assoc w1) in *. rewrite L1. apply L3. cbn [pend_size]. rewrite !app_length in *. lia. }
  destruct pend as [b|].
  - destruct (HB b inp H) as (w & -> & L). exists w. split; auto. intros [|k'] rest' LK; [lia|]. cbn [directive_loop]. apply L. cbn [pend_size] in LK. lia.
  - destruct inp as [|b t]; [discriminate|]. destruct (_ && _ && _) eqn:G.
    + injection H as <- <-. exists [b]. split; auto. intros [|k'] rest' LK; [lia|]. cbn [directive_loop app]. rewrite G. reflexivity.
    + destruct (HB b t H) as (w & -> & L). exists (b :: w). split; auto. intros [|k'] rest' LK; [lia|]. cbn [directive_loop app]. rewrite G. apply L. cbn [app length] in LK. lia.
Qed.
Lemma attrs_loop_local : forall k acc inp a rest, attrs_loop k acc inp = ROk a rest -> exists w, inp = w ++ rest /\
  forall k' rest', (length (w ++ rest') < k')%nat -> attrs_loop k' acc (w ++ rest') = ROk a rest'.
Proof.
  induction k as [|k IH]; intros acc inp a rest H; [discriminate|]. cbn [attrs_loop] in H. destruct (skip_space_local inp) as (w1 & E1 & L1).
  destruct (skip_space inp) as [|b t]; [discriminate|]. subst inp. destruct (b =? 47) eqn:B1.
  { destruct t as [|c t']; [discriminate|]. destruct (c =? 62) eqn:C; [|discriminate]. injection H as <- <-. exists (w1 ++ [b; c]). rewrite <- app_assoc. split; [reflexivity|].
    intros [|k'] rest' LK; [lia|]. cbn [attrs_loop]. rewrite <- app_assoc, L1 by reflexivity. cbn [app]. rewrite B1, C. reflexivity. }
  destruct (b =? 62) eqn:B2.
  { injection H as <- <-. exists (w1 ++ [b]). rewrite <- app_assoc. split; [reflexivity|]. intros [|k'] rest' LK; [lia|]. cbn [attrs_loop]. rewrite <- app_assoc, L1 by reflexivity. cbn [app]. rewrite B1, B2. reflexivity. }
  destruct (get_nsname (b :: t)) as [[n r]|[e|]] eqn:E; try discriminate. destruct (get_nsname_local _ _ _ E) as (w2 & NE & E2 & L2).
  destruct (skip_space_local r) as (w3 & E3 & L3). destruct (skip_space r) as [|c r'] eqn:SR; [discriminate|]. subst r.
  destruct (negb (c =? 61)) eqn:C; [discriminate|]. destruct (skip_space_local r') as (w4 & E4 & L4).
  destruct (attrval (skip_space r')) as [v r''|e|] eqn:EA; try discriminate. destruct (attrval_local _ _ _ EA) as (w5 & NE5 & E5 & L5). destruct (IH _ _ _ _ H) as (w6 & E6 & L6).
  subst r''. rewrite E5 in E4. subst r'. destruct w2 as [|y w2]; [congruence|]. cbn [app] in E2. injection E2 as <- ->.
  exists (w1 ++ (b :: w2) ++ w3 ++ [c] ++ w4 ++ w5 ++ w6). split; [flat; reflexivity|].
  intros [|k'] rest' LK; [lia|]. cbn [attrs_loop]. flat. rewrite L1 by reflexivity. cbn [app]. rewrite B1, B2.
  specialize (L2 ((w3 ++ c :: w4 ++ w5 ++ w6 ++ rest'))). cbn [app] in L2. rewrite L2 by (apply front_app; reflexivity). rewrite L3 by reflexivity. rewrite C.
  rewrite L4. 2: { rewrite E5. destruct w5 as [|y5 w5]; [congruence|reflexivity]. }
  destruct (list_eq_dec Z.eq_dec w6 []) as [->|NE6].
  { exfalso. pose proof (attrs_loop_len _ _ _ _ _ H) as X. cbn in X. lia. }
  rewrite L5. 2: { destruct w6; [congruence|reflexivity]. }
  apply L6. cbn [app length] in LK. rewrite !app_length in *. cbn [app length] in LK. rewrite ?app_length in *. cbn [app length] in LK. rewrite ?app_length in *. lia.
Qed.
Theorem raw_token_local : forall inp x rest, raw_token inp = ROk x rest -> exists w, inp = w ++ rest /\ forall rest', front rest' rest -> raw_token (w ++ rest') = ROk x rest'.
Proof.
  intros [|b t0] [t c] rest H; [discriminate|]. unfold raw_token in H. destruct (b =? 60) eqn:B; cbn [negb] in H.
  2: { destruct (text None false (b :: t0)) as [d r|e|] eqn:E; try discriminate. cbn in H. injection H as <- <- <-. destruct (text_local _ _ _ _ _ E) as (w & W & L).
       exists w. split; auto. intros rest' F. destruct w as [|y w].
       - cbn [app] in *. subst r. specialize (L rest' F). destruct (front_cons _ _ _ F) as (t' & ->). unfold raw_token. rewrite B. cbn [negb]. rewrite L. reflexivity.
       - cbn [app] in *. injection W as <- ->. unfold raw_token. rewrite B. cbn [negb]. rewrite (L rest' F). reflexivity. }
  destruct t0 as [|c0 t']; [discriminate|]. destruct (c0 =? 47) eqn:C1.
  { destruct (get_nsname t') as [[n r]|[e|]] eqn:E; try discriminate. destruct (get_nsname_local _ _ _ E) as (w1 & NE & -> & L1).
    destruct (skip_space_local r) as (w2 & E2 & L2). destruct (skip_space r) as [|x r'] eqn:SR; [discriminate|]. destruct (x =? 62) eqn:X; [|discriminate].
    injection H as <- <- <-. subst r. exists (b :: c0 :: w1 ++ w2 ++ [x]). split; [cbn; rewrite <- !app_assoc; reflexivity|]. intros rest' F. cbn [app]. unfold raw_token. rewrite B, C1. cbn [negb].
    rewrite <- !app_assoc. rewrite L1 by (apply front_app; reflexivity). rewrite L2 by reflexivity. cbn [app]. rewrite X. reflexivity. }
  destruct (c0 =? 63) eqn:C2.
  { destruct (get_name t') as [[n r]|[e|]] eqn:E; try discriminate. destruct (get_name_local _ _ _ E) as (w1 & NE & -> & L1).
    destruct (skip_space_local r) as (w2 & E2 & L2). destruct (pi_loop 0 [] (skip_space r)) as [d r'|e|] eqn:EP; try discriminate. destruct (pi_loop_local _ _ _ _ _ EP) as (w3 & E3 & NE3 & L3).
    destruct (if beq n _ then _ else _) eqn:XD; [discriminate|]. injection H as <- <- <-. rewrite E3 in E2. subst r.
    exists (b :: c0 :: w1 ++ w2 ++ w3). split; [cbn; rewrite <- !app_assoc; reflexivity|]. intros rest' F. cbn [app]. unfold raw_token. rewrite B, C1, C2. cbn [negb].
    rewrite <- !app_assoc. rewrite L1 by (apply front_app; destruct w3; [congruence|reflexivity]). rewrite L2. 2: { rewrite E3. destruct w3; [congruence|reflexivity]. }
    rewrite L3, XD. reflexivity. }
  destruct (c0 =? 33) eqn:C3.
  { destruct t' as [|d t'']; [discriminate|]. destruct (d =? 45) eqn:D1.
    { destruct t'' as [|e t3]; [discriminate|]. destruct (e =? 45) eqn:E1; [|discriminate].
      destruct (comment_loop 0 0 [] t3) as [s r|e'|] eqn:E; try discriminate. destruct (comment_loop_local _ _ _ _ _ _ E) as (w & -> & L). cbn in H. injection H as <- <- <-.
      exists (b :: c0 :: d :: e :: w). split; [reflexivity|]. intros rest' F. cbn [app]. unfold raw_token. rewrite B, C1, C2, C3, D1, E1. cbn [negb]. rewrite L. reflexivity. }
    destruct (d =? 91) eqn:D2.
    { destruct (expect (str "CDATA[") t'') as [u r|e|] eqn:E; try discriminate. destruct (expect_local _ _ _ _ E) as (w1 & -> & L1).
      destruct (text None true r) as [s r'|e|] eqn:ET; try discriminate. destruct (text_local _ _ _ _ _ ET) as (w2 & -> & L2). cbn in H. injection H as <- <- <-.
      exists (b :: c0 :: d :: w1 ++ w2). split; [cbn; rewrite <- app_assoc; reflexivity|]. intros rest' F. cbn [app]. unfold raw_token. rewrite B, C1, C2, C3, D1, D2. cbn [negb]. rewrite <- app_assoc, L1, (L2 rest' F). reflexivity. }
    destruct (directive_loop _ _ _ _ _ _) as [s r|e|] eqn:E; try discriminate. destruct (directive_local _ _ _ _ _ _ _ _ E) as (w & -> & L). cbn in H. injection H as <- <- <-.
    exists (b :: c0 :: d :: w). split; [reflexivity|]. intros rest' F. cbn [app]. unfold raw_token. rewrite B, C1, C2, C3, D1, D2. cbn [negb]. rewrite L by (cbn [pend_size]; lia). reflexivity. }
  destruct (get_nsname (c0 :: t')) as [[n r]|[e|]] eqn:E; try discriminate. destruct (get_nsname_local _ _ _ E) as (w1 & NE & E1 & L1).
  destruct (attrs_loop (S (length r)) [] r) as [[a em] r'|e|] eqn:EA; try discriminate. pose proof (attrs_loop_len _ _ _ _ _ EA) as LN. destruct (attrs_loop_local _ _ _ _ _ EA) as (w2 & -> & L2). injection H as <- <- <-.
  destruct w1 as [|y w1]; [congruence|]. cbn [app] in E1. injection E1 as <- ->. destruct w2 as [|z w2]; [cbn in LN; lia|].
  exists (b :: c0 :: w1 ++ z :: w2). split; [cbn; rewrite <- app_assoc; reflexivity|]. intros rest' F. cbn [app]. unfold raw_token. rewrite B, C1, C2, C3. cbn [negb]. rewrite <- app_assoc.
  specialize (L1 ((z :: w2) ++ rest') eq_refl). cbn [app] in L1. cbn [app]. rewrite L1. specialize (L2 (S (length (z :: w2 ++ rest'))) rest' ltac:(cbn; lia)). cbn [app] in L2. rewrite L2. reflexivity.
Qed.
