(** Sizes and recursion budgets of the tokenizer. *)
From Coq Require Import String.
From Coq Require Import ZArith List Bool Lia.
From Coq Require Import ZifyBool ZifyNat ZifyN.
From Verif Require Import Base Utf8 NameTables Lexer.
Import ListNotations.
Open Scope Z_scope.

Lemma span_name_len : forall inp acc s rest, span_name acc inp = NOk s rest -> (length rest <= length inp)%nat /\ rest <> [].
Proof.
  induction inp as [|b t IH]; intros acc s rest H; cbn in H; [discriminate|].
  destruct (name_byte b).
  - apply IH in H. cbn. destruct H. split; [lia|auto].
  - injection H as <- <-. split; [lia|discriminate].
Qed.
Lemma read_name_len : forall inp s rest, read_name inp = NOk s rest -> (length rest < length inp)%nat /\ rest <> [].
Proof.
  intros [|b t] s rest H; cbn in H; [discriminate|]. destruct (name_byte b); [|discriminate].
  apply span_name_len in H. cbn. destruct H. split; [lia|auto].
Qed.
Lemma span_digits_len : forall b16 inp acc ds rest, span_digits b16 acc inp = Some (ds, rest) -> (length rest <= length inp)%nat /\ rest <> [].
Proof.
  induction inp as [|b t IH]; intros acc ds rest H; cbn in H; [discriminate|].
  destruct (hex_digit b16 b).
  - apply IH in H. cbn. destruct H. split; [lia|auto].
  - injection H as <- <-. split; [lia|discriminate].
Qed.
Lemma char_entity_len : forall inp s rest, char_entity inp = ROk s rest -> (length rest < length inp)%nat.
Proof.
  intros [|b t] s rest H; [discriminate|]. unfold char_entity in H. destruct (b =? 35).
  - destruct t as [|x t']; [discriminate|].
    assert (K : forall b16 start, (length start <= S (length t'))%nat -> match span_digits b16 [] start with
            | Some (ds, []) => RErr unexpected_eof
            | Some (ds, c :: rest') => if (c =? 59) && negb (length ds =? 0)%nat && (digits_value (if b16 then 16 else 10) ds <=? 1114111) then ROk (encode_rune (digits_value (if b16 then 16 else 10) ds)) rest' else RErr bad_entity
            | None => RErr unexpected_eof end = ROk s rest -> (length rest < S (S (length t')))%nat).
    { intros b16 start L G. destruct (span_digits b16 [] start) as [[ds r]|] eqn:E; [|discriminate].
      apply span_digits_len in E. destruct r as [|c r']; [discriminate|].
      destruct ((c =? 59) && negb (length ds =? 0)%nat && (digits_value (if b16 then 16 else 10) ds <=? 1114111)); [|discriminate].
      injection G as <- <-. cbn in E. lia. }
    destruct (x =? 120).
    + apply (K true t') in H; cbn [length] in *; lia.
    + apply (K false (x :: t')) in H; cbn [length] in *; lia.
  - destruct (read_name (b :: t)) as [nm r| |] eqn:E; try discriminate. apply read_name_len in E.
    destruct r as [|c r']; [discriminate|]. destruct ((c =? 59) && is_name nm); [|discriminate].
    destruct (entity nm); [|discriminate]. injection H as <- <-. cbn [length] in *. lia.
Qed.
Lemma char_entity_nofuel : forall inp, char_entity inp <> RFuel.
Proof.
  intros [|b t]; [discriminate|]. unfold char_entity. destruct (b =? 35).
  - destruct t as [|x t']; [discriminate|]. destruct (x =? 120).
    all: destruct (span_digits _ _ _) as [[ds [|c r]]|]; try discriminate; destruct (_ && _); discriminate.
  - destruct (read_name (b :: t)) as [nm [|c r]| |]; try discriminate. destruct (_ && _); [|discriminate]. destruct (entity nm); discriminate.
Qed.

Lemma text_loop_fuel : forall k k' q c b0 b1 buf inp, (length inp < k)%nat -> (length inp < k')%nat ->
  text_loop k q c b0 b1 buf inp = text_loop k' q c b0 b1 buf inp.
Proof.
  induction k as [|k IH]; intros [|k'] q c b0 b1 buf inp L L'; try lia. cbn [text_loop]. destruct inp as [|b t]; auto.
  cbn [length] in *. repeat match goal with |- context [if ?x then _ else _] => destruct x; auto end; try (apply IH; lia).
  destruct (char_entity t) as [s rest|e|] eqn:E; auto. apply char_entity_len in E. apply IH; lia.
Qed.
Lemma text_loop_nofuel : forall k q c b0 b1 buf inp, (length inp < k)%nat -> text_loop k q c b0 b1 buf inp <> RFuel.
Proof.
  induction k as [|k IH]; intros q c b0 b1 buf inp L; [lia|]. cbn [text_loop]. destruct inp as [|b t]; [destruct c; discriminate|].
  cbn [length] in *. repeat match goal with |- context [if ?x then _ else _] => destruct x; try discriminate end; try (apply IH; lia).
  all: destruct (char_entity t) as [s rest|e|] eqn:E; try discriminate; [apply char_entity_len in E; apply IH; lia|].
  all: exfalso; now apply (char_entity_nofuel t).
Qed.
Lemma text_loop_len : forall k q c b0 b1 buf inp d rest, text_loop k q c b0 b1 buf inp = ROk d rest -> (length rest <= length inp)%nat.
Proof.
  induction k as [|k IH]; intros q c b0 b1 buf inp d rest H; [discriminate|]. cbn [text_loop] in H. destruct inp as [|b t].
  { destruct c; [discriminate|]. injection H as <- <-. lia. }
  cbn [length]. revert H. repeat match goal with |- context [if ?x then _ else _] => destruct x end; intro H; try discriminate;
    try (injection H as <- <-; cbn [length]; lia); try (apply IH in H; lia).
  all: destruct (char_entity t) as [s r|e|] eqn:E; try discriminate; apply char_entity_len in E; apply IH in H; lia.
Qed.
Lemma text_nofuel : forall q c inp, text q c inp <> RFuel.
Proof.
  intros q c inp. unfold text. pose proof (text_loop_nofuel (S (length inp)) q c 0 0 [] inp ltac:(lia)).
  destruct (text_loop _ _ _ _ _ _ _); try congruence. destruct (forallb _ _); discriminate.
Qed.
Lemma text_len : forall q c inp d rest, text q c inp = ROk d rest -> (length rest <= length inp)%nat.
Proof.
  intros q c inp d rest H. unfold text in H. destruct (text_loop _ _ _ _ _ _ _) eqn:E; try discriminate.
  destruct (forallb _ _); [|discriminate]. injection H as <- <-. now apply text_loop_len in E.
Qed.

(** *** Every token consumes input, except at a stray '>' *)
Lemma get_name_len : forall inp s rest, get_name inp = inl (s, rest) -> (length rest < length inp)%nat /\ rest <> [] /\ is_name s = true.
Proof.
  intros inp s rest H. unfold get_name in H. destruct (read_name inp) eqn:E; try discriminate.
  destruct (is_name s0) eqn:N; [|discriminate]. injection H as <- <-. apply read_name_len in E. tauto.
Qed.
Lemma get_nsname_len : forall inp n rest, get_nsname inp = inl (n, rest) -> (length rest < length inp)%nat /\ rest <> [].
Proof.
  intros inp n rest H. unfold get_nsname in H. destruct (get_name inp) as [[s r]|] eqn:E; [|discriminate].
  destruct (split_ns s); [|discriminate]. injection H as <- <-. apply get_name_len in E. tauto.
Qed.
Lemma skip_space_len : forall inp, (length (skip_space inp) <= length inp)%nat.
Proof. induction inp as [|b t IH]; cbn; [lia|]. destruct (is_space b); cbn; lia. Qed.
Lemma pi_loop_len : forall inp b0 buf d rest, pi_loop b0 buf inp = ROk d rest -> (length rest < length inp)%nat.
Proof.
  induction inp as [|b t IH]; intros b0 buf d rest H; cbn in H; [discriminate|].
  destruct (_ && _); [injection H as <- <-; cbn; lia|]. apply IH in H. cbn. lia.
Qed.
Lemma pi_loop_nofuel : forall inp b0 buf, pi_loop b0 buf inp <> RFuel.
Proof. induction inp as [|b t IH]; intros b0 buf; cbn; [discriminate|]. destruct (_ && _); [discriminate|auto]. Qed.
Lemma comment_loop_len : forall inp b0 b1 buf d rest, comment_loop b0 b1 buf inp = ROk d rest -> (length rest < length inp)%nat.
Proof.
  induction inp as [|b t IH]; intros b0 b1 buf d rest H; cbn in H; [discriminate|].
  destruct (_ && _); [destruct (b =? 62); [injection H as <- <-; cbn; lia|discriminate]|]. apply IH in H. cbn. lia.
Qed.
Lemma comment_loop_nofuel : forall inp b0 b1 buf, comment_loop b0 b1 buf inp <> RFuel.
Proof. induction inp as [|b t IH]; intros; cbn; [discriminate|]. destruct (_ && _); [destruct (b =? 62); discriminate|auto]. Qed.
Lemma expect_len : forall p inp d rest, expect p inp = ROk d rest -> (length rest <= length inp)%nat.
Proof.
  induction p as [|c p IH]; intros inp d rest H; cbn in H; [injection H as <- <-; lia|].
  destruct inp as [|b t]; [discriminate|]. destruct (b =? c); [|discriminate]. apply IH in H. cbn. lia.
Qed.
Lemma expect_nofuel : forall p inp, expect p inp <> RFuel.
Proof. induction p as [|c p IH]; intros [|b t]; cbn; try discriminate. destruct (b =? c); [auto|discriminate]. Qed.
Lemma skip_comment_len : forall inp b0 b1 rest, skip_comment b0 b1 inp = Some rest -> (length rest < length inp)%nat.
Proof.
  induction inp as [|b t IH]; intros b0 b1 rest H; cbn in H; [discriminate|].
  destruct (_ && _); [injection H as <-; cbn; lia|]. apply IH in H. cbn. lia.
Qed.
Lemma match_bang_len : forall p n inp, match match_bang p n inp with
  | inl rest => (length rest <= length inp)%nat
  | inr (Some (_, _, rest)) => (length rest < length inp)%nat
  | inr None => True end.
Proof.
  induction p as [|c p IH]; intros n inp; cbn; [lia|]. destruct inp as [|b t]; [exact I|].
  destruct (b =? c); [|cbn; lia]. specialize (IH (S n) t). destruct (match_bang p (S n) t) as [r|[[[m x] r]|]]; auto; cbn; lia.
Qed.
Definition pend_size (p : option Z) : nat := match p with Some _ => 1%nat | None => 0%nat end.
Lemma directive_len : forall k pend inq depth buf inp d rest, directive_loop k pend inq depth buf inp = ROk d rest -> (length rest < length inp + pend_size pend)%nat.
Proof.
  induction k as [|k IH]; intros pend inq depth buf inp d rest H; [discriminate|]. cbn [directive_loop] in H.
  assert (HB : forall b inp1, (length inp1 < length inp + pend_size pend)%nat ->
    (if b =? inq then directive_loop k None 0 depth (buf ++ [b]) inp1
     else if negb (inq =? 0) then directive_loop k None inq depth (buf ++ [b]) inp1
     else if (b =? 39) || (b =? 34) then directive_loop k None b depth (buf ++ [b]) inp1
     else if b =? 62 then directive_loop k None inq (depth - 1) (buf ++ [b]) inp1
     else if b =? 60 then
       match match_bang (str "!--") 0 inp1 with
       | inl rest0 => match skip_comment 0 0 rest0 with Some rest' => directive_loop k None inq depth (buf ++ [32]) rest' | None => RErr unexpected_eof end
       | inr (Some (n, b1, rest0)) => directive_loop k (Some b1) inq (depth + 1) ((buf ++ [b]) ++ firstn n (str "!--")) rest0
       | inr None => RErr unexpected_eof
       end
     else directive_loop k None inq depth (buf ++ [b]) inp1) = ROk d rest -> (length rest < length inp + pend_size pend)%nat).
  { intros b inp1 L G. destruct (b =? inq); [apply IH in G; cbn in G; lia|]. destruct (negb (inq =? 0)); [apply IH in G; cbn in G; lia|].
    destruct ((b =? 39) || (b =? 34)); [apply IH in G; cbn in G; lia|]. destruct (b =? 62); [apply IH in G; cbn in G; lia|].
    destruct (b =? 60); [|apply IH in G; cbn in G; lia].
    pose proof (match_bang_len (str "!--") 0 inp1) as M. destruct (match_bang (str "!--") 0 inp1) as [r|[[[n x] r]|]]; [| |discriminate].
    - destruct (skip_comment 0 0 r) eqn:E; [|discriminate]. apply skip_comment_len in E. apply IH in G. cbn in G. lia.
    - apply IH in G. cbn [pend_size] in G. lia. }
  destruct pend as [b|].
  - apply (HB b inp) in H; auto. cbn. lia.
  - destruct inp as [|b t]; [discriminate|]. destruct (_ && _ && _).
    + injection H as <- <-. cbn. lia.
    + apply (HB b t) in H; auto. cbn. lia.
Qed.
Lemma directive_nofuel : forall k pend inq depth buf inp, (2 * length inp + pend_size pend < k)%nat -> directive_loop k pend inq depth buf inp <> RFuel.
Proof.
  induction k as [|k IH]; intros pend inq depth buf inp L; [lia|]. cbn [directive_loop].
  assert (HB : forall b inp1, (2 * length inp1 < k)%nat ->
    (if b =? inq then directive_loop k None 0 depth (buf ++ [b]) inp1
     else if negb (inq =? 0) then directive_loop k None inq depth (buf ++ [b]) inp1
     else if (b =? 39) || (b =? 34) then directive_loop k None b depth (buf ++ [b]) inp1
     else if b =? 62 then directive_loop k None inq (depth - 1) (buf ++ [b]) inp1
     else if b =? 60 then
       match match_bang (str "!--") 0 inp1 with
       | inl rest0 => match skip_comment 0 0 rest0 with Some rest' => directive_loop k None inq depth (buf ++ [32]) rest' | None => RErr unexpected_eof end
       | inr (Some (n, b1, rest0)) => directive_loop k (Some b1) inq (depth + 1) ((buf ++ [b]) ++ firstn n (str "!--")) rest0
       | inr None => RErr unexpected_eof
       end
     else directive_loop k None inq depth (buf ++ [b]) inp1) <> RFuel).
  { intros b inp1 L1. destruct (b =? inq); [apply IH; cbn; lia|]. destruct (negb (inq =? 0)); [apply IH; cbn; lia|].
    destruct ((b =? 39) || (b =? 34)); [apply IH; cbn; lia|]. destruct (b =? 62); [apply IH; cbn; lia|].
    destruct (b =? 60); [|apply IH; cbn; lia].
    pose proof (match_bang_len (str "!--") 0 inp1) as M. destruct (match_bang (str "!--") 0 inp1) as [r|[[[n x] r]|]]; [| |discriminate].
    - destruct (skip_comment 0 0 r) eqn:E; [|discriminate]. apply skip_comment_len in E. apply IH. cbn. lia.
    - apply IH. cbn [pend_size]. lia. }
  destruct pend as [b|].
  - apply HB. cbn in L. lia.
  - destruct inp as [|b t]; [discriminate|]. destruct (_ && _ && _); [discriminate|]. apply HB. cbn in L. lia.
Qed.
Lemma attrval_len : forall inp v rest, attrval inp = ROk v rest -> (length rest < length inp)%nat.
Proof.
  intros [|b t] v rest H; [discriminate|]. unfold attrval in H. destruct (_ || _); [|discriminate]. apply text_len in H. cbn. lia.
Qed.
Lemma attrval_nofuel : forall inp, attrval inp <> RFuel.
Proof. intros [|b t]; [discriminate|]. unfold attrval. destruct (_ || _); [apply text_nofuel|discriminate]. Qed.
Lemma attrs_loop_len : forall k acc inp a rest, attrs_loop k acc inp = ROk a rest -> (length rest < length inp)%nat.
Proof.
  induction k as [|k IH]; intros acc inp a rest H; [discriminate|]. cbn [attrs_loop] in H. pose proof (skip_space_len inp) as LS.
  destruct (skip_space inp) as [|b t]; [discriminate|]. cbn [length] in LS. destruct (b =? 47).
  { destruct t as [|c t']; [discriminate|]. destruct (c =? 62); [|discriminate]. injection H as <- <-. cbn in LS. lia. }
  destruct (b =? 62); [injection H as <- <-; lia|].
  destruct (get_nsname (b :: t)) as [[n r]|[e|]] eqn:E; try discriminate. apply get_nsname_len in E. destruct E as [E _]. cbn [length] in E.
  pose proof (skip_space_len r) as LR. destruct (skip_space r) as [|c r']; [discriminate|]. cbn [length] in LR.
  destruct (negb (c =? 61)); [discriminate|]. pose proof (skip_space_len r') as LR'.
  destruct (attrval (skip_space r')) as [v r''|e|] eqn:EA; try discriminate. apply attrval_len in EA. apply IH in H. lia.
Qed.
Lemma attrs_loop_nofuel : forall k acc inp, (length inp < k)%nat -> attrs_loop k acc inp <> RFuel.
Proof.
  induction k as [|k IH]; intros acc inp L; [lia|]. cbn [attrs_loop]. pose proof (skip_space_len inp) as LS.
  destruct (skip_space inp) as [|b t]; [discriminate|]. cbn [length] in LS. destruct (b =? 47).
  { destruct t as [|c t']; [discriminate|]. destruct (c =? 62); discriminate. }
  destruct (b =? 62); [discriminate|].
  destruct (get_nsname (b :: t)) as [[n r]|[e|]] eqn:E; try discriminate. apply get_nsname_len in E. destruct E as [E _]. cbn [length] in E.
  pose proof (skip_space_len r) as LR. destruct (skip_space r) as [|c r']; [discriminate|]. cbn [length] in LR.
  destruct (negb (c =? 61)); [discriminate|]. pose proof (skip_space_len r') as LR'. pose proof (attrval_nofuel (skip_space r')) as NF.
  destruct (attrval (skip_space r')) as [v r''|e|] eqn:EA; try congruence. apply attrval_len in EA. apply IH. lia.
Qed.
Lemma attrs_loop_fuel : forall k k' acc inp, (length inp < k)%nat -> (length inp < k')%nat -> attrs_loop k acc inp = attrs_loop k' acc inp.
Proof.
  induction k as [|k IH]; intros [|k'] acc inp L L'; try lia. cbn [attrs_loop]. pose proof (skip_space_len inp) as LS.
  destruct (skip_space inp) as [|b t]; auto. cbn [length] in LS. destruct (b =? 47); auto. destruct (b =? 62); auto.
  destruct (get_nsname (b :: t)) as [[n r]|[e|]] eqn:E; auto. apply get_nsname_len in E. destruct E as [E _]. cbn [length] in E.
  pose proof (skip_space_len r) as LR. destruct (skip_space r) as [|c r']; auto. cbn [length] in LR.
  destruct (negb (c =? 61)); auto. pose proof (skip_space_len r') as LR'.
  destruct (attrval (skip_space r')) as [v r''|e|] eqn:EA; auto. apply attrval_len in EA. apply IH; lia.
Qed.

Lemma text_progress : forall b t d rest, b <> 60 -> text None false (b :: t) = ROk d rest ->
  (length rest < S (length t))%nat \/ (b = 62 /\ d = [] /\ rest = b :: t).
Proof.
  intros b t d rest N H. unfold text in H. destruct (text_loop _ _ _ _ _ _ _) as [d' r|e|] eqn:E; try discriminate.
  destruct (forallb _ _); [|discriminate]. injection H as <- <-. set (k := length (b :: t)) in E. clearbody k. cbn [text_loop] in E.
  change (0 =? 93) with false in E. cbn [negb andb] in E. replace (b =? 60) with false in E by lia. cbn [andb] in E.
  destruct (b =? 62) eqn:B62.
  - right. cbn [andb] in E. injection E as <- <-. split; [lia|auto].
  - left. cbn [andb] in E. destruct ((b =? 38) && true).
    + destruct (char_entity t) as [s r'|e|] eqn:EC; try discriminate. apply char_entity_len in EC. apply text_loop_len in E. lia.
    + apply text_loop_len in E. lia.
Qed.
Lemma raw_progress : forall inp t c rest, raw_token inp = ROk (t, c) rest ->
  (length rest < length inp)%nat \/ (t = TChar [] /\ c = None /\ rest = inp /\ exists s, inp = 62 :: s).
Proof.
  intros [|b t0] t c rest H; [discriminate|]. unfold raw_token in H. destruct (b =? 60) eqn:B; cbn [negb] in H.
  2: { destruct (text None false (b :: t0)) as [d r|e|] eqn:E; try discriminate. cbn in H. injection H as <- <- <-.
       apply text_progress in E; [|lia]. destruct E as [E|(-> & -> & ->)]; [left; cbn; lia|right]. eauto. }
  left. destruct t0 as [|c0 t']; [discriminate|]. cbn [length]. destruct (c0 =? 47).
  { destruct (get_nsname t') as [[n r]|[e|]] eqn:E; try discriminate. apply get_nsname_len in E.
    pose proof (skip_space_len r). destruct (skip_space r) as [|x r']; [discriminate|]. destruct (x =? 62); [|discriminate].
    injection H as <- <- <-. cbn [length] in *. lia. }
  destruct (c0 =? 63).
  { destruct (get_name t') as [[n r]|[e|]] eqn:E; try discriminate. apply get_name_len in E.
    pose proof (skip_space_len r). destruct (pi_loop 0 [] (skip_space r)) as [d r'|e|] eqn:EP; try discriminate. apply pi_loop_len in EP.
    destruct (if beq n _ then _ else _); [discriminate|]. injection H as <- <- <-. lia. }
  destruct (c0 =? 33).
  { destruct t' as [|d t'']; [discriminate|]. cbn [length]. destruct (d =? 45).
    { destruct t'' as [|e t3]; [discriminate|]. destruct (e =? 45); [|discriminate].
      destruct (comment_loop 0 0 [] t3) as [s r|e'|] eqn:E; try discriminate. apply comment_loop_len in E. cbn in H. injection H as <- <- <-. cbn [length]. lia. }
    destruct (d =? 91).
    { destruct (expect (str "CDATA[") t'') as [u r|e|] eqn:E; try discriminate. apply expect_len in E.
      destruct (text None true r) as [s r'|e|] eqn:ET; try discriminate. apply text_len in ET. cbn in H. injection H as <- <- <-. lia. }
    destruct (directive_loop _ _ _ _ _ _) as [s r|e|] eqn:E; try discriminate. apply directive_len in E. cbn in H. injection H as <- <- <-. cbn in E. lia. }
  destruct (get_nsname (c0 :: t')) as [[n r]|[e|]] eqn:E; try discriminate. apply get_nsname_len in E. cbn [length] in E.
  destruct (attrs_loop (S (length r)) [] r) as [[a em] r'|e|] eqn:EA; try discriminate. apply attrs_loop_len in EA. injection H as <- <- <-. lia.
Qed.
Lemma raw_nofuel : forall inp, raw_token inp <> RFuel.
Proof.
  intros [|b t0]; [discriminate|]. unfold raw_token. destruct (b =? 60); cbn [negb].
  2: { pose proof (text_nofuel None false (b :: t0)). destruct (text None false (b :: t0)); cbn; congruence. }
  destruct t0 as [|c0 t']; [discriminate|]. destruct (c0 =? 47).
  { destruct (get_nsname t') as [[n r]|[e|]]; try discriminate. destruct (skip_space r) as [|x r']; [discriminate|]. destruct (x =? 62); discriminate. }
  destruct (c0 =? 63).
  { destruct (get_name t') as [[n r]|[e|]]; try discriminate. pose proof (pi_loop_nofuel (skip_space r) 0 []).
    destruct (pi_loop 0 [] (skip_space r)); try congruence. destruct (if beq n _ then _ else _); discriminate. }
  destruct (c0 =? 33).
  { destruct t' as [|d t'']; [discriminate|]. destruct (d =? 45).
    { destruct t'' as [|e t3]; [discriminate|]. destruct (e =? 45); [|discriminate].
      pose proof (comment_loop_nofuel t3 0 0 []). destruct (comment_loop 0 0 [] t3); cbn; congruence. }
    destruct (d =? 91).
    { pose proof (expect_nofuel (str "CDATA[") t''). destruct (expect (str "CDATA[") t'') as [u r|e|]; try congruence.
      pose proof (text_nofuel None true r). destruct (text None true r); cbn; congruence. }
    pose proof (directive_nofuel (2 * length t'' + 2) None 0 0 [d] t'' ltac:(cbn; lia)).
    destruct (directive_loop _ _ _ _ _ _); cbn; congruence. }
  destruct (get_nsname (c0 :: t')) as [[n r]|[e|]]; try discriminate.
  pose proof (attrs_loop_nofuel (S (length r)) [] r ltac:(lia)). destruct (attrs_loop (S (length r)) [] r) as [[a em] r'|e|]; congruence.
Qed.
