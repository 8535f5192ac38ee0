(** The bytes of complete elements are read alike wherever they are. *)
From Coq Require Import String.
From Coq Require Import ZArith List Bool Lia.
From Coq Require Import ZifyBool ZifyNat ZifyN.
From Verif Require Import Base Utf8 Lexer LexerProofs LexerLocal Decoder DecoderSpec DecoderProofs GoType TypeInfo Simple Unmarshal UnmarshalProofs.
Import ListNotations.
Open Scope Z_scope.

(** What a call of Token takes from the input. *)
Lemma next_takes : forall d t d', next_token d = TokOk t d' -> exists w, d_inp d = w ++ d_inp d'.
Proof.
  intros [inp c stk m err] t d' H. unfold next_token, raw_step in H. cbn [d_err d_close d_inp d_stk d_ns] in *.
  destruct err as [[]|]; try discriminate. { destruct stk; discriminate. } destruct c as [n|].
  { cbn [d_stk d_ns d_inp d_close] in H. destruct (pop_element n stk m) as [[[n' stk'] m']|e0]; [|discriminate]. injection H as <- <-. exists []. reflexivity. }
  destruct (raw_token inp) as [[w c] rest|e|] eqn:E; [|destruct e; try discriminate; destruct stk; discriminate|discriminate].
  destruct (raw_token_local _ _ _ E) as (x & -> & _). exists x. cbn [d_stk d_ns d_inp d_close] in H.
  destruct w; try (injection H as <- <-; reflexivity).
  - destruct (declare a (stk, m)) as [[stk' m']|e]; [|discriminate]. injection H as <- <-. reflexivity.
  - destruct (pop_element n stk m) as [[[n' stk'] m']|e]; [|discriminate]. injection H as <- <-. reflexivity.
Qed.
Lemma calls_take : forall d ts d', calls d ts d' -> exists w, d_inp d = w ++ d_inp d'.
Proof.
  induction 1 as [d|d t d1 ts d' H C IH]; [exists []; reflexivity|]. destruct (next_takes _ _ _ H) as (w1 & ->). destruct IH as (w2 & ->). exists (w1 ++ w2). apply app_assoc.
Qed.
(** The end tag. *)
Lemma end_takes : forall d n d', next_token d = TokOk (TEnd n) d' ->
  (exists m, d_close d = Some m) /\ d_inp d = d_inp d' \/ d_close d = None /\ exists w, d_inp d = str "</" ++ w ++ str ">" ++ d_inp d'.
Proof.
  intros [inp c stk m err] n d' H. unfold next_token, raw_step in H. cbn [d_err d_close d_inp d_stk d_ns] in *.
  destruct err as [[]|]; try discriminate. { destruct stk; discriminate. } destruct c as [nm|].
  { cbn [d_stk d_ns d_inp d_close] in H. destruct (pop_element nm stk m) as [[[n' stk'] m']|e0]; [|discriminate]. injection H as <- <-. left. split; eauto. }
  right. split; auto. destruct (raw_token inp) as [[w c] rest|e|] eqn:E; [|destruct e; try discriminate; destruct stk; discriminate|discriminate]. cbn [d_stk d_ns d_inp d_close] in H.
  destruct w as [n0 a|n0|s|s|tg s|s]; try discriminate. { destruct (declare a (stk, m)) as [[]|]; discriminate. }
  destruct (pop_element n0 stk m) as [[[n' stk'] m']|e]; [|discriminate]. injection H as <- <-. cbn [d_inp]. clear - E.
  unfold raw_token in E. destruct inp as [|b t]; [discriminate|]. destruct (b =? 60) eqn:B; cbn [negb] in E.
  2: { destruct (text None false (b :: t)); discriminate. }
  destruct t as [|c0 t']; [discriminate|]. destruct (c0 =? 47) eqn:C.
  { destruct (get_nsname t') as [[m r]|[e|]] eqn:G; try discriminate. destruct (get_nsname_local _ _ _ G) as (w1 & _ & -> & _). destruct (skip_space_local r) as (w2 & W2 & _).
    destruct (skip_space r) as [|x r']; [discriminate|]. destruct (x =? 62) eqn:X; [|discriminate]. injection E as <- <- <-. exists (w1 ++ w2).
    replace b with 60 by lia. replace c0 with 47 by lia. replace x with 62 in W2 by lia. rewrite W2. change (str "</") with [60; 47]. change (str ">") with [62]. cbn [app]. rewrite <- app_assoc. reflexivity. }
  destruct (c0 =? 63). { destruct (get_name t') as [[m r]|[e|]]; try discriminate. destruct (pi_loop 0 [] (skip_space r)); try discriminate. destruct (if beq m _ then _ else _); discriminate. }
  destruct (c0 =? 33).
  { destruct t' as [|d t'']; [discriminate|]. destruct (d =? 45).
    { destruct t'' as [|e t3]; [discriminate|]. destruct (e =? 45); [|discriminate]. destruct (comment_loop 0 0 [] t3); discriminate. }
    destruct (d =? 91). { destruct (expect (str "CDATA[") t'') as [u r|e|]; try discriminate. destruct (text None true r); discriminate. }
    destruct (directive_loop _ _ _ _ _ _); discriminate. }
  destruct (get_nsname (c0 :: t')) as [[m r]|[e|]]; try discriminate. destruct (attrs_loop (S (length r)) [] r) as [[a' em] r'|e|]; discriminate.
Qed.

(** Tokens that differ in the meaning of their names only. *)
Definition alike (t t' : token) : Prop := match t, t' with TStart _ _, TStart _ _ | TEnd _, TEnd _ => True | _, _ => t = t' end.
Lemma declare_any : forall a s s', match declare a s, declare a s' with inl _, inl _ => True | inr _, inr _ => True | _, _ => False end.
Proof.
  induction a as [|[n v] a IH]; intros s s'; cbn [declare]; [exact I|]. destruct (_ && _); [exact I|]. destruct (_ && _); [exact I|]. apply IH.
Qed.
(** [d] and [e] are inside the same elements [x], which are in different surroundings. *)
Lemma next_alike : forall d e x y y' t d1 w rest, rel d (x ++ y) -> rel e (x ++ y') -> d_close d = d_close e -> next_token d = TokOk t d1 -> (x = [] -> forall n, t <> TEnd n) ->
  d_inp d = w ++ d_inp d1 -> d_inp e = w ++ rest -> front rest (d_inp d1) ->
  exists t' e1 x1, next_token e = TokOk t' e1 /\ alike t t' /\ d_inp e1 = rest /\ d_close d1 = d_close e1 /\ rel d1 (x1 ++ y) /\ rel e1 (x1 ++ y') /\ depth_after (length x) [t] = Some (length x1).
Proof.
  intros [inp c stk m err] [inp' c' stk' m' err'] x y y' t d1 w rest R R' CL H NE W W' FR. cbn [d_close d_inp] in *. subst c'.
  pose proof (r_err _ _ R) as E1. pose proof (r_err _ _ R') as E2. cbn [d_err] in E1, E2. subst err err'.
  assert (FIN : forall t' e1, next_token (mkd inp' c stk' m' None) = TokOk t' e1 -> alike t t' -> d_inp e1 = rest -> d_close d1 = d_close e1 ->
    exists t' e1 x1, next_token (mkd inp' c stk' m' None) = TokOk t' e1 /\ alike t t' /\ d_inp e1 = rest /\ d_close d1 = d_close e1 /\ rel d1 (x1 ++ y) /\ rel e1 (x1 ++ y') /\ depth_after (length x) [t] = Some (length x1)).
  { intros t' e1 N AL IN CE. exists t', e1. destruct (next_ok _ _ _ _ R H) as (u & o1 & WR & IP & R1). destruct (next_ok _ _ _ _ R' N) as (u' & o1' & WR' & IP' & R1').
    specialize (IP [] [] o1 (I_nil _)). specialize (IP' [] [] o1' (I_nil _)). cbn [d_close d_inp] in WR, WR'.
    assert (u' = u) as ->.
    { clear - WR WR' W W' FR IN. destruct c as [nm|]; inversion WR; subst; [inversion WR'; subst; auto|].
      match goal with G : written _ _ [] _ _ |- _ => inversion G; subst; clear G end. match goal with G : raw_token (w ++ d_inp d1) = _ |- _ => destruct (raw_token_local _ _ _ G) as (w2 & X & L) end.
      assert (w2 = w) as -> by (apply (app_inv_tail (d_inp d1)); congruence). specialize (L _ FR). inversion WR'; subst. congruence. }
    inversion IP; subst.
    - match goal with G : interp _ [] [] _ |- _ => inversion G; subst end. inversion IP'; subst; try congruence. match goal with G : interp _ [] [] _ |- _ => inversion G; subst end. exists ((n, a) :: x). cbn [app length depth_after]. auto 10.
    - match goal with G : interp _ [] [] _ |- _ => inversion G; subst end. destruct x as [|p x]; [exfalso; exact (NE eq_refl _ eq_refl)|]. cbn [app] in *. injection H0 as -> ->.
      inversion IP'; subst; try congruence. match goal with G : interp _ [] [] _ |- _ => inversion G; subst end. exists x. cbn [length depth_after]. auto 10.
    - match goal with G : interp _ [] [] _ |- _ => inversion G; subst end. exists x.
      assert (o1' = x ++ y') as ->. { inversion IP'; subst; try (exfalso; eauto; fail); try congruence. all: match goal with G : interp _ [] [] _ |- _ => inversion G; subst end; reflexivity. }
      split; auto. split; auto. split; auto. split; auto. split; auto. split; auto. destruct t; try reflexivity; exfalso; match goal with G : forall n a, TStart _ _ <> _ |- _ => exact (G _ _ eq_refl) | G : forall n, TEnd _ <> _ |- _ => exact (G _ eq_refl) end. }
  unfold next_token, raw_step in H. cbn [d_err d_close d_inp d_stk d_ns] in H.
  destruct c as [nm|].
  - cbn [d_stk d_ns d_inp d_close] in H. destruct (pop_element nm stk m) as [[[n1 stk1] m1]|e0] eqn:P; [|discriminate]. injection H as <- <-. cbn [d_inp] in W, FR.
    assert (w = []) as -> by (apply (app_inv_tail inp); cbn; auto). cbn in W'. subst inp'.
    destruct x as [|[xn xa] x]; [exfalso; exact (NE eq_refl _ eq_refl)|]. destruct (r_close _ _ R nm eq_refl) as (a0 & o0 & X). cbn [app] in X. injection X as -> -> <-.
    pose proof (r_stk _ _ R') as G. cbn [d_stk app] in G. inversion G as [|? ? us stk0 ? G0 F0 U0]; subst.
    eapply FIN; [unfold next_token, raw_step; cbn [d_err d_close d_inp d_stk d_ns pop_element]; rewrite !beq_refl; cbn [negb]; rewrite undo_split by (auto; eapply good_top; eauto); reflexivity|exact I|reflexivity|reflexivity].
  - destruct (raw_token inp) as [[tk c] rst|e|] eqn:E; [|destruct e; try discriminate; destruct stk; discriminate|discriminate].
    destruct (raw_token_local _ _ _ E) as (w1 & X1 & L). cbn [d_stk d_ns d_inp d_close] in H.
    assert (IR : d_inp d1 = rst /\ d_close d1 = c).
    { destruct tk; try (injection H as <- <-; split; reflexivity).
      - destruct (declare a (stk, m)) as [[stk1 m1]|e]; [|discriminate]. injection H as <- <-. split; reflexivity.
      - destruct (pop_element n stk m) as [[[n' stk1] m1]|e]; [|discriminate]. injection H as <- <-. split; reflexivity. }
    destruct IR as [IR CR]. assert (w1 = w) as ->. { apply (app_inv_tail rst). rewrite <- X1, W, IR. reflexivity. }
    rewrite IR in FR. specialize (L rest FR). rewrite <- W' in L.
    destruct tk as [n a|n|s|s|tg s|s].
    2: { destruct (pop_element n stk m) as [[[n' stk1] m1]|e] eqn:P; [|discriminate]. injection H as <- <-. cbn [d_inp d_close] in *.
         destruct x as [|[xn xa] x]; [exfalso; exact (NE eq_refl _ eq_refl)|]. pose proof (r_stk _ _ R) as G. pose proof (r_stk _ _ R') as G'. cbn [d_stk app] in G, G'.
         inversion G as [|? ? us stk0 ? G0 F0 U0]; subst. inversion G' as [|? ? us' stk0' ? G0' F0' U0']; subst. cbn [pop_element] in P. destruct (beq (local xn) (local n)) eqn:B1; [|discriminate].
         destruct (beq (space xn) (space n)) eqn:B2; [|discriminate].
         eapply FIN; [unfold next_token, raw_step; cbn [d_err d_close d_inp d_stk d_ns]; rewrite L; cbn [d_err d_close d_inp d_stk d_ns pop_element]; rewrite B1, B2; cbn [negb]; rewrite undo_split by (auto; eapply good_top; eauto); reflexivity|exact I|reflexivity|reflexivity]. }
    1: { pose proof (declare_any a (stk, m) (stk', m')) as DA. destruct (declare a (stk, m)) as [[stk1 m1]|e]; [|discriminate]. destruct (declare a (stk', m')) as [[stk1' m1']|e] eqn:D'; [|contradiction]. injection H as <- <-. cbn [d_inp d_close] in *.
         eapply FIN; [unfold next_token, raw_step; cbn [d_err d_close d_inp d_stk d_ns]; rewrite L; cbn [d_err d_close d_inp d_stk d_ns]; rewrite D'; reflexivity|exact I|reflexivity|reflexivity]. }
    all: injection H as <- <-; cbn [d_inp d_close] in *; (eapply FIN; [unfold next_token, raw_step; cbn [d_err d_close d_inp d_stk d_ns]; rewrite L; reflexivity|reflexivity|reflexivity|reflexivity]).
Qed.
Lemma calls_alike : forall d ts d1, calls d ts d1 -> forall e x y y' raw rest m, rel d (x ++ y) -> rel e (x ++ y') -> d_close d = d_close e -> depth_after (length x) ts = Some m ->
  d_inp d = raw ++ d_inp d1 -> d_inp e = raw ++ rest -> front rest (d_inp d1) ->
  exists ts' e1 x1, calls e ts' e1 /\ Forall2 alike ts ts' /\ d_inp e1 = rest /\ d_close d1 = d_close e1 /\ rel d1 (x1 ++ y) /\ rel e1 (x1 ++ y') /\ m = length x1.
Proof.
  induction 1 as [d|d t d2 ts d1 H C IH]; intros e x y y' raw rest mm R R' CL D I1 I2 FR.
  - assert (raw = []) as -> by (apply (app_inv_tail (d_inp d)); cbn; auto). injection D as <-. exists [], e, x. split; [constructor|]. split; [constructor|]. auto.
  - destruct (calls_take _ _ _ C) as (w2 & W2). destruct (next_takes _ _ _ H) as (w1 & W1).
    assert (raw = w1 ++ w2) as -> by (apply (app_inv_tail (d_inp d1)); rewrite <- app_assoc, <- W2, <- W1; auto).
    destruct (next_alike d e x y y' t d2 w1 (w2 ++ rest) R R' CL H) as (t' & e2 & x2 & N' & AL & IE & CE & R2 & R2' & DX); auto.
    + intros -> n ->. cbn in D. discriminate.
    + rewrite <- app_assoc in I2. exact I2.
    + rewrite W2. apply front_app. exact FR.
    + destruct (IH e2 x2 y y' w2 rest mm R2 R2' CE) as (ts' & e1 & x1 & C' & F2 & X); auto.
      { destruct t; cbn [depth_after] in *; try (injection DX as DX; rewrite <- DX; exact D). destruct (length x); [discriminate|]. injection DX as DX. rewrite <- DX. exact D. }
      exists (t' :: ts'), e1, x1. split; [econstructor; eauto|]. split; [constructor; auto|exact X].
Qed.
