(** Simple values are kept by their texts. *)
From Coq Require Import String.
From Coq Require Import ZArith List Bool Lia ZifyBool SpecFloat.
From Verif Require Import Base Utf8 Lexer EscapeSpec Duration DurationSpec DurationProofs DurationParse Printer PropertiesHelpers GoType TypeInfo Simple ValueSpec MarshalProofs RoundTripSpec.
Import ListNotations.
Open Scope Z_scope.

Lemma ascii_pieces : forall s k, Forall (fun c => 33 <= c < 127) s -> (length s <= k)%nat -> pieces_fuel k s = map (fun c => (c, [c])) s.
Proof.
  induction s as [|c s IH]; intros k F L; [destruct k; reflexivity|]. destruct k as [|k]; [cbn in L; lia|]. inversion F; subst. cbn [pieces_fuel].
  replace (decode_rune (c :: s)) with (c, 1%nat). 2: { unfold decode_rune, lead. replace (c <? 128) with true by lia. reflexivity. }
  cbn [firstn skipn map]. rewrite IH; auto. cbn in L. lia.
Qed.
Lemma drop_none : forall {A} (p : A -> bool) l, Forall (fun x => p x = false) l -> drop_while p l = l.
Proof. intros A p l F. destruct F as [|x l H F]; [reflexivity|]. cbn. rewrite H. reflexivity. Qed.
Lemma trim_ascii : forall s, Forall (fun c => 33 <= c < 127) s -> trim_space s = s.
Proof.
  intros s F. unfold trim_space, pieces. rewrite ascii_pieces by auto.
  assert (P : Forall (fun p : Z * bytes => uni_space (fst p) = false) (map (fun c => (c, [c])) s)).
  { clear - F. induction F as [|c s H F IH]; cbn [map]; constructor; auto. cbn [fst]. unfold uni_space, within. lia. }
  rewrite (drop_none _ _ P), drop_none by (apply Forall_rev; auto). rewrite rev_involutive. clear. induction s as [|c s IH]; [reflexivity|]. cbn in *. rewrite IH. reflexivity.
Qed.
Lemma ascii_text : forall s, Forall (fun c => 33 <= c < 127) s -> xml_text s.
Proof.
  induction 1 as [|c s H F IH]; [constructor|]. change (c :: s) with ([c] ++ s). apply (X_cons c); auto; [apply U1; lia|]. unfold xml_char. lia.
Qed.
Lemma parse_itoa : forall b n, 0 <= n < 2 ^ b -> parse_uint_bits b (itoa n) = Some n.
Proof.
  intros b n H. destruct (dec_spec n ltac:(lia)) as (D & V & N). change (dec n) with (itoa n) in *. unfold parse_uint_bits. destruct (itoa n) as [|c s] eqn:E; [congruence|]. rewrite <- E in *.
  replace (forallb is_digit (itoa n)) with true. 2: { symmetry. apply forallb_digits. exact D. }
  rewrite dec_val_digits_val, V. replace (n <? 2 ^ b) with true by lia. reflexivity.
Qed.
Lemma digit_first : forall b c s, 48 <= c <= 57 -> parse_int_bits b (c :: s) = match parse_uint_bits 64 (c :: s) with Some v => if v <? 2 ^ (b - 1) then Some v else None | None => None end.
Proof. intros b c s H. unfold parse_int_bits. destruct c as [|c|c]; try lia. do 6 (destruct c; try reflexivity; try lia). Qed.
Lemma digits_ascii : forall s, digits s -> Forall (fun c => 33 <= c < 127) s.
Proof. intros s D. eapply Forall_impl; [|exact D]. cbn. intros c. lia. Qed.

Section Leaf.
Variables (F : floats) (env : tenv).
Definition bits_ok (t : gtype) : bool := match t with TInt b => (1 <=? b) && (b <=? 64) | TUint b => (0 <=? b) && (b <=? 64) | _ => true end.
Lemma kept_string : forall s, xml_text s -> kept F TString (VStr s).
Proof. intros s X. exists s. repeat split; auto. Qed.
Lemma kept_bool : forall b, kept F TBool (VBool b).
Proof.
  intros b. exists (fmt_bool b). split; [reflexivity|]. split; [|destruct b; reflexivity]. apply ascii_text. destruct b; repeat constructor; cbn; lia.
Qed.
Lemma kept_uint : forall b z, bits_ok (TUint b) = true -> wt env (TUint b) (VInt z) = true -> kept F (TUint b) (VInt z).
Proof.
  intros b z B W. cbn [bits_ok wt] in *. assert (R : 0 <= z < 2 ^ b). { pose proof (Z.pow_pos_nonneg 2 b). lia. }
  exists (itoa z). unfold leaf_text, leaf_value. cbn [has_method simple_text]. split; [unfold fmt_int; replace (z <? 0) with false by lia; reflexivity|]. destruct (dec_spec z ltac:(lia)) as (D & V & N). change (dec z) with (itoa z) in *.
  split; [apply ascii_text, digits_ascii, D|]. cbn [copy_value copy_simple]. rewrite trim_ascii, parse_itoa by (auto using digits_ascii). destruct (itoa z); [congruence|reflexivity].
Qed.
Lemma kept_int : forall b z, bits_ok (TInt b) = true -> wt env (TInt b) (VInt z) = true -> kept F (TInt b) (VInt z).
Proof.
  intros b z B W. cbn [bits_ok wt] in *. assert (R : - 2 ^ (b - 1) <= z < 2 ^ (b - 1)). { pose proof (Z.pow_pos_nonneg 2 (b - 1)). lia. }
  assert (M : 2 ^ (b - 1) < 2 ^ 64) by (apply Z.pow_lt_mono_r; lia). destruct (dec_spec (Z.abs z) ltac:(lia)) as (D & V & N). change (dec (Z.abs z)) with (itoa (Z.abs z)) in *.
  assert (TX : Forall (fun c => 33 <= c < 127) (fmt_int z)). { unfold fmt_int. destruct (z <? 0) eqn:E; [constructor; [lia|]; replace (- z) with (Z.abs z) by lia|replace z with (Z.abs z) by lia]; apply digits_ascii; auto. }
  exists (fmt_int z). unfold leaf_text, leaf_value. cbn [has_method simple_text]. split; [reflexivity|]. split; [apply ascii_text; auto|].
  cbn [copy_value copy_simple]. rewrite trim_ascii by auto.
  assert (P : parse_int_bits b (fmt_int z) = Some z).
  { unfold parse_int_bits, fmt_int. destruct (z <? 0) eqn:E.
    - rewrite parse_itoa by lia. replace (- z <=? 2 ^ (b - 1)) with true by lia. f_equal. lia.
    - replace (itoa z) with (itoa (Z.abs z)) by (f_equal; lia). pose proof (parse_itoa 64 (Z.abs z) ltac:(lia)) as Q. destruct (itoa (Z.abs z)) as [|c s] eqn:EI; [congruence|]. inversion D as [|? ? DC DS]; subst.
      change (parse_int_bits b (c :: s) = Some z). rewrite digit_first by lia. rewrite Q. replace (Z.abs z <? 2 ^ (b - 1)) with true by lia. f_equal. lia. }
  rewrite P. unfold fmt_int in *. destruct (z <? 0) eqn:E; [reflexivity|]. destruct (itoa z) eqn:EZ; [|reflexivity]. replace z with (Z.abs z) in EZ by lia. congruence.
Qed.
(** A simple value of a type. *)
Lemma kept_leaf : forall i d l t v, simple_type t = true -> bits_ok t = true -> wt env t v = true -> clean F env i d l t v -> kept F t v.
Proof.
  intros i d l t v S B W C. destruct t; try discriminate S; destruct v; try discriminate W; cbn [clean] in C; auto.
  - apply kept_string; auto.
  - apply kept_bool.
  - apply kept_int; auto.
  - apply kept_uint; auto.
Qed.
End Leaf.
