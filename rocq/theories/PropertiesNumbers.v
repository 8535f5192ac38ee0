(** Property C42 for the attribute types with methods of their own: which numbers are kept by writing and reading. *)
From Coq Require Import String.
From Coq Require Import ZArith List Bool Lia SpecFloat.
From Coq Require Import ZifyBool ZifyNat.
From Verif Require Import Base Float64 Duration DurationSpec DurationProofs DurationParse DurationRoundTrip PropertiesDuration Helpers PropertiesHelpers
  EscapeSpec CdataProofs GoType Schema Simple RoundTripSpec.
From Flocq Require Import BinarySingleNaN.
Import ListNotations.
Open Scope Z_scope.

Ltac lits := match goal with |- Forall _ (str ?s) => let x := eval vm_compute in (str s) in change (str s) with x end; repeat constructor; lia.

(** Every FloatInf64 is kept, infinities and NaN included, if strconv formats and parses as it promises. *)
Theorem C42_float_kept : forall F other f, format_contract (fmt_f F) -> (forall s, parse_f F 64 s = parse_signed other s) ->
  valid_binary 53 1024 f = true -> kept F TFloatInf (VFloat f).
Proof.
  intros F other f FC PC V. pose proof (C22_round_trip (fmt_f F) other FC f V) as RT. pose proof (C22_no_exponent (fmt_f F) FC f V) as NE.
  exists (float_attr (fmt_f F) f). split; [|split].
  - unfold leaf_text, float_attr. cbn [has_method method_text]. destruct f as [s|[]| |s m e]; reflexivity.
  - destruct NE as [E|[E|[E|E]]]; [rewrite E; apply xml_text_ascii; lits ..|].
    apply xml_text_ascii. eapply Forall_impl; [|exact E]. cbn. intros c H. lia.
  - unfold leaf_value. cbn [has_method method_value]. unfold read_float_attr in RT.
    destruct (beq (float_attr (fmt_f F) f) (str "INF")); [inversion RT; reflexivity|]. rewrite PC, RT. reflexivity.
Qed.
Print Assumptions C42_float_kept.
(** Negative infinity is not written as INF. *)
Example C42_float_ex : leaf_text (mkfl (fun _ _ => []) exact_format (fun _ => parse_signed (fun _ => None)) (fun _ => 0)) TFloatInf (VFloat (S754_infinity true)) = Some (str "-Inf") /\
  kept (mkfl (fun _ _ => []) exact_format (fun _ => parse_signed (fun _ => None)) (fun _ => 0)) TFloatInf (VFloat (S754_infinity true)).
Proof.
  split; [vm_compute; reflexivity|]. apply C42_float_kept with (other := fun _ => None); [apply C22_contract_satisfiable | reflexivity | reflexivity].
Qed.

Lemma dur_xml : forall p, dur_canonical p -> xml_text (dur_text p).
Proof.
  assert (D : forall s, digits s -> Forall (fun c => 32 <= c < 128 \/ c = 9 \/ c = 10 \/ c = 13) s) by (intros s H; eapply Forall_impl; [|exact H]; cbn; intros; lia).
  assert (O : forall o u, opt_natural o -> 32 <= u < 128 -> Forall (fun c => 32 <= c < 128 \/ c = 9 \/ c = 10 \/ c = 13) (opt_text o u)).
  { intros [s|] u N U; cbn [opt_text]; [|constructor]. apply Forall_app. split; [apply D, N | repeat constructor; lia]. }
  intros p (Nh & Nm & Ns & _). apply xml_text_ascii. unfold dur_text. repeat (apply Forall_app; split).
  - destruct (p_neg p); repeat constructor; lia.
  - repeat constructor; lia.
  - apply O; [exact Nh | lia].
  - apply O; [exact Nm | lia].
  - destruct (p_s p) as [[i f]|]; cbn [sec_text]; [|constructor]. destruct Ns as ((Di & _) & Df & _). destruct f as [|c f].
    + apply Forall_app. split; [apply D; exact Di | repeat constructor; lia].
    + repeat (apply Forall_app; split); [apply D; exact Di | repeat constructor; lia | apply D; exact Df | repeat constructor; lia].
Qed.
(** A duration that came out of a written document is kept from then on. *)
Theorem C42_duration_kept : forall F d, 500000 <= d < 9223372036854500000 ->
  exists t v, method_text F TDuration (VInt d) = Ok t /\ method_value F TDuration t = Ok (VInt v) /\ kept F TDuration (VInt v).
Proof.
  intros F d H. destruct (C03_round_trip (f_oor F) d H) as (p & v & S & C & P & _ & S2). exists (dur_text p), v. cbn [method_text method_value].
  rewrite S, P. split; [reflexivity|]. split; [reflexivity|]. exists (dur_text p). unfold leaf_text, leaf_value. cbn [has_method method_text method_value].
  rewrite S2, P. split; [reflexivity|]. split; [apply dur_xml; exact C | reflexivity].
Qed.
Print Assumptions C42_duration_kept.
Lemma frac_zero : forall f, digits f -> (length f <= 9)%nat -> (f = [] \/ last f 48 <> 48) -> dec_val f * 10 ^ (9 - Z.of_nat (length f)) mod 1000000000 = 0 -> f = [].
Proof.
  intros f D L K M. destruct K as [K|K]; [exact K|]. exfalso. pose proof (dec_val_bound f D) as B.
  assert (P : 0 < dec_val f).
  { clear M L B. induction f as [|b f IH]; [cbn in K; congruence|]. inversion D; subst. cbn [dec_val]. pose proof (dec_val_bound f ltac:(assumption)) as B.
    assert (Q : 0 < 10 ^ Z.of_nat (length f)) by (apply Z.pow_pos_nonneg; lia).
    destruct f as [|b' f]; [cbn [last] in K; cbn [dec_val length]; change (10 ^ Z.of_nat 0) with 1; lia|]. specialize (IH ltac:(assumption) K). nia. }
  assert (E : 10 ^ Z.of_nat (length f) * 10 ^ (9 - Z.of_nat (length f)) = 1000000000) by (rewrite <- Z.pow_add_r by lia; replace (Z.of_nat (length f) + (9 - Z.of_nat (length f))) with 9 by lia; reflexivity).
  assert (Q : 0 < 10 ^ (9 - Z.of_nat (length f))) by (apply Z.pow_pos_nonneg; lia).
  rewrite Z.mod_small in M by nia. nia.
Qed.
(** Whole seconds are kept. *)
Theorem C42_seconds_kept : forall F n, 0 <= n < 9223372036 -> kept F TDuration (VInt (n * 1000000000)).
Proof.
  intros F n H. destruct (dur_string_spec (f_oor F) (n * 1000000000)) as (p & A & B & C & V & E); [unfold is_i64, two63; lia|].
  replace (n * 1000000000 <? 0) with false in B by lia. exists (dur_text p). unfold leaf_text, leaf_value. cbn [has_method method_text method_value]. rewrite A.
  split; [reflexivity|]. split; [apply dur_xml; exact C|].
  assert (V2 : printed_ns (n * 1000000000) = n * 1000000000).
  { unfold printed_ns. destruct (Z.abs (n * 1000000000) <? 500000); [reflexivity|].
    destruct ((999500000 <=? Z.abs (n * 1000000000)) && (Z.abs (n * 1000000000) <? 1000000000)) eqn:W; [lia|].
    destruct (Z.eq_dec n 0) as [->|N]; [reflexivity|]. rewrite round_ms_val by lia.
    replace (n * 1000000000 + 500000) with (500000 + (n * 1000) * 1000000) by lia. rewrite Z.div_add by lia. change (500000 / 1000000) with 0. lia. }
  rewrite V2 in V. unfold dur_ns in V. rewrite B in V. assert (C' := C). destruct C' as (Nh & Nm & Ns & _ & _ & _).
  apply natural_opt_nonneg in Nh. apply natural_opt_nonneg in Nm.
  assert (S : match p_s p with Some (i, f) => f = [] /\ 0 <= dec_val i < 60 | None => True end).
  { destruct (p_s p) as [[i f]|]; [|exact I]. destruct Ns as ((Di & _) & Df & Lf & Z0 & L60). pose proof (dec_val_bound i Di). split; [|lia].
    apply frac_zero; auto. cbn [sec_val] in V. set (x := dec_val f * 10 ^ (9 - Z.of_nat (length f))) in *.
    replace x with ((n - opt_val (p_h p) * 3600 - opt_val (p_m p) * 60 - dec_val i) * 1000000000) by lia. apply Z.mod_mul. lia. }
  assert (S0 : 0 <= sec_val (p_s p)).
  { destruct (p_s p) as [[i f]|]; cbn [sec_val]; [|lia]. destruct S as (-> & S). cbn [dec_val length]. lia. }
  pose proof (canonical_accepted p C B ltac:(change (2 ^ 64) with 18446744073709551616; lia)) as ACC.
  destruct (p_s p) as [[i f]|] eqn:PS.
  - destruct S as (-> & S). rewrite app_nil_r in ACC. cbn [length Z.of_nat] in ACC. cbn [sec_val dec_val] in V.
    replace (dec_val i) with (dec_val i * 10 ^ 0) in ACC at 1 by (change (10 ^ 0) with 1; lia).
    rewrite (C05_whole_seconds (f_oor F) _ _ _ _ _ _ ACC); [|lia|change (2 ^ 63) with 9223372036854775808; lia]. f_equal. f_equal. lia.
  - cbn [sec_val] in V. rewrite (C05_value (f_oor F) _ _ _ _ ACC); [|change (2 ^ 63) with 9223372036854775808; lia]. f_equal. f_equal. lia.
Qed.
Print Assumptions C42_seconds_kept.
Definition fl0 : floats := mkfl (fun _ _ => []) (fun _ => []) (fun _ _ => None) (fun _ => 0).
Example C42_seconds_ex : leaf_text fl0 TDuration (VInt 3725000000000) = Some (str "PT1H2M5S") /\ leaf_value fl0 TDuration (str "PT1H2M5S") = Ok (VInt 3725000000000).
Proof. vm_compute. split; reflexivity. Qed.
(** Not every whole number of milliseconds is kept. *)
Theorem C42_duration_refuted : forall F, ~ kept F TDuration (VInt 1001000000).
Proof.
  intros F (s & A & _ & B). unfold leaf_text, leaf_value in *. cbn [has_method method_text method_value] in *.
  assert (E : dur_string (f_oor F) 1001000000 = Ok (str "PT1.001S")) by (vm_compute; reflexivity). rewrite E in A. assert (X : s = str "PT1.001S") by congruence. rewrite X in B. clear A X.
  assert (E2 : parse_duration (f_oor F) (str "PT1.001S") = Ok 1000999999) by (vm_compute; reflexivity). rewrite E2 in B. discriminate B.
Qed.
Print Assumptions C42_duration_refuted.
