(** Theorems C01-C06: durations (mpd/duration.go).
    [oor] is what the platform returns for a float-to-integer conversion out of range; every theorem
    holds whatever it is.  Specification: DurationSpec.v. *)
From Coq Require Import String.
From Coq Require Import ZArith List Bool SpecFloat Reals Psatz.
From Coq Require Import ZifyBool ZifyNat ZifyN.
From Verif Require Import Base Float64 Duration DurationSpec DurationProofs DurationParse DurationRoundTrip.
Import ListNotations.
Open Scope Z_scope.

(** C01.  For every int64 the text is a canonical [-]PT[nH][nM][n[.f]S] (see [dur_canonical]), the sign is
    that of the duration, the 32-byte buffer suffices and no write panics. *)
Theorem C01_string_well_formed : forall oor d, - 2 ^ 63 <= d < 2 ^ 63 ->
  exists p, dur_string oor d = Ok (dur_text p) /\ p_neg p = (d <? 0) /\ dur_canonical p /\
    (length (dur_text p) <= 32)%nat.
Proof.
  intros oor d H. destruct (dur_string_spec oor d) as (p & A & B & C & _ & E); [unfold is_i64, two63; lia|].
  exists p. auto.
Qed.
Print Assumptions C01_string_well_formed.
Example C01_ex : dur_string (fun _ => 0) (- 2 ^ 63) = Ok (str "-PT2562047H47M16.855S"). Proof. vm_compute. reflexivity. Qed.
Example C01_ex2 : dur_string (fun _ => 0) 3661001000000 = Ok (str "PT1H1M1.001S"). Proof. vm_compute. reflexivity. Qed.

(** C02.  The value denoted by the text: exact below half a millisecond, rounded half away from zero to
    whole milliseconds otherwise - except in the window [999.5 ms, 1 s). *)
Theorem C02_string_accuracy : forall oor d, - 2 ^ 63 <= d < 2 ^ 63 -> ~ (999500000 <= Z.abs d < 1000000000) ->
  exists p, dur_string oor d = Ok (dur_text p) /\ dur_canonical p /\
    dur_ns p = (if Z.abs d <? 500000 then d else round_ms d) /\ Z.abs (dur_ns p - d) <= 500000.
Proof.
  intros oor d H W. destruct (dur_string_spec oor d) as (p & A & B & C & V & E); [unfold is_i64, two63; lia|].
  exists p. split; auto. split; auto.
  assert (G : printed_ns d = (if Z.abs d <? 500000 then d else round_ms d)).
  { unfold printed_ns. destruct (Z.abs d <? 500000); auto.
    replace ((999500000 <=? Z.abs d) && (Z.abs d <? 1000000000)) with false by lia. reflexivity. }
  rewrite V, G. split; auto. destruct (Z.abs d <? 500000); [lia|]. unfold round_ms.
  pose proof (Z.div_mod (Z.abs d + 500000) 1000000 ltac:(lia)). pose proof (Z.mod_pos_bound (Z.abs d + 500000) 1000000 ltac:(lia)).
  destruct (Z.sgn_spec d) as [[? ->]|[[? ->]|[? ->]]]; lia.
Qed.
Print Assumptions C02_string_accuracy.
Example C02_ex : dur_string (fun _ => 0) (-1500500000) = Ok (str "-PT1.501S"). Proof. vm_compute. reflexivity. Qed.

(** C02 is false without the exception: every duration of the window prints zero, almost a second away. *)
Theorem C02_string_accuracy_refuted : forall oor d, 999500000 <= Z.abs d < 1000000000 ->
  exists p, dur_string oor d = Ok (dur_text p) /\ dur_canonical p /\ dur_ns p = 0.
Proof.
  intros oor d H. destruct (dur_string_spec oor d) as (p & A & B & C & V & E); [unfold is_i64, two63; lia|].
  exists p. split; auto. split; auto. rewrite V. unfold printed_ns.
  replace (Z.abs d <? 500000) with false by lia.
  replace ((999500000 <=? Z.abs d) && (Z.abs d <? 1000000000)) with true by lia. reflexivity.
Qed.
Print Assumptions C02_string_accuracy_refuted.
(** Both together: what the text denotes, for every duration. *)
Theorem C02_string : forall oor d, - 2 ^ 63 <= d < 2 ^ 63 ->
  exists p, dur_string oor d = Ok (dur_text p) /\ dur_canonical p /\
    dur_ns p = (if Z.abs d <? 500000 then d else if (999500000 <=? Z.abs d) && (Z.abs d <? 1000000000) then 0 else round_ms d).
Proof.
  intros oor d H. destruct ((999500000 <=? Z.abs d) && (Z.abs d <? 1000000000)) eqn:W.
  - destruct (C02_string_accuracy_refuted oor d) as (p & A & B & C); [lia|]. exists p. replace (Z.abs d <? 500000) with false by lia. auto.
  - destruct (C02_string_accuracy oor d H) as (p & A & B & C & _); [lia|]. exists p. auto.
Qed.
Print Assumptions C02_string.
Example C02_refuted_ex : dur_string (fun _ => 0) 999600000 = Ok (str "PT0S"). Proof. vm_compute. reflexivity. Qed.

(** C03.  Read/write cycles: text accepted, value at most 1 ns below what the text denotes, the same text
    printed again after any number of cycles.  Missing for the full claim: durations below half a
    millisecond and the last 275.8 us of the int64 range (both refuted below). *)
Theorem C03_round_trip : forall oor d, 500000 <= d < 9223372036854500000 ->
  exists p v, dur_string oor d = Ok (dur_text p) /\ dur_canonical p /\ parse_duration oor (dur_text p) = Ok v /\
    dur_ns p - 1 <= v <= dur_ns p /\ dur_string oor v = Ok (dur_text p).
Proof.
  intros oor d H. destruct (dur_string_spec oor d) as (p & A & B & C & V & E); [unfold is_i64, two63; lia|].
  destruct (cycle_fixed oor d H) as (t & v & E1 & E2 & E3 & R & _). rewrite A in E1. inversion E1; subst t.
  exists p, v. rewrite V. auto.
Qed.
Print Assumptions C03_round_trip.
Theorem C03_cycles : forall oor n d, 500000 <= d < 9223372036854500000 ->
  exists v, cycles oor n d = Ok v /\ dur_string oor v = dur_string oor d.
Proof. intros oor n d H. exact (cycles_stable oor n d (or_intror H)). Qed.
Print Assumptions C03_cycles.
Example C03_ex : dur_string (fun _ => 0) 1001000000 = Ok (str "PT1.001S") /\
  parse_duration (fun _ => 0) (str "PT1.001S") = Ok 1000999999 /\ dur_string (fun _ => 0) 1000999999 = Ok (str "PT1.001S").
Proof. vm_compute. auto. Qed.

(** Below half a millisecond the text changes with every cycle. *)
Theorem C03_round_trip_refuted : exists d t v t', 0 <= d < 500000 /\
  forall oor, dur_string oor d = Ok t /\ parse_duration oor t = Ok v /\ dur_string oor v = Ok t' /\ t <> t'.
Proof.
  exists 15, (str "PT0.000000015S"), 14, (str "PT0.000000014S"). split; [lia|]. intro oor.
  split; [vm_compute; reflexivity|]. split; [vm_compute; reflexivity|]. split; [vm_compute; reflexivity|]. discriminate.
Qed.
Print Assumptions C03_round_trip_refuted.
(** The largest durations print a text that is read back as a negative duration. *)
Theorem C03_largest_refuted : exists d t v, 0 <= d < 2 ^ 63 /\
  forall oor, dur_string oor d = Ok t /\ parse_duration oor t = Ok v /\ v < 0.
Proof.
  exists (2 ^ 63 - 1), (str "PT2562047H47M16.855S"), (-9223372036854551616). split; [cbn; lia|]. intro oor.
  split; [vm_compute; reflexivity|]. split; [vm_compute; reflexivity|]. lia.
Qed.
Print Assumptions C03_largest_refuted.

(** C04.  Exactly the texts of [dur_accepted] are accepted; everything else is an error. *)
Theorem C04_language : forall oor s,
  ((exists v, parse_duration oor s = Ok v) <-> (exists d h m o, dur_accepted s d h m o)) /\
  ((exists v, parse_duration oor s = Ok v) \/ (exists e, parse_duration oor s = Err e)).
Proof.
  intros oor s. split; [|apply parse_total]. split.
  - intros [v H]. exact (parse_sound _ _ _ H).
  - intros (d & h & m & o & H). eauto using parse_complete.
Qed.
Print Assumptions C04_language.
(** Everything in the documented format is accepted. *)
Theorem C04_documented_accepted : forall oor s, dur_documented s -> exists v, parse_duration oor s = Ok v.
Proof.
  intros oor s H. apply C04_language. destruct H as [n Hn|td d th h tm m ts o Hd Hh Hm Hs NE].
  - do 4 eexists. now apply da_days.
  - do 4 eexists. apply da_time; eauto. intro X. apply NE. now apply app_eq_nil in X.
Qed.
Print Assumptions C04_documented_accepted.

(** The documented format is smaller: no document text is empty after T, none has days after T. *)
Definition has_dt (s : bytes) : Prop := exists a b, s = a ++ 84 :: b /\ (b = [] \/ In 68 b).
Lemma In_digits : forall n x, digits n -> In x n -> 48 <= x <= 57.
Proof. intros n x D I. unfold digits in D. rewrite Forall_forall in D. auto. Qed.
Lemma In_opt_unit : forall u t v x, opt_unit u t v -> In x t -> 48 <= x <= 57 \/ x = u.
Proof.
  intros u t v x [|n (_ & D & _)] I; [destruct I|]. apply in_app_or in I. destruct I as [I|[<-|[]]]; auto.
  left. eapply In_digits; eauto.
Qed.
Lemma In_opt_sec : forall t o x, opt_sec t o -> In x t -> 48 <= x <= 57 \/ x = 46 \/ x = 83.
Proof.
  intros t o x [|s i f (Hs & Di & Df & _)] I; [destruct I|]. apply in_app_or in I. destruct I as [I|[<-|[]]]; auto.
  destruct Hs as [[-> ->]| ->].
  - left. exact (In_digits _ _ Di I).
  - apply in_app_or in I. destruct I as [I|[<-|I]]; auto; left.
    + exact (In_digits _ _ Di I).
    + exact (In_digits _ _ Df I).
Qed.
Lemma documented_no_dt : forall s, dur_documented s -> ~ has_dt s.
Proof.
  intros s H (a & b & E & C).
  destruct H as [n (_ & D & _)|td d th h tm m ts o Hd Hh Hm Hs NE].
  - assert (In 84 (80 :: n ++ [68])) by (rewrite E; apply in_or_app; right; left; auto).
    destruct H as [?|I]; [lia|]. apply in_app_or in I. destruct I as [I|[I|[]]]; [|lia].
    apply (In_digits _ _ D) in I. lia.
  - assert (T : forall x, In x (th ++ tm ++ ts) -> x <> 84 /\ x <> 68).
    { intros x I. apply in_app_or in I. destruct I as [I|I].
      - apply (In_opt_unit _ _ _ _ Hh) in I. lia.
      - apply in_app_or in I. destruct I as [I|I].
        + apply (In_opt_unit _ _ _ _ Hm) in I. lia.
        + apply (In_opt_sec _ _ _ Hs) in I. lia. }
    assert (G : forall p q x y, p ++ 84 :: x = q ++ 84 :: y -> (forall z, In z p -> z <> 84) -> (forall z, In z x -> z <> 84) -> x = y).
    { induction p as [|z p IH]; intros q x y EQ Hp Hx; destruct q as [|w q]; cbn in EQ; inversion EQ; subst; auto.
      - exfalso. apply (Hx 84); auto. apply in_or_app. right. left. auto.
      - exfalso. apply (Hp 84); auto. now left.
      - eapply IH; eauto. intros z Hz. apply Hp. now right. }
    assert (EB : th ++ tm ++ ts = b).
    { apply (G (80 :: td) a); auto.
      - intros z [<-|I]; [lia|]. apply (In_opt_unit _ _ _ _ Hd) in I. lia.
      - intros z I. now apply T in I. }
    subst b. destruct C as [C|C]; [auto|]. apply T in C. lia.
Qed.
Theorem C04_documented_refuted : exists s1 s2, forall oor,
  parse_duration oor s1 = Ok 86400000000000 /\ parse_duration oor s2 = Ok 86400000000000 /\
  ~ dur_documented s1 /\ ~ dur_documented s2.
Proof.
  exists (str "PT1D"), (str "P1DT"). intro oor. split; [vm_compute; reflexivity|]. split; [vm_compute; reflexivity|].
  split; intro H; apply documented_no_dt in H; apply H.
  - exists [80], [49; 68]. split; [reflexivity|]. right. right. left. auto.
  - exists [80; 49; 68], []. auto.
Qed.
Print Assumptions C04_documented_refuted.
Example C04_ex : dur_accepted (str "P1DT2H3.5S") 1 2 0 (Some (35, 1)).
Proof.
  apply (da_time [49; 68] 1 [50; 72] 2 [] 0 [51; 46; 53; 83] (Some (35, 1))).
  - apply (ou_some 68 [49]). repeat split; try lia; [discriminate|repeat constructor; lia].
  - apply (ou_some 72 [50]). repeat split; try lia; [discriminate|repeat constructor; lia].
  - constructor.
  - apply (os_some [51; 46; 53] [51] [53]). repeat split; try (repeat constructor; lia); auto. discriminate.
  - discriminate.
Qed.
Example C04_ex_reject : parse_duration (fun _ => 0) (str "P1Y") = Err DurFormat /\ parse_duration (fun _ => 0) (str "PT1S1H") = Err DurFormat
  /\ parse_duration (fun _ => 0) (str "PT1.5M") = Err DurFormat /\ parse_duration (fun _ => 0) (str "PT-1S") = Err DurNegative.
Proof. vm_compute. auto. Qed.

(** C05.  Value of an accepted text whose total is in range: without seconds exact; with a seconds number
    v/10^k below 10^5, off by less than 1.04 ns (exact or 1 ns less with up to nine decimals);
    whole seconds up to 4611686018 exact. *)
Theorem C05_value : forall oor s d h m, dur_accepted s d h m None ->
  d * 86400000000000 + h * 3600000000000 + m * 60000000000 < 2 ^ 63 ->
  parse_duration oor s = Ok (d * 86400000000000 + h * 3600000000000 + m * 60000000000).
Proof.
  intros oor s d h m A B. rewrite (parse_complete oor _ _ _ _ _ A). f_equal. unfold dur_value. cbn [sec_ns].
  rewrite Z.add_0_r. apply wrap_i64_id.
  assert (N : 0 <= d /\ 0 <= h /\ 0 <= m).
  { assert (U : forall u t v, opt_unit u t v -> 0 <= v).
    { intros u t v [|n (_ & D & _)]; [lia|]. apply dec_val_bound; auto. }
    inversion A; subst; repeat split; eauto; try lia;
      match goal with H : uint_text _ |- _ => destruct H as (_ & D & _); apply dec_val_bound; auto end. }
  unfold is_i64, two63. change (2 ^ 63) with 9223372036854775808 in B. lia.
Qed.
Print Assumptions C05_value.
Lemma accepted_nonneg : forall s d h m v k, dur_accepted s d h m (Some (v, k)) -> 0 <= d /\ 0 <= h /\ 0 <= m /\ 0 <= v /\ 0 <= k.
Proof.
  intros s d h m v k A.
  assert (U : forall u t v, opt_unit u t v -> 0 <= v).
  { intros u t w [|n (_ & D & _)]; [lia|]. apply dec_val_bound; auto. }
  assert (W : forall t, opt_sec t (Some (v, k)) -> 0 <= v /\ 0 <= k).
  { intros t H. inversion H as [|? i f (_ & Di & Df & _)]. subst. split; [|lia]. apply dec_val_bound. apply Forall_app. auto. }
  inversion A; subst.
  - repeat split; eauto; edestruct W; eauto.
  - repeat split; eauto; try (edestruct W; eauto; fail).
    match goal with H : uint_text _ |- _ => destruct H as (_ & D & _); apply dec_val_bound; auto end.
Qed.
Theorem C05_value_seconds : forall oor s d h m v k, dur_accepted s d h m (Some (v, k)) ->
  v < 100000 * 10 ^ k ->
  d * 86400000000000 + h * 3600000000000 + m * 60000000000 + 100000000000001 < 2 ^ 63 ->
  exists r, parse_duration oor s = Ok (d * 86400000000000 + h * 3600000000000 + m * 60000000000 + r) /\
    - 33 * 10 ^ k < 32 * (r * 10 ^ k - v * 10 ^ 9) <= 10 ^ k /\
    (k <= 9 -> r = v * 10 ^ (9 - k) \/ r = v * 10 ^ (9 - k) - 1).
Proof.
  intros oor s d h m v k A B T. destruct (accepted_nonneg _ _ _ _ _ _ A) as (Hd & Hh & Hm & Hv & Hk).
  exists (sec_ns oor (Some (v, k))). rewrite (parse_complete oor _ _ _ _ _ A).
  assert (HP : 0 < 10 ^ k) by (apply Z.pow_pos_nonneg; lia).
  pose proof (sec_ns_error oor v k Hv Hk B) as E.
  assert (E' : - 33 * 10 ^ k < 32 * (sec_ns oor (Some (v, k)) * 10 ^ k - v * 10 ^ 9) <= 10 ^ k).
  { assert (HPR : (0 < IZR (10 ^ k))%R) by now apply IZR_lt.
    set (r := sec_ns oor (Some (v, k))) in *. set (P := 10 ^ k) in *.
    assert (X : (IZR v / IZR P * 1000000000 * IZR P = IZR v * 1000000000)%R) by (field; lra).
    split; [apply lt_IZR|apply le_IZR]; rewrite ?mult_IZR, ?minus_IZR, ?mult_IZR.
    - change (IZR (10 ^ 9)) with 1000000000%R.
      destruct E as [E _]. apply (Rmult_lt_compat_r (IZR P)) in E; [|exact HPR].
      rewrite Rmult_minus_distr_r, X in E. lra.
    - change (IZR (10 ^ 9)) with 1000000000%R.
      destruct E as [_ E]. apply (Rmult_le_compat_r (IZR P)) in E; [|lra].
      rewrite Rmult_minus_distr_r, X in E. lra. }
  split; [|split; [exact E'|]].
  - f_equal. unfold dur_value. apply wrap_i64_id. unfold is_i64, two63. change (2 ^ 63) with 9223372036854775808 in T.
    change (10 ^ 9) with 1000000000 in E'.
    assert (-1 <= sec_ns oor (Some (v, k)) <= 100000000000000) by nia. lia.
  - intro K9. apply sec_ns_nine; lia.
Qed.
Print Assumptions C05_value_seconds.
Theorem C05_whole_seconds : forall oor s d h m n k, dur_accepted s d h m (Some (n * 10 ^ k, k)) ->
  n <= 4611686018 -> d * 86400000000000 + h * 3600000000000 + m * 60000000000 + n * 1000000000 < 2 ^ 63 ->
  parse_duration oor s = Ok (d * 86400000000000 + h * 3600000000000 + m * 60000000000 + n * 1000000000).
Proof.
  intros oor s d h m n k A B T. destruct (accepted_nonneg _ _ _ _ _ _ A) as (Hd & Hh & Hm & Hv & Hk).
  assert (HP : 0 < 10 ^ k) by (apply Z.pow_pos_nonneg; lia).
  rewrite (parse_complete oor _ _ _ _ _ A). f_equal. unfold dur_value. rewrite sec_ns_whole by nia.
  apply wrap_i64_id. unfold is_i64, two63. change (2 ^ 63) with 9223372036854775808 in T. nia.
Qed.
Print Assumptions C05_whole_seconds.
Example C05_ex : parse_duration (fun _ => 0) (str "P1DT2H3.5S") = Ok (1 * 86400000000000 + 2 * 3600000000000 + 0 * 60000000000 + 3500000000).
Proof. vm_compute. reflexivity. Qed.

(** The total wraps silently. *)
Theorem C05_no_wrap_refuted : exists s d, dur_accepted s d 0 0 None /\ 0 <= d /\
  forall oor, parse_duration oor s = Ok (-86400000000000).
Proof.
  exists (80 :: str "9223372036854775807" ++ [68]), 9223372036854775807. split; [|split; [lia|]].
  - apply (da_days (str "9223372036854775807")). repeat split; [discriminate|repeat constructor; cbn; lia].
  - intro oor. vm_compute. reflexivity.
Qed.
Print Assumptions C05_no_wrap_refuted.

(** C06.  No negative duration that was printed can be read. *)
Theorem C06_negative_refuted : forall oor d, - 2 ^ 63 <= d < 0 ->
  exists t, dur_string oor d = Ok t /\ parse_duration oor t = Err DurNegative.
Proof.
  intros oor d H. destruct (dur_string_spec oor d) as (p & A & B & C & V & E); [unfold is_i64, two63; lia|].
  exists (dur_text p). split; auto. replace (d <? 0) with true in B by lia.
  unfold dur_text. rewrite B. cbn [app]. unfold parse_duration.
  replace (Z.of_nat (length (45 :: 80 :: 84 :: opt_text (p_h p) 72 ++ opt_text (p_m p) 77 ++ sec_text (p_s p))) <? 3) with false
    by (cbn [length]; lia).
  reflexivity.
Qed.
Print Assumptions C06_negative_refuted.
Example C06_ex : dur_string (fun _ => 0) (-1000000000) = Ok (str "-PT1S"). Proof. vm_compute. reflexivity. Qed.
(** Every non-negative one can (up to the last half millisecond of the range, where the text is accepted too). *)
Theorem C06_nonnegative : forall oor d, 0 <= d < 2 ^ 63 ->
  exists t v, dur_string oor d = Ok t /\ parse_duration oor t = Ok v.
Proof.
  intros oor d H. destruct (dur_string_spec oor d) as (p & A & B & C & V & E); [unfold is_i64, two63; lia|].
  replace (d <? 0) with false in B by lia.
  exists (dur_text p). eexists. split; [exact A|]. apply parse_complete. apply canonical_accepted; auto.
  assert (C' := C). destruct C' as (Nh & Nm & Ns & _).
  apply natural_opt_nonneg in Nh. apply natural_opt_nonneg in Nm.
  assert (S0 : 0 <= sec_val (p_s p)).
  { destruct (p_s p) as [[i f]|]; cbn [sec_val]; [|lia]. destruct Ns as ((Di & _) & Df & Lf & _).
    pose proof (dec_val_bound f Df). pose proof (dec_val_bound i Di).
    assert (0 <= 10 ^ (9 - Z.of_nat (length f))) by (apply Z.pow_nonneg; lia). nia. }
  unfold dur_ns in V. rewrite B in V. unfold printed_ns in V. rewrite Z.abs_eq in V by lia.
  assert (R : round_ms d <= d + 500000).
  { rewrite round_ms_val by lia. pose proof (Z.div_mod (d + 500000) 1000000 ltac:(lia)).
    pose proof (Z.mod_pos_bound (d + 500000) 1000000 ltac:(lia)). lia. }
  change (2 ^ 64) with 18446744073709551616. change (2 ^ 63) with 9223372036854775808 in H.
  destruct (d <? 500000); [lia|]. destruct ((999500000 <=? d) && (d <? 1000000000)); lia.
Qed.
Print Assumptions C06_nonnegative.
Theorem C06_accepted_iff : forall oor d, - 2 ^ 63 <= d < 2 ^ 63 ->
  exists t, dur_string oor d = Ok t /\ ((exists v, parse_duration oor t = Ok v) <-> 0 <= d) /\ (d < 0 -> parse_duration oor t = Err DurNegative).
Proof.
  intros oor d H. destruct (Z_lt_le_dec d 0) as [N|N].
  - destruct (C06_negative_refuted oor d) as (t & A & B); [lia|]. exists t. split; auto. split; auto. split; [|lia]. intros [v V]. congruence.
  - destruct (C06_nonnegative oor d) as (t & v & A & B); [lia|]. exists t. split; auto. split; [|lia]. split; eauto.
Qed.
Print Assumptions C06_accepted_iff.
