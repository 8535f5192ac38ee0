(** Accuracy of the seconds arithmetic of ParseDuration and stability of read/write cycles. *)
From Coq Require Import String.
From Coq Require Import ZArith List Bool SpecFloat Reals Psatz.
From Coq Require Import ZifyBool ZifyNat ZifyN.
From Flocq Require Import Core BinarySingleNaN.
From Verif Require Import Base Float64 Float64Proofs Duration DurationSpec DurationProofs DurationParse.
Import ListNotations.

Open Scope R_scope.

Lemma bp_m53 : 0 < bpow radix2 (-53) <= / 9007199254740992.
Proof. split; [apply bpow_gt_0|]. right. reflexivity. Qed.

(** Error of one rounding for an argument in [0, 2^53]. *)
Lemma RN_abs_error : forall x, 0 <= x <= 9007199254740992 -> Rabs (RN x - x) <= x / 9007199254740992 + / 1000000000000.
Proof.
  intros x [H0 H1]. pose proof bp_m53 as [B0 B1].
  destruct (Rle_or_lt (bpow radix2 (-1000)) x) as [H|H].
  - destruct (RN_rel_error x) as (d & Hd & E); [rewrite Rabs_pos_eq; auto|].
    rewrite E. replace (x * (1 + d) - x) with (x * d) by ring. rewrite Rabs_mult, (Rabs_pos_eq x) by auto.
    apply Rle_trans with (x * / 9007199254740992); [|unfold Rdiv; lra].
    apply Rmult_le_compat_l; lra.
  - assert (0 <= RN x) by (rewrite <- RN_0; now apply RN_mono).
    assert (RN x <= bpow radix2 (-1000)).
    { rewrite <- (RN_format (bpow radix2 (-1000))).
      - apply RN_mono. lra.
      - apply generic_format_bpow. unfold SpecFloat.fexp, SpecFloat.emin. lia. }
    assert (bpow radix2 (-1000) <= bpow radix2 (-100)) by (apply bpow_le; lia).
    assert (bpow radix2 (-100) <= / 1000000000000).
    { change (bpow radix2 (-100)) with (/ 1267650600228229401496703205376). apply Rinv_le; lra. }
    assert (0 <= x / 9007199254740992) by (unfold Rdiv; lra).
    apply Rabs_le. lra.
Qed.

(** Nanoseconds obtained from a seconds number below 10^5. *)
Lemma sec_ns_close : forall oor v k, (0 <= v)%Z -> (0 <= k)%Z -> (v < 100000 * 10 ^ k)%Z ->
  exists g, rep (fmul (f64_of_ratio v (10 ^ k)) (f64_of_Z 1000000000)) g /\ 0 <= g /\
    Rabs (g - IZR v / IZR (10 ^ k) * 1000000000) <= / 32 /\ sec_ns oor (Some (v, k)) = Zfloor g.
Proof.
  intros oor v k Hv Hk Hx.
  assert (HP : (0 < 10 ^ k)%Z) by (apply Z.pow_pos_nonneg; lia).
  assert (HPR : 0 < IZR (10 ^ k)) by now apply IZR_lt.
  set (x := IZR v / IZR (10 ^ k)).
  assert (X0 : 0 <= x) by (apply Rmult_le_pos; [now apply IZR_le|left; now apply Rinv_0_lt_compat]).
  assert (X1 : x < 100000).
  { apply (Rmult_lt_reg_r (IZR (10 ^ k))); auto. unfold x. replace (IZR v / IZR (10 ^ k) * IZR (10 ^ k)) with (IZR v) by (field; lra).
    rewrite <- mult_IZR. now apply IZR_lt. }
  assert (R1 : rep (f64_of_ratio v (10 ^ k)) (RN x)).
  { destruct (ratio_inf v (10 ^ k) Hv HP) as [[H _]|[_ H]]; auto. exfalso.
    assert (100000 < 2 ^ 1024 - 2 ^ 970)%Z by reflexivity. nia. }
  assert (R2 : rep (f64_of_Z 1000000000) 1000000000).
  { rewrite <- (RN_small 1000000000) by (cbn; lia). apply rep_of_Z.
    apply Z.le_trans with (2 ^ 53)%Z; [cbn; lia|]. apply Z.pow_le_mono_r; lia. }
  pose proof (RN_abs_error x ltac:(lra)) as E1. apply Rabs_le_inv in E1.
  assert (D1 : x / 9007199254740992 <= / 90000000000) by (unfold Rdiv; lra).
  assert (N0 : 0 <= RN x) by (rewrite <- RN_0; now apply RN_mono).
  set (y := RN x * 1000000000).
  assert (Y0 : 0 <= y) by (unfold y; lra).
  assert (Y1 : y <= 100000000000001) by (unfold y; lra).
  assert (R3 : rep (fmul (f64_of_ratio v (10 ^ k)) (f64_of_Z 1000000000)) (RN y)).
  { apply rep_mul; auto. rewrite Rabs_pos_eq by auto. apply Rle_trans with (bpow radix2 53).
    - change (bpow radix2 53) with 9007199254740992. fold y. lra.
    - apply bpow_le. lia. }
  assert (G0 : 0 <= RN y) by (rewrite <- RN_0; now apply RN_mono).
  pose proof (RN_abs_error y ltac:(lra)) as E2. apply Rabs_le_inv in E2.
  assert (D2 : y / 9007199254740992 <= / 90) by (unfold Rdiv; lra).
  exists (RN y). split; [exact R3|]. split; [exact G0|]. split.
  - apply Rabs_le. unfold y in *. lra.
  - cbn [sec_ns]. unfold f64_to_i64. rewrite (ftrunc_correct _ _ R3). rewrite Ztrunc_floor by auto.
    assert (B : (0 <= Zfloor (RN y) <= 200000000000000)%Z).
    { split; [apply Zfloor_lub; lra|]. apply le_IZR. apply Rle_trans with (RN y); [apply Zfloor_lb|lra]. }
    assert (is_i64 (Zfloor (RN y)) = true) by (unfold is_i64, two63; lia). now rewrite H.
Qed.

(** Off by less than 1.04 ns whatever the fraction. *)
Lemma sec_ns_error : forall oor v k, (0 <= v)%Z -> (0 <= k)%Z -> (v < 100000 * 10 ^ k)%Z ->
  - (1 + / 32) < IZR (sec_ns oor (Some (v, k))) - IZR v / IZR (10 ^ k) * 1000000000 <= / 32.
Proof.
  intros oor v k Hv Hk Hx. destruct (sec_ns_close oor v k Hv Hk Hx) as (g & _ & _ & E & ->).
  apply Rabs_le_inv in E. pose proof (Zfloor_lb g). pose proof (Zfloor_ub g). lra.
Qed.

(** With at most nine decimals: the exact count or one less. *)
Lemma sec_ns_nine : forall oor v k, (0 <= v)%Z -> (0 <= k <= 9)%Z -> (v < 100000 * 10 ^ k)%Z ->
  (sec_ns oor (Some (v, k)) = v * 10 ^ (9 - k) \/ sec_ns oor (Some (v, k)) = v * 10 ^ (9 - k) - 1)%Z.
Proof.
  intros oor v k Hv Hk Hx. pose proof (sec_ns_error oor v k Hv ltac:(lia) Hx) as E.
  assert (HP : (0 < 10 ^ k)%Z) by (apply Z.pow_pos_nonneg; lia).
  assert (X : IZR v / IZR (10 ^ k) * 1000000000 = IZR (v * 10 ^ (9 - k))).
  { rewrite mult_IZR. replace 1000000000 with (IZR (10 ^ (9 - k) * 10 ^ k)).
    - rewrite mult_IZR. field. apply Rgt_not_eq. now apply IZR_lt.
    - rewrite <- Z.pow_add_r by lia. replace (9 - k + k)%Z with 9%Z by lia. reflexivity. }
  rewrite X in E. set (n := sec_ns oor (Some (v, k))) in *. set (t := (v * 10 ^ (9 - k))%Z) in *.
  assert (n <= t)%Z.
  { apply le_IZR. destruct (Z_le_gt_dec n t) as [L|G]; [now apply IZR_le|].
    assert (t + 1 <= n)%Z by lia. apply IZR_le in H. rewrite plus_IZR in H. lra. }
  assert (t - 2 < n)%Z.
  { apply lt_IZR. rewrite minus_IZR. lra. }
  lia.
Qed.

(** Whole seconds are exact while n * 5^9 has at most 53 bits. *)
Lemma sec_ns_whole : forall oor n k, (0 <= n <= 4611686018)%Z -> (0 <= k)%Z ->
  sec_ns oor (Some (n * 10 ^ k, k)%Z) = (n * 1000000000)%Z.
Proof.
  intros oor n k Hn Hk.
  assert (HP : (0 < 10 ^ k)%Z) by (apply Z.pow_pos_nonneg; lia).
  assert (HPR : 0 < IZR (10 ^ k)) by now apply IZR_lt.
  assert (R1 : rep (f64_of_ratio (n * 10 ^ k) (10 ^ k)) (IZR n)).
  { destruct (ratio_inf (n * 10 ^ k) (10 ^ k) ltac:(nia) HP) as [[H _]|[_ H]].
    - exfalso. assert (4611686018 < 2 ^ 1024 - 2 ^ 970)%Z by reflexivity. nia.
    - replace (IZR (n * 10 ^ k) / IZR (10 ^ k)) with (IZR n) in H by (rewrite mult_IZR; field; lra).
      rewrite RN_small in H by (change (2 ^ 53)%Z with 9007199254740992%Z; lia). exact H. }
  assert (R2 : rep (f64_of_Z 1000000000) 1000000000).
  { rewrite <- (RN_small 1000000000) by (cbn; lia). apply rep_of_Z.
    apply Z.le_trans with (2 ^ 53)%Z; [cbn; lia|]. apply Z.pow_le_mono_r; lia. }
  assert (F : format64 (IZR (n * 1000000000))).
  { unfold format64. apply generic_format_FLT.
    apply (FLT_spec _ _ _ _ (Float radix2 (n * 1953125) 9)).
    - rewrite F2R_pos_exp by lia. f_equal. change (2 ^ 9)%Z with 512%Z. lia.
    - cbn [Fnum]. change (radix2 ^ 53)%Z with 9007199254740992%Z. lia.
    - cbn. lia. }
  assert (R3 : rep (fmul (f64_of_ratio (n * 10 ^ k) (10 ^ k)) (f64_of_Z 1000000000)) (IZR (n * 1000000000))).
  { rewrite <- (RN_format _ F). rewrite mult_IZR. apply rep_mul; auto.
    rewrite <- mult_IZR, <- abs_IZR. apply Rle_trans with (bpow radix2 63).
    - change (bpow radix2 63) with (IZR 9223372036854775808). apply IZR_le. lia.
    - apply bpow_le. lia. }
  cbn [sec_ns]. unfold f64_to_i64. rewrite (ftrunc_correct _ _ R3), Ztrunc_IZR.
  assert (is_i64 (n * 1000000000) = true) by (unfold is_i64, two63; lia). now rewrite H.
Qed.

Close Scope R_scope.
Open Scope Z_scope.

(** ** Reading back printed texts *)

Lemma natural_uint : forall ds, natural_text ds -> dec_val ds < 2 ^ 64 -> uint_text ds.
Proof.
  intros ds [D C] B. repeat split; auto. destruct C as [->|(b & r & -> & _)]; discriminate.
Qed.

(** A canonical text without sign whose fields are small is accepted. *)
Lemma canonical_accepted : forall p, dur_canonical p -> p_neg p = false -> opt_val (p_h p) < 2 ^ 64 ->
  dur_accepted (dur_text p) 0 (opt_val (p_h p)) (opt_val (p_m p))
    (match p_s p with Some (i, f) => Some (dec_val (i ++ f), Z.of_nat (length f)) | None => None end).
Proof.
  intros [ng ph pm ps]. unfold dur_canonical, dur_text. cbn [p_neg p_h p_m p_s].
  intros (Nh & Nm & Ns & M60 & NE & _) -> Hh. cbn [app].
  change (80 :: 84 :: opt_text ph 72 ++ opt_text pm 77 ++ sec_text ps)
    with (80 :: [] ++ 84 :: opt_text ph 72 ++ opt_text pm 77 ++ sec_text ps).
  apply (da_time [] 0).
  - constructor.
  - destruct ph as [h|]; cbn [opt_text opt_val] in *; constructor. now apply natural_uint.
  - destruct pm as [m|]; cbn [opt_text opt_val] in *; constructor. apply natural_uint; auto. lia.
  - destruct ps as [[i f]|]; [|constructor].
    destruct Ns as ((Di & Ci) & Df & Lf & _ & B60).
    assert (Hi : i <> []) by (destruct Ci as [->|(b & r & -> & _)]; discriminate).
    assert (B : dec_val (i ++ f) < (2 ^ 1024 - 2 ^ 970) * 10 ^ Z.of_nat (length f)).
    { rewrite dec_val_app. pose proof (dec_val_bound f Df). pose proof (dec_val_bound i Di).
      assert (0 < 10 ^ Z.of_nat (length f)) by (apply Z.pow_pos_nonneg; lia).
      assert (60 < 2 ^ 1024 - 2 ^ 970) by reflexivity. nia. }
    destruct f as [|b f].
    + cbn [sec_text]. apply (os_some i i []). repeat split; auto. destruct i; [congruence|discriminate].
    + cbn [sec_text]. replace (i ++ [46] ++ (b :: f) ++ [83]) with ((i ++ 46 :: b :: f) ++ [83]) by (rewrite <- app_assoc; reflexivity).
      apply os_some. repeat split; auto. destruct i; [congruence|discriminate].
  - cbn [app]. intro X. apply NE. apply app_eq_nil in X. destruct X as [X1 X2]. apply app_eq_nil in X2. destruct X2 as [X2 X3].
    repeat split.
    + destruct ph as [h|]; auto. cbn in X1. destruct h; discriminate.
    + destruct pm as [h|]; auto. cbn in X2. destruct h; discriminate.
    + destruct ps as [[i [|b f]]|]; auto; cbn in X3; destruct i; discriminate.
Qed.

Lemma canonical_sec_range : forall i f, natural_text i -> digits f -> (length f <= 9)%nat -> dec_val i < 60 ->
  0 <= dec_val (i ++ f) /\ dec_val (i ++ f) < 100000 * 10 ^ Z.of_nat (length f) /\
  dec_val (i ++ f) * 10 ^ (9 - Z.of_nat (length f)) = sec_val (Some (i, f)).
Proof.
  intros i f (Di & _) Df Lf B. rewrite dec_val_app. pose proof (dec_val_bound f Df). pose proof (dec_val_bound i Di).
  assert (P : 0 < 10 ^ Z.of_nat (length f)) by (apply Z.pow_pos_nonneg; lia).
  split; [nia|]. split; [nia|]. cbn [sec_val]. rewrite Z.mul_add_distr_r, <- Z.mul_assoc, <- Z.pow_add_r by lia.
  replace (Z.of_nat (length f) + (9 - Z.of_nat (length f))) with 9 by lia. reflexivity.
Qed.

(** The value read from a canonical text. *)
Lemma canonical_value : forall oor p, dur_canonical p -> p_neg p = false -> 0 <= opt_val (p_h p) -> 0 <= opt_val (p_m p) ->
  dur_ns p < 2 ^ 63 ->
  exists v, parse_duration oor (dur_text p) = Ok v /\ (v = dur_ns p \/ v = dur_ns p - 1 /\ p_s p <> None).
Proof.
  intros oor p C NP Hh Hm B.
  assert (SV : exists e, sec_ns oor (match p_s p with Some (i, f) => Some (dec_val (i ++ f), Z.of_nat (length f)) | None => None end) = sec_val (p_s p) - e
               /\ (e = 0 \/ e = 1 /\ p_s p <> None) /\ 0 <= sec_val (p_s p)).
  { destruct C as (_ & _ & Ns & _). destruct (p_s p) as [[i f]|].
    - destruct Ns as (Ni & Df & Lf & _ & B60).
      destruct (canonical_sec_range i f Ni Df Lf B60) as (R0 & R1 & R2).
      destruct (sec_ns_nine oor (dec_val (i ++ f)) (Z.of_nat (length f))) as [E|E]; try lia; rewrite E, R2.
      + exists 0. split; [lia|]. split; [auto|]. rewrite <- R2. apply Z.mul_nonneg_nonneg; [lia|]. apply Z.pow_nonneg; lia.
      + exists 1. split; [lia|]. split; [right; split; [auto|discriminate]|]. rewrite <- R2. apply Z.mul_nonneg_nonneg; [lia|]. apply Z.pow_nonneg; lia.
    - exists 0. cbn. auto with zarith. }
  destruct SV as (e & SV & Ce & S0).
  assert (E : dur_ns p = opt_val (p_h p) * 3600000000000 + opt_val (p_m p) * 60000000000 + sec_val (p_s p)).
  { unfold dur_ns. rewrite NP. lia. }
  assert (H64 : opt_val (p_h p) < 2 ^ 64) by (change (2 ^ 63) with 9223372036854775808 in B; change (2 ^ 64) with 18446744073709551616; lia).
  pose proof (parse_complete oor _ _ _ _ _ (canonical_accepted p C NP H64)) as PC. rewrite PC.
  eexists. split; [reflexivity|]. unfold dur_value. rewrite SV.
  rewrite wrap_i64_id by (unfold is_i64, two63; change (2 ^ 63) with 9223372036854775808 in B; lia).
  destruct Ce as [->|[-> Hs]]; [left; lia|right; split; [lia|exact Hs]].
Qed.

Lemma round_ms_val : forall d, 0 <= d -> round_ms d = (d + 500000) / 1000000 * 1000000.
Proof.
  intros d H. unfold round_ms. rewrite Z.abs_eq by lia. destruct (Z.eq_dec d 0) as [->|]; [reflexivity|].
  rewrite Z.sgn_pos by lia. lia.
Qed.

Lemma natural_opt_nonneg : forall o, opt_natural o -> 0 <= opt_val o.
Proof. intros [ds|]; cbn; [intros [D _]; apply dec_val_bound; auto|lia]. Qed.

(** Printing depends only on the printed value in this range. *)
Lemma dur_string_round : forall oor d, 500000 <= d -> is_i64 d = true -> d < 9223372036854500000 ->
  forall v, (v = printed_ns d \/ v = printed_ns d - 1) -> printed_ns d <> 0 -> v <> 999999999 -> dur_string oor v = dur_string oor d.
Proof.
  intros oor d H0 Hi H1 v Hv Hnz Hone.
  assert (Hp : printed_ns d = (d + 500000) / 1000000 * 1000000).
  { unfold printed_ns in *. rewrite Z.abs_eq in * by lia. destruct (d <? 500000) eqn:E; [lia|].
    destruct ((999500000 <=? d) && (d <? 1000000000)); [congruence|]. apply round_ms_val. lia. }
  assert (Hw : ~ (999500000 <= d < 1000000000)).
  { intro W. apply Hnz. unfold printed_ns. rewrite Z.abs_eq by lia. destruct (d <? 500000) eqn:E; [lia|].
    destruct (Z.leb_spec 999500000 d); destruct (Z.ltb_spec d 1000000000); cbn; auto; lia. }
  set (k := (d + 500000) / 1000000) in *.
  assert (Hk : k * 1000000 <= d + 500000 < k * 1000000 + 1000000).
  { unfold k. pose proof (Z.div_mod (d + 500000) 1000000 ltac:(lia)). pose proof (Z.mod_pos_bound (d + 500000) 1000000 ltac:(lia)). lia. }
  assert (Vr : k * 1000000 - 1 <= v <= k * 1000000) by lia.
  unfold is_i64, two63 in Hi.
  rewrite !dur_string_body. cbv zeta.
  rewrite (wrap_u64_id d) by (unfold is_u64, two64; lia). rewrite (wrap_u64_id v) by (unfold is_u64, two64; lia).
  replace (d =? 0) with false by lia. replace (v =? 0) with false by lia.
  replace (d <? 0) with false by lia. replace (v <? 0) with false by lia.
  assert (G : dur_body oor v = dur_body oor d); [|rewrite G; reflexivity].
  unfold dur_body. cbv zeta. unfold second_ns.
  set (s := d / 1000000000). set (s' := v / 1000000000).
  assert (Hs : s * 1000000000 <= d < s * 1000000000 + 1000000000).
  { unfold s. pose proof (Z.div_mod d 1000000000 ltac:(lia)). pose proof (Z.mod_pos_bound d 1000000000 ltac:(lia)). lia. }
  assert (Hs' : s' * 1000000000 <= v < s' * 1000000000 + 1000000000).
  { unfold s'. pose proof (Z.div_mod v 1000000000 ltac:(lia)). pose proof (Z.mod_pos_bound v 1000000000 ltac:(lia)). lia. }
  rewrite !ns_to_ms_correct by lia.
  set (ms := (d - s * 1000000000 + 500000) / 1000000). set (ms' := (v - s' * 1000000000 + 500000) / 1000000).
  assert (Hms : ms * 1000000 <= d - s * 1000000000 + 500000 < ms * 1000000 + 1000000).
  { unfold ms. pose proof (Z.div_mod (d - s * 1000000000 + 500000) 1000000 ltac:(lia)).
    pose proof (Z.mod_pos_bound (d - s * 1000000000 + 500000) 1000000 ltac:(lia)). lia. }
  assert (Hms' : ms' * 1000000 <= v - s' * 1000000000 + 500000 < ms' * 1000000 + 1000000).
  { unfold ms'. pose proof (Z.div_mod (v - s' * 1000000000 + 500000) 1000000 ltac:(lia)).
    pose proof (Z.mod_pos_bound (v - s' * 1000000000 + 500000) 1000000 ltac:(lia)). lia. }
  assert (T : 1000 * s + ms = k) by lia. assert (T' : 1000 * s' + ms' = k) by lia.
  destruct (Z.eq_dec s 0) as [Z0|N0].
  - assert (k <= 999) by lia. assert (s' = 0) by lia. assert (ms' = ms) by lia.
    rewrite H2, H3, Z0. replace (ms =? 0) with false by lia. cbn [Z.eqb andb]. reflexivity.
  - assert (1000 <= k) by lia.
    destruct (Z.eq_dec s' 0) as [Z1|N1].
    + exfalso. lia.
    + replace (s =? 0) with false by lia. replace (s' =? 0) with false by lia. cbn [andb]. rewrite T, T'. reflexivity.
Qed.

(** The value read from the printed text, for every non-negative duration that can be represented. *)
Lemma read_printed : forall oor d, 0 <= d < 9223372036854500000 ->
  exists t v, dur_string oor d = Ok t /\ parse_duration oor t = Ok v /\ 0 <= v /\
    (v = printed_ns d \/ v = printed_ns d - 1) /\ v <> 999999999.
Proof.
  intros oor d Hd.
  destruct (dur_string_spec oor d) as (p & E & N & C & V & _); [unfold is_i64, two63; lia|].
  replace (d <? 0) with false in N by lia.
  assert (Hp : 0 <= printed_ns d < 9223372036854500000).
  { unfold printed_ns. rewrite Z.abs_eq by lia. destruct (d <? 500000); [lia|].
    destruct ((999500000 <=? d) && (d <? 1000000000)); [lia|]. rewrite round_ms_val by lia.
    pose proof (Z.div_mod (d + 500000) 1000000 ltac:(lia)). pose proof (Z.mod_pos_bound (d + 500000) 1000000 ltac:(lia)). lia. }
  assert (C' := C). destruct C' as (Nh & Nm & Ns & M60 & _).
  destruct (canonical_value oor p C N (natural_opt_nonneg _ Nh) (natural_opt_nonneg _ Nm)) as (v & PV & Cv).
  { rewrite V. change (2 ^ 63) with 9223372036854775808. lia. }
  exists (dur_text p), v. split; auto. split; auto. rewrite V in Cv.
  assert (Small : dur_ns p = 1000000000 \/ dur_ns p = 0 -> v = dur_ns p).
  { intros Hs. destruct Cv as [|[_ NS]]; [lia|].
    destruct (p_s p) as [[i f]|] eqn:PS; [|congruence]. clear NS.
    destruct Ns as (Ni & Df & Lf & _ & B60).
    assert (S0 : 0 <= sec_val (Some (i, f))).
    { cbn [sec_val]. pose proof (dec_val_bound f Df). destruct Ni as [Di _]. pose proof (dec_val_bound i Di).
      assert (0 <= 10 ^ (9 - Z.of_nat (length f))) by (apply Z.pow_nonneg; lia). nia. }
    assert (E0 : dur_ns p = opt_val (p_h p) * 3600000000000 + opt_val (p_m p) * 60000000000 + sec_val (Some (i, f))).
    { unfold dur_ns. rewrite N, PS. lia. }
    pose proof (natural_opt_nonneg _ Nh). pose proof (natural_opt_nonneg _ Nm).
    assert (Z1 : opt_val (p_h p) = 0) by lia. assert (Z2 : opt_val (p_m p) = 0) by lia.
    assert (SV : sec_val (Some (i, f)) = dur_ns p) by lia.
    destruct (canonical_sec_range i f Ni Df Lf B60) as (R0 & R1 & R2).
    assert (H64 : opt_val (p_h p) < 2 ^ 64) by (rewrite Z1; reflexivity).
    pose proof (parse_complete oor _ _ _ _ _ (canonical_accepted p C N H64)) as PC. rewrite PS, Z1, Z2 in PC.
    rewrite PV in PC. inversion PC as [PE].
    assert (W : exists n, (n = 0 \/ n = 1) /\ dec_val (i ++ f) = n * 10 ^ Z.of_nat (length f) /\ dur_ns p = n * 1000000000).
    { assert (P9 : 10 ^ Z.of_nat (length f) * 10 ^ (9 - Z.of_nat (length f)) = 1000000000).
      { rewrite <- Z.pow_add_r by lia. replace (Z.of_nat (length f) + (9 - Z.of_nat (length f))) with 9 by lia. reflexivity. }
      assert (0 < 10 ^ (9 - Z.of_nat (length f))) by (apply Z.pow_pos_nonneg; lia).
      rewrite SV in R2. destruct Hs as [Hs|Hs]; rewrite Hs in *; [exists 1|exists 0]; (split; [auto|split; [nia|reflexivity]]). }
    destruct W as (n & Hn & EW & ED).
    unfold dur_value. rewrite EW, sec_ns_whole by lia. rewrite ED. apply wrap_i64_id. unfold is_i64, two63. lia. }
  destruct Cv as [->|[-> NS]].
  - split; [lia|]. split; [auto|].
    unfold printed_ns. rewrite Z.abs_eq by lia. destruct (Z.ltb_spec d 500000); [lia|].
    destruct ((999500000 <=? d) && (d <? 1000000000)); [lia|]. rewrite round_ms_val by lia. intro X.
    assert (X' : (999999999) mod 1000000 = 0) by (rewrite <- X; apply Z.mod_mul; lia). discriminate.
  - destruct (Z.eq_dec (printed_ns d) 0) as [E0|]; [exfalso; specialize (Small (or_intror (eq_trans V E0))); lia|].
    split; [lia|]. split; [auto|]. intro X.
    assert (dur_ns p = 1000000000) by lia. specialize (Small (or_introl H)). lia.
Qed.

(** One read/write cycle. *)
Lemma cycle_fixed : forall oor d, 500000 <= d < 9223372036854500000 ->
  exists t v, dur_string oor d = Ok t /\ parse_duration oor t = Ok v /\ dur_string oor v = Ok t /\
    printed_ns d - 1 <= v <= printed_ns d /\ (v = 0 \/ 500000 <= v < 9223372036854500000).
Proof.
  intros oor d Hd. destruct (read_printed oor d ltac:(lia)) as (t & v & E1 & E2 & V0 & V1 & V2).
  exists t, v. split; auto. split; auto.
  assert (Hp : printed_ns d = 0 \/ printed_ns d = (d + 500000) / 1000000 * 1000000).
  { unfold printed_ns. rewrite Z.abs_eq by lia. destruct (Z.ltb_spec d 500000); [lia|].
    destruct ((999500000 <=? d) && (d <? 1000000000)); [auto|]. right. apply round_ms_val. lia. }
  pose proof (Z.div_mod (d + 500000) 1000000 ltac:(lia)). pose proof (Z.mod_pos_bound (d + 500000) 1000000 ltac:(lia)).
  destruct (Z.eq_dec (printed_ns d) 0) as [Z0|NZ].
  - assert (v = 0) by lia. subst v. split; [|lia].
    rewrite <- E1. unfold printed_ns in Z0. rewrite Z.abs_eq in Z0 by lia.
    destruct (Z.ltb_spec d 500000); [lia|].
    destruct ((999500000 <=? d) && (d <? 1000000000)) eqn:W.
    + rewrite !dur_string_body. cbv zeta. rewrite (wrap_u64_id d) by (unfold is_u64, two64; lia).
      change (wrap_u64 0) with 0. cbn [Z.eqb]. replace (d =? 0) with false by lia. replace (d <? 0) with false by lia.
      unfold dur_body. cbv zeta. unfold second_ns.
      assert (D0 : d / 1000000000 = 0) by (apply Z.div_small; lia). rewrite D0, ns_to_ms_correct by lia.
      replace ((d - 0 * 1000000000 + 500000) / 1000000) with 1000.
      * reflexivity.
      * rewrite Z.mul_0_l, Z.sub_0_r. apply (Z.div_unique _ _ _ (d + 500000 - 1000 * 1000000)); lia.
    + exfalso. rewrite round_ms_val in Z0 by lia. lia.
  - split; [|lia]. rewrite <- E1. apply dur_string_round; auto; try lia. unfold is_i64, two63. lia.
Qed.

(** Any number of further cycles: printing after [n] reads gives the first text. *)
Fixpoint cycles (oor : f64 -> Z) (n : nat) (d : Z) : outcome dur_err Z :=
  match n with
  | O => Ok d
  | S n' =>
      match dur_string oor d with
      | Ok t => match parse_duration oor t with Ok v => cycles oor n' v | Err e => Err e | Panic => Panic | OutOfFuel => OutOfFuel end
      | Err _ => Panic
      | Panic => Panic
      | OutOfFuel => OutOfFuel
      end
  end.

Lemma cycles_stable : forall oor n d, d = 0 \/ 500000 <= d < 9223372036854500000 ->
  exists v, cycles oor n d = Ok v /\ dur_string oor v = dur_string oor d.
Proof.
  intros oor n. induction n as [|n IH]; intros d Hd; cbn [cycles].
  - eauto.
  - destruct Hd as [->|Hd].
    + destruct (read_printed oor 0 ltac:(lia)) as (t & v & E1 & E2 & V0 & V1 & V2).
      rewrite E1, E2.
      change (printed_ns 0) with 0 in V1. assert (v = 0) by lia. subst v.
      destruct (IH 0 (or_introl eq_refl)) as (v & A & B). exists v. split; [exact A|]. now rewrite B.
    + destruct (cycle_fixed oor d Hd) as (t & v & E1 & E2 & E3 & _ & R). rewrite E1, E2.
      destruct (IH v R) as (w & A & B). exists w. split; auto. now rewrite B.
Qed.
