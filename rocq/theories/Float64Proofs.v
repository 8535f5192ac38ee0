(** The float64 model computes correctly rounded results (via Flocq). *)
From Coq Require Import ZArith List Bool SpecFloat Reals Psatz.
From Flocq Require Import Core Round Bracket Operations Div Relative BinarySingleNaN.
From Verif Require Import Base Float64.
Open Scope R_scope.

#[global] Instance Hprec53 : Prec_gt_0 53 := eq_refl _.
#[global] Instance Hmax1024 : Prec_lt_emax 53 1024 := eq_refl _.

Notation fexp64 := (SpecFloat.fexp 53 1024).
#[global] Instance fexp64_valid : Valid_exp fexp64 := FLT_exp_valid (SpecFloat.emin 53 1024) 53.
#[global] Instance fexp64_mono : Monotone_exp fexp64 := FLT_exp_monotone (SpecFloat.emin 53 1024) 53.

Definition RN (x : R) : R := round radix2 fexp64 ZnearestE x.
Definition format64 (x : R) : Prop := generic_format radix2 fexp64 x.

(** [f] is a finite float64 with real value [x]. *)
Definition rep (f : f64) (x : R) : Prop :=
  valid_binary 53 1024 f = true /\ is_finite_SF f = true /\ SF2R radix2 f = x.

Lemma round_nearest_even_equiv : forall s m l,
  round_nearest_even m l = choice_mode mode_NE s m l.
Proof.
  intros s m l. destruct l as [|c]; [reflexivity|].
  destruct c; try reflexivity.
  simpl. unfold Round.cond_incr. now destruct (Z.even m).
Qed.

Lemma binary_round_aux_equiv : forall sx mx ex lx,
  SpecFloat.binary_round_aux 53 1024 sx mx ex lx
  = BinarySingleNaN.binary_round_aux 53 1024 mode_NE sx mx ex lx.
Proof.
  intros. unfold SpecFloat.binary_round_aux, BinarySingleNaN.binary_round_aux.
  destruct (shr_fexp 53 1024 mx ex lx) as [mrs' e']. simpl.
  now rewrite (round_nearest_even_equiv sx).
Qed.

Lemma binary_round_equiv : forall s m e,
  SpecFloat.binary_round 53 1024 s m e = BinarySingleNaN.binary_round 53 1024 mode_NE s m e.
Proof.
  intros. unfold SpecFloat.binary_round, BinarySingleNaN.binary_round, shl_align_fexp.
  destruct (shl_align _ _ _) as [mz ez]. apply binary_round_aux_equiv.
Qed.

(** No overflow below 2^1000. *)
Lemma RN_no_overflow : forall x, Rabs x <= bpow radix2 1000 -> Rabs (RN x) < bpow radix2 1024.
Proof.
  intros x H.
  apply Rle_lt_trans with (bpow radix2 1000).
  - unfold RN. apply abs_round_le_generic; auto with typeclass_instances.
    apply generic_format_bpow. unfold SpecFloat.fexp, SpecFloat.emin. lia.
  - apply bpow_lt. lia.
Qed.

Lemma RN_0 : RN 0 = 0.
Proof. apply round_0. auto with typeclass_instances. Qed.

Lemma F2R_e0 : forall m, F2R (Float radix2 m 0) = IZR m.
Proof. intros. unfold F2R. simpl. now rewrite Rmult_1_r. Qed.

Lemma rep_normalize : forall m e s, Rabs (F2R (Float radix2 m e)) <= bpow radix2 1000 ->
  rep (SpecFloat.binary_normalize 53 1024 m e s) (RN (F2R (Float radix2 m e))).
Proof.
  intros m e s H. unfold rep.
  pose proof (RN_no_overflow _ H) as Ho.
  destruct m as [|p|p]; simpl SpecFloat.binary_normalize.
  - rewrite F2R_0, RN_0. repeat split.
  - rewrite binary_round_equiv.
    pose proof (binary_round_correct 53 1024 _ _ mode_NE false p e) as [Hv Hc].
    cbv zeta in Hc. simpl cond_Zopp in Hc. unfold RN in Ho. simpl round_mode in Hc.
    rewrite Rlt_bool_true in Hc by exact Ho. destruct Hc as (A & B & _).
    repeat split; auto.
  - rewrite binary_round_equiv.
    pose proof (binary_round_correct 53 1024 _ _ mode_NE true p e) as [Hv Hc].
    cbv zeta in Hc. simpl cond_Zopp in Hc. unfold RN in Ho. simpl round_mode in Hc.
    rewrite Rlt_bool_true in Hc by exact Ho. destruct Hc as (A & B & _).
    repeat split; auto.
Qed.

Lemma rep_of_Z : forall n, (Z.abs n <= 2 ^ 1000)%Z -> rep (f64_of_Z n) (RN (IZR n)).
Proof.
  intros n H. unfold f64_of_Z. rewrite <- (F2R_e0 n). apply rep_normalize.
  rewrite F2R_e0, <- abs_IZR.
  change (bpow radix2 1000) with (IZR (2 ^ 1000)). now apply IZR_le.
Qed.

Lemma rep_ratio : forall num den, (0 < num)%Z -> (0 < den)%Z ->
  IZR num / IZR den <= bpow radix2 1000 ->
  rep (f64_of_ratio num den) (RN (IZR num / IZR den)).
Proof.
  intros num den Hn Hd H.
  destruct num as [|n|n]; try lia. destruct den as [|d|d]; try lia.
  unfold f64_of_ratio.
  pose proof (Bdiv_correct_aux 53 1024 _ _ mode_NE false n 0 false d 0) as [Hv Hc].
  cbv zeta in Hc. cbv zeta in Hv.
  destruct (SFdiv_core_binary 53 1024 (Z.pos n) 0 (Z.pos d) 0) as [[mz ez] lz].
  simpl cond_Zopp in Hc. rewrite !F2R_e0 in Hc. simpl xorb in *.
  rewrite binary_round_aux_equiv.
  assert (Ho : Rabs (RN (IZR (Z.pos n) / IZR (Z.pos d))) < bpow radix2 1024).
  { apply RN_no_overflow. rewrite Rabs_pos_eq; auto.
    apply Rlt_le, Rdiv_lt_0_compat; apply IZR_lt; lia. }
  unfold RN in Ho. simpl round_mode in Hc. rewrite Rlt_bool_true in Hc by exact Ho.
  destruct Hc as (A & B & _). repeat split; auto.
Qed.

(** Without the bound: either the correctly rounded value or an infinity. *)
Lemma ratio_overflow : forall num den, (0 < num)%Z -> (0 < den)%Z ->
  (Rabs (RN (IZR num / IZR den)) < bpow radix2 1024 /\ rep (f64_of_ratio num den) (RN (IZR num / IZR den)))
  \/ (bpow radix2 1024 <= Rabs (RN (IZR num / IZR den)) /\ f64_of_ratio num den = S754_infinity false).
Proof.
  intros num den Hn Hd.
  destruct num as [|n|n]; try lia. destruct den as [|d|d]; try lia.
  unfold f64_of_ratio.
  pose proof (Bdiv_correct_aux 53 1024 _ _ mode_NE false n 0 false d 0) as [Hv Hc].
  cbv zeta in Hc. cbv zeta in Hv.
  destruct (SFdiv_core_binary 53 1024 (Z.pos n) 0 (Z.pos d) 0) as [[mz ez] lz].
  simpl cond_Zopp in Hc. rewrite !F2R_e0 in Hc. simpl xorb in *.
  rewrite binary_round_aux_equiv. simpl round_mode in Hc. fold (RN (IZR (Z.pos n) / IZR (Z.pos d))) in Hc.
  destruct (Rlt_bool_spec (Rabs (RN (IZR (Z.pos n) / IZR (Z.pos d)))) (bpow radix2 1024)) as [L|L].
  - left. split; auto. destruct Hc as (A & B & _). repeat split; auto.
  - right. split; auto.
Qed.

Lemma rep_mul : forall f g x y, rep f x -> rep g y -> Rabs (x * y) <= bpow radix2 1000 ->
  rep (fmul f g) (RN (x * y)).
Proof.
  intros f g x y (Vf & Ff & Rf) (Vg & Fg & Rg) H.
  destruct f as [s| | |sx mx ex]; try discriminate Ff;
  destruct g as [t| | |sy my ey]; try discriminate Fg; simpl in Rf, Rg; subst x y.
  - unfold fmul; simpl. rewrite Rmult_0_l, RN_0. repeat split.
  - unfold fmul; simpl. rewrite Rmult_0_l, RN_0. repeat split.
  - unfold fmul; simpl. rewrite Rmult_0_r, RN_0. repeat split.
  - unfold fmul; simpl SFmul. rewrite binary_round_aux_equiv.
    pose proof (Bmult_correct_aux 53 1024 _ _ mode_NE sx mx ex Vf sy my ey Vg) as [Hv Hc].
    pose proof (RN_no_overflow _ H) as Ho. unfold RN in Ho. simpl round_mode in Hc.
    rewrite Rlt_bool_true in Hc by exact Ho. destruct Hc as (A & B & _). repeat split; auto.
Qed.

Lemma rep_div : forall f g x y, rep f x -> rep g y -> y <> 0 -> Rabs (x / y) <= bpow radix2 1000 ->
  rep (fdiv f g) (RN (x / y)).
Proof.
  intros f g x y (Vf & Ff & Rf) (Vg & Fg & Rg) Hy H.
  destruct f as [s| | |sx mx ex]; try discriminate Ff;
  destruct g as [t| | |sy my ey]; try discriminate Fg; simpl in Rf, Rg; subst x y; try easy.
  - unfold fdiv; simpl. unfold Rdiv. rewrite Rmult_0_l, RN_0. repeat split.
  - unfold fdiv; simpl SFdiv.
    pose proof (Bdiv_correct_aux 53 1024 _ _ mode_NE sx mx ex sy my ey) as [Hv Hc].
    cbv zeta in Hv, Hc.
    destruct (SFdiv_core_binary 53 1024 (Z.pos mx) ex (Z.pos my) ey) as [[mz ez] lz].
    rewrite binary_round_aux_equiv.
    pose proof (RN_no_overflow _ H) as Ho. unfold RN in Ho. simpl round_mode in Hc.
    rewrite Rlt_bool_true in Hc by exact Ho. destruct Hc as (A & B & _). repeat split; auto.
Qed.

(** Bridge to Flocq's [binary_float] for addition and subtraction. *)
Lemma binary_normalize_equiv : forall m e szero,
  SpecFloat.binary_normalize 53 1024 m e szero
  = B2SF (BinarySingleNaN.binary_normalize 53 1024 _ _ mode_NE m e szero).
Proof.
  intros [|p|p] e szero; simpl; auto; rewrite B2SF_SF2B; apply binary_round_equiv.
Qed.

Lemma SFadd_equiv : forall x y : binary_float 53 1024,
  SFadd 53 1024 (B2SF x) (B2SF y) = B2SF (Bplus mode_NE x y).
Proof.
  intros [sx|sx| |sx mx ex Bx] [sy|sy| |sy my ey By]; simpl; try easy;
    try (now destruct (Bool.eqb sx sy)).
  apply binary_normalize_equiv.
Qed.

Lemma SFsub_equiv : forall x y : binary_float 53 1024,
  SFsub 53 1024 (B2SF x) (B2SF y) = B2SF (Bminus mode_NE x y).
Proof.
  intros [sx|sx| |sx mx ex Bx] [sy|sy| |sy my ey By]; simpl; try easy;
    try (now destruct (Bool.eqb sx (negb sy))).
  rewrite binary_normalize_equiv. unfold Bminus, Bplus, Bopp, Fplus_naive.
  f_equal. f_equal. unfold Zminus. destruct sy; simpl; f_equal; try reflexivity.
Qed.

Lemma rep_B : forall f x, rep f x -> exists b : binary_float 53 1024, f = B2SF b /\ is_finite b = true /\ B2R b = x.
Proof.
  intros f x (V & F & Rr). exists (SF2B f V). rewrite B2SF_SF2B. repeat split.
  - now rewrite is_finite_SF2B.
  - now rewrite B2R_SF2B.
Qed.

Lemma B_rep : forall b : binary_float 53 1024, is_finite b = true -> rep (B2SF b) (B2R b).
Proof.
  intros b H. repeat split.
  - apply valid_binary_B2SF.
  - now rewrite is_finite_SF_B2SF.
  - apply SF2R_B2SF.
Qed.

Lemma rep_add : forall f g x y, rep f x -> rep g y -> Rabs (x + y) <= bpow radix2 1000 ->
  rep (fadd f g) (RN (x + y)).
Proof.
  intros f g x y Hf Hg H.
  destruct (rep_B _ _ Hf) as (a & -> & Fa & <-). destruct (rep_B _ _ Hg) as (b & -> & Fb & <-).
  unfold fadd. rewrite SFadd_equiv.
  pose proof (Bplus_correct 53 1024 _ _ mode_NE a b Fa Fb) as Hc.
  pose proof (RN_no_overflow _ H) as Ho. unfold RN in Ho. simpl round_mode in Hc.
  rewrite Rlt_bool_true in Hc by exact Ho. destruct Hc as (A & B & _).
  unfold RN. rewrite <- A. now apply B_rep.
Qed.

Lemma rep_sub : forall f g x y, rep f x -> rep g y -> Rabs (x - y) <= bpow radix2 1000 ->
  rep (fsub f g) (RN (x - y)).
Proof.
  intros f g x y Hf Hg H.
  destruct (rep_B _ _ Hf) as (a & -> & Fa & <-). destruct (rep_B _ _ Hg) as (b & -> & Fb & <-).
  unfold fsub. rewrite SFsub_equiv.
  pose proof (Bminus_correct 53 1024 _ _ mode_NE a b Fa Fb) as Hc.
  pose proof (RN_no_overflow _ H) as Ho. unfold RN in Ho. simpl round_mode in Hc.
  rewrite Rlt_bool_true in Hc by exact Ho. destruct Hc as (A & B & _).
  unfold RN. rewrite <- A. now apply B_rep.
Qed.

(** Truncation and rounding to integers. *)
Lemma F2R_neg_exp : forall m e, (e < 0)%Z -> F2R (Float radix2 m e) = IZR m / IZR (2 ^ (- e)).
Proof.
  intros m e H. unfold F2R. simpl. unfold Rdiv. f_equal.
  replace e with (- (- e))%Z at 1 by lia. rewrite bpow_opp. f_equal.
  symmetry. change 2%Z with (radix_val radix2). apply IZR_Zpower. lia.
Qed.

Lemma F2R_pos_exp : forall m e, (0 <= e)%Z -> F2R (Float radix2 m e) = IZR (m * 2 ^ e).
Proof.
  intros m e H. unfold F2R. simpl. rewrite mult_IZR. f_equal.
  symmetry. change 2%Z with (radix_val radix2). now apply IZR_Zpower.
Qed.

Lemma Zfloor_ratio : forall a b, (0 < b)%Z -> Zfloor (IZR a / IZR b) = (a / b)%Z.
Proof. intros. apply Zfloor_div. lia. Qed.

Lemma ftrunc_correct : forall f x, rep f x -> ftrunc f = Some (Ztrunc x).
Proof.
  intros f x (V & F & Rr).
  destruct f as [s| | |s m e]; try discriminate F; simpl in Rr; subst x; cbn [ftrunc].
  - now rewrite Ztrunc_IZR.
  - f_equal. destruct (Z.leb_spec 0 e) as [H|H].
    + rewrite F2R_pos_exp by lia. rewrite Ztrunc_IZR. destruct s; unfold SpecFloat.cond_Zopp; [|reflexivity].
      change (Z.neg m) with (- Z.pos m)%Z. ring.
    + assert (Hp : (0 < 2 ^ (- e))%Z) by (apply Z.pow_pos_nonneg; lia).
      destruct s; simpl cond_Zopp.
      * rewrite (F2R_neg_exp (Z.neg m)) by lia.
        change (Z.neg m) with (- Z.pos m)%Z. rewrite opp_IZR.
        replace (- IZR (Z.pos m) / IZR (2 ^ (- e))) with (- (IZR (Z.pos m) / IZR (2 ^ (- e)))) by (unfold Rdiv; ring).
        rewrite Ztrunc_opp, Ztrunc_floor, Zfloor_ratio; auto.
        apply Rlt_le, Rdiv_lt_0_compat; apply IZR_lt; lia.
      * rewrite (F2R_neg_exp (Z.pos m)) by lia.
        rewrite Ztrunc_floor, Zfloor_ratio; auto.
        apply Rlt_le, Rdiv_lt_0_compat; apply IZR_lt; lia.
Qed.

(** Half-away-from-zero rounding of a non-negative real. *)
Lemma round_half_abs_correct : forall m e,
  round_half_abs m e = Zfloor (F2R (Float radix2 (Zpos m) e) + / 2).
Proof.
  intros m e. unfold round_half_abs. destruct (Z.leb_spec 0 e) as [H|H].
  - rewrite F2R_pos_exp by lia. symmetry. apply Zfloor_imp. rewrite (plus_IZR _ 1).
    generalize (IZR (Z.pos m * 2 ^ e)). intro r. split; lra.
  - rewrite F2R_neg_exp by lia.
    assert (Hp : (0 < 2 ^ (- e))%Z) by (apply Z.pow_pos_nonneg; lia).
    rewrite <- Zfloor_ratio by lia. f_equal.
    rewrite plus_IZR. unfold Rdiv. rewrite Rmult_plus_distr_r. f_equal.
    assert (E : (2 ^ (- e) = 2 * 2 ^ (- e - 1))%Z).
    { replace (- e)%Z with (1 + (- e - 1))%Z at 1 by lia. rewrite Z.pow_add_r by lia. reflexivity. }
    rewrite E, mult_IZR.
    assert (0 < IZR (2 ^ (- e - 1))) by (apply IZR_lt, Z.pow_pos_nonneg; lia).
    generalize dependent (IZR (2 ^ (- e - 1))). intros r Hr. field. lra.
Qed.

Lemma fround_correct_nonneg : forall f x, rep f x -> 0 <= x -> x <= IZR (2 ^ 62) ->
  rep (fround f) (RN (IZR (Zfloor (x + / 2)))).
Proof.
  intros f x (V & F & Rr) H0 H1.
  destruct f as [s| | |s m e]; try discriminate F; simpl in Rr; subst x; simpl fround.
  - replace (Zfloor (0 + / 2)) with 0%Z.
    + rewrite RN_0. repeat split.
    + symmetry. apply Zfloor_imp. simpl. lra.
  - destruct s; simpl cond_Zopp in *.
    + exfalso. apply ge_0_F2R in H0. simpl in H0. lia.
    + rewrite <- round_half_abs_correct, <- (F2R_e0 (round_half_abs m e)). apply rep_normalize.
      rewrite F2R_e0, <- abs_IZR. change (bpow radix2 1000) with (IZR (2 ^ 1000)). apply IZR_le.
      rewrite round_half_abs_correct.
      assert (A : (Zfloor (F2R (Float radix2 (Z.pos m) e) + / 2) <= 2 ^ 62 + 1)%Z).
      { apply le_IZR. eapply Rle_trans; [apply Zfloor_lb|]. rewrite plus_IZR. simpl (IZR 1). lra. }
      assert (B : (0 <= Zfloor (F2R (Float radix2 (Z.pos m) e) + / 2))%Z).
      { apply Zfloor_lub. simpl. lra. }
      rewrite Z.abs_eq by lia. eapply Z.le_trans; [exact A|]. vm_compute. discriminate.
Qed.

(** Integers of at most 53 bits are represented exactly. *)
Lemma format_small : forall n, (Z.abs n <= 2 ^ 53)%Z -> format64 (IZR n).
Proof.
  intros n H. destruct (Z.eq_dec (Z.abs n) (2 ^ 53)) as [E|E].
  - assert (C : n = (2 ^ 53)%Z \/ n = (- 2 ^ 53)%Z) by lia.
    destruct C as [-> | ->].
    + change (IZR (2 ^ 53)) with (bpow radix2 53). apply generic_format_bpow.
      unfold SpecFloat.fexp, SpecFloat.emin. lia.
    + rewrite opp_IZR. apply generic_format_opp.
      change (IZR (2 ^ 53)) with (bpow radix2 53). apply generic_format_bpow.
      unfold SpecFloat.fexp, SpecFloat.emin. lia.
  - rewrite <- F2R_e0. apply generic_format_F2R. intros Hn.
    unfold cexp, SpecFloat.fexp, SpecFloat.emin.
    assert (M : (mag radix2 (F2R (Float radix2 n 0)) <= 53)%Z).
    { apply mag_le_bpow.
      - rewrite F2R_e0. now apply IZR_neq.
      - rewrite F2R_e0, <- abs_IZR. change (bpow radix2 53) with (IZR (2 ^ 53)). apply IZR_lt. lia. }
    change (Z.of_nat 1) with 1%Z in *. lia.
Qed.

Lemma RN_format : forall x, format64 x -> RN x = x.
Proof. intros. apply round_generic; auto with typeclass_instances. Qed.

Lemma RN_small : forall n, (Z.abs n <= 2 ^ 53)%Z -> RN (IZR n) = IZR n.
Proof. intros. now apply RN_format, format_small. Qed.

Lemma RN_mono : forall x y, x <= y -> RN x <= RN y.
Proof. intros. apply round_le; auto with typeclass_instances. Qed.

Lemma format_RN : forall x, format64 (RN x).
Proof. intros. apply generic_format_round; auto with typeclass_instances. Qed.

(** Relative error, for values that are not subnormal. *)
Lemma RN_rel_error : forall x, bpow radix2 (-1000) <= Rabs x ->
  exists d, Rabs d <= bpow radix2 (-53) /\ RN x = x * (1 + d).
Proof.
  intros x H.
  destruct (relative_error_N_FLT_ex radix2 (SpecFloat.emin 53 1024) 53 eq_refl (fun n => negb (Z.even n)) x) as (d & Hd & E).
  - eapply Rle_trans; [|exact H]. apply bpow_le. unfold SpecFloat.emin. lia.
  - exists d. split; [|exact E].
    eapply Rle_trans; [exact Hd|].
    apply Req_le. change (-53)%Z with (-1 + (- (53) + 1))%Z. now rewrite (bpow_plus radix2 (-1)).
Qed.

(** ** Overflow threshold *)
Lemma mag_in : forall x e, bpow radix2 (e - 1) <= x < bpow radix2 e -> mag radix2 x = e :> Z.
Proof. intros x e [H1 H2]. apply mag_unique. rewrite Rabs_pos_eq; auto. pose proof (bpow_ge_0 radix2 (e-1)). lra. Qed.

Lemma bpow_split : forall a b, bpow radix2 (a + b) = bpow radix2 a * bpow radix2 b.
Proof. intros. apply bpow_plus. Qed.

Definition ovf_thr : R := bpow radix2 1024 - bpow radix2 970.

Lemma thr_scaled : exists u, u = bpow radix2 970 /\ 0 < u /\ bpow radix2 1024 = 18014398509481984 * u /\ bpow radix2 971 = 2 * u
   /\ bpow radix2 1023 = 9007199254740992 * u.
Proof.
  exists (bpow radix2 970). split; [reflexivity|]. split; [apply bpow_gt_0|].
  change 1024%Z with (54 + 970)%Z. change 971%Z with (1+970)%Z. change 1023%Z with (53+970)%Z. rewrite !bpow_plus.
  repeat split; f_equal; cbn; lra.
Qed.

Lemma cexp_top : forall x, bpow radix2 1023 <= x < bpow radix2 1024 -> cexp radix2 fexp64 x = 971%Z.
Proof.
  intros x H. unfold cexp. rewrite (mag_in x 1024) by (change (1024-1)%Z with 1023%Z; lra). reflexivity.
Qed.

Lemma RN_thr : RN ovf_thr = bpow radix2 1024.
Proof.
  destruct thr_scaled as (u & Eu & Hu & E1 & E2 & E3). unfold RN, round, ovf_thr, scaled_mantissa.
  rewrite cexp_top by (rewrite E1, E3, <- Eu; lra).
  assert (S : (bpow radix2 1024 - bpow radix2 970) * bpow radix2 (- (971)) = 9007199254740992 - / 2).
  { rewrite bpow_opp, E1, E2, <- Eu. field. lra. }
  rewrite S.
  assert (F : Zfloor (9007199254740992 - / 2) = 9007199254740991%Z).
  { apply Zfloor_imp. rewrite plus_IZR. lra. }
  assert (C : Zceil (9007199254740992 - / 2) = 9007199254740992%Z).
  { apply Zceil_imp. rewrite minus_IZR. lra. }
  unfold Znearest. rewrite F, C. rewrite Rcompare_Eq by lra. cbn [Z.even negb].
  unfold F2R. cbn [Fnum Fexp]. rewrite E1, E2. lra.
Qed.

Lemma RN_below_thr : forall x, x < ovf_thr -> RN x < bpow radix2 1024.
Proof.
  intros x H. destruct thr_scaled as (u & Eu & Hu & E1 & E2 & E3).
  set (m := bpow radix2 1024 - bpow radix2 971).
  assert (Fm : format64 m).
  { unfold format64. apply generic_format_FLT.
    apply (FLT_spec _ _ _ _ (Float radix2 9007199254740991 971)).
    - unfold F2R, m; cbn [Fnum Fexp]. rewrite E1, E2. lra.
    - cbn. lia.
    - cbn. lia. }
  assert (HM : bpow radix2 1023 <= m < bpow radix2 1024) by (unfold m; rewrite E1, E2, E3; lra).
  assert (Sm : succ radix2 fexp64 m = bpow radix2 1024).
  { rewrite succ_eq_pos by (unfold m; rewrite E1, E2; lra).
    rewrite ulp_neq_0 by (unfold m; rewrite E1, E2; lra). rewrite cexp_top by exact HM. unfold m. lra. }
  apply Rle_lt_trans with m; [|apply HM].
  unfold RN. apply round_N_le_midp; auto with typeclass_instances.
  rewrite Sm. unfold ovf_thr in H. unfold m. rewrite E1, E2 in *. rewrite <- Eu in H. lra.
Qed.

Lemma overflow_iff : forall x, 0 <= x -> bpow radix2 1024 <= Rabs (RN x) <-> ovf_thr <= x.
Proof.
  intros x Hx. assert (0 <= RN x) by (rewrite <- RN_0; now apply RN_mono). rewrite Rabs_pos_eq by auto.
  split; intro G.
  - destruct (Rle_or_lt ovf_thr x); auto. apply RN_below_thr in H0. lra.
  - rewrite <- RN_thr. now apply RN_mono.
Qed.

Lemma Rle_div_iff : forall a b c, 0 < c -> a <= b / c <-> a * c <= b.
Proof.
  intros a b c H. split; intro G.
  - apply (Rmult_le_compat_r c) in G; [|lra]. replace (b / c * c) with b in G by (field; lra). exact G.
  - apply (Rmult_le_reg_r c); auto. replace (b / c * c) with b by (field; lra). exact G.
Qed.

Lemma ratio_inf : forall v d, (0 <= v)%Z -> (0 < d)%Z ->
  (((2 ^ 1024 - 2 ^ 970) * d <= v)%Z /\ f64_of_ratio v d = S754_infinity false) \/
  ((v < (2 ^ 1024 - 2 ^ 970) * d)%Z /\ rep (f64_of_ratio v d) (RN (IZR v / IZR d))).
Proof.
  intros v d Hv Hd.
  assert (Hd' : 0 < IZR d) by now apply IZR_lt.
  assert (Hv' : 0 <= IZR v) by now apply IZR_le.
  assert (T : ovf_thr = IZR (2 ^ 1024 - 2 ^ 970)).
  { rewrite minus_IZR. reflexivity. }
  destruct (Z.eq_dec v 0) as [->|N].
  - right. split.
    + apply Z.mul_pos_pos; [reflexivity|lia].
    + cbn. unfold Rdiv. rewrite Rmult_0_l, RN_0. repeat split.
  - assert (Q : 0 <= IZR v / IZR d) by (apply Rmult_le_pos; auto; left; now apply Rinv_0_lt_compat).
    destruct (ratio_overflow v d) as [[H1 H2]|[H1 H2]]; try lia.
    + right. split; auto. apply lt_IZR. rewrite mult_IZR, <- T.
      destruct (Rlt_or_le (IZR v) (ovf_thr * IZR d)) as [|G]; auto. exfalso.
      assert (ovf_thr <= IZR v / IZR d). { apply Rle_div_iff; auto. }
      apply overflow_iff in H; auto. lra.
    + left. split; auto. apply le_IZR. rewrite mult_IZR, <- T.
      apply overflow_iff in H1; auto. apply Rle_div_iff in H1; auto.
Qed.
