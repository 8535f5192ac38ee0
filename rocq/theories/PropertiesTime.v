(** Theorems C07, C08, C53: dates (mpd/io.go).  Specification: TimeSpec.v. *)
From Coq Require Import String.
From Coq Require Import ZArith List Bool SpecFloat Reals Psatz.
From Coq Require Import ZifyBool ZifyNat ZifyN.
From Flocq Require Import Core BinarySingleNaN.
From Verif Require Import Base Float64 Float64Proofs DurationSpec DurationRoundTrip Time TimeSpec TimeProofs.
Import ListNotations.
Open Scope Z_scope.

(** C07.  -62167219200 is 0000-01-01T00:00:00Z, 253402300799 is 9999-12-31T23:59:59Z. *)
Theorem C07_datetime_s : forall s, -62167219200 <= s <= 253402300799 ->
  exists t, to_datetime_s s = Some t /\ instant_text t (s * 1000).
Proof. exact datetime_s_text. Qed.
Print Assumptions C07_datetime_s.
Theorem C07_datetime_ms : forall ms, -62167219200000 <= ms <= 253402300799999 ->
  exists t, to_datetime_ms ms = Some t /\ instant_text t ms.
Proof. intros ms H. apply datetime_ms_text. unfold min_sec, max_sec. lia. Qed.
Print Assumptions C07_datetime_ms.
(** A text denotes one instant only, so different instants print differently. *)
Theorem C07_injective : forall t ms ms', instant_text t ms -> instant_text t ms' -> ms = ms'.
Proof.
  intros t a b A B. apply parse_instant in A. apply parse_instant in B. rewrite A in B. inversion B as [[H1 H2]].
  pose proof (Z.div_mod a 1000 ltac:(lia)). pose proof (Z.div_mod b 1000 ltac:(lia)). lia.
Qed.
Print Assumptions C07_injective.
Example C07_ex : to_datetime_ms (-1) = Some (str "1969-12-31T23:59:59.999Z") /\ to_datetime_s 951782400 = Some (str "2000-02-29T00:00:00Z")
  /\ to_datetime_s (-62167219200) = Some (str "0000-01-01T00:00:00Z") /\ to_datetime_s 253402300799 = Some (str "9999-12-31T23:59:59Z").
Proof. vm_compute. auto. Qed.
(** The calendar specification determines one date per day and every day has one. *)
Theorem C07_calendar_total : forall n, exists! a, day_date n a.
Proof.
  intro n. exists (civil n). split; [apply day_date_civil|]. intros a H. symmetry. now apply day_date_unique.
Qed.
Print Assumptions C07_calendar_total.

(** C08.  Reading back. *)
Lemma rep_unique : forall f g x, rep f x -> rep g x -> x <> 0%R -> f = g.
Proof.
  intros f g x Hf Hg Hx. destruct (rep_B _ _ Hf) as (a & -> & Fa & Ea). destruct (rep_B _ _ Hg) as (b & -> & Fb & Eb).
  f_equal. apply B2R_inj.
  - destruct a; try discriminate; auto; cbn in Ea; exfalso; lra.
  - destruct b; try discriminate; auto; cbn in Eb; exfalso; lra.
  - congruence.
Qed.
Lemma rep_1e9 : rep (f64_of_Z 1000000000) 1000000000.
Proof.
  rewrite <- (RN_small 1000000000) by (cbn; lia). apply rep_of_Z.
  apply Z.le_trans with (2 ^ 53); [cbn; lia|]. apply Z.pow_le_mono_r; lia.
Qed.
Lemma small_1000 : forall n, (Z.abs n <= 2 ^ 64)%Z -> (Z.abs n <= 2 ^ 1000)%Z.
Proof. intros n H. apply Z.le_trans with (2 ^ 64); auto. apply Z.pow_le_mono_r; lia. Qed.

Lemma ns_format : forall s, (Z.abs s <= 4611686018)%Z -> format64 (IZR (s * 1000000000)).
Proof.
  intros s H. apply generic_format_FLT. apply (FLT_spec _ _ _ _ (Float radix2 (s * 1953125) 9)).
  - rewrite F2R_pos_exp by lia. f_equal. change (2 ^ 9) with 512. lia.
  - cbn [Fnum]. change (radix2 ^ 53)%Z with 9007199254740992%Z. lia.
  - cbn. lia.
Qed.

(** Exactly [float64(s)] up to |s| = 4611686018 (years 1823 to 2116). *)
Theorem C08_exact : forall s t, Z.abs s <= 4611686018 -> to_datetime_s s = Some t ->
  to_seconds t = Some (f64_of_Z s).
Proof.
  intros s t Hs E. destruct (datetime_s_text s) as (t' & E' & T); [unfold min_sec, max_sec; lia|].
  rewrite E in E'. inversion E'; subst t'. unfold to_seconds. rewrite (parse_instant _ _ T).
  rewrite Z.div_mul, Z.mod_mul by lia. rewrite Z.mul_0_l, Z.add_0_r.
  rewrite wrap_i64_id by (unfold is_i64, two63; lia). f_equal.
  destruct (Z.eq_dec s 0) as [->|N]; [reflexivity|].
  assert (RS : rep (f64_of_Z s) (IZR s)).
  { rewrite <- (RN_small s) by (change (2 ^ 53) with 9007199254740992; lia). apply rep_of_Z, small_1000. change (2 ^ 64) with 18446744073709551616. lia. }
  assert (RX : rep (f64_of_Z (s * 1000000000)) (IZR (s * 1000000000))).
  { pose proof (rep_of_Z (s * 1000000000)) as H. rewrite RN_format in H by (now apply ns_format).
    apply H, small_1000. change (2 ^ 64) with 18446744073709551616. lia. }
  apply rep_unique with (IZR s); auto.
  - replace (IZR s) with (RN (IZR (s * 1000000000) / 1000000000)).
    + apply rep_div; auto using rep_1e9; try lra.
      replace (IZR (s * 1000000000) / 1000000000)%R with (IZR s) by (rewrite mult_IZR; field).
      rewrite <- abs_IZR. change (bpow radix2 1000) with (IZR (2 ^ 1000)). apply IZR_le.
      apply small_1000. change (2 ^ 64) with 18446744073709551616. lia.
    + replace (IZR (s * 1000000000) / 1000000000)%R with (IZR s) by (rewrite mult_IZR; field).
      apply RN_small. change (2 ^ 53) with 9007199254740992. lia.
  - now apply IZR_neq.
Qed.
Print Assumptions C08_exact.
Example C08_ex : to_seconds (str "2023-11-14T22:13:20Z") = Some (f64_of_Z 1700000000) /\ to_datetime_s 1700000000 = Some (str "2023-11-14T22:13:20Z").
Proof. vm_compute. auto. Qed.

(** Within three microseconds over the whole int64 nanosecond range (years 1678 to 2262), milliseconds included. *)
Lemma RN_abs : forall x, Rabs (RN x) = RN (Rabs x).
Proof.
  intro x. unfold RN. symmetry. apply round_NE_abs; auto with typeclass_instances.
Qed.
Lemma RN_opp' : forall x, RN (- x) = (- RN x)%R.
Proof. intro x. unfold RN. apply round_NE_opp. Qed.
Lemma RN_err_pos : forall x e, (0 <= x)%R -> (x <= bpow radix2 e)%R -> (-900 <= e)%Z ->
  (Rabs (RN x - x) <= bpow radix2 (e - 53) + / 1000000000000000)%R.
Proof.
  intros x e H0 H1 He.
  destruct (Rle_or_lt (bpow radix2 (-1000)) x) as [H|H].
  - destruct (RN_rel_error x) as (d & Hd & E); [rewrite Rabs_pos_eq; auto|].
    rewrite E. replace (x * (1 + d) - x)%R with (x * d)%R by ring. rewrite Rabs_mult, (Rabs_pos_eq x) by auto.
    apply Rle_trans with (bpow radix2 e * bpow radix2 (-53))%R.
    + apply Rmult_le_compat; auto using Rabs_pos.
    + rewrite <- bpow_plus. change (e + -53)%Z with (e - 53)%Z. lra.
  - assert (0 <= RN x)%R by (rewrite <- RN_0; now apply RN_mono).
    assert (RN x <= bpow radix2 (-1000))%R.
    { rewrite <- (RN_format (bpow radix2 (-1000))).
      - apply RN_mono. lra.
      - apply generic_format_bpow. unfold SpecFloat.fexp, SpecFloat.emin. lia. }
    assert (bpow radix2 (-1000) <= bpow radix2 (-100))%R by (apply bpow_le; lia).
    assert (bpow radix2 (-100) <= / 1000000000000000)%R.
    { change (bpow radix2 (-100)) with (/ 1267650600228229401496703205376)%R. apply Rinv_le; lra. }
    pose proof (bpow_gt_0 radix2 (e - 53)). apply Rabs_le. lra.
Qed.
Lemma RN_err : forall x e, (Rabs x <= bpow radix2 e)%R -> (-900 <= e)%Z ->
  (Rabs (RN x - x) <= bpow radix2 (e - 53) + / 1000000000000000)%R.
Proof.
  intros x e H He. destruct (Rle_or_lt 0 x) as [P|P].
  - apply RN_err_pos; auto. rewrite Rabs_pos_eq in H; auto.
  - rewrite <- (Ropp_involutive x) at 1 2. rewrite RN_opp'.
    replace (- RN (- x) - - - x)%R with (- (RN (- x) - - x))%R by ring. rewrite Rabs_Ropp.
    apply RN_err_pos; auto; [lra|]. rewrite Rabs_left in H; auto.
Qed.

Theorem C08_close : forall t ms, instant_text t ms -> Z.abs ms <= 9223372036854 ->
  exists f x, to_seconds t = Some f /\ rep f x /\ (Rabs (x - IZR ms / 1000) <= 3 / 1000000)%R.
Proof.
  intros t ms T H. unfold to_seconds. rewrite (parse_instant _ _ T).
  assert (N : ms / 1000 * 1000000000 + ms mod 1000 * 1000000 = ms * 1000000).
  { pose proof (Z.div_mod ms 1000 ltac:(lia)). lia. }
  rewrite N. rewrite wrap_i64_id by (unfold is_i64, two63; lia).
  set (n := ms * 1000000) in *.
  assert (Hn : (Rabs (IZR n) <= bpow radix2 63)%R).
  { rewrite <- abs_IZR. change (bpow radix2 63) with (IZR 9223372036854775808). apply IZR_le. lia. }
  pose proof (RN_err (IZR n) 63 Hn ltac:(lia)) as E1. change (bpow radix2 (63 - 53)) with 1024%R in E1.
  apply Rabs_le_inv in E1. apply Rabs_le_inv in Hn. change (bpow radix2 63) with 9223372036854775808%R in Hn.
  set (y := RN (IZR n)) in *.
  assert (Ny : (Rabs (y / 1000000000) <= bpow radix2 34)%R).
  { change (bpow radix2 34) with 17179869184%R. apply Rabs_le. lra. }
  pose proof (RN_err (y / 1000000000) 34 Ny ltac:(lia)) as E2.
  change (bpow radix2 (34 - 53)) with (/ 524288)%R in E2. apply Rabs_le_inv in E2.
  exists (fdiv (f64_of_Z n) (f64_of_Z 1000000000)), (RN (y / 1000000000)).
  split; [reflexivity|]. split.
  - apply rep_div; auto using rep_1e9; try lra.
    + apply rep_of_Z, small_1000. change (2 ^ 64) with 18446744073709551616. unfold n. lia.
    + apply Rle_trans with (bpow radix2 34); auto. apply bpow_le. lia.
  - assert (IZR ms / 1000 = IZR n / 1000000000)%R by (unfold n; rewrite mult_IZR; field).
    rewrite H0. apply Rabs_le. lra.
Qed.
Print Assumptions C08_close.
(** Not exact from 2116 on: 2116-02-20T23:53:39Z comes back 2^-20 s too large or small. *)
Theorem C08_exact_refuted : to_datetime_s 4611686019 = Some (str "2116-02-20T23:53:39Z")
  /\ to_seconds (str "2116-02-20T23:53:39Z") = Some (S754_finite false 4835703279058945 (-20))
  /\ f64_of_Z 4611686019 <> S754_finite false 4835703279058945 (-20).
Proof. vm_compute. repeat split; congruence. Qed.
Print Assumptions C08_exact_refuted.
(** Wrong by centuries outside 1678 to 2262: [UnixNano] wraps. *)
Theorem C08_range_refuted : to_datetime_s 9223372037 = Some (str "2262-04-11T23:47:17Z")
  /\ to_seconds (str "2262-04-11T23:47:17Z") = Some (fdiv (f64_of_Z (-9223372036709551616)) (f64_of_Z 1000000000)).
Proof. vm_compute. auto. Qed.
Print Assumptions C08_range_refuted.
(** Text that is not a date is an error. *)
Example C08_bad : to_seconds (str "2023-02-29T00:00:00Z") = None /\ to_seconds (str "2024-02-29T00:00:00Z") <> None /\ to_seconds (str "") = None.
Proof. vm_compute. repeat split; congruence. Qed.

(** C53.  [ConvertToDateTime] on a float64: the printed instant is the real value cropped to milliseconds, up to
    1.1 nanoseconds of rounding on either side. *)
Lemma unix_any : forall sec nsec, Z.abs sec < 9000000000000000000 -> Z.abs nsec <= 1000000000 ->
  exists a b, unix sec nsec = (a, b) /\ 0 <= b < 1000000000 /\ a * 1000000000 + b = sec * 1000000000 + nsec.
Proof.
  intros sec nsec H1 H2. unfold unix, go_div.
  destruct ((nsec <? 0) || (1000000000 <=? nsec)) eqn:E.
  - set (n := nsec ÷ 1000000000). assert (N : -1 <= n <= 1) by (unfold n; zdm; lia).
    assert (R : Z.abs (nsec - n * 1000000000) < 1000000000) by (unfold n; zdm; lia).
    rewrite (wrap_i64_id (sec + n)) by (unfold is_i64, two63; lia).
    destruct (nsec - n * 1000000000 <? 0) eqn:L.
    + rewrite wrap_i64_id by (unfold is_i64, two63; lia). exists (sec + n - 1), (nsec - n * 1000000000 + 1000000000). split; [reflexivity|]. lia.
    + exists (sec + n), (nsec - n * 1000000000). split; [reflexivity|]. lia.
  - exists sec, nsec. split; [reflexivity|]. lia.
Qed.
Lemma Ztrunc_near : forall x, (Rabs (x - IZR (Ztrunc x)) < 1)%R.
Proof.
  intro x. unfold Ztrunc. destruct (Rlt_bool_spec x 0) as [H|H].
  - pose proof (Zceil_ub x). pose proof (Zceil_lb x). apply Rabs_lt. lra.
  - pose proof (Zfloor_lb x). pose proof (Zfloor_ub x). apply Rabs_lt. lra.
Qed.
Theorem C53_datetime_float : forall oor f x, rep f x -> (-62167219199 <= x <= 253402300799)%R ->
  exists t ms, to_datetime_f oor f = Some t /\ instant_text t ms
    /\ (IZR ms / 1000 <= x + 11 / 10000000000)%R /\ (x < IZR (ms + 1) / 1000 + 11 / 10000000000)%R.
Proof.
  intros oor f x Hf Hx.
  assert (S0 : (-62167219199 <= Ztrunc x <= 253402300799)%Z).
  { split.
    - rewrite <- (Ztrunc_IZR (-62167219199)). apply Ztrunc_le. lra.
    - rewrite <- (Ztrunc_IZR 253402300799). apply Ztrunc_le. lra. }
  unfold to_datetime_f. set (s := Ztrunc x) in *.
  assert (E0 : f64_to_i64 oor f = s).
  { unfold f64_to_i64. rewrite (ftrunc_correct f x Hf). fold s. replace (is_i64 s) with true by (unfold is_i64, two63; lia). reflexivity. }
  rewrite E0.
  assert (RS : rep (f64_of_Z s) (IZR s)).
  { rewrite <- (RN_small s) by (change (2 ^ 53) with 9007199254740992; lia). apply rep_of_Z, small_1000. change (2 ^ 64) with 18446744073709551616. lia. }
  pose proof (Ztrunc_near x) as Z1. fold s in Z1.
  assert (B1 : (Rabs (x - IZR s) <= bpow radix2 0)%R) by (change (bpow radix2 0) with 1%R; lra).
  assert (RD : rep (fsub f (f64_of_Z s)) (RN (x - IZR s))).
  { apply rep_sub; auto. apply Rle_trans with (bpow radix2 0); auto. apply bpow_le. lia. }
  pose proof (RN_err (x - IZR s) 0 B1 ltac:(lia)) as E1.
  change (bpow radix2 (0 - 53)) with (/ 9007199254740992)%R in E1.
  assert (Y1 : (Rabs (RN (x - IZR s)) <= 1)%R).
  { rewrite RN_abs. rewrite <- (RN_small 1) by (cbn; lia). apply RN_mono. lra. }
  set (z := RN (x - IZR s)) in *.
  apply Rabs_le_inv in E1. apply Rabs_le_inv in Y1. apply Rabs_def2 in Z1.
  assert (B2 : (Rabs (z * 1000000000) <= bpow radix2 30)%R).
  { change (bpow radix2 30) with 1073741824%R. apply Rabs_le. lra. }
  assert (RM : rep (fmul (fsub f (f64_of_Z s)) (f64_of_Z 1000000000)) (RN (z * 1000000000))).
  { apply rep_mul; auto using rep_1e9. apply Rle_trans with (bpow radix2 30); auto. apply bpow_le. lia. }
  pose proof (RN_err (z * 1000000000) 30 B2 ltac:(lia)) as E2.
  change (bpow radix2 (30 - 53)) with (/ 8388608)%R in E2.
  assert (Y2 : (Rabs (RN (z * 1000000000)) <= 1000000000)%R).
  { rewrite RN_abs. apply Rle_trans with (RN 1000000000); [apply RN_mono, Rabs_le; lra|]. rewrite RN_small by (cbn; lia). lra. }
  set (y := RN (z * 1000000000)) in *. apply Rabs_le_inv in E2. apply Rabs_le_inv in Y2.
  assert (N0 : (-1000000000 <= Ztrunc y <= 1000000000)%Z).
  { split.
    - rewrite <- (Ztrunc_IZR (-1000000000)). apply Ztrunc_le. lra.
    - rewrite <- (Ztrunc_IZR 1000000000). apply Ztrunc_le. lra. }
  pose proof (Ztrunc_near y) as Z2. apply Rabs_def2 in Z2.
  set (n := Ztrunc y) in *.
  replace (f64_to_i64 oor (fmul (fsub f (f64_of_Z s)) (f64_of_Z 1000000000))) with n.
  2: { unfold f64_to_i64. rewrite (ftrunc_correct _ _ RM). fold n. replace (is_i64 n) with true by (unfold is_i64, two63; lia). reflexivity. }
  destruct (unix_any s n) as (a & b & E & Hb & Hab); [lia|lia|]. rewrite E.
  assert (A : -62167219200 <= a <= 253402300799).
  { split; [lia|]. destruct (Z.le_gt_cases a 253402300799); auto. exfalso.
    assert (s = 253402300799 /\ n = 1000000000) as [-> ->] by lia. lra. }
  destruct (format_ms_text a b) as (t & F & T); [unfold min_sec, max_sec; lia|lia|].
  exists t, (a * 1000 + b / 1000000). split; [exact F|]. split; [exact T|].
  set (m := a * 1000 + b / 1000000).
  assert (M : (m * 1000000 <= s * 1000000000 + n < (m + 1) * 1000000)%Z).
  { unfold m. pose proof (Z.div_mod b 1000000 ltac:(lia)). pose proof (Z.mod_pos_bound b 1000000 ltac:(lia)). lia. }
  destruct M as [M1 M2]. apply IZR_le in M1. apply IZR_lt in M2.
  rewrite plus_IZR, !mult_IZR in M1, M2. lra.
Qed.
Print Assumptions C53_datetime_float.
(** 1.001 as a float64 is slightly below 1.001, so it is cropped to 1.000 and the milliseconds are not printed. *)
Example C53_ex : to_datetime_f (fun _ => 0) (f64_of_ratio 1001 1000) = Some (str "1970-01-01T00:00:01Z")
  /\ to_datetime_ms 1001 = Some (str "1970-01-01T00:00:01.001Z")
  /\ to_datetime_f (fun _ => 0) (f64_of_ratio 3 2) = Some (str "1970-01-01T00:00:01.5Z").
Proof. vm_compute. auto. Qed.
