(** Theorems C78: every text is either read as the instant it names or refused (mpd/io.go:143-149).
    Specification: DateSpec.v. *)
From Coq Require Import String.
From Coq Require Import ZArith List Bool SpecFloat Reals Psatz.
From Coq Require Import ZifyBool ZifyNat ZifyN.
From Flocq Require Import Core BinarySingleNaN.
From Verif Require Import Base Float64 Float64Proofs DurationSpec DurationProofs Time TimeSpec TimeProofs PropertiesTime DateSpec.
Import ListNotations.
Open Scope Z_scope.

Lemma is_digit_range : forall b, is_digit b = true -> 48 <= b <= 57.
Proof. unfold is_digit. lia. Qed.
Lemma getyear_inv : forall s y r, getyear s = Some (y, r) -> exists t, s = t ++ r /\ number 4 t y.
Proof.
  intros s y r H. destruct s as [|a [|b [|c [|d s]]]]; try discriminate H. cbn [getyear] in H. match type of H with context [if ?c then _ else _] => destruct c eqn:D end; [|discriminate H]. injection H as <- <-.
  unfold is_digit in D. exists [a; b; c; d]. split; [reflexivity|]. split; [reflexivity|].
  split; [repeat (constructor; [lia|]); constructor|].
  cbn [dec_val length]. change (10 ^ Z.of_nat 3) with 1000. change (10 ^ Z.of_nat 2) with 100. change (10 ^ Z.of_nat 1) with 10. change (10 ^ Z.of_nat 0) with 1. lia.
Qed.
Lemma getnum2_inv : forall s y r, getnum2 s = Some (y, r) -> exists t, s = t ++ r /\ number 2 t y.
Proof.
  intros s y r H. destruct s as [|a [|b s]]; try discriminate H. cbn [getnum2] in H. match type of H with context [if ?c then _ else _] => destruct c eqn:D end; [|discriminate H]. injection H as <- <-.
  unfold is_digit in D. exists [a; b]. split; [reflexivity|]. split; [reflexivity|].
  split; [repeat (constructor; [lia|]); constructor|].
  cbn [dec_val length]. change (10 ^ Z.of_nat 1) with 10. change (10 ^ Z.of_nat 0) with 1. lia.
Qed.
Lemma getnum12_inv : forall s y r, getnum12 s = Some (y, r) -> exists t, s = t ++ r /\ (number 2 t y \/ number 1 t y).
Proof.
  intros s y r H. destruct s as [|a s]; [discriminate H|]. cbn [getnum12] in H. destruct (is_digit a) eqn:Da; [|discriminate H]. apply is_digit_range in Da.
  assert (N1 : number 1 [a] (a - 48)).
  { split; [reflexivity|]. split; [constructor; [exact Da|constructor]|]. cbn [dec_val length]. change (10 ^ Z.of_nat 0) with 1. lia. }
  destruct s as [|b s]; [injection H as <- <-; exists [a]; auto|]. destruct (is_digit b) eqn:Db; injection H as <- <-.
  - apply is_digit_range in Db. exists [a; b]. split; [reflexivity|]. left. split; [reflexivity|]. split; [repeat (constructor; auto)|].
    cbn [dec_val length]. change (10 ^ Z.of_nat 1) with 10. change (10 ^ Z.of_nat 0) with 1. lia.
  - exists [a]. auto.
Qed.
Lemma getnum12_one : forall t n b r, number 1 t n -> is_digit b = false -> getnum12 (t ++ b :: r) = Some (n, b :: r).
Proof.
  intros t n b r (L & D & V) B. destruct t as [|a t]; [discriminate L|]. destruct t; [|discriminate L]. inversion D as [|? ? D1 _]; subst.
  cbn [app getnum12]. rewrite (digit_val_in a) by exact D1. rewrite B. f_equal. f_equal. cbn [dec_val length]. change (10 ^ Z.of_nat 0) with 1. lia.
Qed.
Lemma lit_inv : forall c s r, lit c s = Some r -> s = c :: r.
Proof. intros c [|b s] r H; [discriminate|]. cbn in H. destruct (b =? c) eqn:E; [|discriminate]. injection H as <-. f_equal. lia. Qed.
Lemma dec_val_app : forall a b, dec_val (a ++ b) = dec_val a * 10 ^ Z.of_nat (length b) + dec_val b.
Proof.
  induction a as [|x a IH]; intro b; cbn [app dec_val]; [lia|]. rewrite IH, app_length, Nat2Z.inj_add, Z.pow_add_r by lia. ring.
Qed.
Lemma dec_val_bound : forall g, digits g -> 0 <= dec_val g < 10 ^ Z.of_nat (length g).
Proof.
  induction 1 as [|x g Hx D IH]; cbn [dec_val length]; [cbn; lia|]. rewrite Nat2Z.inj_succ, Z.pow_succ_r by lia. nia.
Qed.
(** Nine digits count: the rest is cut off. *)
Lemma nano_floor : forall g, digits g -> nano_of g = dec_val g * 1000000000 / 10 ^ Z.of_nat (length g).
Proof.
  intros g D. unfold nano_of. rewrite fold_dec_val, Z.mul_0_l, Z.add_0_l. change 1000000000 with (10 ^ 9).
  destruct (Nat.le_gt_cases (length g) 9) as [H|H].
  - rewrite firstn_all2 by exact H. symmetry. replace (10 ^ 9) with (10 ^ (9 - Z.of_nat (length g)) * 10 ^ Z.of_nat (length g)) by (rewrite <- Z.pow_add_r by lia; f_equal; lia).
    rewrite Z.mul_assoc. apply Z.div_mul. pose proof (Z.pow_pos_nonneg 10 (Z.of_nat (length g)) ltac:(lia) ltac:(lia)). lia.
  - rewrite firstn_length_le by lia. change (9 - Z.of_nat 9) with 0. rewrite Z.pow_0_r, Z.mul_1_r.
    pose proof (firstn_skipn 9 g) as E. set (a := firstn 9 g) in *. set (b := skipn 9 g) in *.
    assert (La : length a = 9%nat) by (unfold a; rewrite firstn_length_le; lia).
    assert (Db : digits b) by (unfold digits in *; rewrite <- E in D; apply Forall_app in D; tauto).
    rewrite <- E. rewrite dec_val_app, app_length, La, Nat2Z.inj_add, Z.pow_add_r by lia. change (Z.of_nat 9) with 9.
    pose proof (dec_val_bound b Db) as B. set (q := 10 ^ Z.of_nat (length b)) in *.
    rewrite (Z.mul_comm (10 ^ 9) q), Z.div_mul_cancel_r by lia. symmetry. rewrite Z.div_add_l by lia. rewrite Z.div_small by lia. lia.
Qed.
Lemma span_inv : forall s a r, span_digits s = (a, r) -> s = a ++ r /\ digits a.
Proof.
  induction s as [|b s IH]; intros a r H; cbn [span_digits] in H; [injection H as <- <-; split; [reflexivity|constructor]|].
  destruct (is_digit b) eqn:D.
  - destruct (span_digits s) as [a' r'] eqn:E. injection H as <- <-. destruct (IH _ _ eq_refl) as [-> D']. split; [reflexivity|constructor; [now apply is_digit_range|exact D']].
  - injection H as <- <-. split; [reflexivity|constructor].
Qed.
Lemma getfrac_inv : forall s n r, getfrac s = (n, r) -> exists t, s = t ++ r /\ fraction t n.
Proof.
  intros s n r H. assert (Z0 : (n, r) = (0, s) -> exists t, s = t ++ r /\ fraction t n) by (intro E; injection E as -> ->; exists []; split; [reflexivity|constructor]).
  destruct s as [|p [|b s]]; try (apply Z0; symmetry; exact H). unfold getfrac in H. match type of H with context [if ?c then _ else _] => destruct c eqn:C end; [|apply Z0; symmetry; exact H].
  apply andb_true_iff in C. destruct C as [Cp Cb]. destruct (span_digits (b :: s)) as [a r'] eqn:E. injection H as <- <-.
  assert (N : a <> []). { intros ->. cbn [span_digits] in E. rewrite Cb in E. destruct (span_digits s). discriminate E. }
  destruct (span_inv _ _ _ E) as [E' D]. exists (p :: a). split; [cbn; f_equal; exact E'|]. rewrite nano_floor by exact D. constructor; auto. lia.
Qed.
Lemma getfrac_ok : forall t n r, fraction t n -> (match r with b :: _ => is_digit b = false /\ b <> 46 /\ b <> 44 | [] => True end) -> getfrac (t ++ r) = (n, r).
Proof.
  intros t n r [|p g Hp Hg D] R.
  - cbn [app]. unfold getfrac. destruct r as [|p [|b r]]; auto. destruct R as (_ & R1 & R2). replace ((p =? 46) || (p =? 44)) with false by lia. reflexivity.
  - destruct g as [|b g]; [congruence|]. cbn [app]. unfold getfrac. replace ((p =? 46) || (p =? 44)) with true by lia. rewrite (digit_val_in b) by (inversion D; assumption). cbn [andb].
    change (b :: g ++ r) with ((b :: g) ++ r). rewrite span_digits_app; [now rewrite nano_floor|exact D|]. destruct r; tauto.
Qed.
Lemma getzone_inv : forall s o r, getzone s = Some (o, r) -> exists t, s = t ++ r /\ zone t o.
Proof.
  intros s o r H. destruct s as [|c s]; [discriminate H|].
  assert (Q : c = 90 /\ o = 0 /\ r = s \/ (c = 43 \/ c = 45) /\ exists hh mm r2, getnum2 s = Some (hh, 58 :: r2) /\ getnum2 r2 = Some (mm, r) /\ hh <= 24 /\ mm <= 60 /\ o = (if c =? 45 then -1 else 1) * (hh * 3600 + mm * 60)).
  { destruct (Z.eq_dec c 90) as [-> |N]; [left; injection H as <- <-; auto|right].
    assert (G : (if (c =? 43) || (c =? 45) then match getnum2 s with Some (hh, 58 :: r2) => match getnum2 r2 with Some (mm, r3) => if (hh <=? 24) && (mm <=? 60) then Some ((if c =? 45 then -1 else 1) * (hh * 3600 + mm * 60), r3) else None | None => None end | _ => None end else None) = Some (o, r)).
    { rewrite <- H. unfold getzone. destruct c as [|p|p]; try reflexivity. do 7 (destruct p as [p|p|]; try reflexivity). congruence. }
    clear H. destruct ((c =? 43) || (c =? 45)) eqn:C; [|discriminate G]. split; [lia|]. destruct (getnum2 s) as [[hh u]|] eqn:G2; [|discriminate G].
    destruct u as [|e u]; [discriminate G|]. destruct (Z.eq_dec e 58) as [-> |N2].
    2: { exfalso. revert G. clear -N2. destruct e as [|p|p]; try discriminate. do 6 (destruct p as [p|p|]; try discriminate). congruence. }
    destruct (getnum2 u) as [[mm r3]|] eqn:G3; [|discriminate G]. destruct ((hh <=? 24) && (mm <=? 60)) eqn:B; [|discriminate G]. injection G as <- <-. exists hh, mm, u. repeat split; auto; lia. }
  destruct Q as [(-> & -> & ->)|(C & hh & mm & r2 & G1 & G2 & B1 & B2 & ->)]; [exists [90]; split; [reflexivity|constructor]|].
  destruct (getnum2_inv _ _ _ G1) as (th & -> & N1). destruct (getnum2_inv _ _ _ G2) as (tm & -> & N2).
  destruct C as [-> | ->]; [exists ([43] ++ th ++ [58] ++ tm)|exists ([45] ++ th ++ [58] ++ tm)].
  - split; [cbn; rewrite <- app_assoc; reflexivity|]. change (43 =? 45) with false. cbv iota. rewrite Z.mul_1_l. constructor; auto.
  - split; [cbn; rewrite <- app_assoc; reflexivity|]. change (45 =? 45) with true. cbv iota. replace (-1 * (hh * 3600 + mm * 60)) with (- (hh * 3600 + mm * 60)) by ring. constructor; auto.
Qed.
Lemma getzone_ok : forall t o, zone t o -> getzone t = Some (o, []).
Proof.
  intros t o [|th tm h m N1 N2 B1 B2|th tm h m N1 N2 B1 B2]; [reflexivity| |]; cbn [app getzone]; rewrite (getnum2_num _ _ _ N1); rewrite <- (app_nil_r tm), (getnum2_num _ _ _ N2);
    replace ((h <=? 24) && (m <=? 60)) with true by lia.
  - change ((43 =? 43) || (43 =? 45)) with true. change (43 =? 45) with false. cbv iota. now rewrite Z.mul_1_l.
  - change ((45 =? 43) || (45 =? 45)) with true. change (45 =? 45) with true. cbv iota. replace (-1 * (h * 3600 + m * 60)) with (- (h * 3600 + m * 60)) by ring. reflexivity.
Qed.
Lemma zone_start : forall t o, zone t o -> match t with b :: _ => is_digit b = false /\ b <> 46 /\ b <> 44 | [] => True end.
Proof. intros t o []; cbn; repeat split; discriminate. Qed.
Lemma number_nonneg : forall w t n, number w t n -> 0 <= n.
Proof. intros w t n (_ & D & <-). apply dec_val_bound. exact D. Qed.

(** The instant read is the one named, and only dates are read. *)
Lemma parse_names : forall t sec ns, parse_time t = Some (sec, ns) <-> names t sec ns.
Proof.
  intros t sec ns. split.
  - unfold parse_time. intro H.
    destruct (getyear t) as [[y s1]|] eqn:E1; [|discriminate H]. destruct (getyear_inv _ _ _ E1) as (ty & -> & Ny). clear E1.
    destruct (lit 45 s1) as [s2|] eqn:E; [|discriminate H]. apply lit_inv in E. subst s1.
    destruct (getnum2 s2) as [[mo s3]|] eqn:E; [|discriminate H]. destruct (getnum2_inv _ _ _ E) as (tmo & -> & Nmo). clear E.
    destruct ((1 <=? mo) && (mo <=? 12)) eqn:Bm; [|discriminate H]. cbn [negb] in H.
    destruct (lit 45 s3) as [s4|] eqn:E; [|discriminate H]. apply lit_inv in E. subst s3.
    destruct (getnum2 s4) as [[d s5]|] eqn:E; [|discriminate H]. destruct (getnum2_inv _ _ _ E) as (td & -> & Nd). clear E.
    destruct (lit 84 s5) as [s6|] eqn:E; [|discriminate H]. apply lit_inv in E. subst s5.
    destruct (getnum12 s6) as [[h s7]|] eqn:E; [|discriminate H]. destruct (getnum12_inv _ _ _ E) as (th & -> & Nh). clear E.
    destruct (h <? 24) eqn:Bh; [|discriminate H]. cbn [negb] in H.
    destruct (lit 58 s7) as [s8|] eqn:E; [|discriminate H]. apply lit_inv in E. subst s7.
    destruct (getnum2 s8) as [[mi s9]|] eqn:E; [|discriminate H]. destruct (getnum2_inv _ _ _ E) as (tmi & -> & Nmi). clear E.
    destruct (mi <? 60) eqn:Bmi; [|discriminate H]. cbn [negb] in H.
    destruct (lit 58 s9) as [s10|] eqn:E; [|discriminate H]. apply lit_inv in E. subst s9.
    destruct (getnum2 s10) as [[s s11]|] eqn:E; [|discriminate H]. destruct (getnum2_inv _ _ _ E) as (ts & -> & Ns). clear E.
    destruct (s <? 60) eqn:Bs; [|discriminate H]. cbn [negb] in H.
    destruct (getfrac s11) as [n' s12] eqn:E. destruct (getfrac_inv _ _ _ E) as (tf & -> & F). clear E.
    destruct (getzone s12) as [[off s13]|] eqn:E; [|discriminate H]. destruct (getzone_inv _ _ _ E) as (tz & -> & Z). clear E.
    destruct s13; [|discriminate H]. destruct ((1 <=? d) && (d <=? days_in y mo)) eqn:Bd; [|discriminate H]. injection H as <- <-.
    exists (days_of_civil y mo d), y, mo, d, h, mi, s, off, ty, tmo, td, th, tmi, ts, tf, tz. rewrite app_nil_r.
    split; [reflexivity|]. repeat (split; [assumption|]). split; [|split; [lia|split; [lia|split; [lia|reflexivity]]]].
    rewrite <- (civil_days y mo d) by (split; lia). apply day_date_civil.
  - intros (n & y & mo & d & h & mi & s & off & ty & tmo & td & th & tmi & ts & tf & tz & -> & Ny & Nmo & Nd & Nh & Nmi & Ns & F & Z & DD & Hh & Hmi & Hs & ->).
    apply day_date_unique in DD. symmetry in DD. destruct (civil_valid _ _ _ _ DD) as [[Hm Hd] DE].
    unfold parse_time. cbn [app].
    rewrite (getyear_num _ _ _ Ny), lit_ok. rewrite (getnum2_num _ _ _ Nmo).
    replace ((1 <=? mo) && (mo <=? 12)) with true by lia. cbn [negb]. rewrite lit_ok.
    rewrite (getnum2_num _ _ _ Nd), lit_ok.
    assert (EH : getnum12 (th ++ 58 :: tmi ++ 58 :: ts ++ tf ++ tz) = Some (h, 58 :: tmi ++ 58 :: ts ++ tf ++ tz)) by (destruct Nh as [Nh|Nh]; [exact (getnum12_num _ _ _ Nh)|apply getnum12_one; [exact Nh|reflexivity]]).
    rewrite EH. replace (h <? 24) with true by lia. cbn [negb]. rewrite lit_ok.
    rewrite (getnum2_num _ _ _ Nmi). replace (mi <? 60) with true by lia. cbn [negb]. rewrite lit_ok.
    rewrite (getnum2_num _ _ _ Ns). replace (s <? 60) with true by lia. cbn [negb].
    rewrite (getfrac_ok _ _ _ F (zone_start _ _ Z)). rewrite (getzone_ok _ _ Z).
    replace ((1 <=? d) && (d <=? days_in y mo)) with true by lia. rewrite DE. reflexivity.
Qed.

(** C78. A text is read exactly if it names an instant. *)
Theorem C78_accepted : forall t, (exists f, to_seconds t = Some f) <-> exists sec ns, names t sec ns.
Proof.
  intro t. unfold to_seconds. split.
  - intros [f H]. destruct (parse_time t) as [[sec ns]|] eqn:E; [|discriminate H]. exists sec, ns. now apply parse_names.
  - intros (sec & ns & H). apply parse_names in H. rewrite H. eauto.
Qed.
Print Assumptions C78_accepted.
(** It names one instant only. *)
Theorem C78_one_instant : forall t s n s' n', names t s n -> names t s' n' -> s = s' /\ n = n'.
Proof. intros t s n s' n' A B. apply parse_names in A. apply parse_names in B. rewrite A in B. injection B as -> ->. auto. Qed.
Print Assumptions C78_one_instant.
(** The number returned: the nanoseconds as int64, converted to float64 and divided by 10^9 in float64. *)
Theorem C78_value : forall t sec ns, names t sec ns ->
  exists w, (w - (sec * 1000000000 + ns)) mod 2 ^ 64 = 0 /\ - 2 ^ 63 <= w < 2 ^ 63 /\
    to_seconds t = Some (fdiv (f64_of_Z w) (f64_of_Z 1000000000)).
Proof.
  intros t sec ns H. apply parse_names in H. exists (wrap_i64 (sec * 1000000000 + ns)). unfold to_seconds. rewrite H.
  set (z := sec * 1000000000 + ns). split; [|split; [|reflexivity]]; unfold wrap_i64, two63, two64.
  - change (2 ^ 64) with 18446744073709551616. zdm. lia.
  - change (2 ^ 63) with 9223372036854775808. zdm. lia.
Qed.
Print Assumptions C78_value.
(** Within three microseconds of the instant, from 1677-09-21T00:12:44 to 2262-04-11T23:47:16.854775807. *)
Theorem C78_close : forall t sec ns, names t sec ns -> - 2 ^ 63 <= sec * 1000000000 + ns < 2 ^ 63 ->
  exists f x, to_seconds t = Some f /\ rep f x /\ (Rabs (x - (IZR sec + IZR ns / 1000000000)) <= 3 / 1000000)%R.
Proof.
  intros t sec ns T H. apply parse_names in T. unfold to_seconds. rewrite T. change (2 ^ 63) with 9223372036854775808 in H.
  rewrite wrap_i64_id by (unfold is_i64, two63; lia).
  set (n := sec * 1000000000 + ns) in *.
  assert (Hn : (Rabs (IZR n) <= bpow radix2 63)%R).
  { rewrite <- abs_IZR. change (bpow radix2 63) with (IZR 9223372036854775808). apply IZR_le. lia. }
  pose proof (RN_err (IZR n) 63 Hn ltac:(lia)) as E1. change (bpow radix2 (63 - 53)) with 1024%R in E1.
  apply Rabs_le_inv in E1. apply Rabs_le_inv in Hn. change (bpow radix2 63) with 9223372036854775808%R in Hn.
  set (y := RN (IZR n)) in *.
  assert (Ny : (Rabs (y / 1000000000) <= bpow radix2 34)%R).
  { change (bpow radix2 34) with 17179869184%R. apply Rabs_le. lra. }
  pose proof (RN_err (y / 1000000000) 34 Ny ltac:(lia)) as E2.
  change (bpow radix2 (34 - 53)) with (/ 524288)%R in E2. apply Rabs_le_inv in E2.
  exists (fdiv (f64_of_Z n) (f64_of_Z 1000000000)), (RN (y / 1000000000)).
  split; [reflexivity|]. split.
  - apply rep_div; auto using rep_1e9; try lra.
    + apply rep_of_Z, small_1000. change (2 ^ 64) with 18446744073709551616. lia.
    + apply Rle_trans with (bpow radix2 34); auto. apply bpow_le. lia.
  - assert (E : (IZR sec + IZR ns / 1000000000 = IZR n / 1000000000)%R) by (unfold n; rewrite plus_IZR, mult_IZR; field).
    rewrite E. apply Rabs_le. lra.
Qed.
Print Assumptions C78_close.
(** A fraction, a zone, a one-digit hour; nine of ten digits count. *)
Example C78_example : names (str "2024-02-29T01:30:00.5+02:30") 1709161200 500000000 /\ names (str "2024-02-29T1:30:00,1234567899-00:60") 1709173800 123456789.
Proof. split; apply parse_names; vm_compute; reflexivity. Qed.
(** Texts no xs:dateTime allows are read: a comma before the fraction, an hour of one digit, zones past 14:00. *)
Theorem C78_lenient_refuted : to_seconds (str "2024-01-01T1:00:00,5+24:60") = to_seconds (str "2023-12-31T00:00:00.5Z") /\ to_seconds (str "2023-12-31T00:00:00.5Z") <> None.
Proof. split; [vm_compute; reflexivity|vm_compute; discriminate]. Qed.
Print Assumptions C78_lenient_refuted.
(** And xs:dateTimes are refused: the zone may be left out there, the hour may be 24:00:00, the year may have a sign or more digits. *)
Theorem C78_strict_refuted : to_seconds (str "2024-01-01T00:00:00") = None /\ to_seconds (str "2024-01-01T24:00:00Z") = None /\ to_seconds (str "-0001-01-01T00:00:00Z") = None /\ to_seconds (str "12024-01-01T00:00:00Z") = None.
Proof. vm_compute. repeat split; reflexivity. Qed.
Print Assumptions C78_strict_refuted.
