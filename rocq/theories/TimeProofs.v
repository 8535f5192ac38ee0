From Coq Require Import String.
From Coq Require Import ZArith List Bool SpecFloat Lia.
From Coq Require Import ZifyBool ZifyNat ZifyN.
From Verif Require Import Base Float64 DurationSpec DurationProofs Time TimeSpec.
Import ListNotations.
Open Scope Z_scope.
Ltac zdm := Z.to_euclidean_division_equations.

Definition valid_date (y m d : Z) : Prop := 1 <= m <= 12 /\ 1 <= d <= days_in y m.
Definition leaps (y : Z) : Z := y / 4 - y / 100 + y / 400.
Definition lb (y : Z) : Z := if is_leap y then 1 else 0.

Lemma leaps_step : forall y, leaps y = leaps (y - 1) + lb y.
Proof.
  intro y. unfold leaps, lb, is_leap.
  destruct (Z.eqb_spec (y mod 4) 0), (Z.eqb_spec (y mod 100) 0), (Z.eqb_spec (y mod 400) 0); cbn [andb orb negb]; zdm; lia.
Qed.

Lemma days_of_civil_closed : forall y m d,
  days_of_civil y m d = 365 * (y - 1) + leaps (y - 1) + days_before (m - 1) + (if is_leap y && (3 <=? m) then 1 else 0) + (d - 1) - epoch_days.
Proof.
  intros y m d. unfold days_of_civil. cbv zeta.
  set (x := y - 1). generalize (if is_leap y && (3 <=? m) then 1 else 0). intro c.
  unfold leaps. clearbody x. generalize (days_before (m - 1)). intro b. zdm. lia.
Qed.

Lemma leaps_mono : forall a b, a <= b -> leaps a <= leaps b.
Proof. intros a b H. unfold leaps. zdm. lia. Qed.

Lemma month_cases : forall m, 1 <= m <= 12 ->
  m = 1 \/ m = 2 \/ m = 3 \/ m = 4 \/ m = 5 \/ m = 6 \/ m = 7 \/ m = 8 \/ m = 9 \/ m = 10 \/ m = 11 \/ m = 12.
Proof. lia. Qed.
Ltac months H := apply month_cases in H; repeat (destruct H as [H|H]); subst.

Ltac lit_Z v := match v with Z0 => idtac | Zpos _ => idtac | Zneg _ => idtac end.
Ltac ev1 t := let v := eval vm_compute in t in
  (match v with true => idtac | false => idtac | _ => lit_Z v end); change t with v in *.
Ltac ev := repeat match goal with
  | |- context [days_before ?a] => ev1 (days_before a)
  | H : context [days_before ?a] |- _ => ev1 (days_before a)
  | |- context [?a =? ?b] => ev1 (a =? b)
  | H : context [?a =? ?b] |- _ => ev1 (a =? b)
  | |- context [?a <=? ?b] => ev1 (a <=? b)
  | H : context [?a <=? ?b] |- _ => ev1 (a <=? b)
  end; cbn [andb orb negb] in *; cbv iota in *.

(** Day of the year of a valid date. *)
Definition yday (y m d : Z) : Z := days_before (m - 1) + (if is_leap y && (3 <=? m) then 1 else 0) + (d - 1).

Lemma yday_range : forall y m d, valid_date y m d -> 0 <= yday y m d < 365 + lb y.
Proof.
  intros y m d [Hm Hd]. unfold yday, lb, days_in in *. revert Hd. destruct (is_leap y); intro Hd; months Hm; ev; lia.
Qed.

Lemma yday_inj : forall y m d m' d', valid_date y m d -> valid_date y m' d' -> yday y m d = yday y m' d' -> m = m' /\ d = d'.
Proof.
  intros y m d m' d' [Hm Hd] [Hm' Hd'] E. unfold yday, days_in in *.
  revert Hd Hd' E. destruct (is_leap y); intros Hd Hd' E; months Hm; months Hm'; ev; lia.
Qed.

Lemma days_inj : forall y m d y' m' d', valid_date y m d -> valid_date y' m' d' ->
  days_of_civil y m d = days_of_civil y' m' d' -> (y, m, d) = (y', m', d').
Proof.
  intros y m d y' m' d' V V' E. rewrite !days_of_civil_closed in E.
  pose proof (yday_range _ _ _ V) as R. pose proof (yday_range _ _ _ V') as R'.
  assert (E' : 365 * (y - 1) + leaps (y - 1) + yday y m d = 365 * (y' - 1) + leaps (y' - 1) + yday y' m' d') by (unfold yday; lia).
  clear E.
  assert (Y : y = y').
  { pose proof (leaps_step y). pose proof (leaps_step y').
    destruct (Z.lt_trichotomy y y') as [L|[?|L]]; auto; exfalso.
    - pose proof (leaps_mono y (y' - 1) ltac:(lia)). lia.
    - pose proof (leaps_mono y' (y - 1) ltac:(lia)). lia. }
  subst y'. destruct (yday_inj y m d m' d' V V' ltac:(lia)) as [-> ->]. reflexivity.
Qed.

Lemma month_day_ok : forall y yd, 0 <= yd < 365 + lb y ->
  let '(m, d) := month_day (is_leap y) yd in valid_date y m d /\ yday y m d = yd.
Proof.
  intros y yd H. unfold month_day, lb in *.
  assert (G : forall day, 0 <= day < 365 ->
    let q := day / 31 in
    exists m, 1 <= m <= 12 /\ days_before (m - 1) <= day < days_before m /\
      (if days_before (q + 1) <=? day then (q + 2, day - days_before (q + 1) + 1) else (q + 1, day - days_before q + 1))
      = (m, day - days_before (m - 1) + 1)).
  { intros day Hd q.
    assert (Hq : 31 * q <= day < 31 * q + 31) by (unfold q; zdm; lia). clearbody q.
    assert (C : q = 0 \/ q = 1 \/ q = 2 \/ q = 3 \/ q = 4 \/ q = 5 \/ q = 6 \/ q = 7 \/ q = 8 \/ q = 9 \/ q = 10 \/ q = 11) by lia.
    repeat (destruct C as [C|C]); subst q;
    match goal with |- context [days_before ?a <=? day] => destruct (Z.leb_spec (days_before a) day) as [L|L] end; ev;
    match goal with |- exists m, _ /\ _ /\ (?x, _) = _ => exists x end; repeat split; ev; try lia. }
  destruct (is_leap y) eqn:EL; cbn [andb] in *.
  - destruct (Z.eqb_spec yd 59) as [->|N].
    + unfold valid_date, yday, days_in. rewrite EL. ev. lia.
    + destruct (Z.ltb_spec 59 yd).
      * destruct (G (yd - 1) ltac:(lia)) as (m & Hm & R & E). cbv zeta in E. rewrite E.
        unfold valid_date, yday, days_in. rewrite EL. months Hm; ev; lia.
      * destruct (G yd ltac:(lia)) as (m & Hm & R & E). cbv zeta in E. rewrite E.
        unfold valid_date, yday, days_in. rewrite EL. months Hm; ev; lia.
  - destruct (G yd ltac:(lia)) as (m & Hm & R & E). cbv zeta in E. rewrite E.
    unfold valid_date, yday, days_in. rewrite EL. months Hm; ev; lia.
Qed.

Lemma year_yday_ok : forall n, let '(y, yd) := year_yday n in
  0 <= yd < 365 + lb y /\ 365 * (y - 1) + leaps (y - 1) + yd = n.
Proof.
  intro n. unfold year_yday. cbv zeta.
  set (n400 := n / 146097). assert (H1 : 0 <= n - 146097 * n400 < 146097) by (unfold n400; zdm; lia). clearbody n400.
  set (d1 := n - 146097 * n400) in *.
  set (a := d1 / 36524). assert (Ha : 36524 * a <= d1 < 36524 * a + 36524) by (unfold a; zdm; lia). clearbody a.
  set (n100 := a - a / 4).
  assert (H2 : 0 <= n100 <= 3 /\ 0 <= d1 - 36524 * n100 /\ (n100 < 3 -> d1 - 36524 * n100 < 36524) /\ d1 - 36524 * n100 <= 36524).
  { unfold n100. assert (0 <= a <= 4) by lia. zdm. lia. }
  clearbody n100. clear Ha a. set (d2 := d1 - 36524 * n100) in *.
  set (n4 := d2 / 1461). assert (H4 : 1461 * n4 <= d2 < 1461 * n4 + 1461) by (unfold n4; zdm; lia). clearbody n4.
  set (d3 := d2 - 1461 * n4) in *.
  set (b := d3 / 365). assert (Hb : 365 * b <= d3 < 365 * b + 365) by (unfold b; zdm; lia). clearbody b.
  set (k := b - b / 4).
  assert (Hk : 0 <= k <= 3 /\ 0 <= d3 - 365 * k /\ (k < 3 -> d3 - 365 * k < 365) /\ d3 - 365 * k <= 365).
  { unfold k. assert (0 <= b <= 4) by lia. zdm. lia. }
  clearbody k. clear Hb b.
  assert (N4 : 0 <= n4 <= 24) by lia.
  assert (Y : (400 * n400 + 100 * n100 + 4 * n4 + k + 1) - 1 = 400 * n400 + 100 * n100 + 4 * n4 + k) by lia.
  rewrite Y.
  assert (L : leaps (400 * n400 + 100 * n100 + 4 * n4 + k) = 97 * n400 + 24 * n100 + n4).
  { unfold leaps. zdm. lia. }
  assert (LB : lb (400 * n400 + 100 * n100 + 4 * n4 + k + 1) = 1 \/ d3 - 365 * k < 365).
  { destruct (Z.eq_dec (d3 - 365 * k) 365) as [E|]; [|right; lia]. left.
    assert (k = 3) by lia. assert (n4 < 24 \/ n100 = 3) by lia.
    unfold lb, is_leap.
    destruct (Z.eqb_spec ((400 * n400 + 100 * n100 + 4 * n4 + k + 1) mod 4) 0); [|exfalso; zdm; lia].
    destruct (Z.eqb_spec ((400 * n400 + 100 * n100 + 4 * n4 + k + 1) mod 100) 0); auto.
    destruct (Z.eqb_spec ((400 * n400 + 100 * n100 + 4 * n4 + k + 1) mod 400) 0); auto. exfalso. zdm. lia. }
  assert (0 <= lb (400 * n400 + 100 * n100 + 4 * n4 + k + 1)) by (unfold lb; destruct (is_leap _); lia).
  split; [lia|]. rewrite L. unfold d3, d2, d1. lia.
Qed.

Theorem civil_ok : forall n, let '(y, m, d) := civil n in valid_date y m d /\ days_of_civil y m d = n.
Proof.
  intro n. unfold civil. pose proof (year_yday_ok (n + epoch_days)) as H.
  destruct (year_yday (n + epoch_days)) as [y yd]. destruct H as [R E].
  pose proof (month_day_ok y yd R) as M. destruct (month_day (is_leap y) yd) as [m d]. destruct M as [V Y].
  split; auto. rewrite days_of_civil_closed. unfold yday in Y. lia.
Qed.

Theorem civil_days : forall y m d, valid_date y m d -> civil (days_of_civil y m d) = (y, m, d).
Proof.
  intros y m d V. pose proof (civil_ok (days_of_civil y m d)) as H.
  destruct (civil (days_of_civil y m d)) as [[y' m'] d']. destruct H as [V' E]. now apply days_inj.
Qed.

(** ** Agreement with the calendar specification *)

Lemma leap_iff : forall y, is_leap y = true <-> leap_year y.
Proof.
  intro y. unfold is_leap, leap_year. rewrite <- !Z.mod_divide by lia.
  destruct (Z.eqb_spec (y mod 4) 0), (Z.eqb_spec (y mod 100) 0), (Z.eqb_spec (y mod 400) 0); cbn; intuition (try discriminate; try lia).
Qed.

Lemma month_length_days_in : forall y m n, month_length y m n -> 1 <= m <= 12 /\ n = days_in y m.
Proof.
  intros y m n H. destruct H as [m H|m H|H|H]; cbn in H.
  - repeat (destruct H as [<-|H]; [split; [lia|reflexivity]|]). destruct H.
  - repeat (destruct H as [<-|H]; [split; [lia|reflexivity]|]). destruct H.
  - split; [lia|]. unfold days_in. cbn. destruct (is_leap y) eqn:E; auto. apply leap_iff in E. contradiction.
  - split; [lia|]. unfold days_in. cbn. apply leap_iff in H. now rewrite H.
Qed.
Lemma days_in_month_length : forall y m, 1 <= m <= 12 -> month_length y m (days_in y m).
Proof.
  intros y m H. months H; try (apply ml_31; cbn; auto 12; fail); try (apply ml_30; cbn; auto 12; fail).
  unfold days_in. cbn. destruct (is_leap y) eqn:E.
  - apply ml_feb_leap. now apply leap_iff.
  - apply ml_feb. intro C. apply leap_iff in C. congruence.
Qed.

Lemma next_day_days : forall y m d b, valid_date y m d -> next_day (y, m, d) b ->
  let '(y', m', d') := b in valid_date y' m' d' /\ days_of_civil y' m' d' = days_of_civil y m d + 1.
Proof.
  intros y m d b [Hm Hd] H. inversion H as [? ? ? n ML Hd'|? ? n ML Hm'|?]; subst; rewrite !days_of_civil_closed.
  - apply month_length_days_in in ML. destruct ML as [_ ->]. split; [split; lia|]. lia.
  - apply month_length_days_in in ML. destruct ML as [_ ->]. split.
    + split; [lia|]. unfold days_in. destruct (is_leap y); months Hm; ev; lia.
    + unfold days_in. destruct (is_leap y); months Hm; try lia; ev; lia.
  - split.
    + split; [lia|]. unfold days_in. ev. lia.
    + pose proof (leaps_step y) as L. unfold lb in L. replace (y + 1 - 1) with y by lia. rewrite L.
      destruct (is_leap (y + 1)), (is_leap y); ev; lia.
Qed.

Lemma next_exists : forall y m d, valid_date y m d -> exists b, next_day (y, m, d) b.
Proof.
  intros y m d [Hm Hd]. destruct (Z.eq_dec d (days_in y m)) as [->|N].
  - destruct (Z.eq_dec m 12) as [->|].
    + exists (y + 1, 1, 1). apply nd_next_year.
    + exists (y, m + 1, 1). apply nd_next_month; [|lia]. now apply days_in_month_length.
  - exists (y, m, d + 1). apply nd_same_month with (days_in y m); [|lia]. now apply days_in_month_length.
Qed.

Theorem civil_next : forall n, next_day (civil n) (civil (n + 1)).
Proof.
  intro n. pose proof (civil_ok n) as H. pose proof (civil_ok (n + 1)) as H'.
  destruct (civil n) as [[y m] d]. destruct (civil (n + 1)) as [[y1 m1] d1].
  destruct H as [V E], H' as [V' E'].
  destruct (next_exists _ _ _ V) as [[[y2 m2] d2] B]. pose proof (next_day_days _ _ _ _ V B) as [V2 E2].
  replace (y1, m1, d1) with (y2, m2, d2); auto. apply days_inj; auto. lia.
Qed.

Lemma civil_0 : civil 0 = (1970, 1, 1). Proof. reflexivity. Qed.

Theorem day_date_civil : forall n, day_date n (civil n).
Proof.
  intro n. destruct (Z.le_gt_cases 0 n) as [H|H].
  - revert n H. apply natlike_ind; [apply dd_epoch|]. intros x Hx IH. apply (dd_after x (civil x)); auto. apply civil_next.
  - assert (G : forall k, 0 <= k -> day_date (- k) (civil (- k))).
    { apply natlike_ind; [apply dd_epoch|]. intros x Hx IH.
      replace (- Z.succ x) with (- x - 1) by lia. apply (dd_before (- x) _ (civil (- x))); auto.
      pose proof (civil_next (- x - 1)) as C. replace (- x - 1 + 1) with (- x) in C by lia. exact C. }
    specialize (G (- n) ltac:(lia)). now rewrite Z.opp_involutive in G.
Qed.

(** The specification determines the date. *)
Lemma next_day_valid : forall a b, next_day a b -> let '(y, m, d) := a in valid_date y m d.
Proof.
  intros a b H. inversion H as [? ? ? n ML Hd'|? ? n ML Hm'|?]; subst.
  - apply month_length_days_in in ML. destruct ML as [Hm ->]. split; lia.
  - apply month_length_days_in in ML. destruct ML as [Hm ->]. split; [lia|]. unfold days_in. destruct (is_leap y); months Hm; ev; lia.
  - split; [lia|]. unfold days_in. ev. lia.
Qed.
Theorem day_date_unique : forall n a, day_date n a -> a = civil n.
Proof.
  intros n a H. induction H as [|n a b H IH B|n a b H IH B].
  - reflexivity.
  - subst a. pose proof (civil_ok n) as C. destruct (civil n) as [[y m] d]. destruct C as [V E].
    pose proof (next_day_days _ _ _ _ V B) as N. destruct b as [[y' m'] d']. destruct N as [V' E'].
    rewrite <- (civil_days _ _ _ V'). f_equal. lia.
  - subst b. pose proof (next_day_valid _ _ B) as V. destruct a as [[y m] d].
    pose proof (next_day_days _ _ _ _ V B) as N. pose proof (civil_ok n) as C. destruct (civil n) as [[y' m'] d'].
    destruct N as [V' E'], C as [_ E]. rewrite <- (civil_days _ _ _ V). f_equal. lia.
Qed.

(** ** Texts *)

Lemma dig_range : forall n, 48 <= dig n <= 57.
Proof. intro n. unfold dig. pose proof (Z.mod_pos_bound n 10). lia. Qed.
Lemma dig_is_digit : forall n, is_digit (dig n) = true.
Proof. intro n. pose proof (dig_range n). unfold is_digit. lia. Qed.

Lemma pad2_number : forall n, 0 <= n < 100 -> number 2 (pad2 n) n.
Proof.
  intros n H. split; [reflexivity|]. split.
  - repeat constructor; apply dig_range.
  - unfold pad2, dig. cbn [dec_val length]. change (10 ^ Z.of_nat 1) with 10. change (10 ^ Z.of_nat 0) with 1. zdm. lia.
Qed.
Lemma pad4_number : forall n, 0 <= n < 10000 -> number 4 (pad4 n) n.
Proof.
  intros n H. split; [reflexivity|]. split.
  - repeat constructor; apply dig_range.
  - unfold pad4, dig. cbn [dec_val length]. change (10 ^ Z.of_nat 3) with 1000. change (10 ^ Z.of_nat 2) with 100.
    change (10 ^ Z.of_nat 1) with 10. change (10 ^ Z.of_nat 0) with 1. zdm. lia.
Qed.

Lemma frac3_ok : forall ms, 0 <= ms < 1000 ->
  frac3 ms = [] /\ ms = 0 \/
  exists g k, frac3 ms = 46 :: g /\ (1 <= k <= 3)%nat /\ number k g (ms / 10 ^ (3 - Z.of_nat k)) /\
    ms mod 10 ^ (3 - Z.of_nat k) = 0 /\ last g 48 <> 48.
Proof.
  intros ms H. unfold frac3. destruct (Z.eqb_spec ms 0) as [->|N]; [left; auto|]. right.
  destruct (Z.eqb_spec (ms mod 100) 0) as [E|N1]; [|destruct (Z.eqb_spec (ms mod 10) 0) as [E|N2]].
  - exists [dig (ms / 100)], 1%nat. split; [reflexivity|]. split; [lia|]. change (10 ^ (3 - Z.of_nat 1)) with 100.
    split; [|split; [exact E|]].
    + split; [reflexivity|]. split; [repeat constructor; apply dig_range|]. unfold dig. cbn [dec_val length]. change (10 ^ Z.of_nat 0) with 1. zdm. lia.
    + cbn [last]. unfold dig. zdm. lia.
  - exists [dig (ms / 100); dig (ms / 10)], 2%nat. split; [reflexivity|]. split; [lia|]. change (10 ^ (3 - Z.of_nat 2)) with 10.
    split; [|split; [exact E|]].
    + split; [reflexivity|]. split; [repeat constructor; apply dig_range|]. unfold dig. cbn [dec_val length]. change (10 ^ Z.of_nat 1) with 10. change (10 ^ Z.of_nat 0) with 1. zdm. lia.
    + cbn [last]. unfold dig. zdm. lia.
  - exists [dig (ms / 100); dig (ms / 10); dig ms], 3%nat. split; [reflexivity|]. split; [lia|]. change (10 ^ (3 - Z.of_nat 3)) with 1.
    split; [|split].
    + split; [reflexivity|]. split; [repeat constructor; apply dig_range|]. unfold dig. cbn [dec_val length]. change (10 ^ Z.of_nat 2) with 100. change (10 ^ Z.of_nat 1) with 10. change (10 ^ Z.of_nat 0) with 1. zdm. lia.
    + apply Z.mod_1_r.
    + cbn [last]. unfold dig. zdm. lia.
Qed.

Lemma civil_valid : forall n y m d, civil n = (y, m, d) -> valid_date y m d /\ days_of_civil y m d = n.
Proof. intros n y m d E. pose proof (civil_ok n) as H. now rewrite E in H. Qed.

Lemma days_in_le : forall y m, 1 <= m <= 12 -> 28 <= days_in y m <= 31.
Proof. intros y m H. unfold days_in. destruct (is_leap y); months H; ev; lia. Qed.

Definition min_sec : Z := -62167219200.
Definition max_sec : Z := 253402300799.

Lemma year_in_range : forall n y m d, civil n = (y, m, d) -> min_sec / 86400 <= n <= max_sec / 86400 -> 0 <= y <= 9999.
Proof.
  intros n y m d E H. destruct (civil_valid _ _ _ _ E) as [V D].
  rewrite days_of_civil_closed in D. pose proof (yday_range _ _ _ V) as R. unfold yday in R.
  change (min_sec / 86400) with (-719528) in H. change (max_sec / 86400) with 2932896 in H.
  unfold lb, epoch_days in *.
  assert (0 <= y).
  { destruct (Z.le_gt_cases 0 y); auto. pose proof (leaps_mono (y - 1) (-2) ltac:(lia)) as M.
    assert (lb y = leaps y - leaps (y - 1)) by (pose proof (leaps_step y); lia). unfold lb in *.
    pose proof (leaps_mono y (-1) ltac:(lia)) as M2.
    change (leaps (-2)) with (-1) in M. change (leaps (-1)) with (-1) in M2. lia. }
  assert (y <= 9999).
  { destruct (Z.le_gt_cases y 9999); auto. pose proof (leaps_mono 9999 (y - 1) ltac:(lia)) as M.
    change (leaps 9999) with 2424 in M. lia. }
  lia.
Qed.

(** Splitting a second count. *)
Lemma split_day : forall sec, let r := sec mod 86400 in
  0 <= r / 3600 < 24 /\ 0 <= r / 60 mod 60 < 60 /\ 0 <= r mod 60 < 60 /\
  sec = sec / 86400 * 86400 + r / 3600 * 3600 + (r / 60 mod 60) * 60 + r mod 60.
Proof. intro sec. cbv zeta. zdm. lia. Qed.

Theorem format_ms_text : forall sec nsec, min_sec <= sec <= max_sec -> 0 <= nsec < 1000000000 ->
  exists t, format_ms sec nsec = Some t /\ instant_text t (sec * 1000 + nsec / 1000000).
Proof.
  intros sec nsec Hs Hn. unfold format_ms.
  assert (HD : min_sec / 86400 <= sec / 86400 <= max_sec / 86400).
  { split; apply Z.div_le_mono; lia. }
  destruct (civil (sec / 86400)) as [[y m] d] eqn:EC.
  pose proof (year_in_range _ _ _ _ EC HD) as HY.
  destruct (civil_valid _ _ _ _ EC) as [[Hm Hd] _]. pose proof (days_in_le y m Hm) as Hl.
  replace ((0 <=? y) && (y <=? 9999)) with true by lia.
  pose proof (split_day sec) as (Hh & Hmi & Hss & HE). cbv zeta in *.
  eexists. split; [reflexivity|].
  assert (Hms : 0 <= nsec / 1000000 < 1000) by (zdm; lia).
  exists (sec / 86400), y, m, d, (sec mod 86400 / 3600), (sec mod 86400 / 60 mod 60), (sec mod 86400 mod 60), (nsec / 1000000).
  split; [rewrite <- EC; apply day_date_civil|]. split; [lia|]. split; [lia|]. split; [lia|]. split; [lia|]. split; [lia|].
  exists (pad4 y), (pad2 m), (pad2 d), (pad2 (sec mod 86400 / 3600)), (pad2 (sec mod 86400 / 60 mod 60)), (pad2 (sec mod 86400 mod 60)), (frac3 (nsec / 1000000)).
  split; [reflexivity|].
  split; [apply pad4_number; lia|]. split; [apply pad2_number; lia|]. split; [apply pad2_number; lia|].
  split; [apply pad2_number; lia|]. split; [apply pad2_number; lia|]. split; [apply pad2_number; lia|].
  now apply frac3_ok.
Qed.

(** ** Reading *)

Lemma digit_val_in : forall b, 48 <= b <= 57 -> is_digit b = true. Proof. unfold is_digit. lia. Qed.

Lemma getyear_num : forall t y r, number 4 t y -> getyear (t ++ r) = Some (y, r).
Proof.
  intros t y r (L & D & V). do 4 (destruct t as [|? t]; [discriminate L|]). destruct t; [|discriminate L].
  inversion D as [|? ? D1 D']; subst. inversion D' as [|? ? D2 D'']; subst. inversion D'' as [|? ? D3 D3']; subst. inversion D3' as [|? ? D4 _]; subst.
  cbn [app getyear]. rewrite !digit_val_in by assumption. cbn [andb]. f_equal. f_equal.
  cbn [dec_val length]. change (10 ^ Z.of_nat 3) with 1000. change (10 ^ Z.of_nat 2) with 100.
  change (10 ^ Z.of_nat 1) with 10. change (10 ^ Z.of_nat 0) with 1. lia.
Qed.
Lemma getnum2_num : forall t n r, number 2 t n -> getnum2 (t ++ r) = Some (n, r).
Proof.
  intros t y r (L & D & V). do 2 (destruct t as [|? t]; [discriminate L|]). destruct t; [|discriminate L].
  inversion D as [|? ? D1 D']; subst. inversion D' as [|? ? D2 D'']; subst.
  cbn [app getnum2]. rewrite !digit_val_in by assumption. cbn [andb]. f_equal. f_equal.
  cbn [dec_val length]. change (10 ^ Z.of_nat 1) with 10. change (10 ^ Z.of_nat 0) with 1. lia.
Qed.
Lemma getnum12_num : forall t n r, number 2 t n -> getnum12 (t ++ r) = Some (n, r).
Proof.
  intros t y r (L & D & V). do 2 (destruct t as [|? t]; [discriminate L|]). destruct t; [|discriminate L].
  inversion D as [|? ? D1 D']; subst. inversion D' as [|? ? D2 D'']; subst.
  cbn [app getnum12]. rewrite !digit_val_in by assumption. f_equal. f_equal.
  cbn [dec_val length]. change (10 ^ Z.of_nat 1) with 10. change (10 ^ Z.of_nat 0) with 1. lia.
Qed.

Lemma span_digits_app : forall g r, digits g -> (match r with b :: _ => is_digit b = false | [] => True end) ->
  span_digits (g ++ r) = (g, r).
Proof.
  intros g r D H. induction D as [|b g Hb D IH]; cbn [app span_digits].
  - destruct r as [|b r]; auto. cbn [span_digits]. now rewrite H.
  - rewrite digit_val_in by auto. now rewrite IH.
Qed.

Lemma fold_dec_val : forall l acc, fold_left (fun acc b => acc * 10 + (b - 48)) l acc = acc * 10 ^ Z.of_nat (length l) + dec_val l.
Proof.
  induction l as [|b l IH]; intro acc; cbn [fold_left dec_val length].
  - change (10 ^ Z.of_nat 0) with 1. lia.
  - rewrite IH, Nat2Z.inj_succ, Z.pow_succ_r by lia. ring.
Qed.

Lemma getfrac_text : forall f ms, 0 <= ms < 1000 ->
  (f = [] /\ ms = 0 \/
   exists g k, f = 46 :: g /\ (1 <= k <= 3)%nat /\ number k g (ms / 10 ^ (3 - Z.of_nat k)) /\
     ms mod 10 ^ (3 - Z.of_nat k) = 0 /\ last g 48 <> 48) ->
  getfrac (f ++ [90]) = (ms * 1000000, [90]).
Proof.
  intros f ms Hms [[-> ->]|(g & k & -> & Hk & (L & D & V) & M & _)]; [reflexivity|].
  destruct g as [|b g]; [cbn in L; lia|].
  cbn [app getfrac]. change (46 =? 46) with true. cbn [orb andb]. pose proof (Forall_inv D) as Hb.
  rewrite (digit_val_in b) by auto. change (b :: g ++ [90]) with ((b :: g) ++ [90]).
  rewrite span_digits_app; auto. f_equal. unfold nano_of.
  rewrite firstn_all2 by lia. rewrite fold_dec_val, V, L.
  rewrite Z.mul_0_l, Z.add_0_l.
  assert (C : k = 1%nat \/ k = 2%nat \/ k = 3%nat) by lia.
  destruct C as [ -> | [ -> | -> ] ]; cbn [Z.of_nat Pos.of_succ_nat Pos.succ Z.sub Z.opp Z.add Z.pos_sub Z.pow Z.pow_pos Pos.iter Z.mul Pos.mul] in *;
    change (10 ^ (9 - 1)) with 100000000; change (10 ^ (9 - 2)) with 10000000; change (10 ^ (9 - 3)) with 1000000.
  - change (10 ^ (3 - Z.of_nat 1)) with 100 in *. zdm. lia.
  - change (10 ^ (3 - Z.of_nat 2)) with 10 in *. zdm. lia.
  - change (10 ^ (3 - Z.of_nat 3)) with 1 in *. rewrite Z.div_1_r. lia.
Qed.

Lemma lit_ok : forall c r, lit c (c :: r) = Some r.
Proof. intros. unfold lit. now rewrite Z.eqb_refl. Qed.

(** The text of an instant reads as that instant. *)
Theorem parse_instant : forall t ms, instant_text t ms -> parse_time t = Some (ms / 1000, ms mod 1000 * 1000000).
Proof.
  intros t ms (n & y & mo & d & h & mi & s & f & DD & Hh & Hmi & Hs & Hf & E & ty & tmo & td & th & tmi & ts & tf & -> & Ny & Nmo & Nd & Nh & Nmi & Ns & F).
  apply day_date_unique in DD. symmetry in DD. destruct (civil_valid _ _ _ _ DD) as [[Hm Hd] DE].
  unfold parse_time. cbn [app].
  rewrite (getyear_num _ _ _ Ny), lit_ok. rewrite (getnum2_num _ _ _ Nmo).
  replace ((1 <=? mo) && (mo <=? 12)) with true by lia. cbn [negb]. rewrite lit_ok.
  rewrite (getnum2_num _ _ _ Nd), lit_ok. rewrite (getnum12_num _ _ _ Nh).
  replace (h <? 24) with true by lia. cbn [negb]. rewrite lit_ok.
  rewrite (getnum2_num _ _ _ Nmi). replace (mi <? 60) with true by lia. cbn [negb]. rewrite lit_ok.
  rewrite (getnum2_num _ _ _ Ns). replace (s <? 60) with true by lia. cbn [negb].
  rewrite (getfrac_text tf f) by auto. cbn [getzone].
  replace ((1 <=? d) && (d <=? days_in y mo)) with true by lia. rewrite DE.
  assert (Q : ms / 1000 = n * 86400 + h * 3600 + mi * 60 + s) by (zdm; lia).
  assert (R : ms mod 1000 = f) by (zdm; lia).
  rewrite Q, R. f_equal. f_equal. lia.
Qed.

Lemma unix_norm : forall sec nsec, is_i64 sec = true -> 0 <= nsec < 1000000000 -> unix sec nsec = (sec, nsec).
Proof. intros. unfold unix. replace ((nsec <? 0) || (1000000000 <=? nsec)) with false by lia. reflexivity. Qed.
Lemma unix_neg : forall sec nsec, - 9000000000000000000 < sec -> sec < 9000000000000000000 -> -1000000000 < nsec < 0 -> unix sec nsec = (sec - 1, nsec + 1000000000).
Proof.
  intros sec nsec H1 H2 Hn. unfold unix. replace ((nsec <? 0) || (1000000000 <=? nsec)) with true by lia.
  assert (Q : go_div nsec 1000000000 = 0) by (unfold go_div; rewrite Z.quot_small_iff; lia).
  rewrite Q. rewrite Z.add_0_r, Z.mul_0_l, Z.sub_0_r. replace (nsec <? 0) with true by lia.
  rewrite (wrap_i64_id sec) by (unfold is_i64, two63; lia). rewrite wrap_i64_id by (unfold is_i64, two63; lia). reflexivity.
Qed.

Theorem datetime_s_text : forall s, min_sec <= s <= max_sec ->
  exists t, to_datetime_s s = Some t /\ instant_text t (s * 1000).
Proof.
  intros s H. unfold to_datetime_s. unfold min_sec, max_sec in H. rewrite unix_norm by (unfold is_i64, two63; lia).
  destruct (format_ms_text s 0 H ltac:(lia)) as (t & E & T). exists t. split; auto.
  change (0 / 1000000) with 0 in T. now rewrite Z.add_0_r in T.
Qed.

Theorem datetime_ms_text : forall ms, min_sec * 1000 <= ms < (max_sec + 1) * 1000 ->
  exists t, to_datetime_ms ms = Some t /\ instant_text t ms.
Proof.
  intros ms H. unfold to_datetime_ms. unfold min_sec, max_sec in H. set (q := go_div ms 1000).
  assert (Q : (0 <= ms -> q * 1000 <= ms < q * 1000 + 1000) /\ (ms < 0 -> q * 1000 - 1000 < ms <= q * 1000)).
  { unfold q, go_div. zdm. lia. }
  destruct (Z.le_gt_cases 0 (ms - 1000 * q)) as [P|P].
  - rewrite unix_norm by (unfold is_i64, two63; lia).
    destruct (format_ms_text q ((ms - 1000 * q) * 1000000)) as (t & E & T); [unfold min_sec, max_sec; lia|lia|].
    exists t. split; auto. rewrite Z.div_mul in T by lia. replace (q * 1000 + (ms - 1000 * q)) with ms in T by lia. exact T.
  - rewrite unix_neg by lia.
    destruct (format_ms_text (q - 1) ((ms - 1000 * q) * 1000000 + 1000000000)) as (t & E & T); [unfold min_sec, max_sec; lia|lia|].
    exists t. split; auto.
    replace ((ms - 1000 * q) * 1000000 + 1000000000) with ((ms - 1000 * q + 1000) * 1000000) in T by lia.
    rewrite Z.div_mul in T by lia. replace ((q - 1) * 1000 + (ms - 1000 * q + 1000)) with ms in T by lia. exact T.
Qed.
