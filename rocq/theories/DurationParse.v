(** ParseDuration accepts exactly the texts of [dur_accepted], with the value of the parts. *)
From Coq Require Import String.
From Coq Require Import ZArith List Bool SpecFloat Reals Psatz.
From Coq Require Import ZifyBool ZifyNat ZifyN.
From Flocq Require Import Core BinarySingleNaN.
From Verif Require Import Base Float64 Float64Proofs Duration DurationSpec DurationProofs.
Import ListNotations.
Open Scope Z_scope.

Lemma digit_range : forall b, is_digit b = true <-> 48 <= b <= 57.
Proof. intro b. unfold is_digit. lia. Qed.

Lemma forallb_digits : forall s, forallb is_digit s = true <-> digits s.
Proof.
  intro s. unfold digits. rewrite forallb_forall, Forall_forall.
  split; intros H x Hx; apply digit_range; auto.
Qed.

(** First byte of the rest stops the scanner. *)
Definition stops (dot : bool) (r : bytes) : Prop :=
  match r with [] => True | b :: _ => is_digit b = false /\ (dot = false -> b <> 46) end.

Lemma scan_num_true : forall s n d r, scan_num true s = (n, d, r) ->
  s = n ++ r /\ digits n /\ d = true /\ stops true r.
Proof.
  induction s as [|b s IH]; intros n d r H; cbn [scan_num] in H.
  - inversion H; subst. repeat split; auto. constructor.
  - destruct (is_digit b) eqn:E.
    + destruct (scan_num true s) as [[n0 d0] r0] eqn:E0. inversion H; subst.
      destruct (IH _ _ _ eq_refl) as (-> & D & -> & S). repeat split; auto. constructor; auto. now apply digit_range.
    + cbn [negb] in H. rewrite andb_false_r in H. inversion H; subst. repeat split; auto; [constructor|discriminate].
Qed.

Lemma scan_num_false : forall s n d r, scan_num false s = (n, d, r) ->
  s = n ++ r /\ stops d r /\
  (d = false /\ digits n \/ d = true /\ exists i f, n = i ++ 46 :: f /\ digits i /\ digits f).
Proof.
  induction s as [|b s IH]; intros n d r H; cbn [scan_num] in H.
  - inversion H; subst. repeat split; auto. left. split; auto. constructor.
  - destruct (is_digit b) eqn:E.
    + destruct (scan_num false s) as [[n0 d0] r0] eqn:E0. inversion H; subst.
      destruct (IH _ _ _ eq_refl) as (-> & S & C). repeat split; auto.
      apply digit_range in E.
      destruct C as [[-> D]|[-> (i & f & -> & Di & Df)]].
      * left. split; auto. constructor; auto.
      * right. split; auto. exists (b :: i), f. repeat split; auto. constructor; auto.
    + destruct (Z.eqb_spec b 46) as [->|N]; cbn [negb andb] in H.
      * destruct (scan_num true s) as [[n0 d0] r0] eqn:E0. inversion H; subst.
        destruct (scan_num_true _ _ _ _ E0) as (-> & D & -> & S). repeat split; auto.
        right. split; auto. exists [], n0. repeat split; auto. constructor.
      * inversion H; subst. repeat split; auto. left. split; auto. constructor.
Qed.

Lemma scan_digits : forall sd n r, digits n -> stops sd r ->
  scan_num sd (n ++ r) = (n, sd, r).
Proof.
  intros sd n r D S. induction D as [|b n Hb D IH]; cbn [app scan_num].
  - destruct r as [|b r]; cbn [scan_num]; auto. destruct S as [S1 S2]. rewrite S1.
    destruct sd; cbn [negb]; rewrite ?andb_false_r; auto.
    destruct (Z.eqb_spec b 46); auto. exfalso. now apply S2.
  - apply digit_range in Hb. rewrite Hb, IH. reflexivity.
Qed.

Lemma scan_dotted : forall i f r, digits i -> digits f -> stops true r ->
  scan_num false (i ++ 46 :: f ++ r) = (i ++ 46 :: f, true, r).
Proof.
  intros i f r Di Df S. induction Di as [|b n Hb D IH]; cbn [app scan_num].
  - cbn. rewrite scan_digits by auto. reflexivity.
  - apply digit_range in Hb. rewrite Hb, IH. reflexivity.
Qed.

Lemma parse_uint_iff : forall s v, parse_uint s = Some v <-> uint_text s /\ v = dec_val s.
Proof.
  intros s v. unfold parse_uint, uint_text. change (2 ^ 64) with two64. rewrite dec_val_digits_val.
  destruct s as [|b s].
  - split; [discriminate|]. intros [[H _] _]. congruence.
  - destruct (forallb is_digit (b :: s)) eqn:E.
    + apply forallb_digits in E. destruct (Z.ltb_spec (dec_val (b :: s)) two64).
      * split.
        -- intro H0. inversion H0. repeat split; auto. discriminate.
        -- intros [_ ->]. reflexivity.
      * split; [discriminate|]. intros [(_ & _ & X) _]. lia.
    + split; [discriminate|]. intros [(_ & X & _) _]. apply forallb_digits in X. congruence.
Qed.

Lemma split_dot_digits : forall s, digits s -> split_dot s = (s, []).
Proof.
  induction 1 as [|b s Hb D IH]; cbn [split_dot]; auto.
  destruct (Z.eqb_spec b 46); [lia|]. now rewrite IH.
Qed.
Lemma split_dot_dotted : forall i f, digits i -> split_dot (i ++ 46 :: f) = (i, f).
Proof.
  induction 1 as [|b s Hb D IH]; cbn [split_dot app]; auto.
  destruct (Z.eqb_spec b 46); [lia|]. now rewrite IH.
Qed.


(** [parse_float] on a scanned number. *)
Lemma parse_float_ok : forall s i f, sec_num s i f ->
  parse_float s = Some (f64_of_ratio (dec_val (i ++ f)) (10 ^ Z.of_nat (length f))).
Proof.
  intros s i f (Hs & Di & Df & NE & B).
  assert (D : digits (i ++ f)) by (apply Forall_app; auto).
  assert (E : split_dot s = (i, f)).
  { destruct Hs as [[-> ->]| ->]; [now apply split_dot_digits|now apply split_dot_dotted]. }
  unfold parse_float. rewrite E. destruct (i ++ f) as [|b ds] eqn:EQ; [congruence|].
  apply forallb_digits in D. rewrite D, dec_val_digits_val. rewrite <- EQ in *.
  apply forallb_digits in D.
  destruct (ratio_inf (dec_val (i ++ f)) (10 ^ Z.of_nat (length f))) as [[H _]|[_ (_ & Fi & _)]].
  - apply dec_val_bound; auto.
  - apply Z.pow_pos_nonneg; lia.
  - exfalso. exact (Zlt_not_le _ _ B H).
  - destruct (f64_of_ratio _ _); auto; discriminate.
Qed.

Lemma parse_float_inv : forall s i f r, (s = i /\ f = [] \/ s = i ++ 46 :: f) -> digits i -> digits f ->
  parse_float s = Some r -> sec_num s i f /\ r = f64_of_ratio (dec_val (i ++ f)) (10 ^ Z.of_nat (length f)).
Proof.
  intros s i f r Hs Di Df H.
  assert (D : digits (i ++ f)) by (apply Forall_app; auto).
  assert (E : split_dot s = (i, f)).
  { destruct Hs as [[-> ->]| ->]; [now apply split_dot_digits|now apply split_dot_dotted]. }
  unfold parse_float in H. rewrite E in H. destruct (i ++ f) as [|b ds] eqn:EQ; [discriminate|].
  assert (D' := D). apply forallb_digits in D'. rewrite D', dec_val_digits_val in H. clear D'. rewrite <- EQ in *.
  destruct (ratio_inf (dec_val (i ++ f)) (10 ^ Z.of_nat (length f))) as [[_ X]|[B X]].
  - apply dec_val_bound; auto.
  - apply Z.pow_pos_nonneg; lia.
  - rewrite X in H. discriminate.
  - split.
    + repeat split; auto. rewrite EQ. discriminate.
    + destruct (f64_of_ratio _ _); congruence.
Qed.

(** ** Values *)

(** Nanoseconds of a seconds part v/10^k: the nearest double times 10^9, truncated. *)
Definition sec_ns (oor : f64 -> Z) (o : option (Z * Z)) : Z :=
  match o with
  | None => 0
  | Some (v, k) => f64_to_i64 oor (fmul (f64_of_ratio v (10 ^ k)) (f64_of_Z 1000000000))
  end.
Definition dur_value (oor : f64 -> Z) (d h m : Z) (o : option (Z * Z)) : Z :=
  wrap_i64 (d * 86400000000000 + h * 3600000000000 + m * 60000000000 + sec_ns oor o).

Lemma wrap_i64_eq_mod : forall a b, (a - b) mod two64 = 0 -> wrap_i64 a = wrap_i64 b.
Proof.
  intros a b H. unfold wrap_i64. f_equal. apply Z.mod_divide in H; [|unfold two64; lia].
  destruct H as [q H]. replace (a + two63) with (b + two63 + q * two64) by lia.
  apply Z.mod_add. unfold two64. lia.
Qed.
Lemma wrap_i64_mod : forall a, exists q, wrap_i64 a = a + q * two64.
Proof.
  intro a. unfold wrap_i64. exists (- ((a + two63) / two64)). rewrite Z.mod_eq by (unfold two64; lia). lia.
Qed.
Ltac wrap_solve :=
  apply wrap_i64_eq_mod;
  repeat match goal with |- context [wrap_i64 ?a] => let q := fresh "q" in let E := fresh "E" in
    destruct (wrap_i64_mod a) as [q E]; rewrite E; clear E end;
  match goal with |- ?e mod _ = 0 => ring_simplify e end.

Definition unit_ns (u : Z) : Z :=
  if u =? 68 then 86400000000000 else if u =? 72 then 3600000000000 else 60000000000.

Lemma unit_value_int : forall oor u n, u = 68 \/ u = 72 \/ u = 77 -> uint_text n ->
  unit_value oor u n = Ok (wrap_i64 (dec_val n * unit_ns u)).
Proof.
  intros oor u n Hu Hn.
  assert (E : parse_uint n = Some (dec_val n)) by (apply parse_uint_iff; auto).
  destruct Hu as [->|[->| ->]]; unfold unit_value, unit_ns; cbn [Z.eqb Pos.eqb]; rewrite E; f_equal;
    apply wrap_i64_eq_mod; unfold hour_ns, minute_ns.
  - destruct (wrap_i64_mod (wrap_i64 (dec_val n) * 24)) as [q ->].
    destruct (wrap_i64_mod (dec_val n)) as [p ->].
    replace (_ - _) with ((p * 24 * 3600000000000 + q * 3600000000000) * two64) by ring. apply Z.mod_mul. unfold two64; lia.
  - destruct (wrap_i64_mod (dec_val n)) as [p ->].
    replace (_ - _) with ((p * 3600000000000) * two64) by ring. apply Z.mod_mul. unfold two64; lia.
  - destruct (wrap_i64_mod (dec_val n)) as [p ->].
    replace (_ - _) with ((p * 60000000000) * two64) by ring. apply Z.mod_mul. unfold two64; lia.
Qed.

Lemma unit_value_sec : forall oor n i f, sec_num n i f ->
  unit_value oor 83 n = Ok (sec_ns oor (Some (dec_val (i ++ f), Z.of_nat (length f)))).
Proof.
  intros oor n i f H. unfold unit_value. cbn [Z.eqb Pos.eqb]. rewrite (parse_float_ok _ _ _ H). reflexivity.
Qed.

(** ** Running the loop forward *)

Lemma num_head : forall n c r, digits n -> n = c :: r -> (c =? 84) = false /\ (c =? 45) = false.
Proof. intros n c r D ->. inversion D; subst. lia. Qed.

Lemma loop_unit : forall oor fuel u n rest total afterT seen lastU,
  u = 68 \/ u = 72 \/ u = 77 -> uint_text n -> rank lastU < rank u -> (u = 68 \/ afterT = true) ->
  parse_loop oor (S fuel) (n ++ u :: rest) total afterT seen lastU =
  parse_loop oor fuel rest (wrap_i64 (total + wrap_i64 (dec_val n * unit_ns u))) afterT true u.
Proof.
  intros oor fuel u n rest total afterT seen lastU Hu Hn Hr HT.
  assert (Hn' := Hn). destruct Hn' as (NE & D & _).
  assert (SC : scan_num false (n ++ u :: rest) = (n, false, u :: rest)).
  { apply scan_digits; auto. cbn. unfold is_digit. lia. }
  destruct n as [|c n]; [congruence|].
  destruct (num_head (c :: n) c n D eq_refl) as [H1 H2].
  cbn [app parse_loop]. cbn [app] in SC. rewrite H1, H2, SC.
  replace (rank u =? 0) with false by (destruct Hu as [->|[->| ->]]; reflexivity).
  replace (rank u <=? rank lastU) with false by lia.
  replace (negb (u =? 68) && negb afterT) with false by (destruct HT as [->| ->]; [reflexivity|now rewrite andb_false_r]).
  cbn [andb]. rewrite unit_value_int by auto. reflexivity.
Qed.

Lemma loop_sec : forall oor fuel n i f rest total seen lastU,
  sec_num n i f -> rank lastU < 4 ->
  parse_loop oor (S fuel) (n ++ 83 :: rest) total true seen lastU =
  parse_loop oor fuel rest (wrap_i64 (total + sec_ns oor (Some (dec_val (i ++ f), Z.of_nat (length f))))) true true 83.
Proof.
  intros oor fuel n i f rest total seen lastU Hn Hr.
  assert (Hn' := Hn). destruct Hn' as (Hs & Di & Df & NE & _).
  assert (SC : exists sd, scan_num false (n ++ 83 :: rest) = (n, sd, 83 :: rest)).
  { destruct Hs as [[-> ->]| ->].
    - exists false. apply scan_digits; auto. cbn. unfold is_digit. lia.
    - exists true. rewrite <- app_assoc. cbn [app]. apply scan_dotted; auto. cbn. unfold is_digit. lia. }
  destruct SC as [sd SC].
  destruct n as [|c n].
  { exfalso. destruct Hs as [[<- ->]|X]; [now apply NE|destruct i; discriminate]. }
  assert (H12 : (c =? 84) = false /\ (c =? 45) = false).
  { destruct i as [|b i].
    - destruct Hs as [[X _]|X]; [discriminate|]. cbn in X. inversion X; subst. split; reflexivity.
    - destruct Hs as [[X _]|X]; inversion X; subst; apply (num_head (b :: i) b i Di eq_refl). }
  destruct H12 as [H1 H2].
  cbn [app parse_loop]. cbn [app] in SC. rewrite H1, H2, SC.
  change (rank 83 =? 0) with false. change (rank 83) with 4. replace (4 <=? rank lastU) with false by lia.
  change (83 =? 68) with false. change (83 =? 83) with true. cbn [negb andb]. rewrite andb_false_r.
  rewrite (unit_value_sec _ _ _ _ Hn). reflexivity.
Qed.

Lemma loop_nil : forall oor fuel total afterT seen lastU,
  parse_loop oor fuel [] total afterT seen lastU = if seen then Ok total else Err DurTooShort.
Proof. destruct fuel; reflexivity. Qed.

(** Optional part, any budget that is large enough. *)
Lemma loop_opt_unit : forall oor u t v rest total seen lastU fuel afterT,
  opt_unit u t v -> (u = 68 \/ u = 72 \/ u = 77) -> rank lastU < rank u -> (u = 68 \/ afterT = true) ->
  (length (t ++ rest) <= fuel)%nat -> is_i64 total = true ->
  let k := wrap_i64 (total + wrap_i64 (v * unit_ns u)) in
  exists fuel' lastU', (length rest <= fuel')%nat /\
    parse_loop oor fuel (t ++ rest) total afterT seen lastU =
    parse_loop oor fuel' rest k afterT (seen || match t with [] => false | _ => true end) lastU' /\
    (lastU' = lastU \/ lastU' = u) /\ is_i64 k = true.
Proof.
  intros oor u t v rest total seen lastU fuel afterT Ho Hu Hr HT Hf Hi k. subst k.
  destruct Ho as [|n Hn].
  - exists fuel, lastU. cbn [app length] in *. rewrite orb_false_r. split; [exact Hf|].
    replace (wrap_i64 (total + wrap_i64 (0 * unit_ns u))) with total.
    + auto.
    + rewrite Z.mul_0_l. change (wrap_i64 0) with 0. rewrite Z.add_0_r. now rewrite wrap_i64_id.
  - rewrite <- app_assoc in *. cbn [app] in *. rewrite app_length in Hf. cbn [length] in Hf.
    destruct fuel as [|fuel]; [lia|].
    exists fuel, u. rewrite loop_unit by auto.
    replace (match n ++ [u] with [] => false | _ => true end) with true by (destruct n; reflexivity).
    rewrite orb_true_r. repeat split; auto; [lia|apply wrap_i64_range].
Qed.

Lemma time_parts : forall oor th h tm m ts o total seen lastU fuel,
  opt_unit 72 th h -> opt_unit 77 tm m -> opt_sec ts o -> rank lastU <= 1 ->
  (length (th ++ tm ++ ts) <= fuel)%nat -> is_i64 total = true -> (seen = true \/ th ++ tm ++ ts <> []) ->
  parse_loop oor fuel (th ++ tm ++ ts) total true seen lastU =
  Ok (wrap_i64 (total + h * 3600000000000 + m * 60000000000 + sec_ns oor o)).
Proof.
  intros oor th h tm m ts o total seen lastU fuel Hh Hm Hs Hr Hf Hi Hseen.
  destruct (loop_opt_unit oor 72 th h (tm ++ ts) total seen lastU fuel true Hh) as (f1 & l1 & L1 & E1 & C1 & I1);
    auto; try (change (rank 72) with 2; lia).
  rewrite E1. clear E1.
  destruct (loop_opt_unit oor 77 tm m ts (wrap_i64 (total + wrap_i64 (h * unit_ns 72))) (seen || match th with [] => false | _ => true end) l1 f1 true Hm) as (f2 & l2 & L2 & E2 & C2 & I2); eauto.
  { change (rank 77) with 3. destruct C1 as [->| ->]; [lia|reflexivity]. }
  rewrite E2. clear E2.
  assert (R : rank l2 < 4).
  { destruct C2 as [->| ->]; [destruct C1 as [->| ->]; [lia|reflexivity]|reflexivity]. }
  change (unit_ns 72) with 3600000000000 in *. change (unit_ns 77) with 60000000000 in *.
  assert (G : forall c, wrap_i64 (wrap_i64 (wrap_i64 (total + wrap_i64 (h * 3600000000000)) + wrap_i64 (m * 60000000000)) + c) =
    wrap_i64 (total + h * 3600000000000 + m * 60000000000 + c)).
  { intro c. apply wrap_i64_eq_mod.
    destruct (wrap_i64_mod (wrap_i64 (total + wrap_i64 (h * 3600000000000)) + wrap_i64 (m * 60000000000))) as [q1 ->].
    destruct (wrap_i64_mod (total + wrap_i64 (h * 3600000000000))) as [q2 ->].
    destruct (wrap_i64_mod (h * 3600000000000)) as [q3 ->]. destruct (wrap_i64_mod (m * 60000000000)) as [q4 ->].
    replace (_ - _) with ((q1 + q2 + q3 + q4) * two64) by ring. apply Z.mod_mul. unfold two64; lia. }
  destruct Hs as [|ts i f Hn].
  - rewrite loop_nil. rewrite !app_nil_r in Hseen.
    replace (seen || _ || _) with true.
    + f_equal. cbn [sec_ns]. rewrite <- G. rewrite Z.add_0_r. now rewrite (wrap_i64_id _ I2).
    + destruct Hseen as [->|H]; [reflexivity|]. destruct th, tm; rewrite ?orb_true_r; auto. now elim H.
  - rewrite app_length in L2. cbn [length] in L2. destruct f2 as [|f2]; [lia|].
    rewrite (loop_sec _ _ _ _ _ _ _ _ _ Hn R). rewrite loop_nil. f_equal. apply G.
Qed.

Lemma opt_unit_nonempty : forall u t v, opt_unit u t v -> t = [] \/ (2 <= length t)%nat.
Proof.
  intros u t v [|n (H & _)]; auto. right. destruct n; [congruence|]. rewrite app_length. cbn. lia.
Qed.
Lemma opt_sec_nonempty : forall t o, opt_sec t o -> t = [] \/ (2 <= length t)%nat.
Proof.
  intros t o [|s i f (H & _ & _ & NE & _)]; auto. right. destruct s.
  - exfalso. destruct H as [[<- ->]|H]; [now apply NE|destruct i; discriminate].
  - rewrite app_length. cbn. lia.
Qed.

Theorem parse_complete : forall oor s d h m o, dur_accepted s d h m o ->
  parse_duration oor s = Ok (dur_value oor d h m o).
Proof.
  intros oor s d h m o H. unfold parse_duration, dur_value.
  destruct H as [n Hn|td d th h tm m ts o Hd Hh Hm Hs NE|n th h tm m ts o Hn Hh Hm Hs].
  - assert (Hn' := Hn). destruct Hn' as (NE & _).
    replace (Z.of_nat (length (80 :: n ++ [68])) <? 3) with false by (cbn [length]; rewrite app_length; destruct n; [congruence|]; cbn [length]; lia).
    cbn [Z.eqb Pos.eqb negb]. rewrite app_length. cbn [length]. replace (length n + 1)%nat with (S (length n)) by lia.
    rewrite loop_unit by (auto; reflexivity). rewrite loop_nil. f_equal. change (unit_ns 68) with 86400000000000.
    rewrite Z.add_0_l. cbn [sec_ns]. rewrite wrap_i64_id by apply wrap_i64_range. f_equal. lia.
  - assert (L : (2 <= length (td ++ th ++ tm ++ ts))%nat).
    { rewrite !app_length. pose proof (opt_unit_nonempty _ _ _ Hd). pose proof (opt_unit_nonempty _ _ _ Hh).
      pose proof (opt_unit_nonempty _ _ _ Hm). pose proof (opt_sec_nonempty _ _ Hs).
      destruct H as [->|]; [|lia]. destruct H0 as [->|]; [|lia]. destruct H1 as [->|]; [|lia]. destruct H2 as [->|]; [|lia]. now elim NE. }
    rewrite app_length in L.
    replace (Z.of_nat (length (80 :: td ++ 84 :: th ++ tm ++ ts)) <? 3) with false by (cbn [length]; rewrite app_length; cbn [length]; lia).
    cbn [Z.eqb Pos.eqb negb].
    destruct (loop_opt_unit oor 68 td d (84 :: th ++ tm ++ ts) 0 false 0 (length (td ++ 84 :: th ++ tm ++ ts)) false Hd) as (f1 & l1 & L1 & E1 & C1 & I1); auto; try reflexivity.
    rewrite E1. clear E1. cbn [length] in L1. destruct f1 as [|f1]; [lia|]. cbn [parse_loop Z.eqb Pos.eqb orb].
    rewrite (time_parts oor th h tm m ts o) with (seen := match td with [] => false | _ :: _ => true end); auto; try lia.
    + f_equal. change (unit_ns 68) with 86400000000000. apply wrap_i64_eq_mod.
      destruct (wrap_i64_mod (0 + wrap_i64 (d * 86400000000000))) as [q1 ->]. destruct (wrap_i64_mod (d * 86400000000000)) as [q2 ->].
      replace (_ - _) with ((q1 + q2) * two64) by ring. apply Z.mod_mul. unfold two64; lia.
    + destruct C1 as [->| ->]; cbn; lia.
    + destruct td; auto.
  - assert (Hn' := Hn). destruct Hn' as (NE & _).
    assert (L : (1 <= length n)%nat) by (destruct n; [congruence|cbn; lia]).
    replace (Z.of_nat (length (80 :: 84 :: n ++ 68 :: th ++ tm ++ ts)) <? 3) with false by (cbn [length]; rewrite app_length; cbn [length]; lia).
    cbn [Z.eqb Pos.eqb negb length parse_loop].
    rewrite app_length. cbn [length]. replace (length n + S (length (th ++ tm ++ ts)))%nat with (S (length n + length (th ++ tm ++ ts))) by lia.
    rewrite loop_unit by (auto; reflexivity).
    rewrite (time_parts oor th h tm m ts o); auto; try lia; try (cbn; lia); try apply wrap_i64_range.
    f_equal. change (unit_ns 68) with 86400000000000. apply wrap_i64_eq_mod.
    destruct (wrap_i64_mod (0 + wrap_i64 (dec_val n * 86400000000000))) as [q1 ->]. destruct (wrap_i64_mod (dec_val n * 86400000000000)) as [q2 ->].
    replace (_ - _) with ((q1 + q2) * two64) by ring. apply Z.mod_mul. unfold two64; lia.
Qed.

(** ** Every accepted text has the shape *)

(** One round of the loop that succeeds with a number and a designator. *)
Lemma loop_step_inv : forall oor fuel c r total afterT seen lastU v,
  parse_loop oor (S fuel) (c :: r) total afterT seen lastU = Ok v -> c <> 84 ->
  exists n u rest x, c :: r = n ++ u :: rest /\ rank lastU < rank u /\ (u = 68 \/ afterT = true) /\
    ((u = 68 \/ u = 72 \/ u = 77) /\ uint_text n \/ u = 83 /\ exists i f, sec_num n i f) /\
    parse_loop oor fuel rest x afterT true u = Ok v.
Proof.
  intros oor fuel c r total afterT seen lastU v H Hc. cbn [parse_loop] in H.
  destruct (Z.eqb_spec c 84) as [|_]; [congruence|]. destruct (c =? 45); [discriminate|].
  destruct (scan_num false (c :: r)) as [[n sd] rest] eqn:SC.
  destruct n as [|b n]; [discriminate|]. destruct rest as [|u rest]; [discriminate|].
  destruct (Z.eqb_spec (rank u) 0); [discriminate|].
  destruct (Z.leb_spec (rank u) (rank lastU)); [discriminate|].
  destruct (negb (u =? 68) && negb afterT) eqn:HT; [discriminate|].
  destruct (sd && negb (u =? 83)) eqn:HS; [discriminate|].
  destruct (unit_value oor u (b :: n)) as [x| | |] eqn:UV; try discriminate. cbn [bind] in H.
  apply scan_num_false in SC. destruct SC as (ES & _ & C).
  exists (b :: n), u, rest, (wrap_i64 (total + x)). split; [exact ES|]. split; [lia|].
  split; [destruct (Z.eqb_spec u 68); auto; destruct afterT; auto; discriminate|]. split; [|exact H].
  unfold rank in *. unfold unit_value in UV.
  destruct (Z.eqb_spec u 68) as [->|].
  { left. split; auto. destruct (parse_uint (b :: n)) eqn:P; [|discriminate]. now apply parse_uint_iff in P. }
  destruct (Z.eqb_spec u 72) as [->|].
  { left. split; auto. destruct (parse_uint (b :: n)) eqn:P; [|discriminate]. now apply parse_uint_iff in P. }
  destruct (Z.eqb_spec u 77) as [->|].
  { left. split; auto. destruct (parse_uint (b :: n)) eqn:P; [|discriminate]. now apply parse_uint_iff in P. }
  destruct (Z.eqb_spec u 83) as [->|]; [|lia].
  right. split; auto. destruct (parse_float (b :: n)) as [x0|] eqn:P; [|discriminate].
  destruct C as [[-> D]|[-> (i & f & E & Di & Df)]].
  - exists (b :: n), []. eapply parse_float_inv; eauto. constructor.
  - exists i, f. rewrite E in P |- *. eapply parse_float_inv; eauto.
Qed.

Definition opt_from (k r u : Z) (t : bytes) : Prop := exists v, opt_unit u t v /\ (r <= k -> t = []).
Definition langT (k : Z) (s : bytes) : Prop :=
  exists td th tm ts o, s = td ++ th ++ tm ++ ts /\
    opt_from k 1 68 td /\ opt_from k 2 72 th /\ opt_from k 3 77 tm /\ opt_sec ts o /\ (4 <= k -> ts = []).

Lemma opt_from_none : forall k r u, opt_from k r u [].
Proof. intros. exists 0. split; [constructor|auto]. Qed.
Lemma opt_from_some : forall k r u n, uint_text n -> k < r -> opt_from k r u (n ++ [u]).
Proof. intros. exists (dec_val n). split; [now constructor|lia]. Qed.
Lemma opt_from_empty : forall k r u t, opt_from k r u t -> r <= k -> t = [].
Proof. intros k r u t (v & _ & H) ?. auto. Qed.

Lemma langT_sound : forall oor fuel s total seen lastU v,
  parse_loop oor fuel s total true seen lastU = Ok v ->
  langT (rank lastU) s /\ (seen = false -> s <> []).
Proof.
  induction fuel as [|fuel IH]; intros s total seen lastU v H.
  - destruct s; [|discriminate]. cbn in H. destruct seen; [|discriminate].
    split; [|discriminate]. exists [], [], [], [], None. repeat split; auto using opt_from_none. constructor.
  - destruct s as [|c r].
    { cbn in H. destruct seen; [|discriminate].
      split; [|discriminate]. exists [], [], [], [], None. repeat split; auto using opt_from_none. constructor. }
    split; [|discriminate].
    destruct (Z.eq_dec c 84) as [->|Hc]; [cbn in H; discriminate|].
    destruct (loop_step_inv _ _ _ _ _ _ _ _ _ H Hc) as (n & u & rest & x & -> & Hr & _ & HU & HL).
    destruct (IH _ _ _ _ _ HL) as [(td & th & tm & ts & o & -> & Fd & Fh & Fm & Fs & F4) _].
    destruct HU as [[[->|[->| ->]] Hn]|[-> (i & f & Hn)]];
      change (rank 68) with 1 in *; change (rank 72) with 2 in *; change (rank 77) with 3 in *; change (rank 83) with 4 in *.
    + rewrite (opt_from_empty _ _ _ _ Fd ltac:(lia)).
      exists (n ++ [68]), th, tm, ts, o. split; [now rewrite <- app_assoc|].
      split; [now apply opt_from_some|]. destruct Fh as (? & ? & ?), Fm as (? & ? & ?).
      repeat split; try (eexists; split; eauto; lia); auto; lia.
    + rewrite (opt_from_empty _ _ _ _ Fd ltac:(lia)), (opt_from_empty _ _ _ _ Fh ltac:(lia)).
      exists [], (n ++ [72]), tm, ts, o. split; [cbn; now rewrite <- app_assoc|].
      split; [apply opt_from_none|]. split; [now apply opt_from_some|]. destruct Fm as (? & ? & ?).
      repeat split; try (eexists; split; eauto; lia); auto; lia.
    + rewrite (opt_from_empty _ _ _ _ Fd ltac:(lia)), (opt_from_empty _ _ _ _ Fh ltac:(lia)), (opt_from_empty _ _ _ _ Fm ltac:(lia)).
      exists [], [], (n ++ [77]), ts, o. split; [cbn; now rewrite <- app_assoc|].
      split; [apply opt_from_none|]. split; [apply opt_from_none|]. split; [now apply opt_from_some|].
      repeat split; auto; lia.
    + rewrite (opt_from_empty _ _ _ _ Fd ltac:(lia)), (opt_from_empty _ _ _ _ Fh ltac:(lia)), (opt_from_empty _ _ _ _ Fm ltac:(lia)).
      rewrite (F4 ltac:(lia)).
      exists [], [], [], (n ++ [83]), (Some (dec_val (i ++ f), Z.of_nat (length f))). split; [reflexivity|].
      split; [apply opt_from_none|]. split; [apply opt_from_none|]. split; [apply opt_from_none|].
      split; [now constructor|lia].
Qed.

(** Before T, with [k] the rank of the last designator. *)
Definition langF (k : Z) (s : bytes) : Prop :=
  exists td, opt_from k 1 68 td /\ (s = td \/ exists rest k', s = td ++ 84 :: rest /\ langT k' rest /\ k <= k' /\ (td <> [] -> 1 <= k')).

Lemma langF_sound : forall oor fuel s total seen lastU v,
  parse_loop oor fuel s total false seen lastU = Ok v -> 0 <= rank lastU <= 1 ->
  langF (rank lastU) s /\ (seen = false -> s <> [] /\ s <> [84]).
Proof.
  induction fuel as [|fuel IH]; intros s total seen lastU v H Hk.
  - destruct s; [|discriminate]. cbn in H. destruct seen; [|discriminate].
    split; [|discriminate]. exists []. split; [apply opt_from_none|auto].
  - destruct s as [|c r].
    { cbn in H. destruct seen; [|discriminate].
      split; [|discriminate]. exists []. split; [apply opt_from_none|auto]. }
    destruct (Z.eq_dec c 84) as [->|Hc].
    + cbn [parse_loop Z.eqb Pos.eqb] in H. apply langT_sound in H. destruct H as [H HN]. split.
      * exists []. split; [apply opt_from_none|]. right. exists r, (rank lastU). split; [reflexivity|]. split; [exact H|]. split; [lia|congruence].
      * intros Hs. split; [discriminate|]. specialize (HN Hs). congruence.
    + destruct (loop_step_inv _ _ _ _ _ _ _ _ _ H Hc) as (n & u & rest & x & -> & Hr & HT & HU & HL).
      destruct HT as [->|]; [|discriminate].
      change (rank 68) with 1 in *.
      destruct HU as [[_ Hn]|[X _]]; [|discriminate].
      split.
      * destruct (IH _ _ _ _ _ HL ltac:(cbn; lia)) as [(td & Fd & C) _].
        change (rank 68) with 1 in *. rewrite (opt_from_empty _ _ _ _ Fd ltac:(lia)) in C.
        exists (n ++ [68]). split; [now apply opt_from_some|].
        destruct C as [->|(rest' & k' & -> & LT & Hk' & _)]; [left; reflexivity|].
        right. exists rest', k'. split; [now rewrite <- app_assoc|]. split; [exact LT|]. split; [lia|intros _; lia].
      * intros _. destruct Hn as (NE & _ & _). destruct n; [congruence|]. split; [discriminate|]. intro X. destruct n; discriminate.
Qed.

Theorem parse_sound : forall oor s v, parse_duration oor s = Ok v ->
  exists d h m o, dur_accepted s d h m o.
Proof.
  intros oor s v H. unfold parse_duration in H.
  destruct (Z.of_nat (length s) <? 3); [discriminate|]. destruct s as [|c r]; [discriminate|].
  destruct (c =? 45); [discriminate|]. destruct (Z.eqb_spec c 80) as [->|]; cbn [negb] in H; [|discriminate].
  destruct (langF_sound _ _ _ _ _ _ _ H ltac:(cbn; lia)) as [(td & (d & Od & _) & C) NE].
  destruct (NE eq_refl) as [N1 N2].
  destruct C as [->|(rest & k' & -> & (td' & th & tm & ts & o & -> & (d' & Od' & Z1) & (h & Oh & _) & (m & Om & _) & Os & _) & _ & Hk')].
  - destruct Od as [|n Hn]; [congruence|]. exists (dec_val n), 0, 0, None. now constructor.
  - destruct Od' as [|n Hn].
    + cbn [app] in *. exists d, h, m, o. constructor; auto. intro X.
      apply app_eq_nil in X. destruct X as [-> X]. rewrite X in N2. now apply N2.
    + destruct td as [|? td].
      * exists (dec_val n), h, m, o. cbn [app]. rewrite <- app_assoc. cbn [app]. now constructor.
      * exfalso. specialize (Z1 ltac:(apply Hk'; discriminate)). destruct n; discriminate.
Qed.

(** The budget never runs out and nothing panics. *)
Lemma loop_no_fuel : forall oor fuel s total afterT seen lastU, (length s <= fuel)%nat ->
  match parse_loop oor fuel s total afterT seen lastU with Ok _ | Err _ => True | _ => False end.
Proof.
  induction fuel as [|fuel IH]; intros s total afterT seen lastU Hl.
  - destruct s; [|cbn in Hl; lia]. cbn. destruct seen; exact I.
  - destruct s as [|c r]; [cbn; destruct seen; exact I|]. cbn [parse_loop]. cbn in Hl.
    destruct (c =? 84). { destruct afterT; [exact I|apply IH; lia]. }
    destruct (c =? 45); [exact I|].
    destruct (scan_num false (c :: r)) as [[n sd] rest] eqn:SC.
    destruct n as [|b n]; [exact I|]. destruct rest as [|u rest]; [exact I|].
    destruct (rank u =? 0); [exact I|]. destruct (rank u <=? rank lastU); [exact I|].
    destruct (negb (u =? 68) && negb afterT); [exact I|]. destruct (sd && negb (u =? 83)); [exact I|].
    apply scan_num_false in SC. destruct SC as (ES & _). apply (f_equal (@length Z)) in ES.
    cbn [app length] in ES. rewrite app_length in ES. cbn [length] in ES.
    unfold unit_value.
    destruct (u =? 68). { destruct (parse_uint (b :: n)); [|exact I]. apply IH. lia. }
    destruct (u =? 72). { destruct (parse_uint (b :: n)); [|exact I]. apply IH. lia. }
    destruct (u =? 77). { destruct (parse_uint (b :: n)); [|exact I]. apply IH. lia. }
    destruct (parse_float (b :: n)); [|exact I]. apply IH. lia.
Qed.

Theorem parse_total : forall oor s,
  (exists v, parse_duration oor s = Ok v) \/ (exists e, parse_duration oor s = Err e).
Proof.
  intros oor s. unfold parse_duration. destruct (Z.of_nat (length s) <? 3); eauto.
  destruct s as [|c r]; eauto. destruct (c =? 45); eauto. destruct (c =? 80); cbn [negb]; eauto.
  pose proof (loop_no_fuel oor (length r) r 0 false false 0 (le_n _)) as H.
  destruct (parse_loop oor (length r) r 0 false false 0); try contradiction; eauto.
Qed.

Theorem parse_iff : forall oor s v, parse_duration oor s = Ok v <->
  exists d h m o, dur_accepted s d h m o /\ v = dur_value oor d h m o.
Proof.
  intros oor s v. split.
  - intro H. destruct (parse_sound _ _ _ H) as (d & h & m & o & A). exists d, h, m, o. split; auto.
    apply (parse_complete oor) in A. congruence.
  - intros (d & h & m & o & A & ->). now apply parse_complete.
Qed.
