From Coq Require Import String.
From Coq Require Import ZArith List Bool SpecFloat Reals Psatz.
From Coq Require Import ZifyBool ZifyNat ZifyN.
From Flocq Require Import Core BinarySingleNaN.
From Verif Require Import Base Float64 Float64Proofs Duration DurationSpec.
Import ListNotations.
Open Scope Z_scope.

(** ** Decimal printing *)

Lemma dec_val_app : forall a b, dec_val (a ++ b) = dec_val a * 10 ^ Z.of_nat (length b) + dec_val b.
Proof.
  induction a as [|x a IH]; intros b; cbn [dec_val app].
  - lia.
  - rewrite IH, app_length, Nat2Z.inj_add, Z.pow_add_r by lia. ring.
Qed.

Lemma dec_val_bound : forall s, digits s -> 0 <= dec_val s < 10 ^ Z.of_nat (length s).
Proof.
  unfold digits. induction 1 as [|b r Hb Hr IH]; cbn [dec_val length].
  - cbn. lia.
  - rewrite Nat2Z.inj_succ, Z.pow_succ_r by lia. nia.
Qed.

Lemma dec_val_digits_val : forall s, digits_val s = dec_val s.
Proof.
  intro s. unfold digits_val.
  assert (G : forall l acc, fold_left (fun acc b => acc * 10 + (b - 48)) l acc = acc * 10 ^ Z.of_nat (length l) + dec_val l).
  { induction l as [|b l IH]; intro acc; cbn [fold_left dec_val length].
    - cbn. lia.
    - rewrite IH, Nat2Z.inj_succ, Z.pow_succ_r by lia. ring. }
  rewrite G. lia.
Qed.

Lemma put_ok : forall b t, (length t < 32)%nat -> put b t = Ok (b :: t).
Proof. intros. unfold put, buf_cap. destruct (Z.ltb_spec (Z.of_nat (length t)) 32); auto. lia. Qed.

Lemma fmtInt_loop_ok : forall fuel k v t,
  0 <= v < 2 ^ Z.of_nat fuel -> v < 10 ^ Z.of_nat k -> (length t + k <= 32)%nat ->
  exists ds, fmtInt_loop fuel v t = Ok (ds ++ t) /\ digits ds /\ dec_val ds = v /\ (length ds <= k)%nat /\
    (v = 0 -> ds = []) /\ (0 < v -> exists b r, ds = b :: r /\ b <> 48).
Proof.
  induction fuel as [|fuel IH]; intros k v t Hv Hk Hl.
  - cbn in Hv. assert (v = 0) by lia. subst v. exists []. cbn. repeat split; try lia. constructor.
  - cbn [fmtInt_loop]. destruct (Z.leb_spec v 0) as [H|H].
    + assert (v = 0) by lia. subst v. exists []. cbn. repeat split; try lia. constructor.
    + destruct k as [|k].
      { cbn in Hk. lia. }
      rewrite put_ok by lia. cbn [bind].
      rewrite Nat2Z.inj_succ, Z.pow_succ_r in Hv by lia.
      rewrite Nat2Z.inj_succ, Z.pow_succ_r in Hk by lia.
      pose proof (Z.mod_pos_bound v 10 ltac:(lia)) as Hm.
      pose proof (Z.div_mod v 10 ltac:(lia)) as Hdm.
      assert (Hq : 0 <= v / 10) by (apply Z.div_pos; lia).
      destruct (IH k (v / 10) (v mod 10 + 48 :: t)) as (ds & E & D & V & L & Z0 & P).
      * lia.
      * lia.
      * cbn. lia.
      * exists (ds ++ [v mod 10 + 48]). rewrite E. repeat split.
        -- now rewrite <- app_assoc.
        -- apply Forall_app. split; auto. constructor; [lia|constructor].
        -- rewrite dec_val_app. cbn [dec_val length]. rewrite V. cbn. lia.
        -- rewrite app_length. cbn. lia.
        -- lia.
        -- intros _. destruct (Z.eq_dec (v / 10) 0) as [Hz|Hz].
           ++ rewrite (Z0 Hz). cbn. exists (v mod 10 + 48), []. split; auto. lia.
           ++ destruct P as (b & r & -> & Hb); [lia|]. exists b, (r ++ [v mod 10 + 48]). auto.
Qed.

Lemma fmtInt_ok : forall k v t,
  0 <= v < 10 ^ Z.of_nat k -> (0 < k)%nat -> (length t + k <= 32)%nat ->
  exists ds, fmtInt t v = Ok (ds ++ t) /\ natural_text ds /\ dec_val ds = v /\ (length ds <= k)%nat /\ ds <> [].
Proof.
  intros k v t Hv Hk Hl. unfold fmtInt. destruct (Z.eqb_spec v 0) as [E|E].
  - exists [48]. rewrite put_ok by lia. subst v. cbn. repeat split; try lia; auto.
    constructor; [lia|constructor]. discriminate.
  - destruct (fmtInt_loop_ok (S (Z.to_nat (Z.log2_up v))) k v t) as (ds & A & B & C & D & _ & F); auto.
    + split; [lia|]. rewrite Nat2Z.inj_succ, Z2Nat.id by apply Z.log2_up_nonneg.
      rewrite Z.pow_succ_r by apply Z.log2_up_nonneg.
      destruct (Z.eq_dec v 1) as [->|]; [cbn; lia|].
      pose proof (Z.log2_up_spec v ltac:(lia)). lia.
    + lia.
    + destruct F as (b & r & -> & Hb); [lia|]. exists (b :: r). repeat split; auto; try discriminate.
      right. eauto.
Qed.

(** [fmtFrac] prints the fraction without trailing zeros. *)
Lemma fmtFrac_loop_ok : forall prec v t print, 0 <= v -> (length t + prec <= 32)%nat ->
  exists ds, fmtFrac_loop prec v print t =
      Ok (v / 10 ^ Z.of_nat prec, print || negb (v mod 10 ^ Z.of_nat prec =? 0), ds ++ t) /\
    digits ds /\ (length ds <= prec)%nat /\
    dec_val ds * 10 ^ (Z.of_nat prec - Z.of_nat (length ds)) = v mod 10 ^ Z.of_nat prec /\
    (print = true -> length ds = prec) /\
    (print = false -> ds = [] \/ last ds 48 <> 48) /\
    (print = false -> v mod 10 ^ Z.of_nat prec <> 0 -> ds <> []) /\
    (print = false -> v mod 10 ^ Z.of_nat prec = 0 -> ds = []).
Proof.
  induction prec as [|prec IH]; intros v t print Hv Hl.
  - exists []. cbn. rewrite Z.div_1_r, Z.mod_1_r, orb_false_r.
    repeat split; auto; try lia. constructor.
  - assert (HP : 0 < 10 ^ Z.of_nat prec) by (apply Z.pow_pos_nonneg; lia).
    pose proof (Z.mod_pos_bound v 10 ltac:(lia)) as Hm.
    pose proof (Z.div_mod v 10 ltac:(lia)) as Hdm.
    assert (Hq : 0 <= v / 10) by (apply Z.div_pos; lia).
    assert (E1 : v / 10 ^ Z.of_nat (S prec) = v / 10 / 10 ^ Z.of_nat prec).
    { rewrite Nat2Z.inj_succ, Z.pow_succ_r by lia. rewrite Z.div_div by lia. reflexivity. }
    assert (E2 : v mod 10 ^ Z.of_nat (S prec) = (v / 10) mod 10 ^ Z.of_nat prec * 10 + v mod 10).
    { rewrite Nat2Z.inj_succ, Z.pow_succ_r by lia. rewrite Z.rem_mul_r by lia. lia. }
    pose proof (Z.mod_pos_bound (v / 10) (10 ^ Z.of_nat prec) HP) as Hm2.
    cbn [fmtFrac_loop].
    destruct (print || negb (v mod 10 =? 0)) eqn:EP.
    + rewrite put_ok by lia. cbn [bind].
      destruct (IH (v / 10) (v mod 10 + 48 :: t) true Hq) as (ds & A & B & C & D & F & _); [cbn; lia|].
      specialize (F eq_refl). exists (ds ++ [v mod 10 + 48]).
      rewrite A, E1, E2. repeat split.
      * f_equal. f_equal; [f_equal|].
        -- cbn [orb]. destruct print; auto. cbn in EP |- *. symmetry. apply negb_true_iff, Z.eqb_neq.
           apply negb_true_iff, Z.eqb_neq in EP. lia.
        -- now rewrite <- app_assoc.
      * apply Forall_app. split; auto. constructor; [lia|constructor].
      * rewrite app_length. cbn. lia.
      * rewrite app_length, dec_val_app. cbn [length dec_val].
        rewrite F in D. rewrite F. rewrite Z.sub_diag in D.
        replace (Z.of_nat (S prec) - Z.of_nat (prec + 1)) with 0 by lia. cbn in D |- *. lia.
      * intros _. rewrite app_length. cbn. lia.
      * intros ->. right. rewrite last_last. cbn in EP. apply negb_true_iff, Z.eqb_neq in EP. lia.
      * intros _ _ H. now apply app_eq_nil in H.
      * intros -> H0. exfalso. cbn in EP. apply negb_true_iff, Z.eqb_neq in EP. lia.
    + apply orb_false_iff in EP. destruct EP as [-> EP]. apply negb_false_iff, Z.eqb_eq in EP.
      cbn [bind].
      destruct (IH (v / 10) t false Hq ltac:(lia)) as (ds & A & B & C & D & F & G & H1 & H2).
      exists ds. rewrite A, E1, E2, EP. repeat split; auto.
      * f_equal. f_equal. f_equal. cbn [orb]. f_equal. destruct (Z.eqb_spec ((v / 10) mod 10 ^ Z.of_nat prec) 0); destruct (Z.eqb_spec ((v / 10) mod 10 ^ Z.of_nat prec * 10 + 0) 0); auto; lia.
      * replace (Z.of_nat (S prec) - Z.of_nat (length ds)) with (1 + (Z.of_nat prec - Z.of_nat (length ds))) by lia.
        rewrite Z.pow_add_r by lia. change (10 ^ 1) with 10. lia.
      * discriminate.
      * intros _ Hn. apply H1; auto. lia.
      * intros _ Hn. apply H2; auto. lia.
Qed.

Definition frac_text (f : list Z) : list Z := match f with [] => [] | _ => 46 :: f end.

Lemma fmtFrac_ok : forall prec v t, 0 <= v -> (length t + prec < 32)%nat ->
  exists f, fmtFrac t v prec = Ok (v / 10 ^ Z.of_nat prec, frac_text f ++ t) /\
    digits f /\ (length f <= prec)%nat /\
    dec_val f * 10 ^ (Z.of_nat prec - Z.of_nat (length f)) = v mod 10 ^ Z.of_nat prec /\
    (f = [] \/ last f 48 <> 48) /\ (v mod 10 ^ Z.of_nat prec = 0 <-> f = []).
Proof.
  intros prec v t Hv Hl. unfold fmtFrac.
  destruct (fmtFrac_loop_ok prec v t false Hv ltac:(lia)) as (ds & A & B & C & D & _ & G & H1 & H2).
  rewrite A. cbn [bind orb]. exists ds.
  destruct (Z.eqb_spec (v mod 10 ^ Z.of_nat prec) 0) as [E|E]; cbn [negb bind].
  - rewrite (H2 eq_refl E) in *. cbn [frac_text app]. repeat split; auto.
  - specialize (H1 eq_refl E). rewrite put_ok by (rewrite app_length; lia).
    cbn [bind]. destruct ds as [|b ds]; [congruence|]. cbn [frac_text app].
    repeat split; auto; congruence.
Qed.

(** ** Millisecond rounding through float64 *)


Lemma format_scaled : forall n e, (Z.abs n < 2 ^ 53)%Z -> (-1000 <= e)%Z -> format64 (F2R (Float radix2 n e)).
Proof.
  intros n e H He.
  apply generic_format_F2R. intro Hn. unfold cexp, SpecFloat.fexp, SpecFloat.emin.
  rewrite mag_F2R by exact Hn.
  assert (M : (mag radix2 (IZR n) <= 53)%Z).
  { apply mag_le_bpow. now apply IZR_neq.
    rewrite <- abs_IZR. change (bpow radix2 53) with (IZR (2 ^ 53)). now apply IZR_lt. }
  lia.
Qed.

Definition c6 : R := (IZR 4722366482869645 / IZR (2 ^ 72))%R.
Lemma rep_c6 : rep (f64_of_ratio 1 1000000) c6.
Proof.
  assert (E : f64_of_ratio 1 1000000 = S754_finite false 4722366482869645 (-72)) by reflexivity.
  rewrite E. split; [reflexivity|]. split; [reflexivity|]. unfold c6. simpl SF2R. now rewrite F2R_neg_exp by lia.
Qed.

Lemma pred_rel : forall u, (0 < u)%R -> format64 u -> (bpow radix2 (-900) <= u)%R ->
  (pred radix2 fexp64 u * (1 + bpow radix2 (-53)) <= u)%R.
Proof.
  intros u Hu Fu Hb.
  assert (P0 : (0 <= pred radix2 fexp64 u)%R) by (apply pred_ge_0; auto with typeclass_instances).
  pose proof (pred_plus_ulp radix2 fexp64 u Hu Fu) as E.
  rewrite <- E at 2.
  assert (U : (pred radix2 fexp64 u * bpow radix2 (-53) <= ulp radix2 fexp64 (pred radix2 fexp64 u))%R).
  { pose proof (ulp_FLT_gt radix2 (SpecFloat.emin 53 1024) 53 (pred radix2 fexp64 u)) as G.
    rewrite Rabs_pos_eq in G by exact P0. apply Rlt_le. exact G. }
  lra.
Qed.

(** The float computation rounds nanoseconds to milliseconds, half up, without error. *)
Lemma ns_to_ms_correct : forall oor ns, 0 <= ns < 1000000000 ->
  ns_to_ms oor ns = (ns + 500000) / 1000000.
Proof.
  intros oor ns H.
  set (k := (ns + 500000) / 1000000).
  assert (Hk : k * 1000000 <= ns + 500000 < k * 1000000 + 1000000).
  { unfold k. pose proof (Z.div_mod (ns + 500000) 1000000 ltac:(lia)).
    pose proof (Z.mod_pos_bound (ns + 500000) 1000000 ltac:(lia)). lia. }
  assert (Hk2 : 0 <= k <= 1000) by lia.
  assert (R1 : rep (f64_of_Z ns) (IZR ns)).
  { rewrite <- (RN_small ns) by lia. apply rep_of_Z. transitivity 1000000000; [lia|]. vm_compute. discriminate. }
  assert (Hns : (0 <= IZR ns <= 1000000000)%R) by (split; apply IZR_le; lia).
  assert (Hc : (999999999999999 / 1000000000000000000000 < c6 < 1000000000000000 / 1000000000000000000000)%R).
  { unfold c6. change (2 ^ 72) with 4722366482869645213696. lra. }
  assert (R2 : rep (fmul (f64_of_Z ns) (f64_of_ratio 1 1000000)) (RN (IZR ns * c6))).
  { apply rep_mul; [exact R1|exact rep_c6|].
    rewrite Rabs_pos_eq by nra. apply Rle_trans with 1000000%R; [nra|].
    change (bpow radix2 1000) with (IZR (2 ^ 1000)). apply IZR_le. vm_compute. discriminate. }
  set (x := RN (IZR ns * c6)) in *.
  assert (Lo : (IZR k - / 2 <= x)%R).
  { destruct (Z.eq_dec k 0) as [E|E].
    - rewrite E. assert (0 <= x)%R; [|simpl; lra].
      unfold x. rewrite <- RN_0. apply RN_mono. nra.
    - set (u := F2R (Float radix2 (2 * k - 1) (-1))).
      assert (Eu : u = (IZR k - / 2)%R).
      { unfold u. rewrite F2R_neg_exp by lia. change (IZR (2 ^ (- (-1)))) with 2%R. rewrite minus_IZR, mult_IZR. field. }
      rewrite <- Eu.
      assert (Fu : format64 u) by (apply format_scaled; lia).
      assert (K1 : (1 <= IZR k)%R) by (apply IZR_le; lia).
      unfold x, RN. apply round_N_ge_midp; auto with typeclass_instances.
      assert (Hu : (/ 2 <= u)%R) by lra.
      pose proof (pred_rel u ltac:(lra) Fu) as P.
      assert (B9 : (bpow radix2 (-900) <= u)%R).
      { apply Rle_trans with (bpow radix2 (-1)); [apply bpow_le; lia|]. simpl. lra. }
      specialize (P B9).
      change (bpow radix2 (-53)) with (/ IZR (2 ^ 53))%R in P.
      change (2 ^ 53) with 9007199254740992 in P.
      assert (Hn : (u * 1000000 <= IZR ns)%R).
      { rewrite Eu. assert (IZR (k * 1000000 - 500000) <= IZR ns)%R by (apply IZR_le; lia).
        rewrite minus_IZR, mult_IZR in H0. lra. }
      assert (Hcu : (u * (1000000 * c6) <= IZR ns * c6)%R) by nra.
      assert (Hc6 : (999999999999999954 / 1000000000000000000 < 1000000 * c6)%R).
      { unfold c6. change (2 ^ 72) with 4722366482869645213696. lra. }
      set (p := pred radix2 fexp64 u) in *.
      assert (Hp : (p <= u * (9007199254740992 / 9007199254740993))%R) by lra.
      nra. }
  assert (Up : (x < IZR k + / 2)%R).
  { set (g := F2R (Float radix2 (k * 2097152 + 1048575) (-21))).
    assert (Eg : g = (IZR k + 1048575 / 2097152)%R).
    { unfold g. rewrite F2R_neg_exp by lia. change (IZR (2 ^ (- (-21)))) with 2097152%R. rewrite plus_IZR, mult_IZR. field. }
    assert (Fg : format64 g) by (apply format_scaled; lia).
    assert (x <= g)%R.
    { unfold x. rewrite <- (RN_format g Fg). apply RN_mono. rewrite Eg.
      assert (IZR ns <= IZR (k * 1000000 + 499999))%R by (apply IZR_le; lia).
      rewrite plus_IZR, mult_IZR in H0.
      assert (0 <= IZR k)%R by (apply IZR_le; lia). nra. }
    lra. }
  assert (K : Zfloor (x + / 2) = k).
  { apply Zfloor_imp. rewrite plus_IZR. simpl (IZR 1). lra. }
  assert (Kr : (0 <= IZR k <= 1000)%R) by (split; apply IZR_le; lia).
  assert (R3 : rep (fround (fmul (f64_of_Z ns) (f64_of_ratio 1 1000000))) (IZR k)).
  { rewrite <- (RN_small k) by lia. rewrite <- K. apply fround_correct_nonneg; auto.
    - unfold x. rewrite <- RN_0. apply RN_mono. nra.
    - apply Rle_trans with 1001%R; [lra|]. apply IZR_le. vm_compute. discriminate. }
  unfold ns_to_ms, f64_to_u64. rewrite (ftrunc_correct _ _ R3), Ztrunc_IZR.
  replace (is_u64 k) with true; auto. symmetry. unfold is_u64, two64. lia.
Qed.

(** Nanoseconds the printed text stands for. *)
Definition printed_ns (d : Z) : Z :=
  if Z.abs d <? 500000 then d
  else if (999500000 <=? Z.abs d) && (Z.abs d <? 1000000000) then 0
  else round_ms d.

(** Body of [dur_string] on the magnitude [n]. *)
Definition dur_body (oor : f64 -> Z) (u : Z) : outcome unit bytes :=
    let s := u / second_ns in
    let ns := u - s * second_ns in
    let ms := ns_to_ms oor ns in
    do t <- put 83 [] ;
      (if (s =? 0) && (ms =? 0) then
         do (u', t) <- fmtFrac t u 9;
         fmtInt t u'
       else if s =? 0 then
         do (_, t) <- fmtFrac t ms 3;
         put 48 t
       else
         do (u, t) <- fmtFrac t (wrap_u64 (1000 * s + ms)) 3;
         do t <- fmtInt t (u mod 60);
         let u := u / 60 in
         let t := if beq t (str "0S") then [] else t in
         if 0 <? u then
           do t <- put 77 t ;
           do t <- fmtInt t (u mod 60);
           let u := u / 60 in
           let t := if beq t (str "0M") then [] else t in
           if 0 <? u then
             do t <- put 72 t ;
             fmtInt t u
           else Ok t
         else Ok t).

Lemma dur_string_body : forall oor d,
  dur_string oor d =
  let u := wrap_u64 d in
  if u =? 0 then Ok (str "PT0S")
  else
    let neg := d <? 0 in
    do t <- dur_body oor (if neg then wrap_u64 (- u) else u);
    do t <- put 84 t;
    do t <- put 80 t;
    if neg then put 45 t else Ok t.
Proof.
  intros oor d. unfold dur_string, dur_body. cbv zeta.
  destruct (wrap_u64 d =? 0); auto.
Qed.

Lemma app1 : forall (x : Z) (l : list Z), [x] ++ l = x :: l.
Proof. reflexivity. Qed.

Lemma sec_text_app : forall i f, sec_text (Some (i, f)) = i ++ frac_text f ++ [83].
Proof. intros i [|b f]; cbn; auto. Qed.

Lemma natural_lt10 : forall ds, natural_text ds -> dec_val ds = 0 -> ds = [48].
Proof.
  intros ds [D [->|(b & r & -> & Hb)]] H; auto.
  cbn in H. inversion D; subst. pose proof (dec_val_bound r H3).
  assert (0 < 10 ^ Z.of_nat (length r)) by (apply Z.pow_pos_nonneg; lia). nia.
Qed.

Ltac conj_all := unfold dur_canonical, natural_text; cbn [p_neg p_h p_m p_s opt_natural opt_val];
  repeat match goal with |- _ /\ _ => split end; auto; try congruence; try (cbn; lia);
  try solve [constructor; [lia|constructor]].
(** The three body cases, as parts without the sign. *)
Lemma dur_body_spec : forall oor n, 0 < n <= 9223372036854775808 ->
  exists p, dur_body oor n = Ok (opt_text (p_h p) 72 ++ opt_text (p_m p) 77 ++ sec_text (p_s p)) /\
    p_neg p = false /\ dur_canonical p /\ dur_ns p = printed_ns n /\
    (length (opt_text (p_h p) 72 ++ opt_text (p_m p) 77 ++ sec_text (p_s p)) <= 29)%nat.
Proof.
  intros oor n Hn. unfold dur_body. cbv zeta. unfold second_ns.
  set (s := n / 1000000000).
  assert (Hs : s * 1000000000 <= n < s * 1000000000 + 1000000000).
  { unfold s. pose proof (Z.div_mod n 1000000000 ltac:(lia)). pose proof (Z.mod_pos_bound n 1000000000 ltac:(lia)). lia. }
  assert (Hs0 : 0 <= s) by lia.
  rewrite ns_to_ms_correct by lia.
  set (ms := (n - s * 1000000000 + 500000) / 1000000).
  assert (Hms : ms * 1000000 <= n - s * 1000000000 + 500000 < ms * 1000000 + 1000000).
  { unfold ms. pose proof (Z.div_mod (n - s * 1000000000 + 500000) 1000000 ltac:(lia)).
    pose proof (Z.mod_pos_bound (n - s * 1000000000 + 500000) 1000000 ltac:(lia)). lia. }
  rewrite put_ok by (cbn; lia). cbn [bind].
  destruct (Z.eqb_spec s 0) as [Es|Es]; cbn [andb].
  - destruct (Z.eqb_spec ms 0) as [Em|Em].
    + (* below half a millisecond *)
      destruct (fmtFrac_ok 9 n [83] ltac:(lia) ltac:(cbn; lia)) as (f & E & D & L & V & T & Zr).
      rewrite E. cbn [bind]. change (10 ^ Z.of_nat 9) with 1000000000 in *.
      assert (n / 1000000000 = 0) by (apply Z.div_small; lia).
      assert (n mod 1000000000 = n) by (apply Z.mod_small; lia).
      rewrite H. destruct (fmtInt_ok 1 0 (frac_text f ++ [83])) as (ds & E2 & N2 & V2 & L2 & _).
      { cbn; lia. } { lia. } { rewrite app_length. destruct f; cbn in *; lia. }
      rewrite E2. rewrite (natural_lt10 ds N2 V2) in *.
      exists {| p_neg := false; p_h := None; p_m := None; p_s := Some ([48], f) |}.
      cbn [p_neg p_h p_m p_s opt_text app]. rewrite sec_text_app. conj_all.
      * intros (_ & _ & X). discriminate.
      * intros [X|X]; congruence.
      * unfold dur_ns, printed_ns, sec_val, opt_val; cbn [p_neg p_h p_m p_s dec_val length].
        rewrite H0 in V. replace (Z.of_nat 9) with 9 in V by lia. rewrite V.
        rewrite Z.abs_eq by lia. replace (n <? 500000) with true by lia. change (48 - 48) with 0; lia.
      * rewrite !app_length. cbn [length]. destruct f; cbn [frac_text length] in *; lia.
    + (* below a second *)
      destruct (fmtFrac_ok 3 ms [83] ltac:(lia) ltac:(cbn; lia)) as (f & E & D & L & V & T & Zr).
      rewrite E. cbn [bind]. change (10 ^ Z.of_nat 3) with 1000 in *.
      rewrite put_ok by (rewrite app_length; destruct f; cbn in *; lia).
      exists {| p_neg := false; p_h := None; p_m := None; p_s := Some ([48], f) |}.
      cbn [p_neg p_h p_m p_s opt_text app]. rewrite sec_text_app. conj_all.
      * intros (_ & _ & X). discriminate.
      * intros [X|X]; congruence.
      * unfold dur_ns, printed_ns, sec_val, opt_val, round_ms; cbn [p_neg p_h p_m p_s dec_val length].
        replace (Z.of_nat 3) with 3 in V by lia.
        assert (P : 10 ^ (9 - Z.of_nat (length f)) = 10 ^ (3 - Z.of_nat (length f)) * 1000000).
        { replace (9 - Z.of_nat (length f)) with ((3 - Z.of_nat (length f)) + 6) by lia. rewrite Z.pow_add_r by lia. reflexivity. }
        rewrite P, Z.mul_assoc, V.
        rewrite Z.abs_eq, Z.sgn_pos by lia. replace (n <? 500000) with false by lia.
        assert (M : (n + 500000) / 1000000 = ms) by (unfold ms; f_equal; lia). rewrite M.
        destruct (Z.eq_dec ms 1000) as [E1000|N1000].
        -- rewrite E1000. replace ((999500000 <=? n) && (n <? 1000000000)) with true by lia. reflexivity.
        -- rewrite Z.mod_small by lia. replace ((999500000 <=? n) && (n <? 1000000000)) with false by lia. change (48 - 48) with 0; lia.
      * rewrite !app_length. cbn [length]. destruct f; cbn [frac_text length] in *; lia.
  - (* a second or more *)
    rewrite wrap_u64_id by (unfold is_u64, two64; lia).
    destruct (fmtFrac_ok 3 (1000 * s + ms) [83] ltac:(lia) ltac:(cbn; lia)) as (f & E & D & L & V & T & Zr).
    rewrite E. cbn [bind]. change (10 ^ Z.of_nat 3) with 1000 in *. replace (Z.of_nat 3) with 3 in V by lia.
    set (q := (1000 * s + ms) / 1000) in *.
    assert (Hq : q * 1000 <= 1000 * s + ms < q * 1000 + 1000).
    { unfold q. pose proof (Z.div_mod (1000 * s + ms) 1000 ltac:(lia)). pose proof (Z.mod_pos_bound (1000 * s + ms) 1000 ltac:(lia)). lia. }
    assert (Hfr : (1000 * s + ms) mod 1000 = 1000 * s + ms - q * 1000).
    { unfold q. rewrite Z.mod_eq by lia. lia. }
    assert (Hq60 : 0 <= q mod 60 < 60) by (apply Z.mod_pos_bound; lia).
    assert (Hqd : q = q / 60 * 60 + q mod 60) by (rewrite Z.mul_comm; apply Z.div_mod; lia).
    set (mi := q / 60) in *. set (sec := q mod 60) in *.
    assert (Hmi0 : 0 <= mi) by lia.
    assert (Hmd : mi = mi / 60 * 60 + mi mod 60) by (rewrite Z.mul_comm; apply Z.div_mod; lia).
    assert (Hm60 : 0 <= mi mod 60 < 60) by (apply Z.mod_pos_bound; lia).
    set (ho := mi / 60) in *. set (mm := mi mod 60) in *.
    assert (Hho : 0 <= ho < 10 ^ Z.of_nat 7) by (change (10 ^ Z.of_nat 7) with 10000000; lia).
    assert (Tot : printed_ns n = ho * 3600000000000 + mm * 60000000000 + (sec * 1000000000 + (1000 * s + ms) mod 1000 * 1000000)).
    { unfold printed_ns, round_ms. rewrite Z.abs_eq, Z.sgn_pos by lia.
      replace (n <? 500000) with false by lia. replace ((999500000 <=? n) && (n <? 1000000000)) with false by lia.
      assert (M : (n + 500000) / 1000000 = 1000 * s + ms).
      { replace (n + 500000) with ((n - s * 1000000000 + 500000) + (1000 * s) * 1000000) by lia.
        rewrite Z.div_add by lia. fold ms. lia. }
      rewrite M, Hfr. lia. }
    assert (Hq1 : 1 <= q) by lia.
    destruct (fmtInt_ok 2 sec (frac_text f ++ [83])) as (ds & E2 & N2 & V2 & L2 & NE2).
    { change (10 ^ Z.of_nat 2) with 100. lia. } { lia. } { rewrite app_length. destruct f; cbn in *; lia. }
    rewrite E2. cbn [bind].
    assert (P : 10 ^ (9 - Z.of_nat (length f)) = 10 ^ (3 - Z.of_nat (length f)) * 1000000).
    { replace (9 - Z.of_nat (length f)) with ((3 - Z.of_nat (length f)) + 6) by lia. rewrite Z.pow_add_r by lia. reflexivity. }
    assert (SV : sec_val (Some (ds, f)) = sec * 1000000000 + (1000 * s + ms) mod 1000 * 1000000).
    { cbn [sec_val]. rewrite V2, P, Z.mul_assoc, V. reflexivity. }
    (* the seconds part that is kept *)
    assert (KS : exists ps, (if beq (ds ++ frac_text f ++ [83]) (str "0S") then [] else ds ++ frac_text f ++ [83]) = sec_text ps /\
      sec_val ps = sec * 1000000000 + (1000 * s + ms) mod 1000 * 1000000 /\
      (ps = Some (ds, f) /\ 0 < sec_val ps \/ ps = None /\ sec_val ps = 0)).
    { destruct (beq (ds ++ frac_text f ++ [83]) (str "0S")) eqn:EB.
      - apply beq_eq in EB. exists None. cbn [sec_text sec_val].
        assert (F0 : f = []). 
        { destruct f as [|b f]; auto. exfalso. apply (f_equal (@length Z)) in EB. rewrite !app_length in EB.
          cbn in EB. destruct ds; cbn in EB; [congruence|lia]. }
        subst f. cbn [frac_text app] in EB. change (str "0S") with ([48] ++ [83]) in EB. apply app_inj_tail in EB.
        destruct EB as [-> _]. cbn in V2.
        assert ((1000 * s + ms) mod 1000 = 0) by (apply Zr; reflexivity).
        split; [reflexivity|split; [lia|right; split; reflexivity]].
      - exists (Some (ds, f)). rewrite sec_text_app. split; auto. split; auto. left. split; auto.
        rewrite SV. assert (0 <= (1000 * s + ms) mod 1000) by (apply Z.mod_pos_bound; lia).
        destruct (Z.eq_dec sec 0) as [Z0|]; [|lia].
        destruct (Z.eq_dec ((1000 * s + ms) mod 1000) 0) as [Z1|]; [|lia].
        exfalso. apply Zr in Z1. subst f. rewrite (natural_lt10 ds N2 ltac:(lia)) in EB. cbn in EB. discriminate. }
    destruct KS as (ps & EP & SP & CP). rewrite EP.
    assert (LS : (length (sec_text ps) <= 7)%nat).
    { destruct CP as [[-> _]|[-> _]]; [|cbn; lia]. rewrite sec_text_app, !app_length. destruct f; cbn [frac_text length] in *; lia. }
    assert (CS : match ps with
                 | Some (i, f) => natural_text i /\ digits f /\ (length f <= 9)%nat /\ (f = [] \/ last f 48 <> 48) /\ dec_val i < 60
                 | None => True end).
    { destruct CP as [[-> _]|[-> _]]; auto. repeat split; auto; try lia; try apply N2. }
    destruct (Z.ltb_spec 0 mi) as [Hmi|Hmi].
    + rewrite put_ok by lia. cbn [bind].
      destruct (fmtInt_ok 2 mm (77 :: sec_text ps)) as (dm & E3 & N3 & V3 & L3 & NE3).
      { change (10 ^ Z.of_nat 2) with 100. lia. } { lia. } { cbn. lia. }
      rewrite E3. cbn [bind].
      assert (KM : exists pm ps', (if beq (dm ++ 77 :: sec_text ps) (str "0M") then [] else dm ++ 77 :: sec_text ps) = opt_text pm 77 ++ sec_text ps' /\
         ps' = ps /\ opt_val pm = mm /\ opt_natural pm /\ (pm = Some dm /\ (0 < mm \/ ps <> None) \/ pm = None /\ mm = 0 /\ ps = None)).
      { destruct (beq (dm ++ 77 :: sec_text ps) (str "0M")) eqn:EB.
        - apply beq_eq in EB. exists None, ps.
          assert (F0 : ps = None).
          { destruct CP as [[-> _]|[-> _]]; auto. exfalso. rewrite sec_text_app in EB. apply (f_equal (@length Z)) in EB. rewrite !app_length in EB.
            cbn [length] in EB. rewrite !app_length in EB. cbn in EB. destruct dm; cbn in EB; [congruence|]. destruct ds; cbn in EB; [congruence|]. lia. }
          rewrite F0 in *. cbn [sec_text] in EB. change (str "0M") with ([48] ++ [77]) in EB.
          apply app_inj_tail in EB. destruct EB as [-> _]. cbn in V3. cbn. repeat split; auto.
        - exists (Some dm), ps. cbn [opt_text opt_val opt_natural]. rewrite <- app_assoc. repeat split; auto; try apply N3.
          left. split; auto. destruct (Z.eq_dec mm 0) as [Z0|]; [|lia].
          right. intros ->. rewrite (natural_lt10 dm N3 ltac:(lia)) in EB. cbn in EB. discriminate. }
      destruct KM as (pm & ps' & EM & -> & VM & NM & CM). rewrite EM.
      assert (LM : (length (opt_text pm 77 ++ sec_text ps) <= 10)%nat).
      { rewrite app_length. destruct CM as [[-> _]|[-> _]]; cbn; rewrite ?app_length; cbn; lia. }
      destruct (Z.ltb_spec 0 ho) as [Hh|Hh].
      * rewrite put_ok by lia. cbn [bind].
        destruct (fmtInt_ok 7 ho (72 :: opt_text pm 77 ++ sec_text ps)) as (dh & E4 & N4 & V4 & L4 & NE4); auto.
        { lia. } { cbn [length]. lia. }
        rewrite E4.
        exists {| p_neg := false; p_h := Some dh; p_m := pm; p_s := ps |}.
        cbn [p_neg p_h p_m p_s opt_text]. conj_all; try apply N4.
        -- now rewrite <- app_assoc.
        -- intros (X & _). discriminate.
        -- intros Hm. rewrite VM. destruct CM as [[-> [C|C]]|[-> _]]; [left; lia|right; split; [discriminate|exact C]|congruence].
        -- intros _ Hp. destruct CM as [[-> _]|[-> [_ X]]]; congruence.
        -- intros _ Hp. destruct CP as [[-> X]|[-> _]]; [lia|congruence].
        -- unfold dur_ns. cbn [p_neg p_h p_m p_s]. rewrite VM, SP, Tot. cbn [opt_val]. lia.
        -- rewrite app_length in *. cbn. rewrite !app_length in *. cbn. lia.
      * exists {| p_neg := false; p_h := None; p_m := pm; p_s := ps |}.
        assert (0 < mm) by lia.
        cbn [p_neg p_h p_m p_s opt_text app]. conj_all.
        -- intros (_ & X & _). destruct CM as [[-> _]|[_ [X0 _]]]; [discriminate|lia].
        -- intros _ Hp. destruct CP as [[-> X]|[-> _]]; [lia|congruence].
        -- unfold dur_ns. cbn [p_neg p_h p_m p_s]. rewrite VM, SP, Tot. cbn [opt_val]. lia.
    + exists {| p_neg := false; p_h := None; p_m := None; p_s := ps |}.
      cbn [p_neg p_h p_m p_s opt_text app]. conj_all.
      -- intros (_ & _ & X). destruct CP as [[-> _]|[-> _]]; [congruence|]. cbn in SP.
         assert (0 <= (1000 * s + ms) mod 1000) by (apply Z.mod_pos_bound; lia). lia.
      -- unfold dur_ns. cbn [p_neg p_h p_m p_s opt_val]. rewrite SP, Tot. lia.
Qed.

Theorem dur_string_spec : forall oor d, is_i64 d = true ->
  exists p, dur_string oor d = Ok (dur_text p) /\ p_neg p = (d <? 0) /\ dur_canonical p /\
    dur_ns p = printed_ns d /\ (length (dur_text p) <= 32)%nat.
Proof.
  intros oor d Hd. rewrite dur_string_body. cbv zeta. unfold is_i64, two63 in Hd.
  destruct (Z.eq_dec d 0) as [->|Hd0].
  - exists {| p_neg := false; p_h := None; p_m := None; p_s := Some ([48], []) |}.
    conj_all; try constructor; try (intros (_ & _ & X); discriminate); try (intros [X|X]; congruence); cbn; lia.
  - assert (E : wrap_u64 d =? 0 = false).
    { unfold wrap_u64, two64. destruct (Z.ltb_spec d 0).
      - rewrite <- (Z.mod_add d 1) by lia. rewrite Z.mod_small; lia.
      - rewrite Z.mod_small; lia. }
    rewrite E.
    assert (M : (if d <? 0 then wrap_u64 (- wrap_u64 d) else wrap_u64 d) = Z.abs d).
    { unfold wrap_u64, two64. destruct (Z.ltb_spec d 0).
      - rewrite <- (Z.mod_add d 1) by lia. rewrite (Z.mod_small (d + _)) by lia.
        rewrite <- (Z.mod_add _ 1) by lia. rewrite Z.mod_small by lia. lia.
      - rewrite Z.mod_small; lia. }
    rewrite M.
    destruct (dur_body_spec oor (Z.abs d) ltac:(lia)) as (p & EB & PN & C & V & L).
    rewrite EB. cbn [bind]. rewrite !put_ok by (cbn [length]; lia). cbn [bind].
    exists {| p_neg := d <? 0; p_h := p_h p; p_m := p_m p; p_s := p_s p |}.
    unfold dur_text. cbn [p_neg p_h p_m p_s].
    assert (Vn : dur_ns {| p_neg := d <? 0; p_h := p_h p; p_m := p_m p; p_s := p_s p |} = printed_ns d).
    { unfold dur_ns in *. rewrite PN in V. cbn [p_neg p_h p_m p_s].
      unfold printed_ns, round_ms in *. rewrite Z.abs_involutive in V.
      rewrite (Z.sgn_pos (Z.abs d)) in V by lia.
      destruct (Z.ltb_spec d 0) as [H|H].
      - rewrite Z.sgn_neg by lia.
        destruct (Z.abs d <? 500000); [lia|]. destruct ((999500000 <=? Z.abs d) && (Z.abs d <? 1000000000)); lia.
      - rewrite Z.sgn_pos by lia.
        destruct (Z.abs d <? 500000); [lia|]. destruct ((999500000 <=? Z.abs d) && (Z.abs d <? 1000000000)); lia. }
    destruct (d <? 0); cbn [app]; repeat match goal with |- _ /\ _ => split end; auto; try (exact C); try (cbn [length]; lia);
      try (repeat (rewrite put_ok by (cbn [length]; lia); cbn [bind]); reflexivity).
Qed.
