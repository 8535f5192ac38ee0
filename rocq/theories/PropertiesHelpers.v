(** Theorems C19 to C22, C54, C55: profile lists, timescale, byte ranges, FloatInf64, duration helpers, constructors. *)
From Coq Require Import String.
From Coq Require Import ZArith List Bool Lia SpecFloat Reals Psatz.
From Coq Require Import ZifyBool ZifyNat.
From Flocq Require Import Core BinarySingleNaN.
From Verif Require Import Base Float64 Float64Proofs Duration DurationSpec DurationProofs DurationParse PropertiesTime Heap PropertiesHeap Helpers.
Import ListNotations.
Open Scope Z_scope.

(** ** C19 *)
(** A list of profiles is profiles joined by commas. *)
Fixpoint join (ps : list bytes) : bytes :=
  match ps with
  | [] => []
  | [p] => p
  | p :: r => p ++ [44] ++ join r
  end.
Definition comma_free (p : bytes) : Prop := ~ In 44 p.
Lemma join_cons : forall p q r, join (p :: q :: r) = p ++ [44] ++ join (q :: r). Proof. reflexivity. Qed.
Lemma split_app : forall p r, comma_free p -> split_comma (p ++ 44 :: r) = p :: split_comma r.
Proof.
  induction p as [|c p IH]; intros r F; cbn [app split_comma]; auto.
  destruct (Z.eqb_spec c 44) as [->|N]; [exfalso; apply F; now left|]. rewrite IH; auto. intro I. apply F. now right.
Qed.
Lemma split_one : forall p, comma_free p -> split_comma p = [p].
Proof.
  induction p as [|c p IH]; intro F; cbn [split_comma]; auto.
  destruct (Z.eqb_spec c 44) as [->|N]; [exfalso; apply F; now left|]. rewrite IH; auto. intro I. apply F. now right.
Qed.
Lemma split_join : forall ps, ps <> [] -> Forall comma_free ps -> split_comma (join ps) = ps.
Proof.
  induction ps as [|p ps IH]; intros NE F; [congruence|]. inversion F; subst. destruct ps as [|q r].
  - now apply split_one.
  - rewrite join_cons. cbn [app]. rewrite split_app by auto. f_equal. apply IH; auto. discriminate.
Qed.
Lemma split_spec : forall l, split_comma l <> [] /\ Forall comma_free (split_comma l) /\ join (split_comma l) = l.
Proof.
  induction l as [|c l (A & B & C)]; cbn [split_comma].
  - split; [discriminate|]. split; [|reflexivity]. repeat constructor. intros [].
  - destruct (Z.eqb_spec c 44) as [->|N].
    + split; [discriminate|]. split; [constructor; auto; intros []|]. destruct (split_comma l) as [|w ws]; [congruence|].
      rewrite join_cons. cbn [app]. now rewrite C.
    + destruct (split_comma l) as [|w ws]; [congruence|]. inversion B; subst. split; [discriminate|]. split.
      * constructor; auto. intros [E|I]; [congruence|]. auto.
      * destruct ws as [|v vs]; reflexivity.
Qed.
(** Every text is the join of exactly one non-empty list of comma-free profiles. *)
Theorem C19_lists : forall l, exists! ps, ps <> [] /\ Forall comma_free ps /\ join ps = l.
Proof.
  intro l. exists (split_comma l). split; [apply split_spec|]. intros ps (A & B & <-). now apply split_join.
Qed.
Print Assumptions C19_lists.
Definition insert_end (ps : list bytes) (p : bytes) : list bytes := if in_dec bytes_dec p ps then ps else ps ++ [p].
Lemma join_app : forall ps p, ps <> [] -> join (ps ++ [p]) = join ps ++ [44] ++ p.
Proof.
  induction ps as [|q ps IH]; intros p NE; [congruence|]. destruct ps as [|r rs]; auto.
  change ((q :: r :: rs) ++ [p]) with (q :: r :: (rs ++ [p])). rewrite !join_cons.
  change (r :: rs ++ [p]) with ((r :: rs) ++ [p]). rewrite IH by discriminate. now rewrite <- !app_assoc.
Qed.
Theorem C19_add : forall ps p, ps <> [] -> Forall comma_free ps -> join ps <> [] ->
  add_profile (join ps) p = join (insert_end ps p).
Proof.
  intros ps p NE F J. unfold add_profile, insert_end. destruct (beq (join ps) []) eqn:B; [apply beq_eq in B; congruence|].
  rewrite split_join by auto. destruct (in_dec bytes_dec p ps) as [I|N].
  - replace (existsb _ _) with true; auto. symmetry. apply existsb_exists. exists p. split; auto. apply beq_refl.
  - replace (existsb _ _) with false; [now rewrite join_app|]. symmetry. apply not_true_is_false. intro X. apply existsb_exists in X.
    destruct X as (q & I & E). apply beq_eq in E. subst. contradiction.
Qed.
Print Assumptions C19_add.
(** The first profile, and adding twice. *)
Theorem C19_idempotent : forall l p, comma_free p -> add_profile [] p = p /\ add_profile (add_profile l p) p = add_profile l p.
Proof.
  intros l p F. split; [reflexivity|]. destruct l as [|c l].
  - change (add_profile [] p) with p. destruct p as [|c p]; auto. transitivity (add_profile (join [c :: p]) (c :: p)); [reflexivity|].
    rewrite C19_add; try discriminate; [|now constructor].
    unfold insert_end. destruct (in_dec _ _ _) as [|N]; auto. exfalso. apply N. now left.
  - destruct (split_spec (c :: l)) as (A & B & C). set (ps := split_comma (c :: l)) in *. rewrite <- C.
    rewrite C19_add by (auto; congruence). assert (FI : Forall comma_free (insert_end ps p)).
    { unfold insert_end. destruct (in_dec _ _ _); auto. apply Forall_app. auto. }
    assert (NI : join (insert_end ps p) <> []).
    { unfold insert_end. destruct (in_dec _ _ _); [congruence|]. rewrite join_app by auto. rewrite C. discriminate. }
    rewrite C19_add; auto.
    + f_equal. unfold insert_end at 1. destruct (in_dec bytes_dec p (insert_end ps p)) as [|N]; auto.
      exfalso. apply N. unfold insert_end. destruct (in_dec _ _ _); auto. apply in_or_app. right. now left.
    + intro E. unfold insert_end in E. destruct (in_dec _ _ _); [congruence|]. destruct ps; discriminate.
Qed.
Print Assumptions C19_idempotent.
(** Any sequence of additions of non-empty comma-free profiles to an empty list: each once, in order of first
    addition. *)
Fixpoint first_occurrences (seen qs : list bytes) : list bytes :=
  match qs with
  | [] => seen
  | q :: r => first_occurrences (insert_end seen q) r
  end.
Lemma NoDup_snoc : forall (l : list bytes) x, NoDup l -> ~ In x l -> NoDup (l ++ [x]).
Proof.
  induction l as [|s ss IH]; intros x ND NI; cbn; [repeat constructor; auto|]. inversion ND; subst.
  constructor; [|apply IH; auto; intro; apply NI; now right].
  intro I. apply in_app_or in I. destruct I as [I|[->|[]]]; auto. apply NI. now left.
Qed.
Theorem C19_history : forall qs, Forall (fun q => comma_free q /\ q <> []) qs ->
  fold_left add_profile qs [] = join (first_occurrences [] qs) /\ NoDup (first_occurrences [] qs) /\
  forall q, In q (first_occurrences [] qs) <-> In q qs.
Proof.
  intros qs F.
  assert (K : forall qs seen, Forall (fun q => comma_free q /\ q <> []) qs -> Forall (fun q => comma_free q /\ q <> []) seen -> NoDup seen ->
    fold_left add_profile qs (join seen) = join (first_occurrences seen qs) /\ NoDup (first_occurrences seen qs) /\
    forall q, In q (first_occurrences seen qs) <-> In q seen \/ In q qs).
  { clear. induction qs as [|q qs IH]; intros seen F FS ND; [cbn; repeat split; intuition|]. inversion F as [|? ? [C N] F']; subst.
    cbn [fold_left first_occurrences].
    assert (E : add_profile (join seen) q = join (insert_end seen q)).
    { destruct seen as [|s ss]; [reflexivity|]. apply C19_add; [discriminate| |].
      - apply Forall_forall. intros x X. rewrite Forall_forall in FS. now apply FS.
      - inversion FS as [|? ? [_ NS] _]; subst. destruct ss; [cbn; auto|]. rewrite join_cons. destruct s; [congruence|discriminate]. }
    rewrite E. destruct (IH (insert_end seen q) F') as (A & B & D).
    - unfold insert_end. destruct (in_dec _ _ _); auto. apply Forall_app. auto.
    - unfold insert_end. destruct (in_dec _ _ _) as [|NI]; auto. now apply NoDup_snoc.
    - split; auto. split; auto. intro x. rewrite D. unfold insert_end. destruct (in_dec bytes_dec q seen).
      + split; [intros [|]; auto; now right; right|]. intros [|[->|]]; auto.
      + rewrite in_app_iff. cbn. tauto. }
  destruct (K qs [] F ltac:(constructor) ltac:(constructor)) as (A & B & C). split; auto. split; auto. intro q. rewrite C. cbn. tauto.
Qed.
Print Assumptions C19_history.
Theorem C19_comma_refuted : let p := str "a,b" in let l := str "x" in
  add_profile l p = str "x,a,b" /\ add_profile (add_profile l p) p = str "x,a,b,a,b" /\ add_profile (add_profile [] p) p = str "a,b,a,b".
Proof. repeat split. Qed.
Print Assumptions C19_comma_refuted.
Example C19_ex : fold_left add_profile [str "a"; str "b"; str "a"; str "c"; str "b"] [] = str "a,b,c".
Proof. reflexivity. Qed.

(** ** C20 *)
Theorem C20_get_set : forall field t, get_timescale (set_timescale field t) = t /\ get_timescale None = 1.
Proof. intros. split; reflexivity. Qed.
Print Assumptions C20_get_set.
(** A later set wins, whatever was set before. *)
Theorem C20_history : forall ts field t, get_timescale (fold_left set_timescale (ts ++ [t]) field) = t.
Proof. intros. rewrite fold_left_app. reflexivity. Qed.
Print Assumptions C20_history.
Theorem C20_default_refuted : forall field, set_timescale field 1 = Some 1 /\ set_timescale field 1 <> None.
Proof. intro. split; [reflexivity|discriminate]. Qed.
Print Assumptions C20_default_refuted.

(** ** C21 *)
(** A decimal number without superfluous zeros, and a byte range [first-last]. *)
Definition number (t : bytes) (v : Z) : Prop := natural_text t /\ dec_val t = v.
Definition byte_range (t : bytes) (first last : Z) : Prop :=
  exists a b, t = a ++ [45] ++ b /\ number a first /\ number b last.
Lemma itoa_number : forall n, 0 <= n < 4294967296 -> number (itoa n) n.
Proof.
  intros n Hn. destruct (C17_bandwidth_digits n Hn) as (A & B & C & D). split; [split|].
  - eapply Forall_impl; [|exact A]. intros c. now rewrite digit_range.
  - destruct (Z.eq_dec n 0) as [->|N]; [left; reflexivity|]. right. destruct (itoa n) as [|c r]; [congruence|]. exists c, r. auto.
  - rewrite <- dec_val_digits_val. exact C.
Qed.
Lemma fmt_d_number : forall n, 0 <= n < 4294967296 -> number (fmt_d n) n.
Proof. intros n Hn. unfold fmt_d. destruct (Z.ltb_spec n 0); [lia|]. now apply itoa_number. Qed.
Theorem C21_ranges : forall i s e, 0 < i -> 0 < s -> i + s <= 4294967296 ->
  exists init index last, set_segment_base i s e = (init, index, e) /\
    byte_range init 0 last /\ byte_range index (last + 1) (last + s) /\ last + 1 = i.
Proof.
  intros i s e Hi Hs H. unfold set_segment_base. eexists _, _, (i - 1). split; [reflexivity|].
  assert (E1 : wrap_u32 (i - 1) = i - 1) by (apply wrap_u32_id; unfold is_u32, two32; lia).
  assert (E2 : wrap_u32 (wrap_u32 (i + s) - 1) = i + s - 1).
  { unfold wrap_u32, two32. Z.to_euclidean_division_equations. lia. }
  rewrite E1, E2. split; [|split; [|lia]].
  - exists (str "0"), (fmt_d (i - 1)). split; [reflexivity|]. split; [apply (fmt_d_number 0); lia|apply fmt_d_number; lia].
  - exists (fmt_d i), (fmt_d (i + s - 1)). split; [reflexivity|]. replace (i - 1 + 1) with i by lia. replace (i - 1 + s) with (i + s - 1) by lia.
    split; apply fmt_d_number; lia.
Qed.
Print Assumptions C21_ranges.
Theorem C21_wrap_refuted : set_segment_base 0 100 false = (str "0-4294967295", str "0-99", false) /\
  set_segment_base 100 0 false = (str "0-99", str "100-99", false) /\
  set_segment_base 4294967295 100 true = (str "0-4294967294", str "4294967295-98", true).
Proof. repeat split. Qed.
Print Assumptions C21_wrap_refuted.
Example C21_ex : set_segment_base 800 400 true = (str "0-799", str "800-1199", true).
Proof. reflexivity. Qed.

(** ** C22 *)
(** What [strconv.FormatFloat(f, 'f', -1, 64)] promises: a plain decimal text that rounds to [f], after a minus
    sign for negative values and negative zero. *)
Definition signed (s : bool) (t : bytes) : bytes := if s then 45 :: t else t.
Definition decimal_of (t : bytes) (x : R) : Prop :=
  exists i f, (t = i /\ f = [] \/ t = i ++ 46 :: f) /\ i <> [] /\ digits i /\ digits f /\
  x = (IZR (dec_val (i ++ f)) / IZR (10 ^ Z.of_nat (length f)))%R.
Record format_contract (format : f64 -> bytes) : Prop := {
  fc_zero : forall s, format (S754_zero s) = signed s (str "0");
  fc_finite : forall s m e, valid_binary 53 1024 (S754_finite s m e) = true ->
    exists t x, format (S754_finite s m e) = signed s t /\ decimal_of t x /\ rep (S754_finite false m e) (RN x);
  fc_inf : format (S754_infinity true) = str "-Inf";
  fc_nan : format S754_nan = str "NaN" }.
Lemma plain_decimal : forall t x, decimal_of t x -> plain t = true /\
  exists i f, (t = i /\ f = [] \/ t = i ++ 46 :: f) /\ i <> [] /\ digits i /\ digits f /\ x = (IZR (dec_val (i ++ f)) / IZR (10 ^ Z.of_nat (length f)))%R /\
    split_dot t = (i, f).
Proof.
  intros t x (i & f & Ht & NE & Di & Df & Hx).
  assert (E : split_dot t = (i, f)) by (destruct Ht as [[-> ->]| ->]; [now apply split_dot_digits|now apply split_dot_dotted]).
  split.
  - unfold plain. rewrite E. apply andb_true_intro. split; [apply forallb_digits, Forall_app; auto|].
    apply negb_true_iff, beq_neq. destruct i; [congruence|discriminate].
  - exists i, f. auto 10.
Qed.
Lemma decimal_head : forall t x, decimal_of t x -> exists c r, t = c :: r /\ 48 <= c <= 57.
Proof.
  intros t x (i & f & Ht & NE & Di & _). destruct i as [|c i]; [congruence|]. inversion Di; subst.
  exists c. destruct Ht as [[-> _]| ->]; [exists i|exists (i ++ 46 :: f)]; auto.
Qed.
Lemma parse_decimal : forall t x m e, decimal_of t x -> rep (S754_finite false m e) (RN x) -> parse_float t = Some (S754_finite false m e).
Proof.
  intros t x m e D Rp. destruct (plain_decimal t x D) as (_ & i & f & Ht & NE & Di & Df & Hx & E).
  unfold parse_float. rewrite E. destruct (i ++ f) as [|b ds] eqn:EQ; [destruct i; [congruence|discriminate]|]. rewrite <- EQ in *.
  assert (DD : digits (i ++ f)) by (apply Forall_app; auto).
  assert (DD' := DD). apply forallb_digits in DD'. rewrite DD', dec_val_digits_val.
  pose proof (dec_val_bound _ DD) as [B0 _].
  assert (PW : 0 < 10 ^ Z.of_nat (length f)) by (apply Z.pow_pos_nonneg; lia).
  assert (NZ : RN x <> 0%R).
  { destruct Rp as (_ & _ & E0). rewrite <- E0. cbn. intro Z0. apply eq_0_F2R in Z0. discriminate. }
  assert (P : 0 < dec_val (i ++ f)).
  { destruct (Z.eq_dec (dec_val (i ++ f)) 0) as [Z0|]; [|lia]. exfalso. apply NZ. rewrite Hx, Z0. unfold Rdiv. rewrite Rmult_0_l. apply RN_0. }
  destruct (ratio_overflow _ _ P PW) as [[L Rq]|[L Q]].
  - rewrite <- Hx in Rq. rewrite (rep_unique _ _ _ Rq Rp NZ). reflexivity.
  - exfalso. rewrite <- Hx in L. destruct Rp as (V & F & E0). rewrite <- E0 in L. apply Rle_not_lt in L. apply L.
    rewrite <- (B2R_SF2B 53 1024 (S754_finite false m e) V). apply abs_B2R_lt_emax.
Qed.
Theorem C22_round_trip : forall format other, format_contract format -> forall f, valid_binary 53 1024 f = true ->
  read_float_attr other (float_attr format f) = Some f.
Proof.
  intros format other FC f V. unfold float_attr. destruct f as [s|s| |s m e]; cbn [is_pinf].
  - rewrite (fc_zero _ FC). destruct s; reflexivity.
  - destruct s; [rewrite (fc_inf _ FC)|]; reflexivity.
  - rewrite (fc_nan _ FC). reflexivity.
  - destruct (fc_finite _ FC s m e V) as (t & x & -> & D & Rp).
    destruct (decimal_head t x D) as (c & r & Et & Hc). pose proof (plain_decimal t x D) as [PL _]. pose proof (parse_decimal t x m e D Rp) as PD.
    assert (NI : beq (signed s t) (str "INF") = false).
    { apply beq_neq. intro X. subst t. destruct s; cbn [signed] in X; inversion X; lia. }
    unfold read_float_attr. rewrite NI. unfold parse_signed. destruct s; cbn [signed].
    + replace (45 =? 43) with false by reflexivity. replace (45 =? 45) with true by reflexivity. cbv beta iota zeta. rewrite PL, PD. reflexivity.
    + subst t. destruct (Z.eqb_spec c 43); [lia|]. destruct (Z.eqb_spec c 45); [lia|]. rewrite PL, PD. reflexivity.
Qed.
Print Assumptions C22_round_trip.
(** No exponent: only digits, one minus sign, one dot, or one of the names. *)
Theorem C22_no_exponent : forall format, format_contract format -> forall f, valid_binary 53 1024 f = true ->
  float_attr format f = str "INF" \/ float_attr format f = str "-Inf" \/ float_attr format f = str "NaN" \/
  Forall (fun c => 48 <= c <= 57 \/ c = 45 \/ c = 46) (float_attr format f).
Proof.
  intros format FC f V. unfold float_attr. destruct f as [s|s| |s m e]; cbn [is_pinf].
  - right. right. right. rewrite (fc_zero _ FC). change (str "0") with [48]. destruct s; cbn [signed]; [constructor; [lia|]|]; (constructor; [lia|constructor]).
  - destruct s; [right; left; apply (fc_inf _ FC)|now left].
  - right. right. left. apply (fc_nan _ FC).
  - right. right. right. destruct (fc_finite _ FC s m e V) as (t & x & -> & (i & fr & Ht & _ & Di & Df & _) & _).
    assert (A : Forall (fun c => 48 <= c <= 57 \/ c = 45 \/ c = 46) t).
    { assert (DI : forall d, digits d -> Forall (fun c => 48 <= c <= 57 \/ c = 45 \/ c = 46) d) by (intros d Dd; eapply Forall_impl; [|exact Dd]; cbn; auto).
      destruct Ht as [[-> _]| ->]; auto. apply Forall_app. auto. }
    destruct s; cbn [signed]; auto.
Qed.
Print Assumptions C22_no_exponent.

(** The contract can be met: the exact decimal expansion. *)
Definition dec (n : Z) : bytes := itoa_loop (S (Z.to_nat (Z.log2 n))) n [].
Definition pad (k : nat) (t : bytes) : bytes := repeat 48 (S k - length t) ++ t.
Definition exact_text (m : positive) (e : Z) : bytes :=
  if 0 <=? e then dec (Zpos m * 2 ^ e)
  else let k := Z.to_nat (- e) in
       let t := pad k (dec (Zpos m * 5 ^ (- e))) in
       firstn (length t - k) t ++ 46 :: skipn (length t - k) t.
Definition exact_format (f : f64) : bytes :=
  match f with
  | S754_zero s => signed s (str "0")
  | S754_infinity s => if s then str "-Inf" else str "+Inf"
  | S754_nan => str "NaN"
  | S754_finite s m e => signed s (exact_text m e)
  end.
Lemma itoa_loop_spec : forall fuel n acc, 0 <= n < 10 ^ Z.of_nat fuel -> (0 < fuel)%nat -> digits acc ->
  digits (itoa_loop fuel n acc) /\ dec_val (itoa_loop fuel n acc) = n * 10 ^ Z.of_nat (length acc) + dec_val acc /\ itoa_loop fuel n acc <> [].
Proof.
  induction fuel as [|fuel IH]; intros n acc Hn Hf HA; [lia|]. cbn [itoa_loop].
  assert (HD : 0 <= n mod 10 < 10) by (apply Z.mod_pos_bound; lia).
  assert (HA' : digits ((48 + n mod 10) :: acc)) by (constructor; auto; lia).
  pose proof (Z.div_mod n 10 ltac:(lia)) as DM.
  destruct (Z.eqb_spec (n / 10) 0) as [Q|Q].
  - split; auto. split; [|discriminate]. cbn [dec_val]. replace n with (n mod 10) at 2 by lia. ring.
  - assert (H10 : 0 <= n / 10 < 10 ^ Z.of_nat fuel).
    { split; [apply Z.div_pos; lia|]. apply Z.div_lt_upper_bound; [lia|]. replace (Z.of_nat (S fuel)) with (Z.succ (Z.of_nat fuel)) in Hn by lia.
      rewrite Z.pow_succ_r in Hn by lia. lia. }
    destruct fuel as [|fuel']; [cbn in H10; lia|].
    destruct (IH (n / 10) _ H10 ltac:(lia) HA') as (A & B & C). split; auto. split; auto.
    rewrite B. cbn [length dec_val]. replace (Z.of_nat (S (length acc))) with (Z.succ (Z.of_nat (length acc))) by lia.
    rewrite Z.pow_succ_r by lia. rewrite DM at 3. ring.
Qed.
Lemma dec_spec : forall n, 0 <= n -> digits (dec n) /\ dec_val (dec n) = n /\ dec n <> [].
Proof.
  intros n Hn. unfold dec. destruct (itoa_loop_spec (S (Z.to_nat (Z.log2 n))) n []) as (A & B & C); try lia; [|constructor|].
  - split; auto. destruct (Z.eq_dec n 0) as [->|NZ]; [reflexivity|]. pose proof (Z.log2_spec n ltac:(lia)) as [_ L]. pose proof (Z.log2_nonneg n).
    eapply Z.lt_le_trans; [exact L|]. replace (Z.of_nat (S (Z.to_nat (Z.log2 n)))) with (Z.succ (Z.log2 n)) by lia.
    apply Z.pow_le_mono_l. lia.
  - split; auto. split; auto. rewrite B. cbn. lia.
Qed.
Lemma dec_val_zeros : forall k t, dec_val (repeat 48 k ++ t) = dec_val t.
Proof. induction k as [|k IH]; intro t; cbn [repeat app dec_val]; auto. rewrite IH. lia. Qed.
Theorem C22_contract_satisfiable : format_contract exact_format.
Proof.
  constructor; try reflexivity. intros s m e V. cbn [exact_format]. exists (exact_text m e), (F2R (Float radix2 (Zpos m) e)). split; [reflexivity|].
  assert (V' : valid_binary 53 1024 (S754_finite false m e) = true) by exact V.
  split.
  - unfold exact_text. destruct (Z.leb_spec 0 e) as [P|P].
    + destruct (dec_spec (Zpos m * 2 ^ e)) as (A & B & C); [apply Z.mul_nonneg_nonneg; [lia|apply Z.pow_nonneg; lia]|].
      exists (dec (Zpos m * 2 ^ e)), []. split; [left; auto|]. split; auto. split; auto. split; [constructor|].
      rewrite app_nil_r, B, F2R_pos_exp by auto. cbn. field.
    + set (n := Zpos m * 5 ^ (- e)). assert (Hn : 0 <= n) by (apply Z.mul_nonneg_nonneg; [lia|apply Z.pow_nonneg; lia]).
      destruct (dec_spec n Hn) as (A & B & C). set (k := Z.to_nat (- e)). set (t := pad k (dec n)).
      assert (Dt : digits t) by (unfold t, pad; apply Forall_app; split; auto; apply Forall_forall; intros x X; apply repeat_spec in X; lia).
      assert (Lt : (k < length t)%nat) by (unfold t, pad; rewrite app_length, repeat_length; lia).
      assert (Vt : dec_val t = n) by (unfold t, pad; rewrite dec_val_zeros; auto).
      exists (firstn (length t - k) t), (skipn (length t - k) t). split; [right; reflexivity|]. split.
      { intro X. apply (f_equal (@length Z)) in X. rewrite firstn_length in X. cbn [length] in X. lia. }
      assert (DD : digits (firstn (length t - k) t) /\ digits (skipn (length t - k) t)) by (apply Forall_app; rewrite firstn_skipn; auto).
      split; [apply DD|]. split; [apply DD|]. rewrite firstn_skipn, Vt, skipn_length.
      replace (Z.of_nat (length t - (length t - k))) with (- e) by lia. rewrite F2R_neg_exp by auto.
      unfold n. change 10 with (5 * 2). rewrite Z.pow_mul_l, !mult_IZR.
      assert (0 < IZR (5 ^ (- e)))%R by (apply IZR_lt, Z.pow_pos_nonneg; lia).
      assert (0 < IZR (2 ^ (- e)))%R by (apply IZR_lt, Z.pow_pos_nonneg; lia). field. split; lra.
  - replace (RN (F2R (Float radix2 (Z.pos m) e))) with (F2R (Float radix2 (Z.pos m) e)).
    + split; [exact V'|]. split; reflexivity.
    + symmetry. apply RN_format. change (F2R (Float radix2 (Z.pos m) e)) with (SF2R radix2 (S754_finite false m e)).
      rewrite <- (B2R_SF2B 53 1024 _ V'). apply generic_format_B2R.
Qed.
Print Assumptions C22_contract_satisfiable.
(** C22. The words for infinities and for no number are read in small and capital letters, with a sign (not for the latter); XML Schema
    has only INF, -INF and NaN. *)
Definition spells (s w : bytes) : Prop := Forall2 (fun c k => c = k \/ c = k - 32) s w.
Theorem C22_words : forall other s,
  (spells s (str "inf") \/ spells s (str "infinity") -> read_float_attr other s = Some (S754_infinity false) /\ read_float_attr other (43 :: s) = Some (S754_infinity false) /\ read_float_attr other (45 :: s) = Some (S754_infinity true)) /\
  (spells s (str "nan") -> read_float_attr other s = Some S754_nan).
Proof.
  intros other s.
  split; [intros [H|H]|intro H]; unfold spells in H; cbn in H; repeat match goal with X : Forall2 _ _ (_ :: _) |- _ => inversion X; clear X; subst | X : Forall2 _ _ [] |- _ => inversion X; clear X; subst | X : _ \/ _ |- _ => destruct X; subst end; repeat split; vm_compute; reflexivity.
Qed.
Print Assumptions C22_words.
Example C22_ex : read_float_attr (fun _ => None) (str "7.5") = Some (f64_of_ratio 15 2) /\
  read_float_attr (fun _ => None) (str "-0.5") = Some (fneg (f64_of_ratio 1 2)) /\ read_float_attr (fun _ => None) (str "INF") = Some (S754_infinity false).
Proof. vm_compute. auto. Qed.

(** ** C54 *)
Theorem C54_whole : forall n, Z.abs n <= 9223372036 -> seconds2dur n = n * 1000000000.
Proof. intros n H. apply wrap_i64_id. unfold is_i64, two63, second_ns. lia. Qed.
Print Assumptions C54_whole.
(** Nearest integer, halves away from zero. *)
Definition nearest_away (x : R) (n : Z) : Prop := (Rabs (x - IZR n) <= / 2)%R /\ (Rabs (x - IZR n) = / 2 -> Rabs x < Rabs (IZR n))%R.
Lemma fround_any : forall f x, rep f x -> (Rabs x <= IZR (2 ^ 52))%R -> exists n, rep (fround f) (IZR n) /\ nearest_away x n /\ Z.abs n <= 2 ^ 52 + 1.
Proof.
  intros f x Rp Hx.
  assert (POS : forall y, (0 <= y)%R -> (y <= IZR (2 ^ 52))%R -> nearest_away y (Zfloor (y + / 2)) /\ 0 <= Zfloor (y + / 2) <= 2 ^ 52 + 1).
  { intros y Y0 Y1. pose proof (Zfloor_lb (y + / 2)) as L. pose proof (Zfloor_ub (y + / 2)) as U.
    assert (N0 : 0 <= Zfloor (y + / 2)) by (apply Zfloor_lub; cbn; lra). split; [split|split; auto].
    - apply Rabs_le. lra.
    - intro E. rewrite !Rabs_pos_eq by (auto; apply IZR_le; lia). destruct (Rle_lt_dec 0 (y - IZR (Zfloor (y + / 2)))) as [S|S].
      + rewrite Rabs_pos_eq in E by lra. lra.
      + lra.
    - apply le_IZR. rewrite plus_IZR. cbn. cbn in Y1. lra. }
  assert (SM : forall n, 0 <= n <= 2 ^ 52 + 1 -> Z.abs n <= 2 ^ 53 /\ Z.abs (- n) <= 2 ^ 53) by (intros n H; change (2 ^ 52) with 4503599627370496 in H; change (2 ^ 53) with 9007199254740992; lia).
  destruct f as [s| | |s m e]; try (destruct Rp as (_ & F & _); discriminate F).
  - destruct Rp as (_ & _ & E). cbn in E. subst x. exists 0. split; [cbn; repeat split|]. split; [|lia]. split; [rewrite Rminus_0_r, Rabs_R0; lra|].
    rewrite Rminus_0_r, Rabs_R0. lra.
  - destruct Rp as (V & _ & E). cbn [SF2R] in E. set (y := F2R (Float radix2 (Zpos m) e)) in *.
    assert (Y0 : (0 <= y)%R) by (apply F2R_ge_0; cbn; lia).
    assert (EX : x = if s then (- y)%R else y).
    { subst x. destruct s; [|reflexivity]. cbn [cond_Zopp]. unfold y. rewrite <- F2R_Zopp. reflexivity. }
    clear E.
    assert (Y1 : (y <= IZR (2 ^ 52))%R) by (destruct s; subst x; [rewrite Rabs_Ropp in Hx|]; rewrite Rabs_pos_eq in Hx by auto; auto).
    destruct (POS y Y0 Y1) as ([N1 N2] & N3). pose proof (round_half_abs_correct m e) as RH. fold y in RH. cbn [fround].
    set (n := Zfloor (y + / 2)) in *. rewrite RH. destruct (SM n N3) as (S1 & S2).
    assert (BIG : forall k, Z.abs k <= 2 ^ 53 -> (Rabs (F2R (Float radix2 k 0)) <= bpow radix2 1000)%R).
    { intros k Hk. rewrite F2R_e0, <- abs_IZR. change (bpow radix2 1000) with (IZR (2 ^ 1000)). apply IZR_le.
      apply Z.le_trans with (2 ^ 53); auto. apply Z.pow_le_mono_r; lia. }
    exists (if s then - n else n). destruct s; cbn [cond_Zopp].
    + split; [|split].
      * pose proof (rep_normalize (- n) 0 true (BIG _ S2)) as X. rewrite F2R_e0, RN_small in X by auto. exact X.
      * subst x. replace (- y - IZR (- n))%R with (- (y - IZR n))%R by (rewrite opp_IZR; ring). unfold nearest_away.
        replace (- y - IZR (- n))%R with (- (y - IZR n))%R by (rewrite opp_IZR; ring). rewrite opp_IZR, !Rabs_Ropp. auto.
      * lia.
    + split; [|split].
      * pose proof (rep_normalize n 0 false (BIG _ S1)) as X. rewrite F2R_e0, RN_small in X by auto. exact X.
      * subst x. split; auto.
      * lia.
Qed.
Lemma rep_1e6 : rep (f64_of_Z 1000000) 1000000.
Proof.
  rewrite <- (RN_small 1000000) by (cbn; lia). apply rep_of_Z.
  apply Z.le_trans with (2 ^ 53); [cbn; lia|]. apply Z.pow_le_mono_r; lia.
Qed.
(** Any float64 up to 8 million seconds (92 days) either way: within 501 nanoseconds. *)
Theorem C54_float : forall oor f x, rep f x -> (Rabs x <= 8000000)%R ->
  (Rabs (IZR (seconds2dur_f64 oor f) - x * 1000000000) <= 501)%R /\ exists us, seconds2dur_f64 oor f = us * 1000.
Proof.
  intros oor f x Rp Hx. unfold seconds2dur_f64.
  assert (AX : (Rabs (x * 1000000) <= bpow radix2 43)%R).
  { rewrite Rabs_mult, (Rabs_pos_eq 1000000) by lra. apply Rle_trans with (8000000 * 1000000)%R; [nra|]. cbn. lra. }
  assert (RM : rep (fmul f (f64_of_Z 1000000)) (RN (x * 1000000))).
  { apply rep_mul; auto using rep_1e6. apply Rle_trans with (1 := AX). apply bpow_le. lia. }
  pose proof (RN_err (x * 1000000) 43 AX ltac:(lia)) as RE.
  assert (AR : (Rabs (RN (x * 1000000)) <= IZR (2 ^ 52))%R).
  { rewrite RN_abs. apply Rle_trans with (RN (bpow radix2 43)); [apply RN_mono; auto|]. change (bpow radix2 43) with (IZR (2 ^ 43)).
    rewrite RN_small by (cbn; lia). apply IZR_le. cbn. lia. }
  destruct (fround_any _ _ RM AR) as (n & RF & [N1 _] & N2).
  unfold f64_to_i64. rewrite (ftrunc_correct _ _ RF), Ztrunc_IZR. change (2 ^ 52) with 4503599627370496 in N2.
  replace (is_i64 n) with true by (unfold is_i64, two63; lia).
  rewrite wrap_i64_id by (unfold is_i64, two63; lia). split; [|eauto].
  rewrite mult_IZR. replace (IZR n * 1000 - x * 1000000000)%R with (- (1000 * ((RN (x * 1000000) - IZR n) - (RN (x * 1000000) - x * 1000000))))%R by ring.
  rewrite Rabs_Ropp, Rabs_mult, (Rabs_pos_eq 1000) by lra.
  pose proof (Rabs_triang (RN (x * 1000000) - IZR n) (- (RN (x * 1000000) - x * 1000000))) as T. rewrite Rabs_Ropp in T.
  unfold Rminus at 1. change (bpow radix2 (43 - 53)) with (/ 1024)%R in RE. lra.
Qed.
Print Assumptions C54_float.
(** The float64 nearest to a whole number of microseconds gives exactly that many. *)
Theorem C54_microseconds : forall oor f k, Z.abs k <= 8000000000000 -> rep f (RN (IZR k / 1000000)) -> seconds2dur_f64 oor f = k * 1000.
Proof.
  intros oor f k Hk Rp.
  assert (AK : (Rabs (IZR k / 1000000) <= 8000000)%R).
  { unfold Rdiv. rewrite Rabs_mult, (Rabs_pos_eq (/ 1000000)) by lra. rewrite <- abs_IZR. apply IZR_le in Hk. lra. }
  pose proof (RN_err (IZR k / 1000000) 23 ltac:(eapply Rle_trans; [exact AK|cbn; lra]) ltac:(lia)) as RE.
  change (bpow radix2 (23 - 53)) with (/ 1073741824)%R in RE.
  assert (AX : (Rabs (RN (IZR k / 1000000)) <= 8000000)%R).
  { rewrite RN_abs. replace 8000000%R with (RN 8000000) by (apply (RN_small 8000000); cbn; lia). apply RN_mono. exact AK. }
  destruct (C54_float oor f _ Rp AX) as (D & us & E). rewrite E in *. f_equal.
  set (x := RN (IZR k / 1000000)) in *. rewrite mult_IZR in D.
  apply Rabs_le_inv in D. apply Rabs_le_inv in RE.
  assert (-1 < us - k < 1) as [A B]; [|lia]. split; apply lt_IZR; rewrite minus_IZR; lra.
Qed.
Print Assumptions C54_microseconds.
Example C54_ex : seconds2dur_f64 (fun _ => 0) (f64_of_ratio 1001 1000) = 1001000000 /\
  seconds2dur_f64 (fun _ => 0) (fneg (f64_of_ratio 25 10000000)) = -3000.
Proof. vm_compute. auto. Qed.
(** Whole seconds beyond the int64 nanosecond range wrap silently. *)
Theorem C54_wrap_refuted : seconds2dur 9223372037 = -9223372036709551616.
Proof. reflexivity. Qed.
Print Assumptions C54_wrap_refuted.

(** ** C55 *)
Definition u32 (n : Z) : Prop := 0 <= n < 4294967296.
Theorem C55_plain : forall id codec mime bw, u32 bw -> new_rep id codec mime bw = RepFields id codec mime bw None [] 0 0.
Proof. intros id codec mime bw B. unfold new_rep, u32 in *. rewrite wrap_u32_id by (unfold is_u32, two32; lia). reflexivity. Qed.
Print Assumptions C55_plain.
Theorem C55_video : forall id codec mime fr bw w h, u32 bw -> u32 w -> u32 h ->
  new_video id codec mime fr bw w h = RepFields id codec mime bw None fr w h.
Proof.
  intros id codec mime fr bw w h B W H. unfold new_video, new_rep, u32 in *. cbn.
  rewrite !wrap_u32_id by (unfold is_u32, two32; lia). reflexivity.
Qed.
Print Assumptions C55_video.
Theorem C55_audio : forall id codec mime bw rate, u32 bw -> u32 rate ->
  exists t, number t rate /\ new_audio id codec mime bw rate = RepFields id codec mime bw (Some t) [] 0 0.
Proof.
  intros id codec mime bw rate B W. unfold new_audio, new_rep, u32 in *. cbn. exists (fmt_d rate). split; [apply fmt_d_number; lia|].
  rewrite !wrap_u32_id by (unfold is_u32, two32; lia). reflexivity.
Qed.
Print Assumptions C55_audio.
Theorem C55_range_refuted : forall id codec mime, rf_bandwidth (new_rep id codec mime 4294967296) = 0 /\ rf_bandwidth (new_rep id codec mime (-1)) = 4294967295.
Proof. intros. split; reflexivity. Qed.
Print Assumptions C55_range_refuted.
Example C55_ex : new_audio (str "a") (str "mp4a.40.2") (str "audio/mp4") 128000 48000
  = RepFields (str "a") (str "mp4a.40.2") (str "audio/mp4") 128000 (Some (str "48000")) [] 0 0.
Proof. reflexivity. Qed.
