(** C71, C72: what the decoder reads in lenient mode that is not XML: references that mean nothing, attribute values
    without quotes or not there, start tags cut off by the end of the input, elements that close themselves. *)
From Coq Require Import String.
From Coq Require Import ZArith List Bool Lia.
From Coq Require Import ZifyBool ZifyNat.
From Verif Require Import Base Utf8 NameTables Lexer EscapeSpec LexerProofs CdataProofs NameProofs TagText Decoder DecoderProofs.
From Verif Require Import ByteDecoder ByteRuns ByteLoud ByteSim ByteToken BytePlace ByteScope ByteEnd ByteNear PropertiesPosition PropertiesOptions.
Import ListNotations.
Open Scope Z_scope.
Local Opaque lmust lfuel getc mustgetc.

(** *** What text means *)
(** The names of the references that XML defines, with their characters. *)
Definition standard_refs : list (bytes * Z) := [(str "lt", 60); (str "gt", 62); (str "amp", 38); (str "apos", 39); (str "quot", 34)].
(** The value of a digit, and of digits, with base 10 or 16. *)
Definition digit (x : bool) (b d : Z) : Prop :=
  (48 <= b <= 57 /\ d = b - 48) \/ x = true /\ (97 <= b <= 102 /\ d = b - 97 + 10 \/ 65 <= b <= 70 /\ d = b - 65 + 10).
Definition base (x : bool) : Z := if x then 16 else 10.
Inductive number (x : bool) : bytes -> Z -> Prop :=
| nu_nil : number x [] 0
| nu_digit : forall ds b d v, number x ds v -> digit x b d -> number x (ds ++ [b]) (v * base x + d).
(** No letter and no digit of a name, as far as ASCII goes. *)
Definition word_byte (b : Z) : Prop := 128 <= b \/ 65 <= b <= 90 \/ 97 <= b <= 122 \/ 48 <= b <= 57 \/ b = 95 \/ b = 58 \/ b = 46 \/ b = 45.
Definition first_is (P : Z -> Prop) (i : bytes) : Prop := match i with [] => True | b :: _ => P b end.
(** The text up to the closing quote [q], or outside of tags, and what it means; [e] is the map Entity. *)
Inductive loose (e : bytes -> option bytes) (q : option Z) : bytes -> bytes -> Prop :=
| lo_end : loose e q [] []
| lo_char : forall b i o, b <> 38 -> b <> 60 -> b <> 13 -> match q with None => b <> 62 | Some q => b <> q end ->
    loose e q i o -> loose e q (b :: i) (b :: o)
| lo_standard : forall n r i o, In (n, r) standard_refs -> loose e q i o -> loose e q (38 :: n ++ 59 :: i) (r :: o)
| lo_entity : forall n v i o, is_name n = true -> ~ In n (map fst standard_refs) -> e n = Some v ->
    loose e q i o -> loose e q (38 :: n ++ 59 :: i) (v ++ o)
| lo_number : forall x ds v i o, ds <> [] -> number x ds v -> v <= 1114111 ->
    loose e q i o -> loose e q (38 :: 35 :: (if x then [120] else []) ++ ds ++ 59 :: i) (encode_rune v ++ o)
(* from here on: what is an error in strict mode and stays as it is in lenient mode *)
| lo_unknown : forall n i o, Forall word_byte n -> ~ In n (map fst standard_refs) -> (is_name n = true -> e n = None) ->
    loose e q i o -> loose e q (38 :: n ++ 59 :: i) (38 :: n ++ 59 :: o)
| lo_word : forall n i o, Forall word_byte n -> first_is (fun b => ~ word_byte b /\ b <> 59 /\ (n = [] -> b <> 35)) i ->
    loose e q i o -> loose e q (38 :: n ++ i) (38 :: n ++ o)
| lo_large : forall x ds v i o, number x ds v -> ds = [] \/ 1114111 < v -> loose e q i o ->
    loose e q (38 :: 35 :: (if x then [120] else []) ++ ds ++ 59 :: i) (38 :: 35 :: (if x then [120] else []) ++ ds ++ 59 :: o)
| lo_digits : forall x ds v i o, number x ds v -> first_is (fun b => (forall d, ~ digit x b d) /\ b <> 59 /\ (ds = [] -> x = false -> b <> 120)) i ->
    loose e q i o -> loose e q (38 :: 35 :: (if x then [120] else []) ++ ds ++ i) (38 :: 35 :: (if x then [120] else []) ++ ds ++ o).

(** *** The functions that read references *)
Lemma word_name : forall b, word_byte b <-> name_byte b = true.
Proof. intros b. unfold word_byte, name_byte, is_name_byte, within. lia. Qed.
Lemma words_names : forall n, Forall word_byte n -> Forall (fun b => name_byte b = true) n.
Proof. intros n. apply Forall_impl. intros b. apply word_name. Qed.
Lemma read_word : forall fe n c t buf s, Forall word_byte n -> name_byte c = false -> rd fe (n ++ c :: t) buf s ->
  exists o s', read_name_b s = Some (o, s') /\ rd fe (c :: t) (buf ++ n) s' /\ l_err s' = None.
Proof.
  intros fe n c t buf s W C R. pose proof (read_name_sim _ _ _ _ R) as H. apply words_names in W. destruct n as [|b n].
  - cbn [app read_name] in H. rewrite C in H. destruct H as (s' & E & R' & N). exists None, s'. rewrite app_nil_r. auto.
  - inversion W as [|? ? B W']; subst. cbn [app read_name] in H. rewrite B, span_name_app in H by auto. destruct H as (s' & E & R' & N). exists (Some tt), s'. auto.
Qed.
Lemma ref_word : forall c fe n b t pre s, Forall word_byte n -> name_byte b = false -> (n = [] -> b <> 35) -> rd fe (n ++ b :: t) (pre ++ [38]) s ->
  exists s', l_err s' = None /\
    if b =? 59 then
      entity_b c (length pre) s = Some (Some (if is_name n then match entity n with Some r => Some (encode_rune r) | None => c_entity c n end else None), s') /\
      rd fe t (pre ++ 38 :: n ++ [59]) s'
    else entity_b c (length pre) s = Some (Some None, s') /\ rd fe (b :: t) (pre ++ 38 :: n) s'.
Proof.
  intros c fe n b t pre s W B N35 R. unfold entity_b.
  assert (H : exists x y, n ++ b :: t = x :: y /\ x <> 35).
  { destruct n as [|x n]; [exists b, t; auto|]. exists x, (n ++ b :: t). split; [reflexivity|]. inversion W; subst. unfold word_byte in *. lia. }
  destruct H as (x & y & E & X). rewrite E in R. destruct (must_some _ _ _ _ _ R) as (s1 & E1 & N1). rewrite !(try_some _ _ _ _ _ _ _ E1).
  assert (X' : (x =? 35) = false) by lia. rewrite X', ldo_eq. destruct (unget _ x _ _ _ N1) as [R1 NE1]. rewrite <- E in R1.
  destruct (read_word _ _ _ _ _ _ W B R1) as (o & s2 & E2 & R2 & NE2). rewrite E2.
  replace (match o with Some _ => false | None => has_err s2 end) with false by (destruct o; [reflexivity | unfold has_err; rewrite NE2; reflexivity]).
  destruct (must_some _ _ _ _ _ R2) as (s3 & E3 & N3). rewrite !(try_some _ _ _ _ _ _ _ E3).
  destruct (b =? 59) eqn:B59; cbn [negb].
  - exists (put 59 s3). split; [apply N3|]. pose proof N3 as ((_ & _ & _ & _ & BF) & _). rewrite BF.
    assert (SK : skipn (S (length pre)) ((pre ++ [38]) ++ n) = n).
    { replace (S (length pre)) with (length (pre ++ [38])) by (rewrite app_length; cbn; lia). rewrite skipn_app, skipn_all, Nat.sub_diag. reflexivity. }
    rewrite SK. split; [reflexivity|]. pose proof (rd_put _ _ _ _ 59 (new_rd _ _ _ _ N3)) as R4. rewrite <- !app_assoc in R4. exact R4.
  - rewrite ldo_eq. exists (ungetc b s3). destruct (unget _ b _ _ _ N3) as [R4 NE4]. split; [exact NE4|]. split; [reflexivity|]. rewrite <- app_assoc in R4. exact R4.
Qed.

Lemma digit_hex : forall x b d, digit x b d <-> hex_digit x b = Some d.
Proof.
  intros x b d. unfold digit, hex_digit, within. split.
  - intros [[H ->]|[-> [[H ->]|[H ->]]]].
    + replace ((48 <=? b) && (b <=? 57)) with true by lia. reflexivity.
    + replace ((48 <=? b) && (b <=? 57)) with false by lia. replace (true && ((97 <=? b) && (b <=? 102))) with true by lia. f_equal. lia.
    + replace ((48 <=? b) && (b <=? 57)) with false by lia. replace (true && ((97 <=? b) && (b <=? 102))) with false by lia. replace (true && ((65 <=? b) && (b <=? 70))) with true by lia. f_equal. lia.
  - destruct ((48 <=? b) && (b <=? 57)) eqn:A; [intros H; inversion H; left; lia|].
    destruct x; cbn [andb]; [|discriminate]. destruct ((97 <=? b) && (b <=? 102)) eqn:B; [intros H; inversion H; right; lia|].
    destruct ((65 <=? b) && (b <=? 70)) eqn:C; [intros H; inversion H; right; lia | discriminate].
Qed.
Lemma number_value : forall x ds v, number x ds v ->
  Forall (fun b => hex_digit x b <> None) ds /\ digits_value (if x then 16 else 10) (map (fun b => match hex_digit x b with Some d => d | None => 0 end) ds) = v.
Proof.
  intros x ds v H. induction H as [|ds b d v H [F V] D]; [split; [constructor | reflexivity]|]. apply digit_hex in D. split.
  - apply Forall_app. split; [exact F|]. constructor; [congruence | constructor].
  - unfold digits_value in *. rewrite map_app, fold_left_app, V. cbn [map fold_left]. rewrite D. reflexivity.
Qed.
Lemma digits_word : forall x fe ds c t k b rest buf s, Forall (fun b => hex_digit x b <> None) ds -> hex_digit x c = None ->
  b :: rest = ds ++ c :: t -> new fe rest buf s -> (length rest < k)%nat ->
  exists s', digits_loop k x b s = Some (Some c, s') /\ new fe t (buf ++ ds) s'.
Proof.
  intros x fe. induction ds as [|d ds IH]; intros c t k b rest buf s F C E N K; (destruct k as [|k]; [lia|]); cbn [digits_loop app] in *.
  - inversion E; subst. rewrite C. exists s. split; [reflexivity|]. rewrite app_nil_r. exact N.
  - inversion E; subst. inversion F as [|? ? D F']; subst. destruct (hex_digit x d) as [y|] eqn:Y; [|congruence]. rewrite ldo_eq.
    pose proof (new_put _ _ _ _ d N) as N1. destruct (ds ++ c :: t) as [|b' r] eqn:E2; [destruct ds; discriminate|].
    destruct (must_some _ _ _ _ _ (new_rd _ _ _ _ N1)) as (s2 & M & N2). rewrite !(try_some _ _ _ _ _ _ _ M).
    destruct (IH c t k b' r (buf ++ [d]) s2 F' C (eq_sym E2) N2) as (s' & G1 & G2); [cbn in K; lia|].
    exists s'. split; [exact G1|]. rewrite <- app_assoc in G2. exact G2.
Qed.
Lemma ref_number : forall c fe x ds v b t pre s, number x ds v -> (forall d, ~ digit x b d) -> (ds = [] -> x = false -> b <> 120) ->
  rd fe (35 :: (if x then [120] else []) ++ ds ++ b :: t) (pre ++ [38]) s ->
  exists s', l_err s' = None /\
    if b =? 59 then
      entity_b c (length pre) s = Some (Some (if negb (length ds =? 0)%nat && (v <=? 1114111) then Some (encode_rune v) else None), s') /\
      rd fe t (pre ++ 38 :: 35 :: (if x then [120] else []) ++ ds ++ [59]) s'
    else entity_b c (length pre) s = Some (Some None, s') /\ rd fe (b :: t) (pre ++ 38 :: 35 :: (if x then [120] else []) ++ ds) s'.
Proof.
  intros c fe x ds v b t pre s NU NB NX R. destruct (number_value _ _ _ NU) as [F V].
  assert (HB : hex_digit x b = None) by (destruct (hex_digit x b) as [d|] eqn:E; [apply digit_hex in E; destruct (NB d E) | reflexivity]).
  unfold entity_b. destruct (must_some _ _ _ _ _ R) as (s1 & E1 & N1). rewrite !(try_some _ _ _ _ _ _ _ E1). change (35 =? 35) with true. cbv iota. rewrite ldo_eq.
  pose proof (new_put _ _ _ _ 35 N1) as N2.
  assert (TAIL : forall s2 y r buf, y :: r = ds ++ b :: t -> new fe r buf s2 -> buf = (pre ++ [38]) ++ 35 :: (if x then [120] else []) ->
    exists s', l_err s' = None /\
    if b =? 59 then
      (try b0 <- digits_loop (lfuel s2) x y; if negb (b0 =? 59) then step ungetc b0; lret None else fun s => lret (parse_rune x (skipn (length (l_buf s2)) (l_buf s))) (put 59 s)) s2 =
        Some (Some (if negb (length ds =? 0)%nat && (v <=? 1114111) then Some (encode_rune v) else None), s') /\ rd fe t (pre ++ 38 :: 35 :: (if x then [120] else []) ++ ds ++ [59]) s'
    else (try b0 <- digits_loop (lfuel s2) x y; if negb (b0 =? 59) then step ungetc b0; lret None else fun s => lret (parse_rune x (skipn (length (l_buf s2)) (l_buf s))) (put 59 s)) s2 =
        Some (Some None, s') /\ rd fe (b :: t) (pre ++ 38 :: 35 :: (if x then [120] else []) ++ ds) s').
  { intros s2 y r buf E N BU. destruct (digits_word x fe ds b t (lfuel s2) y r buf s2 F HB E N (rd_fuel _ _ _ _ (new_rd _ _ _ _ N))) as (s3 & D & N3).
    rewrite !(try_some _ _ _ _ _ _ _ D). pose proof N as ((_ & _ & _ & _ & B2) & _). pose proof N3 as ((_ & _ & _ & _ & B3) & _).
    destruct (b =? 59) eqn:B59; cbn [negb].
    - exists (put 59 s3). split; [apply N3|]. rewrite B2, B3. rewrite skipn_app, skipn_all, Nat.sub_diag. cbn [skipn app]. unfold parse_rune. rewrite V. split; [reflexivity|].
      pose proof (rd_put _ _ _ _ 59 (new_rd _ _ _ _ N3)) as R4. rewrite BU in R4. rewrite <- ?app_assoc in R4. cbn [app] in R4. rewrite <- ?app_assoc in R4. exact R4.
    - exists (ungetc b s3). destruct (unget _ b _ _ _ N3) as [R4 NE4]. split; [exact NE4|]. rewrite ldo_eq. split; [reflexivity|]. rewrite BU in R4. rewrite <- ?app_assoc in R4. cbn [app] in R4. rewrite <- ?app_assoc in R4. exact R4. }
  destruct x; cbn [app] in *.
  - destruct (must_some _ _ _ _ _ (new_rd _ _ _ _ N2)) as (s2 & E2 & N3). rewrite !(try_some _ _ _ _ _ _ _ E2). change (120 =? 120) with true. cbv iota. rewrite ldo_eq.
    pose proof (new_put _ _ _ _ 120 N3) as N4. destruct (ds ++ b :: t) as [|y r] eqn:E; [destruct ds; discriminate|].
    destruct (must_some _ _ _ _ _ (new_rd _ _ _ _ N4)) as (s3 & E3 & N5). rewrite !(try_some _ _ _ _ _ _ _ E3).
    refine (TAIL s3 y r _ eq_refl N5 _). rewrite <- !app_assoc. reflexivity.
  - destruct (ds ++ b :: t) as [|y r] eqn:E; [destruct ds; discriminate|].
    destruct (must_some _ _ _ _ _ (new_rd _ _ _ _ N2)) as (s3 & E3 & N5). rewrite !(try_some _ _ _ _ _ _ _ E3).
    assert (Y : (y =? 120) = false).
    { destruct ds as [|d ds]; [inversion E; subst; specialize (NX eq_refl eq_refl); lia|]. inversion E; subst. inversion F as [|? ? D _]; subst.
      destruct (Z.eqb_spec y 120) as [->|]; [destruct D; reflexivity | reflexivity]. }
    cbv zeta. rewrite Y. refine (TAIL s3 y r _ eq_refl N5 _). rewrite <- !app_assoc. reflexivity.
Qed.

(** *** Text *)
Lemma standard_ref : forall n r, In (n, r) standard_refs -> Forall word_byte n /\ is_name n = true /\ entity n = Some r /\ encode_rune r = [r].
Proof.
  intros n r H. assert (G : forallb (fun p => forallb name_byte (fst p) && is_name (fst p) && match entity (fst p) with Some x => x =? snd p | None => false end && beq (encode_rune (snd p)) [snd p]) standard_refs = true)
    by (vm_compute; reflexivity).
  rewrite forallb_forall in G. specialize (G _ H). simpl in G. rewrite !andb_true_iff in G. destruct G as [[[A B] C] D].
  split; [apply Forall_forall; intros b I; apply word_name; rewrite forallb_forall in A; auto|]. split; [exact B|].
  destruct (entity n) as [x|]; [|discriminate]. apply Z.eqb_eq in C. subst. apply beq_eq in D. auto.
Qed.
Lemma not_standard : forall n, ~ In n (map fst standard_refs) -> entity n = None.
Proof.
  intros n H. unfold entity.
  repeat match goal with |- context [beq n ?x] => destruct (beq n x) eqn:?; [exfalso; apply H; match goal with E : beq n _ = true |- _ => apply beq_eq in E; subst; cbn; tauto end|] end.
  reflexivity.
Qed.
(** The byte that ends the text. *)
Definition stops (q : option Z) (stop : Z) : Prop := match q with None => stop = 60 | Some q => stop = q /\ (q = 34 \/ q = 39) end.
Lemma stop_facts : forall q stop, stops q stop -> name_byte stop = false /\ stop <> 59 /\ stop <> 35 /\ stop <> 120 /\ forall x d, ~ digit x stop d.
Proof.
  intros [q|] stop H; simpl in H.
  - destruct H as [-> [-> | ->]]; (split; [reflexivity|]); (split; [lia|]); (split; [lia|]); (split; [lia|]); unfold digit; intros; lia.
  - subst. split; [reflexivity|]. split; [lia|]. split; [lia|]. split; [lia|]. unfold digit; intros; lia.
Qed.
Lemma next_byte : forall (P : Z -> Prop) (i rest : bytes) stop, first_is P i -> P stop -> exists b t, i ++ stop :: rest = b :: t /\ P b.
Proof. intros P [|b i] rest stop H S; [exists stop, rest; auto | exists b, (i ++ stop :: rest); auto]. Qed.

Lemma text_loop_ref : forall c fe q k b0 b1 t buf s, rd fe (38 :: t) buf s -> q <> Some 38 -> c_strict c = false ->
  exists s1, rd fe t (buf ++ [38]) s1 /\ l_err s1 = None /\
    forall o s2, entity_b c (length buf) s1 = Some (Some o, s2) ->
      text_loop_b (S k) c q false b0 b1 s = text_loop_b k c q false 0 0 (match o with Some v => puts v (truncate (length buf) s2) | None => s2 end).
Proof.
  intros c fe q k b0 b1 t buf s R Q ST. destruct (getc_some _ _ _ _ _ R) as (s1 & E & N). exists (put 38 s1).
  pose proof (new_put _ _ _ _ 38 N) as N1. split; [apply N1|]. split; [apply N1|]. intros o s2 EN.
  pose proof N as ((_ & _ & _ & _ & BF) & _). cbn [text_loop_b]. rewrite E.
  change (38 =? 62) with false. change (38 =? 60) with false. change (38 =? 38) with true. rewrite andb_false_r. cbn [andb negb].
  replace (match q with Some q0 => 38 =? q0 | None => false end) with false by (destruct q as [q|]; [|reflexivity]; assert (q <> 38) by congruence; lia).
  cbv zeta. rewrite BF. rewrite ldo_eq, (try_some _ _ _ _ _ _ _ EN). destruct o as [v|]; [rewrite !ldo_eq; reflexivity|]. rewrite ST. reflexivity.
Qed.

Ltac shorter := match goal with K : (length _ < S _)%nat |- _ =>
  cbn [length] in K |- *; repeat (rewrite app_length in K; cbn [length] in K); rewrite ?app_length; cbn [length]; lia end.
Lemma loose_loop : forall c fe q, c_strict c = false -> forall i o, loose (c_entity c) q i o ->
  forall k b0 b1 buf s stop rest, stops q stop -> rd fe (i ++ stop :: rest) buf s -> b1 <> 13 -> (length (i ++ stop :: rest) < k)%nat ->
  exists s', text_loop_b k c q false b0 b1 s = Some (Some O, s') /\ rd fe (match q with None => stop :: rest | Some _ => rest end) (buf ++ o) s' /\ l_err s' = None.
Proof.
  intros c fe q ST i o H. induction H as [|b i o B1 B2 B3 BQ H IH|n r i o ER H IH|n v i o NM NS EV H IH|x ds v i o ND NU V H IH
    |n i o W NS EV H IH|n i o W FI H IH|x ds v i o NU BAD H IH|x ds v i o NU FI H IH];
    intros k b0 b1 buf s stop rest SP R N13 K; pose proof (stop_facts _ _ SP) as (S1 & S2 & S3 & S4 & S5);
    assert (Q38 : q <> Some 38) by (destruct q as [q|]; [simpl in SP; intros X; inversion X; lia | discriminate]);
    (destruct k as [|k]; [lia|]).
  - (* the end *)
    cbn [app] in R. destruct (getc_some _ _ _ _ _ R) as (s1 & E & N). cbn [text_loop_b]. rewrite E, app_nil_r. destruct q as [q|]; simpl in SP.
    + destruct SP as [-> QQ]. replace (q =? 60) with false by lia. replace (q =? 62) with false by lia. cbn [negb andb]. rewrite Z.eqb_refl.
      exists s1. split; [reflexivity|]. split; apply N.
    + subst stop. change (60 =? 62) with false. change (60 =? 60) with true. rewrite andb_false_r. cbn [negb andb]. destruct (unget _ 60 _ _ _ N) as [R1 NE1].
      exists (ungetc 60 s1). auto.
  - (* a byte *)
    cbn [app] in *. destruct (getc_some _ _ _ _ _ R) as (s1 & E & N).
    assert (X : text_loop_b (S k) c q false b0 b1 s = text_loop_b k c q false b1 b (put b s1)).
    { cbn [text_loop_b]. rewrite E. replace (b =? 60) with false by lia. replace (b =? 38) with false by lia. replace (b =? 13) with false by lia.
      replace ((b1 =? 13) && (b =? 10)) with false by lia.
      destruct q as [q|]; cbn [negb andb].
      - rewrite andb_false_r. cbn [andb]. replace (b =? q) with false by lia. reflexivity.
      - replace (b =? 62) with false by lia. rewrite !andb_false_r. cbn [andb]. reflexivity. }
    rewrite X. pose proof (new_put _ _ _ _ b N) as N1.
    destruct (IH k b1 b (buf ++ [b]) (put b s1) stop rest SP (new_rd _ _ _ _ N1) B3 ltac:(simpl in K; lia)) as (s' & E' & R' & NE').
    exists s'. rewrite <- app_assoc in R'. auto.
  - (* a reference of XML *)
    destruct (standard_ref _ _ ER) as (W & NM & EN & EC). cbn [app] in R, K. rewrite <- app_assoc in R, K. cbn [app] in R, K.
    destruct (text_loop_ref c fe q k b0 b1 _ buf s R Q38 ST) as (s1 & R1 & NE1 & ST1).
    destruct (ref_word c fe n 59 (i ++ stop :: rest) buf s1 W eq_refl ltac:(intros; lia) R1) as (s2 & NE2 & E2 & R2). rewrite NM, EN, EC in E2.
    rewrite (ST1 _ _ E2). pose proof (rd_truncate _ _ _ _ (length buf) R2) as R3. rewrite firstn_app, Nat.sub_diag, firstn_all, firstn_O, app_nil_r in R3.
    pose proof (rd_puts _ _ _ _ [r] R3) as R4.
    destruct (IH k 0 0 _ _ stop rest SP R4 ltac:(lia) ltac:(shorter)) as (s' & E' & R' & NE').
    exists s'. rewrite <- app_assoc in R'. auto.
  - (* an entity of the map *)
    destruct (is_name_bytes _ NM) as [W NE]. assert (WB : Forall word_byte n) by (eapply Forall_impl; [|exact W]; intros; apply word_name; auto).
    cbn [app] in R, K. rewrite <- app_assoc in R, K. cbn [app] in R, K.
    destruct (text_loop_ref c fe q k b0 b1 _ buf s R Q38 ST) as (s1 & R1 & NE1 & ST1).
    destruct (ref_word c fe n 59 (i ++ stop :: rest) buf s1 WB eq_refl ltac:(intros; lia) R1) as (s2 & NE2 & E2 & R2). rewrite NM, (not_standard _ NS), EV in E2.
    rewrite (ST1 _ _ E2). pose proof (rd_truncate _ _ _ _ (length buf) R2) as R3. rewrite firstn_app, Nat.sub_diag, firstn_all, firstn_O, app_nil_r in R3.
    pose proof (rd_puts _ _ _ _ v R3) as R4.
    destruct (IH k 0 0 _ _ stop rest SP R4 ltac:(lia) ltac:(shorter)) as (s' & E' & R' & NE').
    exists s'. rewrite <- app_assoc in R'. auto.
  - (* a number *)
    assert (EQ : (38 :: 35 :: (if x then [120] else []) ++ ds ++ 59 :: i) ++ stop :: rest = 38 :: 35 :: (if x then [120] else []) ++ ds ++ 59 :: i ++ stop :: rest).
    { cbn [app]. rewrite <- !app_assoc. reflexivity. }
    rewrite EQ in R, K.
    destruct (text_loop_ref c fe q k b0 b1 _ buf s R Q38 ST) as (s1 & R1 & NE1 & ST1).
    destruct (ref_number c fe x ds v 59 (i ++ stop :: rest) buf s1 NU ltac:(unfold digit; intros; lia) ltac:(intros; lia) R1) as (s2 & NE2 & E2 & R2).
    replace (negb (length ds =? 0)%nat && (v <=? 1114111)) with true in E2 by (destruct ds; [congruence|]; simpl; lia).
    rewrite (ST1 _ _ E2). pose proof (rd_truncate _ _ _ _ (length buf) R2) as R3. rewrite firstn_app, Nat.sub_diag, firstn_all, firstn_O, app_nil_r in R3.
    pose proof (rd_puts _ _ _ _ (encode_rune v) R3) as R4.
    destruct (IH k 0 0 _ _ stop rest SP R4 ltac:(lia) ltac:(shorter)) as (s' & E' & R' & NE').
    exists s'. rewrite <- app_assoc in R'. auto.
  - (* an unknown reference *)
    cbn [app] in R, K. rewrite <- app_assoc in R, K. cbn [app] in R, K.
    destruct (text_loop_ref c fe q k b0 b1 _ buf s R Q38 ST) as (s1 & R1 & NE1 & ST1).
    destruct (ref_word c fe n 59 (i ++ stop :: rest) buf s1 W eq_refl ltac:(intros; lia) R1) as (s2 & NE2 & E2 & R2).
    replace (if is_name n then match entity n with Some r => Some (encode_rune r) | None => c_entity c n end else None) with (@None bytes) in E2
      by (destruct (is_name n); [rewrite (not_standard _ NS), EV; auto | reflexivity]).
    rewrite (ST1 _ _ E2).
    destruct (IH k 0 0 _ _ stop rest SP R2 ltac:(lia) ltac:(shorter)) as (s' & E' & R' & NE').
    exists s'. replace (buf ++ 38 :: n ++ 59 :: o) with ((buf ++ 38 :: n ++ [59]) ++ o) by (rewrite <- app_assoc; cbn [app]; rewrite <- app_assoc; reflexivity). auto.
  - (* a name without semicolon *)
    cbn [app] in R, K. rewrite <- app_assoc in R, K.
    destruct (next_byte _ i rest stop FI) as (b & t & EB & NB & B59 & B35).
    { split; [rewrite word_name; congruence | auto]. }
    rewrite EB in R. destruct (text_loop_ref c fe q k b0 b1 _ buf s R Q38 ST) as (s1 & R1 & NE1 & ST1).
    assert (NB' : name_byte b = false) by (rewrite word_name in NB; destruct (name_byte b); congruence).
    destruct (ref_word c fe n b t buf s1 W NB' B35 R1) as (s2 & NE2 & H2). replace (b =? 59) with false in H2 by lia. destruct H2 as [E2 R2]. rewrite <- EB in R2.
    rewrite (ST1 _ _ E2).
    destruct (IH k 0 0 _ _ stop rest SP R2 ltac:(lia) ltac:(shorter)) as (s' & E' & R' & NE').
    exists s'. replace (buf ++ 38 :: n ++ o) with ((buf ++ 38 :: n) ++ o) by (rewrite <- app_assoc; reflexivity). auto.
  - (* a number that is none *)
    assert (EQ : (38 :: 35 :: (if x then [120] else []) ++ ds ++ 59 :: i) ++ stop :: rest = 38 :: 35 :: (if x then [120] else []) ++ ds ++ 59 :: i ++ stop :: rest).
    { cbn [app]. rewrite <- !app_assoc. reflexivity. }
    rewrite EQ in R, K.
    destruct (text_loop_ref c fe q k b0 b1 _ buf s R Q38 ST) as (s1 & R1 & NE1 & ST1).
    destruct (ref_number c fe x ds v 59 (i ++ stop :: rest) buf s1 NU ltac:(unfold digit; intros; lia) ltac:(intros; lia) R1) as (s2 & NE2 & E2 & R2).
    replace (negb (length ds =? 0)%nat && (v <=? 1114111)) with false in E2 by (destruct BAD as [-> | BAD]; [reflexivity | destruct ds; simpl; lia]).
    rewrite (ST1 _ _ E2).
    destruct (IH k 0 0 _ _ stop rest SP R2 ltac:(lia) ltac:(shorter)) as (s' & E' & R' & NE').
    exists s'. split; [exact E'|]. split; [|exact NE'].
    assert (X : (buf ++ 38 :: 35 :: (if x then [120] else []) ++ ds ++ [59]) ++ o = buf ++ 38 :: 35 :: (if x then [120] else []) ++ ds ++ 59 :: o).
    { rewrite <- app_assoc. cbn [app]. rewrite <- !app_assoc. reflexivity. }
    rewrite <- X. exact R'.
  - (* a number without semicolon *)
    assert (EQ : (38 :: 35 :: (if x then [120] else []) ++ ds ++ i) ++ stop :: rest = 38 :: 35 :: (if x then [120] else []) ++ ds ++ i ++ stop :: rest).
    { cbn [app]. rewrite <- !app_assoc. reflexivity. }
    rewrite EQ in R, K. destruct (next_byte _ i rest stop FI) as (b & t & EB & NB & B59 & BX); [split; [apply S5 | auto]|].
    rewrite EB in R. destruct (text_loop_ref c fe q k b0 b1 _ buf s R Q38 ST) as (s1 & R1 & NE1 & ST1).
    destruct (ref_number c fe x ds v b t buf s1 NU NB BX R1) as (s2 & NE2 & H2). replace (b =? 59) with false in H2 by lia. destruct H2 as [E2 R2]. rewrite <- EB in R2.
    rewrite (ST1 _ _ E2).
    destruct (IH k 0 0 _ _ stop rest SP R2 ltac:(lia) ltac:(shorter)) as (s' & E' & R' & NE').
    exists s'. split; [exact E'|]. split; [|exact NE'].
    assert (X : (buf ++ 38 :: 35 :: (if x then [120] else []) ++ ds) ++ o = buf ++ 38 :: 35 :: (if x then [120] else []) ++ ds ++ o).
    { rewrite <- app_assoc. cbn [app]. rewrite <- !app_assoc. reflexivity. }
    rewrite <- X. exact R'.
Qed.

Lemma loose_text : forall c fe q i o buf s stop rest, c_strict c = false -> loose (c_entity c) q i o -> xml_text o -> stops q stop -> rd fe (i ++ stop :: rest) buf s ->
  exists s', text_b c q false s = Some (if l_fresh s' then None else Some o, s') /\ rd fe (match q with None => stop :: rest | Some _ => rest end) o s' /\ l_err s' = None.
Proof.
  intros c fe q i o buf s stop rest ST LO XT SP R. unfold text_b. rewrite ldo_eq. pose proof (rd_reset _ _ _ _ R) as R0.
  destruct (loose_loop c fe q ST i o LO (lfuel (reset s)) 0 0 [] (reset s) stop rest SP R0 ltac:(lia) (rd_fuel _ _ _ _ R0)) as (s' & E & R' & NE).
  rewrite (try_some _ _ _ _ _ _ _ E). cbv zeta. pose proof R' as (_ & _ & _ & _ & BF). cbn [app] in BF, R'. rewrite BF, Nat.sub_0_r, firstn_all, (xml_text_good _ XT).
  exists s'. auto.
Qed.

(** Decoders that NewDecoder made and that returned some tokens. *)
Lemma reached : forall c r ts d, got_tokens c (new_bdec r) ts d -> interned (l_intern (b_lex d)) /\ context 0 true None d d.
Proof.
  intros c r ts d G. assert (AL : alike c c) by (constructor; [reflexivity | auto | destruct (c_charset c); auto]).
  pose proof (token_ctx 0 true c c None AL eq_refl eq_refl eq_refl I) as T.
  assert (C : context 0 true None d d).
  { induction G as [|ts d1 t d2 G IH E].
    - constructor; simpl; auto. constructor; simpl; auto; try lia; apply new_interned.
    - destruct (T d1 d1 t None d2 IH E ltac:(auto) ltac:(auto)) as (x & E' & CX). simpl in E'. assert (Y := eq_trans (eq_sym E) E'). inversion Y; subst. exact CX. }
  split; [exact (nr_int1 _ _ _ _ _ (cx_lex _ _ _ _ _ C)) | exact C].
Qed.
Lemma at_bytes : forall c r ts d inp, got_tokens c (new_bdec r) ts d -> b_err d = None -> view (b_lex d) = inp ->
  rd (s_end (l_src (b_lex d))) inp (l_buf (b_lex d)) (b_lex d).
Proof. intros c r ts d inp G NE V. destruct (reached _ _ _ _ G) as [I _]. unfold rd, b_err in *. auto 10. Qed.

Theorem C71_text : forall c r ts d i o rest, c_strict c = false -> got_tokens c (new_bdec r) ts d -> b_err d = None -> b_close d = None -> b_depth d = 0 ->
  view (b_lex d) = i ++ 60 :: rest -> i <> [] -> loose (c_entity c) None i o -> xml_text o ->
  exists d', RawToken c d = Some ((Some (TChar o), None), d') /\ b_err d' = None /\ view (b_lex d') = 60 :: rest.
Proof.
  intros c r ts d i o rest ST G NE NC DP V NI LO XT. unfold RawToken, raw_b. rewrite DP, NE, NC. change (0 <? 0) with false. cbv iota.
  pose proof (at_bytes _ _ _ _ _ G NE V) as R.
  assert (H : exists b t, i = b :: t /\ b <> 60 /\ b <> 62).
  { destruct i as [|b t]; [congruence|]. exists b, t. split; [reflexivity|]. inversion LO; subst; lia. }
  destruct H as (b & t & EI & B60 & B62). unfold raw_token_b. rewrite EI in R. cbn [app] in R. destruct (getc_some _ _ _ _ _ R) as (s1 & E & N). rewrite E.
  replace (b =? 60) with false by lia. cbn [negb]. rewrite ldo_eq. destruct (unget _ b _ _ _ N) as [R1 NE1]. change (b :: t ++ 60 :: rest) with ((b :: t) ++ 60 :: rest) in R1. rewrite <- EI in R1.
  destruct (loose_text c _ None i o _ _ 60 rest ST LO XT eq_refl R1) as (s' & E' & R' & NE').
  pose proof (text_used c b s1 _ s' B60 B62 (proj2 (proj2 N)) E') as FR. rewrite FR in E'. rewrite (try_some _ _ _ _ _ _ _ E').
  eexists. split; [reflexivity|]. split; [exact NE' | apply R'].
Qed.

(** *** Start tags *)
Definition blank (b : Z) : Prop := b = 32 \/ b = 13 \/ b = 10 \/ b = 9.
(** The bytes of values without quotes. *)
Definition bare_byte (b : Z) : Prop := 97 <= b <= 122 \/ 65 <= b <= 90 \/ 48 <= b <= 57 \/ b = 95 \/ b = 58 \/ b = 45.
Definition starts (P : Z -> Prop) (i : bytes) : Prop := match i with [] => False | b :: _ => P b end.
(** How a tag ends: with ">", with "/>", with the input. *)
Inductive tag_end := TagOpen | TagEmpty | TagCut.
(** The text of a start tag behind the name, its attributes, its end and the text behind it; [m]: there were attributes before. *)
Inductive loose_attrs (e : bytes -> option bytes) : bool -> bytes -> list attr -> tag_end -> bytes -> Prop :=
| la_open : forall m w rest, Forall blank w -> loose_attrs e m (w ++ 62 :: rest) [] TagOpen rest
| la_empty : forall m w rest, Forall blank w -> loose_attrs e m (w ++ 47 :: 62 :: rest) [] TagEmpty rest
| la_quoted : forall m w n w1 w2 q i v inp a z rest, Forall blank w -> Forall blank w1 -> Forall blank w2 -> rawname n -> q = 34 \/ q = 39 ->
    loose e (Some q) i v -> xml_text v -> loose_attrs e true inp a z rest ->
    loose_attrs e m (w ++ name_text n ++ w1 ++ 61 :: w2 ++ q :: i ++ q :: inp) (mkattr n v :: a) z rest
(* from here on: what is an error in strict mode *)
| la_bare : forall m w n w1 w2 v inp a z rest, Forall blank w -> Forall blank w1 -> Forall blank w2 -> rawname n -> Forall bare_byte v ->
    starts (fun b => ~ bare_byte b /\ (v = [] -> ~ blank b /\ b <> 34 /\ b <> 39)) inp -> loose_attrs e true inp a z rest ->
    loose_attrs e m (w ++ name_text n ++ w1 ++ 61 :: w2 ++ v ++ inp) (mkattr n v :: a) z rest
| la_missing : forall m w n w1 x inp a z rest, Forall blank w -> Forall blank w1 -> rawname n ->
    ~ blank x -> x <> 61 -> (w1 = [] -> ~ word_byte x) -> loose_attrs e true inp a z rest ->
    loose_attrs e m (w ++ name_text n ++ w1 ++ x :: inp) (mkattr n (local n) :: a) z rest
| la_cut : forall w, Forall blank w -> loose_attrs e true w [] TagCut [].

Lemma blank_space : forall b, blank b <-> is_space b = true.
Proof. intros b. unfold blank, is_space. lia. Qed.
Lemma skip_blank : forall w t, Forall blank w -> match t with [] => True | b :: _ => ~ blank b end -> skip_space (w ++ t) = t.
Proof.
  intros w t W T. induction W as [|b w B W IH]; cbn [app skip_space].
  - destruct t as [|b t]; [reflexivity|]. cbn [skip_space]. rewrite blank_space in T. destruct (is_space b); congruence.
  - apply blank_space in B. rewrite B. exact IH.
Qed.
Lemma blank_first : forall w b t, Forall blank w -> (w = [] -> name_byte b = false) -> exists x y, w ++ b :: t = x :: y /\ name_byte x = false.
Proof.
  intros [|x w] b t W B; [exists b, t; auto|]. exists x, (w ++ b :: t). split; [reflexivity|]. inversion W as [|? ? X _]; subst.
  destruct X as [->|[->|[->| ->]]]; reflexivity.
Qed.
Lemma name_start : forall n, rawname n -> exists b t, name_text n = b :: t /\ ~ blank b /\ b <> 47 /\ b <> 62.
Proof.
  intros n R. destruct (name_text_head n R) as (b & t & E & H). exists b, t. split; [exact E|]. unfold blank, within in *. lia.
Qed.
Lemma bare_is : forall b, bare_byte b <-> is_value_byte b = true.
Proof. intros b. unfold bare_byte, is_value_byte, within. lia. Qed.

Lemma value_reads : forall fe v b t k buf s, Forall bare_byte v -> ~ bare_byte b -> rd fe (v ++ b :: t) buf s -> (length (v ++ b :: t) < k)%nat ->
  exists s', value_loop k s = Some (Some tt, s') /\ rd fe (b :: t) (buf ++ v) s'.
Proof.
  intros fe. induction v as [|x v IH]; intros b t k buf s F B R K; (destruct k as [|k]; [lia|]); cbn [app value_loop] in *.
  - destruct (must_some _ _ _ _ _ R) as (s1 & E & N). rewrite !(try_some _ _ _ _ _ _ _ E).
    assert (X : is_value_byte b = false) by (rewrite bare_is in B; destruct (is_value_byte b); congruence). rewrite X, ldo_eq.
    destruct (unget _ b _ _ _ N) as [R1 _]. exists (ungetc b s1). rewrite app_nil_r. auto.
  - inversion F as [|? ? X F']; subst. apply bare_is in X. destruct (must_some _ _ _ _ _ R) as (s1 & E & N). rewrite !(try_some _ _ _ _ _ _ _ E), X, ldo_eq.
    destruct (IH b t k (buf ++ [x]) (put x s1) F' B (new_rd _ _ _ _ (new_put _ _ _ _ x N)) ltac:(simpl in K; lia)) as (s' & E' & R'). exists s'. rewrite <- app_assoc in R'. auto.
Qed.

(** Up to the byte behind the name and its blanks. *)
Lemma attr_name : forall c fe k acc w n w1 x t buf s, Forall blank w -> rawname n -> Forall blank w1 -> ~ blank x -> (w1 = [] -> name_byte x = false) ->
  rd fe (w ++ name_text n ++ w1 ++ x :: t) buf s ->
  exists s' buf', new fe t buf' s' /\ l_fresh s' = false /\
    attrs_loop_b (S k) c acc s =
      (if negb (x =? 61) then if c_strict c then lfail (str "attribute name without = in element") else attrs_loop_b k c (acc ++ [mkattr n (local n)])
       else try _ <- lspace; try v <- attrval_b c; attrs_loop_b k c (acc ++ [mkattr n v])) s'.
Proof.
  intros c fe k acc w n w1 x t buf s W RN W1 X WX R. cbn [attrs_loop_b]. destruct (name_start n RN) as (b & y & EN & NB & N47 & N62).
  destruct (lspace_sim _ _ _ _ R) as (s1 & E1 & R1). rewrite !(try_some _ _ _ _ _ _ _ E1).
  rewrite skip_blank in R1 by (auto; rewrite EN; simpl; exact NB).
  assert (R1' := R1). rewrite EN in R1'. cbn [app] in R1'. destruct (must_some _ _ _ _ _ R1') as (s2 & E2 & N2). Transparent lmust. unfold lmust in E2. Opaque lmust.
  inversion E2 as [E3]. rewrite E3. replace (b =? 47) with false by lia. replace (b =? 62) with false by lia. rewrite !ldo_eq.
  destruct (unget _ b _ _ _ N2) as [R3 NE3]. pose proof (nsname_sim _ _ _ _ R3) as H.
  change (b :: y ++ w1 ++ x :: t) with ((b :: y) ++ w1 ++ x :: t) in H. rewrite <- EN in H.
  destruct (blank_first w1 x t W1 WX) as (b' & y' & EB & NB'). rewrite EB, get_nsname_text in H by auto. destruct H as (s4 & bf & E4 & R4 & NE4).
  rewrite !(msg_some _ _ _ _ _ _ _ _ E4). pose proof (nsname_puts _ _ _ E4) as FR4. rewrite <- EB in R4.
  destruct (lspace_sim _ _ _ _ R4) as (s5 & E5 & R5). rewrite !(try_some _ _ _ _ _ _ _ E5). rewrite skip_blank in R5 by auto.
  pose proof (loud_keeps _ _ (lspace_loud) _ _ _ FR4 E5) as FR5.
  destruct (must_some _ _ _ _ _ R5) as (s6 & E6 & N6). rewrite !(try_some _ _ _ _ _ _ _ E6). pose proof (loud_keeps _ _ (must_loud) _ _ _ FR5 E6) as FR6.
  exists s6, bf. auto.
Qed.

Lemma loose_tag : forall c fe, c_strict c = false -> forall m inp a z rest, loose_attrs (c_entity c) m inp a z rest ->
  forall k acc buf s, (m = true -> acc <> []) -> rd fe inp buf s -> (length inp < k)%nat ->
  exists s', attrs_loop_b k c acc s = Some (Some (acc ++ a, match z with TagEmpty => true | _ => false end), s') /\
    match z with TagCut => failed fe unexpected_eof s' /\ rest = [] | _ => l_err s' = None /\ exists bf, rd fe rest bf s' end.
Proof.
  intros c fe ST m inp a z rest H. induction H as [m w rest W|m w rest W|m w n w1 w2 q i v inp a z rest W W1 W2 RN Q LO XT H IH
    |m w n w1 w2 v inp a z rest W W1 W2 RN VB SB H IH|m w n w1 x inp a z rest W W1 RN X61 XB XW H IH|w W];
    intros k acc buf s M R K; (destruct k as [|k]; [lia|]).
  - cbn [attrs_loop_b]. destruct (lspace_sim _ _ _ _ R) as (s1 & E1 & R1). rewrite !(try_some _ _ _ _ _ _ _ E1).
    rewrite skip_blank in R1 by (auto; unfold blank; lia). destruct (must_some _ _ _ _ _ R1) as (s2 & E2 & N2). Transparent lmust. unfold lmust in E2. Opaque lmust.
    inversion E2 as [E3]. rewrite E3, app_nil_r. exists s2. split; [reflexivity|]. split; [apply N2 | exists buf; apply N2].
  - cbn [attrs_loop_b]. destruct (lspace_sim _ _ _ _ R) as (s1 & E1 & R1). rewrite !(try_some _ _ _ _ _ _ _ E1).
    rewrite skip_blank in R1 by (auto; unfold blank; lia). destruct (must_some _ _ _ _ _ R1) as (s2 & E2 & N2). Transparent lmust. unfold lmust in E2. Opaque lmust.
    inversion E2 as [E3]. rewrite E3, app_nil_r. change (47 =? 47) with true. cbv iota.
    destruct (must_some _ _ _ _ _ (new_rd _ _ _ _ N2)) as (s3 & E4 & N3). rewrite !(try_some _ _ _ _ _ _ _ E4).
    exists s3. split; [reflexivity|]. split; [apply N3 | exists buf; apply N3].
  - destruct (attr_name c fe k acc w n w1 61 _ buf s W RN W1 ltac:(unfold blank; lia) ltac:(reflexivity) R) as (s1 & bf & N1 & F1 & E1). rewrite E1.
    change (negb (61 =? 61)) with false. cbv iota. destruct (lspace_sim _ _ _ _ (new_rd _ _ _ _ N1)) as (s2 & E2 & R2). rewrite (try_some _ _ _ _ _ _ _ E2).
    rewrite skip_blank in R2 by (auto; unfold blank; lia). pose proof (loud_keeps _ _ (lspace_loud) _ _ _ F1 E2) as F2.
    destruct (must_some _ _ _ _ _ R2) as (s3 & E3 & N3). pose proof (loud_keeps _ _ must_loud _ _ _ F2 E3) as F3.
    destruct (loose_text c fe (Some q) i v bf s3 q inp ST LO XT ltac:(simpl; auto) (new_rd _ _ _ _ N3)) as (s4 & E4 & R4 & NE4).
    pose proof (loud_keeps _ _ (text_loud c (Some q) false) _ _ _ F3 E4) as F4. rewrite F4 in E4.
    assert (EV : attrval_b c s2 = Some (Some v, s4)).
    { unfold attrval_b. rewrite (try_some _ _ _ _ _ _ _ E3). replace ((q =? 34) || (q =? 39)) with true by lia. exact E4. }
    rewrite (try_some _ _ _ _ _ _ _ EV).
    destruct (IH k (acc ++ [mkattr n v]) v s4 ltac:(intros _ Z; destruct acc; discriminate) R4 ltac:(shorter)) as (s' & E' & P).
    exists s'. rewrite <- app_assoc in E'. auto.
  - destruct inp as [|x inp]; [destruct SB|]. destruct SB as [XB XQ].
    destruct (attr_name c fe k acc w n w1 61 _ buf s W RN W1 ltac:(unfold blank; lia) ltac:(reflexivity) R) as (s1 & bf & N1 & F1 & E1). rewrite E1.
    change (negb (61 =? 61)) with false. cbv iota. destruct (lspace_sim _ _ _ _ (new_rd _ _ _ _ N1)) as (s2 & E2 & R2). rewrite (try_some _ _ _ _ _ _ _ E2).
    pose proof (loud_keeps _ _ (lspace_loud) _ _ _ F1 E2) as F2.
    assert (HD : exists y t, v ++ x :: inp = y :: t /\ ~ blank y /\ y <> 34 /\ y <> 39).
    { destruct v as [|y v]; [exists x, inp; split; [reflexivity|]; apply XQ; reflexivity|]. exists y, (v ++ x :: inp). split; [reflexivity|]. inversion VB; subst. unfold bare_byte, blank in *. lia. }
    destruct HD as (y & t & EY & YB & Y1 & Y2). rewrite skip_blank in R2 by (auto; rewrite EY; exact YB).
    rewrite EY in R2. destruct (must_some _ _ _ _ _ R2) as (s3 & E3 & N3). pose proof (loud_keeps _ _ must_loud _ _ _ F2 E3) as F3.
    destruct (unget _ y _ _ _ N3) as [R4 _]. rewrite <- EY in R4. pose proof (rd_reset _ _ _ _ R4) as R5.
    destruct (value_reads fe v x inp (lfuel (reset (ungetc y s3))) [] _ VB XB R5 (rd_fuel _ _ _ _ R5)) as (s6 & E6 & R6).
    assert (F6 : l_fresh s6 = false) by (refine (loud_keeps _ _ (value_loop_loud _) _ _ _ _ E6); exact F3).
    assert (EV : attrval_b c s2 = Some (Some v, s6)).
    { unfold attrval_b. rewrite (try_some _ _ _ _ _ _ _ E3). replace ((y =? 34) || (y =? 39)) with false by lia. rewrite ST, !ldo_eq, (try_some _ _ _ _ _ _ _ E6), F6.
      pose proof R6 as (_ & _ & _ & _ & B6). rewrite B6. reflexivity. }
    rewrite (try_some _ _ _ _ _ _ _ EV).
    destruct (IH k (acc ++ [mkattr n v]) _ s6 ltac:(intros _ Z; destruct acc; discriminate) R6 ltac:(shorter)) as (s' & E' & P).
    exists s'. rewrite <- app_assoc in E'. auto.
  - assert (XW' : w1 = [] -> name_byte x = false) by (intros Z; specialize (XW Z); rewrite word_name in XW; destruct (name_byte x); congruence).
    destruct (attr_name c fe k acc w n w1 x _ buf s W RN W1 X61 XW' R) as (s1 & bf & N1 & F1 & E1). rewrite E1.
    replace (x =? 61) with false by lia. cbn [negb]. rewrite ST.
    destruct (IH k (acc ++ [mkattr n (local n)]) _ s1 ltac:(intros _ Z; destruct acc; discriminate) (new_rd _ _ _ _ N1) ltac:(shorter)) as (s' & E' & P).
    exists s'. rewrite <- app_assoc in E'. auto.
  - cbn [attrs_loop_b]. destruct (lspace_sim _ _ _ _ R) as (s1 & E1 & R1). rewrite !(try_some _ _ _ _ _ _ _ E1).
    rewrite <- (app_nil_r w), skip_blank in R1 by auto. destruct (must_end _ _ _ R1) as (s2 & E2 & F). Transparent lmust. unfold lmust in E2. Opaque lmust.
    inversion E2 as [E3]. rewrite E3, ST, app_nil_r. destruct acc as [|x acc]; [destruct (M eq_refl); reflexivity|]. exists s2. auto.
Qed.

Theorem C71_tag : forall c r ts d n body a z rest, c_strict c = false -> got_tokens c (new_bdec r) ts d -> b_err d = None -> b_close d = None -> b_depth d = 0 ->
  view (b_lex d) = 60 :: name_text n ++ body -> rawname n -> starts (fun b => ~ word_byte b) body -> loose_attrs (c_entity c) false body a z rest ->
  exists d', RawToken c d = Some ((Some (TStart n a), None), d') /\
    match z with
    | TagOpen => b_err d' = None /\ b_close d' = None /\ view (b_lex d') = rest
    | TagEmpty => exists d'', RawToken c d' = Some ((Some (TEnd n), None), d'') /\ b_err d'' = None /\ b_close d'' = None /\ view (b_lex d'') = rest
    | TagCut => RawToken c d' = Some ((None, Some (match s_end (l_src (b_lex d)) with FEof => LSyntax (str "unexpected EOF") (l_line (b_lex d')) | fe => LRead fe end)), d')
    end.
Proof.
  intros c r ts d n body a z rest ST G NE NC DP V RN SB LA. pose proof (at_bytes _ _ _ _ _ G NE V) as R. set (fe := s_end (l_src (b_lex d))) in *.
  destruct body as [|x body]; [destruct SB|]. simpl in SB. assert (XN : name_byte x = false) by (rewrite word_name in SB; destruct (name_byte x); congruence).
  assert (P : exists s', raw_token_b c (b_lex d) = Some (Some (TStart n a, match z with TagEmpty => Some n | _ => None end), s') /\
    match z with TagCut => failed fe unexpected_eof s' /\ rest = [] | _ => l_err s' = None /\ exists bf, rd fe rest bf s' end).
  { unfold raw_token_b. destruct (getc_some _ _ _ _ _ R) as (s1 & E1 & N1). rewrite E1. change (negb (60 =? 60)) with false. cbv iota.
    destruct (name_text_head n RN) as (b & y & EN & HB). pose proof (new_rd _ _ _ _ N1) as R1. rewrite EN in R1. cbn [app] in R1.
    destruct (must_some _ _ _ _ _ R1) as (s2 & E2 & N2). rewrite (try_some _ _ _ _ _ _ _ E2). unfold within in HB.
    replace (b =? 47) with false by lia. replace (b =? 63) with false by lia. replace (b =? 33) with false by lia. rewrite ldo_eq.
    destruct (unget _ b _ _ _ N2) as [R3 NE3]. pose proof (nsname_sim _ _ _ _ R3) as H. change (b :: y ++ x :: body) with ((b :: y) ++ x :: body) in H.
    rewrite <- EN, get_nsname_text in H by auto. destruct H as (s4 & bf & E4 & R4 & NE4). rewrite (msg_some _ _ _ _ _ _ _ _ E4).
    destruct (loose_tag c fe ST false (x :: body) a z rest LA (lfuel s4) [] bf s4 ltac:(discriminate) R4 (rd_fuel _ _ _ _ R4)) as (s' & E' & P).
    rewrite (try_some _ _ _ _ _ _ _ E'). exists s'. split; [|exact P]. destruct z; reflexivity. }
  destruct P as (s' & E & P). unfold RawToken at 1. unfold raw_b. rewrite DP, NE, NC, E. change (0 <? 0) with false. cbv iota. eexists. split; [reflexivity|].
  destruct z.
  - destruct P as [NE' (bf & R')]. split; [exact NE'|]. split; [reflexivity | apply R'].
  - destruct P as [NE' (bf & R')]. unfold RawToken, raw_b, b_err, with_close, with_lex. simpl. rewrite DP, NE'. simpl. eexists. split; [reflexivity|]. simpl. split; [exact NE'|]. split; [reflexivity | apply R'].
  - destruct P as [F _]. unfold failed, low_err in F. unfold RawToken, raw_b, b_err, with_close, with_lex. simpl. rewrite DP, F. simpl. rewrite F. destruct fe; reflexivity.
Qed.

(** *** Elements that close themselves *)
(** What a returned start tag leaves. *)
Lemma start_left : forall c d n' a d1, Token c d = Some ((Some (TStart n' a), None), d1) ->
  b_tok d1 = None /\ exists n stk, b_stk d1 = BStart n :: stk /\ local n = local n' /\ translate_b c (b_ns d1) n true = n'.
Proof.
  intros c d n' a d1 E.
  assert (F : forall t d0, b_tok d0 = None -> finish c t d0 = ((Some (TStart n' a), None), d1) ->
    b_tok d1 = None /\ exists n stk, b_stk d1 = BStart n :: stk /\ local n = local n' /\ translate_b c (b_ns d1) n true = n').
  { intros t d0 TK FI. unfold finish in FI. destruct t as [[n at_|n|s|s|tg s|s]|]; try discriminate.
    - destruct (declare_b at_ (b_stk d0, b_ns d0)) as [[stk m] [msg|]]; [discriminate|]. inversion FI; subst. split; [exact TK|]. exists n, stk. split; [reflexivity|].
      split; [symmetry; apply translate_local | reflexivity].
    - destruct (pop_b c n d0) as [[n0|] d2]; discriminate. }
  assert (A : forall t d0, b_tok d0 = None -> (let '(t', d') := auto c t d0 in finish c t' d') = ((Some (TStart n' a), None), d1) ->
    b_tok d1 = None /\ exists n stk, b_stk d1 = BStart n :: stk /\ local n = local n' /\ translate_b c (b_ns d1) n true = n').
  { intros t d0 TK. unfold auto. destruct (c_strict c); [apply F; exact TK|]. destruct (auto_close c t d0) as [t1|] eqn:AC; [|apply F; exact TK].
    unfold auto_close in AC. destruct (b_stk d0) as [|[s|p u ok|] stk]; try discriminate. destruct (existsb _ _); [|discriminate].
    assert (T1 : t1 = TEnd s) by (destruct t as [[]|]; try (inversion AC; reflexivity); destruct (c_fold c _ _); inversion AC; reflexivity). subst t1.
    cbn [finish]. destruct (pop_b c s (with_tok t d0)) as [[n0|] d2]; discriminate. }
  unfold Token in E.
  assert (E' : match b_tok d with
      | Some t => let '(t', d') := auto c (Some t) (with_tok None d) in Some (finish c t' d')
      | None => match raw_b c d with
          | None => None
          | Some (t, d') => match t, b_err d' with
              | None, Some e => Some ((None, Some match e, b_stk d' with LRead FEof, _ :: _ => LSyntax (str "unexpected EOF") (l_line (b_lex d')) | _, _ => e end), d')
              | _, _ => let '(t', d'') := auto c t d' in Some (finish c t' d'')
              end
          end
      end = Some ((Some (TStart n' a), None), d1)) by (destruct (b_stk d) as [|[s|p u ok|] stk]; [exact E | exact E | exact E | discriminate]).
  destruct (b_tok d) as [t|] eqn:TK.
  - apply (A (Some t) (with_tok None d) eq_refl). destruct (auto c (Some t) (with_tok None d)). inversion E'. reflexivity.
  - destruct (raw_b c d) as [[t d']|] eqn:RB; [|discriminate].
    assert (TK' : b_tok d' = None).
    { unfold raw_b in RB. destruct (b_err d); [inversion RB; subst; exact TK|]. destruct (b_close d); [inversion RB; subst; exact TK|].
      destruct (raw_token_b c (b_lex d)) as [[[[t0 cl]|] s]|]; inversion RB; subst; exact TK. }
    apply (A t d' TK'). destruct t as [t|]; [|destruct (b_err d'); [discriminate|]]; (destruct (auto c _ d'); inversion E'; reflexivity).
Qed.

Lemma undo_in : forall stk m x, In x (fst (undo_b stk m)) -> In x stk.
Proof. induction stk as [|[s|p u ok|] stk IH]; intros m x H; try exact H. simpl in H. right. eapply IH. exact H. Qed.
Theorem C72_auto : forall c r ts d n' a d1 t d2, c_strict c = false -> (forall x, c_fold c x x = true) -> got_tokens c (new_bdec r) ts d ->
  Token c d = Some ((Some (TStart n' a), None), d1) -> existsb (fun x => c_fold c x (local n')) (c_close c) = true -> b_close d1 = None ->
  RawToken c d1 = Some ((Some t, None), d2) -> (forall m, t = TEnd m -> c_fold c (local m) (local n') = false) ->
  exists n d3 e1, Token c d1 = Some ((Some (TEnd n'), None), d3) /\
    Token c (with_close (Some n) d1) = Some ((Some (TEnd n'), None), e1) /\ Token c d3 = Token c e1.
Proof.
  intros c r ts d n' a d1 t d2 ST RF G E AC NC RT NT. destruct (reached _ _ _ _ (got_more _ _ _ _ _ _ G E)) as [_ CX]. pose proof (cx_eof _ _ _ _ _ CX) as NEOF. clear CX.
  destruct (start_left _ _ _ _ _ E) as (TK & n & stk & SK & LO & TR).
  unfold RawToken in RT. destruct (0 <? b_depth d1) eqn:DP; [discriminate|]. destruct (raw_b c d1) as [[[t0|] d0]|] eqn:RB; [|destruct (b_err d0); discriminate | discriminate].
  inversion RT; subst t0 d0. clear RT.
  assert (NE : b_err d1 = None) by (unfold raw_b in RB; destruct (b_err d1); [discriminate | reflexivity]).
  assert (RB2 := RB). unfold raw_b in RB2. rewrite NE, NC in RB2. destruct (raw_token_b c (b_lex d1)) as [[[[t0 cl]|] s]|] eqn:RT; inversion RB2; subst t0 d2. clear RB2.
  destruct d1 as [lx cl1 stk1 ns1 tk1 dp1]. simpl in *. subst stk1 tk1 cl1.
  assert (EX : existsb (fun x => c_fold c x (local n)) (c_close c) = true) by (rewrite LO; exact AC).
  assert (POP : forall q cc tk, pop_b c n (mkb q cc (BStart n :: stk) ns1 tk dp1) =
    (Some n', let '(stk', m') := undo_b stk ns1 in mkb q cc stk' m' tk dp1)).
  { intros q cc tk. unfold pop_b. simpl. rewrite !beq_refl. cbn [negb]. destruct (undo_b stk ns1) as [stk' m'] eqn:U. simpl. rewrite TR. reflexivity. }
  destruct (undo_b stk ns1) as [stk' m'] eqn:U.
  assert (NB : ~ In BEof stk') by (intros Z; apply NEOF; right; apply (undo_in stk ns1 BEof); rewrite U; exact Z).
  exists n, (mkb s cl stk' m' (Some t) dp1), (mkb lx None stk' m' None dp1).
  assert (T1 : auto_close c (Some t) (mkb s cl (BStart n :: stk) ns1 None dp1) = Some (TEnd n)).
  { unfold auto_close. simpl. rewrite EX. destruct t; try reflexivity. rewrite LO, (NT _ eq_refl). reflexivity. }
  split; [|split].
  - unfold Token. cbn [b_stk b_tok]. rewrite RB. unfold with_close, with_lex. simpl. unfold auto. rewrite ST, T1. cbn [finish]. unfold with_tok. simpl. rewrite POP. reflexivity.
  - unfold Token, with_close. cbn [b_stk b_tok b_lex b_ns b_depth]. unfold raw_b. unfold b_err in *. cbn [b_lex b_close]. simpl in NE. rewrite NE. unfold with_close. cbn [b_lex b_stk b_ns b_tok b_depth].
    unfold auto. rewrite ST. unfold auto_close. cbn [b_stk]. rewrite EX, RF. cbn [finish]. rewrite POP. reflexivity.
  - unfold Token. cbn [b_stk b_tok]. destruct stk' as [|[x|p u ok|] stk']; [| | |destruct NB; left; reflexivity];
      unfold raw_b, b_err in *; cbn [b_lex b_close]; simpl in NE; rewrite NE, RT; unfold with_close, with_lex, with_tok; simpl; destruct (auto c (Some t) _); reflexivity.
Qed.


(** An end tag of the same name that follows closes the element, no other end is made and nothing stays pending. *)
Theorem C72_closed : forall c d n a0 x n' a d1 d2, (forall x, c_fold c x x = true) -> b_tok d = None ->
  RawToken c d = Some ((Some (TStart n a0), None), x) -> Token c d = Some ((Some (TStart n' a), None), d1) ->
  RawToken c d1 = Some ((Some (TEnd n), None), d2) ->
  exists d3, Token c d1 = Some ((Some (TEnd n'), None), d3) /\ b_tok d3 = None /\ b_lex d3 = b_lex d2 /\ b_close d3 = b_close d2.
Proof.
  intros c d n a0 x n' a d1 d2 RF TK RT E RT1.
  unfold RawToken in RT. destruct (0 <? b_depth d); [discriminate|]. destruct (raw_b c d) as [[[t|] y]|] eqn:RB; [|destruct (b_err y); discriminate | discriminate].
  inversion RT; subst t y. clear RT. destruct (rawb_rest _ _ _ _ RB) as (S1 & S2 & S3 & _).
  assert (NEOF : forall stk, b_stk d <> BEof :: stk) by (intros stk Z; unfold Token in E; rewrite Z in E; discriminate).
  assert (TOP : exists stk, b_stk d1 = BStart n :: stk /\ b_tok d1 = None /\ translate_b c (b_ns d1) n true = n').
  { unfold Token in E. rewrite TK, RB in E.
    assert (E' : (let '(t', d'') := auto c (Some (TStart n a0)) x in Some (finish c t' d'')) = Some ((Some (TStart n' a), None), d1))
      by (destruct (b_stk d) as [|[s|p u ok|] stk]; [exact E | exact E | exact E | destruct (NEOF stk eq_refl)]).
    clear E. unfold auto in E'. destruct (if c_strict c then _ else _) as [t' d''] eqn:A.
    assert (C : t' = Some (TStart n a0) /\ d'' = x \/ exists s, t' = Some (TEnd s)).
    { destruct (c_strict c); [inversion A; auto|]. unfold auto_close in A. destruct (b_stk x) as [|[s|p u ok|] stk]; try (inversion A; auto; fail).
      destruct (existsb _ _); inversion A; eauto. }
    destruct C as [[-> ->]|[s ->]].
    - cbn [finish] in E'. destruct (declare_b a0 (b_stk x, b_ns x)) as [[stk m] [msg|]]; inversion E'; subst. exists stk. split; [reflexivity|]. split; [exact (eq_trans S3 TK) | reflexivity].
    - cbn [finish] in E'. destruct (pop_b c s d'') as [[k|] z]; discriminate. }
  destruct TOP as (stk & SK & TK1 & TR). unfold RawToken in RT1. destruct (0 <? b_depth d1); [discriminate|].
  destruct (raw_b c d1) as [[[t|] y]|] eqn:RB1; [|destruct (b_err y); discriminate | discriminate]. inversion RT1; subst t y. clear RT1.
  destruct (rawb_rest _ _ _ _ RB1) as (T1 & T2 & T3 & _). unfold Token. rewrite SK, TK1, RB1.
  assert (A : auto c (Some (TEnd n)) d2 = (Some (TEnd n), d2)).
  { unfold auto, auto_close. destruct (c_strict c); [reflexivity|]. rewrite T1, SK, RF. destruct (existsb _ _); reflexivity. }
  rewrite A. cbn [finish]. unfold pop_b. rewrite T1, SK, !beq_refl. cbn [negb]. cbn [b_ns with_stk]. rewrite T2. destruct (undo_b stk (b_ns d1)) as [stk' m'].
  rewrite TR. eexists. split; [reflexivity|]. cbn. split; [exact (eq_trans T3 TK1)|]. split; reflexivity.
Qed.
Print Assumptions C72_closed.

(** With letters compared as strings.EqualFold does, an element of AutoClose is recognised in any case, but its end tag in
    another case is taken for that of an element around it: the tokens that an end tag in the same case gives are not read. *)
Definition ascii_fold (a b : bytes) : bool :=
  let low := map (fun x => if (65 <=? x) && (x <=? 90) then x + 32 else x) in beq (low a) (low b).
Definition closing : cfg := mkcfg false [str "br"] ascii_fold (fun _ => None) None [].
Theorem C72_case_refuted :
  ~ (forall n m, ascii_fold n m = true -> ascii_fold n (str "br") = true ->
       tokens 5 closing (text (str "<a><" ++ n ++ str "></" ++ m ++ str "></a>")) =
       tokens 5 closing (text (str "<a><" ++ n ++ str "></" ++ n ++ str "></a>"))).
Proof. intros H. specialize (H (str "br") (str "BR") eq_refl eq_refl). vm_compute in H. discriminate H. Qed.
Print Assumptions C72_case_refuted.

(** *** Examples *)
Ltac bytes_in := cbn; repeat (apply Forall_cons; [unfold word_byte, bare_byte; simpl; lia|]); apply Forall_nil.
(** A text that strict mode refuses: references that are not ended, not known, not numbers. *)
Example C71_example :
  loose (c_entity lax) None (str "R&D &lt;&nbsp;&#x41;&#;") (str "R&D <&nbsp;A&#;") /\
  tokens 2 lax (text (str "<a>R&D &lt;&nbsp;&#x41;&#;</a>")) = [(Some (TStart (nm "" "a") []), None); (Some (TChar (str "R&D <&nbsp;A&#;")), None)] /\
  nth_error (map snd (tokens 2 std (text (str "<a>R&D &lt;&nbsp;&#x41;&#;</a>")))) 1 = Some (Some (LSyntax (str "invalid character entity") 1)).
Proof.
  split; [|vm_compute; split; reflexivity].
  apply lo_char; try (simpl; lia). apply (lo_word _ _ (str "D")); [bytes_in | cbn; unfold word_byte; repeat split; try lia; intros; discriminate|].
  apply lo_char; try (simpl; lia). apply (lo_standard _ _ (str "lt") 60); [simpl; auto|].
  apply (lo_unknown _ _ (str "nbsp")); [bytes_in | vm_compute; intuition discriminate | reflexivity|].
  apply (lo_number _ _ true (str "41") 65 _ (str "&#;")); [discriminate | | lia |].
  - apply (nu_digit true (str "4") 49 1 4); [apply (nu_digit true [] 52 4 0); [constructor|]|]; unfold digit; simpl; lia.
  - apply (lo_large _ _ false [] 0 [] []); [constructor | auto | constructor].
Qed.
(** A tag with a bare value, one in single quotes, none (the byte / is dropped), an empty one. *)
Example C71_tag_example :
  loose_attrs (c_entity lax) false (str " b=c:1 d = 'R&D' e/ f=>x") [mkattr (nm "" "b") (str "c:1"); mkattr (nm "" "d") (str "R&D"); mkattr (nm "" "e") (str "e"); mkattr (nm "" "f") []] TagOpen (str "x") /\
  tokens 2 lax (text (str "<a b=c:1 d = 'R&D' e/ f=>x<")) =
    [(Some (TStart (nm "" "a") [mkattr (nm "" "b") (str "c:1"); mkattr (nm "" "d") (str "R&D"); mkattr (nm "" "e") (str "e"); mkattr (nm "" "f") []]), None); (Some (TChar (str "x")), None)] /\
  tokens 2 lax (text (str "<a b='1' ")) = [(Some (TStart (nm "" "a") [mkattr (nm "" "b") (str "1")]), None); (None, Some (LSyntax (str "unexpected EOF") 1))].
Proof.
  split; [|vm_compute; split; reflexivity].
  assert (NM : forall b, In b (str "bdef") -> rawname (mkname [] [b])).
  { intros b H. split; [left; reflexivity|]. cbn in H. destruct H as [<-|[<-|[<-|[<-|[]]]]]; (split; [vm_compute; reflexivity | vm_compute; intuition discriminate]). }
  assert (SP : Forall blank [32]) by (repeat constructor). assert (NO : Forall blank []) by constructor. assert (NB : Forall bare_byte []) by constructor.
  apply (la_bare _ false [32] (nm "" "b") [] [] (str "c:1") (str " d = 'R&D' e/ f=>x")); auto; [apply NM; cbn; auto | bytes_in | cbn; split; [unfold bare_byte; lia | discriminate]|].
  apply (la_quoted _ true [32] (nm "" "d") [32] [32] 39 (str "R&D") (str "R&D") (str " e/ f=>x")); auto; [apply NM; cbn; auto | | apply xml_text_ascii; cbn; repeat (apply Forall_cons; [lia|]); apply Forall_nil |].
  - apply lo_char; try (simpl; lia). apply (lo_word _ _ (str "D") [] []); [bytes_in | exact I | constructor].
  - apply (la_missing _ true [32] (nm "" "e") [] 47 (str " f=>x")); auto; [apply NM; cbn; auto | unfold blank; lia | lia | unfold word_byte; lia |].
    apply (la_bare _ true [32] (nm "" "f") [] [] [] (str ">x")); auto; [apply NM; cbn; auto | cbn; split; [unfold bare_byte; lia | unfold blank; intros; lia] |].
    apply (la_open _ true [] (str "x")). constructor.
Qed.
(** An element that closes itself reads like an empty one. *)
Example C72_example :
  tokens 6 closing (text (str "<a><BR>x</a>")) = tokens 6 closing (text (str "<a><BR/>x</a>")) /\
  tokens 4 closing (text (str "<a><BR>x</a>")) =
    [(Some (TStart (nm "" "a") []), None); (Some (TStart (nm "" "BR") []), None); (Some (TEnd (nm "" "BR")), None); (Some (TChar (str "x")), None)] /\
  map snd (tokens 5 closing (text (str "<a><br></BR></a>"))) = [None; None; None; None; Some (LSyntax (str "unexpected end element") 1)].
Proof. vm_compute. repeat split; reflexivity. Qed.
Print Assumptions C71_text.
Print Assumptions C71_tag.
Print Assumptions C72_auto.
