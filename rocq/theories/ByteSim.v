(** The byte by byte decoder, strict and without extra entities and charsets, reads what Lexer.v says. *)
From Coq Require Import String.
From Coq Require Import ZArith List Bool Lia.
From Coq Require Import ZifyBool ZifyNat.
From Verif Require Import Base Utf8 NameTables Lexer LexerProofs Decoder DecoderProofs ByteDecoder ByteRuns ByteLoud.
Import ListNotations.
Open Scope Z_scope.

(** The options of the decoder that package mpd uses; AutoClose has no effect in strict mode. *)
Record usual (c : cfg) : Prop := mkusual {
  u_strict : c_strict c = true;
  u_entity : forall s, c_entity c s = None;
  u_charset : c_charset c = None;
  u_default : c_default c = []
}.

(** The error in [d.err] for an error of Lexer.v: with the line, and with the reader's own error in place of
    an end of the input that the reader did not report as io.EOF. *)
Definition cdata_eof : bytes := str "unexpected EOF in CDATA section".
Definition bad_version : bytes := str "xml: unsupported version".
Definition bad_charset : bytes := str "xml: encoding declared but Decoder.CharsetReader is nil".
Definition at_end (m : bytes) : bool := beq m (str "unexpected EOF") || beq m cdata_eof.
Definition low_err (fe : rfail) (e : derr) (line : Z) : lerr :=
  match e with
  | EEof => LRead fe
  | ESyntax m =>
      if at_end m then match fe with FEof => LSyntax m line | _ => LRead fe end
      else if beq m bad_version || beq m bad_charset then LOther m
      else LSyntax m line
  end.

(** The unread bytes are [inp], the buffer is [buf]. *)
Definition rd (fe : rfail) (inp buf : bytes) (s : lst) : Prop :=
  view s = inp /\ s_end (l_src s) = fe /\ (l_err s = None \/ inp = [] /\ l_err s = Some (LRead fe)) /\
  interned (l_intern s) /\ l_buf s = buf.
(** A byte was just read. *)
Definition new (fe : rfail) (inp buf : bytes) (s : lst) : Prop := rd fe inp buf s /\ l_next s = None /\ l_err s = None.

Definition failed (fe : rfail) (e : derr) (s : lst) : Prop := l_err s = Some (low_err fe e (l_line s)).

Lemma getc_some : forall fe b t buf s, rd fe (b :: t) buf s -> exists s', getc s = (Some b, s') /\ new fe t buf s'.
Proof.
  intros fe b t buf [src nx ln st off sv bf fr it er] (A & B & C & D & F). unfold getc. simpl in *.
  destruct C as [-> | [X _]]; [|discriminate]. unfold view in A. simpl in A. destruct nx as [x|].
  - inversion A; subst. eexists. split; [reflexivity|]. split; [|auto]. unfold rd, view. simpl. auto 10.
  - rewrite A. eexists. split; [reflexivity|]. split; [|auto]. unfold rd, view. simpl. auto 10.
Qed.
Lemma getc_end : forall fe buf s, rd fe [] buf s ->
  exists s', getc s = (None, s') /\ rd fe [] buf s' /\ l_err s' = Some (LRead fe).
Proof.
  intros fe buf [src nx ln st off sv bf fr it er] (A & B & C & D & F). unfold getc. simpl in *.
  unfold view in A. simpl in A. destruct nx; [discriminate|].
  destruct C as [-> | [_ ->]].
  - rewrite A. eexists. split; [reflexivity|]. simpl. rewrite B. split; [|reflexivity]. unfold rd, view, set_err. simpl. rewrite B. auto 10.
  - eexists. split; [reflexivity|]. split; [|reflexivity]. unfold rd, view. simpl. auto 10.
Qed.
Lemma must_some : forall fe b t buf s, rd fe (b :: t) buf s -> exists s', lmust s = Some (Some b, s') /\ new fe t buf s'.
Proof.
  intros fe b t buf s R. destruct (getc_some _ _ _ _ _ R) as (s' & E & N). exists s'. unfold lmust, mustgetc. rewrite E. auto.
Qed.
Lemma must_end : forall fe buf s, rd fe [] buf s -> exists s', lmust s = Some (None, s') /\ failed fe unexpected_eof s'.
Proof.
  intros fe buf s R. destruct (getc_end _ _ _ R) as (s' & E & R' & X). unfold lmust, mustgetc. rewrite E, X.
  destruct fe; eexists; (split; [reflexivity|]); unfold failed; simpl; auto.
Qed.
Lemma unget : forall fe b t buf s, new fe t buf s -> rd fe (b :: t) buf (ungetc b s) /\ l_err (ungetc b s) = None.
Proof.
  intros fe b t buf s ((A & B & C & D & F) & N & E). split; [|exact E]. unfold rd, view, ungetc in *. simpl. rewrite N in A.
  rewrite A. auto 10.
Qed.
Lemma new_rd : forall fe t buf s, new fe t buf s -> rd fe t buf s. Proof. intros fe t buf s [H _]. exact H. Qed.
Lemma rd_put : forall fe t buf s b, rd fe t buf s -> rd fe t (buf ++ [b]) (put b s).
Proof. intros fe t buf s b (A & B & C & D & F). unfold rd, put, set_buf, view in *. simpl. rewrite F. auto 10. Qed.
Lemma rd_puts : forall fe t buf s b, rd fe t buf s -> rd fe t (buf ++ b) (puts b s).
Proof. intros fe t buf s b (A & B & C & D & F). unfold rd, puts, set_buf, view in *. simpl. rewrite F. auto 10. Qed.
Lemma new_put : forall fe t buf s b, new fe t buf s -> new fe t (buf ++ [b]) (put b s).
Proof. intros fe t buf s b (A & B & C). split; [apply rd_put; auto | auto]. Qed.
Lemma rd_reset : forall fe t buf s, rd fe t buf s -> rd fe t [] (reset s).
Proof. intros fe t buf s (A & B & C & D & F). unfold rd, reset, set_buf, view in *. simpl. auto 10. Qed.
Lemma rd_truncate : forall fe t buf s n, rd fe t buf s -> rd fe t (firstn n buf) (truncate n s).
Proof. intros fe t buf s n (A & B & C & D & F). unfold rd, truncate, set_buf, view in *. simpl. rewrite F. auto 10. Qed.
Lemma rd_fuel : forall fe t buf s, rd fe t buf s -> (length t < lfuel s)%nat.
Proof. intros fe t buf s (A & _). rewrite <- A. apply fuel_view. Qed.

Lemma fail_failed : forall fe m s, at_end m = false -> beq m bad_version = false -> beq m bad_charset = false ->
  failed fe (ESyntax m) (fail m s).
Proof. intros fe m s A B C. unfold failed, low_err. rewrite A, B, C. reflexivity. Qed.
Ltac failt := apply fail_failed; vm_compute; reflexivity.

(** *** Functions *)
Lemma ldo_eq : forall B g (m : L B) s, ldo g m s = m (g s).
Proof. reflexivity. Qed.
Lemma try_some : forall A B (m : L A) (f : A -> L B) s a s', m s = Some (Some a, s') -> ltry m f s = f a s'.
Proof. intros. unfold ltry. rewrite H. reflexivity. Qed.
Lemma try_none : forall A B (m : L A) (f : A -> L B) s s', m s = Some (None, s') -> ltry m f s = Some (None, s').
Proof. intros. unfold ltry. rewrite H. reflexivity. Qed.
Lemma msg_some : forall A B (m : L A) msg (f : A -> L B) s a s', m s = Some (Some a, s') -> ltry_msg m msg f s = f a s'.
Proof. intros. unfold ltry_msg. rewrite H. reflexivity. Qed.
Lemma msg_err : forall A B (m : L A) msg (f : A -> L B) s s' e, m s = Some (None, s') -> l_err s' = Some e ->
  ltry_msg m msg f s = Some (None, s').
Proof. intros. unfold ltry_msg, has_err. rewrite H, H0. reflexivity. Qed.
Lemma msg_none : forall A B (m : L A) msg (f : A -> L B) s s', m s = Some (None, s') -> l_err s' = None ->
  ltry_msg m msg f s = Some (None, fail msg s').
Proof. intros. unfold ltry_msg, has_err. rewrite H, H0. reflexivity. Qed.
Local Opaque lmust lfuel getc mustgetc.
Lemma space_sim : forall fe buf k inp s, rd fe inp buf s -> (length inp < k)%nat ->
  exists s', space_loop k s = Some (Some tt, s') /\ rd fe (skip_space inp) buf s'.
Proof.
  intros fe buf. induction k as [|k IH]; intros inp s R K; [lia|]. simpl. destruct inp as [|b t].
  - destruct (getc_end _ _ _ R) as (s' & E & R' & _). rewrite E. exists s'. auto.
  - destruct (getc_some _ _ _ _ _ R) as (s' & E & N). rewrite E. simpl. destruct (is_space b).
    + apply IH; [apply new_rd; exact N | simpl in K; lia].
    + exists (ungetc b s'). split; auto. apply unget. exact N.
Qed.
Lemma lspace_sim : forall fe buf inp s, rd fe inp buf s -> exists s', lspace s = Some (Some tt, s') /\ rd fe (skip_space inp) buf s'.
Proof. intros. unfold lspace. eapply space_sim; eauto. eapply rd_fuel; eauto. Qed.

Lemma name_loop_sim : forall fe pre k inp acc s, rd fe inp (pre ++ acc) s -> (length inp < k)%nat ->
  match span_name acc inp with
  | NOk x rest => exists s', name_loop k s = Some (Some tt, s') /\ rd fe rest (pre ++ x) s' /\ l_err s' = None
  | NNone => False
  | NEof => exists s', name_loop k s = Some (None, s') /\ failed fe unexpected_eof s'
  end.
Proof.
  intros fe pre. induction k as [|k IH]; intros inp acc s R K; [lia|]. destruct inp as [|b t]; simpl.
  - unfold ltry. destruct (must_end _ _ _ R) as (s' & E & F). rewrite E. exists s'. auto.
  - unfold ltry. destruct (must_some _ _ _ _ _ R) as (s' & E & N). rewrite E. destruct (name_byte b).
    + unfold ldo. apply IH; [|simpl in K; lia]. rewrite app_assoc. apply rd_put. apply new_rd. exact N.
    + exists (ungetc b s'). unfold ldo, lret. split; auto. apply unget. exact N.
Qed.
Lemma read_name_sim : forall fe inp buf s, rd fe inp buf s ->
  match read_name inp with
  | NOk x rest => exists s', read_name_b s = Some (Some tt, s') /\ rd fe rest (buf ++ x) s' /\ l_err s' = None
  | NNone => exists s', read_name_b s = Some (None, s') /\ rd fe inp buf s' /\ l_err s' = None
  | NEof => exists s', read_name_b s = Some (None, s') /\ failed fe unexpected_eof s'
  end.
Proof.
  intros fe inp buf s R. unfold read_name_b, ltry. destruct inp as [|b t]; simpl.
  - destruct (must_end _ _ _ R) as (s' & E & F). rewrite E. exists s'. auto.
  - pose proof (rd_fuel _ _ _ _ R) as K. destruct (must_some _ _ _ _ _ R) as (s' & E & N). rewrite E. destruct (name_byte b).
    + unfold ldo. pose proof (name_loop_sim fe buf (lfuel s) t [b] (put b s') (rd_put _ _ _ _ b (new_rd _ _ _ _ N)) ltac:(simpl in K; lia)) as H.
      destruct (span_name [b] t); auto. contradiction.
    + exists (ungetc b s'). unfold ldo. split; auto. apply unget. exact N.
Qed.
Lemma eof_msg_name : forall s, at_end (str "invalid XML name: " ++ s) = false /\ beq (str "invalid XML name: " ++ s) bad_version = false /\
  beq (str "invalid XML name: " ++ s) bad_charset = false.
Proof. intros s. unfold at_end. simpl. auto. Qed.
Lemma name_sim : forall fe inp buf s, rd fe inp buf s ->
  match get_name inp with
  | inl (x, rest) => exists s', name_b s = Some (Some x, s') /\ rd fe rest x s' /\ l_err s' = None
  | inr None => exists s', name_b s = Some (None, s') /\ l_err s' = None
  | inr (Some e) => exists s', name_b s = Some (None, s') /\ failed fe e s'
  end.
Proof.
  intros fe inp buf s R. unfold name_b, ldo, ltry, get_name.
  pose proof (read_name_sim fe inp [] (reset s) (rd_reset _ _ _ _ R)) as H.
  destruct (read_name inp) as [x rest| |]; destruct H as (s' & E & H).
  - rewrite E. destruct H as [H N]. pose proof H as (A & B & C & D & F). simpl in F. rewrite F. destruct (is_name x).
    + destruct (intern (l_intern s') x) as [i n] eqn:I. destruct (intern_ok _ _ _ _ D I) as (I1 & I2 & _). subst n.
      exists (set_intern i s'). split; [reflexivity|]. split; [|exact N]. unfold rd, set_intern, view in *. simpl. auto 10.
    + eexists. split; [reflexivity|]. destruct (eof_msg_name x) as (Y1 & Y2 & Y3). apply fail_failed; assumption.
  - rewrite E. exists s'. tauto.
  - rewrite E. exists s'. tauto.
Qed.
Lemma nsname_sim : forall fe inp buf s, rd fe inp buf s ->
  match get_nsname inp with
  | inl (n, rest) => exists s' x, nsname_b s = Some (Some n, s') /\ rd fe rest x s' /\ l_err s' = None
  | inr None => exists s', nsname_b s = Some (None, s') /\ l_err s' = None
  | inr (Some e) => exists s', nsname_b s = Some (None, s') /\ failed fe e s'
  end.
Proof.
  intros fe inp buf s R. unfold nsname_b, ltry, get_nsname. pose proof (name_sim fe inp buf s R) as H.
  destruct (get_name inp) as [[x rest]|[e|]]; destruct H as (s' & E & H); rewrite E.
  - destruct (split_ns x); [exists s', x; auto | exists s'; tauto].
  - exists s'. auto.
  - exists s'. auto.
Qed.

(** Digits of a character reference: [b] is the byte already read. *)
Lemma digits_sim : forall base16 fe k t b pre acc s, new fe t (pre ++ acc) s -> (length t < k)%nat ->
  Forall (fun x => hex_digit base16 x <> None) acc ->
  match span_digits base16 (map (fun b => match hex_digit base16 b with Some d => d | None => 0 end) acc) (b :: t) with
  | Some (ds, rest) => exists s' acc' c rest', rest = c :: rest' /\ digits_loop k base16 b s = Some (Some c, s') /\
        new fe rest' (pre ++ acc') s' /\ ds = map (fun b => match hex_digit base16 b with Some d => d | None => 0 end) acc'
  | None => exists s', digits_loop k base16 b s = Some (None, s') /\ failed fe unexpected_eof s'
  end.
Proof.
  intros base16 fe. induction k as [|k IH]; intros t b pre acc s N K F; [lia|].
  cbn [span_digits digits_loop]. destruct (hex_digit base16 b) as [d|] eqn:B.
  - unfold ldo, ltry. pose proof (new_put _ _ _ _ b N) as N1. rewrite <- app_assoc in N1.
    replace (map (fun b0 => match hex_digit base16 b0 with Some d0 => d0 | None => 0 end) acc ++ [d])
      with (map (fun b0 => match hex_digit base16 b0 with Some d0 => d0 | None => 0 end) (acc ++ [b]))
      by (rewrite map_app; simpl; rewrite B; reflexivity).
    destruct t as [|b' t'].
    + destruct (must_end _ _ _ (new_rd _ _ _ _ N1)) as (s' & E & X). rewrite E. simpl. exists s'. auto.
    + destruct (must_some _ _ _ _ _ (new_rd _ _ _ _ N1)) as (s' & E & X). rewrite E. apply IH; auto; [simpl in K; lia|].
      apply Forall_app. split; auto. constructor; auto. congruence.
  - exists s, acc, b, t. unfold lret. repeat split; auto; apply N.
Qed.

Lemma digits_len : forall base16 t acc ds rest, span_digits base16 acc t = Some (ds, rest) -> (length acc <= length ds)%nat.
Proof.
  intros base16. induction t as [|b t IH]; intros acc ds rest H; simpl in H; [discriminate|].
  destruct (hex_digit base16 b).
  - apply IH in H. rewrite app_length in H. lia.
  - inversion H; subst. lia.
Qed.

(** What follows '&': the replacement, nothing, or an error. *)
Lemma entity_sim : forall c fe inp pre s, usual c -> rd fe inp (pre ++ [38]) s -> l_err s = None ->
  match char_entity inp with
  | ROk x rest => exists s' more, entity_b c (length pre) s = Some (Some (Some x), s') /\ rd fe rest (pre ++ more) s' /\ l_err s' = None
  | RErr e => (exists s', entity_b c (length pre) s = Some (None, s') /\ failed fe e s') \/
              e = bad_entity /\ exists s', entity_b c (length pre) s = Some (Some None, s')
  | RFuel => False
  end.
Proof.
  intros c fe inp pre s U R EN. unfold entity_b. destruct inp as [|b t]; cbn [char_entity].
  - left. destruct (must_end _ _ _ R) as (s' & E & F). rewrite (try_none _ _ _ _ _ _ E). exists s'. auto.
  - destruct (must_some _ _ _ _ _ R) as (s1 & E & N). rewrite !(try_some _ _ _ _ _ _ _ E). destruct (b =? 35) eqn:B.
    + rewrite !ldo_eq. pose proof (new_put _ _ _ _ b N) as N1. rewrite <- app_assoc in N1. simpl in N1.
      destruct t as [|x t'].
      * left. destruct (must_end _ _ _ (new_rd _ _ _ _ N1)) as (s' & E2 & F). rewrite !(try_none _ _ _ _ _ _ E2). exists s'. auto.
      * destruct (must_some _ _ _ _ _ (new_rd _ _ _ _ N1)) as (s2 & E2 & N2). rewrite !(try_some _ _ _ _ _ _ _ E2).
        assert (NUM : forall base16 t2 b2 buf2 s3, new fe t2 (pre ++ buf2) s3 ->
          match span_digits base16 [] (b2 :: t2) with
          | None => exists s', (try b <- digits_loop (lfuel s3) base16 b2;
             if negb (b =? 59) then step ungetc b; lret None
             else fun s0 => lret (parse_rune base16 (skipn (length (l_buf s3)) (l_buf s0))) (put 59 s0)) s3 = Some (None, s') /\ failed fe unexpected_eof s'
          | Some (ds, rest) => exists cc rest', rest = cc :: rest' /\
             (if (cc =? 59) && negb (length ds =? 0)%nat && (digits_value (if base16 then 16 else 10) ds <=? 1114111)
              then exists s' more, (try b <- digits_loop (lfuel s3) base16 b2;
               if negb (b =? 59) then step ungetc b; lret None
               else fun s0 => lret (parse_rune base16 (skipn (length (l_buf s3)) (l_buf s0))) (put 59 s0)) s3 =
                 Some (Some (Some (encode_rune (digits_value (if base16 then 16 else 10) ds))), s') /\ rd fe rest' (pre ++ more) s' /\ l_err s' = None
              else exists s', (try b <- digits_loop (lfuel s3) base16 b2;
               if negb (b =? 59) then step ungetc b; lret None
               else fun s0 => lret (parse_rune base16 (skipn (length (l_buf s3)) (l_buf s0))) (put 59 s0)) s3 = Some (Some None, s'))
          end).
        { intros base16 t2 b2 buf2 s3 N3. pose proof (rd_fuel _ _ _ _ (new_rd _ _ _ _ N3)) as K.
          pose proof (digits_sim base16 fe (lfuel s3) t2 b2 (pre ++ buf2) [] s3) as D. rewrite app_nil_r in D.
          specialize (D N3 K (Forall_nil _)). cbn [map] in D.
          destruct (span_digits base16 [] (b2 :: t2)) as [[ds rest]|].
          - destruct D as (s' & acc' & cc & rest' & -> & E3 & N4 & ->). exists cc, rest'. split; [reflexivity|].
            rewrite !(try_some _ _ _ _ _ _ _ E3). destruct N3 as ((_ & _ & _ & _ & BF) & _). rewrite BF.
            pose proof N4 as ((_ & _ & _ & _ & BF4) & NX & NE). destruct (cc =? 59) eqn:C.
            + simpl. rewrite BF4, skipn_app, skipn_all, Nat.sub_diag. simpl. unfold parse_rune. rewrite map_length.
              destruct (negb (length acc' =? 0)%nat && (digits_value (if base16 then 16 else 10) (map (fun b0 => match hex_digit base16 b0 with Some d => d | None => 0 end) acc') <=? 1114111)).
              * exists (put 59 s'), (buf2 ++ acc' ++ [59]). split; [reflexivity|]. split; [|exact NE].
                rewrite !app_assoc. apply rd_put. rewrite <- app_assoc. rewrite <- app_assoc in N4. apply new_rd. exact N4.
              * exists (put 59 s'). reflexivity.
            + simpl. eexists. reflexivity.
          - destruct D as (s' & E3 & F). rewrite !(try_none _ _ _ _ _ _ E3). exists s'. auto. }
        destruct (x =? 120) eqn:X.
        -- rewrite !ldo_eq. pose proof (new_put _ _ _ _ x N2) as N3. rewrite <- app_assoc in N3. simpl in N3.
           destruct t' as [|b3 t3].
           ++ left. destruct (must_end _ _ _ (new_rd _ _ _ _ N3)) as (s' & E3 & F). rewrite !(try_none _ _ _ _ _ _ E3). exists s'. auto.
           ++ destruct (must_some _ _ _ _ _ (new_rd _ _ _ _ N3)) as (s3 & E3 & N4).
              specialize (NUM true t3 b3 _ _ N4). rewrite !(try_some _ _ _ _ _ _ _ E3).
              destruct (span_digits true [] (b3 :: t3)) as [[ds rest]|].
              ** destruct NUM as (cc & rest' & -> & H).
                 destruct ((cc =? 59) && negb (length ds =? 0)%nat && (digits_value 16 ds <=? 1114111)).
                 --- exact H.
                 --- right. split; auto.
              ** left. exact NUM.
        -- specialize (NUM false t' x _ _ N2).
           destruct (span_digits false [] (x :: t')) as [[ds rest]|].
           ++ destruct NUM as (cc & rest' & -> & H).
              destruct ((cc =? 59) && negb (length ds =? 0)%nat && (digits_value 10 ds <=? 1114111)).
              ** exact H.
              ** right. split; auto.
           ++ left. exact NUM.
    + rewrite !ldo_eq. destruct (unget _ b _ _ _ N) as [R1 EN1]. pose proof (read_name_sim _ _ _ _ R1) as H.
      change (if name_byte b then span_name [b] t else NNone) with (read_name (b :: t)).
      destruct (read_name (b :: t)) as [x rest| |]; destruct H as (s2 & E2 & H); rewrite E2.
      * destruct H as [H NE]. destruct rest as [|cc rest'].
        -- left. destruct (must_end _ _ _ H) as (s' & E3 & F). rewrite !(try_none _ _ _ _ _ _ E3). exists s'. auto.
        -- destruct (must_some _ _ _ _ _ H) as (s3 & E3 & N3). rewrite !(try_some _ _ _ _ _ _ _ E3). destruct (cc =? 59) eqn:C; cbn [negb andb].
           ++ assert (BF : skipn (S (length pre)) (l_buf s3) = x).
              { destruct N3 as ((_ & _ & _ & _ & BF) & _). rewrite BF.
                replace (S (length pre)) with (length (pre ++ [38])) by (rewrite app_length; simpl; lia).
                rewrite skipn_app, skipn_all, Nat.sub_diag. reflexivity. }
              rewrite BF. destruct (is_name x).
              ** destruct (entity x) as [r|].
                 --- exists (put 59 s3), ([38] ++ x ++ [59]). split; [reflexivity|]. split; [|apply N3].
                     rewrite !app_assoc. apply rd_put. apply new_rd. exact N3.
                 --- right. split; auto. rewrite (u_entity _ U). eexists. reflexivity.
              ** right. split; auto. eexists. reflexivity.
           ++ right. split; auto. eexists. reflexivity.
      * destruct H as [H NE]. unfold has_err. rewrite NE. right. split; auto.
        destruct (must_some _ _ _ _ _ H) as (s3 & E3 & N3). rewrite !(try_some _ _ _ _ _ _ _ E3). destruct (b =? 59) eqn:C; cbn [negb andb].
        -- destruct N3 as ((_ & _ & _ & _ & BF) & _). rewrite BF.
           replace (S (length pre)) with (length (pre ++ [38])) by (rewrite app_length; simpl; lia).
           rewrite skipn_all. simpl. eexists. reflexivity.
        -- eexists. reflexivity.
      * left. unfold has_err. rewrite H. exists s2. auto.
Qed.

(** The result of a function on bytes against that of Lexer.v, with a condition on the buffer. *)
Definition sim {A} (fe : rfail) (R : res A) (m : option (option A * lst)) (P : A -> lst -> Prop) : Prop :=
  match R with
  | ROk a rest => exists s' buf, m = Some (Some a, s') /\ rd fe rest buf s' /\ P a s'
  | RErr e => exists s', m = Some (None, s') /\ failed fe e s'
  | RFuel => True
  end.

Lemma text_loop_sim : forall c fe quote cdata, usual c -> forall k k' b0 b1 buf inp s,
  rd fe inp buf s -> l_err s = None -> (length inp < k')%nat ->
  match text_loop k quote cdata b0 b1 buf inp with
  | ROk data rest => exists s' t, text_loop_b k' c quote cdata b0 b1 s = Some (Some t, s') /\ rd fe rest (l_buf s') s' /\
                                  firstn (length (l_buf s') - t) (l_buf s') = data
  | RErr e => exists s', text_loop_b k' c quote cdata b0 b1 s = Some (None, s') /\ failed fe e s'
  | RFuel => True
  end.
Proof.
  intros c fe quote cdata U. induction k as [|k IH]; intros k' b0 b1 buf inp s R NE K; [exact I|].
  destruct k' as [|k']; [lia|]. cbn [text_loop text_loop_b]. destruct inp as [|b t].
  - destruct (getc_end _ _ _ R) as (s' & E & R' & X). rewrite E. destruct cdata.
    + rewrite X. destruct fe; eexists; (split; [reflexivity|]); unfold failed; simpl; auto.
    + exists s', O. split; [reflexivity|]. pose proof R' as (_ & _ & _ & _ & BF). rewrite BF. split; [exact R'|].
      rewrite Nat.sub_0_r. apply firstn_all.
  - destruct (getc_some _ _ _ _ _ R) as (s1 & E & N). rewrite E. pose proof N as ((_ & _ & _ & _ & BF) & NX & NE1).
    assert (ALL : firstn (length buf - 0) buf = buf) by (rewrite Nat.sub_0_r; apply firstn_all).
    destruct (negb match quote with Some _ => true | None => false end && (b0 =? 93) && (b1 =? 93) && (b =? 62)).
    { destruct cdata.
      - exists s1, 2%nat. split; [reflexivity|]. rewrite BF. split; [apply N | reflexivity].
      - eexists. split; [reflexivity|]. failt. }
    destruct ((b =? 60) && negb cdata) eqn:B60.
    { assert (b = 60) by lia. subst b. destruct quote; [eexists; split; [reflexivity|]; failt|].
      exists (ungetc 60 s1), O. split; [reflexivity|]. simpl. rewrite BF. split; [apply unget; exact N | exact ALL]. }
    destruct ((b =? 62) && negb cdata && negb match quote with Some _ => true | None => false end) eqn:B62.
    { assert (b = 62) by lia. subst b.
      exists (ungetc 62 s1), O. split; [reflexivity|]. simpl. rewrite BF. split; [apply unget; exact N | exact ALL]. }
    destruct (match quote with Some q => b =? q | None => false end).
    { exists s1, O. split; [reflexivity|]. rewrite BF. split; [apply N | exact ALL]. }
    destruct ((b =? 38) && negb cdata) eqn:B38.
    { rewrite BF. pose proof (entity_sim c fe t buf (put 38 s1) U (rd_put _ _ _ _ 38 (new_rd _ _ _ _ N)) NE1) as H.
      pose proof (char_entity_len t) as SH.
      destruct (char_entity t) as [x rest|e|]; [| |contradiction].
      - destruct H as (s2 & more & E2 & R2 & NE2). rewrite !ldo_eq, !(try_some _ _ _ _ _ _ _ E2), !ldo_eq.
        apply IH; auto.
        + pose proof (rd_truncate _ _ _ _ (length buf) R2) as R3. rewrite firstn_app, Nat.sub_diag, firstn_all, app_nil_r in R3.
          apply rd_puts. exact R3.
        + specialize (SH _ _ eq_refl). simpl in K. lia.
      - destruct H as [(s2 & E2 & F) | (-> & s2 & E2)].
        + rewrite !ldo_eq, (try_none _ _ _ _ _ _ E2). exists s2. auto.
        + rewrite !ldo_eq, (try_some _ _ _ _ _ _ _ E2). rewrite (u_strict _ U). eexists. split; [reflexivity|]. failt. }
    apply IH; auto; [| |simpl in K; lia].
    + destruct (b =? 13); [apply rd_put; apply N|]. destruct ((b1 =? 13) && (b =? 10)); [apply N | apply rd_put; apply N].
    + destruct (b =? 13); [exact NE1|]. destruct ((b1 =? 13) && (b =? 10)); exact NE1.
Qed.

(** Text: nil for an unused buffer, which then is empty. *)
Lemma text_sim : forall c fe quote cdata inp buf s, usual c -> rd fe inp buf s -> l_err s = None ->
  match text quote cdata inp with
  | ROk data rest => exists s', text_b c quote cdata s = Some (if l_fresh s' then None else Some data, s') /\
                                rd fe rest (l_buf s') s' /\ (quote = None -> cdata = true -> l_fresh s' = false)
  | RErr e => exists s', text_b c quote cdata s = Some (None, s') /\ failed fe e s'
  | RFuel => False
  end.
Proof.
  intros c fe quote cdata inp buf s U R NE. unfold text, text_b. rewrite ldo_eq.
  pose proof (rd_reset _ _ _ _ R) as R0.
  pose proof (text_loop_sim c fe quote cdata U (S (length inp)) (lfuel (reset s)) 0 0 [] inp (reset s) R0 NE (rd_fuel _ _ _ _ R0)) as H.
  pose proof (text_loop_nofuel (S (length inp)) quote cdata 0 0 [] inp ltac:(lia)) as NF.
  destruct (text_loop (S (length inp)) quote cdata 0 0 [] inp) as [data rest|e|]; [| |congruence].
  - destruct H as (s' & t & E & R' & D). rewrite (try_some _ _ _ _ _ _ _ E). cbv zeta. rewrite D.
    destruct (forallb good_piece (pieces data)).
    + exists s'. split; [reflexivity|]. split; [exact R'|]. intros -> ->. eapply text_loop_cdata; [exact E | lia | lia].
    + eexists. split; [reflexivity|]. failt.
  - destruct H as (s' & E & F). rewrite (try_none _ _ _ _ _ _ E). exists s'. auto.
Qed.

Lemma attrval_sim : forall c fe inp buf s, usual c -> rd fe inp buf s -> l_err s = None \/ inp = [] -> l_fresh s = false ->
  sim fe (attrval inp) (attrval_b c s) (fun _ s' => l_fresh s' = false).
Proof.
  intros c fe inp buf s U R NE FR. unfold attrval, attrval_b, sim. destruct inp as [|b t].
  - destruct (must_end _ _ _ R) as (s' & E & F). rewrite (try_none _ _ _ _ _ _ E). exists s'. auto.
  - destruct (must_some _ _ _ _ _ R) as (s1 & E & N). rewrite !(try_some _ _ _ _ _ _ _ E).
    pose proof (loud_keeps _ _ must_loud _ _ _ FR E) as FR1.
    destruct ((b =? 34) || (b =? 39)).
    + pose proof (text_sim c fe (Some b) false t buf s1 U (new_rd _ _ _ _ N) (proj2 (proj2 N))) as H.
      destruct (text (Some b) false t) as [d rest|e|]; [| |contradiction].
      * destruct H as (s' & E2 & R2 & _). pose proof (loud_keeps _ _ (text_loud c (Some b) false) _ _ _ FR1 E2) as FR2.
        rewrite FR2 in E2. exists s', (l_buf s'). auto.
      * exact H.
    + rewrite (u_strict _ U). eexists. split; [reflexivity|]. failt.
Qed.

Lemma pi_loop_sim : forall fe k inp b0 buf s, rd fe inp buf s -> (length inp < k)%nat ->
  match pi_loop b0 buf inp with
  | ROk data rest => exists s', pi_loop_b k b0 s = Some (Some tt, s') /\ rd fe rest (l_buf s') s' /\
                                firstn (length (l_buf s') - 2) (l_buf s') = data
  | RErr e => exists s', pi_loop_b k b0 s = Some (None, s') /\ failed fe e s'
  | RFuel => False
  end.
Proof.
  intros fe. induction k as [|k IH]; intros inp b0 buf s R K; [lia|]. destruct inp as [|b t]; cbn [pi_loop pi_loop_b].
  - destruct (must_end _ _ _ R) as (s' & E & F). rewrite (try_none _ _ _ _ _ _ E). exists s'. auto.
  - destruct (must_some _ _ _ _ _ R) as (s1 & E & N). rewrite !(try_some _ _ _ _ _ _ _ E), !ldo_eq.
    pose proof (rd_put _ _ _ _ b (new_rd _ _ _ _ N)) as R1. destruct ((b0 =? 63) && (b =? 62)).
    + exists (put b s1). split; [reflexivity|]. pose proof R1 as (_ & _ & _ & _ & BF). rewrite BF. split; [exact R1|].
      rewrite app_length. simpl. replace (length buf + 1 - 2)%nat with (length buf - 1)%nat by lia.
      rewrite firstn_app. replace (length buf - 1 - length buf)%nat with O by lia. rewrite app_nil_r. reflexivity.
    + apply IH; auto. simpl in K. lia.
Qed.
Lemma comment_loop_sim : forall fe k inp b0 b1 buf s, rd fe inp buf s -> (length inp < k)%nat ->
  match comment_loop b0 b1 buf inp with
  | ROk data rest => exists s', comment_loop_b k b0 b1 s = Some (Some tt, s') /\ rd fe rest (l_buf s') s' /\
                                firstn (length (l_buf s') - 3) (l_buf s') = data
  | RErr e => exists s', comment_loop_b k b0 b1 s = Some (None, s') /\ failed fe e s'
  | RFuel => False
  end.
Proof.
  intros fe. induction k as [|k IH]; intros inp b0 b1 buf s R K; [lia|]. destruct inp as [|b t]; cbn [comment_loop comment_loop_b].
  - destruct (must_end _ _ _ R) as (s' & E & F). rewrite (try_none _ _ _ _ _ _ E). exists s'. auto.
  - destruct (must_some _ _ _ _ _ R) as (s1 & E & N). rewrite !(try_some _ _ _ _ _ _ _ E), !ldo_eq.
    pose proof (rd_put _ _ _ _ b (new_rd _ _ _ _ N)) as R1. destruct ((b0 =? 45) && (b1 =? 45)).
    + destruct (b =? 62).
      * exists (put b s1). split; [reflexivity|]. pose proof R1 as (_ & _ & _ & _ & BF). rewrite BF. split; [exact R1|].
        rewrite app_length. simpl. replace (length buf + 1 - 3)%nat with (length buf - 2)%nat by lia.
        rewrite firstn_app. replace (length buf - 2 - length buf)%nat with O by lia. rewrite app_nil_r. reflexivity.
      * eexists. split; [reflexivity|]. failt.
    + apply IH; auto. simpl in K. lia.
Qed.
Lemma expect_sim : forall fe p inp buf s, rd fe inp buf s -> l_err s = None ->
  sim fe (expect p inp) (expect_b p s) (fun _ s' => l_err s' = None).
Proof.
  intros fe. induction p as [|c p IH]; intros inp buf s R NE; cbn [expect expect_b].
  - exists s, buf. auto.
  - destruct inp as [|b t].
    + destruct (must_end _ _ _ R) as (s' & E & F). rewrite (try_none _ _ _ _ _ _ E). exists s'. auto.
    + destruct (must_some _ _ _ _ _ R) as (s1 & E & N). rewrite !(try_some _ _ _ _ _ _ _ E). destruct (b =? c).
      * apply (IH t buf); apply N.
      * eexists. split; [reflexivity|]. failt.
Qed.
Lemma skip_comment_sim : forall fe k inp b0 b1 buf s, rd fe inp buf s -> (length inp < k)%nat ->
  match skip_comment b0 b1 inp with
  | Some rest => exists s', skip_comment_b k b0 b1 s = Some (Some tt, s') /\ rd fe rest buf s'
  | None => exists s', skip_comment_b k b0 b1 s = Some (None, s') /\ failed fe unexpected_eof s'
  end.
Proof.
  intros fe. induction k as [|k IH]; intros inp b0 b1 buf s R K; [lia|]. destruct inp as [|b t]; cbn [skip_comment skip_comment_b].
  - destruct (must_end _ _ _ R) as (s' & E & F). rewrite (try_none _ _ _ _ _ _ E). exists s'. auto.
  - destruct (must_some _ _ _ _ _ R) as (s1 & E & N). rewrite !(try_some _ _ _ _ _ _ _ E).
    destruct ((b0 =? 45) && (b1 =? 45) && (b =? 62)).
    + exists s1. split; [reflexivity | apply N].
    + apply IH; [apply N | simpl in K; lia].
Qed.
Lemma match_bang_sim : forall fe p i inp buf s, rd fe inp buf s ->
  match match_bang p i inp with
  | inl rest => exists s', match_bang_b p i s = Some (Some None, s') /\ rd fe rest buf s' /\ (length rest <= length inp)%nat
  | inr (Some (n, b, rest)) => exists s', match_bang_b p i s = Some (Some (Some (n, b)), s') /\ rd fe rest buf s' /\ (length rest < length inp)%nat
  | inr None => exists s', match_bang_b p i s = Some (None, s') /\ failed fe unexpected_eof s'
  end.
Proof.
  intros fe. induction p as [|c p IH]; intros i inp buf s R; cbn [match_bang match_bang_b].
  - exists s. auto.
  - destruct inp as [|b t].
    + destruct (must_end _ _ _ R) as (s' & E & F). rewrite (try_none _ _ _ _ _ _ E). exists s'. auto.
    + destruct (must_some _ _ _ _ _ R) as (s1 & E & N). rewrite !(try_some _ _ _ _ _ _ _ E). destruct (b =? c).
      * pose proof (IH (S i) t buf s1 (new_rd _ _ _ _ N)) as H.
        destruct (match_bang p (S i) t) as [rest|[[[n b'] rest]|]]; destruct H as (s' & E2 & H); rewrite E2.
        -- exists s'. destruct H as [H HL]. split; [reflexivity|]. split; [exact H | simpl; lia].
        -- exists s'. destruct H as [H HL]. split; [reflexivity|]. split; [exact H | simpl; lia].
        -- exists s'. auto.
      * exists s1. split; [reflexivity|]. split; [apply N | simpl; lia].
Qed.

Lemma directive_sim : forall fe k k' pend inq depth buf inp s,
  rd fe inp buf s -> (length inp + (match pend with Some _ => 1 | None => 0 end) < k')%nat ->
  match directive_loop k pend inq depth buf inp with
  | ROk data rest => exists s', directive_loop_b k' pend inq depth s = Some (Some tt, s') /\ rd fe rest data s'
  | RErr e => exists s', directive_loop_b k' pend inq depth s = Some (None, s') /\ failed fe e s'
  | RFuel => True
  end.
Proof.
  intros fe. induction k as [|k IH]; intros k' pend inq depth buf inp s R K; [exact I|].
  destruct k' as [|k']; [lia|].
  assert (H : forall b inp s, rd fe inp buf s -> (length inp + 1 < S k')%nat ->
    match (if b =? inq then directive_loop k None 0 depth (buf ++ [b]) inp
        else if negb (inq =? 0) then directive_loop k None inq depth (buf ++ [b]) inp
        else if (b =? 39) || (b =? 34) then directive_loop k None b depth (buf ++ [b]) inp
        else if b =? 62 then directive_loop k None inq (depth - 1) (buf ++ [b]) inp
        else if b =? 60 then
          match match_bang (str "!--") 0 inp with
          | inl rest =>
              match skip_comment 0 0 rest with
              | None => RErr unexpected_eof
              | Some rest' => directive_loop k None inq depth (buf ++ [32]) rest'
              end
          | inr None => RErr unexpected_eof
          | inr (Some (n, b', rest)) =>
              directive_loop k (Some b') inq (depth + 1) ((buf ++ [b]) ++ firstn n (str "!--")) rest
          end
        else directive_loop k None inq depth (buf ++ [b]) inp) with
    | ROk data rest => exists s', (
        step put b;
        if b =? inq then directive_loop_b k' None 0 depth
        else if negb (inq =? 0) then directive_loop_b k' None inq depth
        else if (b =? 39) || (b =? 34) then directive_loop_b k' None b depth
        else if b =? 62 then directive_loop_b k' None inq (depth - 1)
        else if b =? 60 then
          try m <- match_bang_b (str "!--") 0;
          match m with
          | None =>
              step (fun s => truncate (length (l_buf s) - 1) s);
              fun s => (try _ <- skip_comment_b (lfuel s) 0 0;
                        step put 32;
                        directive_loop_b k' None inq depth) s
          | Some (n, b) =>
              step puts (firstn n (str "!--"));
              directive_loop_b k' (Some b) inq (depth + 1)
          end
        else directive_loop_b k' None inq depth) s = Some (Some tt, s') /\ rd fe rest data s'
    | RErr e => exists s', (
        step put b;
        if b =? inq then directive_loop_b k' None 0 depth
        else if negb (inq =? 0) then directive_loop_b k' None inq depth
        else if (b =? 39) || (b =? 34) then directive_loop_b k' None b depth
        else if b =? 62 then directive_loop_b k' None inq (depth - 1)
        else if b =? 60 then
          try m <- match_bang_b (str "!--") 0;
          match m with
          | None =>
              step (fun s => truncate (length (l_buf s) - 1) s);
              fun s => (try _ <- skip_comment_b (lfuel s) 0 0;
                        step put 32;
                        directive_loop_b k' None inq depth) s
          | Some (n, b) =>
              step puts (firstn n (str "!--"));
              directive_loop_b k' (Some b) inq (depth + 1)
          end
        else directive_loop_b k' None inq depth) s = Some (None, s') /\ failed fe e s'
    | RFuel => True
    end).
  { clear inp s R K. intros b inp s R K. pose proof (rd_put _ _ _ _ b R) as R1. rewrite !ldo_eq.
    destruct (b =? inq); [apply IH; auto; lia|]. destruct (negb (inq =? 0)); [apply IH; auto; lia|].
    destruct ((b =? 39) || (b =? 34)); [apply IH; auto; lia|]. destruct (b =? 62); [apply IH; auto; lia|].
    destruct (b =? 60); [|apply IH; auto; lia].
    pose proof (match_bang_sim fe (str "!--") 0 inp _ _ R1) as M.
    destruct (match_bang (str "!--") 0 inp) as [rest|[[[n b'] rest]|]]; destruct M as (s2 & E2 & M).
    - destruct M as [R2 L2]. rewrite !(try_some _ _ _ _ _ _ _ E2), !ldo_eq.
      assert (R3 : rd fe rest buf (truncate (length (l_buf s2) - 1) s2)).
      { pose proof R2 as (_ & _ & _ & _ & BF). rewrite BF. rewrite app_length. simpl. rewrite Nat.add_sub.
        pose proof (rd_truncate _ _ _ _ (length buf) R2) as R3. rewrite firstn_app, Nat.sub_diag, firstn_all, app_nil_r in R3. exact R3. }
      pose proof (skip_comment_sim fe (lfuel (truncate (length (l_buf s2) - 1) s2)) rest 0 0 buf _ R3 (rd_fuel _ _ _ _ R3)) as SK.
      destruct (skip_comment 0 0 rest) as [rest'|] eqn:SC; destruct SK as (s3 & E3 & SK).
      + rewrite !(try_some _ _ _ _ _ _ _ E3), !ldo_eq. apply skip_comment_len in SC. apply IH; [|lia]. apply rd_put. exact SK.
      + rewrite !(try_none _ _ _ _ _ _ E3). exists s3. auto.
    - destruct M as [R2 L2]. rewrite !(try_some _ _ _ _ _ _ _ E2), !ldo_eq. apply IH; [|lia]. apply rd_puts. exact R2.
    - rewrite !(try_none _ _ _ _ _ _ E2). exists s2. auto. }
  cbn [directive_loop directive_loop_b]. destruct pend as [b|].
  - apply H; auto. 
  - destruct inp as [|b t].
    + destruct (must_end _ _ _ R) as (s' & E & F). rewrite (try_none _ _ _ _ _ _ E). exists s'. auto.
    + destruct (must_some _ _ _ _ _ R) as (s1 & E & N). rewrite !(try_some _ _ _ _ _ _ _ E).
      destruct ((inq =? 0) && (b =? 62) && (depth =? 0)).
      * exists s1. split; [reflexivity | apply N].
      * apply H; [apply N | simpl in K; lia].
Qed.

Lemma failed_some : forall fe e s, failed fe e s -> exists x, l_err s = Some x.
Proof. intros fe e s F. unfold failed in F. eauto. Qed.
Lemma space_len : forall inp, (length (skip_space inp) <= length inp)%nat.
Proof. induction inp as [|b t IH]; simpl; [lia|]. destruct (is_space b); simpl; lia. Qed.
Lemma rd_head : forall fe b t buf s, rd fe (b :: t) buf s -> l_err s = None.
Proof. intros fe b t buf s (_ & _ & [C | [C _]] & _); [exact C | discriminate]. Qed.
Lemma rd_safe : forall fe inp buf s, rd fe inp buf s -> l_err s = None \/ inp = [].
Proof. intros fe inp buf s (_ & _ & [C | [C _]] & _); auto. Qed.

Lemma attrs_sim : forall c fe, usual c -> forall k k' acc inp buf s, rd fe inp buf s -> (length inp < k')%nat ->
  sim fe (attrs_loop k acc inp) (attrs_loop_b k' c acc s) (fun _ s' => l_err s' = None).
Proof.
  intros c fe U. induction k as [|k IH]; intros k' acc inp buf s R K; [exact I|]. destruct k' as [|k']; [lia|].
  cbn [attrs_loop attrs_loop_b]. destruct (lspace_sim _ _ _ _ R) as (s1 & E1 & R1). rewrite !(try_some _ _ _ _ _ _ _ E1).
  pose proof (space_len inp) as L1. destruct (skip_space inp) as [|b t].
  - destruct (must_end _ _ _ R1) as (s2 & E2 & F). Transparent lmust. unfold lmust in E2. Opaque lmust.
    inversion E2 as [E3]. rewrite E3. rewrite (u_strict _ U), andb_false_r. exists s2. auto.
  - destruct (must_some _ _ _ _ _ R1) as (s2 & E2 & N2). Transparent lmust. unfold lmust in E2. Opaque lmust.
    inversion E2 as [E3]. rewrite E3. destruct (b =? 47).
    + destruct t as [|x t'].
      * destruct (must_end _ _ _ (new_rd _ _ _ _ N2)) as (s3 & E4 & F). rewrite (try_none _ _ _ _ _ _ E4). exists s3. auto.
      * destruct (must_some _ _ _ _ _ (new_rd _ _ _ _ N2)) as (s3 & E4 & N4). rewrite !(try_some _ _ _ _ _ _ _ E4). destruct (x =? 62).
        -- exists s3, buf. split; [reflexivity|]. split; apply N4.
        -- eexists. split; [reflexivity|]. failt.
    + destruct (b =? 62).
      * exists s2, buf. split; [reflexivity|]. split; apply N2.
      * rewrite !ldo_eq. destruct (unget _ b _ _ _ N2) as [R3 NE3]. pose proof (nsname_sim _ _ _ _ R3) as H.
        pose proof (get_nsname_len (b :: t)) as NL.
        destruct (get_nsname (b :: t)) as [[n rest]|[e|]].
        -- destruct H as (s4 & x & E4 & R4 & NE4). rewrite !(msg_some _ _ _ _ _ _ _ _ E4).
           pose proof (nsname_puts _ _ _ E4) as FR4. specialize (NL _ _ eq_refl).
           destruct (lspace_sim _ _ _ _ R4) as (s5 & E5 & R5). rewrite !(try_some _ _ _ _ _ _ _ E5).
           pose proof (loud_keeps _ _ (lspace_loud) _ _ _ FR4 E5) as FR5. pose proof (space_len rest) as L5.
           destruct (skip_space rest) as [|cc rest'].
           ++ destruct (must_end _ _ _ R5) as (s6 & E6 & F). rewrite (try_none _ _ _ _ _ _ E6). exists s6. auto.
           ++ destruct (must_some _ _ _ _ _ R5) as (s6 & E6 & N6). rewrite !(try_some _ _ _ _ _ _ _ E6).
              pose proof (loud_keeps _ _ (must_loud) _ _ _ FR5 E6) as FR6.
              destruct (negb (cc =? 61)).
              ** rewrite (u_strict _ U). eexists. split; [reflexivity|]. failt.
              ** destruct (lspace_sim _ _ _ _ (new_rd _ _ _ _ N6)) as (s7 & E7 & R7). rewrite !(try_some _ _ _ _ _ _ _ E7).
                 pose proof (loud_keeps _ _ (lspace_loud) _ _ _ FR6 E7) as FR7. pose proof (space_len rest') as L7.
                 pose proof (attrval_sim c fe _ _ _ U R7 (rd_safe _ _ _ _ R7) FR7) as H. unfold sim in H.
                 pose proof (attrval_len (skip_space rest')) as AL.
                 destruct (attrval (skip_space rest')) as [v rest''|e|] eqn:AV; [| |exact I].
                 --- destruct H as (s8 & bf8 & E8 & R8 & _). rewrite !(try_some _ _ _ _ _ _ _ E8).
                     specialize (AL _ _ eq_refl). apply (IH k' _ _ bf8); auto. simpl in *. lia.
                 --- destruct H as (s8 & E8 & F8). rewrite (try_none _ _ _ _ _ _ E8). exists s8. auto.
        -- destruct H as (s4 & E4 & F4). destruct (failed_some _ _ _ F4) as [x X]. rewrite (msg_err _ _ _ _ _ _ _ _ E4 X). exists s4. auto.
        -- destruct H as (s4 & E4 & F4). rewrite (msg_none _ _ _ _ _ _ _ E4 F4). eexists. split; [reflexivity|]. failt.
Qed.

(** Text that begins with another byte than '<' and '>' is not nil. *)
Lemma text_used : forall c b s r s', b <> 60 -> b <> 62 -> l_err s = None ->
  text_b c None false (ungetc b s) = Some (r, s') -> l_fresh s' = false.
Proof.
  intros c b s r s' B1 B2 NE E. unfold text_b, ltry in E. rewrite ldo_eq in E.
  destruct (text_loop_b (lfuel (reset (ungetc b s))) c None false 0 0 (reset (ungetc b s))) as [[o s1]|] eqn:X; [|discriminate].
  assert (F : l_fresh s1 = false).
  { assert (K : exists k, lfuel (reset (ungetc b s)) = S k). { Transparent lfuel. unfold lfuel. Opaque lfuel. eexists. reflexivity. }
    destruct K as [k K]. rewrite K in X. cbn [text_loop_b] in X.
    assert (G : exists s2, getc (reset (ungetc b s)) = (Some b, s2)).
    { Transparent getc. unfold getc. Opaque getc. unfold reset, set_buf, ungetc. simpl. rewrite NE. eexists. reflexivity. }
    destruct G as [s2 G]. rewrite G in X. revert X.
    destruct (b =? 60) eqn:Y1; [lia|]. destruct (b =? 62) eqn:Y2; [lia|]. cbn [negb andb]. 
    destruct (b =? 38) eqn:Y3; cbn [andb].
    - rewrite ldo_eq. intros X. revert X. apply loud_keeps; [|reflexivity].
      apply try_loud; [apply entity_loud|]. intros [t|].
      + apply step_loud; [auto|]. apply step_loud; [intros; simpl; rewrite H; reflexivity|]. apply text_loop_loud.
      + destruct (negb (c_strict c)); [apply text_loop_loud | apply fail_loud].
    - intros X. revert X. apply loud_keeps; [apply text_loop_loud|]. destruct (b =? 13); reflexivity. }
  destruct o as [o|].
  - destruct (forallb good_piece (pieces (firstn (length (l_buf s1) - o) (l_buf s1)))); inversion E; subst; exact F.
  - inversion E; subst. exact F.
Qed.

(** rawToken: with '>' in front of all other text the token is nil. *)
Definition raw_like (fe : rfail) (R : res raw) (m : option (option raw * lst)) : Prop :=
  match R with
  | ROk r rest => exists s' buf, rd fe rest buf s' /\
      (m = Some (Some r, s') /\ (l_err s' = None \/ snd r = None) \/ m = Some (None, s') /\ l_err s' = None /\ r = (TChar [], None))
  | RErr e => exists s', m = Some (None, s') /\ failed fe e s'
  | RFuel => False
  end.
Lemma charset_sim : forall c fe data inp buf s, usual c -> rd fe inp buf s ->
  match xml_decl_ok data with
  | None => charset_b c data s = Some (Some tt, s)
  | Some e => exists s', charset_b c data s = Some (None, s') /\ failed fe e s'
  end.
Proof.
  intros c fe data inp buf s U R. unfold xml_decl_ok, charset_b. cbv zeta. rewrite (u_charset _ U).
  destruct (negb (beq (proc_inst (str "version") data) []) && negb (beq (proc_inst (str "version") data) (str "1.0"))).
  { eexists. split; [reflexivity|]. unfold failed, low_err. reflexivity. }
  destruct (negb (beq (proc_inst (str "encoding") data) []) && negb (equal_fold (proc_inst (str "encoding") data) (str "utf-8"))).
  { eexists. split; [reflexivity|]. unfold failed, low_err. reflexivity. }
  reflexivity.
Qed.
Lemma raw_sim : forall c fe inp buf s, usual c -> rd fe inp buf s -> l_err s = None -> raw_like fe (raw_token inp) (raw_token_b c s).
Proof.
  intros c fe inp buf s U R NE. unfold raw_like, raw_token, raw_token_b. destruct inp as [|b t].
  { destruct (getc_end _ _ _ R) as (s' & E & R' & X). rewrite E. exists s'. split; [reflexivity | exact X]. }
  destruct (getc_some _ _ _ _ _ R) as (s1 & E & N). rewrite E. destruct (b =? 60) eqn:B; cbn [negb].
  2: { rewrite !ldo_eq. destruct (unget _ b _ _ _ N) as [R1 NE1].
       pose proof (text_sim c fe None false (b :: t) buf (ungetc b s1) U R1 NE1) as H.
       destruct (text None false (b :: t)) as [data rest|e|] eqn:TX; [| |contradiction].
       - destruct H as (s' & E2 & R2 & _). cbn [plain_tok]. exists s', (l_buf s'). split; [exact R2|].
         destruct (l_fresh s') eqn:FR.
         + right. destruct (Z.eq_dec b 62) as [->|NB].
           * unfold text in TX. cbn [length text_loop negb andb] in TX. simpl in TX. inversion TX; subst.
             rewrite (try_none _ _ _ _ _ _ E2). split; [reflexivity|]. split; [|reflexivity]. exact (rd_head _ _ _ _ _ R2).
           * exfalso. rewrite (text_used c b s1 _ s' ltac:(lia) NB (proj2 (proj2 N)) E2) in FR. discriminate.
         + left. rewrite (try_some _ _ _ _ _ _ _ E2). split; [reflexivity | right; reflexivity].
       - destruct H as (s' & E2 & F2). cbn [plain_tok]. rewrite (try_none _ _ _ _ _ _ E2). exists s'. auto. }
  destruct t as [|x t].
  { destruct (must_end _ _ _ (new_rd _ _ _ _ N)) as (s' & E2 & F). rewrite (try_none _ _ _ _ _ _ E2). exists s'. auto. }
  destruct (must_some _ _ _ _ _ (new_rd _ _ _ _ N)) as (s2 & E2 & N2). rewrite !(try_some _ _ _ _ _ _ _ E2).
  destruct (x =? 47).
  { pose proof (nsname_sim _ _ _ _ (new_rd _ _ _ _ N2)) as H. destruct (get_nsname t) as [[n rest]|[e|]].
    - destruct H as (s3 & y & E3 & R3 & NE3). rewrite !(msg_some _ _ _ _ _ _ _ _ E3).
      destruct (lspace_sim _ _ _ _ R3) as (s4 & E4 & R4). rewrite !(try_some _ _ _ _ _ _ _ E4).
      destruct (skip_space rest) as [|z rest'].
      + destruct (must_end _ _ _ R4) as (s' & E5 & F). rewrite (try_none _ _ _ _ _ _ E5). exists s'. auto.
      + destruct (must_some _ _ _ _ _ R4) as (s5 & E5 & N5). rewrite !(try_some _ _ _ _ _ _ _ E5). destruct (z =? 62).
        * exists s5, y. split; [apply N5|]. left. split; [reflexivity | right; reflexivity].
        * eexists. split; [reflexivity|]. failt.
    - destruct H as (s3 & E3 & F3). destruct (failed_some _ _ _ F3) as [y Y]. rewrite (msg_err _ _ _ _ _ _ _ _ E3 Y). exists s3. auto.
    - destruct H as (s3 & E3 & F3). rewrite (msg_none _ _ _ _ _ _ _ E3 F3). eexists. split; [reflexivity|]. failt. }
  destruct (x =? 63).
  { pose proof (name_sim _ _ _ _ (new_rd _ _ _ _ N2)) as H. destruct (get_name t) as [[n rest]|[e|]].
    - destruct H as (s3 & E3 & R3 & NE3). rewrite !(msg_some _ _ _ _ _ _ _ _ E3).
      destruct (lspace_sim _ _ _ _ R3) as (s4 & E4 & R4). rewrite !(try_some _ _ _ _ _ _ _ E4), !ldo_eq.
      pose proof (rd_reset _ _ _ _ R4) as R5.
      pose proof (pi_loop_sim fe (lfuel (reset s4)) (skip_space rest) 0 [] (reset s4) R5 (rd_fuel _ _ _ _ R5)) as H.
      destruct (pi_loop 0 [] (skip_space rest)) as [data rest'|e|]; [| |contradiction].
      + destruct H as (s6 & E6 & R6 & D6). rewrite !(try_some _ _ _ _ _ _ _ E6). cbv zeta. rewrite D6.
        destruct (beq n (str "xml")).
        * pose proof (charset_sim c fe data _ _ _ U R6) as H. destruct (xml_decl_ok data) as [e|].
          -- destruct H as (s7 & E7 & F7). rewrite (try_none _ _ _ _ _ _ E7). exists s7. auto.
          -- rewrite (try_some _ _ _ _ _ _ _ H). exists s6, (l_buf s6). split; [exact R6|]. left. split; [reflexivity | right; reflexivity].
        * exists s6, (l_buf s6). split; [exact R6|]. left. split; [reflexivity | right; reflexivity].
      + destruct H as (s6 & E6 & F6). rewrite (try_none _ _ _ _ _ _ E6). exists s6. auto.
    - destruct H as (s3 & E3 & F3). destruct (failed_some _ _ _ F3) as [y Y]. rewrite (msg_err _ _ _ _ _ _ _ _ E3 Y). exists s3. auto.
    - destruct H as (s3 & E3 & F3). rewrite (msg_none _ _ _ _ _ _ _ E3 F3). eexists. split; [reflexivity|]. failt. }
  destruct (x =? 33).
  { destruct t as [|d t].
    { destruct (must_end _ _ _ (new_rd _ _ _ _ N2)) as (s' & E3 & F). rewrite (try_none _ _ _ _ _ _ E3). exists s'. auto. }
    destruct (must_some _ _ _ _ _ (new_rd _ _ _ _ N2)) as (s3 & E3 & N3). rewrite !(try_some _ _ _ _ _ _ _ E3).
    destruct (d =? 45).
    { destruct t as [|y t].
      { destruct (must_end _ _ _ (new_rd _ _ _ _ N3)) as (s' & E4 & F). rewrite (try_none _ _ _ _ _ _ E4). exists s'. auto. }
      destruct (must_some _ _ _ _ _ (new_rd _ _ _ _ N3)) as (s4 & E4 & N4). rewrite !(try_some _ _ _ _ _ _ _ E4).
      destruct (y =? 45); cbn [negb].
      - rewrite !ldo_eq. pose proof (rd_reset _ _ _ _ (new_rd _ _ _ _ N4)) as R5.
        pose proof (comment_loop_sim fe (lfuel (reset s4)) t 0 0 [] (reset s4) R5 (rd_fuel _ _ _ _ R5)) as H.
        destruct (comment_loop 0 0 [] t) as [data rest'|e|]; [| |contradiction]; cbn [plain_tok].
        + destruct H as (s6 & E6 & R6 & D6). rewrite !(try_some _ _ _ _ _ _ _ E6). rewrite D6.
          exists s6, (l_buf s6). split; [exact R6|]. left. split; [reflexivity | right; reflexivity].
        + destruct H as (s6 & E6 & F6). rewrite (try_none _ _ _ _ _ _ E6). exists s6. auto.
      - eexists. split; [reflexivity|]. failt. }
    destruct (d =? 91).
    { pose proof (expect_sim fe (str "CDATA[") t buf s3 (new_rd _ _ _ _ N3) (proj2 (proj2 N3))) as H.
      unfold sim in H. pose proof (expect_nofuel (str "CDATA[") t) as NF.
      destruct (expect (str "CDATA[") t) as [u rest|e|]; [| |congruence].
      - destruct H as (s4 & y & E4 & R4 & NE4). rewrite !(try_some _ _ _ _ _ _ _ E4).
        pose proof (text_sim c fe None true rest y s4 U R4 NE4) as H.
        destruct (text None true rest) as [data rest'|e|]; [| |contradiction]; cbn [plain_tok].
        + destruct H as (s5 & E5 & R5 & FR). rewrite (FR eq_refl eq_refl) in E5.
          rewrite !(try_some _ _ _ _ _ _ _ E5). exists s5, (l_buf s5). split; [exact R5|]. left. split; [reflexivity | right; reflexivity].
        + destruct H as (s5 & E5 & F5). rewrite (try_none _ _ _ _ _ _ E5). exists s5. auto.
      - destruct H as (s4 & E4 & F4). rewrite (try_none _ _ _ _ _ _ E4). exists s4. auto. }
    rewrite !ldo_eq. pose proof (rd_put _ _ _ _ d (rd_reset _ _ _ _ (new_rd _ _ _ _ N3))) as R4. cbn [app] in R4.
    pose proof (directive_sim fe (2 * length t + 2) (2 * lfuel (put d (reset s3))) None 0 0 [d] t _ R4) as H.
    pose proof (rd_fuel _ _ _ _ R4) as FU. specialize (H ltac:(cbn match; lia)).
    pose proof (directive_nofuel (2 * length t + 2) None 0 0 [d] t ltac:(cbn [pend_size]; lia)) as NF.
    destruct (directive_loop (2 * length t + 2) None 0 0 [d] t) as [data rest|e|]; [| |congruence]; cbn [plain_tok].
    - destruct H as (s5 & E5 & R5). rewrite !(try_some _ _ _ _ _ _ _ E5). pose proof R5 as (_ & _ & _ & _ & BF). rewrite BF.
      exists s5, data. split; [exact R5|]. left. split; [reflexivity | right; reflexivity].
    - destruct H as (s5 & E5 & F5). rewrite (try_none _ _ _ _ _ _ E5). exists s5. auto. }
  rewrite !ldo_eq. destruct (unget _ x _ _ _ N2) as [R3 NE3]. pose proof (nsname_sim _ _ _ _ R3) as H.
  destruct (get_nsname (x :: t)) as [[n rest]|[e|]].
  - destruct H as (s4 & y & E4 & R4 & NE4). rewrite !(msg_some _ _ _ _ _ _ _ _ E4).
    pose proof (attrs_sim c fe U (S (length rest)) (lfuel s4) [] rest y s4 R4 (rd_fuel _ _ _ _ R4)) as H. unfold sim in H.
    pose proof (attrs_loop_nofuel (S (length rest)) [] rest ltac:(lia)) as NF.
    destruct (attrs_loop (S (length rest)) [] rest) as [[a em] rest'|e|]; [| |congruence].
    + destruct H as (s5 & z & E5 & R5 & NE5). rewrite !(try_some _ _ _ _ _ _ _ E5). exists s5, z. split; [exact R5|].
      left. split; [reflexivity | left; exact NE5].
    + destruct H as (s5 & E5 & F5). rewrite (try_none _ _ _ _ _ _ E5). exists s5. auto.
  - destruct H as (s3 & E3 & F3). destruct (failed_some _ _ _ F3) as [y Y]. rewrite (msg_err _ _ _ _ _ _ _ _ E3 Y). exists s3. auto.
  - destruct H as (s3 & E3 & F3). rewrite (msg_none _ _ _ _ _ _ _ E3 F3). eexists. split; [reflexivity|]. failt.
Qed.
