(** What a decoder reads does not depend on its counters, on the names it has met and on replacements for the standard entities:
    two decoders before the same bytes read the same. *)
From Coq Require Import String.
From Coq Require Import ZArith List Bool Lia.
From Coq Require Import ZifyBool ZifyNat.
From Verif Require Import Base Utf8 NameTables Lexer Decoder DecoderProofs ByteDecoder ByteLoud ByteSim ByteToken ByteEnd.
Import ListNotations.
Open Scope Z_scope.

(** Options that differ at most in DefaultSpace, AutoClose and the entities that are always known. *)
Record alike (c1 c2 : cfg) : Prop := mkalike {
  al_strict : c_strict c1 = c_strict c2;
  al_entity : forall n, entity n = None -> c_entity c1 n = c_entity c2 n;
  al_charset : match c_charset c1, c_charset c2 with
               | None, None => True
               | Some f, Some g => forall e s, f e s = g e s
               | _, _ => False
               end
}.

Section Near.
Variables (dl : Z) (fr : bool).     (* the distance in lines; whether unused buffers stay together *)

Definition shift (e : lerr) : lerr := match e with LSyntax m l => LSyntax m (l + dl) | _ => e end.
(** Two states before the same bytes; the buffers are the same if [w]. *)
Record near (w : bool) (s1 s2 : lst) : Prop := mknear {
  nr_src : l_src s2 = l_src s1;
  nr_next : l_next s2 = l_next s1;
  nr_line : l_line s2 = l_line s1 + dl;
  nr_buf : w = true -> l_buf s2 = l_buf s1;
  nr_fresh : if fr then l_fresh s2 = l_fresh s1 else l_fresh s2 = true -> l_fresh s1 = true;
  nr_err : l_err s2 = option_map shift (l_err s1);
  nr_int1 : interned (l_intern s1);
  nr_int2 : interned (l_intern s2)
}.
Definition coupled {A} (w : bool) (m1 m2 : L A) : Prop :=
  forall s1 s2 r s1', near w s1 s2 -> m1 s1 = Some (r, s1') -> exists s2', m2 s2 = Some (r, s2') /\ near w s1' s2'.
(** Where the buffer was used. *)
Definition used {A} (w : bool) (m1 m2 : L A) : Prop :=
  forall s1 s2 r s1', fr = true \/ l_fresh s1 = false -> near w s1 s2 -> m1 s1 = Some (r, s1') -> exists s2', m2 s2 = Some (r, s2') /\ near w s1' s2'.

Lemma getc_near : forall w s1 s2, near w s1 s2 -> fst (getc s2) = fst (getc s1) /\ near w (snd (getc s1)) (snd (getc s2)).
Proof.
  intros w [sr nx ln st off sv bf fs it er] [sr' nx' ln' st' off' sv' bf' fs' it' er'] [A B C D E F G H]. simpl in *. subst sr' nx' ln' er'.
  unfold getc. simpl. destruct er as [e|]; simpl; [split; [reflexivity | constructor; auto]|].
  destruct nx as [b|]; simpl; [split; [reflexivity|]; constructor; simpl; auto; destruct (b =? 10); lia|].
  destruct (s_bytes sr) as [|b t]; simpl; (split; [reflexivity|]); constructor; simpl; auto. destruct (b =? 10); lia.
Qed.
Lemma fail_near : forall w m s1 s2, near w s1 s2 -> near w (fail m s1) (fail m s2).
Proof. intros w m s1 s2 [A B C D E F G H]. constructor; simpl; auto. rewrite C. reflexivity. Qed.
Lemma other_near : forall w m s1 s2, near w s1 s2 -> near w (set_err (LOther m) s1) (set_err (LOther m) s2).
Proof. intros w m s1 s2 [A B C D E F G H]. constructor; simpl; auto. Qed.
Lemma must_near : forall w s1 s2, near w s1 s2 -> fst (mustgetc s2) = fst (mustgetc s1) /\ near w (snd (mustgetc s1)) (snd (mustgetc s2)).
Proof.
  intros w s1 s2 N. unfold mustgetc. pose proof (getc_near w s1 s2 N) as [G N']. destruct (getc s1) as [o1 t1], (getc s2) as [o2 t2].
  cbn [fst snd] in *. subst o2. destruct o1; [split; [reflexivity | exact N']|]. split; [reflexivity|]. cbn [snd].
  rewrite (nr_err _ _ _ N'). destruct (l_err t1) as [[[]| |]|]; simpl; auto using fail_near.
Qed.
Lemma must_coupled : forall w, coupled w lmust lmust.
Proof.
  intros w s1 s2 r s1' N E. unfold lmust in *. destruct (must_near w s1 s2 N) as [M N']. inversion E as [E1]. rewrite E1 in *.
  destruct (mustgetc s2) as [o t]. cbn [fst snd] in *. subst o. eauto.
Qed.
Lemma coupled_used : forall A w (m1 m2 : L A), coupled w m1 m2 -> used w m1 m2.
Proof. intros A w m1 m2 C s1 s2 r s1' _ N E. eauto. Qed.
Lemma coupled_ret : forall A w (a : A), coupled w (lret a) (lret a).
Proof. intros A w a s1 s2 r s1' N E. inversion E; subst. exists s2. split; [reflexivity | exact N]. Qed.
Lemma coupled_none : forall A w, coupled w (fun s => Some (@None A, s)) (fun s => Some (@None A, s)).
Proof. intros A w s1 s2 r s1' N E. inversion E; subst. exists s2. split; [reflexivity | exact N]. Qed.
Lemma coupled_fail : forall A w m, coupled w (@lfail A m) (lfail m).
Proof. intros A w m s1 s2 r s1' N E. inversion E; subst. exists (fail m s2). split; [reflexivity | apply fail_near; exact N]. Qed.
Lemma coupled_out : forall A w (m : L A), coupled w (fun _ => None) m.
Proof. intros A w m s1 s2 r s1' N E. discriminate. Qed.
Lemma coupled_try : forall A B w (m1 m2 : L A) (f1 f2 : A -> L B), coupled w m1 m2 -> (forall a, coupled w (f1 a) (f2 a)) -> coupled w (ltry m1 f1) (ltry m2 f2).
Proof.
  intros A B w m1 m2 f1 f2 M F s1 s2 r s1' N E. unfold ltry in *. destruct (m1 s1) as [[[a|] t1]|] eqn:E1; [| |discriminate].
  - destruct (M _ _ _ _ N E1) as (t2 & E2 & N2). rewrite E2. eapply F; eauto.
  - inversion E; subst. destruct (M _ _ _ _ N E1) as (t2 & E2 & N2). rewrite E2. eauto.
Qed.
Lemma used_try : forall A B w (m1 m2 : L A) (f1 f2 : A -> L B), keeps m1 -> used w m1 m2 -> (forall a, used w (f1 a) (f2 a)) -> used w (ltry m1 f1) (ltry m2 f2).
Proof.
  intros A B w m1 m2 f1 f2 K M F s1 s2 r s1' H N E. unfold ltry in *. destruct (m1 s1) as [[[a|] t1]|] eqn:E1; [| |discriminate].
  - destruct (M _ _ _ _ H N E1) as (t2 & E2 & N2). rewrite E2. eapply F; [|exact N2 | exact E]. destruct H as [H|H]; [auto | right; eapply K; eauto].
  - inversion E; subst. destruct (M _ _ _ _ H N E1) as (t2 & E2 & N2). rewrite E2. eauto.
Qed.
Lemma has_near : forall w s1 s2, near w s1 s2 -> has_err s2 = has_err s1.
Proof. intros w s1 s2 N. unfold has_err. rewrite (nr_err _ _ _ N). destruct (l_err s1); reflexivity. Qed.
Lemma coupled_msg : forall A B w (m1 m2 : L A) t (f1 f2 : A -> L B), coupled w m1 m2 -> (forall s a s', m1 s = Some (Some a, s') -> l_fresh s' = false) ->
  (forall a, used w (f1 a) (f2 a)) -> coupled w (ltry_msg m1 t f1) (ltry_msg m2 t f2).
Proof.
  intros A B w m1 m2 t f1 f2 M P F s1 s2 r s1' N E. unfold ltry_msg in *. destruct (m1 s1) as [[[a|] t1]|] eqn:E1; [| |discriminate].
  - destruct (M _ _ _ _ N E1) as (t2 & E2 & N2). rewrite E2. eapply F; [right; eapply P; eauto | exact N2 | exact E].
  - destruct (M _ _ _ _ N E1) as (t2 & E2 & N2). rewrite E2. inversion E; subst. rewrite (has_near _ _ _ N2).
    eexists. split; [reflexivity|]. destruct (has_err t1); [exact N2 | apply fail_near; exact N2].
Qed.
Lemma coupled_step : forall A w w' (m1 m2 : L A) g, (forall s1 s2, near w s1 s2 -> near w' (g s1) (g s2)) -> coupled w' m1 m2 ->
  (forall s1 s2, near w' s1 s2 -> near w s1 s2) -> coupled w (step g; m1) (step g; m2).
Proof.
  intros A w w' m1 m2 g G M K s1 s2 r s1' N E. unfold ldo in *. destruct (M _ _ _ _ (G _ _ N) E) as (t2 & E2 & N2). eauto.
Qed.
Lemma used_step : forall A w w' (m1 m2 : L A) g, (forall s1 s2, near w s1 s2 -> near w' (g s1) (g s2)) -> (forall s, l_fresh s = false -> l_fresh (g s) = false) ->
  used w' m1 m2 -> (forall s1 s2, near w' s1 s2 -> near w s1 s2) -> used w (step g; m1) (step g; m2).
Proof.
  intros A w w' m1 m2 g G P M K s1 s2 r s1' H N E. unfold ldo in *.
  destruct (M _ _ _ _ ltac:(destruct H as [H|H]; [left; exact H | right; exact (P _ H)]) (G _ _ N) E) as (t2 & E2 & N2). eauto.
Qed.
Lemma near_weak : forall w s1 s2, near true s1 s2 -> near w s1 s2.
Proof. intros w s1 s2 [A B C D E F G H]. constructor; auto. Qed.
Lemma put_near : forall b s1 s2, near true s1 s2 -> near true (put b s1) (put b s2).
Proof. intros b s1 s2 [A B C D E F G H]. constructor; simpl; auto; [rewrite D by reflexivity; reflexivity | destruct fr; auto]. Qed.
Lemma puts_near : forall b s1 s2, near true s1 s2 -> near true (puts b s1) (puts b s2).
Proof.
  intros b s1 s2 [A B C D E F G H]. constructor; simpl; auto; [rewrite D by reflexivity; reflexivity|]. destruct fr; [rewrite E; reflexivity|].
  intros X. apply andb_true_iff in X. destruct X as [X1 X2]. rewrite (E X1), X2. reflexivity.
Qed.
Lemma truncate_near : forall k s1 s2, near true s1 s2 -> near true (truncate k s1) (truncate k s2).
Proof. intros k s1 s2 [A B C D E F G H]. constructor; simpl; auto. rewrite D by reflexivity. reflexivity. Qed.
Lemma reset_near : forall w s1 s2, near w s1 s2 -> near true (reset s1) (reset s2).
Proof. intros w s1 s2 [A B C D E F G H]. constructor; simpl; auto. Qed.
Lemma unget_near : forall w b s1 s2, near w s1 s2 -> near w (ungetc b s1) (ungetc b s2).
Proof. intros w b s1 s2 [A B C D E F G H]. constructor; simpl; auto. destruct (b =? 10); lia. Qed.
Lemma fuel_near : forall w s1 s2, near w s1 s2 -> lfuel s2 = lfuel s1.
Proof. intros w s1 s2 N. unfold lfuel. rewrite (nr_src _ _ _ N). reflexivity. Qed.
Lemma coupled_fuel : forall A w (m1 m2 : nat -> L A), (forall k, coupled w (m1 k) (m2 k)) -> coupled w (fun s => m1 (lfuel s) s) (fun s => m2 (lfuel s) s).
Proof. intros A w m1 m2 M s1 s2 r s1' N E. rewrite (fuel_near _ _ _ N). eapply M; eauto. Qed.
Lemma used_fuel : forall A w (m1 m2 : nat -> L A), (forall k, used w (m1 k) (m2 k)) -> used w (fun s => m1 (lfuel s) s) (fun s => m2 (lfuel s) s).
Proof. intros A w m1 m2 M s1 s2 r s1' H N E. rewrite (fuel_near _ _ _ N). eapply M; eauto. Qed.
Lemma coupled_buf : forall A (m1 m2 : bytes -> L A), (forall k, coupled true (m1 k) (m2 k)) -> coupled true (fun s => m1 (l_buf s) s) (fun s => m2 (l_buf s) s).
Proof. intros A m1 m2 M s1 s2 r s1' N E. rewrite (nr_buf _ _ _ N eq_refl). eapply M; eauto. Qed.
Ltac st := first [apply (coupled_step _ _ _ _ _ _ (put_near _)) | apply (coupled_step _ _ _ _ _ _ (puts_near _)) | apply (coupled_step _ _ _ _ _ _ (truncate_near _))
                 | apply (coupled_step _ _ _ _ _ _ (unget_near _ _)) | apply (coupled_step _ _ _ _ _ _ (reset_near _))]; [|solve [intros ? ? X; exact X || (apply near_weak; exact X)]].
Ltac tm := apply coupled_try; [apply must_coupled|].
Ltac end_ := first [apply coupled_ret | apply coupled_fail | apply coupled_none].
Ltac kp := auto using loud_keeps, must_loud, lspace_loud, nsname_keeps, attrval_loud.

Lemma space_near : forall w, coupled w lspace lspace.
Proof.
  intros w. apply (coupled_fuel unit w space_loop space_loop). induction k as [|k IH]; [apply coupled_out|]. intros s1 s2 r s1' N E.
  cbn [space_loop] in *. destruct (getc_near w s1 s2 N) as [G N']. destruct (getc s1) as [o1 t1], (getc s2) as [o2 t2]. cbn [fst snd] in *. subst o2.
  destruct o1 as [b|]; [|inversion E; subst; eauto]. destruct (is_space b); [eapply IH; eauto|]. inversion E; subst.
  eexists. split; [reflexivity | apply unget_near; exact N'].
Qed.
Lemma name_loop_near : forall k, coupled true (name_loop k) (name_loop k).
Proof.
  induction k as [|k IH]; [apply coupled_out|]. cbn [name_loop]. tm. intros b. destruct (name_byte b); st; [exact IH | end_].
Qed.
Lemma read_name_near : coupled true read_name_b read_name_b.
Proof.
  apply (coupled_fuel unit true (fun k => try b <- lmust; if name_byte b then step put b; name_loop k else step ungetc b; fun s => Some (None, s))
                                (fun k => try b <- lmust; if name_byte b then step put b; name_loop k else step ungetc b; fun s => Some (None, s))).
  intros k. tm. intros b. destruct (name_byte b); st; [apply name_loop_near | end_].
Qed.
Lemma name_near : forall w, coupled w name_b name_b.
Proof.
  intros w. st. apply coupled_try; [apply read_name_near|]. intros _ s1 s2 r s1' N E. rewrite (nr_buf _ _ _ N eq_refl).
  destruct (is_name (l_buf s1)).
  - destruct (intern (l_intern s1) (l_buf s1)) as [i n] eqn:I1, (intern (l_intern s2) (l_buf s1)) as [j n'] eqn:I2.
    destruct (intern_ok _ _ _ _ (nr_int1 _ _ _ N) I1) as (A & -> & _), (intern_ok _ _ _ _ (nr_int2 _ _ _ N) I2) as (B & -> & _).
    inversion E; subst. eexists. split; [reflexivity|]. destruct N. constructor; simpl; auto.
  - inversion E; subst. eexists. split; [reflexivity | apply fail_near; exact N].
Qed.
Lemma nsname_near : forall w, coupled w nsname_b nsname_b.
Proof. intros w. apply coupled_try; [apply name_near|]. intros a. destruct (split_ns a); end_. Qed.
Lemma digits_near : forall base16 k b, coupled true (digits_loop k base16 b) (digits_loop k base16 b).
Proof.
  intros base16. induction k as [|k IH]; intros b; [apply coupled_out|]. cbn [digits_loop]. destruct (hex_digit base16 b); [|end_].
  st. tm. exact IH.
Qed.
Variables c1 c2 : cfg.
Hypothesis AL : alike c1 c2.
Lemma entity_near : forall before, coupled true (entity_b c1 before) (entity_b c2 before).
Proof.
  intros before.
  assert (NUM : forall base16 b, coupled true (fun s => let start := length (l_buf s) in
      (try b <- digits_loop (lfuel s) base16 b;
       if negb (b =? 59) then step ungetc b; lret None
       else fun s => lret (parse_rune base16 (skipn start (l_buf s))) (put 59 s)) s)
      (fun s => let start := length (l_buf s) in
      (try b <- digits_loop (lfuel s) base16 b;
       if negb (b =? 59) then step ungetc b; lret None
       else fun s => lret (parse_rune base16 (skipn start (l_buf s))) (put 59 s)) s)).
  { intros base16 b0 s1 s2 r s1' N E. cbv zeta in *. rewrite (nr_buf _ _ _ N eq_refl), (fuel_near _ _ _ N). revert s1' N E.
    set (m := fun n k => try b <- digits_loop k base16 b0; if negb (b =? 59) then step ungetc b; lret None
       else fun s => lret (parse_rune base16 (skipn n (l_buf s))) (put 59 s)).
    intros s1' N E. apply (fun H => H : coupled true (m (length (l_buf s1)) (lfuel s1)) (m (length (l_buf s1)) (lfuel s1))) with (s1 := s1); [|exact N | exact E].
    unfold m. apply coupled_try; [apply digits_near|]. intros b. destruct (negb (b =? 59)); [st; end_|].
    intros t1 t2 r' t1' N' E'. rewrite (nr_buf _ _ _ N' eq_refl). inversion E'; subst. eexists. split; [reflexivity | apply put_near; exact N']. }
  tm. intros b. destruct (b =? 35).
  - st. tm. intros b1. cbv zeta. destruct (b1 =? 120).
    + st. tm. intros b2. apply NUM.
    + apply NUM.
  - st. intros s1 s2 r s1' N E. destruct (read_name_b s1) as [[o t1]|] eqn:R1; [|discriminate].
    destruct (read_name_near _ _ _ _ N R1) as (t2 & R2 & N2). rewrite R2. rewrite (has_near _ _ _ N2).
    destruct (match o with Some _ => false | None => has_err t1 end); [inversion E; subst; eauto|]. revert E. apply (fun H => H : coupled true _ _); [|exact N2].
    tm. intros b1. destruct (negb (b1 =? 59)); [st; end_|].
    intros u1 u2 r' u1' N' E'. rewrite (nr_buf _ _ _ N' eq_refl). cbv zeta in *. generalize dependent (skipn (S before) (l_buf u1)). intros x E'.
    inversion E'; subst. eexists. split; [|apply put_near; exact N']. unfold lret. do 4 f_equal. destruct (is_name x); [|reflexivity].
    destruct (entity x) eqn:EN; [reflexivity|]. symmetry. apply (al_entity _ _ AL). exact EN.
Qed.
Lemma text_loop_near : forall quote cdata k b0 b1, coupled true (text_loop_b k c1 quote cdata b0 b1) (text_loop_b k c2 quote cdata b0 b1).
Proof.
  intros quote cdata. induction k as [|k IH]; intros b0 b1; [apply coupled_out|]. intros s1 s2 r s1' N E. cbn [text_loop_b] in *.
  destruct (getc_near true s1 s2 N) as [G N']. destruct (getc s1) as [o1 t1], (getc s2) as [o2 t2]. cbn [fst snd] in *. subst o2.
  destruct o1 as [b|].
  - destruct (negb match quote with Some _ => true | None => false end && (b0 =? 93) && (b1 =? 93) && (b =? 62)).
    { destruct cdata; inversion E; subst; eexists; (split; [reflexivity|]); auto using fail_near. }
    destruct ((b =? 60) && negb cdata).
    { destruct quote; inversion E; subst; eexists; (split; [reflexivity|]); auto using fail_near, unget_near. }
    destruct ((b =? 62) && negb cdata && negb match quote with Some _ => true | None => false end).
    { inversion E; subst; eexists; (split; [reflexivity|]); auto using unget_near. }
    destruct (match quote with Some q => b =? q | None => false end).
    { inversion E; subst; eexists; (split; [reflexivity|]); auto. }
    destruct ((b =? 38) && negb cdata).
    { rewrite (nr_buf _ _ _ N' eq_refl). revert E. apply (fun H => H : coupled true _ _); [|exact N'].
      st. apply coupled_try; [apply entity_near|]. intros [t|].
      - st. st. apply IH.
      - rewrite (al_strict _ _ AL). destruct (negb (c_strict c2)); [apply IH | end_]. }
    revert E. apply IH. destruct (b =? 13); [apply put_near; exact N'|]. destruct ((b1 =? 13) && (b =? 10)); [exact N' | apply put_near; exact N'].
  - destruct cdata; inversion E; subst; eexists; (split; [reflexivity|]); [|exact N'].
    rewrite (nr_err _ _ _ N'). destruct (l_err t1) as [[[]| |]|]; simpl; auto using fail_near.
Qed.
Lemma text_end : forall n s1 s2 r s1', fr = true \/ l_fresh s1 = false -> near true s1 s2 ->
  (let data := firstn (length (l_buf s1) - n) (l_buf s1) in
   if forallb good_piece (pieces data) then Some (if l_fresh s1 then None else Some data, s1) else lfail (str "invalid UTF-8 or illegal character code") s1) = Some (r, s1') ->
  exists s2', (let data := firstn (length (l_buf s2) - n) (l_buf s2) in
   if forallb good_piece (pieces data) then Some (if l_fresh s2 then None else Some data, s2) else lfail (str "invalid UTF-8 or illegal character code") s2) = Some (r, s2') /\
   near true s1' s2'.
Proof.
  intros n s1 s2 r s1' H N E. rewrite (nr_buf _ _ _ N eq_refl). cbv zeta in *.
  destruct (forallb good_piece (pieces (firstn (length (l_buf s1) - n) (l_buf s1)))).
  - inversion E; subst. exists s2. split; [|exact N]. pose proof (nr_fresh _ _ _ N) as F. do 3 f_equal. destruct fr; [rewrite F; reflexivity|].
    destruct H as [H|H]; [discriminate|]. rewrite H in *. destruct (l_fresh s2); [discriminate (F eq_refl) | reflexivity].
  - inversion E; subst. eexists. split; [reflexivity | apply fail_near; exact N].
Qed.
Lemma text_near : forall w quote cdata s1 s2 r s1', near w s1 s2 -> text_b c1 quote cdata s1 = Some (r, s1') ->
  fr = true \/ l_fresh s1' = false \/ cdata = true /\ quote = None -> exists s2', text_b c2 quote cdata s2 = Some (r, s2') /\ near w s1' s2'.
Proof.
  intros w quote cdata s1 s2 r s1' N E H. unfold text_b in *. rewrite ldo_eq in *. apply reset_near in N. rewrite (fuel_near _ _ _ N).
  unfold ltry in *. destruct (text_loop_b (lfuel (reset s1)) c1 quote cdata 0 0 (reset s1)) as [[[n|] t1]|] eqn:T; [| |discriminate];
  destruct (text_loop_near _ _ _ _ _ _ _ _ _ N T) as (t2 & T2 & N2); rewrite T2.
  - destruct (text_end n t1 t2 r s1') as (s2' & X & N3); [| exact N2 | exact E | exists s2'; split; [exact X | apply near_weak; exact N3]].
    destruct H as [H|[H|[-> ->]]]; [auto | | right; eapply text_loop_cdata; [exact T | lia | lia]]. right.
    cbv zeta in E. destruct (forallb good_piece (pieces (firstn (length (l_buf t1) - n) (l_buf t1)))); inversion E; subst; exact H.
  - inversion E; subst. eexists. split; [reflexivity | apply near_weak; exact N2].
Qed.
Lemma text_used_near : forall w quote cdata, used w (text_b c1 quote cdata) (text_b c2 quote cdata).
Proof.
  intros w quote cdata s1 s2 r s1' H N E. eapply text_near; eauto. destruct H as [H|H]; [auto | right; left].
  eapply loud_keeps; [apply text_loud | exact H | exact E].
Qed.
Lemma value_loop_near : forall k, coupled true (value_loop k) (value_loop k).
Proof.
  induction k as [|k IH]; [apply coupled_out|]. cbn [value_loop]. tm. intros b. destruct (is_value_byte b); st; [exact IH | end_].
Qed.
Lemma attrval_near : forall w, used w (attrval_b c1) (attrval_b c2).
Proof.
  intros w. apply used_try; [kp | apply coupled_used, must_coupled|]. intros b. destruct ((b =? 34) || (b =? 39)); [apply text_used_near|].
  rewrite (al_strict _ _ AL). destruct (c_strict c2); [apply coupled_used; end_|].
  apply (used_step _ _ w _ _ _ (unget_near _ _)); [auto | | auto]. apply (used_step _ _ true _ _ _ (reset_near _)); [auto | | intros; apply near_weak; auto].
  apply (used_fuel bytes true (fun k => try _ <- value_loop k; fun s => Some (if l_fresh s then None else Some (l_buf s), s))
                              (fun k => try _ <- value_loop k; fun s => Some (if l_fresh s then None else Some (l_buf s), s))).
  intros k. apply used_try; [apply loud_keeps, value_loop_loud | apply coupled_used, value_loop_near|]. intros _ s1 s2 r s1' H N E.
  inversion E; subst. exists s2. split; [|exact N]. pose proof (nr_fresh _ _ _ N) as F. rewrite (nr_buf _ _ _ N eq_refl). do 3 f_equal.
  destruct fr; [rewrite F; reflexivity|]. destruct H as [H|H]; [discriminate|]. rewrite H in *. destruct (l_fresh s2); [discriminate (F eq_refl) | reflexivity].
Qed.
Lemma pi_loop_near : forall k b0, coupled true (pi_loop_b k b0) (pi_loop_b k b0).
Proof.
  induction k as [|k IH]; intros b0; [apply coupled_out|]. cbn [pi_loop_b]. tm. intros b. st. destruct ((b0 =? 63) && (b =? 62)); [end_ | apply IH].
Qed.
Lemma comment_loop_near : forall k b0 b1, coupled true (comment_loop_b k b0 b1) (comment_loop_b k b0 b1).
Proof.
  induction k as [|k IH]; intros b0 b1; [apply coupled_out|]. cbn [comment_loop_b]. tm. intros b. st.
  destruct ((b0 =? 45) && (b1 =? 45)); [destruct (b =? 62); end_ | apply IH].
Qed.
Lemma expect_near : forall w p, coupled w (expect_b p) (expect_b p).
Proof. intros w. induction p as [|x p IH]; [apply coupled_ret|]. cbn [expect_b]. tm. intros b. destruct (b =? x); [exact IH | end_]. Qed.
Lemma skip_comment_near : forall k b0 b1, coupled true (skip_comment_b k b0 b1) (skip_comment_b k b0 b1).
Proof.
  induction k as [|k IH]; intros b0 b1; [apply coupled_out|]. cbn [skip_comment_b]. tm. intros b.
  destruct ((b0 =? 45) && (b1 =? 45) && (b =? 62)); [end_ | apply IH].
Qed.
Lemma match_bang_near : forall p n, coupled true (match_bang_b p n) (match_bang_b p n).
Proof. induction p as [|x p IH]; intros n; [apply coupled_ret|]. cbn [match_bang_b]. tm. intros b. destruct (b =? x); [apply IH | end_]. Qed.
Lemma directive_near : forall k pend inq depth, coupled true (directive_loop_b k pend inq depth) (directive_loop_b k pend inq depth).
Proof.
  induction k as [|k IH]; intros pend inq depth; [apply coupled_out|]. cbn [directive_loop_b].
  assert (H : forall b, let m := (step put b;
        if b =? inq then directive_loop_b k None 0 depth
        else if negb (inq =? 0) then directive_loop_b k None inq depth
        else if (b =? 39) || (b =? 34) then directive_loop_b k None b depth
        else if b =? 62 then directive_loop_b k None inq (depth - 1)
        else if b =? 60 then
          try m <- match_bang_b (str "!--") 0;
          match m with
          | None =>
              step (fun s => truncate (length (l_buf s) - 1) s);
              fun s => (try _ <- skip_comment_b (lfuel s) 0 0;
                        step put 32;
                        directive_loop_b k None inq depth) s
          | Some (n, b) =>
              step puts (firstn n (str "!--"));
              directive_loop_b k (Some b) inq (depth + 1)
          end
        else directive_loop_b k None inq depth) in coupled true m m).
  { intros b. cbv zeta. st. destruct (b =? inq); [apply IH|]. destruct (negb (inq =? 0)); [apply IH|].
    destruct ((b =? 39) || (b =? 34)); [apply IH|]. destruct (b =? 62); [apply IH|]. destruct (b =? 60); [|apply IH].
    apply coupled_try; [apply match_bang_near|]. intros [[n b1]|].
    - st. apply IH.
    - apply (coupled_step _ true true); [|
        apply (coupled_fuel unit true (fun k' => try _ <- skip_comment_b k' 0 0; step put 32; directive_loop_b k None inq depth)
                                      (fun k' => try _ <- skip_comment_b k' 0 0; step put 32; directive_loop_b k None inq depth)) | auto].
      + intros s1 s2 N. rewrite (nr_buf _ _ _ N eq_refl). apply truncate_near. exact N.
      + intros k'. apply coupled_try; [apply skip_comment_near|]. intros _. st. apply IH. }
  destruct pend as [b|]; [apply H|]. tm. intros b.
  destruct ((inq =? 0) && (b =? 62) && (depth =? 0)); [end_ | apply H].
Qed.
Lemma attrs_near : forall w k acc, used w (attrs_loop_b k c1 acc) (attrs_loop_b k c2 acc).
Proof.
  intros w. induction k as [|k IH]; intros acc; [apply coupled_used, coupled_out|]. cbn [attrs_loop_b].
  apply used_try; [kp | apply coupled_used, space_near|]. intros _ s1 s2 r s1' H N E. rewrite <- (al_strict _ _ AL).
  destruct (must_near w s1 s2 N) as [M N']. assert (K : fr = true \/ l_fresh (snd (mustgetc s1)) = false).
  { destruct H as [H|H]; [auto | right]. eapply (loud_keeps _ _ must_loud); [exact H|]. unfold lmust. rewrite <- surjective_pairing. reflexivity. }
  destruct (mustgetc s1) as [o1 t1], (mustgetc s2) as [o2 t2]. cbn [fst snd] in *. subst o2. destruct o1 as [b|].
  - revert E. apply (fun X => X : used w _ _); [|exact K | exact N'].
    destruct (b =? 47).
    { apply coupled_used. tm. intros b1. destruct (b1 =? 62); end_. }
    destruct (b =? 62); [apply coupled_used; end_|]. apply coupled_used. st.
    apply coupled_msg; [apply nsname_near | apply nsname_puts|]. intros n.
    apply used_try; [kp | apply coupled_used, space_near|]. intros _. apply used_try; [kp | apply coupled_used, must_coupled|]. intros b1.
    destruct (negb (b1 =? 61)); [destruct (c_strict c1); [apply coupled_used; end_ | apply IH]|].
    apply used_try; [kp | apply coupled_used, space_near|]. intros _. apply used_try; [kp | apply attrval_near|]. intros v. apply IH.
  - destruct (negb (length acc =? 0)%nat && negb (c_strict c1)); inversion E; subst; eexists; (split; [reflexivity | exact N']).
Qed.
Lemma charset_near : forall data, coupled true (charset_b c1 data) (charset_b c2 data).
Proof.
  intros data s1 s2 r s1' N E. unfold charset_b in *. cbv zeta in *.
  destruct (negb (beq (proc_inst (str "version") data) []) && negb (beq (proc_inst (str "version") data) (str "1.0"))).
  { inversion E; subst. eexists. split; [reflexivity | apply other_near; exact N]. }
  destruct (negb (beq (proc_inst (str "encoding") data) []) && negb (equal_fold (proc_inst (str "encoding") data) (str "utf-8"))).
  2: { inversion E; subst. eexists. split; [reflexivity | exact N]. }
  pose proof (al_charset _ _ AL) as F. destruct (c_charset c1) as [f|], (c_charset c2) as [g|]; try contradiction.
  - rewrite <- F. rewrite (nr_src _ _ _ N). destruct (f (proc_inst (str "encoding") data) (l_src s1)); inversion E; subst; eexists; (split; [reflexivity|]).
    + destruct N. constructor; simpl; auto.
    + apply other_near; exact N.
  - inversion E; subst. eexists. split; [reflexivity | apply other_near; exact N].
Qed.
Lemma name_puts' : forall s a s', name_b s = Some (Some a, s') -> l_fresh s' = false.
Proof. intros s a s' E. eapply name_puts; eauto. Qed.

Lemma text_some : forall c quote cdata s x s', text_b c quote cdata s = Some (Some x, s') -> l_fresh s' = false.
Proof.
  intros c quote cdata s x s' E. unfold text_b, ltry in E. rewrite ldo_eq in E.
  destruct (text_loop_b (lfuel (reset s)) c quote cdata 0 0 (reset s)) as [[[n|] t]|]; try discriminate.
  destruct (forallb good_piece (pieces (firstn (length (l_buf t) - n) (l_buf t)))); [|discriminate].
  destruct (l_fresh t) eqn:F; inversion E; subst. exact F.
Qed.
Lemma text_gt : forall c s s', l_err s = None -> text_b c None false (ungetc 62 s) = Some (None, s') -> l_err s' = None.
Proof.
  intros c s s' NE T. unfold text_b, ltry in T. rewrite ldo_eq in T.
  assert (K : exists k, lfuel (reset (ungetc 62 s)) = S k). { Transparent lfuel. unfold lfuel. Opaque lfuel. eexists. reflexivity. }
  destruct K as [k K]. rewrite K in T. cbn [text_loop_b] in T.
  assert (G : exists u, getc (reset (ungetc 62 s)) = (Some 62, u) /\ l_err u = None /\ l_buf u = []).
  { Transparent getc. unfold getc. Opaque getc. unfold reset, set_buf, ungetc. simpl. rewrite NE. eexists. repeat split; reflexivity. }
  destruct G as (u & G & EU & BU). rewrite G in T. cbn [negb] in T.
  change (62 =? 60) with false in T. change (62 =? 62) with true in T. change (0 =? 93) with false in T. cbn [andb negb] in T. unfold lret in T. cbv beta iota in T.
  assert (B : l_buf (ungetc 62 u) = []) by exact BU. rewrite B in T. cbn [length firstn Nat.sub pieces pieces_fuel forallb] in T.
  destruct (l_fresh (ungetc 62 u)); inversion T; subst; exact EU.
Qed.

(** Two raw tokens before the same bytes; the last case is a token that is nil without an error. *)
Theorem raw_near : forall s1 s2 r s1', near false s1 s2 -> l_err s1 = None -> raw_token_b c1 s1 = Some (r, s1') -> fr = true \/ r <> None \/ l_err s1' <> None ->
  exists s2', raw_token_b c2 s2 = Some (r, s2') /\ near false s1' s2'.
Proof.
  intros s1 s2 r s1' N NE E H. unfold raw_token_b in *. destruct (getc_near false s1 s2 N) as [G N'].
  destruct (getc s1) as [o1 t1] eqn:G1, (getc s2) as [o2 t2]. cbn [fst snd] in *. subst o2.
  destruct o1 as [b|]; [|inversion E; subst; eexists; split; [reflexivity | exact N']].
  assert (NE1 : l_err t1 = None).
  { Transparent getc. unfold getc in G1. Opaque getc. rewrite NE in G1. destruct (l_next s1); [inversion G1; reflexivity|]. destruct (s_bytes (l_src s1)); inversion G1; reflexivity. }
  destruct (b =? 60) eqn:B60; cbn [negb] in *.
  2: { rewrite ldo_eq in *. unfold ltry in *. destruct (text_b c1 None false (ungetc b t1)) as [[o u1]|] eqn:T; [|discriminate].
       destruct (text_near false None false (ungetc b t1) (ungetc b t2) o u1 (unget_near _ b _ _ N') T) as (u2 & T2 & N2).
       - destruct (Z.eq_dec b 62) as [->|B].
         + destruct fr eqn:FR; [auto|]. right; left. destruct o as [x|]; [exact (text_some _ _ _ _ _ _ T)|]. exfalso.
           inversion E; subst. destruct H as [H|[H|H]]; [discriminate | apply H; reflexivity | exact (H (text_gt _ _ _ NE1 T))].
         + right; left. eapply text_used; eauto; lia.
       - rewrite T2. destruct o; inversion E; subst; eexists; (split; [reflexivity | exact N2]). }
  revert E. apply (fun X => X : coupled false _ _); [|exact N'].
  tm. intros b1. destruct (b1 =? 47).
  { apply coupled_msg; [apply nsname_near | apply nsname_puts|]. intros n. apply coupled_used. apply coupled_try; [apply space_near|]. intros _. tm. intros b2.
    destruct (b2 =? 62); end_. }
  destruct (b1 =? 63).
  { apply coupled_msg; [apply name_near | apply name_puts'|]. intros n. apply coupled_used. apply coupled_try; [apply space_near|]. intros _. st.
    apply (coupled_fuel raw true (fun k => try _ <- pi_loop_b k 0;
              fun s =>
                let data := firstn (length (l_buf s) - 2) (l_buf s) in
                (try _ <- (if beq n (str "xml") then charset_b c1 data else lret tt);
                 lret (TProc n data, None)) s) (fun k => try _ <- pi_loop_b k 0;
              fun s =>
                let data := firstn (length (l_buf s) - 2) (l_buf s) in
                (try _ <- (if beq n (str "xml") then charset_b c2 data else lret tt);
                 lret (TProc n data, None)) s)). intros k. apply coupled_try; [apply pi_loop_near|]. intros _.
    apply (coupled_buf raw (fun b => fun s => let data := firstn (length b - 2) b in
                (try _ <- (if beq n (str "xml") then charset_b c1 data else lret tt);
                 lret (TProc n data, None)) s) (fun b => fun s => let data := firstn (length b - 2) b in
                (try _ <- (if beq n (str "xml") then charset_b c2 data else lret tt);
                 lret (TProc n data, None)) s)). intros bf. cbv zeta.
    apply coupled_try; [destruct (beq n (str "xml")); [apply charset_near | end_] | intros; end_]. }
  destruct (b1 =? 33).
  { tm. intros b2. destruct (b2 =? 45).
    - tm. intros b3. destruct (negb (b3 =? 45)); [end_|]. st.
      apply (coupled_fuel raw true (fun k => try _ <- comment_loop_b k 0 0; fun s => lret (TComment (firstn (length (l_buf s) - 3) (l_buf s)), None) s)
                                   (fun k => try _ <- comment_loop_b k 0 0; fun s => lret (TComment (firstn (length (l_buf s) - 3) (l_buf s)), None) s)).
      intros k. apply coupled_try; [apply comment_loop_near|]. intros _.
      apply (coupled_buf raw (fun b => fun s => lret (TComment (firstn (length b - 3) b), None) s) (fun b => fun s => lret (TComment (firstn (length b - 3) b), None) s)). intros bf. end_.
    - destruct (b2 =? 91).
      + apply coupled_try; [apply expect_near|]. intros _. apply coupled_try; [|intros; end_]. intros x1 x2 q x1' NX EX. eapply text_near; eauto.
      + st. st.
        apply (coupled_fuel raw true (fun k => try _ <- directive_loop_b (2 * k) None 0 0; fun s => lret (TDirective (l_buf s), None) s)
                                     (fun k => try _ <- directive_loop_b (2 * k) None 0 0; fun s => lret (TDirective (l_buf s), None) s)).
        intros k. apply coupled_try; [apply directive_near|]. intros _.
        apply (coupled_buf raw (fun b => fun s => lret (TDirective b, None) s) (fun b => fun s => lret (TDirective b, None) s)). intros bf. end_. }
  st. apply coupled_msg; [apply nsname_near | apply nsname_puts|]. intros n.
  apply (used_fuel raw false (fun k => try r <- attrs_loop_b k c1 []; lret (TStart n (fst r), if snd r then Some n else None))
                             (fun k => try r <- attrs_loop_b k c2 []; lret (TStart n (fst r), if snd r then Some n else None))).
  intros k. apply used_try; [apply loud_keeps, attrs_loud | apply attrs_near | intros; apply coupled_used; end_].
Qed.
End Near.

(** *** Tokens *)

Section Contexts.
Variables (dl : Z) (fr : bool) (c1 c2 : cfg).
(** The second decoder is inside an element [w] that declares the default namespace [u], or not. *)
Variable wrap : option (name * bytes).
Hypothesis AL : alike c1 c2.
Hypothesis CL : c_close c1 = c_close c2.
Hypothesis FO : c_fold c1 = c_fold c2.
Hypothesis DE : c_default c1 = match wrap with Some (_, u) => u | None => c_default c2 end.
Hypothesis WR : match wrap with Some (w, _) => c_strict c1 = true \/ existsb (fun x => c_fold c1 x (local w)) (c_close c1) = false | None => True end.

Definition outer (e : bent) : bent :=
  match wrap, e with Some (_, u), BNs [] _ false => BNs [] u true | _, _ => e end.
Definition base : list bent := match wrap with Some (w, _) => [BStart w; BNs [] [] false] | None => [] end.
Definition around (p : bytes) : option bytes := match wrap, p with Some (_, u), [] => Some u | _, _ => None end.
Definition shaped (e : bent) : Prop := match e with BNs _ u false => u = [] | _ => True end.
Record context (d1 d2 : bdec) : Prop := mkcontext {
  cx_lex : near dl fr false (b_lex d1) (b_lex d2);
  cx_close : b_close d2 = b_close d1;
  cx_stk : b_stk d2 = map outer (b_stk d1) ++ base;
  cx_ns : forall p, b_ns d2 p = match b_ns d1 p with Some v => Some v | None => around p end;
  cx_tok : b_tok d2 = b_tok d1;
  cx_depth : b_depth d2 = b_depth d1;
  cx_eof : ~ In BEof (b_stk d1)
}.
Definition ns_like (m1 m2 : nsmap) : Prop := forall p, m2 p = match m1 p with Some v => Some v | None => around p end.

Lemma translate_ctx : forall m1 m2 n e, ns_like m1 m2 -> translate_b c2 m2 n e = translate_b c1 m1 n e.
Proof.
  intros m1 m2 n e M. unfold translate_b. destruct (beq (space n) xmlnsPrefix); [reflexivity|].
  destruct (beq (space n) [] && negb e); [reflexivity|].
  assert (X : forall k, match m2 (space k) with Some v => mkname v (local k) | None => if beq (space k) [] then mkname (c_default c2) (local k) else k end =
                        match m1 (space k) with Some v => mkname v (local k) | None => if beq (space k) [] then mkname (c_default c1) (local k) else k end).
  { intros k. rewrite M. destruct (m1 (space k)); [reflexivity|]. unfold around. rewrite DE.
    destruct wrap as [[w u]|]; [|reflexivity]. destruct (space k); reflexivity. }
  destruct (beq (space n) xmlPrefix); [apply X|]. destruct (beq (space n) [] && beq (local n) xmlnsPrefix); [reflexivity | apply X].
Qed.
Lemma push_ctx : forall p v stk1 m1 stk2 m2, stk2 = map outer stk1 ++ base -> ns_like m1 m2 ->
  let r1 := push_ns p v (stk1, m1) in let r2 := push_ns p v (stk2, m2) in
  fst r2 = map outer (fst r1) ++ base /\ ns_like (snd r1) (snd r2).
Proof.
  intros p v stk1 m1 stk2 m2 -> M. simpl. split.
  - rewrite M. destruct (m1 p) as [old|]; [destruct p; unfold outer; destruct wrap as [[w u]|]; reflexivity|].
    unfold around, outer. destruct wrap as [[w u]|]; [|reflexivity]. destruct p; reflexivity.
  - intros q. unfold ns_set. destruct (beq q p); [reflexivity | apply M].
Qed.
Lemma declare_ctx : forall a stk1 m1 stk2 m2, stk2 = map outer stk1 ++ base -> ns_like m1 m2 ->
  let r1 := declare_b a (stk1, m1) in let r2 := declare_b a (stk2, m2) in
  fst (fst r2) = map outer (fst (fst r1)) ++ base /\ ns_like (snd (fst r1)) (snd (fst r2)) /\ snd r2 = snd r1.
Proof.
  induction a as [|[n v] a IH]; intros stk1 m1 stk2 m2 ST M; [simpl; auto|]. cbv zeta in *. cbn [declare_b].
  destruct (beq (space n) xmlnsPrefix && beq v []); [simpl; auto|]. destruct (beq (space n) xmlnsPrefix && beq (local n) []); [simpl; auto|].
  destruct (beq (space n) xmlnsPrefix).
  - destruct (push_ctx (local n) v stk1 m1 stk2 m2 ST M) as [S1 M1]. destruct (push_ns (local n) v (stk1, m1)) as [x1 y1], (push_ns (local n) v (stk2, m2)) as [x2 y2].
    cbn [fst snd] in *. destruct (beq (space n) [] && beq (local n) xmlnsPrefix).
    + destruct (push_ctx [] v x1 y1 x2 y2 S1 M1) as [S2 M2]. destruct (push_ns [] v (x1, y1)) as [x3 y3], (push_ns [] v (x2, y2)) as [x4 y4]. apply IH; auto.
    + apply IH; auto.
  - destruct (beq (space n) [] && beq (local n) xmlnsPrefix).
    + destruct (push_ctx [] v stk1 m1 stk2 m2 ST M) as [S2 M2]. destruct (push_ns [] v (stk1, m1)) as [x3 y3], (push_ns [] v (stk2, m2)) as [x4 y4]. apply IH; auto.
    + apply IH; auto.
Qed.
Lemma outer_start : forall n, outer (BStart n) = BStart n. Proof. clear WR DE. intros n. unfold outer. destruct wrap as [[]|]; reflexivity. Qed.
Lemma outer_eof : outer BEof = BEof. Proof. clear WR DE. unfold outer. destruct wrap as [[]|]; reflexivity. Qed.
Lemma outer_ns : forall p x ok, exists x' ok', outer (BNs p x ok) = BNs p x' ok'.
Proof. clear WR DE. intros p x ok. unfold outer. destruct wrap as [[w u]|]; [|eauto]. destruct p; [destruct ok|]; eauto. Qed.
Lemma undo_ctx : forall stk1 m1 m2, ns_like m1 m2 ->
  let r1 := undo_b stk1 m1 in let r2 := undo_b (map outer stk1 ++ base) m2 in
  fst r2 = map outer (fst r1) ++ base /\ ns_like (snd r1) (snd r2).
Proof.
  induction stk1 as [|e stk1 IH]; intros m1 m2 M; cbv zeta in *.
  - simpl. unfold base. destruct wrap as [[w u]|]; simpl; auto.
  - destruct e as [n|p x ok|]; cbn [map app]; rewrite ?outer_start, ?outer_eof; [simpl; rewrite outer_start; auto | | simpl; rewrite outer_eof; auto].
    assert (X : exists p' x' ok', outer (BNs p x ok) = BNs p' x' ok' /\
        ns_like (if ok then ns_set m1 p x else ns_del m1 p) (if ok' then ns_set m2 p' x' else ns_del m2 p')).
      { unfold outer. destruct wrap as [[w u]|] eqn:W.
        - destruct p as [|b p]; [destruct ok|]; do 3 eexists; (split; [reflexivity|]); intros q.
          + unfold ns_set. destruct (beq q []); [reflexivity | apply M].
          + unfold ns_set, ns_del. destruct (beq q []) eqn:Q; [|apply M]. apply beq_eq in Q. subst q. unfold around. rewrite W. reflexivity.
          + destruct ok; unfold ns_set, ns_del; (destruct (beq q (b :: p)) eqn:Q; [|apply M]); [reflexivity|]. apply beq_eq in Q. subst q.
            unfold around. rewrite W. reflexivity.
        - do 3 eexists. split; [reflexivity|]. intros q. destruct ok; unfold ns_set, ns_del; (destruct (beq q p) eqn:Q; [|apply M]); [reflexivity|].
          unfold around. rewrite W. reflexivity. }
      destruct X as (p' & x' & ok' & -> & M'). cbn [undo_b]. apply IH. exact M'.
Qed.
Lemma map_head : forall stk, match map outer stk ++ base with BStart n :: _ => match stk with BStart n' :: _ => n = n' | [] => wrap <> None | _ => False end
  | BNs _ _ _ :: _ => match stk with BNs _ _ _ :: _ => True | _ => False end | BEof :: _ => match stk with BEof :: _ => True | _ => False end | [] => stk = [] /\ wrap = None end.
Proof.
  intros [|[n|p x ok|] stk]; cbn [map app]; rewrite ?outer_start, ?outer_eof; auto.
  - unfold base. destruct wrap as [[w u]|]; [discriminate | auto].
  - destruct (outer_ns p x ok) as (x' & ok' & ->). exact I.
Qed.
Lemma dfail_ctx : forall m d1 d2, context d1 d2 -> context (dfail m d1) (dfail m d2) /\ b_err (dfail m d2) = option_map (shift dl) (b_err (dfail m d1)).
Proof.
  intros m d1 d2 [A B C D E F G]. split; [constructor; simpl; auto; apply fail_near; exact A|]. unfold b_err, dfail. simpl. rewrite (nr_line _ _ _ _ _ A). reflexivity.
Qed.
(** Without a wrapper also errors. *)
Lemma finish_ctx : forall t d1 d2 r e d1', context d1 d2 -> finish c1 t d1 = ((r, e), d1') -> e = None \/ wrap = None ->
  exists d2', finish c2 t d2 = ((r, option_map (shift dl) e), d2') /\ context d1' d2'.
Proof.
  intros t d1 d2 r e d1' CX F H. pose proof CX as [A B C D E DP G].
  destruct t as [[n a|n| | | |]|]; cbn [finish] in *; try (inversion F; subst r e d1'; exists d2; split; [reflexivity | exact CX]).
  - destruct (declare_ctx a (b_stk d1) (b_ns d1) (b_stk d2) (b_ns d2) C D) as (S1 & M1 & E1).
    pose proof (ns_no_eof a (b_stk d1) (b_ns d1) G) as NE.
    destruct (declare_b a (b_stk d1, b_ns d1)) as [[stk1 m1] o1], (declare_b a (b_stk d2, b_ns d2)) as [[stk2 m2] o2]. cbn [fst snd] in *. subst o2.
    assert (C1 : context (with_stk stk1 m1 d1) (with_stk stk2 m2 d2)) by (constructor; simpl; auto).
    destruct o1 as [msg|].
    + inversion F; subst r e d1'. destruct (dfail_ctx msg _ _ C1) as [C2 C3]. eexists. split; [rewrite C3; reflexivity | exact C2].
    + inversion F; subst r e d1'. exists (with_stk (BStart n :: stk2) m2 d2). split; [|constructor; simpl; auto; [rewrite S1; cbn [map app]; rewrite outer_start; reflexivity | intros [X|X]; [discriminate | exact (NE X)]]].
      cbn [option_map]. do 4 f_equal; [apply translate_ctx; exact M1|]. apply map_ext. intros x. f_equal. apply translate_ctx. exact M1.
  - unfold pop_b in *. pose proof (map_head (b_stk d1)) as MH. rewrite C. destruct (b_stk d1) as [|[s|p x ok|] stk] eqn:SK.
    + destruct (map outer [] ++ base) as [|[| |] l] eqn:Q; cbn [map app] in Q; try contradiction.
      * inversion F; subst r e d1'. destruct (dfail_ctx (str "unexpected end element") _ _ CX) as [C2 C3]. eexists. split; [rewrite C3; reflexivity | exact C2].
      * destruct H as [->|H]; [inversion F | contradiction].
    + cbn [map app]. rewrite outer_start. rewrite <- (al_strict _ _ AL).
      assert (C1 : context (with_stk stk (b_ns d1) d1) (with_stk (map outer stk ++ base) (b_ns d2) d2)).
      { constructor; simpl; auto. intros X. apply G. right. exact X. }
      destruct (negb (beq (local s) (local n))).
      * destruct (negb (c_strict c1)).
        -- inversion F; subst r e d1'. eexists. split; [reflexivity|]. destruct C1. constructor; simpl; auto.
        -- inversion F; subst r e d1'. destruct (dfail_ctx (str "element closed by another") _ _ C1) as [C2 C3]. eexists. split; [rewrite C3; reflexivity | exact C2].
      * destruct (negb (beq (space s) (space n))).
        -- inversion F; subst r e d1'. destruct (dfail_ctx (str "element closed in another namespace") _ _ C1) as [C2 C3]. eexists. split; [rewrite C3; reflexivity | exact C2].
        -- cbn [b_ns with_stk] in *. destruct (undo_ctx stk (b_ns d1) (b_ns d2) D) as [U1 U2].
           pose proof (undo_no_eof stk (b_ns d1) ltac:(intros X; apply G; right; exact X)) as NE.
           destruct (undo_b stk (b_ns d1)) as [stk1 m1], (undo_b (map outer stk ++ base) (b_ns d2)) as [stk2 m2]. cbn [fst snd] in *.
           inversion F; subst r e d1'. eexists. split; [cbn [option_map]; do 4 f_equal; apply translate_ctx; exact D|]. constructor; simpl; auto.
    + cbn [map app]. destruct (outer_ns p x ok) as (x' & ok' & ->). 
      assert (C1 : context (with_stk stk (b_ns d1) d1) (with_stk (map outer stk ++ base) (b_ns d2) d2)).
      { constructor; simpl; auto. intros X. apply G. right. exact X. }
      inversion F; subst r e d1'. destruct (dfail_ctx (str "unexpected end element") _ _ C1) as [C2 C3]. eexists. split; [rewrite C3; reflexivity | exact C2].
    + exfalso. apply G. left. reflexivity.
Qed.
Lemma auto_ctx : forall t d1 d2, context d1 d2 -> fst (auto c2 t d2) = fst (auto c1 t d1) /\ context (snd (auto c1 t d1)) (snd (auto c2 t d2)).
Proof.
  intros t d1 d2 CX. pose proof CX as [A B C D E DP G]. unfold auto. rewrite <- (al_strict _ _ AL). destruct (c_strict c1) eqn:ST; [split; [reflexivity | exact CX]|].
  assert (X : auto_close c2 t d2 = auto_close c1 t d1).
  { unfold auto_close. rewrite C. rewrite <- CL, <- FO. destruct (b_stk d1) as [|[s|p x ok|] stk]; cbn [map app].
    - unfold base. pose proof WR as WR'. destruct wrap as [[w u]|]; [|reflexivity]. destruct WR' as [X|X]; [congruence|]. rewrite X. reflexivity.
    - rewrite outer_start. reflexivity.
    - destruct (outer_ns p x ok) as (x' & ok' & ->). reflexivity.
    - rewrite outer_eof. reflexivity. }
  rewrite X. destruct (auto_close c1 t d1); split; auto. constructor; simpl; auto.
Qed.
Lemma rawb_ctx : forall d1 d2 t d1', context d1 d2 -> raw_b c1 d1 = Some (t, d1') -> fr = true \/ t <> None \/ b_err d1' <> None ->
  exists d2', raw_b c2 d2 = Some (t, d2') /\ context d1' d2'.
Proof.
  intros d1 d2 t d1' CX E H. pose proof CX as [A B C D T DP G]. unfold raw_b in *. unfold b_err in *. rewrite (nr_err _ _ _ _ _ A), B.
  destruct (l_err (b_lex d1)) eqn:NE; cbn [option_map]; [inversion E; subst t d1'; exists d2; split; [reflexivity | exact CX]|].
  destruct (b_close d1) as [n|] eqn:BC; [inversion E; subst t d1'; exists (with_close None d2); split; [reflexivity|]; constructor; simpl; auto|].
  destruct (raw_token_b c1 (b_lex d1)) as [[[[t' cl]|] s1']|] eqn:R; [| |discriminate]; inversion E; subst; clear E.
  - destruct (raw_near dl fr c1 c2 AL _ _ _ _ A NE R ltac:(right; left; discriminate)) as (s2' & R2 & N2). rewrite R2.
    eexists. split; [reflexivity|]. constructor; simpl; auto; congruence.
  - destruct (raw_near dl fr c1 c2 AL _ _ _ _ A NE R ltac:(destruct H as [H|[H|H]]; [auto | exfalso; apply H; reflexivity | right; right; exact H])) as (s2' & R2 & N2). rewrite R2.
    eexists. split; [reflexivity|]. constructor; simpl; auto; congruence.
Qed.
Theorem token_ctx : forall d1 d2 t e d1', context d1 d2 -> Token c1 d1 = Some ((t, e), d1') -> e = None \/ wrap = None -> fr = true \/ c_strict c1 = true /\ (t <> None \/ e <> None) ->
  exists d2', Token c2 d2 = Some ((t, option_map (shift dl) e), d2') /\ context d1' d2'.
Proof.
  intros d1 d2 t e d1' CX E H1 H2. pose proof CX as [A B C D TK DP G]. unfold Token in *. rewrite (stk_head _ _ _ _ G) in E.
  assert (G2 : no_eof (b_stk d2)).
  { rewrite C. intros X. apply in_app_iff in X. destruct X as [X|X].
    - apply in_map_iff in X. destruct X as (y & Y & Z). destruct y as [n|p x ok|]; [rewrite outer_start in Y; discriminate | | exact (G Z)].
      destruct (outer_ns p x ok) as (x' & ok' & Q). congruence.
    - unfold base in X. destruct wrap as [[w u]|]; simpl in X; intuition discriminate. }
  rewrite (stk_head _ _ _ _ G2), TK. destruct (b_tok d1) as [t0|].
  - assert (C1 : context (with_tok None d1) (with_tok None d2)) by (constructor; simpl; auto).
    destruct (auto_ctx (Some t0) _ _ C1) as [A1 A2]. destruct (auto c1 (Some t0) (with_tok None d1)) as [t1 x1], (auto c2 (Some t0) (with_tok None d2)) as [t2 x2].
    cbn [fst snd] in *. subst t2. inversion E as [E1]. destruct (finish_ctx _ _ _ _ _ _ A2 E1 H1) as (d2' & F2 & C2). rewrite F2. eauto.
  - destruct (raw_b c1 d1) as [[t0 x1]|] eqn:R; [|discriminate].
    assert (K : fr = true \/ t0 <> None \/ b_err x1 <> None).
    { destruct H2 as [H2|[ST H2]]; [auto|]. destruct t0 as [t0|]; [right; left; discriminate|]. right; right. destruct (b_err x1) eqn:Q; [discriminate|].
      exfalso. assert (X : t = None /\ e = None); [|destruct X as [-> ->]; destruct H2 as [H2|H2]; apply H2; reflexivity].
      unfold auto in E. rewrite ST in E. inversion E; auto. }
    destruct (rawb_ctx _ _ _ _ CX R K) as (x2 & R2 & C2). rewrite R2. pose proof C2 as [A2 _ S2 _ _ _ G1].
    assert (EE : b_err x2 = option_map (shift dl) (b_err x1)) by exact (nr_err _ _ _ _ _ A2). rewrite EE.
    assert (FIN : (let '(t', d'') := auto c1 t0 x1 in Some (finish c1 t' d'')) = Some ((t, e), d1') ->
      exists d2', (let '(t', d'') := auto c2 t0 x2 in Some (finish c2 t' d'')) = Some ((t, option_map (shift dl) e), d2') /\ context d1' d2').
    { intros F. destruct (auto_ctx t0 _ _ C2) as [B1 B2]. destruct (auto c1 t0 x1) as [t1 y1], (auto c2 t0 x2) as [t2 y2].
      cbn [fst snd] in *. subst t2. inversion F as [F1]. destruct (finish_ctx _ _ _ _ _ _ B2 F1 H1) as (d2' & F2 & C3). rewrite F2. eauto. }
    destruct t0 as [t0|]; [apply FIN; exact E|]. destruct (b_err x1) as [e1|]; [|apply FIN; exact E]. cbn [option_map].
    destruct H1 as [->|H1]; [discriminate|]. inversion E; subst t e d1'. exists x2. split; [|exact C2]. cbn [option_map]. do 4 f_equal.
    assert (S3 : b_stk x2 = [] <-> b_stk x1 = []).
    { rewrite S2. unfold base. rewrite H1, app_nil_r. split; [apply map_eq_nil | intros ->; reflexivity]. }
    destruct e1 as [[|m]|m l|m]; cbn [shift]; auto.
    destruct (b_stk x1) as [|h1 l1] eqn:Q1, (b_stk x2) as [|h2 l2] eqn:Q2; cbn [shift]; auto.
    + exfalso. destruct S3 as [_ S3]. discriminate (S3 eq_refl).
    + exfalso. destruct S3 as [S3 _]. discriminate (S3 eq_refl).
    + rewrite (nr_line _ _ _ _ _ A2). reflexivity.
Qed.
End Contexts.
