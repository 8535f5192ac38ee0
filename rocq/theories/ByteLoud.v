(** When a raw token is nil, there is an error, except for text at the start of the input. *)
From Coq Require Import String.
From Coq Require Import ZArith List Bool Lia.
From Coq Require Import ZifyBool ZifyNat.
From Verif Require Import Base Utf8 NameTables Lexer Decoder ByteDecoder ByteRuns.
Import ListNotations.
Open Scope Z_scope.

(** The buffer stays used. *)
Definition keeps {A} (m : L A) : Prop := forall s r s', l_fresh s = false -> m s = Some (r, s') -> l_fresh s' = false.
(** Also, nothing fails without an error. *)
Definition loud {A} (m : L A) : Prop :=
  forall s r s', l_fresh s = false -> m s = Some (r, s') -> l_fresh s' = false /\ (r = None -> l_err s' <> None).

Lemma getc_fresh : forall s o s', getc s = (o, s') -> l_fresh s' = l_fresh s.
Proof.
  intros [src nx ln st off sv buf fr it er] o s' E. unfold getc in E. simpl in E.
  destruct er; [inversion E; reflexivity|]. destruct nx; [inversion E; reflexivity|].
  destruct (s_bytes src); inversion E; reflexivity.
Qed.
Lemma getc_none : forall s s', getc s = (None, s') -> l_err s' <> None.
Proof.
  intros [src nx ln st off sv buf fr it er] s' E. unfold getc in E. simpl in E.
  destruct er; [inversion E; simpl; congruence|]. destruct nx; [inversion E|].
  destruct (s_bytes src); inversion E. simpl. congruence.
Qed.
Lemma must_loud : loud lmust.
Proof.
  intros s r s' F E. unfold lmust, mustgetc in E. destruct (getc s) as [o s1] eqn:G.
  pose proof (getc_fresh _ _ _ G) as GF. destruct o as [b|].
  - inversion E; subst. split; [congruence|]. discriminate.
  - pose proof (getc_none _ _ G) as N. inversion E; subst. destruct (l_err s1) as [[[]| |]|] eqn:X; simpl; split; congruence.
Qed.
Lemma loud_keeps : forall A (m : L A), loud m -> keeps m.
Proof. intros A m H s r s' F E. eapply H; eauto. Qed.
Lemma ret_loud : forall A (a : A), loud (lret a).
Proof. intros A a s r s' F E. inversion E; subst. split; auto. discriminate. Qed.
Lemma fail_loud : forall A m, loud (@lfail A m).
Proof. intros A m s r s' F E. inversion E; subst. simpl. split; [exact F|]. congruence. Qed.
Lemma none_keeps : forall A, keeps (fun s => Some (@None A, s)).
Proof. intros A s r s' F E. inversion E; subst. auto. Qed.
Lemma try_loud : forall A B (m : L A) (f : A -> L B), loud m -> (forall a, loud (f a)) -> loud (ltry m f).
Proof.
  intros A B m f M K s r s' F E. unfold ltry in E. destruct (m s) as [[[a|] s1]|] eqn:X; [| |discriminate].
  - destruct (M _ _ _ F X) as [F1 _]. eapply K; eauto.
  - inversion E; subst. destruct (M _ _ _ F X) as [F1 N]. auto.
Qed.
Lemma try_keeps : forall A B (m : L A) (f : A -> L B), keeps m -> (forall a, keeps (f a)) -> keeps (ltry m f).
Proof.
  intros A B m f M K s r s' F E. unfold ltry in E. destruct (m s) as [[[a|] s1]|] eqn:X; [| |discriminate].
  - pose proof (M _ _ _ F X) as F1. eapply K; eauto.
  - inversion E; subst. eapply M; eauto.
Qed.
Lemma step_loud : forall A (m : L A) g, (forall s, l_fresh s = false -> l_fresh (g s) = false) -> loud m -> loud (step g; m).
Proof. intros A m g G M s r s' F E. unfold ldo in E. exact (M _ _ _ (G _ F) E). Qed.
Lemma step_keeps : forall A (m : L A) g, (forall s, l_fresh s = false -> l_fresh (g s) = false) -> keeps m -> keeps (step g; m).
Proof. intros A m g G M s r s' F E. unfold ldo in E. exact (M _ _ _ (G _ F) E). Qed.
Lemma msg_loud : forall A B (m : L A) msg (f : A -> L B), keeps m -> (forall a, loud (f a)) -> loud (ltry_msg m msg f).
Proof.
  intros A B m msg f M K s r s' F E. unfold ltry_msg in E. destruct (m s) as [[[a|] s1]|] eqn:X; [| |discriminate].
  - pose proof (M _ _ _ F X) as F1. eapply K; eauto.
  - pose proof (M _ _ _ F X) as F1. inversion E; subst. unfold has_err. destruct (l_err s1) eqn:Y; simpl; split; congruence.
Qed.
Lemma state_loud : forall A (m : lst -> L A), (forall x, loud (m x)) -> loud (fun s => m s s).
Proof. intros A m H s r s' F E. eapply H; eauto. Qed.
Lemma state_keeps : forall A (m : lst -> L A), (forall x, keeps (m x)) -> keeps (fun s => m s s).
Proof. intros A m H s r s' F E. eapply H; eauto. Qed.
Lemma out_loud : forall A, loud (fun _ : lst => @None (option A * lst)).
Proof. intros A s r s' F E. discriminate. Qed.
Ltac frt := let s := fresh in let H := fresh in intros s H; simpl; auto; try (rewrite H; reflexivity).

Lemma space_keeps : forall k, loud (space_loop k).
Proof.
  induction k as [|k IH]; [apply out_loud|]. intros s r s' F E. simpl in E. destruct (getc s) as [[b|] s1] eqn:G.
  - pose proof (getc_fresh _ _ _ G) as GF. destruct (is_space b).
    + eapply IH; [|exact E]. congruence.
    + inversion E; subst. simpl. split; [congruence | discriminate].
  - pose proof (getc_fresh _ _ _ G) as GF. inversion E; subst. split; [congruence | discriminate].
Qed.
Lemma lspace_loud : loud lspace.
Proof. unfold lspace. apply (state_loud _ (fun x => space_loop (lfuel x))). intro. apply space_keeps. Qed.
Lemma name_loop_loud : forall k, loud (name_loop k).
Proof.
  induction k as [|k IH]; [apply out_loud|]. simpl. apply try_loud; [apply must_loud|]. intros b.
  destruct (name_byte b).
  - apply step_loud; [frt | apply IH].
  - apply step_loud; [frt | apply ret_loud].
Qed.
Lemma read_name_keeps : keeps read_name_b.
Proof.
  unfold read_name_b. apply (state_keeps _ (fun x => try b <- lmust; if name_byte b then step put b; name_loop (lfuel x)
            else step ungetc b; fun s => Some (None, s))).
  intro x. apply try_keeps; [apply loud_keeps, must_loud|]. intros b. destruct (name_byte b).
  - apply step_keeps; [frt | apply loud_keeps, name_loop_loud].
  - apply step_keeps; [frt | apply none_keeps].
Qed.
(** A name that was read has used the buffer. *)
Lemma name_loop_puts : forall k s r s', l_fresh s = false -> name_loop k s = Some (r, s') -> l_fresh s' = false.
Proof. intros. eapply (loud_keeps _ _ (name_loop_loud k)); eauto. Qed.
Lemma read_name_puts : forall s u s', read_name_b s = Some (Some u, s') -> l_fresh s' = false.
Proof.
  intros s u s' E. unfold read_name_b, ltry, lmust in E. destruct (mustgetc s) as [[b|] s1]; [|discriminate].
  destruct (name_byte b); unfold ldo in E; [|discriminate].
  eapply name_loop_puts; [|exact E]. reflexivity.
Qed.
Lemma name_puts : forall s u s', name_b s = Some (Some u, s') -> l_fresh s' = false.
Proof.
  intros s u s' E. unfold name_b, ldo, ltry in E. destruct (read_name_b (reset s)) as [[[a|] s1]|] eqn:X; try discriminate.
  pose proof (read_name_puts _ _ _ X) as F. destruct (is_name (l_buf s1)).
  - destruct (intern (l_intern s1) (l_buf s1)) as [i n]. inversion E; subst. exact F.
  - discriminate.
Qed.
Lemma nsname_puts : forall s u s', nsname_b s = Some (Some u, s') -> l_fresh s' = false.
Proof.
  intros s u s' E. unfold nsname_b, ltry in E. destruct (name_b s) as [[[a|] s1]|] eqn:X; try discriminate.
  pose proof (name_puts _ _ _ X) as F. destruct (split_ns a); inversion E; subst. exact F.
Qed.
Lemma name_keeps : keeps name_b.
Proof.
  unfold name_b. apply step_keeps; [frt|]. apply try_keeps; [apply read_name_keeps|]. intros _ s r s' F E.
  destruct (is_name (l_buf s)).
  - destruct (intern (l_intern s) (l_buf s)) as [i n]. inversion E; subst. exact F.
  - inversion E; subst. exact F.
Qed.
Lemma nsname_keeps : keeps nsname_b.
Proof.
  unfold nsname_b. apply try_keeps; [apply name_keeps|]. intros x. destruct (split_ns x);
  [apply loud_keeps, ret_loud | apply none_keeps].
Qed.
Lemma digits_loud : forall base16 k b, loud (digits_loop k base16 b).
Proof.
  intros base16. induction k as [|k IH]; intros b; [apply out_loud|]. simpl. destruct (hex_digit base16 b).
  - apply step_loud; [frt|]. apply try_loud; [apply must_loud|]. intros. apply IH.
  - apply ret_loud.
Qed.
Lemma entity_loud : forall c before, loud (entity_b c before).
Proof.
  intros c before. unfold entity_b. apply try_loud; [apply must_loud|]. intros b. destruct (b =? 35).
  - apply step_loud; [frt|]. apply try_loud; [apply must_loud|]. intros b1.
    assert (N : forall base16 b1, loud (fun s : lst => (try b <- digits_loop (lfuel s) base16 b1;
       if negb (b =? 59) then step ungetc b; lret None
       else fun s0 => lret (parse_rune base16 (skipn (length (l_buf s)) (l_buf s0))) (put 59 s0)) s)).
    { intros base16 b2. apply (state_loud _ (fun x => try b <- digits_loop (lfuel x) base16 b2;
       if negb (b =? 59) then step ungetc b; lret None
       else fun s0 => lret (parse_rune base16 (skipn (length (l_buf x)) (l_buf s0))) (put 59 s0))).
      intro x. apply try_loud; [apply digits_loud|]. intros b3. destruct (negb (b3 =? 59)).
      - apply step_loud; [frt | apply ret_loud].
      - intros s r s' F E. inversion E; subst. split; [reflexivity | discriminate]. }
    destruct (b1 =? 120).
    + apply step_loud; [frt|]. apply try_loud; [apply must_loud|]. intros b2. apply N.
    + apply N.
  - apply step_loud; [frt|]. intros s r s' F E. destruct (read_name_b s) as [[o s1]|] eqn:X; [|discriminate].
    pose proof (read_name_keeps _ _ _ F X) as F1.
    destruct (match o with Some _ => false | None => has_err s1 end) eqn:H.
    + inversion E; subst. split; auto. intros _. destruct o; [discriminate|]. unfold has_err in H. destruct (l_err s'); congruence.
    + revert F1 E. apply try_loud; [apply must_loud|]. intros b2. destruct (negb (b2 =? 59)).
      * apply step_loud; [frt | apply ret_loud].
      * intros s2 r2 s3 F2 E2. inversion E2; subst. split; [reflexivity | discriminate].
Qed.
Lemma text_loop_loud : forall c quote cdata k b0 b1, loud (text_loop_b k c quote cdata b0 b1).
Proof.
  intros c quote cdata. induction k as [|k IH]; intros b0 b1; [apply out_loud|].
  intros s r s' F E. simpl in E. destruct (getc s) as [[b|] s1] eqn:G.
  - pose proof (getc_fresh _ _ _ G) as GF. rewrite F in GF. revert E.
    destruct (negb match quote with Some _ => true | None => false end && (b0 =? 93) && (b1 =? 93) && (b =? 62)).
    { destruct cdata; [apply ret_loud; auto | apply fail_loud; auto]. }
    destruct ((b =? 60) && negb cdata).
    { destruct quote; [apply fail_loud; auto | apply ret_loud; auto]. }
    destruct ((b =? 62) && negb cdata && negb match quote with Some _ => true | None => false end).
    { apply ret_loud; auto. }
    destruct (match quote with Some q => b =? q | None => false end); [apply ret_loud; auto|].
    destruct ((b =? 38) && negb cdata).
    { revert GF. apply step_loud; [frt|]. apply try_loud; [apply entity_loud|]. intros [t|].
      - apply step_loud; [frt|]. apply step_loud; [frt|]. apply IH.
      - destruct (negb (c_strict c)); [apply IH | apply fail_loud]. }
    apply IH. destruct (b =? 13); [reflexivity|]. destruct ((b1 =? 13) && (b =? 10)); auto.
  - pose proof (getc_fresh _ _ _ G) as GF. pose proof (getc_none _ _ G) as GN. destruct cdata.
    + inversion E; subst. destruct (l_err s1) as [[[]| |]|] eqn:X; simpl; split; congruence.
    + inversion E; subst. split; [congruence | discriminate].
Qed.
Lemma text_loud : forall c quote cdata, loud (text_b c quote cdata).
Proof.
  intros c quote cdata. unfold text_b. apply step_loud; [frt|]. apply (state_loud _ (fun x => try trunc <- text_loop_b (lfuel x) c quote cdata 0 0;
     fun s =>
       let data := firstn (length (l_buf s) - trunc) (l_buf s) in
       if forallb good_piece (pieces data)
       then Some (if l_fresh s then None else Some data, s)
       else lfail (str "invalid UTF-8 or illegal character code") s)).
  intro x. apply try_loud; [apply text_loop_loud|]. intros t s r s' F E. cbv zeta in E.
  destruct (forallb good_piece (pieces (firstn (length (l_buf s) - t) (l_buf s)))).
  - rewrite F in E. inversion E; subst. split; auto. discriminate.
  - eapply fail_loud; eauto.
Qed.
Lemma value_loop_loud : forall k, loud (value_loop k).
Proof.
  induction k as [|k IH]; [apply out_loud|]. simpl. apply try_loud; [apply must_loud|]. intros b.
  destruct (is_value_byte b).
  - apply step_loud; [frt | apply IH].
  - apply step_loud; [frt | apply ret_loud].
Qed.
Lemma attrval_loud : forall c, loud (attrval_b c).
Proof.
  intros c. unfold attrval_b. apply try_loud; [apply must_loud|]. intros b. destruct ((b =? 34) || (b =? 39)); [apply text_loud|].
  destruct (c_strict c); [apply fail_loud|]. apply step_loud; [frt|]. apply step_loud; [frt|].
  apply (state_loud _ (fun x => try _ <- value_loop (lfuel x); fun s => Some (if l_fresh s then None else Some (l_buf s), s))).
  intro x. apply try_loud; [apply value_loop_loud|]. intros _ s r s' F E. rewrite F in E. inversion E; subst. split; auto. discriminate.
Qed.
Lemma pi_loop_loud : forall k b0, loud (pi_loop_b k b0).
Proof.
  induction k as [|k IH]; intros; [apply out_loud|]. simpl. apply try_loud; [apply must_loud|]. intros b.
  apply step_loud; [frt|]. destruct ((b0 =? 63) && (b =? 62)); [apply ret_loud | apply IH].
Qed.
Lemma attrs_loud : forall c k acc, loud (attrs_loop_b k c acc).
Proof.
  intros c. induction k as [|k IH]; intros acc; [apply out_loud|]. cbn [attrs_loop_b].
  apply try_loud; [apply lspace_loud|]. intros _ s r s' F E.
  destruct (mustgetc s) as [o s1] eqn:M. destruct (must_loud s o s1 F ltac:(unfold lmust; rewrite M; reflexivity)) as [F1 N1].
  destruct o as [b|].
  - revert E. revert F1. destruct (b =? 47).
    { apply try_loud; [apply must_loud|]. intros b1. destruct (b1 =? 62); [apply ret_loud | apply fail_loud]. }
    destruct (b =? 62); [apply ret_loud|].
    apply step_loud; [frt|]. apply msg_loud; [apply nsname_keeps|]. intros n. apply try_loud; [apply lspace_loud|]. intros _.
    apply try_loud; [apply must_loud|]. intros b1. destruct (negb (b1 =? 61)).
    + destruct (c_strict c); [apply fail_loud | apply IH].
    + apply try_loud; [apply lspace_loud|]. intros _. apply try_loud; [apply attrval_loud|]. intros v. apply IH.
  - destruct (negb (length acc =? 0)%nat && negb (c_strict c)); inversion E; subst; split; auto; discriminate.
Qed.
(** Functions that do not depend on the buffer being used. *)
Definition noisy {A} (m : L A) : Prop := forall s s', m s = Some (None, s') -> l_err s' <> None.
Lemma must_noisy : noisy lmust.
Proof.
  intros s s' E. unfold lmust, mustgetc in E. destruct (getc s) as [o s1] eqn:G. destruct o as [b|]; [discriminate|].
  pose proof (getc_none _ _ G) as N. inversion E; subst. destruct (l_err s1) as [[[]| |]|] eqn:X; simpl; congruence.
Qed.
Lemma ret_noisy : forall A (a : A), noisy (lret a).
Proof. intros A a s s' E. discriminate. Qed.
Lemma fail_noisy : forall A m, noisy (@lfail A m).
Proof. intros A m s s' E. inversion E; subst. simpl. congruence. Qed.
Lemma try_noisy : forall A B (m : L A) (f : A -> L B), noisy m -> (forall a, noisy (f a)) -> noisy (ltry m f).
Proof.
  intros A B m f M K s s' E. unfold ltry in E. destruct (m s) as [[[a|] s1]|] eqn:X; [| |discriminate].
  - eapply K; eauto.
  - inversion E; subst. eapply M; eauto.
Qed.
Lemma step_noisy : forall A (m : L A) g, noisy m -> noisy (step g; m).
Proof. intros A m g M s s' E. unfold ldo in E. eapply M; eauto. Qed.
Lemma msg_noisy : forall A B (m : L A) msg (f : A -> L B),
  (forall s a s1, m s = Some (Some a, s1) -> forall s', f a s1 = Some (None, s') -> l_err s' <> None) -> noisy (ltry_msg m msg f).
Proof.
  intros A B m msg f K s s' E. unfold ltry_msg in E. destruct (m s) as [[[a|] s1]|] eqn:X; [| |discriminate].
  - eapply K; eauto.
  - inversion E; subst. unfold has_err. destruct (l_err s1) eqn:Y; simpl; congruence.
Qed.
Lemma out_noisy : forall A, noisy (fun _ : lst => @None (option A * lst)).
Proof. intros A s s' E. discriminate. Qed.
Lemma state_noisy : forall A (m : lst -> L A), (forall x, noisy (m x)) -> noisy (fun s => m s s).
Proof. intros A m H s s' E. eapply H; eauto. Qed.
Lemma space_some : forall k, noisy (space_loop k).
Proof.
  induction k as [|k IH]; [apply out_noisy|]. intros s s' E. simpl in E. destruct (getc s) as [[b|] s1] eqn:G.
  - destruct (is_space b); [eapply IH; eauto | discriminate].
  - discriminate.
Qed.
Lemma lspace_noisy : noisy lspace.
Proof. unfold lspace. apply (state_noisy _ (fun x => space_loop (lfuel x))). intro. apply space_some. Qed.
Lemma pi_loop_noisy : forall k b0, noisy (pi_loop_b k b0).
Proof.
  induction k as [|k IH]; intros; [apply out_noisy|]. simpl. apply try_noisy; [apply must_noisy|]. intros b.
  apply step_noisy. destruct ((b0 =? 63) && (b =? 62)); [apply ret_noisy | apply IH].
Qed.
Lemma comment_loop_noisy : forall k b0 b1, noisy (comment_loop_b k b0 b1).
Proof.
  induction k as [|k IH]; intros; [apply out_noisy|]. simpl. apply try_noisy; [apply must_noisy|]. intros b.
  apply step_noisy. destruct ((b0 =? 45) && (b1 =? 45)); [|apply IH]. destruct (b =? 62); [apply ret_noisy | apply fail_noisy].
Qed.
Lemma skip_comment_noisy : forall k b0 b1, noisy (skip_comment_b k b0 b1).
Proof.
  induction k as [|k IH]; intros; [apply out_noisy|]. simpl. apply try_noisy; [apply must_noisy|]. intros b.
  destruct ((b0 =? 45) && (b1 =? 45) && (b =? 62)); [apply ret_noisy | apply IH].
Qed.
Lemma expect_noisy : forall p, noisy (expect_b p).
Proof.
  induction p as [|c p IH]; simpl; [apply ret_noisy|]. apply try_noisy; [apply must_noisy|]. intros b.
  destruct (b =? c); [apply IH | apply fail_noisy].
Qed.
Lemma match_bang_noisy : forall p i, noisy (match_bang_b p i).
Proof.
  induction p as [|c p IH]; intros; simpl; [apply ret_noisy|]. apply try_noisy; [apply must_noisy|]. intros b.
  destruct (b =? c); [apply IH | apply ret_noisy].
Qed.
Lemma directive_noisy : forall k pend inq depth, noisy (directive_loop_b k pend inq depth).
Proof.
  induction k as [|k IH]; intros; [apply out_noisy|]. cbn [directive_loop_b].
  assert (H : forall b, noisy (
        (step put b;
        if b =? inq then directive_loop_b k None 0 depth
        else if negb (inq =? 0) then directive_loop_b k None inq depth
        else if (b =? 39) || (b =? 34) then directive_loop_b k None b depth
        else if b =? 62 then directive_loop_b k None inq (depth - 1)
        else if b =? 60 then
          try m <- match_bang_b (str "!--") 0;
          match m with
          | None =>
              step (fun s => truncate (length (l_buf s) - 1) s);
              fun s => (try _ <- skip_comment_b (lfuel s) 0 0;
                        step put 32;
                        directive_loop_b k None inq depth) s
          | Some (n, b) =>
              step puts (firstn n (str "!--"));
              directive_loop_b k (Some b) inq (depth + 1)
          end
        else directive_loop_b k None inq depth))).
  { intros b. apply step_noisy. repeat match goal with |- noisy (if ?x then _ else _) => destruct x; [apply IH|] end.
    destruct (b =? 60); [|apply IH]. apply try_noisy; [apply match_bang_noisy|]. intros [[i b']|].
    - apply step_noisy, IH.
    - apply step_noisy. apply (state_noisy _ (fun x => try _ <- skip_comment_b (lfuel x) 0 0; step put 32; directive_loop_b k None inq depth)).
      intro x. apply try_noisy; [apply skip_comment_noisy|]. intros _. apply step_noisy, IH. }
  destruct pend as [b|]; [apply H|]. apply try_noisy; [apply must_noisy|]. intros b.
  destruct ((inq =? 0) && (b =? 62) && (depth =? 0)); [apply ret_noisy | apply H].
Qed.
(** In a CDATA section two brackets have been read. *)
Lemma text_loop_cdata : forall c k b0 b1 s r s',
  text_loop_b k c None true b0 b1 s = Some (Some r, s') -> (b1 <> 0 -> l_fresh s = false) -> (b0 <> 0 -> b1 <> 0 -> l_fresh s = false) ->
  l_fresh s' = false.
Proof.
  intros c. induction k as [|k IH]; intros b0 b1 s r s' E H1 H2; [discriminate|].
  simpl in E. destruct (getc s) as [[b|] s1] eqn:G; [|discriminate].
  pose proof (getc_fresh _ _ _ G) as GF.
  destruct ((b0 =? 93) && (b1 =? 93) && (b =? 62)) eqn:B.
  - inversion E; subst. rewrite GF. apply H1. lia.
  - rewrite !andb_false_r in E. simpl in E.
    assert (X : l_fresh (if b =? 13 then put 10 s1 else if (b1 =? 13) && (b =? 10) then s1 else put b s1) = false).
    { destruct (b =? 13); [reflexivity|]. destruct ((b1 =? 13) && (b =? 10)) eqn:Y; [|reflexivity]. rewrite GF. apply H1. lia. }
    eapply IH; [exact E | intros _; exact X | intros _ _; exact X].
Qed.
Lemma text_loop_none : forall c quote cdata k b0 b1, noisy (text_loop_b k c quote cdata b0 b1).
Proof.
  intros c quote cdata. induction k as [|k IH]; intros b0 b1; [apply out_noisy|].
  intros s s' E. simpl in E. destruct (getc s) as [[b|] s1] eqn:G.
  - revert E.
    destruct (negb match quote with Some _ => true | None => false end && (b0 =? 93) && (b1 =? 93) && (b =? 62)).
    { destruct cdata; [apply ret_noisy; auto | apply fail_noisy; auto]. }
    destruct ((b =? 60) && negb cdata).
    { destruct quote; [apply fail_noisy; auto | apply ret_noisy; auto]. }
    destruct ((b =? 62) && negb cdata && negb match quote with Some _ => true | None => false end).
    { apply ret_noisy; auto. }
    destruct (match quote with Some q => b =? q | None => false end); [apply ret_noisy; auto|].
    destruct ((b =? 38) && negb cdata).
    { intros E. unfold ldo, ltry in E. destruct (entity_b c (length (l_buf s1)) (put 38 s1)) as [[[t|] s4]|] eqn:X; [| |discriminate].
      - revert E. destruct t as [t|].
        + apply step_noisy. apply step_noisy. apply IH.
        + destruct (negb (c_strict c)); [apply IH | apply fail_noisy].
      - inversion E; subst. destruct (entity_loud _ _ (put 38 s1) _ _ eq_refl X) as [_ Q]. auto. }
    apply IH.
  - pose proof (getc_none _ _ G) as GN. destruct cdata.
    + inversion E; subst. destruct (l_err s1) as [[[]| |]|] eqn:X; simpl; congruence.
    + discriminate.
Qed.
Lemma text_cdata_noisy : forall c, noisy (text_b c None true).
Proof.
  intros c s s' E. unfold text_b, ldo, ltry in E.
  destruct (text_loop_b (lfuel (reset s)) c None true 0 0 (reset s)) as [[[t|] s1]|] eqn:X; [| |discriminate].
  - assert (F : l_fresh s1 = false) by (eapply text_loop_cdata; [exact X | lia | lia]).
    destruct (forallb good_piece (pieces (firstn (length (l_buf s1) - t) (l_buf s1)))).
    + rewrite F in E. discriminate.
    + eapply fail_noisy; eauto.
  - inversion E; subst. eapply text_loop_none; eauto.
Qed.
(** Text that is nil without an error: only from a buffer that was never used. *)
Lemma text_quiet : forall c quote cdata s s', text_b c quote cdata s = Some (None, s') -> l_err s' = None -> l_fresh s' = true.
Proof.
  intros c quote cdata s s' E N. unfold text_b, ldo, ltry in E.
  destruct (text_loop_b (lfuel (reset s)) c quote cdata 0 0 (reset s)) as [[[t|] s1]|] eqn:X; [| |discriminate].
  - destruct (forallb good_piece (pieces (firstn (length (l_buf s1) - t) (l_buf s1)))).
    + destruct (l_fresh s1) eqn:F; inversion E; subst; auto.
    + exfalso. eapply fail_noisy; eauto.
  - inversion E; subst. exfalso. eapply text_loop_none; eauto.
Qed.
Lemma charset_noisy : forall c d, noisy (charset_b c d).
Proof.
  intros c d s s' E. unfold charset_b in E.
  repeat match type of E with
  | (if ?x then _ else _) = _ => destruct x
  | match ?x with _ => _ end = _ => destruct x
  end; inversion E; subst; simpl; congruence.
Qed.

(** A raw token that is nil without an error is text. *)
Lemma raw_quiet : forall c s s', raw_token_b c s = Some (None, s') -> l_err s' = None ->
  exists b s1, getc s = (Some b, s1) /\ b <> 60 /\ text_b c None false (ungetc b s1) = Some (None, s').
Proof.
  intros c s s' E N. unfold raw_token_b in E. destruct (getc s) as [[b|] s1] eqn:G.
  2: { exfalso. inversion E; subst. eapply getc_none; eauto. }
  destruct (b =? 60) eqn:B; cbn [negb] in E.
  2: { exists b, s1. split; [reflexivity|]. split; [lia|]. unfold ldo, ltry in E.
       destruct (text_b c None false (ungetc b s1)) as [[[d|] s2]|]; [discriminate | inversion E; reflexivity | discriminate]. }
  exfalso. revert N.
  match type of E with ?m s1 = _ => cut (noisy m); [intros X; apply (X _ _ E)|] end. clear.
  apply try_noisy; [apply must_noisy|]. intros b. destruct (b =? 47).
  { apply msg_noisy. intros s n s1 X. apply try_noisy; [apply lspace_noisy|]. intros _.
    apply try_noisy; [apply must_noisy|]. intros b1. destruct (b1 =? 62); [apply ret_noisy | apply fail_noisy]. }
  destruct (b =? 63).
  { apply msg_noisy. intros s n s1 X. apply try_noisy; [apply lspace_noisy|]. intros _. apply step_noisy.
    apply (state_noisy _ (fun x => try _ <- pi_loop_b (lfuel x) 0;
              fun s =>
                let data := firstn (length (l_buf s) - 2) (l_buf s) in
                (try _ <- (if beq n (str "xml") then charset_b c data else lret tt);
                 lret (TProc n data, None)) s)). intro x.
    apply try_noisy; [apply pi_loop_noisy|]. intros _ s2 s3 E. cbv zeta in E. revert E.
    apply try_noisy; [|intros; apply ret_noisy]. destruct (beq n (str "xml")); [apply charset_noisy | apply ret_noisy]. }
  destruct (b =? 33).
  { apply try_noisy; [apply must_noisy|]. intros b1. destruct (b1 =? 45).
    - apply try_noisy; [apply must_noisy|]. intros b2. destruct (negb (b2 =? 45)); [apply fail_noisy|]. apply step_noisy.
      apply (state_noisy _ (fun x => try _ <- comment_loop_b (lfuel x) 0 0;
         fun s => lret (TComment (firstn (length (l_buf s) - 3) (l_buf s)), None) s)). intro x.
      apply try_noisy; [apply comment_loop_noisy|]. intros _ s2 s3 E. discriminate.
    - destruct (b1 =? 91).
      + apply try_noisy; [apply expect_noisy|]. intros _. apply try_noisy; [apply text_cdata_noisy|]. intros d. apply ret_noisy.
      + apply step_noisy. apply step_noisy. apply (state_noisy _ (fun x => try _ <- directive_loop_b (2 * lfuel x) None 0 0;
                       fun s => lret (TDirective (l_buf s), None) s)). intro x.
        apply try_noisy; [apply directive_noisy|]. intros _ s2 s3 E. discriminate. }
  apply step_noisy. apply msg_noisy. intros s n s1 X s' E. pose proof (nsname_puts _ _ _ X) as F.
  unfold ltry in E. destruct (attrs_loop_b (lfuel s1) c [] s1) as [[[r|] s2]|] eqn:Y; [discriminate | | discriminate].
  inversion E; subst. apply (attrs_loud _ _ _ _ _ _ F Y). reflexivity.
Qed.
