(** Readers that end with another error than io.EOF: the same tokens, then that error. *)
From Coq Require Import String.
From Coq Require Import ZArith List Bool Lia.
From Coq Require Import ZifyBool ZifyNat.
From Verif Require Import Base Utf8 NameTables Lexer Decoder ByteDecoder ByteSim ByteToken.
Import ListNotations.
Open Scope Z_scope.

Section Failing.
Variable msg : bytes.

(** The error instead of one at the end of the input. *)
Definition swap_err (e : lerr) : lerr :=
  match e with
  | LRead _ => LRead (FFail msg)
  | LSyntax m l => if at_end m then LRead (FFail msg) else LSyntax m l
  | LOther m => LOther m
  end.
(** The same state with the other reader. *)
Definition swap (s : lst) : lst :=
  mkl (mksrc (s_bytes (l_src s)) (FFail msg)) (l_next s) (l_line s) (l_start s) (l_off s) (l_saved s) (l_buf s) (l_fresh s) (l_intern s)
      (option_map swap_err (l_err s)).
Definition both {A} (m : L A) : Prop := forall s, m (swap s) = option_map (fun x => (fst x, swap (snd x))) (m s).

Lemma getc_swap : forall s, getc (swap s) = (fst (getc s), swap (snd (getc s))).
Proof.
  intros [[b e] nx ln st off sv bf fr it er]. unfold getc, swap. simpl. destruct er as [e0|]; [reflexivity|]. simpl.
  destruct nx; [reflexivity|]. destruct b; reflexivity.
Qed.
Lemma fail_swap : forall m s, at_end m = false -> fail m (swap s) = swap (fail m s).
Proof. intros m s H. unfold fail, set_err, swap. simpl. rewrite H. reflexivity. Qed.
Lemma must_swap : both lmust.
Proof.
  intros s. unfold lmust, mustgetc. rewrite getc_swap. destruct (getc s) as [[b|] s1]; [reflexivity|]. cbn [fst snd]. destruct s1 as [src nx ln st off sv bf fr it er].
  unfold swap. simpl. destruct er as [[[]| |]|]; simpl; try reflexivity. destruct (at_end m); reflexivity.
Qed.
Lemma both_ret : forall A (a : A), both (lret a). Proof. intros A a s. reflexivity. Qed.
Lemma both_none : forall A, both (fun s => Some (@None A, s)). Proof. intros A s. reflexivity. Qed.
Lemma both_fail : forall A m, at_end m = false -> both (@lfail A m).
Proof. intros A m H s. unfold lfail. rewrite fail_swap by exact H. reflexivity. Qed.
Lemma both_try : forall A B (m : L A) (f : A -> L B), both m -> (forall a, both (f a)) -> both (ltry m f).
Proof.
  intros A B m f M F s. unfold ltry. rewrite M. destruct (m s) as [[[a|] s1]|]; simpl; [apply F | reflexivity | reflexivity].
Qed.
Lemma has_swap : forall s, has_err (swap s) = has_err s.
Proof. intros s. unfold has_err, swap. simpl. destruct (l_err s); reflexivity. Qed.
Lemma both_msg : forall A B (m : L A) t (f : A -> L B), at_end t = false -> both m -> (forall a, both (f a)) -> both (ltry_msg m t f).
Proof.
  intros A B m t f H M F s. unfold ltry_msg. rewrite M. destruct (m s) as [[[a|] s1]|]; simpl; [apply F | | reflexivity].
  rewrite has_swap. destruct (has_err s1); [reflexivity|]. rewrite fail_swap by exact H. reflexivity.
Qed.
Lemma both_step : forall A (m : L A) g, (forall s, g (swap s) = swap (g s)) -> both m -> both (step g; m).
Proof. intros A m g G M s. unfold ldo. rewrite G. apply M. Qed.
(** A function that looks at the buffers or counts the bytes left. *)
Lemma both_look : forall A X (look : lst -> X) (m : X -> L A), (forall s, look (swap s) = look s) -> (forall x, both (m x)) -> both (fun s => m (look s) s).
Proof. intros A X look m K M s. rewrite K. apply M. Qed.
Lemma out_both : forall A, both (fun _ => @None (option A * lst)). Proof. intros A s. reflexivity. Qed.
Lemma fuel_swap : forall s, lfuel (swap s) = lfuel s. Proof. reflexivity. Qed.
Lemma buf_swap : forall s, l_buf (swap s) = l_buf s. Proof. reflexivity. Qed.
Lemma fuel_both : forall A (m : nat -> L A), (forall k, both (m k)) -> both (fun s => m (lfuel s) s).
Proof. intros A m M. apply (both_look A nat lfuel m); auto. Qed.
Lemma buf_both : forall A (m : bytes -> L A), (forall k, both (m k)) -> both (fun s => m (l_buf s) s).
Proof. intros A m M. apply (both_look A bytes l_buf m); auto. Qed.
Ltac sw := intros; try intros ?s; reflexivity.
Ltac fl := apply both_fail; vm_compute; reflexivity.

Lemma space_both : both lspace.
Proof.
  apply (fuel_both unit space_loop). induction k as [|k IH]; [apply out_both|]. intros s. cbn [space_loop]. rewrite getc_swap.
  destruct (getc s) as [[b|] s1]; [|reflexivity]. cbn [fst snd]. destruct (is_space b); [apply IH | reflexivity].
Qed.
Lemma name_loop_both : forall k, both (name_loop k).
Proof.
  induction k as [|k IH]; [apply out_both|]. cbn [name_loop]. apply both_try; [apply must_swap|]. intros b.
  destruct (name_byte b); apply both_step; [sw | exact IH | sw | apply both_ret].
Qed.
Lemma read_name_both : both read_name_b.
Proof.
  apply (fuel_both unit (fun k => try b <- lmust; if name_byte b then step put b; name_loop k else step ungetc b; fun s => Some (None, s))).
  intros k. apply both_try; [apply must_swap|]. intros b.
  destruct (name_byte b); apply both_step; [sw | apply name_loop_both | sw | apply both_none].
Qed.
Lemma name_both : both name_b.
Proof.
  apply both_step; [sw|]. apply both_try; [apply read_name_both|]. intros _.
  apply (both_look bytes (bytes * list (bytes * bytes)) (fun s => (l_buf s, l_intern s))
    (fun x => fun s => if is_name (fst x) then let '(i, n) := intern (snd x) (fst x) in Some (Some n, set_intern i s) else lfail (str "invalid XML name: " ++ fst x) s)); [sw|].
  intros [b i]. cbn [fst snd]. destruct (is_name b).
  - destruct (intern i b) as [i' n]. intros s. reflexivity.
  - apply both_fail. reflexivity.
Qed.
Lemma nsname_both : both nsname_b.
Proof.
  apply both_try; [apply name_both|]. intros a. destruct (split_ns a); [apply both_ret | apply both_none].
Qed.
Lemma digits_both : forall base16 k b, both (digits_loop k base16 b).
Proof.
  intros base16. induction k as [|k IH]; intros b; [apply out_both|]. cbn [digits_loop]. destruct (hex_digit base16 b); [|apply both_ret].
  apply both_step; [sw|]. apply both_try; [apply must_swap|]. exact IH.
Qed.
Lemma entity_both : forall c before, both (entity_b c before).
Proof.
  intros c before.
  assert (NUM : forall base16 b, both (fun s => let start := length (l_buf s) in
      (try b <- digits_loop (lfuel s) base16 b;
       if negb (b =? 59) then step ungetc b; lret None
       else fun s => lret (parse_rune base16 (skipn start (l_buf s))) (put 59 s)) s)).
  { intros base16 b0. apply (both_look (option bytes) (nat * nat) (fun s => (length (l_buf s), lfuel s))
      (fun x => try b <- digits_loop (snd x) base16 b0;
       if negb (b =? 59) then step ungetc b; lret None
       else fun s => lret (parse_rune base16 (skipn (fst x) (l_buf s))) (put 59 s))); [sw|].
    intros x. apply both_try; [apply digits_both|]. intros b. destruct (negb (b =? 59)); [apply both_step; [sw | apply both_ret]|].
    intros s. reflexivity. }
  apply both_try; [apply must_swap|]. intros b. destruct (b =? 35).
  - apply both_step; [sw|]. apply both_try; [apply must_swap|]. intros b1. cbv zeta. destruct (b1 =? 120).
    + apply both_step; [sw|]. apply both_try; [apply must_swap|]. intros b2. apply NUM.
    + apply NUM.
  - apply both_step; [sw|]. intros s. rewrite read_name_both. destruct (read_name_b s) as [[o s1]|]; [|reflexivity]. cbn [option_map fst snd].
    rewrite has_swap. destruct (match o with Some _ => false | None => has_err s1 end); [reflexivity|].
    match goal with |- ?m (swap s1) = _ => enough (X : both m) by apply X end.
    apply both_try; [apply must_swap|]. intros b1. destruct (negb (b1 =? 59)); [apply both_step; [sw | apply both_ret]|].
    intros s2. reflexivity.
Qed.
Lemma text_loop_both : forall c quote cdata k b0 b1, both (text_loop_b k c quote cdata b0 b1).
Proof.
  intros c quote cdata. induction k as [|k IH]; intros b0 b1; [apply out_both|]. intros s. cbn [text_loop_b]. rewrite getc_swap.
  destruct (getc s) as [[b|] s1]; cbn [fst snd].
  - destruct (negb match quote with Some _ => true | None => false end && (b0 =? 93) && (b1 =? 93) && (b =? 62)).
    { destruct cdata; [reflexivity|]. apply both_fail. vm_compute; reflexivity. }
    destruct ((b =? 60) && negb cdata).
    { destruct quote; [apply both_fail; vm_compute; reflexivity | reflexivity]. }
    destruct ((b =? 62) && negb cdata && negb match quote with Some _ => true | None => false end); [reflexivity|].
    destruct (match quote with Some q => b =? q | None => false end); [reflexivity|].
    destruct ((b =? 38) && negb cdata).
    { rewrite buf_swap. match goal with |- ?m (swap s1) = _ => enough (X : both m) by apply X end.
      apply both_step; [sw|]. apply both_try; [apply entity_both|]. intros [t|].
      - apply both_step; [sw|]. apply both_step; [sw|]. apply IH.
      - destruct (negb (c_strict c)); [apply IH | fl]. }
    rewrite <- IH. f_equal. destruct (b =? 13); [reflexivity|]. destruct ((b1 =? 13) && (b =? 10)); reflexivity.
  - destruct cdata; [|reflexivity]. destruct s1 as [src nx ln st off sv bf fr it er]. unfold swap. simpl.
    destruct er as [[[]| |]|]; simpl; try reflexivity. destruct (at_end m); reflexivity.
Qed.
Lemma text_both : forall c quote cdata, both (text_b c quote cdata).
Proof.
  intros c quote cdata. apply both_step; [sw|]. apply (fuel_both bytes (fun k => try trunc <- text_loop_b k c quote cdata 0 0;
     fun s =>
       let data := firstn (length (l_buf s) - trunc) (l_buf s) in
       if forallb good_piece (pieces data)
       then Some (if l_fresh s then None else Some data, s)
       else lfail (str "invalid UTF-8 or illegal character code") s)). intros k. apply both_try; [apply text_loop_both|]. intros n.
  apply (buf_both bytes (fun b => fun s => let data := firstn (length b - n) b in
       if forallb good_piece (pieces data)
       then Some (if l_fresh s then None else Some data, s)
       else lfail (str "invalid UTF-8 or illegal character code") s)). intros b. cbv zeta.
  destruct (forallb good_piece (pieces (firstn (length b - n) b))); [intros s; cbn [swap l_fresh]; destruct (l_fresh s); reflexivity | fl].
Qed.
Lemma value_loop_both : forall k, both (value_loop k).
Proof.
  induction k as [|k IH]; [apply out_both|]. cbn [value_loop]. apply both_try; [apply must_swap|]. intros b.
  destruct (is_value_byte b); apply both_step; [sw | exact IH | sw | apply both_ret].
Qed.
Lemma attrval_both : forall c, both (attrval_b c).
Proof.
  intros c. apply both_try; [apply must_swap|]. intros b. destruct ((b =? 34) || (b =? 39)); [apply text_both|]. destruct (c_strict c); [fl|].
  apply both_step; [sw|]. apply both_step; [sw|].
  apply (fuel_both bytes (fun k => try _ <- value_loop k; fun s => Some (if l_fresh s then None else Some (l_buf s), s))).
  intros k. apply both_try; [apply value_loop_both|]. intros _ s. cbn [swap l_fresh]; destruct (l_fresh s); reflexivity.
Qed.
Lemma pi_loop_both : forall k b0, both (pi_loop_b k b0).
Proof.
  induction k as [|k IH]; intros b0; [apply out_both|]. cbn [pi_loop_b]. apply both_try; [apply must_swap|]. intros b. apply both_step; [sw|].
  destruct ((b0 =? 63) && (b =? 62)); [apply both_ret | apply IH].
Qed.
Lemma comment_loop_both : forall k b0 b1, both (comment_loop_b k b0 b1).
Proof.
  induction k as [|k IH]; intros b0 b1; [apply out_both|]. cbn [comment_loop_b]. apply both_try; [apply must_swap|]. intros b. apply both_step; [sw|].
  destruct ((b0 =? 45) && (b1 =? 45)); [destruct (b =? 62); [apply both_ret | fl] | apply IH].
Qed.
Lemma expect_both : forall p, both (expect_b p).
Proof.
  induction p as [|x p IH]; [apply both_ret|]. cbn [expect_b]. apply both_try; [apply must_swap|]. intros b. destruct (b =? x); [exact IH | fl].
Qed.
Lemma skip_comment_both : forall k b0 b1, both (skip_comment_b k b0 b1).
Proof.
  induction k as [|k IH]; intros b0 b1; [apply out_both|]. cbn [skip_comment_b]. apply both_try; [apply must_swap|]. intros b.
  destruct ((b0 =? 45) && (b1 =? 45) && (b =? 62)); [apply both_ret | apply IH].
Qed.
Lemma match_bang_both : forall p n, both (match_bang_b p n).
Proof.
  induction p as [|x p IH]; intros n; [apply both_ret|]. cbn [match_bang_b]. apply both_try; [apply must_swap|]. intros b.
  destruct (b =? x); [apply IH | apply both_ret].
Qed.
Lemma directive_both : forall k pend inq depth, both (directive_loop_b k pend inq depth).
Proof.
  induction k as [|k IH]; intros pend inq depth; [apply out_both|]. cbn [directive_loop_b].
  assert (H : forall b, both (step put b;
        if b =? inq then directive_loop_b k None 0 depth
        else if negb (inq =? 0) then directive_loop_b k None inq depth
        else if (b =? 39) || (b =? 34) then directive_loop_b k None b depth
        else if b =? 62 then directive_loop_b k None inq (depth - 1)
        else if b =? 60 then
          try m <- match_bang_b (str "!--") 0;
          match m with
          | None =>
              step (fun s => truncate (length (l_buf s) - 1) s);
              fun s => (try _ <- skip_comment_b (lfuel s) 0 0;
                        step put 32;
                        directive_loop_b k None inq depth) s
          | Some (n, b) =>
              step puts (firstn n (str "!--"));
              directive_loop_b k (Some b) inq (depth + 1)
          end
        else directive_loop_b k None inq depth)).
  { intros b. apply both_step; [sw|]. destruct (b =? inq); [apply IH|]. destruct (negb (inq =? 0)); [apply IH|].
    destruct ((b =? 39) || (b =? 34)); [apply IH|]. destruct (b =? 62); [apply IH|]. destruct (b =? 60); [|apply IH].
    apply both_try; [apply match_bang_both|]. intros [[n b1]|].
    - apply both_step; [sw | apply IH].
    - apply both_step; [sw|]. apply (fuel_both unit (fun k' => try _ <- skip_comment_b k' 0 0; step put 32; directive_loop_b k None inq depth)).
      intros k'. apply both_try; [apply skip_comment_both|]. intros _. apply both_step; [sw | apply IH]. }
  destruct pend as [b|]; [apply H|]. apply both_try; [apply must_swap|]. intros b.
  destruct ((inq =? 0) && (b =? 62) && (depth =? 0)); [apply both_ret | apply H].
Qed.
Lemma attrs_both : forall c k acc, both (attrs_loop_b k c acc).
Proof.
  intros c. induction k as [|k IH]; intros acc; [apply out_both|]. cbn [attrs_loop_b]. apply both_try; [apply space_both|]. intros _ s.
  pose proof (must_swap s) as M. unfold lmust in M. simpl in M. destruct (mustgetc s) as [[b|] s1]; cbn [fst snd] in M; inversion M as [M1]; rewrite M1.
  - match goal with |- ?m (swap s1) = _ => enough (X : both m) by apply X end.
    destruct (b =? 47); [apply both_try; [apply must_swap|]; intros b1; destruct (b1 =? 62); [apply both_ret | fl]|].
    destruct (b =? 62); [apply both_ret|]. apply both_step; [sw|]. apply both_msg; [vm_compute; reflexivity | apply nsname_both|]. intros n.
    apply both_try; [apply space_both|]. intros _. apply both_try; [apply must_swap|]. intros b1. destruct (negb (b1 =? 61)).
    + destruct (c_strict c); [fl | apply IH].
    + apply both_try; [apply space_both|]. intros _. apply both_try; [apply attrval_both|]. intros v. apply IH.
  - destruct (negb (length acc =? 0)%nat && negb (c_strict c)); reflexivity.
Qed.
Lemma charset_both : forall c data, c_charset c = None -> both (charset_b c data).
Proof.
  intros c data CS s. unfold charset_b. rewrite CS. cbv zeta.
  destruct (negb (beq (proc_inst (str "version") data) []) && negb (beq (proc_inst (str "version") data) (str "1.0"))); [reflexivity|].
  destruct (negb (beq (proc_inst (str "encoding") data) []) && negb (equal_fold (proc_inst (str "encoding") data) (str "utf-8"))); reflexivity.
Qed.
Lemma raw_both : forall c, c_charset c = None -> both (raw_token_b c).
Proof.
  intros c CS s. unfold raw_token_b. rewrite getc_swap. destruct (getc s) as [[b|] s1]; [|reflexivity]. cbn [fst snd].
  match goal with |- ?m (swap s1) = _ => enough (X : both m) by apply X end.
  destruct (negb (b =? 60)); [apply both_step; [sw|]; apply both_try; [apply text_both | intros; apply both_ret]|].
  apply both_try; [apply must_swap|]. intros b1. destruct (b1 =? 47).
  { apply both_msg; [vm_compute; reflexivity | apply nsname_both|]. intros n. apply both_try; [apply space_both|]. intros _.
    apply both_try; [apply must_swap|]. intros b2. destruct (b2 =? 62); [apply both_ret | fl]. }
  destruct (b1 =? 63).
  { apply both_msg; [vm_compute; reflexivity | apply name_both|]. intros n. apply both_try; [apply space_both|]. intros _. apply both_step; [sw|].
    apply (fuel_both raw (fun k => try _ <- pi_loop_b k 0;
              fun s =>
                let data := firstn (length (l_buf s) - 2) (l_buf s) in
                (try _ <- (if beq n (str "xml") then charset_b c data else lret tt);
                 lret (TProc n data, None)) s)). intros k. apply both_try; [apply pi_loop_both|]. intros _.
    apply (buf_both raw (fun b => fun s => let data := firstn (length b - 2) b in
                (try _ <- (if beq n (str "xml") then charset_b c data else lret tt);
                 lret (TProc n data, None)) s)). intros bf. cbv zeta.
    apply both_try; [destruct (beq n (str "xml")); [apply charset_both; exact CS | apply both_ret] | intros; apply both_ret]. }
  destruct (b1 =? 33).
  { apply both_try; [apply must_swap|]. intros b2. destruct (b2 =? 45).
    - apply both_try; [apply must_swap|]. intros b3. destruct (negb (b3 =? 45)); [fl|]. apply both_step; [sw|].
      apply (fuel_both raw (fun k => try _ <- comment_loop_b k 0 0; fun s => lret (TComment (firstn (length (l_buf s) - 3) (l_buf s)), None) s)).
      intros k. apply both_try; [apply comment_loop_both|]. sw.
    - destruct (b2 =? 91).
      + apply both_try; [apply expect_both|]. intros _. apply both_try; [apply text_both | intros; apply both_ret].
      + apply both_step; [sw|]. apply both_step; [sw|].
        apply (fuel_both raw (fun k => try _ <- directive_loop_b (2 * k) None 0 0; fun s => lret (TDirective (l_buf s), None) s)).
        intros k. apply both_try; [apply directive_both|]. sw. }
  apply both_step; [sw|]. apply both_msg; [vm_compute; reflexivity | apply nsname_both|]. intros n.
  apply (fuel_both raw (fun k => try r <- attrs_loop_b k c []; lret (TStart n (fst r), if snd r then Some n else None))).
  intros k. apply both_try; [apply attrs_both | intros; apply both_ret].
Qed.

(** *** Tokens *)
Definition swap_dec (d : bdec) : bdec := with_lex (swap (b_lex d)) d.
Definition swap_res (r : (option token * option lerr) * bdec) : (option token * option lerr) * bdec :=
  ((fst (fst r), option_map swap_err (snd (fst r))), swap_dec (snd r)).
Lemma rawb_swap : forall c d, c_charset c = None -> raw_b c (swap_dec d) = option_map (fun x => (fst x, swap_dec (snd x))) (raw_b c d).
Proof.
  intros c d CS. unfold raw_b, b_err. cbn [swap_dec b_lex with_lex b_close]. cbn [swap l_err].
  destruct (l_err (b_lex d)); [reflexivity|]. cbn [option_map]. destruct (b_close d); [reflexivity|].
  rewrite (raw_both c CS). destruct (raw_token_b c (b_lex d)) as [[[[t cl]|] s]|]; reflexivity.
Qed.
Lemma raw_swap : forall c d, c_charset c = None -> RawToken c (swap_dec d) = option_map swap_res (RawToken c d).
Proof.
  intros c d CS. unfold RawToken. cbn [swap_dec b_depth with_lex]. destruct (0 <? b_depth d); [reflexivity|].
  change (mkb (swap (b_lex d)) (b_close d) (b_stk d) (b_ns d) (b_tok d) (b_depth d)) with (swap_dec d).
  fold (swap_dec d). rewrite rawb_swap by exact CS. destruct (raw_b c d) as [[[t|] d1]|]; reflexivity.
Qed.
Lemma dfail_swap : forall m d, at_end m = false -> dfail m (swap_dec d) = swap_dec (dfail m d).
Proof. intros m d H. unfold dfail, swap_dec. cbn [b_lex with_lex]. rewrite fail_swap by exact H. reflexivity. Qed.
Lemma finish_swap : forall c t d, finish c t (swap_dec d) = swap_res (finish c t d).
Proof.
  intros c t d.
  assert (F : forall m stk ns, at_end m = false ->
     ((@None token, b_err (dfail m (with_stk stk ns (swap_dec d)))), dfail m (with_stk stk ns (swap_dec d))) =
     swap_res ((None, b_err (dfail m (with_stk stk ns d))), dfail m (with_stk stk ns d))).
  { intros m stk ns H. change (with_stk stk ns (swap_dec d)) with (swap_dec (with_stk stk ns d)). rewrite dfail_swap by exact H. reflexivity. }
  destruct t as [[n a|n| | | |]|]; try reflexivity; cbn [finish].
  - cbn [swap_dec b_stk b_ns with_lex]. destruct (declare_b a (b_stk d, b_ns d)) as [[stk m] [e|]] eqn:D; [|reflexivity].
    apply (F e stk m). clear F. revert D. generalize (b_stk d, b_ns d). induction a as [|[nm v] a IH]; intros p D; cbn [declare_b] in D; [discriminate|].
    destruct (beq (space nm) xmlnsPrefix && beq v []); [inversion D; reflexivity|].
    destruct (beq (space nm) xmlnsPrefix && beq (local nm) []); [inversion D; reflexivity|]. eapply IH. exact D.
  - unfold pop_b. cbn [swap_dec b_stk b_ns with_lex]. fold (swap_dec d). destruct (b_stk d) as [|[s|p u ok|] stk] eqn:S.
    + rewrite dfail_swap by reflexivity. reflexivity.
    + destruct (negb (beq (local s) (local n))).
      { destruct (negb (c_strict c)); [reflexivity|]. apply (F (str "element closed by another") stk (b_ns d)). reflexivity. }
      destruct (negb (beq (space s) (space n))); [apply (F (str "element closed in another namespace") stk (b_ns d)); reflexivity|].
      cbn [b_ns with_stk]. destruct (undo_b stk (b_ns d)) as [stk' m']. reflexivity.
    + apply (F (str "unexpected end element") stk (b_ns d)). reflexivity.
    + apply (F (str "unexpected end element") stk (b_ns d)). reflexivity.
Qed.
Lemma auto_swap : forall c t d, auto c t (swap_dec d) = (fst (auto c t d), swap_dec (snd (auto c t d))).
Proof.
  intros c t d. unfold auto, auto_close. cbn [swap_dec b_stk with_lex]. destruct (c_strict c); [reflexivity|].
  destruct (b_stk d) as [|[]]; try reflexivity. destruct (existsb (fun x => c_fold c x (local n)) (c_close c)); [|reflexivity].
  destruct t as [[]|]; try reflexivity. destruct (c_fold c (local n0) (local n)); reflexivity.
Qed.
Theorem token_swap : forall c d, c_charset c = None -> no_eof (b_stk d) -> Token c (swap_dec d) = option_map swap_res (Token c d).
Proof.
  intros c d CS NB. unfold Token. cbn [swap_dec b_stk with_lex b_tok]. fold (swap_dec d). rewrite !(stk_head _ _ _ _ NB).
  destruct (b_tok d) as [t|].
  - change (with_tok None (swap_dec d)) with (swap_dec (with_tok None d)). rewrite auto_swap.
    destruct (auto c (Some t) (with_tok None d)) as [t' d']. cbn [fst snd]. rewrite finish_swap. reflexivity.
  - rewrite rawb_swap by exact CS. destruct (raw_b c d) as [[t d1]|]; [|reflexivity]. cbn [option_map fst snd].
    rewrite auto_swap. unfold b_err. cbn [swap_dec b_lex with_lex b_stk]. cbn [swap l_err].
    destruct t as [t|].
    + destruct (auto c (Some t) d1) as [t' d'']. cbn [fst snd]. rewrite finish_swap. reflexivity.
    + destruct (l_err (b_lex d1)) as [e|]; cbn [option_map].
      * unfold swap_res. cbn [fst snd option_map]. do 3 f_equal. destruct e as [[|m]|m l|m], (b_stk d1); simpl; try reflexivity; destruct (at_end m); reflexivity.
      * destruct (auto c None d1) as [t' d'']. cbn [fst snd]. rewrite finish_swap. reflexivity.
Qed.
Lemma new_swap : forall T e, swap_dec (new_bdec (mksrc T e)) = new_bdec (mksrc T (FFail msg)).
Proof. reflexivity. Qed.
End Failing.

(** No end marker gets on the stack by reading. *)
Lemma ns_no_eof : forall a stk m, no_eof stk -> no_eof (fst (fst (declare_b a (stk, m)))).
Proof.
  induction a as [|[n v] a IH]; intros stk m N; cbn [declare_b]; [exact N|].
  destruct (beq (space n) xmlnsPrefix && beq v []); [exact N|]. destruct (beq (space n) xmlnsPrefix && beq (local n) []); [exact N|].
  assert (P : forall p v stk m, no_eof stk -> no_eof (fst (push_ns p v (stk, m)))).
  { intros p w stk0 m0 H. simpl. destruct (m0 p); intros [X|X]; try discriminate; auto. }
  cbv zeta. destruct (beq (space n) xmlnsPrefix), (beq (space n) [] && beq (local n) xmlnsPrefix);
    repeat match goal with |- context [push_ns ?p ?v (?s, ?m)] =>
      let H := fresh in pose proof (P p v s m) as H; destruct (push_ns p v (s, m)) as [? ?]; cbn [fst] in H end; apply IH; auto.
Qed.
Lemma undo_no_eof : forall stk m, no_eof stk -> no_eof (fst (undo_b stk m)).
Proof. induction stk as [|[n|p u ok|] stk IH]; intros m N; simpl; auto. apply IH. intros X. apply N. right. exact X. Qed.
Lemma finish_no_eof : forall c t d, no_eof (b_stk d) -> no_eof (b_stk (snd (finish c t d))).
Proof.
  intros c t d N. destruct t as [[n a|n| | | |]|]; cbn [finish]; try exact N.
  - pose proof (ns_no_eof a (b_stk d) (b_ns d) N) as H. destruct (declare_b a (b_stk d, b_ns d)) as [[stk m] [e|]]; simpl in *; [exact H|].
    intros [X|X]; [discriminate | exact (H X)].
  - unfold pop_b. destruct (b_stk d) as [|[s|p u ok|] stk] eqn:S; simpl.
    + rewrite S. exact N.
    + assert (N' : no_eof stk) by (intros X; apply N; right; exact X).
      destruct (negb (beq (local s) (local n))); [destruct (negb (c_strict c)); exact N'|].
      destruct (negb (beq (space s) (space n))); [exact N'|]. pose proof (undo_no_eof stk (b_ns d) N') as H.
      destruct (undo_b stk (b_ns d)) as [stk' m']. exact H.
    + intros X. apply N. right. exact X.
    + intros X. apply N. right. exact X.
Qed.
Lemma raw_no_eof : forall c d t d', raw_b c d = Some (t, d') -> b_stk d' = b_stk d.
Proof.
  intros c d t d' E. unfold raw_b in E. destruct (b_err d); [inversion E; reflexivity|]. destruct (b_close d); [inversion E; reflexivity|].
  destruct (raw_token_b c (b_lex d)) as [[[[? ?]|] ?]|]; inversion E; reflexivity.
Qed.
Lemma auto_stk : forall c t d, b_stk (snd (auto c t d)) = b_stk d.
Proof. intros c t d. unfold auto. destruct (c_strict c); [reflexivity|]. destruct (auto_close c t d); reflexivity. Qed.
Lemma token_no_eof : forall c d r d', no_eof (b_stk d) -> Token c d = Some (r, d') -> no_eof (b_stk d').
Proof.
  intros c d r d' N E. unfold Token in E. rewrite (stk_head _ _ _ _ N) in E. destruct (b_tok d) as [t|].
  - pose proof (auto_stk c (Some t) (with_tok None d)) as A. destruct (auto c (Some t) (with_tok None d)) as [t' d1]. simpl in A.
    pose proof (finish_no_eof c t' d1) as F. rewrite A in F. specialize (F N). destruct (finish c t' d1). inversion E; subst. exact F.
  - destruct (raw_b c d) as [[t d1]|] eqn:R; [|discriminate]. apply raw_no_eof in R.
    pose proof (auto_stk c t d1) as A. 
    assert (X : forall r d', (let '(t', d'') := auto c t d1 in Some (finish c t' d'')) = Some (r, d') -> no_eof (b_stk d')).
    { intros r0 d0 X. destruct (auto c t d1) as [t' d2]. simpl in A. pose proof (finish_no_eof c t' d2) as F. rewrite A, R in F. specialize (F N).
      destruct (finish c t' d2). inversion X; subst. exact F. }
    destruct t as [t|]; [eapply X; exact E|]. destruct (b_err d1); [inversion E; subst; rewrite R; exact N | eapply X; exact E].
Qed.
Lemma rawtoken_no_eof : forall c d r d', no_eof (b_stk d) -> RawToken c d = Some (r, d') -> no_eof (b_stk d').
Proof.
  intros c d r d' N E. unfold RawToken in E. destruct (0 <? b_depth d); [inversion E; subst; exact N|].
  destruct (raw_b c d) as [[[t|] d1]|] eqn:R; inversion E; subst; rewrite (raw_no_eof _ _ _ _ R); exact N.
Qed.
