(** Properties C30, C31, C32, C37, C47: the token reader. *)
From Coq Require Import String.
From Coq Require Import ZArith List Bool Lia ZifyBool ZifyNat.
From Verif Require Import Base Utf8 NameTables Lexer LexerProofs Decoder DecoderSpec DecoderProofs.
Import ListNotations.
Open Scope Z_scope.

(** C30. After any number of calls that returned tokens, the tokens are properly nested, and io.EOF is
    reported exactly when everything is closed and the input is used up. *)
Theorem C30_nested : forall inp ts d, calls (new_decoder inp) ts d ->
  exists open, nest [] ts = Some open /\ ((exists d', next_token d = TokErr EEof d') <-> open = [] /\ d_inp d = []).
Proof.
  intros inp ts d C. destruct (calls_rel _ _ _ C) as (o & R & N). exists (open_names o). split; auto. split.
  - intros (d' & H). destruct (eof_closed _ _ _ R H) as (-> & E & _). auto.
  - intros (O & E). destruct o as [|[] o]; [|discriminate]. apply eof_reported; auto.
Qed.
Print Assumptions C30_nested.
(** C30. A tag written as self-closing gives a start and, at the next call, its end, reading nothing more. *)
Theorem C30_self_closing : forall inp ts d n a m rest t d1, calls (new_decoder inp) ts d ->
  d_close d = None -> raw_token (d_inp d) = ROk (TStart n a, Some m) rest -> next_token d = TokOk t d1 ->
  exists x y d2, t = TStart x y /\ next_token d1 = TokOk (TEnd x) d2 /\ d_inp d1 = rest /\ d_inp d2 = rest.
Proof.
  intros inp ts d n a m rest t d1 C CN E H. destruct (calls_rel _ _ _ C) as (o & R & N).
  destruct (self_closing _ _ _ _ _ _ R CN E _ _ H) as (x & y & d2 & A & B & D & F & _). exists x, y, d2. repeat split; congruence.
Qed.
Print Assumptions C30_self_closing.
(** C30. Errors, including io.EOF, are permanent. *)
Theorem C30_sticky : forall d e d', next_token d = TokErr e d' -> exists d'', next_token d' = TokErr e d''.
Proof. exact err_sticky. Qed.
Print Assumptions C30_sticky.

(** Running the reader at most [k] times: the tokens and how it stopped. *)
Fixpoint run (k : nat) (d : dstate) : list token * option derr * dstate :=
  match k with
  | O => ([], None, d)
  | S k => match next_token d with
           | TokOk t d' => let '(ts, e, d2) := run k d' in (t :: ts, e, d2)
           | TokErr e d' => ([], Some e, d)
           | TokFuel => ([], None, d)
           end
  end.
Lemma run_calls : forall k d, calls d (fst (fst (run k d))) (snd (run k d)).
Proof.
  induction k as [|k IH]; intro d; cbn; [constructor|]. destruct (next_token d) as [t d'|e d'|] eqn:E; cbn; try constructor.
  specialize (IH d'). destruct (run k d') as [[ts e] d2]. cbn in *. econstructor; eauto.
Qed.
Definition doc30 : bytes := str "<a x='1'><b:c/>t</a>".
Example C30_ex : fst (run 10 (new_decoder doc30)) =
  ([TStart (mkname [] (str "a")) [mkattr (mkname [] (str "x")) (str "1")]; TStart (mkname (str "b") (str "c")) []; TEnd (mkname (str "b") (str "c"));
    TChar (str "t"); TEnd (mkname [] (str "a"))], Some EEof).
Proof. vm_compute. reflexivity. Qed.
Example C30_ex_bad : snd (fst (run 10 (new_decoder (str "<a><b></a></b>")))) = Some (ESyntax (str "element closed by another")) /\
  snd (fst (run 10 (new_decoder (str "<a><b/>")))) = Some unexpected_eof /\ fst (fst (run 10 (new_decoder (str "</a>")))) = [].
Proof. vm_compute. auto. Qed.

(** C31. The tokens are the written ones with every name expanded by the nearest enclosing declaration. *)
Theorem C31_names : forall inp ts d, calls (new_decoder inp) ts d ->
  exists ws o, written inp None ws (d_inp d) (d_close d) /\ interp [] ws ts o.
Proof.
  intros inp ts d C. destruct (calls_interp _ _ _ C _ (rel_new inp)) as (ws & o & W & I & R). exists ws, o. auto.
Qed.
Print Assumptions C31_names.
(** C31. After complete elements, the meaning of every name is what it was before. *)
Theorem C31_restored : forall inp ts d ts' d', calls (new_decoder inp) ts d -> calls d ts' d' -> nest [] ts' = Some [] ->
  forall n elem, translate (d_ns d') n elem = translate (d_ns d) n elem.
Proof.
  intros inp ts d ts' d' C C' B n elem. destruct (calls_rel _ _ _ C) as (o & R & _). pose proof (balanced_same _ _ _ _ R C' B) as R'.
  rewrite (translate_expand (d_ns d) o), (translate_expand (d_ns d') o); auto; try apply R; apply R'.
Qed.
Print Assumptions C31_restored.
Definition doc31 : bytes := str "<p:a xmlns:p='u' xmlns='d'><p:b xmlns:p='v' p:k='' q:k='' k=''/><p:c/><d xmlns=''/></p:a>".
Example C31_ex : fst (run 12 (new_decoder doc31)) =
  ([TStart (mkname (str "u") (str "a")) [mkattr (mkname xmlnsURL (str "p")) (str "u"); mkattr (mkname [] (str "xmlns")) (str "d")];
    TStart (mkname (str "v") (str "b")) [mkattr (mkname xmlnsURL (str "p")) (str "v"); mkattr (mkname (str "v") (str "k")) [];
                                         mkattr (mkname (str "q") (str "k")) []; mkattr (mkname [] (str "k")) []];
    TEnd (mkname (str "v") (str "b")); TStart (mkname (str "u") (str "c")) []; TEnd (mkname (str "u") (str "c"));
    TStart (mkname [] (str "d")) [mkattr (mkname [] (str "xmlns")) []]; TEnd (mkname [] (str "d")); TEnd (mkname (str "u") (str "a"))], Some EEof).
Proof. vm_compute. reflexivity. Qed.
Example C31_ex_scope : exists d1 d2 ts, calls (new_decoder doc31) (firstn 1 (fst (fst (run 12 (new_decoder doc31))))) d1 /\ calls d1 ts d2 /\ ts <> [] /\ nest [] ts = Some [].
Proof.
  exists (snd (run 1 (new_decoder doc31))), (snd (run 2 (snd (run 1 (new_decoder doc31))))), (fst (fst (run 2 (snd (run 1 (new_decoder doc31)))))).
  split; [exact (run_calls 1 _)|]. split; [apply run_calls|]. split; [vm_compute; discriminate|vm_compute; reflexivity].
Qed.

(** C32. Reading ends within two calls per byte, or reaches a '>' in text and then returns empty text
    for ever. *)
Theorem C32_ends_or_stray : forall inp, exists ts d, calls (new_decoder inp) ts d /\ (length ts <= 2 * length inp)%nat /\
  ((exists e d', next_token d = TokErr e d') \/ (stray d /\ forall n, calls d (repeat (TChar []) n) d)).
Proof.
  intro inp. destruct (calls_end (S (2 * length inp)) (new_decoder inp)) as (ts & d & C & L & X); [cbn; lia|]. exists ts, d. split; auto. split; [lia|].
  destruct X as [X|X]; auto. right. split; auto. intro n. apply stray_for_ever; auto.
Qed.
Print Assumptions C32_ends_or_stray.
(** C32. Every call that does not meet a stray '>' consumes input or delivers a pending end. *)
Theorem C32_progress : forall d t d', next_token d = TokOk t d' -> ~ stray d ->
  (length (d_inp d') < length (d_inp d))%nat \/ (d_inp d' = d_inp d /\ d_close d <> None /\ d_close d' = None).
Proof.
  intros [inp c stk m err] t d' H NS. unfold next_token, raw_step in H. cbn [d_err d_close d_inp d_stk d_ns] in H.
  destruct err as [[]|]; try discriminate. { destruct stk; discriminate. } destruct c as [n|].
  { right. cbn [d_stk d_ns d_inp d_close] in *. destruct (pop_element n stk m) as [[[n' stk'] m']|e0]; [|discriminate]. injection H as <- <-. cbn. repeat split; auto; discriminate. }
  destruct (raw_token inp) as [[w c] rest|e|] eqn:E; [| |discriminate].
  2: { destruct e; [destruct stk|]; discriminate. }
  cbn [d_stk d_ns d_inp d_close] in H. destruct (raw_progress _ _ _ _ E) as [L|(-> & -> & -> & s & ->)].
  - left. cbn [d_inp]. destruct w; try (injection H as <- <-; auto; fail).
    + destruct (declare a (stk, m)) as [[]|]; [|discriminate]. injection H as <- <-. auto.
    + destruct (pop_element n stk m) as [[[n' stk'] m']|]; [|discriminate]. injection H as <- <-. auto.
  - exfalso. apply NS. split; [auto|]. split; [auto|]. exists s. auto.
Qed.
Print Assumptions C32_progress.
(** C32 is false as first stated: a well-formed document that is never finished. *)
Theorem C32_terminates_refuted : exists d, calls (new_decoder (str "<a>1>0</a>")) [TStart (mkname [] (str "a")) []; TChar (str "1")] d /\
  forall n, calls d (repeat (TChar []) n) d.
Proof.
  exists (snd (run 2 (new_decoder (str "<a>1>0</a>")))). split; [exact (run_calls 2 _)|]. intro n. apply stray_for_ever.
  split; [reflexivity|]. split; [reflexivity|]. exists (str "0</a>"). vm_compute. reflexivity.
Qed.
Print Assumptions C32_terminates_refuted.

(** C37. *)
Theorem C37_interning : forall bs, snd (intern_all [] bs) = bs /\ (length (fst (intern_all [] bs)) <= 1024)%nat /\ NoDup (map fst (fst (intern_all [] bs))).
Proof.
  intro bs. destruct (intern_all_ok bs []) as ((L & N & F) & E & _); [split; [cbn; lia|split; constructor]|]. auto.
Qed.
Print Assumptions C37_interning.
Theorem C37_entries_kept : forall bs1 bs2, incl (fst (intern_all [] bs1)) (fst (intern_all [] (bs1 ++ bs2))).
Proof.
  intros bs1 bs2. rewrite intern_all_app. destruct (intern_all_ok bs1 []) as (I & _); [split; [cbn; lia|split; constructor]|].
  destruct (intern_all_ok bs2 _ I) as (_ & _ & X). exact X.
Qed.
Print Assumptions C37_entries_kept.
Example C37_ex : intern_all [] [str "a"; str "b"; str "a"] = ([(str "b", str "b"); (str "a", str "a")], [str "a"; str "b"; str "a"]).
Proof. reflexivity. Qed.

(** C47. Skip, called inside an element, returns exactly when the rest of that element can be read, and
    then the state is that after its end tag. *)
Theorem C47_exact : forall inp ts d m open d', calls (new_decoder inp) ts d -> nest [] ts = Some (m :: open) ->
  ((exists k, skip_loop k 0 d = Ok d') <->
   (exists body d1, calls d body d1 /\ nest [] body = Some [] /\ next_token d1 = TokOk (TEnd m) d')).
Proof.
  intros inp ts d m open d' C N. destruct (calls_rel _ _ _ C) as (o & R & N'). rewrite N in N'. injection N' as N'. split.
  - intros (k & H). destruct (skip_sound _ _ _ _ H) as (body & n & d1 & C1 & T & D). exists body, d1. split; auto.
    destruct (calls_interp _ _ _ C1 _ R) as (ws & o1 & _ & I & R1). destruct (interp_depth_nest _ _ _ _ I [] o eq_refl D) as (k0 & B & ->). cbn in B.
    split; auto. pose proof (balanced_same _ _ _ _ R C1 B) as R1'. destruct (next_ok _ _ _ _ R1' T) as (w & o2 & _ & I2 & _).
    specialize (I2 [] [] o2 (I_nil _)). apply interp_nest in I2. rewrite <- N' in I2. cbn in I2. destruct (name_eqb m n) eqn:Q; [|discriminate]. apply name_eqb_true in Q. congruence.
  - intros (body & d1 & C1 & B & T). exists (S (length body)). eapply skip_complete; eauto. apply (balanced_depth body [] [] B).
Qed.
Print Assumptions C47_exact.
(** C47. After Skip of an element just opened, every name means what it meant before that element. *)
Theorem C47_bindings : forall inp ts d m a d1 k d', calls (new_decoder inp) ts d -> next_token d = TokOk (TStart m a) d1 -> skip_loop k 0 d1 = Ok d' ->
  (forall n elem, translate (d_ns d') n elem = translate (d_ns d) n elem) /\ exists ts', calls (new_decoder inp) (ts ++ TStart m a :: ts') d' /\ nest [] (TStart m a :: ts') = Some [].
Proof.
  intros inp ts d m a d1 k d' C T H. destruct (calls_rel _ _ _ C) as (o & R & N).
  assert (C1 : calls (new_decoder inp) (ts ++ [TStart m a]) d1) by (eapply calls_app; [eauto|econstructor; [eauto|constructor]]).
  assert (N1 : nest [] (ts ++ [TStart m a]) = Some (m :: open_names o)) by (rewrite (nest_app _ _ _ _ N); auto).
  destruct (proj1 (C47_exact _ _ _ _ _ d' C1 N1)) as (body & d2 & C2 & B & T2); [eauto|].
  assert (CD : calls d (TStart m a :: body ++ [TEnd m]) d') by (econstructor; [eauto|]; eapply calls_app; [eauto|]; econstructor; [eauto|constructor]).
  assert (BB : nest [] (TStart m a :: body ++ [TEnd m]) = Some []).
  { cbn [nest]. apply (nest_deeper _ _ _ [m]) in B. cbn [app] in B. rewrite (nest_app _ _ _ _ B). cbn. rewrite name_eqb_refl. auto. }
  split; [|exists (body ++ [TEnd m]); split; auto; eapply calls_app; eauto].
  intros n elem. eapply C31_restored; eauto.
Qed.
Print Assumptions C47_bindings.
(** C47. Skip fails only with an error of Token, and goes on for ever only at a stray '>'. *)
Theorem C47_other_outcomes : forall d,
  (forall k e, skip_loop k 0 d = Err e -> exists ts d1 d2, calls d ts d1 /\ next_token d1 = TokErr e d2) /\
  ((forall k, skip_loop k 0 d = OutOfFuel) -> exists ts d1, calls d ts d1 /\ stray d1) /\ (forall k, skip_loop k 0 d <> Panic).
Proof.
  intro d. split; [intros k e; apply skip_err|]. split; [|intro; apply skip_panic]. intro H. eapply skip_fuel; [|apply (H (S (left_to_read d)))]. lia.
Qed.
Print Assumptions C47_other_outcomes.
Example C47_ex : exists d1 d', next_token (new_decoder (str "<a><b>x</b><!-- </a> --><a/></a>y")) = TokOk (TStart (mkname [] (str "a")) []) d1 /\
  skip_loop 20 0 d1 = Ok d' /\ d_inp d' = str "y".
Proof. eexists _, _. split; [vm_compute; reflexivity|]. split; vm_compute; reflexivity. Qed.
