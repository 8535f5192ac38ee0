(** Property C73: MarshalXML methods cannot close, reopen or leave open elements they did not start. *)
From Coq Require Import String.
From Coq Require Import ZArith List Bool Lia ZifyBool ZifyNat.
From Verif Require Import Base Utf8 Lexer Escape Decoder Printer PrinterProofs Writer WriterProofs EncoderSpec EncoderProofs GoType TypeInfo Simple Marshal Methods.
Import ListNotations.
Open Scope Z_scope.

(** *** Printer programs do not get below an element without a name *)
(** They change at most the innermost element, and not its name. *)
Definition upper {A} (m : M A) : Prop := forall e es s cs s' r, p_elems s = e :: es -> m s = (cs, s', r) -> exists e', p_elems s' = e' :: es /\ el_name e' = el_name e.
Definition stays {A} (m : M A) : Prop := forall b base top s cs s' r, el_name b = [] -> p_elems s = top ++ b :: base -> m s = (cs, s', r) -> exists top', p_elems s' = top' ++ b :: base.
Definition inert {A} (m : M A) : Prop := forall s cs s' r, m s = (cs, s', r) -> p_elems s' = p_elems s.
Lemma inert_stays : forall A (m : M A), inert m -> stays m.
Proof. intros A m I b base top s cs s' r _ E H. exists top. rewrite (I _ _ _ _ H). exact E. Qed.
Lemma inert_upper : forall A (m : M A), inert m -> upper m.
Proof. intros A m I e es s cs s' r E H. exists e. rewrite (I _ _ _ _ H). auto. Qed.
Lemma inert_ret : forall A (a : A), inert (mret a). Proof. intros A a s cs s' r H. injection H as _ <- _. auto. Qed.
Lemma inert_fail : forall A m, inert (@mfail A m). Proof. intros A m s cs s' r H. injection H as _ <- _. auto. Qed.
Lemma inert_panic : forall A, inert (@mpanic A). Proof. intros A s cs s' r H. injection H as _ <- _. auto. Qed.
Lemma inert_fuel : forall A, inert (@mfuel A). Proof. intros A s cs s' r H. injection H as _ <- _. auto. Qed.
Lemma inert_get : inert mget. Proof. intros s cs s' r H. injection H as _ <- _. auto. Qed.
Lemma inert_emit : forall cs, inert (emit cs). Proof. intros c s cs s' r H. injection H as _ <- _. auto. Qed.
Lemma inert_lift : forall A (x : outcome eerr A), inert (mlift x). Proof. intros A [a|[m]| |]; [apply inert_ret|apply inert_fail|apply inert_panic|apply inert_fuel]. Qed.
Lemma inert_indent : forall d, inert (write_indent d).
Proof.
  intros d s cs s' r H. unfold write_indent, mbind, mget, mret, mput, emit in H. destruct (_ && _); [injection H as _ <- _; auto|].
  destruct (d <? 0); cbn [andb] in H; [destruct (p_indented s)|]; injection H as _ <- _; reflexivity.
Qed.
Lemma upper_bind : forall A B (m : M A) (f : A -> M B), upper m -> (forall a, upper (f a)) -> upper (mbind m f).
Proof.
  intros A B m f U V e es s cs s' r E H. unfold mbind in H. destruct (m s) as [[c1 s1] r1] eqn:H1. destruct (U _ _ _ _ _ _ E H1) as (e1 & E1 & N1). destruct r1 as [a|x| |]; try (injection H as _ <- _; exists e1; auto).
  destruct (f a s1) as [[c2 s2] r2] eqn:H2. injection H as _ <- _. destruct (V a _ _ _ _ _ _ E1 H2) as (e2 & E2 & N2). exists e2. split; [auto|congruence].
Qed.
Lemma stays_bind : forall A B (m : M A) (f : A -> M B), stays m -> (forall a, stays (f a)) -> stays (mbind m f).
Proof.
  intros A B m f U V b base top s cs s' r N E H. unfold mbind in H. destruct (m s) as [[c1 s1] r1] eqn:H1. destruct (U _ _ _ _ _ _ _ N E H1) as (t1 & E1). destruct r1 as [a|x| |]; try (injection H as _ <- _; exists t1; auto).
  destruct (f a s1) as [[c2 s2] r2] eqn:H2. injection H as _ <- _. exact (V a _ _ _ _ _ _ _ N E1 H2).
Qed.
Lemma upper_create : forall u p, upper (create_prefix u p).
Proof.
  intros u p e es s cs s' r E H. unfold create_prefix, mbind, mget, mput, mret, mfuel in H. rewrite E in H. destruct (_ && _); [injection H as _ <- _; exists e; auto|].
  destruct (if beq _ _ then _ else _) as [[q sq]|]; injection H as _ <- _; [eexists; split; reflexivity|exists e; auto].
Qed.
Lemma upper_set : forall p, upper (set_prefix p).
Proof. intros p e es s cs s' r E H. unfold set_prefix in H. rewrite E in H. injection H as _ <- _. eexists. split; reflexivity. Qed.
Ltac up := repeat (first [apply upper_create|apply upper_set|apply inert_upper; (apply inert_ret || apply inert_fail || apply inert_get || apply inert_emit || apply inert_indent)
  |apply upper_bind; [|intro]|match goal with |- upper (if ?b then _ else _) => destruct b | |- upper (let '(_, _) := ?x in _) => destruct x | |- upper (match ?x with _ => _ end) => destruct x end]).
Lemma upper_attrs : forall a, upper (write_attrs a).
Proof. induction a as [|x a IH]; cbn [write_attrs]; [up|]. apply upper_bind; [|auto]. unfold write_attr. up. Qed.
Lemma stays_start : forall n a, stays (write_start n a).
Proof.
  intros n a b base top s cs s' r N E H. unfold write_start in H. destruct (beq (local n) []); [injection H as _ <- _; eauto|].
  unfold mbind at 1, mget at 1 in H. unfold mbind at 1, mput at 1 in H.
  match type of H with context [?m (with_elems ?x s)] => assert (U : upper m) by (unfold space_defined; up; apply upper_attrs); destruct (m (with_elems x s)) as [[c2 s2] r2] eqn:H2 end.
  injection H as _ <- _. destruct (U (new_element n) (p_elems s) (with_elems (new_element n :: p_elems s) s) _ _ _ eq_refl H2) as (e' & E' & _). exists (e' :: top). rewrite E', E. reflexivity.
Qed.
Lemma stays_end : forall n, stays (write_end n).
Proof.
  intros n b base top s cs s' r N E H. unfold write_end in H. destruct (beq (local n) []); [injection H as _ <- _; eauto|]. unfold mbind at 1, mget at 1 in H.
  destruct (p_elems s) as [|e es] eqn:P; [destruct top; discriminate|]. destruct (beq (el_name e) []) eqn:NE; [injection H as _ <- _; exists top; congruence|].
  destruct top as [|e0 top]; cbn in E; injection E as -> ->; [rewrite N in NE; discriminate|]. destruct (split_prefixed (local n)) as [p l].
  assert (X : exists top', p_elems s = top' ++ b :: base) by (exists (e0 :: top); exact P).
  destruct (_ && _ && _); [injection H as _ <- _; exact X|]. destruct (negb _); [injection H as _ <- _; exact X|]. destruct (negb _); [injection H as _ <- _; exact X|].
  unfold mbind in H. destruct (write_indent (-1) s) as [[c1 s1] r1] eqn:I. pose proof (inert_indent _ _ _ _ _ I) as P1. destruct r1; cbn in H; injection H as _ <- _; cbn; rewrite P1, P; [exists top; reflexivity| | |]; exists (e0 :: top); reflexivity.
Qed.
Ltac st1 := first [apply stays_start|apply stays_end|apply inert_stays; (apply inert_ret || apply inert_fail || apply inert_panic || apply inert_fuel || apply inert_get || apply inert_emit || apply inert_indent || apply inert_lift)
  |apply stays_bind; [|intro]|match goal with |- stays (if ?b then _ else _) => destruct b | |- stays (let '(_, _) := ?x in _) => destruct x | |- stays (match ?x with _ => _ end) => destruct x end].
Ltac st := repeat st1.
Lemma stays_close_all : forall l, stays (close_all l).
Proof. induction l; cbn [close_all]; st. auto. Qed.
Lemma stays_push : forall l, stays (push l).
Proof. induction l; cbn [push]; st. auto. Qed.
Lemma stays_ignore : forall m, stays m -> stays (ignore m).
Proof. intros m S b base top s cs s' r N E H. unfold ignore in H. destruct (m s) as [[c1 s1] r1] eqn:H1. injection H as _ <- _. eapply S; eauto. Qed.
Lemma stays_trim : forall a b, stays (trim a b).
Proof. intros. unfold trim. apply stays_bind; [apply stays_close_all|intro; st]. Qed.
Lemma stays_fields : forall F env value s, (forall ad t w f, stays (value ad t w f)) -> forall fs v addr stack, stays (struct_fields F env value s fs v addr stack).
Proof.
  intros F env value s V. induction fs as [|f fs IH]; intros v addr stack; cbn [struct_fields]; [st|]. destruct (g_attr (fi_flags f)); [apply IH|]. apply stays_bind; [st|]. intros [[[t w] ad]|]; [|apply IH].
  apply stays_bind; [|intro; apply IH]. unfold emit_comment. repeat (first [apply stays_trim|apply stays_push|apply V|progress st1]).
Qed.
Lemma stays_value : forall F env ek k addr t v fi tmpl, stays (marshal_value F env ek k addr t v fi tmpl).
Proof.
  intros F env ek. induction k as [|k IH]; intros addr t v fi tmpl; cbn [marshal_value]; [st|].
  destruct (match tmpl with Some (n, _, _) => beq (local n) [] | None => false end); [st|]. destruct (match fi with Some f => _ | None => false end); [st|]. destruct (drill t v addr) as [[[t1 v1] a1]|]; [|st].
  assert (E : stays (mdo ti <- match info_of env ek t1 with Ok ti => mret ti | Err _ => mfail (str "xml: bad type") | Panic => mpanic | OutOfFuel => mfuel end ;
                mdo n <- mlift (start_name env ti t1 v1 a1 fi tmpl) ;
                let given := match tmpl with Some (_, a, cap) => if (cap <? ti_nattrs ti)%nat then [] else a | None => [] end in
                mdo own <- mlift match t1 with TStruct s => marshal_attrs F env s (ti_fields ti) v1 a1 | _ => Ok [] end ;
                mdo st <- mget ;
                mdo_ write_start n (given ++ own ++ reset_default ti n (p_elems st)) ;
                mdo_ match t1 with
                     | TStruct s => marshal_struct F env (fun ad t w f => marshal_value F env ek k ad t w (Some f) None) s ti v1 a1
                     | TName => mret tt
                     | _ => match simple_text F t1 v1 with Some s => emit (esc_writes EAttr s) | None => mlift unsupported end
                     end ;
                write_end n)).
  { apply stays_bind; [st|intro ti]. apply stays_bind; [st|intro n]. cbn zeta. apply stays_bind; [st|intro own]. apply stays_bind; [st|intro st0]. apply stays_bind; [st|intros _]. apply stays_bind; [|intros _; st].
    destruct t1; try solve [st]. unfold marshal_struct. apply stays_bind; [|intro; apply stays_ignore, stays_close_all]. apply stays_fields. intros; apply IH. }
  destruct t1; try exact E; [|st]. destruct v1; try solve [st]. clear E. induction l as [|w l IHl]; cbn [each_value]; [st|]. apply stays_bind; [apply IH|intros _; exact IHl].
Qed.
Lemma stays_plain : forall v, stays (plain_program v).
Proof. intros [F env ek k addr t v start|n a text]; cbn [plain_program]; [apply stays_value|st]. Qed.

(** *** The encoder *)
Definition over (b : element) (base : list element) (e : encoder) : Prop := exists top, p_elems (en_p e) = top ++ b :: base.
Lemma write_keeps_p : forall o c e e', p_write o c e = Some e' -> en_p e' = en_p e.
Proof. intros o c e e' H. unfold p_write in H. destruct (match en_err e with None => _ | Some x => _ end); [injection H as <-; reflexivity|]. destruct (b_write _ _ _ _); [injection H as <-; reflexivity|discriminate]. Qed.
Lemma writes_keeps_p : forall o cs e e', p_writes o cs e = Some e' -> en_p e' = en_p e.
Proof. induction cs as [|c cs IH]; cbn [p_writes]; intros e e' H; [injection H as <-; reflexivity|]. destruct (p_write o c e) as [e1|] eqn:E; [|discriminate]. rewrite (IH _ _ H). eapply write_keeps_p; eauto. Qed.
Lemma step_p : forall o m e e' r, run_step o m e = Some (e', r) -> en_p e' = snd (fst (m (en_p e))).
Proof.
  intros o m e e' r H. unfold run_step in H. destruct (m (en_p e)) as [[cs s] q]. destruct (p_writes _ _ _) as [e1|] eqn:W; [|discriminate]. apply writes_keeps_p in W. cbn in W. cbn [fst snd].
  destruct q; try discriminate; injection H as <- _; exact W.
Qed.
Lemma step_over : forall o m e e' r b base, el_name b = [] -> stays m -> over b base e -> run_step o m e = Some (e', r) -> over b base e'.
Proof.
  intros o m e e' r b base N S [top T] H. apply step_p in H. unfold over. rewrite H. destruct (m (en_p e)) as [[cs s] q] eqn:E. cbn. exact (S _ _ _ _ _ _ _ N T E).
Qed.
Lemma stays_token : forall k t, stays (encode_token k t).
Proof. intros k t. destruct t; cbn [encode_token]; st. Qed.
Lemma flush_p : forall o e, en_p (fst (enc_flush o e)) = en_p e. Proof. reflexivity. Qed.
Lemma close_p : forall o e, en_p (fst (enc_close o e)) = en_p e. Proof. intros o e. unfold enc_close. destruct (en_closed e); reflexivity. Qed.
(** After the mark is taken off, the elements are those from before. *)
Lemma unmark : forall es top, (length (mark :: es) <? length (top ++ mark :: es))%nat = false -> top = [] /\ skipn (length (top ++ mark :: es) - (length (mark :: es) - 1)) (top ++ mark :: es) = es.
Proof.
  intros es top H. rewrite app_length in H. assert (top = []) as -> by (destruct top; [auto|cbn [length] in H; lia]). split; auto. cbn [app length]. replace (S (length es) - (S (length es) - 1))%nat with 1%nat by lia. reflexivity.
Qed.
Lemma with_mark_elems : forall o n body e e' r g,
  (forall e1 e2 r2 g2, over mark (p_elems (en_p e)) e1 -> body e1 = Some (e2, r2, g2) -> over mark (p_elems (en_p e)) e2) ->
  with_mark o n body e = Some (e', r, g) ->
  p_elems (en_p e') = p_elems (en_p e) \/ r <> Done /\ over mark (p_elems (en_p e)) e'.
Proof.
  intros o n body e e' r g B H. unfold with_mark in H. destruct (match n with Some m => _ | None => false end); [injection H as <- _ _; auto|].
  destruct (body _) as [[[e1 r1] g1]|] eqn:R; [|discriminate]. assert (O : over mark (p_elems (en_p e)) e1) by (eapply B; [|exact R]; exists []; reflexivity).
  destruct r1; [|injection H as <- <- _; right; split; [discriminate|exact O]..].
  destruct (_ <? _)%nat eqn:L; [injection H as <- <- _; right; split; [discriminate|exact O]|]. destruct O as [top T]. rewrite T in L, H. destruct (unmark _ _ L) as [_ U]. rewrite U in H. injection H as <- _ _. left. reflexivity.
Qed.
(** A method never gets below the mark of a method around it. *)
Lemma run_over : forall o b base, el_name b = [] -> forall x e e' r g, over b base e -> run_method o x e = Some (e', r, g) -> over b base e'.
Proof.
  intros o. assert (GO : forall b base k e1 r1 g1 e' r g, (forall q e e' r g, over b base e -> run_method o (k q) e = Some (e', r, g) -> over b base e') -> over b base e1 ->
    match r1 with Crashed => Some (e1, Crashed, g1) | _ => match run_method o (k r1) e1 with None => None | Some (e2, r2, h) => Some (e2, r2, g1 ++ h) end end = Some (e', r, g) -> over b base e').
  { intros b base k e1 r1 g1 e' r g IH O H. destruct r1; [| |injection H as <- _ _; exact O]; (destruct (run_method o (k _) e1) as [[[e2 r2] h]|] eqn:R; [|discriminate]; injection H as <- _ _; eapply IH; [exact O|exact R]). }
  intros b base N x. revert b base N. induction x as [ok|t k IH|k IH|p i k IH|k IH|v k IH|n x IHx k IH]; intros b base N e e' r g O H; cbn [run_method] in H.
  - injection H as <- _ _. exact O.
  - unfold enc_token in H. destruct (run_step _ _ _) as [[e1 r1]|] eqn:S; [|discriminate]. refine (GO b base k _ r1 _ _ _ _ (fun q => IH q b base N) _ H). eapply step_over; eauto. apply stays_token.
  - destruct (enc_flush o e) as [e1 r1] eqn:S. refine (GO b base k _ r1 _ _ _ _ (fun q => IH q b base N) _ H). unfold over. change e1 with (fst (e1, r1)). rewrite <- S, flush_p. exact O.
  - eapply IH; [exact N| |exact H]. exact O.
  - destruct (enc_close o e) as [e1 r1] eqn:S. refine (GO b base k _ r1 _ _ _ _ (fun q => IH q b base N) _ H). unfold over. change e1 with (fst (e1, r1)). rewrite <- S, close_p. exact O.
  - destruct (enc_encode _ _ _) as [[e1 r1]|] eqn:S; [|discriminate]. refine (GO b base k _ r1 _ _ _ _ (fun q => IH q b base N) _ H). unfold enc_encode in S. destruct (run_step _ _ _) as [[e2 r2]|] eqn:S2; [|discriminate].
    assert (O2 : over b base e2) by (eapply step_over; eauto; apply stays_plain). destruct r2; injection S as <- _; exact O2.
  - destruct (with_mark _ _ _ _) as [[[e1 r1] g1]|] eqn:S; [|discriminate]. refine (GO b base k _ r1 _ _ _ _ (fun q => IH q b base N) _ H).
    assert (X : p_elems (en_p e1) = p_elems (en_p e) \/ over mark (p_elems (en_p e)) e1).
    { destruct (with_mark_elems _ _ _ _ _ _ _ (IHx mark (p_elems (en_p e)) eq_refl) S) as [X|[_ X]]; auto. }
    destruct O as [top T]. destruct X as [X|[top' X]]; [exists top; congruence|]. exists (top' ++ mark :: top). rewrite X, T, <- app_assoc. reflexivity.
Qed.

(** C73. A method gets an encoder on which elements are open, and whatever calls it makes, with values of whatever methods, and
    whatever the writer does: those elements stay open, and if Encode or EncodeElement succeeds no others are. *)
Theorem C73_outer : forall o n x e e' r g, encode_method o n x e = Some (e', r, g) ->
  (exists top, p_elems (en_p e') = top ++ p_elems (en_p e)) /\ (r = Done -> p_elems (en_p e') = p_elems (en_p e)).
Proof.
  intros o n x e e' r g H. destruct (with_mark_elems _ _ _ _ _ _ _ (run_over o mark (p_elems (en_p e)) eq_refl x) H) as [E|[N [top T]]].
  - split; [exists []|]; auto.
  - split; [exists (top ++ [mark]); rewrite T, <- app_assoc; reflexivity|congruence].
Qed.
Print Assumptions C73_outer.
(** If the method returned an error, or left elements open, then whatever is done afterwards, Close reports it. *)
Theorem C73_failed : forall o x e e' r g, run_method o x (set_elems (mark :: p_elems (en_p e)) e) = Some (e', r, g) ->
  r <> Done \/ (exists el es, p_elems (en_p e') = el :: es /\ el_name el <> []) ->
  encode_method o None x e = Some (e', match r with Done => Failed | _ => r end, g) /\
  forall y e2 r2 g2, run_method o y e' = Some (e2, r2, g2) -> en_closed e2 = false -> snd (enc_close o e2) = Failed.
Proof.
  intros o x e e' r g H B. assert (O : over mark (p_elems (en_p e)) e') by (eapply run_over; [reflexivity| |exact H]; exists []; reflexivity). split.
  - unfold encode_method, with_mark. rewrite H. destruct r; auto. destruct B as [B|(el & es & E & N)]; [congruence|]. destruct O as [top T]. rewrite T in *.
    replace (_ <? _)%nat with true; auto. symmetry. rewrite app_length. destruct top as [|t top]; [cbn in E; injection E as <- _; exfalso; apply N; reflexivity|]. cbn [length]. lia.
  - intros y e2 r2 g2 Y C. destruct (run_over o mark _ eq_refl _ _ _ _ _ O Y) as [top T]. unfold enc_close. rewrite C, T. cbn [snd]. destruct (b_err _); [auto|]. destruct top; reflexivity.
Qed.
Print Assumptions C73_failed.

(** *** What is written *)
(** Methods that neither close the encoder nor encode values without methods. *)
Fixpoint by_token (x : method) : Prop :=
  match x with
  | Return _ => True
  | MToken _ k | MFlush k => forall r, by_token (k r)
  | MIndent _ _ k => by_token k
  | MClose _ | MPlain _ _ => False
  | MElement _ y k => by_token y /\ forall r, by_token (k r)
  end.
Definition named (e : element) : bool := negb (beq (el_name e) []).
Definition blocked (base : list element) : Prop := match base with [] => True | b :: _ => el_name b = [] end.
Definition calls_inv (g : list call) (e : encoder) (os : list opened) (base : list element) : Prop :=
  balanced g os /\ (exists top, p_elems (en_p e) = top ++ base /\ Forall2 open_el os (filter named top)) /\ fine e /\ etook e (total e) /\ 0 <= p_seq (en_p e).
Lemma balanced_app : forall h os g os', balanced h os -> balanced g os' -> balanced (h ++ g) (os' ++ os).
Proof.
  intros h os g os' H G. induction G as [|g o n a ind q rest G IH R|g o n m ind q G IH SN|g o t G IH|g o t x G IH N1 N2]; rewrite ?(app_assoc h g).
  - rewrite app_nil_r. exact H.
  - exact (B_start _ _ n a ind q rest IH R).
  - exact (B_end _ _ n m ind q IH SN).
  - exact (B_refused _ _ t IH).
  - exact (B_other _ _ t x IH N1 N2).
Qed.
Lemma token_calls : forall o g e os base t e' r, willing o -> blocked base -> calls_inv g e os base -> enc_token o t e = Some (e', r) ->
  exists os', calls_inv (g ++ [mkcall t (match r with Done => true | _ => false end) (added e e')]) e' os' base /\ r <> Crashed /\ total e' = total e ++ added e e'.
Proof.
  intros o g e os base t e' r W BL (B & (top & T0 & F2) & F & T & Q) R.
  destruct (token_step o t e W F T Q) as (e1 & r1 & R1 & F1 & T1 & P1 & X1 & D1). rewrite R in R1. injection R1 as <- <-.
  assert (XE : added e e' = concat (fst (fst (encode_token (length (b_buf (en_b e))) t (en_p e))))). { unfold added. rewrite X1, skipn_app, skipn_all, Nat.sub_diag. reflexivity. }
  assert (NC : r <> Crashed).
  { intros ->. unfold enc_token, run_step in R. clear - R Q. set (k := length _) in R. assert (NP : snd (encode_token k t (en_p e)) <> Panic).
    { clear R. destruct t as [n a|n|y|y|tg y|y]; cbn [encode_token].
      - destruct (beq (local n) []) eqn:L; [unfold write_start; rewrite L; discriminate|]. apply beq_neq in L. destruct (write_start_ok n a (en_p e) Q L) as (cs & s' & el & ind & rest & E & _). rewrite E. discriminate.
      - unfold write_end. destruct (beq (local n) []); [discriminate|]. unfold mbind at 1, mget at 1. destruct (p_elems (en_p e)) as [|el es]; [discriminate|]. destruct (beq (el_name el) []); [discriminate|].
        destruct (split_prefixed (local n)) as [p l]. destruct (negb (beq p []) && _ && _); [discriminate|]. destruct (negb (beq l (el_name el))); [discriminate|]. destruct (negb (beq (space n) (el_ns el))); [discriminate|].
        destruct (indent_ok (-1) (en_p e)) as (ci & s1 & E1 & _). unfold mbind. rewrite E1. discriminate.
      - discriminate.
      - destruct (contains _ _); discriminate.
      - destruct (_ && _); [discriminate|]. destruct (negb _); [discriminate|]. destruct (contains _ _); discriminate.
      - destruct (valid_directive _ _ _ _ _); discriminate. }
    destruct (encode_token k t (en_p e)) as [[cs s] q]. cbn in NP. destruct (p_writes _ _ _); [|discriminate]. destruct q; try congruence. destruct (en_err _); discriminate. }
  rewrite <- XE in X1. remember (added e e') as x eqn:XX. clear XX. set (k := length (b_buf (en_b e))) in *.
  assert (KEEP : en_p e' = en_p e -> balanced (g ++ [mkcall t (match r with Done => true | _ => false end) x]) os -> exists os', calls_inv (g ++ [mkcall t (match r with Done => true | _ => false end) x]) e' os' base /\ r <> Crashed /\ total e' = total e ++ x).
  { intros P B'. exists os. split; [|split; [auto|auto]]. split; [exact B'|]. rewrite P. split; [exists top; auto|]. split; [auto|split; [auto|auto]]. }
  assert (OTHER : (forall n a, t <> TStart n a) -> (forall n, t <> TEnd n) -> exists os', calls_inv (g ++ [mkcall t (match r with Done => true | _ => false end) x]) e' os' base /\ r <> Crashed /\ total e' = total e ++ x).
  { intros A1 A2. rewrite (other_elems k t (en_p e) A1 A2) in P1. apply KEEP; [auto|]. destruct (other_refused k t (en_p e) A1 A2) as [O|[[y O] N]].
    - assert (r = Done) as -> by (apply D1; auto). apply B_other; auto.
    - rewrite N in XE. subst x. destruct r; try (apply B_refused; auto). destruct D1 as [D1 _]. destruct (D1 eq_refl) as [z Z]. congruence. }
  destruct t as [n a|n|y|y|tg y|y]; try (apply OTHER; intros; discriminate); clear OTHER; cbn [encode_token] in *.
  - destruct (beq (local n) []) eqn:L.
    + unfold write_start in *. rewrite L in *. cbn in P1, XE, D1. subst x. apply KEEP; [auto|]. destruct r; try (apply B_refused; auto). destruct D1 as [D1 _]. destruct (D1 eq_refl) as [z Z]. discriminate.
    + apply beq_neq in L. destruct (write_start_ok n a (en_p e) Q L) as (cs & s' & el & ind & rest & E & EL & Q' & N1 & N2 & C & RR & PR). rewrite E in *. cbn in P1, XE, D1.
      assert (r = Done) as -> by (apply D1; eauto). exists (mkopened n (qname el) :: os). split; [|auto]. split; [rewrite XE, C; apply B_start; auto|]. rewrite P1.
      assert (NN : el_name el <> []) by (rewrite N2; apply split_nonempty; auto).
      split; [exists (el :: top); split; [rewrite EL, T0; reflexivity|]|split; [auto|split; [auto|auto]]]. cbn [filter]. unfold named at 1. replace (beq (el_name el) []) with false by (symmetry; now apply beq_neq). cbn [negb].
      constructor; auto. split; [|split; [|split; [|split; [exact NN|]]]]; auto. intros p l PX U. cbn [o_name] in PX. apply split_prefixed_yes in PX. rewrite PX in PR. cbn [fst] in PR. apply PR; [intros ->; destruct U; discriminate|apply pick_usable; auto].
  - assert (DEC : (exists el es, p_elems (en_p e) = el :: es /\ el_name el <> [] /\ local n <> [] /\ end_matches n el) \/ (exists m, write_end n (en_p e) = ([], en_p e, Err (EncErr m)))).
    { destruct (p_elems (en_p e)) as [|el es] eqn:EL; [right; apply write_end_refused; congruence|].
      assert (DB : forall a b : bytes, a = b \/ a <> b) by (intros a b; destruct (beq a b) eqn:BB; [left; now apply beq_eq|right; now apply beq_neq]).
      assert (DD : (el_name el <> [] /\ local n <> [] /\ end_matches n el) \/ ~ (el_name el <> [] /\ local n <> [] /\ end_matches n el)).
      { unfold end_matches. destruct (DB (el_name el) []) as [|N1]; [tauto|]. destruct (DB (local n) []) as [|N2]; [tauto|]. destruct (DB (snd (split_prefixed (local n))) (el_name el)); [|tauto].
        destruct (DB (space n) (el_ns el)); [|tauto]. destruct (DB (fst (split_prefixed (local n))) []); [tauto|]. destruct (DB (el_prefix el) []); [tauto|]. destruct (DB (fst (split_prefixed (local n))) (el_prefix el)); tauto. }
      destruct DD as [DD|DD]; [left; exists el, es; tauto|right; apply write_end_refused; intros e2 es2 E2; rewrite EL in E2; injection E2 as <- <-; exact DD]. }
    destruct DEC as [(el & es & EL & O1 & O2 & O3)|[m RF]].
    + destruct (write_end_ok n (en_p e) el es EL O1 O2 O3) as (cs & s' & ind & E & EL' & SQ & C). rewrite E in *. cbn in P1, XE, D1. assert (r = Done) as -> by (apply D1; eauto).
      rewrite EL in T0. destruct top as [|el0 top]; cbn in T0.
      { destruct base as [|b0 base]; [discriminate|]. injection T0 as <- _. cbn in BL. contradiction. }
      injection T0 as <- ->. cbn [filter] in F2. unfold named at 1 in F2. replace (beq (el_name el) []) with false in F2 by (symmetry; now apply beq_neq). cbn [negb] in F2.
      inversion F2 as [|op el' os1 es1 OE F2' EQ1 EQ2]. subst os el' es1. exists os1. split; [|auto]. unfold calls_inv. rewrite P1. split; [|split; [exists top; auto|split; [auto|split; [auto|rewrite SQ; auto]]]].
      rewrite XE, C. destruct op as [m q]. destruct OE as (OA & OB & OC & OD & _). cbn in OA, OB, OC. subst q.
      eapply B_end; [exact B|]. apply same_name_split. destruct O3 as (OX & OY & _). split; congruence.
    + rewrite RF in *. cbn in P1, XE, D1. subst x. apply KEEP; [auto|]. destruct r; try (apply B_refused; auto). destruct D1 as [D1 _]. destruct (D1 eq_refl) as [z Z]. discriminate.
Qed.
Lemma flush_calls : forall o g e os base, willing o -> calls_inv g e os base -> calls_inv g (fst (enc_flush o e)) os base /\ total (fst (enc_flush o e)) = total e /\ snd (enc_flush o e) = Done.
Proof.
  intros o g e os base W (B & E & F & T & Q). destruct (enc_flush_fine o e W F) as [F' D'].
  destruct T as (T & T2 & T3). destruct (flush_took o _ _ (willing_obeys _ W) T) as [T' _].
  assert (TE : etook (fst (enc_flush o e)) (total e)). { split; [exact T'|]. destruct F' as (A1 & A2 & A3). split; auto. congruence. }
  pose proof (fine_took _ _ TE F') as TT. split; [|split; auto]. split; auto. split; auto. split; auto. split; auto. rewrite <- TT. exact TE.
Qed.
Lemma filter_mark : forall es, filter named (mark :: es) = filter named es. Proof. reflexivity. Qed.
Definition texts (g : list call) : bytes := concat (map c_text g).
Lemma texts_app : forall a b, texts (a ++ b) = texts a ++ texts b. Proof. intros. unfold texts. rewrite map_app, concat_app. reflexivity. Qed.
Lemma fine_elems : forall es e, fine e -> fine (set_elems es e). Proof. intros es e F. exact F. Qed.
(** The calls of a method on an encoder below which nothing can be closed, after the calls [h]. *)
Lemma run_calls : forall o, willing o -> forall x, by_token x -> forall base h e os e' r g, blocked base -> calls_inv h e os base -> run_method o x e = Some (e', r, g) ->
  exists os', calls_inv (h ++ g) e' os' base /\ total e' = total e ++ texts g.
Proof.
  intros o W.
  assert (GO : forall k base h e os e1 r1 g1 os1 e' r g,
    (forall q base h e os e' r g, blocked base -> calls_inv h e os base -> run_method o (k q) e = Some (e', r, g) -> exists os', calls_inv (h ++ g) e' os' base /\ total e' = total e ++ texts g) ->
    blocked base -> calls_inv h e os base -> calls_inv (h ++ g1) e1 os1 base -> total e1 = total e ++ texts g1 ->
    match r1 with Crashed => Some (e1, Crashed, g1) | _ => match run_method o (k r1) e1 with None => None | Some (e2, r2, h) => Some (e2, r2, g1 ++ h) end end = Some (e', r, g) ->
    exists os', calls_inv (h ++ g) e' os' base /\ total e' = total e ++ texts g).
  { intros k base h e os e1 r1 g1 os1 e' r g IH BL I I1 T1 H. destruct r1; [| |injection H as <- _ <-; eauto];
    (destruct (run_method o (k _) e1) as [[[e2 r2] g2]|] eqn:R; [|discriminate]; injection H as <- _ <-; destruct (IH _ _ _ _ _ _ _ _ BL I1 R) as (os2 & I2 & T2); exists os2; split; [rewrite app_assoc; exact I2|rewrite T2, T1, texts_app, app_assoc; reflexivity]). }
  induction x as [ok|t k IH|k IH|p i k IH|k IH|v k IH|n x IHx k IH]; intros BT base h e os e' r g BL I H; cbn [by_token] in BT; cbn [run_method] in H; try contradiction.
  - injection H as <- _ <-. exists os. rewrite app_nil_r. cbn. rewrite app_nil_r. auto.
  - destruct (enc_token o t e) as [[e1 r1]|] eqn:S; [|discriminate]. destruct (token_calls _ _ _ _ _ _ _ _ W BL I S) as (os1 & I1 & _ & T1).
    refine (GO k base h e os e1 r1 _ os1 _ _ _ (fun q => IH q (BT q)) BL I I1 _ H). unfold texts. cbn. rewrite app_nil_r. exact T1.
  - destruct (enc_flush o e) as [e1 r1] eqn:S. destruct (flush_calls o _ _ _ _ W I) as (I1 & T1 & _). rewrite S in I1, T1. cbn in I1, T1.
    refine (GO k base h e os e1 r1 [] os _ _ _ (fun q => IH q (BT q)) BL I _ _ H); [rewrite app_nil_r; exact I1|cbn; rewrite app_nil_r; exact T1].
  - destruct (IH BT base h (enc_indent p i e) os e' r g BL I H) as (os1 & I1 & T1). exists os1. auto.
  - destruct BT as [BX BK]. destruct (with_mark o n (run_method o x) e) as [[[e1 r1] g1]|] eqn:S; [|discriminate].
    assert (X : exists os1, calls_inv (h ++ g1) e1 os1 base /\ total e1 = total e ++ texts g1); [|destruct X as (os1 & I1 & T1); exact (GO k base h e os e1 r1 g1 os1 _ _ _ (fun q => IH q (BK q)) BL I I1 T1 H)].
    clear H GO IH. unfold with_mark in S. destruct (match n with Some m => _ | None => false end); [injection S as <- _ <-; exists os; rewrite app_nil_r; cbn; rewrite app_nil_r; auto|].
    destruct I as (B & (top & TP & F2) & F & T & Q). set (e0 := set_elems (mark :: p_elems (en_p e)) e) in *.
    assert (I0 : calls_inv [] e0 [] (mark :: p_elems (en_p e))). { split; [constructor|]. split; [exists []; split; [reflexivity|constructor]|]. split; [exact F|split; [exact T|exact Q]]. }
    destruct (run_method o x e0) as [[[e2 r2] g2]|] eqn:R; [|discriminate].
    destruct (IHx BX _ _ _ _ _ _ _ (eq_refl : blocked (mark :: p_elems (en_p e))) I0 R) as (os2 & (B2 & (top2 & TP2 & F22) & F_2 & T_2 & Q2) & TT2). cbn [app] in B2. change (total e0) with (total e) in TT2.
    assert (BAD : exists os1, calls_inv (h ++ g2) e2 os1 base /\ total e2 = total e ++ texts g2).
    { exists (os2 ++ os). split; [|exact TT2]. split; [apply balanced_app; auto|]. split; [|auto]. exists (top2 ++ mark :: top). split; [rewrite TP2, TP, <- app_assoc; reflexivity|]. rewrite filter_app, filter_mark. apply Forall2_app; auto. }
    destruct r2; [|injection S as <- _ <-; exact BAD..]. destruct (_ <? _)%nat eqn:L; [injection S as <- _ <-; exact BAD|]. clear BAD.
    rewrite TP2 in L, S. destruct (unmark _ _ L) as [-> U]. rewrite U in S. cbn in F22. inversion F22. subst os2.
    assert (I3 : calls_inv (h ++ g2) (set_elems (p_elems (en_p e)) e2) os base). { split; [exact (balanced_app _ _ _ _ B B2)|]. split; [exists top; split; [exact TP|exact F2]|]. split; [exact F_2|split; [exact T_2|exact Q2]]. }
    destruct (flush_calls o _ _ _ _ W I3) as (I4 & T4 & _). destruct (enc_flush o (set_elems (p_elems (en_p e)) e2)) as [e3 r3]. cbn [fst] in I4, T4.
    injection S as <- _ <-. exists os. split; [exact I4|]. rewrite T4. exact TT2.
Qed.
(** C73. All EncodeToken calls of a program and of the methods of the values it encodes are balanced together, as those of one
    program without methods would be, and if Close succeeds all elements are closed. *)
Theorem C73_balanced : forall o u x e r g, willing o -> counted u -> by_token x -> run_method o x (new_encoder u) = Some (e, r, g) ->
  exists os, balanced g os /\ total e = u_out u ++ texts g /\ (snd (enc_close o e) = Done -> os = []).
Proof.
  intros o u x e r g W C BT H. assert (I : calls_inv [] (new_encoder u) [] []).
  { destruct (new_inv u C) as (B & F2 & F & T & Q). split; [exact B|]. split; [exists []; split; [reflexivity|constructor]|]. auto. }
  destruct (run_calls o W x BT [] [] _ [] e r g Logic.I I H) as (os & (B & (top & TP & F2) & (FA & FB & FC) & T & Q) & TT). exists os. split; [exact B|]. split; [rewrite TT; unfold total; cbn; rewrite app_nil_r; reflexivity|].
  rewrite app_nil_r in TP. intro D. destruct (p_elems (en_p e)) as [|el es] eqn:PE; [subst top; inversion F2; reflexivity|].
  exfalso. unfold enc_close in D. rewrite PE in D. destruct (en_closed e); [discriminate|]. cbn [snd] in D. destruct (b_err (b_flush o (en_b e))); discriminate D.
Qed.
Print Assumptions C73_balanced.
(** The calls of a method whose value was encoded successfully are balanced by themselves: every element it starts it ends, and
    it ends no other. *)
Theorem C73_own : forall o u x e r g n y e' g', willing o -> counted u -> by_token x -> by_token y -> run_method o x (new_encoder u) = Some (e, r, g) ->
  encode_method o n y e = Some (e', Done, g') -> balanced g' [] /\ total e' = total e ++ texts g'.
Proof.
  intros o u x e r g n y e' g' W C BX BY HX HY. assert (I : calls_inv [] (new_encoder u) [] []).
  { destruct (new_inv u C) as (B & F2 & F & T & Q). split; [exact B|]. split; [exists []; split; [reflexivity|constructor]|]. auto. }
  destruct (run_calls o W x BX [] [] _ [] e r g Logic.I I HX) as (os & (B & (top & TP & F2) & F & T & Q) & _). clear I HX.
  unfold encode_method, with_mark in HY. destruct (match n with Some m => _ | None => false end); [discriminate|]. set (e0 := set_elems (mark :: p_elems (en_p e)) e) in *.
  assert (I0 : calls_inv [] e0 [] (mark :: p_elems (en_p e))). { split; [constructor|]. split; [exists []; split; [reflexivity|constructor]|]. split; [exact F|split; [exact T|exact Q]]. }
  destruct (run_method o y e0) as [[[e2 r2] g2]|] eqn:R; [|discriminate].
  destruct (run_calls o W y BY _ _ _ _ _ _ _ (eq_refl : blocked (mark :: p_elems (en_p e))) I0 R) as (os2 & I2 & TT2).
  destruct r2; try discriminate. destruct (_ <? _)%nat eqn:L; [discriminate|]. destruct I2 as (B2 & (top2 & TP2 & F22) & F_2 & T_2 & Q2).
  rewrite TP2 in L, HY. destruct (unmark _ _ L) as [-> U]. rewrite U in HY. cbn in F22. inversion F22. subst os2.
  assert (I3 : calls_inv g2 (set_elems (p_elems (en_p e)) e2) [] (p_elems (en_p e))). { split; [exact B2|]. split; [exists []; split; [reflexivity|constructor]|]. split; [exact F_2|split; [exact T_2|exact Q2]]. }
  destruct (flush_calls o _ _ _ _ W I3) as (_ & T4 & _). destruct (enc_flush o (set_elems (p_elems (en_p e)) e2)) as [e3 r3]. cbn [fst] in T4. injection HY as <- _ <-.
  split; [exact B2|]. rewrite T4. exact TT2.
Qed.
Print Assumptions C73_own.

(** A writer that takes everything, and programs that do not look at results. *)
Definition takes_all : writer := fun _ p => (length p, None).
Definition then_ (f : (ended -> method) -> method) (x : method) : method := f (fun _ => x).
Notation "f ;; x" := (then_ f x) (at level 60, right associativity).
Definition qn (s : string) : name := mkname [] (str s).
Definition start (s : string) : (ended -> method) -> method := MToken (TStart (qn s) []).
Definition stop (s : string) : (ended -> method) -> method := MToken (TEnd (qn s)).
(** A method that writes an element, tries to close the one around it, and writes another. *)
Definition nosy : method := start "in" ;; MToken (TChar (str "x")) ;; stop "in" ;; stop "out" ;; start "b" ;; stop "b" ;; Return true.
Example C73_example :
  exists e g, run_method takes_all (start "out" ;; MElement None nosy ;; stop "out" ;; MClose (fun r => Return (match r with Done => true | _ => false end))) (new_encoder new_dest) = Some (e, Done, g) /\
    total e = str "<out><in>x</in><b></b></out>" /\ map c_ok g = [true; true; true; true; false; true; true; true].
Proof. eexists _, _. split; [vm_compute; reflexivity|]. split; reflexivity. Qed.
(** One that leaves an element open: the end tag for it is still accepted, the one for the element around it is not, and Close fails. *)
Definition forgetful : method := start "in" ;; Return true.
Example C73_failed_example :
  exists e g, run_method takes_all (start "out" ;; MElement (Some (qn "v")) forgetful (fun r => match r with Failed => stop "in" ;; stop "out" ;; MClose (fun r => Return (match r with Done => true | _ => false end)) | _ => Return true end)) (new_encoder new_dest) = Some (e, Failed, g) /\
    total e = str "<out><in></in>" /\ map c_ok g = [true; true; true; false].
Proof. eexists _, _. split; [vm_compute; reflexivity|]. split; reflexivity. Qed.

(** "A value encoded by a method is written as if the caller of the method had encoded it there" is false: with an element in
    the namespace "u" around it, a value whose XMLName has no namespace is written with xmlns="" by the caller, but without by a
    method, and so ends up in the namespace "u". *)
Definition free_type : tenv := [mksd (str "T") [mkfd (str "XMLName") false [] TName]].
Definition free_value (F : floats) : plain := mkplain F free_type 1 2 true (TStruct (str "T")) (VRec [VName (qn "a")]) None.
Definition around (x : method) : method := MToken (TStart (mkname (str "u") (str "out")) []) ;; x.
Theorem C73_namespace_refuted : forall F, exists e1 e2 g1 g2,
  run_method takes_all (around (MPlain (free_value F) ;; Return true)) (new_encoder new_dest) = Some (e1, Done, g1) /\
  run_method takes_all (around (MElement None (MPlain (free_value F) ;; Return true) ;; Return true)) (new_encoder new_dest) = Some (e2, Done, g2) /\
  total e1 = str "<out xmlns=""u""><a xmlns=""""></a>" /\ total e2 = str "<out xmlns=""u""><a></a>".
Proof. intro F. eexists _, _, _, _. split; [vm_compute; reflexivity|]. split; [vm_compute; reflexivity|]. split; reflexivity. Qed.
Print Assumptions C73_namespace_refuted.
