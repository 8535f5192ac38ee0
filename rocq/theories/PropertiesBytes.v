(** Property C74: Marshal and MarshalIndent, and that encoding a value leaves no element open. *)
From Coq Require Import String.
From Coq Require Import ZArith List Bool Lia ZifyBool ZifyNat.
From Verif Require Import Base Utf8 Lexer Escape Decoder Printer PrinterProofs Writer WriterProofs EncoderSpec EncoderProofs GoType Schema TypeInfo Simple Marshal Unmarshal Io Methods PropertiesMethods PropertiesWriter.
Import ListNotations.
Open Scope Z_scope.

(** MarshalIndent (xml/marshal.go:128-143); Marshal (83-93) is the case without prefix and indentation.  [o] is what the buffer does
    with what it is given; [m] encodes the value.  The answer is how it ended and the bytes returned, none ([nil]) after an error. *)
Definition marshal_indent (o : writer) (prefix indent : bytes) (m : M unit) : option (ended * bytes) :=
  match enc_encode o m (enc_indent prefix indent (new_encoder new_dest)) with
  | None => None
  | Some (e1, Done) => let '(e2, r) := enc_close o e1 in Some (r, match r with Done => u_out (b_dst (en_b e2)) | _ => [] end)
  | Some (_, r) => Some (r, [])
  end.
Definition marshal_go (o : writer) (m : M unit) : option (ended * bytes) := marshal_indent o [] [] m.

(** *** A value that was written completely has left no element open *)
Definition even {A} (m : M A) : Prop := forall s cs s' x, 0 <= p_seq s -> m s = (cs, s', Ok x) -> p_elems s' = p_elems s /\ 0 <= p_seq s'.
Lemma bind_split : forall A B (p : M A) (f : A -> M B) s cs s' y, mbind p f s = (cs, s', Ok y) -> exists c1 s1 x c2, p s = (c1, s1, Ok x) /\ f x s1 = (c2, s', Ok y) /\ cs = c1 ++ c2.
Proof. intros A B p f s cs s' y H. unfold mbind in H. destruct (p s) as [[c1 s1] [x|e| |]]; try discriminate. destruct (f x s1) as [[c2 s2] r2] eqn:E. injection H as <- <- ->. exists c1, s1, x, c2. auto. Qed.
Lemma even_bind : forall A B (m : M A) (f : A -> M B), even m -> (forall a, even (f a)) -> even (mbind m f).
Proof. intros A B m f E F s cs s' x Q H. apply bind_split in H. destruct H as (c1 & s1 & a & c2 & H1 & H2 & _). destruct (E _ _ _ _ Q H1) as [E1 Q1]. destruct (F a _ _ _ _ Q1 H2) as [E2 Q2]. split; [congruence|auto]. Qed.
Lemma even_ret : forall A (a : A), even (mret a). Proof. intros A a s cs s' x Q H. injection H as _ <- _. auto. Qed.
Lemma even_emit : forall c, even (emit c). Proof. intros c s cs s' x Q H. injection H as _ <- _. auto. Qed.
Lemma even_fail : forall A m, even (@mfail A m). Proof. intros A m s cs s' x Q H. discriminate. Qed.
Lemma even_panic : forall A, even (@mpanic A). Proof. intros A s cs s' x Q H. discriminate. Qed.
Lemma even_fuel : forall A, even (@mfuel A). Proof. intros A s cs s' x Q H. discriminate. Qed.
Lemma even_get : even mget. Proof. intros s cs s' x Q H. injection H as _ <- _. auto. Qed.
Lemma even_lift : forall A (x : outcome eerr A), even (mlift x). Proof. intros A [a|[m]| |]; [apply even_ret|apply even_fail|apply even_panic|apply even_fuel]. Qed.
Lemma even_indent : forall d, even (write_indent d).
Proof. intros d s cs s' x Q H. destruct (indent_ok d s) as (c & s1 & E & A & B). rewrite E in H. injection H as _ <- _. split; [auto|lia]. Qed.
Lemma end_pops : forall n s cs s' x, write_end n s = (cs, s', Ok x) -> exists e, p_elems s = e :: p_elems s' /\ p_seq s' = p_seq s.
Proof.
  intros n s cs s' x H. unfold write_end in H. destruct (beq (local n) []); [discriminate|]. apply bind_split in H. destruct H as (c1 & s1 & y & c2 & E1 & H & _). injection E1 as <- <- <-.
  destruct (p_elems s) as [|e es] eqn:P; [discriminate|]. destruct (beq (el_name e) []); [discriminate|]. destruct (split_prefixed (local n)) as [p l]. destruct (_ && _ && _); [discriminate|]. destruct (negb _); [discriminate|]. destruct (negb _); [discriminate|].
  destruct (indent_ok (-1) s) as (ci & s1 & E1 & EL & SQ). unfold mbind in H. rewrite E1 in H. cbn in H. injection H as _ <- _. cbn. rewrite EL, P. exists e. auto.
Qed.
(** A start tag, something even, and an end tag. *)
Lemma even_element : forall n a (m : M unit), even m -> even (mdo_ write_start n a ; mdo_ m ; write_end n).
Proof.
  intros n a m E s cs s' x Q H. apply bind_split in H. destruct H as (c1 & s1 & [] & c2 & H1 & H & _). apply bind_split in H. destruct H as (c3 & s3 & [] & c4 & H3 & H & _).
  assert (L : local n <> []) by (intro L; unfold write_start in H1; rewrite (proj2 (beq_eq _ _) L) in H1; discriminate).
  destruct (write_start_ok n a s Q L) as (cs0 & s0 & e & ind & rest & W0 & ES & Q0 & _). rewrite H1 in W0. injection W0 as <- <-. destruct (E _ _ _ _ Q0 H3) as [E3 Q3]. destruct (end_pops _ _ _ _ _ H) as (e' & P & SQ).
  rewrite E3, ES in P. injection P as _ <-. split; [auto|lia].
Qed.
(** The element opened for a parent. *)
Definition opened_for (x : bytes) (e : element) : Prop := x <> [] /\ el_name e <> [] /\ end_matches (mkname [] x) e.
Lemma parent_start : forall x s cs s' r, 0 <= p_seq s -> write_start (mkname [] x) [] s = (cs, s', Ok r) -> exists e, p_elems s' = e :: p_elems s /\ opened_for x e /\ p_seq s' = p_seq s.
Proof.
  intros x s cs s' r Q H. unfold write_start in H. cbn [local] in H. destruct (beq x []) eqn:L; [discriminate|]. apply beq_neq in L.
  apply bind_split in H. destruct H as (c1 & s1 & y & c2 & E & H & _). injection E as <- <- <-. apply bind_split in H. destruct H as (c1 & s1 & y & c3 & E & H & _). injection E as <- <- <-.
  apply bind_split in H. destruct H as (c1 & s1 & y & c4 & E & H & _). unfold space_defined in E. replace (el_ns (new_element (mkname [] x))) with (@nil Z) in * by (unfold new_element; cbn [local space]; destruct (split_prefixed x); reflexivity). cbn [beq] in E. injection E as <- <- <-.
  apply bind_split in H. destruct H as (c1 & s1 & [] & c5 & E & H & _). destruct (indent_ok 1 (with_elems (new_element (mkname [] x) :: p_elems s) s)) as (ci & si & EI & EL & SQ). rewrite EI in E. injection E as <- <-. cbn in EL, SQ.
  apply bind_split in H. destruct H as (c1 & s1 & [] & c6 & E & H & _). injection E as <- <-. apply bind_split in H. destruct H as (c1 & s1 & y & c7 & E & H & _). injection E as <- <- <-.
  assert (TP : top_prefix si = fst (split_prefixed x)) by (unfold top_prefix; rewrite EL; unfold new_element; cbn [local]; destruct (split_prefixed x); reflexivity).
  assert (EX : exists e, p_elems s' = e :: p_elems s /\ e = new_element (mkname [] x) /\ p_seq s' = p_seq si).
  { apply bind_split in H. destruct H as (c1 & s1 & [] & c8 & E & H & _). cbn [write_attrs] in H. unfold mbind, mret, emit in H. injection H as _ <- _.
    cbn [negb andb] in E. rewrite TP in E. destruct (negb (beq (fst (split_prefixed x)) [])).
    - cbn [beq negb andb] in E. unfold mbind, mret, emit, set_prefix in E. cbn [p_elems] in E. rewrite ?EL in E. injection E as _ <-. rewrite ?EL. cbn. eexists. split; [reflexivity|]. split; [|reflexivity]. unfold new_element. cbn [local space]. destruct (split_prefixed x); reflexivity.
    - injection E as _ <-. eexists. split; [exact EL|]. auto. }
  destruct EX as (e & A & -> & B). eexists. split; [exact A|]. split; [|congruence]. pose proof (split_nonempty x L) as SN. unfold opened_for, end_matches, new_element. cbn [local space]. destruct (split_prefixed x) as [p l]. cbn in *. auto 8.
Qed.
Lemma push_opens : forall l s cs s' r, 0 <= p_seq s -> push l s = (cs, s', Ok r) -> exists els, p_elems s' = els ++ p_elems s /\ Forall2 opened_for (rev l) els /\ 0 <= p_seq s'.
Proof.
  induction l as [|x l IH]; cbn [push rev]; intros s cs s' r Q H; [injection H as _ <- _; exists []; auto|]. apply bind_split in H. destruct H as (c1 & s1 & [] & c2 & E & H & _).
  destruct (parent_start _ _ _ _ _ Q E) as (e & P & O & SQ). rewrite <- SQ in Q. destruct (IH _ _ _ _ Q H) as (els & P2 & F & Q2). exists (els ++ [e]). split; [rewrite P2, P, <- app_assoc; reflexivity|]. split; [apply Forall2_app; auto|auto].
Qed.
Lemma close_pops : forall l els s base, Forall2 opened_for l els -> p_elems s = els ++ base -> 0 <= p_seq s -> exists cs s', close_all l s = (cs, s', Ok tt) /\ p_elems s' = base /\ 0 <= p_seq s'.
Proof.
  intros l els s base F. revert s. induction F as [|x e l els (X & N & M) F IH]; intros s P Q; cbn [close_all]; [exists [], s; auto|].
  destruct (write_end_ok (mkname [] x) s e (els ++ base) P N X M) as (cs & s1 & ind & E & P1 & SQ & _). rewrite <- SQ in Q. destruct (IH s1 P1 Q) as (c2 & s2 & E2 & P2 & Q2). unfold mbind. rewrite E, E2. eauto.
Qed.
Lemma shared_first : forall a b, firstn (shared a b) a = firstn (shared a b) b.
Proof. induction a as [|x a IH]; intros [|y b]; cbn [shared]; auto. destruct (beq x y) eqn:E; [|reflexivity]. apply beq_eq in E as <-. cbn [firstn]. f_equal. apply IH. Qed.
(** The parents [stack] are open on top of [base]. *)
Definition parents_open (stack : list bytes) (base : list element) (s : pstate) : Prop := exists els, p_elems s = els ++ base /\ Forall2 opened_for (rev stack) els /\ 0 <= p_seq s.
Lemma open_cut : forall a b base s, parents_open (a ++ b) base s -> exists cs s', close_all (rev b) s = (cs, s', Ok tt) /\ parents_open a base s'.
Proof.
  intros a b base s (els & P & F & Q). rewrite rev_app_distr in F. apply Forall2_app_inv_l in F. destruct F as (e1 & e2 & F1 & F2 & ->). rewrite <- app_assoc in P.
  destruct (close_pops _ _ _ _ F1 P Q) as (cs & s' & E & P' & Q'). exists cs, s'. split; [exact E|]. exists e2. auto.
Qed.
Lemma trim_open : forall stack parents base s cs s' r, parents_open stack base s -> trim stack parents s = (cs, s', Ok r) -> parents_open r base s' /\ r = firstn (length r) parents.
Proof.
  intros stack parents base s cs s' r O H. unfold trim in H. cbn zeta in H. set (k := shared parents stack) in *. rewrite <- (firstn_skipn k stack) in O. destruct (open_cut _ _ _ _ O) as (c1 & s1 & E & O1).
  unfold mbind in H. rewrite E in H. cbn in H. injection H as _ <- <-. split; [exact O1|]. pose proof (shared_first parents stack) as S. fold k in S. rewrite <- S. rewrite firstn_length. destruct (Nat.le_ge_cases k (length parents)); [rewrite Nat.min_l by lia; reflexivity|rewrite Nat.min_r by lia; rewrite firstn_all2 by lia; rewrite firstn_all2 by lia; reflexivity].
Qed.
Lemma even_open : forall A (m : M A) stack base s cs s' x, even m -> parents_open stack base s -> m s = (cs, s', Ok x) -> parents_open stack base s'.
Proof. intros A m stack base s cs s' x E (els & P & F & Q) H. destruct (E _ _ _ _ Q H) as [P' Q']. exists els. split; [congruence|auto]. Qed.
Ltac ev := repeat (first [apply even_ret|apply even_emit|apply even_fail|apply even_panic|apply even_fuel|apply even_get|apply even_lift|apply even_indent|apply even_bind; [|intro]
  |match goal with |- even (if ?b then _ else _) => destruct b | |- even (match ?x with _ => _ end) => destruct x end]).
Lemma fields_open : forall F env value s base, (forall ad t w f, even (value ad t w f)) -> forall fs v addr stack st cs st' r, parents_open stack base st -> struct_fields F env value s fs v addr stack st = (cs, st', Ok r) -> parents_open r base st'.
Proof.
  intros F env value s base V. induction fs as [|f fs IH]; intros v addr stack st cs st' r O H; cbn [struct_fields] in H; [injection H as _ <- <-; exact O|]. destruct (g_attr (fi_flags f)); [eapply IH; eauto|].
  apply bind_split in H. destruct H as (c1 & s1 & x & c2 & E & H & _). assert (s1 = st) as -> by (unfold mlift in E; destruct (field_at _ _ _ _ _) as [?|[?]| |]; try discriminate; injection E as _ <- _; reflexivity).
  destruct x as [[[t w] ad]|]; [|eapply IH; eauto]. apply bind_split in H. destruct H as (c3 & s3 & stack3 & c4 & E3 & H & _). eapply IH; [|exact H]. clear H IH E.
  destruct (_ || _) in E3.
  { apply bind_split in E3. destruct E3 as (c5 & s5 & k5 & c6 & E5 & E3 & _). destruct (trim_open _ _ _ _ _ _ _ O E5) as [O5 _]. apply bind_split in E3. destruct E3 as (c7 & s7 & [] & c8 & E7 & E3 & _). injection E3 as _ <- <-. refine (even_open _ _ _ _ _ _ _ _ _ O5 E7). ev. }
  destruct (mode_eqb _ m_comment) in E3.
  { apply bind_split in E3. destruct E3 as (c5 & s5 & k5 & c6 & E5 & E3 & _). destruct (trim_open _ _ _ _ _ _ _ O E5) as [O5 _]. apply bind_split in E3. destruct E3 as (c7 & s7 & [] & c8 & E7 & E3 & _). injection E3 as _ <- <-. refine (even_open _ _ _ _ _ _ _ _ _ O5 E7). unfold emit_comment. ev. }
  destruct (mode_eqb _ m_innerxml) in E3.
  { apply bind_split in E3. destruct E3 as (c7 & s7 & [] & c8 & E7 & E3 & _). injection E3 as _ <- <-. refine (even_open _ _ _ _ _ _ _ _ _ O E7). destruct (raw_xml t w); [ev|apply V]. }
  destruct (_ || _) in E3.
  - apply bind_split in E3. destruct E3 as (c5 & s5 & k5 & c6 & E5 & E3 & _). destruct (trim_open _ _ _ _ _ _ _ O E5) as [O5 K5]. apply bind_split in E3. destruct E3 as (c7 & s7 & k7 & c8 & E7 & E3 & _).
    apply bind_split in E3. destruct E3 as (c9 & s9 & [] & c10 & E9 & E3 & _). injection E3 as _ <- <-. refine (even_open _ _ _ _ _ _ _ _ (V _ _ _ _) _ E9).
    destruct (_ && _) in E7; [|injection E7 as _ <- <-; exact O5]. apply bind_split in E7. destruct E7 as (c11 & s11 & [] & c12 & E11 & E7 & _). injection E7 as _ <- <-.
    destruct O5 as (els & P & FA & Q). destruct (push_opens _ _ _ _ _ Q E11) as (els2 & P2 & F2 & Q2). exists (els2 ++ els). split; [rewrite P2, P, app_assoc; reflexivity|]. split; [|auto].
    replace (fi_parents f) with (k5 ++ skipn (length k5) (fi_parents f)) by (rewrite K5 at 1; rewrite <- (firstn_skipn (length k5) (fi_parents f)) at 3; reflexivity). rewrite rev_app_distr. apply Forall2_app; auto.
  - apply bind_split in E3. destruct E3 as (c7 & s7 & [] & c8 & E7 & E3 & _). injection E3 as _ <- <-. exact (even_open _ _ _ _ _ _ _ _ (V _ _ _ _) O E7).
Qed.
Lemma even_struct : forall F env value s ti v addr, (forall ad t w f, even (value ad t w f)) -> even (marshal_struct F env value s ti v addr).
Proof.
  intros F env value s ti v addr V st cs st' x Q H. unfold marshal_struct in H. apply bind_split in H. destruct H as (c1 & s1 & stack & c2 & E & H & _).
  assert (O : parents_open stack (p_elems st) s1) by (eapply fields_open; [exact V| |exact E]; exists []; split; [reflexivity|split; [constructor|exact Q]]).
  destruct (open_cut [] stack _ _ O) as (c3 & s3 & E3 & (els & P & F3 & Q3)). inversion F3. subst els. unfold ignore in H. rewrite E3 in H. injection H as _ <- _. auto.
Qed.
Lemma even_value : forall F env ek k addr t v fi tmpl, even (marshal_value F env ek k addr t v fi tmpl).
Proof.
  intros F env ek. induction k as [|k IH]; intros addr t v fi tmpl; cbn [marshal_value]; [ev|].
  destruct (match tmpl with Some (n, _, _) => beq (local n) [] | None => false end); [ev|]. destruct (match fi with Some f => _ | None => false end); [ev|]. destruct (drill t v addr) as [[[t1 v1] a1]|]; [|ev].
  assert (E : even (mdo ti <- match info_of env ek t1 with Ok ti => mret ti | Err _ => mfail (str "xml: bad type") | Panic => mpanic | OutOfFuel => mfuel end ;
                mdo n <- mlift (start_name env ti t1 v1 a1 fi tmpl) ;
                let given := match tmpl with Some (_, a, cap) => if (cap <? ti_nattrs ti)%nat then [] else a | None => [] end in
                mdo own <- mlift match t1 with TStruct s => marshal_attrs F env s (ti_fields ti) v1 a1 | _ => Ok [] end ;
                mdo st <- mget ;
                mdo_ write_start n (given ++ own ++ reset_default ti n (p_elems st)) ;
                mdo_ match t1 with
                     | TStruct s => marshal_struct F env (fun ad t w f => marshal_value F env ek k ad t w (Some f) None) s ti v1 a1
                     | TName => mret tt
                     | _ => match simple_text F t1 v1 with Some s => emit (esc_writes EAttr s) | None => mlift unsupported end
                     end ;
                write_end n)).
  { apply even_bind; [ev|intro ti]. apply even_bind; [ev|intro n]. cbn zeta. apply even_bind; [ev|intro own]. apply even_bind; [ev|intro st0]. apply even_element.
    destruct t1; try solve [ev]. apply even_struct. intros; apply IH. }
  destruct t1; try exact E; [|ev]. destruct v1; try solve [ev]. clear E. induction l as [|w l IHl]; cbn [each_value]; [ev|]. apply even_bind; [apply IH|intros _; exact IHl].
Qed.
Lemma even_plain : forall v, even (plain_program v).
Proof. intros [F env ek k addr t v start|n a text]; cbn [plain_program]; [apply even_value|apply even_element; ev]. Qed.

(** C74. Whatever the value and its type: if it is encoded without an error, all elements it started are closed. *)
Theorem C74_closed : forall v s cs s', 0 <= p_seq s -> plain_program v s = (cs, s', Ok tt) -> p_elems s' = p_elems s.
Proof. intros v s cs s' Q H. exact (proj1 (even_plain v _ _ _ _ Q H)). Qed.
Print Assumptions C74_closed.
(** So the Close of MarshalIndent never fails: it returns an error exactly if encoding the value does, no bytes then, and otherwise
    exactly what encoding writes with this indentation. *)
Theorem C74_marshal : forall o prefix indent v, willing o -> let run := plain_program v (mkp 0 indent prefix 0 false false []) in snd run <> OutOfFuel ->
  exists r b, marshal_indent o prefix indent (plain_program v) = Some (r, b) /\
    (r = Done <-> snd run = Ok tt) /\ (r = Crashed <-> snd run = Panic) /\ b = (match r with Done => concat (fst (fst run)) | _ => [] end).
Proof.
  intros o prefix indent v W run NF. unfold marshal_indent, enc_encode. set (e0 := enc_indent prefix indent (new_encoder new_dest)).
  assert (T0 : etook e0 []). { destruct (new_inv new_dest ltac:(reflexivity)) as (_ & _ & _ & T & _). exact T. }
  assert (F0 : fine e0) by (repeat split).
  destruct (run_step_took o (plain_program v) e0 [] (willing_obeys _ W) T0) as (e1 & r & R & T1 & P1 & D & CR); [exact NF|]. rewrite R.
  destruct (run_step_fine _ _ _ _ _ W F0 R) as [F1 D1]. change (en_p e0) with (mkp 0 indent prefix 0 false false []) in *. fold run in T1, P1, D, CR, D1.
  assert (DD : r = Done <-> snd run = Ok tt) by (rewrite D1; split; [intros [[] X]; exact X|eauto]).
  assert (CC : r = Crashed <-> snd run = Panic).
  { split; [apply CR|]. intro X. unfold run_step in R. cbn [en_p] in R. change (en_p e0) with (mkp 0 indent prefix 0 false false []) in R. fold run in R. destruct run as [[cs s] x]. cbn in X. subst x. destruct (p_writes _ _ _); [|discriminate]. injection R as _ <-. reflexivity. }
  destruct r; [|exists Failed, []; auto|exists Crashed, []; auto].
  assert (X : snd run = Ok tt) by (apply DD; reflexivity). destruct (enc_flush_fine o e1 W F1) as [F2 D2]. destruct (enc_flush o e1) as [e2 r2] eqn:FL. cbn in F2, D2. subst r2.
  assert (EL : p_elems (en_p e2) = []). { replace (en_p e2) with (en_p e1) by (injection FL as <-; reflexivity). rewrite P1. unfold run in *. destruct (plain_program v _) as [[cs s] x] eqn:E. cbn in X |- *. subst x. refine (C74_closed v _ cs s _ E). cbn. lia. }
  destruct T1 as (T1 & TA & TB). cbn [app] in T1. destruct (flush_took o _ _ (willing_obeys _ W) T1) as [T2 B2]. injection FL as FL FB.
  assert (B2' : b_err (b_flush o (en_b e1)) = None) by (destruct (b_err (b_flush o (en_b e1))); [discriminate|reflexivity]). specialize (B2 B2').
  destruct F2 as (C2 & _ & _). unfold enc_close. rewrite C2, EL.
  assert (EB : en_b e2 = b_flush o (en_b e1)) by (rewrite <- FL; reflexivity). assert (FF : b_flush o (en_b e2) = en_b e2) by (rewrite EB; unfold b_flush at 1; rewrite B2', B2; reflexivity).
  rewrite FF. replace (b_err (en_b e2)) with (@None werr) by (rewrite EB; auto). exists Done. eexists. split; [reflexivity|]. split; [exact DD|]. split; [exact CC|].
  cbn. rewrite EB. destruct T2 as (_ & [(_ & T2 & _)|(Z & _)]); [|congruence]. rewrite B2, app_nil_r in T2. exact T2.
Qed.
Print Assumptions C74_marshal.

(** WriteXML writes what MarshalIndent returns, after the header. *)
Theorem C74_write : forall o indent v b u n r back, willing o -> marshal_indent o [] indent (plain_program v) = Some (Done, b) ->
  write_xml o (plain_program v) indent true pool_new = Some (u, n, r, back) -> r = Done /\ u_out u = xml_header ++ b.
Proof.
  intros o indent v b u n r back W H X.
  assert (NF : result (plain_program v) indent <> OutOfFuel).
  { intro NF. unfold marshal_indent, enc_encode, run_step in H. change (en_p (enc_indent [] indent (new_encoder new_dest))) with (mkp 0 indent [] 0 false false []) in H. unfold result in NF. destruct (plain_program v _) as [[cs s] x]. cbn in NF. subst x. destruct (p_writes _ _ _); discriminate. }
  destruct (C74_marshal o [] indent v W NF) as (r1 & b1 & H1 & D & _ & B). rewrite H in H1. injection H1 as <- <-. destruct D as [D _]. specialize (D eq_refl).
  assert (RD : r = Done) by (apply (write_xml_willing _ _ _ _ _ _ _ _ _ W X); exists tt; exact D). split; [exact RD|].
  destruct (write_xml_ok o (plain_program v) indent true pool_new (willing_obeys _ W) NF) as (u' & n' & r' & back' & A & _ & _ & DOC & _). rewrite X in A. injection A as <- <- <- <-. rewrite B. exact (proj1 (DOC RD)).
Qed.
Print Assumptions C74_write.
(** A value with MarshalXML: if Encode succeeds, so does Close. *)
Theorem C74_method : forall o x e g, willing o -> by_token x -> encode_method o None x (new_encoder new_dest) = Some (e, Done, g) -> snd (enc_close o e) = Done /\ balanced g [] /\ u_out (b_dst (en_b (fst (enc_close o e)))) = texts g.
Proof.
  intros o x e g W BT H. destruct (C73_own o new_dest (Return true) _ Done [] None x e g W ltac:(reflexivity) Logic.I BT eq_refl H) as [B T]. destruct (C73_outer _ _ _ _ _ _ _ H) as [_ E]. specialize (E eq_refl). cbn in E.
  assert (FE : fine e /\ etook e (total e)).
  { assert (BT' : by_token (MElement None x (fun _ => Return true))) by (split; [exact BT|intro; exact Logic.I]).
    assert (R : run_method o (MElement None x (fun _ => Return true)) (new_encoder new_dest) = Some (e, Done, g ++ [])) by (cbn [run_method]; unfold encode_method in H; rewrite H; reflexivity).
    assert (I : calls_inv [] (new_encoder new_dest) [] []). { destruct (new_inv new_dest ltac:(reflexivity)) as (B0 & F2 & F & T0 & Q). split; [exact B0|]. split; [exists []; split; [reflexivity|constructor]|]. auto. }
    destruct (run_calls o W _ BT' [] [] _ [] _ _ _ Logic.I I R) as (os & (_ & _ & F & T0 & _) & _). auto. }
  destruct FE as [(C & F) TK]. destruct F as [EE EB]. split; [|split; [exact B|]].
  - unfold enc_close. rewrite C, E. cbn [snd]. rewrite (flush_willing o _ W EB). reflexivity.
  - unfold enc_close. rewrite C. cbn [fst]. destruct TK as (TK & _). destruct (flush_took o _ _ (willing_obeys _ W) TK) as [T2 B2]. pose proof (flush_willing o _ W EB) as FW. specialize (B2 FW).
    destruct T2 as (_ & [(_ & T2 & _)|(Z & _)]); [|congruence]. rewrite B2, app_nil_r in T2. cbn in T. rewrite T in T2. cbn. cbn in T2. exact T2.
Qed.
Print Assumptions C74_method.

(** A type with two fields in the element a > b, one in a > c and one in no parent, laid out; a text method that fails. *)
Definition nest_type : tenv := [mksd (str "T") [mkfd (str "X") false (str "a>b>x") TString; mkfd (str "Y") false (str "a>b>y") TString; mkfd (str "Z") false (str "a>c>z") TString; mkfd (str "W") false (str "w") TString]].
Definition nest_value (F : floats) : plain := mkplain F nest_type 1 3 true (TStruct (str "T")) (VRec [VStr (str "1"); VStr (str "2"); VStr (str "3"); VStr (str "4")]) None.
Example C74_example : forall F, marshal_go takes_all (plain_program (nest_value F)) = Some (Done, str "<T><a><b><x>1</x><y>2</y></b><c><z>3</z></c></a><w>4</w></T>") /\
  marshal_indent takes_all (str "> ") (str " ") (plain_program (mktext (qn "t") [] (Some (str "a<b")))) = Some (Done, str "> <t>a&lt;b</t>") /\
  marshal_go takes_all (plain_program (mktext (qn "t") [] None)) = Some (Failed, []).
Proof. intro F. split; [vm_compute; reflexivity|]. split; vm_compute; reflexivity. Qed.

(** A value with MarshalText is written as EncodeToken writes its start element, its text as character data, and its end element. *)
Definition three (n : name) (a : list attr) (x : bytes) (b : nat) : M unit := mdo_ encode_token b (TStart n a) ; mdo_ encode_token b (TChar x) ; encode_token b (TEnd n).
Theorem C74_text : forall n a x b s, plain_program (mktext n a (Some x)) s = three n a x b s.
Proof. reflexivity. Qed.
Print Assumptions C74_text.
(** A struct whose only field holds character data is written the same way. *)
Definition data_type : tenv := [mksd (str "T") [mkfd (str "X") false (str ",chardata") TString]].
Definition as_data (F : floats) (x : bytes) : plain := mkplain F data_type 1 3 true (TStruct (str "T")) (VRec [VStr x]) None.
Example C74_text_example : forall F, let x := str "a<b" ++ [10; 13; 9] ++ str "c" in let out := str "<T>a&lt;b" ++ [10] ++ str "&#xD;" ++ [9] ++ str "c</T>" in
  marshal_go takes_all (plain_program (mktext (qn "T") [] (Some x))) = Some (Done, out) /\ marshal_go takes_all (plain_program (as_data F x)) = Some (Done, out).
Proof. intro F. split; vm_compute; reflexivity. Qed.
