(** Names that were read have no colon in their local part. *)
From Coq Require Import String.
From Coq Require Import ZArith List Bool Lia ZifyBool ZifyNat.
From Verif Require Import Base Utf8 Lexer Escape Decoder DecoderProofs Printer EncoderProofs NsProofs GoType TypeInfo TypeInfoSpec TypeInfoProofs Simple Unmarshal ValueSpec UnmarshalProofs MarshalProofs.
Import ListNotations.
Open Scope Z_scope.

Lemma count_none : forall s, count_byte 58 s = O -> ~ In 58 s.
Proof.
  unfold count_byte. induction s as [|c s IH]; intros H; [intros []|]. cbn [filter] in H. destruct (58 =? c) eqn:E; [discriminate|]. intros [I|I]; [lia|exact (IH H I)].
Qed.
Lemma count_app : forall a b, count_byte 58 (a ++ b) = (count_byte 58 a + count_byte 58 b)%nat.
Proof. intros a b. unfold count_byte. rewrite filter_app, app_length. reflexivity. Qed.
Lemma nsname_local : forall inp n rest, get_nsname inp = inl (n, rest) -> ~ In 58 (local n).
Proof.
  intros inp n rest H. unfold get_nsname in H. destruct (get_name inp) as [[s r]|]; [|discriminate]. destruct (split_ns s) as [n0|] eqn:S; [|discriminate]. injection H as <- <-. unfold split_ns in S.
  destruct (count_byte 58 s) as [|[|]] eqn:C; [injection S as <-; exact (count_none _ C)| |discriminate].
  destruct (index_byte 58 s) as [i|] eqn:I; [|discriminate]. destruct (_ || _); [discriminate|]. injection S as <-. change (~ In 58 (skipn (Datatypes.S i) s)).
  apply index_byte_some in I as (E & _). revert E. generalize (skipn (S i) s). intros q. generalize (firstn i s). intros p ->. rewrite count_app in C. apply count_none. change (58 :: q) with ([58] ++ q) in C. rewrite count_app in C. change (count_byte 58 [58]) with 1%nat in C. lia.
Qed.
Lemma raw_start_local : forall inp n a c rest, raw_token inp = ROk (TStart n a, c) rest -> ~ In 58 (local n).
Proof.
  intros [|b t0] n a c rest H; [discriminate|]. unfold raw_token in H. destruct (b =? 60); cbn [negb] in H.
  2: { destruct (text None false (b :: t0)); discriminate. }
  destruct t0 as [|c0 t']; [discriminate|]. destruct (c0 =? 47).
  { destruct (get_nsname t') as [[m r]|[e|]]; try discriminate. destruct (skip_space r) as [|x r']; [discriminate|]. destruct (x =? 62); discriminate. }
  destruct (c0 =? 63).
  { destruct (get_name t') as [[m r]|[e|]]; try discriminate. destruct (pi_loop 0 [] (skip_space r)); try discriminate. destruct (if beq m _ then _ else _); discriminate. }
  destruct (c0 =? 33).
  { destruct t' as [|d t'']; [discriminate|]. destruct (d =? 45).
    { destruct t'' as [|e t3]; [discriminate|]. destruct (e =? 45); [|discriminate]. destruct (comment_loop 0 0 [] t3); discriminate. }
    destruct (d =? 91). { destruct (expect (str "CDATA[") t'') as [u r|e|]; try discriminate. destruct (text None true r); discriminate. }
    destruct (directive_loop _ _ _ _ _ _); discriminate. }
  destruct (get_nsname (c0 :: t')) as [[m r]|[e|]] eqn:E; try discriminate. apply nsname_local in E.
  destruct (attrs_loop (S (length r)) [] r) as [[a' em] r'|e|]; try discriminate. injection H as <- <- <- <-. exact E.
Qed.
Lemma translate_local : forall m n b, local (translate m n b) = local n.
Proof.
  intros m n b. unfold translate. repeat match goal with |- context [if ?c then _ else _] => destruct c end; try reflexivity; cbn [space local]; destruct (m _); reflexivity.
Qed.
Lemma start_local : forall d n a d', next_token d = TokOk (TStart n a) d' -> ~ In 58 (local n).
Proof.
  intros d n a d' H. unfold next_token in H. destruct (raw_step d) as [[(t, d0)|(e, d0)]|] eqn:R; [| |discriminate].
  2: { destruct e; try discriminate. destruct (d_stk d0); discriminate. }
  destruct t as [m b|m| | | |]; try discriminate.
  - destruct (declare b _) as [(stk, ns)|]; [|discriminate]. injection H as <- _ _. rewrite translate_local. unfold raw_step in R.
    destruct (d_err d); [discriminate|]. destruct (d_close d); [discriminate|]. destruct (raw_token (d_inp d)) as [(t, c) rest|e|] eqn:E; try discriminate. injection R as -> _. exact (raw_start_local _ _ _ _ _ E).
  - destruct (pop_element _ _ _) as [((n', stk), ns)|]; discriminate.
Qed.

(** *** Reading keeps names plain *)
Lemma plain_zero : forall env k t, plain_names (zero k env t) = true.
Proof.
  intros env. induction k as [|k IH]; intros t; destruct t; try reflexivity. cbn [zero plain_names]. rewrite forallb_forall. intros x I. apply in_map_iff in I as (f & <- & _). apply IH.
Qed.
Definition keeps {A} (f : outcome uerr (gval * A)) : Prop := forall v a, f = Ok (v, a) -> plain_names v = true.
Lemma forallb_update : forall (l : list gval) x w, forallb plain_names l = true -> plain_names w = true -> forallb plain_names (firstn x l ++ w :: skipn (S x) l) = true.
Proof.
  intros l x w H W. rewrite forallb_app. cbn [forallb]. rewrite W. rewrite forallb_forall in H. apply andb_true_iff. split; [|apply andb_true_iff; split; [reflexivity|]]; apply forallb_forall; intros y I; apply H.
  - rewrite <- (firstn_skipn x l). apply in_or_app. left. exact I.
  - rewrite <- (firstn_skipn (S x) l). apply in_or_app. right. exact I.
Qed.
Lemma update_plain : forall ek env {A} (f : gtype -> gval -> outcome uerr (gval * A)), (forall t w, plain_names w = true -> keeps (f t w)) ->
  forall idx s v, plain_names v = true -> keeps (update_at ek env s idx v f).
Proof.
  intros ek env A f H. induction idx as [|x rest IH]; intros s v P v' a E; [discriminate|]. cbn [update_at] in E. destruct v; try discriminate.
  destruct (nth_error (fields_of env s) x) as [fd|]; [|discriminate]. destruct (nth_error l x) as [w|] eqn:N; [|discriminate].
  pose proof (forallb_nth _ _ _ _ P N) as Pw.
  match type of E with bind ?y _ = _ => destruct y as [(w', a')| | |] eqn:Y end; try discriminate. cbn [bind] in E. injection E as <- <-.
  cbn [plain_names] in *. apply forallb_update; [exact P|]. destruct rest as [|y rest]; [exact (H _ _ Pw _ _ Y)|].
  destruct (fd_type fd) as [| | | | | | |t| |s'| |]; try discriminate; [|exact (IH _ _ Pw _ _ Y)]. destruct t as [| | | | | | | | |s'| |]; try discriminate.
  destruct w; try discriminate; match type of Y with bind ?z _ = _ => destruct z as [(u', a2)| | |] eqn:Z0 end; try discriminate; cbn [bind] in Y; injection Y as <- <-; cbn [plain_names].
  - exact (IH _ _ (plain_zero env ek (TStruct s')) _ _ Z0).
  - exact (IH _ _ Pw _ _ Z0).
Qed.
Definition flat (v : gval) : bool := match v with VName _ => false | VPtr _ => false | VList _ => false | VRec _ => false | _ => true end.
Lemma flat_plain : forall v, flat v = true -> plain_names v = true.
Proof. destruct v; try reflexivity; discriminate. Qed.
Lemma copy_flat : forall F t s v, copy_value F t s = Ok v -> plain_names v = true.
Proof.
  assert (K : forall F t s v, copy_simple F t s = Ok v -> plain_names v = true).
  { intros F t s v H. destruct t; try discriminate; cbn [copy_simple] in H; unfold need in *; repeat match type of H with
      | context [if ?c then _ else _] => destruct c | context [match ?c with _ => _ end] => destruct c end; try discriminate; injection H as <-; reflexivity. }
  intros F t s v H. destruct t; try exact (K _ _ _ _ H). cbn [copy_value] in H. destruct (copy_simple F t s) eqn:E; try discriminate. injection H as <-. exact (K _ _ _ _ E).
Qed.
Lemma method_flat : forall F t s v, method_value F t s = Ok v -> plain_names v = true.
Proof.
  intros F t s v H. unfold method_value, need in H. destruct t; repeat match type of H with
    | context [if ?c then _ else _] => destruct c | context [match ?c with _ => _ end] => destruct c end; try discriminate; injection H as <-; reflexivity.
Qed.
Lemma attr_plain : forall F env ek t v a w, plain_names v = true -> unmarshal_attr F env ek t v a = Ok w -> plain_names w = true.
Proof.
  intros F env ek. induction t; intros v a w P H; cbn [unmarshal_attr has_method] in H; try exact (copy_flat _ _ _ _ H); try exact (method_flat _ _ _ _ H).
  - match type of H with bind ?c _ = _ => destruct c as [w'| | |] eqn:E end; try discriminate. injection H as <-. cbn [plain_names].
    destruct (has_method t) eqn:M; [exact (method_flat _ _ _ _ E)|]. destruct t as [| | | | | | |t|t| | |]; try exact (copy_flat _ _ _ _ E); [| |injection E as <-; reflexivity].
    { destruct (has_method t); [|exact (copy_flat _ _ _ _ E)]. match type of E with bind ?c _ = _ => destruct c as [x| | |] eqn:MV end; try discriminate. cbn [bind] in E.
      destruct (match v with VPtr w => w | _ => zero_of env ek (TPtr t) end); try discriminate. injection E as <-. exact (method_flat _ _ _ _ MV). }
    assert (PV : plain_names (match v with VPtr w => w | _ => zero_of env ek (TSlice t) end) = true) by (destruct v; try apply plain_zero; exact P).
    destruct (match v with VPtr w => w | _ => zero_of env ek (TSlice t) end) as [| | | | | |l| | |]; try discriminate.
    specialize (IHt (VList []) a). cbn [unmarshal_attr] in IHt. destruct (unmarshal_attr F env ek t (zero_of env ek t) a) as [x| | |]; try discriminate. cbn [bind] in *. injection E as <-.
    specialize (IHt _ eq_refl eq_refl). cbn [app plain_names] in *. rewrite forallb_app. rewrite PV. exact IHt.
  - destruct v as [| | | | | |l| | |]; try discriminate. destruct (unmarshal_attr F env ek t (zero_of env ek t) a) as [x| | |] eqn:E; try discriminate. injection H as <-.
    apply IHt in E; [|apply plain_zero]. cbn [plain_names] in *. rewrite forallb_app, P. cbn [forallb]. rewrite E. reflexivity.
  - injection H as <-. reflexivity.
Qed.
Section Reading.
Variables (F : floats) (env : tenv) (ek : nat).
Lemma attrs_plain : forall ti s al v w, plain_names v = true -> set_attrs F env ek ti s v al = Ok w -> plain_names w = true.
Proof.
  intros ti s. induction al as [|a al IH]; intros v w P H; [injection H as <-; exact P|]. cbn [set_attrs] in H. destruct (attr_field ti (aname a)) as [f|]; [|exact (IH _ _ P H)].
  match type of H with bind ?c _ = _ => destruct c as [(w', [])| | |] eqn:E end; try discriminate. cbn [bind] in H. refine (IH _ _ _ H). refine (update_plain _ _ _ _ _ _ _ P _ _ E).
  intros t u Pu v0 [] E0. unfold with_unit in E0. destruct (unmarshal_attr F env ek t u a) eqn:E1; try discriminate. injection E0 as <-. exact (attr_plain _ _ _ _ _ _ _ Pu E1).
Qed.
Definition child_plain (c : child_fun) : Prop := forall v n a d, ~ In 58 (local n) -> plain_names v = true -> keeps (c v n a d).
Lemma content_plain : forall c, child_plain c -> forall k v dt cm d w dt' cm' d1 d2, plain_names v = true -> content_loop k c v dt cm d = Ok (w, dt', cm', d1, d2) -> plain_names w = true.
Proof.
  intros c C. induction k as [|k IH]; intros v dt cm d w dt' cm' d1 d2 P H; [discriminate|]. cbn [content_loop] in H. destruct (next_token d) as [t d'|e d'|] eqn:N; try discriminate.
  destruct t; try exact (IH _ _ _ _ _ _ _ _ _ P H); [|injection H as <- _ _ _ _; exact P].
  destruct (c v n a d') as [(v', d'')| | |] eqn:E; try discriminate. cbn [bind] in H. exact (IH _ _ _ _ _ _ _ _ _ (C _ _ _ _ (start_local _ _ _ _ N) P _ _ E) H).
Qed.
Lemma skip_plain : forall k, child_plain (skip_child k).
Proof. intros k v n a d _ P w d' E. unfold skip_child in E. destruct (skip k d); try discriminate. injection E as <- <-. exact P. Qed.
Definition reader_plain (r : reader) : Prop := forall t v n a d, ~ In 58 (local n) -> plain_names v = true -> keeps (r t v n a d).
Lemma path_plain : forall k read s fs, reader_plain read -> forall q ps v n a d w, ~ In 58 (local n) -> plain_names v = true -> path_child env ek q k read s fs ps v n a d = Ok (Some w) -> plain_names (fst w) = true.
Proof.
  intros k read s fs R. induction q as [|q IH]; intros ps v n a d w L P H; [discriminate|]. cbn [path_child] in H. destruct (find_path fs ps n) as [f|ps'|]; try discriminate.
  - match type of H with bind ?c _ = _ => destruct c as [(w', d')| | |] eqn:E end; try discriminate. injection H as <-. refine (update_plain _ _ _ _ _ _ _ P _ _ E). intros t u Pu. apply R; auto.
  - match type of H with bind ?c _ = _ => destruct c as [((((w', dt), cm), d1), d2)| | |] eqn:E end; try discriminate. injection H as <-. refine (content_plain _ _ _ _ _ _ _ _ _ _ _ _ P E).
    intros v1 n1 a1 d1' L1 P1 w1 d2' E1. specialize (IH ps' v1 n1 a1 d1'). destruct (path_child env ek q k read s fs ps' v1 n1 a1 d1') as [[y|]| | |]; try discriminate; cbn [bind] in E1.
    + injection E1 as ->. exact (IH _ L1 P1 eq_refl).
    + exact (skip_plain k _ _ _ _ L1 P1 _ _ E1).
Qed.
Lemma touch_plain : forall s f v w, plain_names v = true -> touch env ek s f v = Ok w -> plain_names w = true.
Proof.
  intros s [f|] v w P H; [|injection H as <-; exact P]. cbn [touch] in H. match type of H with bind ?c _ = _ => destruct c as [(w', [])| | |] eqn:E end; try discriminate. injection H as <-.
  refine (update_plain _ _ _ _ _ _ _ P _ _ E). intros t u Pu v0 a0 E0. injection E0 as <- _. exact Pu.
Qed.
Lemma colonless_plain : forall n, ~ In 58 (local n) -> plain_names (VName n) = true.
Proof. intros n H. cbn [plain_names]. unfold split_prefixed. rewrite (proj2 (index_byte_none 58 (local n)) H). reflexivity. Qed.
Lemma body_plain : forall read k, reader_plain read -> forall t v n a d, ~ In 58 (local n) -> plain_names v = true -> keeps (unmarshal_body F env ek read k t v n a d).
Proof.
  intros read k R t v n a d L P w d' H. unfold unmarshal_body in H.
  assert (SIMPLE : (do r <- content_loop k (skip_child k) v [] [] d ; let '(_, data, _, _, d') := r in do x <- copy_value F t data ; Ok (x, d')) = Ok (w, d') -> plain_names w = true).
  { intros X. destruct (content_loop k (skip_child k) v [] [] d) as [((((v', dt), cm), d1), d2)| | |]; try discriminate. cbn [bind] in X. destruct (copy_value F t dt) as [x| | |] eqn:C; try discriminate. injection X as <- _. exact (copy_flat _ _ _ _ C). }
  destruct t as [| | | | | | | |t|s| |]; try exact (SIMPLE H); try discriminate.
  - destruct v; try discriminate. destruct (read t (zero_of env ek t) n a d) as [(x, d'')| | |] eqn:E; try discriminate. injection H as <- _. cbn [plain_names] in *. rewrite forallb_app, P. cbn [forallb].
    rewrite (R _ _ _ _ _ L (plain_zero env ek t) _ _ E). reflexivity.
  - destruct (type_info ek env s) as [ti| | |]; try discriminate.
    match type of H with bind ?c _ = _ => destruct c as [v1| | |] eqn:E1 end; try discriminate. cbn [bind] in H.
    assert (P1 : plain_names v1 = true).
    { destruct (ti_xmlname ti) as [x|]; [|injection E1 as <-; exact P]. match type of E1 with (if ?c then _ else _) = _ => destruct c; [discriminate|] end.
      match type of E1 with bind ?c _ = _ => destruct c as [(w', [])| | |] eqn:E end; try discriminate. injection E1 as <-. refine (update_plain _ _ _ _ _ _ _ P _ _ E).
      intros t u Pu v0 a0 E0. injection E0 as <- _. destruct t; try exact Pu. apply colonless_plain. exact L. }
    destruct (set_attrs F env ek ti s v1 a) as [v2| | |] eqn:E2; try discriminate. cbn [bind] in H. apply (attrs_plain _ _ _ _ _ P1) in E2. clear E1 P1 P v1.
    do 4 (match type of H with bind (touch _ _ _ _ ?v) _ = _ => match type of H with bind ?c _ = _ => let E := fresh "E" in destruct c as [?v| | |] eqn:E; [|discriminate|discriminate|discriminate]; cbn [bind] in H; apply touch_plain in E; [|assumption]; clear dependent v end end).
    match type of H with bind ?c _ = _ => destruct c as [((((v7, dt), cm), d1), d2)| | |] eqn:E7 end; try discriminate. cbn [bind] in H. apply content_plain in E7; [|clear H|assumption].
    2: { intros vv n1 a1 d1' L1 P1 w1 d2' X. destruct (path_child env ek _ k read s (ti_fields ti) [] vv n1 a1 d1') as [[y|]| | |] eqn:PC; try discriminate; cbn [bind] in X.
      - injection X as ->. exact (path_plain _ _ _ _ R _ _ _ _ _ _ _ L1 P1 PC).
      - destruct (first_mode is_any (ti_fields ti)); [|exact (skip_plain k _ _ _ _ L1 P1 _ _ X)]. refine (update_plain _ _ _ _ _ _ _ P1 _ _ X). intros t u Pu. apply R; auto. }
    match type of H with bind ?c _ = _ => destruct c as [v8| | |] eqn:E8 end; try discriminate. cbn [bind] in H.
    assert (P8 : plain_names v8 = true).
    { destruct (first_mode is_data (ti_fields ti)); [|injection E8 as <-; exact E7]. match type of E8 with bind ?c _ = _ => destruct c as [(w', [])| | |] eqn:E end; try discriminate. injection E8 as <-.
      refine (update_plain _ _ _ _ _ _ _ E7 _ _ E). intros t u Pu vv [] EE. unfold with_unit in EE. destruct (copy_value F t dt) eqn:CV; try discriminate. injection EE as <-. exact (copy_flat _ _ _ _ CV). }
    match type of H with bind ?c _ = _ => destruct c as [v9| | |] eqn:E9 end; try discriminate. cbn [bind] in H.
    assert (P9 : plain_names v9 = true).
    { destruct (first_mode is_comment (ti_fields ti)); [|injection E9 as <-; exact P8]. match type of E9 with bind ?c _ = _ => destruct c as [(w', [])| | |] eqn:E end; try discriminate. injection E9 as <-.
      refine (update_plain _ _ _ _ _ _ _ P8 _ _ E). intros t u Pu vv a0 EE. destruct t; try discriminate EE; injection EE as <- _; try exact Pu. reflexivity. }
    match type of H with bind ?c _ = _ => destruct c as [va| | |] eqn:EA end; try discriminate. injection H as <- _.
    destruct (first_mode is_inner (ti_fields ti)); [|injection EA as <-; exact P9]. match type of EA with bind ?c _ = _ => destruct c as [(w', [])| | |] eqn:E end; try discriminate. injection EA as <-.
    refine (update_plain _ _ _ _ _ _ _ P9 _ _ E). intros t u Pu vv a0 EE. injection EE as <- _. destruct t; try exact Pu. reflexivity.
  - destruct (content_loop k (skip_child k) (VName n) [] [] d) as [((((v', dt), cm), d1), d2)| | |]; try discriminate. injection H as <- _. apply colonless_plain. exact L.
Qed.
Lemma unmarshal_plain : forall r k, reader_plain (unmarshal F env ek r k).
Proof.
  induction r as [|r IH]; intros k t v n a d L P; [discriminate|]. cbn [unmarshal]. destruct t; try (apply body_plain; auto; fail). intros w d' H.
  match type of H with bind ?c _ = _ => destruct c as [(w', d'')| | |] eqn:E end; try discriminate. injection H as <- _. cbn [plain_names]. refine (body_plain _ _ (IH k) _ _ _ _ _ L _ _ _ E).
  destruct v; try apply plain_zero; exact P.
Qed.
Lemma decode_plain : forall k t v inp w, plain_names v = true -> decode F env ek k t v inp = Ok w -> plain_names w = true.
Proof.
  intros k t v inp w P H. unfold decode in H. generalize dependent max_depth. intros M H.
  destruct (find_start k (new_decoder inp)) as [((n, a), d)| | |] eqn:FS; try discriminate. cbn [bind] in H.
  destruct (unmarshal F env ek M k t v n a d) as [(w', d')| | |] eqn:E; try discriminate. injection H as <-. refine (unmarshal_plain _ _ _ _ _ _ _ _ P _ _ E).
  clear E w' d' M P v t. revert FS. generalize (new_decoder inp). induction k as [|k IH]; intros d0 FS; [discriminate|]. cbn [find_start] in FS.
  destruct (next_token d0) as [t d'|e d'|] eqn:N; try discriminate. destruct t; try exact (IH _ FS). injection FS as <- <- <-. exact (start_local _ _ _ _ N).
Qed.
End Reading.
