(** Reading sets fields that are exported and not left out by their tags, and no others. *)
From Coq Require Import String.
From Coq Require Import ZArith List Bool Lia.
From Verif Require Import Base Lexer Decoder GoType TypeInfo Simple Unmarshal UnmarshalProofs RoundTripAttrs RoundTripBody.
Import ListNotations.
Open Scope Z_scope.

(** *** What is claimed *)
(** The fields that package xml does not use: not exported (embedded structs apart), or left out by their tags. *)
Definition hidden (f : fdecl) : bool := negb (exported (fd_name f)) && negb (fd_anon f) || beq (fd_tag f) (str "-").
Section Sealed.
Variables (env : tenv) (P : fdecl -> gval -> Prop).
(** Everything in the hidden fields of a value, at any depth, has the property [P]. *)
Fixpoint sealed (t : gtype) (v : gval) {struct v} : Prop :=
  match v with
  | VPtr w => match t with TPtr t => sealed t w | _ => True end
  | VList l => match t with TSlice t => (fix go (l : list gval) : Prop := match l with [] => True | w :: l => sealed t w /\ go l end) l | _ => True end
  | VRec l =>
      match t with
      | TStruct s => (fix go (fs : list fdecl) (l : list gval) {struct l} : Prop := match fs, l with f :: fs, w :: l => (if hidden f then P f w else sealed (fd_type f) w) /\ go fs l | _, _ => True end) (fields_of env s) l
      | _ => True
      end
  | _ => True
  end.
(** No field on the way to a field is hidden, nor the field itself. *)
Fixpoint shown (s : bytes) (idx : list nat) : bool :=
  match idx with
  | [] => false
  | x :: rest =>
      match nth_error (fields_of env s) x with
      | None => false
      | Some f => negb (hidden f) && match rest with [] => true | _ => match fd_type f with TStruct s' | TPtr (TStruct s') => shown s' rest | _ => false end end
      end
  end.
(** The fields that package xml uses of a struct. *)
Definition used (ti : tinfo) : list (list nat) :=
  map fi_idx (ti_fields ti ++ map snd (ti_attrs ti) ++ match ti_anyattr ti with Some x => [x] | None => [] end ++ match ti_xmlname ti with Some x => [x] | None => [] end).

Definition ok_field (f : fdecl) (w : gval) : Prop := if hidden f then P f w else sealed (fd_type f) w.
Fixpoint ok_fields (fs : list fdecl) (l : list gval) {struct l} : Prop := match fs, l with f :: fs, w :: l => ok_field f w /\ ok_fields fs l | _, _ => True end.
Lemma sealed_rec : forall s l, sealed (TStruct s) (VRec l) <-> ok_fields (fields_of env s) l.
Proof. intros s l. cbn [sealed]. generalize (fields_of env s). induction l as [|w l IH]; intros [|f fs]; try reflexivity. Qed.
Lemma ok_update : forall fs l x f w w', ok_fields fs l -> nth_error fs x = Some f -> nth_error l x = Some w -> ok_field f w' -> ok_fields fs (firstn x l ++ w' :: skipn (S x) l).
Proof.
  induction fs as [|g fs IH]; intros [|u l] [|x] f w w' H N1 N2 L; try discriminate; cbn in N1, N2.
  - injection N1 as ->. destruct H as [_ H]. cbn. split; assumption.
  - destruct H as [H1 H2]. cbn [firstn skipn app]. split; [exact H1|]. exact (IH _ _ _ _ _ H2 N1 N2 L).
Qed.
Lemma ok_nth : forall fs l x f w, ok_fields fs l -> nth_error fs x = Some f -> nth_error l x = Some w -> ok_field f w.
Proof.
  induction fs as [|g fs IH]; intros [|u l] [|x] f w H N1 N2; try discriminate; cbn in N1, N2; destruct H as [H1 H2].
  - injection N1 as ->. injection N2 as ->. exact H1.
  - exact (IH _ _ _ _ H2 N1 N2).
Qed.
Hypothesis FRESH : forall s f k, In f (fields_of env s) -> hidden f = true -> P f (zero k env (fd_type f)).
Lemma sealed_zero : forall k t, sealed t (zero k env t).
Proof.
  induction k as [|k IH]; intros t; destruct t as [| | | | | | | | |n| |]; try exact I; cbn [zero]; rewrite sealed_rec; [destruct (fields_of env n); exact I|].
  assert (G : forall f, In f (fields_of env n) -> hidden f = true -> P f (zero k env (fd_type f))) by (intros f; exact (FRESH n f k)). revert G. generalize (fields_of env n). induction l as [|f fs IHf]; intros G; [exact I|]. cbn [map ok_fields].
  split; [|apply IHf; intros g J; apply G; right; exact J]. unfold ok_field. destruct (hidden f) eqn:HF; [apply G; [left; reflexivity|exact HF]|apply IH].
Qed.
Lemma update_sealed : forall ek {A} (f : gtype -> gval -> outcome uerr (gval * A)), (forall t w w' a, f t w = Ok (w', a) -> sealed t w -> sealed t w') ->
  forall idx s v v' a, shown s idx = true -> update_at ek env s idx v f = Ok (v', a) -> sealed (TStruct s) v -> sealed (TStruct s) v'.
Proof.
  intros ek A f H. induction idx as [|x rest IH]; intros s v v' a S E L; [discriminate|]. cbn [update_at] in E. cbn [shown] in S. destruct v; try discriminate.
  destruct (nth_error (fields_of env s) x) as [fd|] eqn:N1; [|discriminate]. destruct (nth_error l x) as [w|] eqn:N2; [|discriminate]. apply andb_true_iff in S. destruct S as [S1 S2]. apply negb_true_iff in S1.
  match type of E with bind ?y _ = _ => destruct y as [(w', a')| | |] eqn:Y end; try discriminate. cbn [bind] in E. injection E as <- <-.
  rewrite sealed_rec in L |- *. pose proof (ok_nth _ _ _ _ _ L N1 N2) as K. refine (ok_update _ _ _ _ _ _ L N1 N2 _). unfold ok_field in *. rewrite S1 in *. destruct rest as [|y rest]; [exact (H _ _ _ _ Y K)|].
  destruct (fd_type fd) as [| | | | | | |t| |s'| |] eqn:T; try discriminate; [|exact (IH _ _ _ _ S2 Y K)]. destruct t as [| | | | | | | | |s'| |]; try discriminate.
  destruct w; try discriminate; match type of Y with bind ?z _ = _ => destruct z as [(u', a2)| | |] eqn:Z0 end; try discriminate; cbn [bind] in Y; injection Y as <- <-; refine (IH _ _ _ _ S2 Z0 _); [apply sealed_zero|exact K].
Qed.
(** What is made of text has no fields. *)
Definition leaf (v : gval) : Prop := match v with VPtr w => match w with VPtr _ | VList _ | VRec _ => False | _ => True end | VList _ | VRec _ => False | _ => True end.
Lemma leaf_sealed : forall t v, leaf v -> sealed t v.
Proof. intros t v H. destruct v as [| | | | |w| | | |]; try exact I; try contradiction. destruct t; try exact I. destruct w; try exact I; contradiction. Qed.
Lemma copy_leaf : forall F t s v, copy_value F t s = Ok v -> leaf v.
Proof.
  assert (K : forall F t s v, copy_simple F t s = Ok v -> leaf (VPtr v) /\ leaf v).
  { intros F t s v H. destruct t; try discriminate; cbn [copy_simple] in H; unfold need in *; repeat match type of H with
      | context [if ?c then _ else _] => destruct c | context [match ?c with _ => _ end] => destruct c end; try discriminate; injection H as <-; split; exact I. }
  intros F t s v H. destruct t; try exact (proj2 (K _ _ _ _ H)). cbn [copy_value] in H. destruct (copy_simple F t s) as [w| | |] eqn:E; try discriminate. injection H as <-. exact (proj1 (K _ _ _ _ E)).
Qed.
Lemma method_leaf : forall F t s v, method_value F t s = Ok v -> leaf v /\ leaf (VPtr v).
Proof.
  intros F t s v H. unfold method_value, need in H. destruct t; repeat match type of H with
    | context [if ?c then _ else _] => destruct c | context [match ?c with _ => _ end] => destruct c end; try discriminate; injection H as <-; split; exact I.
Qed.
Lemma sealed_snoc : forall t l x, sealed (TSlice t) (VList l) -> sealed t x -> sealed (TSlice t) (VList (l ++ [x])).
Proof. intros t l x H X. cbn [sealed] in *. induction l as [|w l IH]; [split; [exact X|exact I]|]. destruct H as [H1 H2]. split; [exact H1|exact (IH H2)]. Qed.
Lemma attr_sealed : forall F ek t v a w, sealed t v -> unmarshal_attr F env ek t v a = Ok w -> sealed t w.
Proof.
  intros F ek. induction t; intros v a w S H; cbn [unmarshal_attr has_method] in H; try exact (leaf_sealed _ _ (copy_leaf _ _ _ _ H)); try exact (leaf_sealed _ _ (proj1 (method_leaf _ _ _ _ H))).
  - match type of H with bind ?c _ = _ => destruct c as [w'| | |] eqn:E end; try discriminate. injection H as <-. cbn [sealed].
    destruct (has_method t) eqn:M; [exact (leaf_sealed _ _ (proj1 (method_leaf _ _ _ _ E)))|]. destruct t as [| | | | | | |t|t| | |]; try exact (leaf_sealed _ _ (copy_leaf _ _ _ _ E)); [| |injection E as <-; exact I].
    { destruct (has_method t); [|exact (leaf_sealed _ _ (copy_leaf _ _ _ _ E))]. match type of E with bind ?c _ = _ => destruct c as [x| | |] eqn:MV end; try discriminate. cbn [bind] in E.
      destruct (match v with VPtr w => w | _ => zero_of env ek (TPtr t) end); try discriminate. injection E as <-. exact (leaf_sealed _ _ (proj2 (method_leaf _ _ _ _ MV))). }
    assert (PV : sealed (TSlice t) (match v with VPtr w => w | _ => zero_of env ek (TSlice t) end)) by (destruct v; try apply sealed_zero; exact S).
    destruct (match v with VPtr w => w | _ => zero_of env ek (TSlice t) end) as [| | | | | |l| | |]; try discriminate.
    specialize (IHt (VList []) a). cbn [unmarshal_attr] in IHt. destruct (unmarshal_attr F env ek t (zero_of env ek t) a) as [x| | |]; try discriminate. cbn [bind] in *. injection E as <-.
    specialize (IHt _ I eq_refl). cbn [app] in IHt. apply sealed_snoc; [exact PV|exact (proj1 IHt)].
  - destruct v as [| | | | | |l| | |]; try discriminate. destruct (unmarshal_attr F env ek t (zero_of env ek t) a) as [x| | |] eqn:E; try discriminate. injection H as <-.
    apply sealed_snoc; [exact S|]. exact (IHt _ _ _ (sealed_zero ek t) E).
  - injection H as <-. exact I.
Qed.

Section Reading.
Variables (F : floats) (ek : nat).
Hypothesis SHOWN : forall s ti, type_info ek env s = Ok ti -> forallb (shown s) (used ti) = true.
Lemma shown_field : forall s ti f, type_info ek env s = Ok ti -> In f (ti_fields ti) -> shown s (fi_idx f) = true.
Proof. intros s ti f TI I. pose proof (SHOWN s ti TI) as H. rewrite forallb_forall in H. apply H. apply in_map. apply in_or_app. left. exact I. Qed.
Lemma attr_used : forall ti n f, attr_field ti n = Some f -> In f (map snd (ti_attrs ti) ++ match ti_anyattr ti with Some x => [x] | None => [] end ++ match ti_xmlname ti with Some x => [x] | None => [] end).
Proof.
  clear. assert (K : forall l n f, find_attr l n = Some f -> In f (map snd l)).
  { intros l n f H. unfold find_attr in H. destruct (find _ l) as [(m, g)|] eqn:FA; [|discriminate]. injection H as <-. apply find_some in FA. apply in_map_iff. exists (m, g). tauto. }
  intros ti n f H. unfold attr_field in H. apply in_or_app. destruct (find_attr (ti_attrs ti) n) eqn:E1; [injection H as ->; left; exact (K _ _ _ E1)|]. destruct (find_attr (ti_attrs ti) (mkname [] (local n))) eqn:E2; [injection H as ->; left; exact (K _ _ _ E2)|].
  right. rewrite H. left. reflexivity.
Qed.
Lemma set_attrs_sealed : forall ti s, type_info ek env s = Ok ti -> forall al v w, sealed (TStruct s) v -> set_attrs F env ek ti s v al = Ok w -> sealed (TStruct s) w.
Proof.
  intros ti s TI. induction al as [|a al IH]; intros v w S H; [injection H as <-; exact S|]. cbn [set_attrs] in H. destruct (attr_field ti (aname a)) as [f|] eqn:AF; [|exact (IH _ _ S H)].
  match type of H with bind ?c _ = _ => destruct c as [(w', [])| | |] eqn:E end; try discriminate. cbn [bind] in H. refine (IH _ _ _ H). refine (update_sealed _ _ _ _ _ _ _ _ _ E S); [|].
  - intros t u u' [] X L. unfold with_unit in X. destruct (unmarshal_attr F env ek t u a) eqn:E1; try discriminate. injection X as <-. exact (attr_sealed _ _ _ _ _ _ L E1).
  - pose proof (SHOWN s ti TI) as H0. rewrite forallb_forall in H0. apply H0. apply in_map. apply in_or_app. right. exact (attr_used _ _ _ AF).
Qed.
Definition child_keeps (Q : gval -> Prop) (c : child_fun) : Prop := forall v n a d v' d', c v n a d = Ok (v', d') -> Q v -> Q v'.
Lemma content_keeps : forall Q c, child_keeps Q c -> forall k v dt cm d w dt' cm' d1 d2, content_loop k c v dt cm d = Ok (w, dt', cm', d1, d2) -> Q v -> Q w.
Proof.
  intros Q c C. induction k as [|k IH]; intros v dt cm d w dt' cm' d1 d2 H S; [discriminate|]. cbn [content_loop] in H. destruct (next_token d) as [t d'|e d'|] eqn:N; try discriminate.
  destruct t; try exact (IH _ _ _ _ _ _ _ _ _ H S); [|injection H as <- _ _ _ _; exact S].
  destruct (c v n a d') as [(v', d'')| | |] eqn:E; try discriminate. cbn [bind] in H. exact (IH _ _ _ _ _ _ _ _ _ H (C _ _ _ _ _ _ E S)).
Qed.
Lemma skip_keeps : forall Q k, child_keeps Q (skip_child k).
Proof. intros Q k v n a d w d' E. unfold skip_child in E. destruct (skip k d); try discriminate. injection E as <- <-. auto. Qed.
Definition reader_sealed (r : reader) : Prop := forall t v n a d w d', r t v n a d = Ok (w, d') -> sealed t v -> sealed t w.
Lemma path_sealed : forall k read s ti, type_info ek env s = Ok ti -> reader_sealed read -> forall q ps v n a d v' d', path_child env ek q k read s (ti_fields ti) ps v n a d = Ok (Some (v', d')) -> sealed (TStruct s) v -> sealed (TStruct s) v'.
Proof.
  intros k read s ti TI R. induction q as [|q IH]; intros ps v n a d v' d' H S; [discriminate|]. cbn [path_child] in H. destruct (find_path (ti_fields ti) ps n) as [f|ps'|] eqn:FP; try discriminate.
  - match type of H with bind ?c _ = _ => destruct c as [(w', d1)| | |] eqn:E end; try discriminate. injection H as <- <-. refine (update_sealed _ _ _ _ _ _ _ _ _ E S); [intros t u u' a0 X; exact (R _ _ _ _ _ _ _ X)|].
    apply find_path_in in FP. eapply shown_field; [exact TI|tauto].
  - match type of H with bind ?c _ = _ => destruct c as [((((w', dt), cm), d1), d2)| | |] eqn:E end; try discriminate. injection H as <- <-. refine (content_keeps (sealed (TStruct s)) _ _ _ _ _ _ _ _ _ _ _ _ E S).
    intros v1 n1 a1 d1' w1 d2' E1. specialize (IH ps' v1 n1 a1 d1'). destruct (path_child env ek q k read s (ti_fields ti) ps' v1 n1 a1 d1') as [[y|]| | |]; try discriminate; cbn [bind] in E1.
    + injection E1 as ->. exact (IH _ _ eq_refl).
    + exact (skip_keeps _ k _ _ _ _ _ _ E1).
Qed.
Lemma mode_field : forall p fs f, first_mode p fs = Some f -> In f fs.
Proof. intros p fs f H. unfold first_mode in H. apply find_some in H. tauto. Qed.
Lemma touch_sealed : forall s ti p v w, type_info ek env s = Ok ti -> touch env ek s (first_mode p (ti_fields ti)) v = Ok w -> sealed (TStruct s) v -> sealed (TStruct s) w.
Proof.
  intros s ti p v w TI H S. destruct (first_mode p (ti_fields ti)) as [f|] eqn:FM; [|injection H as <-; exact S]. cbn [touch] in H. match type of H with bind ?c _ = _ => destruct c as [(w', [])| | |] eqn:E end; try discriminate. injection H as <-.
  refine (update_sealed _ _ _ _ _ _ _ _ _ E S); [intros t u u' a0 X; injection X as <- _; auto|]. eapply shown_field; [exact TI|]. eapply mode_field; eauto.
Qed.
Lemma body_sealed : forall read k, reader_sealed read -> forall t v n a d w d', unmarshal_body F env ek read k t v n a d = Ok (w, d') -> sealed t v -> sealed t w.
Proof.
  intros read k R t v n a d w d' H S. unfold unmarshal_body in H.
  assert (SIMPLE : (do r <- content_loop k (skip_child k) v [] [] d ; let '(_, data, _, _, d') := r in do x <- copy_value F t data ; Ok (x, d')) = Ok (w, d') -> sealed t w).
  { intros X. destruct (content_loop k (skip_child k) v [] [] d) as [((((v', dt), cm), d1), d2)| | |] eqn:C; try discriminate. cbn [bind] in X.
    destruct (copy_value F t dt) as [x| | |] eqn:CV; try discriminate. injection X as <- <-. exact (leaf_sealed _ _ (copy_leaf _ _ _ _ CV)). }
  destruct t as [| | | | | | | |t|s| |]; try exact (SIMPLE H); try discriminate.
  - destruct v as [| | | | | |l| | |]; try discriminate. destruct (read t (zero_of env ek t) n a d) as [(x, d'')| | |] eqn:E; try discriminate. injection H as <- <-. apply sealed_snoc; [exact S|]. exact (R _ _ _ _ _ _ _ E (sealed_zero ek t)).
  - destruct (type_info ek env s) as [ti| | |] eqn:TI; try discriminate.
    match type of H with bind ?c _ = _ => destruct c as [v1| | |] eqn:E1 end; try discriminate. cbn [bind] in H.
    assert (P1 : sealed (TStruct s) v1).
    { destruct (ti_xmlname ti) as [x|] eqn:XN; [|injection E1 as <-; exact S]. match type of E1 with (if ?c then _ else _) = _ => destruct c; [discriminate|] end.
      match type of E1 with bind ?c _ = _ => destruct c as [(w', [])| | |] eqn:E end; try discriminate. injection E1 as <-. refine (update_sealed _ _ _ _ _ _ _ _ _ E S).
      - intros t u u' [] X. injection X as <-. destruct t; auto. intros _. exact I.
      - pose proof (SHOWN s ti TI) as H0. rewrite forallb_forall in H0. apply H0. unfold used. rewrite XN. apply in_map. do 3 (apply in_or_app; right). left. reflexivity. }
    destruct (set_attrs F env ek ti s v1 a) as [v2| | |] eqn:E2; try discriminate. cbn [bind] in H. pose proof (set_attrs_sealed _ _ TI _ _ _ P1 E2) as P2. clear E1 E2 P1 S.
    destruct (touch env ek s _ v2) as [v3| | |] eqn:E3; try discriminate. cbn [bind] in H. destruct (touch env ek s _ v3) as [v4| | |] eqn:E4; try discriminate. cbn [bind] in H. destruct (touch env ek s _ v4) as [v5| | |] eqn:E5; try discriminate. cbn [bind] in H. destruct (touch env ek s _ v5) as [v6| | |] eqn:E6; try discriminate. cbn [bind] in H.
    pose proof (touch_sealed _ _ _ _ _ TI E6 (touch_sealed _ _ _ _ _ TI E5 (touch_sealed _ _ _ _ _ TI E4 (touch_sealed _ _ _ _ _ TI E3 P2)))) as P6. clear E3 E4 E5 E6 P2.
    match type of H with bind ?c _ = _ => destruct c as [((((v7, dt), cm), d1), d2)| | |] eqn:E7 end; try discriminate. cbn [bind] in H.
    assert (P7 : sealed (TStruct s) v7).
    { refine (content_keeps (sealed (TStruct s)) _ _ _ _ _ _ _ _ _ _ _ _ E7 P6). clear E7 H. intros vv n1 a1 d1' w1 d2' X. destruct (path_child env ek _ k read s (ti_fields ti) [] vv n1 a1 d1') as [[[y1 y2]|]| | |] eqn:PC; try discriminate; cbn [bind] in X.
      - injection X as -> ->. exact (path_sealed _ _ _ _ TI R _ _ _ _ _ _ _ _ PC).
      - destruct (first_mode is_any (ti_fields ti)) as [f|] eqn:FM; [|exact (skip_keeps _ k _ _ _ _ _ _ X)]. refine (update_sealed _ _ _ _ _ _ _ _ _ X); [intros t u u' a0 Y; exact (R _ _ _ _ _ _ _ Y)|]. eapply shown_field; [exact TI|]. eapply mode_field; eauto. }
    match type of H with bind ?c _ = _ => destruct c as [v8| | |] eqn:E8 end; try discriminate. cbn [bind] in H.
    assert (P8 : sealed (TStruct s) v8).
    { destruct (first_mode is_data (ti_fields ti)) as [f|] eqn:FM; [|injection E8 as <-; exact P7]. match type of E8 with bind ?c _ = _ => destruct c as [(w', [])| | |] eqn:E end; try discriminate. injection E8 as <-.
      refine (update_sealed _ _ _ _ _ _ _ _ _ E P7); [|eapply shown_field; [exact TI|]; eapply mode_field; eauto]. intros t u u' [] X _. unfold with_unit in X. destruct (copy_value F t dt) eqn:CV; try discriminate. injection X as <-. exact (leaf_sealed _ _ (copy_leaf _ _ _ _ CV)). }
    match type of H with bind ?c _ = _ => destruct c as [v9| | |] eqn:E9 end; try discriminate. cbn [bind] in H.
    assert (P9 : sealed (TStruct s) v9).
    { destruct (first_mode is_comment (ti_fields ti)) as [f|] eqn:FM; [|injection E9 as <-; exact P8]. match type of E9 with bind ?c _ = _ => destruct c as [(w', [])| | |] eqn:E end; try discriminate. injection E9 as <-.
      refine (update_sealed _ _ _ _ _ _ _ _ _ E P8); [|eapply shown_field; [exact TI|]; eapply mode_field; eauto]. intros t u u' [] X L. destruct t; try discriminate; injection X as <-; try exact L; exact I. }
    match type of H with bind ?c _ = _ => destruct c as [va| | |] eqn:EA end; try discriminate. injection H as <- <-.
    destruct (first_mode is_inner (ti_fields ti)) as [f|] eqn:FM; [|injection EA as <-; exact P9]. match type of EA with bind ?c _ = _ => destruct c as [(w', [])| | |] eqn:E end; try discriminate. injection EA as <-.
    refine (update_sealed _ _ _ _ _ _ _ _ _ E P9); [|eapply shown_field; [exact TI|]; eapply mode_field; eauto]. intros t u u' [] X L. injection X as <-. destruct t; try exact L; exact I.
  - destruct (content_loop k (skip_child k) (VName n) [] [] d) as [((((v', dt), cm), d1), d2)| | |] eqn:C; try discriminate. injection H as <- <-. exact I.
Qed.
Lemma unmarshal_sealed : forall r k, reader_sealed (unmarshal F env ek r k).
Proof.
  induction r as [|r IH]; intros k t v n a d w d' H S; [discriminate|]. cbn [unmarshal] in H. destruct t; try exact (body_sealed _ _ (IH k) _ _ _ _ _ _ _ H S).
  match type of H with bind ?c _ = _ => destruct c as [(w', d'')| | |] eqn:E end; try discriminate. injection H as <- <-. cbn [sealed]. refine (body_sealed _ _ (IH k) _ _ _ _ _ _ _ E _). destruct v; try apply sealed_zero; exact S.
Qed.
Lemma decode_sealed : forall k t v inp w, decode F env ek k t v inp = Ok w -> sealed t v -> sealed t w.
Proof.
  intros k t v inp w H S. unfold decode in H. generalize dependent max_depth. intros M H. destruct (find_start k (new_decoder inp)) as [((n, a), d)| | |] eqn:FS; try discriminate. cbn [bind] in H.
  destruct (unmarshal F env ek M k t v n a d) as [(w', d')| | |] eqn:E; try discriminate. injection H as <-. exact (unmarshal_sealed _ _ _ _ _ _ _ _ _ E S).
Qed.
End Reading.
End Sealed.
