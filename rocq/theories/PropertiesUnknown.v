(** Property C92: elements and attributes that the types do not know are passed over. *)
From Coq Require Import String.
From Coq Require Import ZArith List Bool Lia SpecFloat Permutation.
From Verif Require Import Base Utf8 Lexer Decoder DecoderSpec DecoderProofs PropertiesDecoder GoType Schema TypeInfo Simple ValueSpec Unmarshal Io UnmarshalProofs PropertiesUnmarshal RoundTripSpec RoundTripCheck RoundTripParts RoundTripBody RoundTripTest PropertiesDocument PropertiesRoundTrip Hidden Infoset PropertiesInfoset AttrOrder PropertiesAttrOrder Tree Siblings PropertiesSiblings.
Import ListNotations.
Open Scope Z_scope.

(** *** What is claimed *)
Section Unknown.
Variables (env : tenv) (ek : nat).
(** The struct that an element is read into, behind pointers and slices. *)
Fixpoint struct_of (t : gtype) : option bytes := match t with TPtr t | TSlice t => struct_of t | TStruct s => Some s | _ => None end.
(** The second tree has more than the first one, read into a value of type [t]: attributes and children for which there is no field in the struct,
    text where there is no field for it, children in something that is not a struct; and this at any depth. *)
Inductive extended : gtype -> tree -> tree -> Prop :=
| E_refl t T : extended t T T
| E_trans t T T' T'' : extended t T T' -> extended t T' T'' -> extended t T T''
| E_attr t s ti n a x b k : struct_of t = Some s -> type_info ek env s = Ok ti -> ti_anyattr ti = None -> (forall e, In e (ti_attrs ti) -> local (fst e) <> local (aname x)) -> extended t (Elem n (a ++ b) k) (Elem n (a ++ x :: b) k)
| E_child t s ti n a k c l : struct_of t = Some s -> type_info ek env s = Ok ti -> (forall f, In f (ti_fields ti) -> g_element (fi_flags f) = true -> fi_name f <> local (tname c)) -> extended t (Elem n a (k ++ l)) (Elem n a (k ++ Child c :: l))
| E_text t s ti n a k x l : struct_of t = Some s -> type_info ek env s = Ok ti -> (forall f, In f (ti_fields ti) -> is_data (fi_flags f) = false) -> extended t (Elem n a (k ++ l)) (Elem n a (k ++ Text x :: l))
| E_simple t n a b k c l : struct_of t = None -> extended t (Elem n a (k ++ l)) (Elem n b (k ++ Child c :: l))
| E_inside t s ti f ty n a k c c' l : struct_of t = Some s -> type_info ek env s = Ok ti -> find_path (ti_fields ti) [] (tname c) = Field f -> target env s (fi_idx f) = Some ty -> extended ty c c' -> extended t (Elem n a (k ++ Child c :: l)) (Elem n a (k ++ Child c' :: l)).

(** *** Proofs *)
Variable F : floats.
Lemma bind_ext : forall {E A B} (x : outcome E A) (f g : A -> outcome E B), (forall a, f a = g a) -> bind x f = bind x g.
Proof. intros E A B [] f g H; cbn; auto. Qed.
Lemma update_ext : forall {E A} (f g : gtype -> gval -> outcome E (gval * A)) idx s, (forall t w, target env s idx = Some t -> f t w = g t w) -> forall v, update_at ek env s idx v f = update_at ek env s idx v g.
Proof.
  intros E A f g. induction idx as [|i rest IH]; intros s H v; [reflexivity|]. cbn [update_at target] in *. destruct v; try reflexivity. destruct (nth_error (fields_of env s) i) as [fd|]; [|reflexivity]. destruct (nth_error l i) as [w|]; [|reflexivity].
  f_equal. destruct rest as [|j rest]; [apply H; reflexivity|]. destruct (fd_type fd) as [| | | | | | |t| |s'| |]; try reflexivity; [|apply IH; exact H]. destruct t; try reflexivity. destruct w; try reflexivity; rewrite (IH _ H); reflexivity.
Qed.
Notation read := (tree_read F env ek).
Lemma struct_body : forall r s ti n a a' k k', type_info ek env s = Ok ti -> (forall v, set_attrs F env ek ti s v a = set_attrs F env ek ti s v a') -> (forall v, kids_loop (tree_child env ek r s (ti_fields ti)) v k = kids_loop (tree_child env ek r s (ti_fields ti)) v k') ->
  first_mode is_data (ti_fields ti) = None \/ text_in k = text_in k' -> forall v, tree_body F env ek r (TStruct s) v n a k = tree_body F env ek r (TStruct s) v n a' k'.
Proof.
  intros r s ti n a a' k k' TI SA KL TX v. cbn [tree_body]. rewrite TI. apply bind_ext. clear v. intros v. rewrite SA. apply bind_ext. clear v. intros v. cbv zeta. do 4 (apply bind_ext; clear v; intros v). rewrite KL. apply bind_ext. clear v. intros v.
  f_equal. destruct (first_mode is_data (ti_fields ti)) as [f|]; [|reflexivity]. destruct TX as [?|TX]; [discriminate|]. rewrite TX. reflexivity.
Qed.
Lemma lift : forall s n a a' k k', (forall r v, tree_body F env ek (read r) (TStruct s) v n a k = tree_body F env ek (read r) (TStruct s) v n a' k') -> forall r t v, struct_of t = Some s -> read r t v (Elem n a k) = read r t v (Elem n a' k').
Proof.
  intros s n a a' k k' H. induction r as [|r IH]; intros t v S; [reflexivity|].
  assert (B : forall t v, struct_of t = Some s -> tree_body F env ek (read r) t v n a k = tree_body F env ek (read r) t v n a' k').
  { clear t v S. intros t v S. destruct t as [| | | | | | |t|t|s'| |]; try discriminate; cbn [struct_of] in S; [reflexivity| |injection S as ->; apply H]. cbn [tree_body]. destruct v; try reflexivity. rewrite (IH t _ S). reflexivity. }
  cbn [tree_read]. destruct t as [| | | | | | |t|t|s'| |]; try discriminate; [rewrite (B t _ S); reflexivity|exact (B _ v S)|exact (B _ v S)].
Qed.
Lemma lift_simple : forall n a a' k k', text_in k = text_in k' -> forall r t v, struct_of t = None -> read r t v (Elem n a k) = read r t v (Elem n a' k').
Proof.
  intros n a a' k k' H. induction r as [|r IH]; intros t v S; [reflexivity|].
  assert (B : forall t v, struct_of t = None -> tree_body F env ek (read r) t v n a k = tree_body F env ek (read r) t v n a' k').
  { clear t v S. intros t v S. destruct t as [| | | | | | |t|t|s'| |]; try discriminate; cbn [tree_body]; rewrite ?H; try reflexivity. destruct v; try reflexivity. rewrite (IH t _ S). reflexivity. }
  cbn [tree_read]. destruct t as [| | | | | | |t|t|s'| |]; try discriminate; try (rewrite (B t _ S); reflexivity); apply B; reflexivity || exact S.
Qed.
Lemma kids_app : forall c l l' v, kids_loop c v (l ++ l') = do v' <- kids_loop c v l ; kids_loop c v' l'.
Proof. induction l as [|[x|t] l IH]; intros l' v; cbn [app kids_loop]; [reflexivity|apply IH|]. destruct (c v t); cbn [bind]; auto. Qed.
Lemma attrs_app : forall ti s l l' v, set_attrs F env ek ti s v (l ++ l') = do v' <- set_attrs F env ek ti s v l ; set_attrs F env ek ti s v' l'.
Proof. induction l as [|x l IH]; intros l' v; cbn [app set_attrs]; [reflexivity|]. destruct (attr_field ti (aname x)); [|apply IH]. destruct (update_at _ _ _ _ _ _) as [(v', u)| | |]; cbn [bind]; auto. Qed.
Lemma text_app : forall l l', text_in (l ++ l') = text_in l ++ text_in l'.
Proof. induction l as [|[x|t] l IH]; intros l'; cbn [app text_in]; [reflexivity|rewrite IH, app_assoc; reflexivity|apply IH]. Qed.
Lemma extended_name : forall t T T', extended t T T' -> tname T = tname T'.
Proof. induction 1; try reflexivity. congruence. Qed.
Lemma extended_read : forall t T T', extended t T T' -> forall r v, read r t v T = read r t v T'.
Proof.
  induction 1 as [t T|t T T' T'' H1 IH1 H2 IH2|t s ti n a x b k S TI AN NA|t s ti n a k c l S TI NF|t s ti n a k x l S TI ND|t n a b k c l S|t s ti f ty n a k c c' l S TI FP TG H IH]; intros r v.
  - reflexivity.
  - rewrite IH1. apply IH2.
  - apply (lift s); [|exact S]. intros r0. apply struct_body with ti; auto. intros w. rewrite !attrs_app. apply bind_ext. intros w'. cbn [set_attrs]. replace (attr_field ti (aname x)) with (@None finfo); [reflexivity|].
    destruct (attr_field ti (aname x)) as [g|] eqn:AF; [|reflexivity]. exfalso. unfold attr_field in AF.
    assert (K : forall m g, local m = local (aname x) -> find_attr (ti_attrs ti) m = Some g -> False).
    { intros m g0 LM FA. unfold find_attr in FA. destruct (find _ (ti_attrs ti)) as [e|] eqn:FD; [|discriminate]. apply find_some in FD as (I & E). apply (NA e I). rewrite <- LM. unfold name_eqb in E. apply andb_true_iff in E as (E1 & E2). apply beq_eq in E1, E2. congruence. }
    destruct (find_attr (ti_attrs ti) (aname x)) eqn:F1; [exact (K _ _ eq_refl F1)|]. destruct (find_attr (ti_attrs ti) (mkname [] (local (aname x)))) eqn:F2; [exact (K (mkname [] (local (aname x))) _ eq_refl F2)|]. congruence.
  - apply (lift s); [|exact S]. intros r0. apply struct_body with ti; auto; [|right; rewrite !text_app; reflexivity]. intros w. rewrite !kids_app. apply bind_ext. intros w'. cbn [kids_loop]. unfold tree_child at 2. destruct (find_path (ti_fields ti) [] (tname c)) as [f|ps|] eqn:FP; try reflexivity. exfalso.
    pose proof (find_path_name _ _ _ _ FP) as FN. apply find_path_in in FP as (FI & FE). exact (NF f FI FE FN).
  - apply (lift s); [|exact S]. intros r0. apply struct_body with ti; auto; [intros w; rewrite !kids_app; reflexivity|]. left. destruct (first_mode is_data (ti_fields ti)) as [f|] eqn:FM; [|reflexivity]. pose proof (ND f (mode_field _ _ _ FM)) as X. rewrite (mode_holds _ _ _ FM) in X. discriminate.
  - apply lift_simple; [rewrite !text_app; reflexivity|exact S].
  - apply (lift s); [|exact S]. intros r0. apply struct_body with ti; auto; [|right; rewrite !text_app; reflexivity]. intros w. rewrite !kids_app. apply bind_ext. intros w'. cbn [kids_loop]. unfold tree_child at 1 3. rewrite <- (extended_name _ _ _ H), FP. f_equal. f_equal. apply update_ext. intros t0 u E. rewrite TG in E. injection E as <-. unfold with_unit. rewrite IH. reflexivity.
Qed.
End Unknown.
(** C92. If the tree of one document extends that of another, read into the same type, the documents are read as the same value, but for what C87 leaves out, or fail with the same error. *)
Theorem C92_same : forall F env ek kind x y t v inp inp' ts us l l' T T', kind_ok env ek kind Exact -> (forall s ti, type_info ek env s = Ok ti -> plain ti = true) ->
  ends x (new_decoder inp) ts -> ends y (new_decoder inp') us -> spells ts l -> spells us l' -> root l = Some T -> root l' = Some T' -> extended env ek t T T' ->
  agrees true (near env kind t) (decode F env ek (enough inp) t v inp) (decode F env ek (enough inp') t v inp').
Proof.
  intros F env ek kind x y t v inp inp' ts us l l' T T' W PL E1 E2 S1 S2 R1 R2 X.
  pose proof (ends_short _ _ _ E1) as L1. pose proof (ends_short _ _ _ E2) as L2. destruct E1 as (d1 & e1 & C1 & _). destruct E2 as (d2 & e2 & C2 & _).
  pose proof (decode_tree F env ek kind Exact ltac:(discriminate) W PL (enough inp) ts l d1 inp t v v T (N_refl _ _ _ _) C1 S1 R1 L1) as H1.
  pose proof (decode_tree F env ek kind Exact ltac:(discriminate) W PL (enough inp') us l' d2 inp' t v v T' (N_refl _ _ _ _) C2 S2 R2 L2) as H2.
  rewrite (extended_read env ek F t T T' X) in H1. destruct (decode F env ek (enough inp) t v inp), (tree_read F env ek max_depth t v T'), (decode F env ek (enough inp') t v inp'); cbn in *; try contradiction; try discriminate; auto.
  - eapply near_trans; [exact H1|]. apply near_sym. exact H2.
  - intros _. rewrite (H1 eq_refl), (H2 eq_refl). reflexivity.
Qed.
Print Assumptions C92_same.
(** C92 and C89 together: both documents can have things that are not known, and what is known in them can be in another order. *)
Theorem C92_order : forall F env ek kind x y t v inp inp' ts us l l' T T' U U',
  kind_ok env ek kind Mixed -> (forall s ti, type_info ek env s = Ok ti -> attrs_apart ti = true /\ elements_apart ti = true /\ plain ti = true) ->
  (forall s ti, ~ (exists d, In d env /\ sd_name d = s) -> type_info ek env s = Ok ti -> ti_fields ti = []) ->
  ends x (new_decoder inp) ts -> ends y (new_decoder inp') us -> spells ts l -> spells us l' -> root l = Some T -> root l' = Some T' ->
  extended env ek t U T -> extended env ek t U' T' -> mixed_tree (bare_in env ek) U U' -> (bare_in env ek (local (tname T)) = true -> dataless env ek t = true) ->
  agrees false (near env kind t) (decode F env ek (enough inp) t v inp) (decode F env ek (enough inp') t v inp').
Proof.
  intros F env ek kind x y t v inp inp' ts us l l' T T' U U' W AP UN E1 E2 S1 S2 R1 R2 X1 X2 M SU.
  assert (A1 : forall s ti, type_info ek env s = Ok ti -> attrs_apart ti = true) by (intros; eapply AP; eauto). assert (A2 : forall s ti, type_info ek env s = Ok ti -> elements_apart ti = true) by (intros; eapply AP; eauto). assert (A3 : forall s ti, type_info ek env s = Ok ti -> plain ti = true) by (intros; eapply AP; eauto).
  pose proof (bare_fields env ek UN) as BR.
  pose proof (ends_short _ _ _ E1) as L1. pose proof (ends_short _ _ _ E2) as L2. destruct E1 as (d1 & e1 & C1 & _). destruct E2 as (d2 & e2 & C2 & _).
  pose proof (agrees_weaken _ _ _ (decode_tree F env ek kind Mixed ltac:(discriminate) W A3 (enough inp) ts l d1 inp t v v T (N_refl _ _ _ _) C1 S1 R1 L1)) as H1.
  pose proof (agrees_weaken _ _ _ (decode_tree F env ek kind Mixed ltac:(discriminate) W A3 (enough inp') us l' d2 inp' t v v T' (N_refl _ _ _ _) C2 S2 R2 L2)) as H2.
  rewrite <- (extended_name _ _ _ _ _ X1) in SU. rewrite <- (extended_read env ek F t U T X1) in H1. rewrite <- (extended_read env ek F t U' T' X2) in H2.
  pose proof (read_mix F env ek kind (bare_in env ek) W A1 A2 BR max_depth t v v U U' SU M (N_refl _ _ _ _)) as H3.
  destruct (decode F env ek (enough inp) t v inp), (tree_read F env ek max_depth t v U), (tree_read F env ek max_depth t v U'), (decode F env ek (enough inp') t v inp'); cbn in *; try contradiction; auto; try (intros; discriminate).
  eapply near_trans; [exact H1|]. eapply near_trans; [exact H3|]. apply near_sym. exact H2.
Qed.
Print Assumptions C92_order.
(** C92 for the package. *)
Theorem C92_mpd : forall F x y inp inp' ts us l l' T T', ends x (new_decoder inp) ts -> ends y (new_decoder inp') us -> spells ts l -> spells us l' -> root l = Some T -> root l' = Some T' ->
  (extended mpd_types embed_depth (TStruct MPD) T T' -> agrees true (near mpd_types (but_verbatim Exact) (TStruct MPD)) (read_mpd F inp) (read_mpd F inp')) /\
  (forall U U', extended mpd_types embed_depth (TStruct MPD) U T -> extended mpd_types embed_depth (TStruct MPD) U' T' -> mixed_tree (bare_in mpd_types embed_depth) U U' ->
    agrees false (near mpd_types (but_verbatim Mixed) (TStruct MPD)) (read_mpd F inp) (read_mpd F inp')).
Proof.
  intros F x y inp inp' ts us l l' T T' E1 E2 S1 S2 R1 R2. split.
  - refine (C92_same F mpd_types embed_depth _ x y (TStruct MPD) _ inp inp' ts us l l' T T' (mpd_kind Exact _) _ E1 E2 S1 S2 R1 R2); [discriminate|]. intros s ti TI. eapply mpd_apart; eauto.
  - intros U U' X1 X2 M. refine (C92_order F mpd_types embed_depth _ x y (TStruct MPD) _ inp inp' ts us l l' T T' U U' (mpd_kind Mixed _) mpd_apart mpd_undeclared E1 E2 S1 S2 R1 R2 X1 X2 M _); [discriminate|]. intros _. vm_compute. reflexivity.
Qed.
Print Assumptions C92_mpd.
(** A new attribute, a new element in a Period with what would be known elsewhere inside of it, and an element in a BaseURL. *)
Definition unk1 : bytes := str "<MPD profiles=""p""><Period id=""P1""><BaseURL>u</BaseURL></Period></MPD>".
Definition unk2 : bytes := str "<MPD new=""1"" profiles=""p""><Period id=""P1""><MPD a=""1"">text<Period/></MPD><BaseURL>u<b/></BaseURL></Period></MPD>".
Definition ti_of (s : bytes) : tinfo := match type_info embed_depth mpd_types s with Ok ti => ti | _ => finish None [] end.
Example C92_ex : ends EEof (new_decoder unk1) (tokens_of unk1) /\ ends EEof (new_decoder unk2) (tokens_of unk2) /\
  (exists l l' T T', spells (tokens_of unk1) l /\ spells (tokens_of unk2) l' /\ root l = Some T /\ root l' = Some T' /\ extended mpd_types embed_depth (TStruct MPD) T T') /\
  read_mpd fl1 unk1 = read_mpd fl1 unk2 /\ (exists v, read_mpd fl1 unk1 = Ok v).
Proof.
  split; [apply tokens_end; vm_compute; reflexivity|]. split; [apply tokens_end; vm_compute; reflexivity|]. split.
  { exists (fst (grow 20 (tokens_of unk1))), (fst (grow 20 (tokens_of unk2))). do 2 eexists. split; [apply (grow_spells 20); vm_compute; reflexivity|]. split; [apply (grow_spells 20); vm_compute; reflexivity|].
    split; [vm_compute; reflexivity|]. split; [vm_compute; reflexivity|].
    assert (K : forall ti c, forallb (fun f => negb (g_element (fi_flags f) && beq (fi_name f) (local (tname c)))) (ti_fields ti) = true -> forall f, In f (ti_fields ti) -> g_element (fi_flags f) = true -> fi_name f <> local (tname c)).
    { intros ti c H f I G E. rewrite forallb_forall in H. specialize (H f I). cbv beta in H. rewrite G, E in H. assert (B : beq (local (tname c)) (local (tname c)) = true) by (apply beq_eq; reflexivity). rewrite B in H. discriminate. }
    assert (KA : forall ti x, forallb (fun e => negb (beq (local (fst e)) (local (aname x)))) (ti_attrs ti) = true -> forall e, In e (ti_attrs ti) -> local (fst e) <> local (aname x)).
    { intros ti x H e I E. rewrite forallb_forall in H. specialize (H e I). cbv beta in H. rewrite E in H. assert (B : beq (local (aname x)) (local (aname x)) = true) by (apply beq_eq; reflexivity). rewrite B in H. discriminate. }
    eapply E_trans; [apply (E_attr mpd_types embed_depth (TStruct MPD) MPD (ti_of MPD) _ [] (mkattr (mkname [] (str "new")) (str "1"))); [reflexivity|vm_compute; reflexivity|vm_compute; reflexivity|apply KA; vm_compute; reflexivity]|].
    eapply (E_inside mpd_types embed_depth (TStruct MPD) MPD (ti_of MPD) _ _ _ _ [] _ _ []); [reflexivity|vm_compute; reflexivity|vm_compute; reflexivity|vm_compute; reflexivity|].
    eapply E_trans; [apply (E_child mpd_types embed_depth _ (str "Period") (ti_of (str "Period")) _ _ [] (Elem (mkname [] (str "MPD")) [mkattr (mkname [] (str "a")) (str "1")] [Text (str "text"); Child (Elem (mkname [] (str "Period")) [] [])])); [reflexivity|vm_compute; reflexivity|apply K; vm_compute; reflexivity]|].
    eapply (E_inside mpd_types embed_depth _ (str "Period") (ti_of (str "Period")) _ _ _ _ [Child _] _ _ []); [reflexivity|vm_compute; reflexivity|vm_compute; reflexivity|vm_compute; reflexivity|].
    apply (E_child mpd_types embed_depth _ (str "BaseURLType") (ti_of (str "BaseURLType")) _ _ [Text (str "u")] (Elem (mkname [] (str "b")) [] []) []); [reflexivity|vm_compute; reflexivity|apply K; vm_compute; reflexivity]. }
  split; [vm_compute; reflexivity|]. destruct (read_mpd fl1 unk1) eqn:E; [eauto| | |]; exfalso; revert E; vm_compute; discriminate.
Qed.
