(** Property C93: what is read into a field comes from the elements and attributes of this field alone; without any the field stays as it is. *)
From Coq Require Import String.
From Coq Require Import ZArith List Bool Lia SpecFloat Permutation.
From Verif Require Import Base Utf8 Lexer Decoder DecoderSpec DecoderProofs PropertiesDecoder GoType Schema TypeInfo PropertiesTypeInfo Simple ValueSpec Unmarshal Io UnmarshalProofs PropertiesUnmarshal RoundTripSpec RoundTripCheck RoundTripParts RoundTripBody RoundTripTest PropertiesDocument PropertiesRoundTrip Hidden Infoset PropertiesInfoset AttrOrder PropertiesAttrOrder Tree Siblings PropertiesSiblings PropertiesUnknown.
Import ListNotations.
Open Scope Z_scope.

(** *** What is claimed *)
(** The value of the field at place [i] of a struct. *)
Definition field (i : nat) (v : gval) : option gval := match v with VRec l => nth_error l i | _ => None end.
(** The field is at place [i], or inside of the struct embedded there. *)
Definition heads (i : nat) (f : finfo) : bool := match fi_idx f with j :: _ => (j =? i)%nat | [] => false end.
(** The attributes and children that belong to it. *)
Definition own_attr (ti : tinfo) (i : nat) (x : attr) : bool := match attr_field ti (aname x) with Some f => heads i f | None => false end.
Definition own_kid (ti : tinfo) (i : nat) (c : tree) : bool := match find_path (ti_fields ti) [] (tname c) with Field f => heads i f | _ => false end.
Definition kids_of (k : list node) : list tree := flat_map (fun x => match x with Text _ => [] | Child c => [c] end) k.
Definition own_attrs (ti : tinfo) (i : nat) (a : list attr) : list attr := filter (own_attr ti i) a.
Definition own_kids (ti : tinfo) (i : nat) (k : list node) : list tree := filter (own_kid ti i) (kids_of k).
(** The fields that are not for attributes or children of their own: the name, text, comments, the inner XML, the rest. *)
Definition general (ti : tinfo) : list finfo :=
  (match ti_xmlname ti with Some x => [x] | None => [] end) ++ filter (fun f => is_data (fi_flags f) || is_comment (fi_flags f) || is_any (fi_flags f) || is_inner (fi_flags f)) (ti_fields ti).

(** *** Proofs *)
Section Local.
Variables (env : tenv) (ek : nat) (F : floats).
Lemma nth_mid : forall (l : list gval) i z j, (i < length l)%nat -> nth_error (upd i l z) j = if (j =? i)%nat then Some z else nth_error l j.
Proof. intros l i z j L. exact (nth_upd j i l z L). Qed.
Lemma update_field : forall {A} (f : gtype -> gval -> outcome uerr (gval * A)) s idx v v' a i, update_at ek env s idx v f = Ok (v', a) ->
  match idx with j :: _ => (j =? i)%nat | [] => false end = false -> field i v' = field i v.
Proof.
  intros A f s [|j rest] v v' a i H NE; [discriminate|]. destruct v as [| | | | | | |l| |]; try discriminate. rewrite update_cons in H. destruct (nth_error (fields_of env s) j) as [fd|]; [|discriminate]. destruct (nth_error l j) as [w|] eqn:NL; [|discriminate].
  match type of H with bind ?x _ = _ => destruct x as [(w', a')| | |]; try discriminate end. cbn [bind] in H. injection H as <- <-. cbn [field]. assert (L : (j < length l)%nat) by (apply nth_error_Some; congruence). rewrite (nth_mid l j w' i L). rewrite Nat.eqb_sym, NE. reflexivity.
Qed.
Lemma update_same : forall {A} (f : gtype -> gval -> outcome uerr (gval * A)) s idx v w v' w' a b i, update_at ek env s idx v f = Ok (v', a) -> update_at ek env s idx w f = Ok (w', b) -> field i v = field i w -> field i v' = field i w'.
Proof.
  intros A f s idx v w v' w' a b i H G X. destruct (match idx with j :: _ => (j =? i)%nat | [] => false end) eqn:HD; [|rewrite (update_field f s idx v v' a i H HD), (update_field f s idx w w' b i G HD); exact X].
  destruct idx as [|j rest]; [discriminate|]. apply Nat.eqb_eq in HD. subst j. destruct v as [| | | | | | |l| |]; try discriminate. destruct w as [| | | | | | |m| |]; try discriminate. rewrite update_cons in H, G. cbn [field] in X.
  destruct (nth_error (fields_of env s) i) as [fd|]; [|discriminate]. destruct (nth_error l i) as [u|] eqn:NL; [|discriminate]. rewrite <- X in G.
  match type of H with bind ?x _ = _ => destruct x as [(u', a')| | |]; try discriminate end. cbn [bind] in H, G. injection H as <- <-. injection G as <- <-. cbn [field].
  assert (L1 : (i < length l)%nat) by (apply nth_error_Some; congruence). assert (L2 : (i < length m)%nat) by (apply nth_error_Some; congruence). rewrite (nth_mid l i u' i L1), (nth_mid m i u' i L2), Nat.eqb_refl. reflexivity.
Qed.
Lemma update_rec : forall {A} (f : gtype -> gval -> outcome uerr (gval * A)) s idx v v' a, update_at ek env s idx v f = Ok (v', a) -> exists m, v' = VRec m.
Proof.
  intros A f s [|j rest] v v' a H; [discriminate|]. destruct v as [| | | | | | |l| |]; try discriminate. rewrite update_cons in H. destruct (nth_error (fields_of env s) j) as [fd|]; [|discriminate]. destruct (nth_error l j) as [w|]; [|discriminate].
  match type of H with bind ?x _ = _ => destruct x as [(w', a')| | |]; try discriminate end. injection H as <- _. eauto.
Qed.
Definition put1 {A} (s : bytes) (f : finfo) (g : gtype -> gval -> outcome uerr (gval * A)) (v : gval) : outcome uerr gval := do (v', _) <- update_at ek env s (fi_idx f) v g ; Ok v'.
Lemma put_other : forall {A} s f (g : gtype -> gval -> outcome uerr (gval * A)) v v' i, put1 s f g v = Ok v' -> heads i f = false -> field i v' = field i v.
Proof. intros A s f g v v' i H NE. unfold put1 in H. destruct (update_at _ _ _ _ _ _) as [(u, a)| | |] eqn:U; try discriminate. injection H as <-. exact (update_field _ _ _ _ _ _ _ U NE). Qed.
Lemma put_same : forall {A} s f (g : gtype -> gval -> outcome uerr (gval * A)) v w v' w' i, put1 s f g v = Ok v' -> put1 s f g w = Ok w' -> field i v = field i w -> field i v' = field i w'.
Proof. intros A s f g v w v' w' i H G X. unfold put1 in *. destruct (update_at ek env s (fi_idx f) v g) as [(u, a)| | |] eqn:U; try discriminate. destruct (update_at ek env s (fi_idx f) w g) as [(u', b)| | |] eqn:U'; try discriminate. injection H as <-. injection G as <-. exact (update_same _ _ _ _ _ _ _ _ _ _ U U' X). Qed.
Lemma update_moves : forall {A} (f : gtype -> gval -> outcome uerr (gval * A)) s idx v w v' a i, match idx with j :: _ => (j =? i)%nat | [] => false end = true -> field i v = field i w -> (exists m, w = VRec m) ->
  update_at ek env s idx v f = Ok (v', a) -> exists w', update_at ek env s idx w f = Ok (w', a) /\ field i v' = field i w' /\ exists m, w' = VRec m.
Proof.
  intros A f s idx v w v' a i HD X (m & ->) H. destruct idx as [|j rest]; [discriminate|]. apply Nat.eqb_eq in HD. subst j. destruct v as [| | | | | | |l| |]; try discriminate. rewrite update_cons in H. cbn [field] in X.
  destruct (nth_error (fields_of env s) i) as [fd|] eqn:NF; [|discriminate]. destruct (nth_error l i) as [u|] eqn:NL; [|discriminate].
  match type of H with bind ?x _ = _ => destruct x as [(u', a')| | |] eqn:IN; try discriminate end. cbn [bind] in H. injection H as <- <-. exists (VRec (upd i m u')). rewrite update_cons, NF, <- X, IN. cbn [bind field].
  assert (L1 : (i < length l)%nat) by (apply nth_error_Some; congruence). assert (L2 : (i < length m)%nat) by (apply nth_error_Some; congruence). rewrite (nth_mid l i u' i L1), (nth_mid m i u' i L2), Nat.eqb_refl. eauto.
Qed.
Lemma attrs_own : forall ti s i a v w v', set_attrs F env ek ti s v a = Ok v' -> field i v = field i w -> (exists m, w = VRec m) -> exists w', set_attrs F env ek ti s w (own_attrs ti i a) = Ok w' /\ field i v' = field i w'.
Proof.
  unfold own_attrs. induction a as [|x a IH]; intros v w v' H X M; cbn [filter set_attrs] in *; [injection H as <-; exists w; auto|]. unfold own_attr at 1. destruct (attr_field ti (aname x)) as [f|] eqn:AF; [|exact (IH _ _ _ H X M)].
  destruct (update_at ek env s (fi_idx f) v _) as [(v1, b)| | |] eqn:U in H; try discriminate. cbn [bind] in H. destruct (heads i f) eqn:HD.
  - cbn [set_attrs]. rewrite AF. destruct (update_moves _ s (fi_idx f) v w v1 b i HD X M U) as (w1 & U' & X' & M'). rewrite U'. cbn [bind]. exact (IH _ _ _ H X' M').
  - apply (IH _ _ _ H); [|exact M]. rewrite (update_field _ _ _ _ _ _ _ U HD). exact X.
Qed.
Lemma kids_own : forall rd ti s i k v w v', kids_loop (tree_child env ek rd s (ti_fields ti)) v k = Ok v' -> field i v = field i w -> (exists m, w = VRec m) -> exists w', kids_loop (tree_child env ek rd s (ti_fields ti)) w (map Child (own_kids ti i k)) = Ok w' /\ field i v' = field i w'.
Proof.
  unfold own_kids. induction k as [|[x|c] k IH]; intros v w v' H X M; cbn [kids_of flat_map app filter map kids_loop] in *; [injection H as <-; exists w; auto|exact (IH _ _ _ H X M)|]. fold (kids_of k). unfold own_kid at 1. unfold tree_child at 1 in H. destruct (find_path (ti_fields ti) [] (tname c)) as [f|ps|] eqn:FP; [|exact (IH _ _ _ H X M)|exact (IH _ _ _ H X M)].
  destruct (update_at ek env s (fi_idx f) v _) as [(v1, b)| | |] eqn:U in H; try discriminate. cbn [bind] in H. destruct (heads i f) eqn:HD.
  - cbn [map kids_loop]. unfold tree_child at 1. rewrite FP. destruct (update_moves _ s (fi_idx f) v w v1 b i HD X M U) as (w1 & U' & X' & M'). rewrite U'. cbn [bind]. exact (IH _ _ _ H X' M').
  - apply (IH _ _ _ H); [|exact M]. rewrite (update_field _ _ _ _ _ _ _ U HD). exact X.
Qed.
Lemma attrs_same : forall ti s i a a' v w v' w', own_attrs ti i a = own_attrs ti i a' -> set_attrs F env ek ti s v a = Ok v' -> set_attrs F env ek ti s w a' = Ok w' -> field i v = field i w -> (exists m, v = VRec m) -> field i v' = field i w'.
Proof.
  intros ti s i a a' v w v' w' E H G X M. destruct (attrs_own ti s i a v v v' H eq_refl M) as (u & U & ->). destruct (attrs_own ti s i a' w v w' G (eq_sym X) M) as (z & Z0 & ->). congruence.
Qed.
Lemma kids_same : forall rd ti s i k k' v w v' w', own_kids ti i k = own_kids ti i k' -> kids_loop (tree_child env ek rd s (ti_fields ti)) v k = Ok v' -> kids_loop (tree_child env ek rd s (ti_fields ti)) w k' = Ok w' -> field i v = field i w -> (exists m, v = VRec m) -> field i v' = field i w'.
Proof.
  intros rd ti s i k k' v w v' w' E H G X M. destruct (kids_own rd ti s i k v v v' H eq_refl M) as (u & U & ->). destruct (kids_own rd ti s i k' w v w' G (eq_sym X) M) as (z & Z0 & ->). congruence.
Qed.
Lemma attrs_rec : forall ti s a v v', set_attrs F env ek ti s v a = Ok v' -> (exists m, v = VRec m) -> exists m, v' = VRec m.
Proof.
  induction a as [|x a IH]; intros v v' H M; cbn [set_attrs] in H; [injection H as <-; exact M|]. destruct (attr_field ti (aname x)) as [f|]; [|exact (IH _ _ H M)]. destruct (update_at ek env s (fi_idx f) v _) as [(v1, b)| | |] eqn:U in H; try discriminate. apply (IH _ _ H). exact (update_rec _ _ _ _ _ _ U).
Qed.
Lemma bind_ok : forall {A B} (x : outcome uerr A) (f : A -> outcome uerr B) y, bind x f = Ok y -> exists a, x = Ok a /\ f a = Ok y.
Proof. intros A B [a| | |] f y H; try discriminate. exists a. auto. Qed.
(** An optional step that both readings make. *)
Lemma opt_same : forall {A} s (o : option finfo) (g : finfo -> gtype -> gval -> outcome uerr (gval * A)) i v w v' w',
  match o with None => Ok v | Some f => do (v', _) <- update_at ek env s (fi_idx f) v (g f) ; Ok v' end = Ok v' -> match o with None => Ok w | Some f => do (v', _) <- update_at ek env s (fi_idx f) w (g f) ; Ok v' end = Ok w' -> field i v = field i w -> field i v' = field i w'.
Proof. intros A s [f|] g i v w v' w' H G X; [exact (put_same s f (g f) v w v' w' i H G X)|injection H as <-; injection G as <-; exact X]. Qed.
Lemma opt_other : forall {A} s (o : option finfo) (g : finfo -> gtype -> gval -> outcome uerr (gval * A)) i v v', (forall f, o = Some f -> heads i f = false) ->
  match o with None => Ok v | Some f => do (v', _) <- update_at ek env s (fi_idx f) v (g f) ; Ok v' end = Ok v' -> field i v' = field i v.
Proof. intros A s [f|] g i v v' N H; [exact (put_other s f (g f) v v' i H (N f eq_refl))|injection H as <-; reflexivity]. Qed.
Lemma opt_rec : forall {A} s (o : option finfo) (g : finfo -> gtype -> gval -> outcome uerr (gval * A)) v v',
  match o with None => Ok v | Some f => do (v', _) <- update_at ek env s (fi_idx f) v (g f) ; Ok v' end = Ok v' -> (exists m, v = VRec m) -> exists m, v' = VRec m.
Proof. intros A s [f|] g v v' H M; [|injection H as <-; exact M]. destruct (update_at _ _ _ _ _ _) as [(u, a)| | |] eqn:U; try discriminate. injection H as <-. exact (update_rec _ _ _ _ _ _ U). Qed.
Lemma modes_apart : forall ti i, (forall f, In f (general ti) -> heads i f = false) -> forall p : fflags -> bool, (forall g, p g = true -> is_data g || is_comment g || is_any g || is_inner g = true) -> forall f, first_mode p (ti_fields ti) = Some f -> heads i f = false.
Proof. intros ti i NG p P f FM. apply NG. unfold general. apply in_or_app. right. apply filter_In. split; [exact (mode_field _ _ _ FM)|apply P; exact (mode_holds _ _ _ FM)]. Qed.
Notation read := (tree_read F env ek).
Theorem field_same : forall r s ti i n n' a a' k k' l v' w', type_info ek env s = Ok ti -> own_attrs ti i a = own_attrs ti i a' -> own_kids ti i k = own_kids ti i k' ->
  (n = n' /\ text_in k = text_in k') \/ (forall f, In f (general ti) -> heads i f = false) ->
  read r (TStruct s) (VRec l) (Elem n a k) = Ok v' -> read r (TStruct s) (VRec l) (Elem n' a' k') = Ok w' -> field i v' = field i w'.
Proof.
  intros [|r] s ti i n n' a a' k k' l v' w' TI EA EK TX H G; [discriminate|]. cbn [tree_read tree_body] in H, G. rewrite TI in H, G. cbv zeta in H, G. unfold touch in H, G. assert (M0 : exists m, VRec l = VRec m) by eauto.
  apply bind_ok in H as (v1 & H1 & H). apply bind_ok in G as (w1 & G1 & G). assert (X1 : field i v1 = field i w1 /\ exists m, v1 = VRec m).
  { destruct (ti_xmlname ti) as [x|] eqn:XN; [|injection H1 as <-; injection G1 as <-; auto]. destruct (_ || _); [discriminate|]. match type of G1 with (if ?b then _ else _) = _ => destruct b; [discriminate|] end. split.
    - destruct TX as [(<- & _)|NG]; [exact (opt_same s (Some x) (fun f t w => Ok (match t with TName => VName n | _ => w end, tt)) i _ _ _ _ H1 G1 eq_refl)|].
      assert (HX : heads i x = false) by (apply NG; unfold general; rewrite XN; left; reflexivity). rewrite (put_other s x _ _ _ i H1 HX), (put_other s x _ _ _ i G1 HX). reflexivity.
    - exact (opt_rec s (Some x) (fun f t w => Ok (match t with TName => VName n | _ => w end, tt)) _ _ H1 M0). }
  clear H1 G1 M0. destruct X1 as (X1 & M1).
  apply bind_ok in H as (v2 & H1 & H). apply bind_ok in G as (w2 & G1 & G). pose proof (attrs_same _ _ _ _ _ _ _ _ _ EA H1 G1 X1 M1) as X2. pose proof (attrs_rec _ _ _ _ _ H1 M1) as M2. clear H1 G1 X1 M1.
  apply bind_ok in H as (v3 & H1 & H). apply bind_ok in G as (w3 & G1 & G). pose proof (opt_same s _ (fun _ _ w => Ok (w, tt)) i _ _ _ _ H1 G1 X2) as X3. pose proof (opt_rec s _ (fun _ _ w => Ok (w, tt)) _ _ H1 M2) as M3. clear H1 G1 X2 M2.
  apply bind_ok in H as (v4 & H1 & H). apply bind_ok in G as (w4 & G1 & G). pose proof (opt_same s _ (fun _ _ w => Ok (w, tt)) i _ _ _ _ H1 G1 X3) as X4. pose proof (opt_rec s _ (fun _ _ w => Ok (w, tt)) _ _ H1 M3) as M4. clear H1 G1 X3 M3.
  apply bind_ok in H as (v5 & H1 & H). apply bind_ok in G as (w5 & G1 & G). pose proof (opt_same s _ (fun _ _ w => Ok (w, tt)) i _ _ _ _ H1 G1 X4) as X5. pose proof (opt_rec s _ (fun _ _ w => Ok (w, tt)) _ _ H1 M4) as M5. clear H1 G1 X4 M4.
  apply bind_ok in H as (v6 & H1 & H). apply bind_ok in G as (w6 & G1 & G). pose proof (opt_same s _ (fun _ _ w => Ok (w, tt)) i _ _ _ _ H1 G1 X5) as X6. pose proof (opt_rec s _ (fun _ _ w => Ok (w, tt)) _ _ H1 M5) as M6. clear H1 G1 X5 M5.
  apply bind_ok in H as (v7 & H1 & H). apply bind_ok in G as (w7 & G1 & G). pose proof (kids_same _ _ _ _ _ _ _ _ _ _ EK H1 G1 X6 M6) as X7. clear H1 G1 X6 M6.
  apply bind_ok in H as (v8 & H1 & H). apply bind_ok in G as (w8 & G1 & G). assert (X8 : field i v8 = field i w8).
  { destruct TX as [(_ & TX)|NG]; [rewrite <- TX in G1; exact (opt_same s _ (fun f t _ => with_unit (copy_value F t (text_in k))) i _ _ _ _ H1 G1 X7)|].
    pose proof (modes_apart ti i NG is_data ltac:(intros g E; rewrite E; reflexivity)) as M. rewrite (opt_other s _ (fun f t _ => with_unit (copy_value F t (text_in k))) i _ _ M H1), (opt_other s _ (fun f t _ => with_unit (copy_value F t (text_in k'))) i _ _ M G1). exact X7. }
  clear H1 G1 X7.
  apply bind_ok in H as (v9 & H1 & H). apply bind_ok in G as (w9 & G1 & G). pose proof (opt_same s _ (fun f t w => match t with TString => Ok (VStr [], tt) | TSlice _ => Panic | _ => Ok (w, tt) end) i _ _ _ _ H1 G1 X8) as X9. clear H1 G1 X8.
  exact (opt_same s _ (fun f t w => Ok (match t with TString => VStr [] | _ => w end, tt)) i _ _ _ _ H G X9).
Qed.
Lemma attrs_other : forall ti s i a v v', (forall x, In x a -> own_attr ti i x = false) -> set_attrs F env ek ti s v a = Ok v' -> field i v' = field i v.
Proof.
  induction a as [|x a IH]; intros v v' N H; cbn [set_attrs] in H; [injection H as <-; reflexivity|]. pose proof (N x (or_introl eq_refl)) as NX. unfold own_attr in NX. destruct (attr_field ti (aname x)) as [f|]; [|apply (IH v v' (fun y I => N y (or_intror I)) H)].
  apply bind_ok in H as ((v1, b) & U & H). rewrite (IH v1 v' (fun y I => N y (or_intror I)) H). exact (update_field _ _ _ _ _ _ _ U NX).
Qed.
Lemma kids_other : forall rd ti s i k v v', (forall c, In (Child c) k -> own_kid ti i c = false) -> kids_loop (tree_child env ek rd s (ti_fields ti)) v k = Ok v' -> field i v' = field i v.
Proof.
  induction k as [|[x|c] k IH]; intros v v' N H; cbn [kids_loop] in H; [injection H as <-; reflexivity|apply (IH v v' (fun y I => N y (or_intror I)) H)|]. pose proof (N c (or_introl eq_refl)) as NC. unfold own_kid in NC. apply bind_ok in H as (v1 & U & H). rewrite (IH v1 v' (fun y I => N y (or_intror I)) H).
  unfold tree_child in U. destruct (find_path (ti_fields ti) [] (tname c)) as [f|ps|]; [exact (put_other s f _ v v1 i U NC)|injection U as <-; reflexivity|injection U as <-; reflexivity].
Qed.
Theorem field_kept : forall r s ti i n a k v v', type_info ek env s = Ok ti -> (forall x, In x a -> own_attr ti i x = false) -> (forall c, In (Child c) k -> own_kid ti i c = false) -> (forall f, In f (general ti) -> heads i f = false) ->
  read r (TStruct s) v (Elem n a k) = Ok v' -> field i v' = field i v.
Proof.
  intros [|r] s ti i n a k v v' TI NA NK NG H; [discriminate|]. cbn [tree_read tree_body] in H. rewrite TI in H. cbv zeta in H. unfold touch in H.
  pose proof (modes_apart ti i NG) as M.
  assert (M1 := M is_data ltac:(intros g E; rewrite E; reflexivity)). assert (M2 := M is_comment ltac:(intros g E; rewrite E, orb_true_r; reflexivity)). assert (M3 := M is_any ltac:(intros g E; rewrite E, orb_true_r; reflexivity)). assert (M4 := M is_inner ltac:(intros g E; rewrite E, orb_true_r; reflexivity)).
  apply bind_ok in H as (v1 & H1 & H). assert (X1 : field i v1 = field i v).
  { destruct (ti_xmlname ti) as [x|] eqn:XN; [|injection H1 as <-; reflexivity]. match type of H1 with (if ?b then _ else _) = _ => destruct b; [discriminate|] end. apply (put_other s x _ v v1 i H1). apply NG. unfold general. rewrite XN. left. reflexivity. }
  apply bind_ok in H as (v2 & H2 & H). pose proof (attrs_other _ _ _ _ _ _ NA H2) as X2. apply bind_ok in H as (v3 & H3 & H). pose proof (opt_other s _ (fun _ _ w => Ok (w, tt)) i _ _ M1 H3) as X3.
  apply bind_ok in H as (v4 & H4 & H). pose proof (opt_other s _ (fun _ _ w => Ok (w, tt)) i _ _ M2 H4) as X4. apply bind_ok in H as (v5 & H5 & H). pose proof (opt_other s _ (fun _ _ w => Ok (w, tt)) i _ _ M3 H5) as X5. apply bind_ok in H as (v6 & H6 & H). pose proof (opt_other s _ (fun _ _ w => Ok (w, tt)) i _ _ M4 H6) as X6.
  apply bind_ok in H as (v7 & H7 & H). pose proof (kids_other _ _ _ _ _ _ _ NK H7) as X7.
  apply bind_ok in H as (v8 & H8 & H). pose proof (opt_other s _ (fun f t _ => with_unit (copy_value F t (text_in k))) i _ _ M1 H8) as X8.
  apply bind_ok in H as (v9 & H9 & H). pose proof (opt_other s _ (fun f t w => match t with TString => Ok (VStr [], tt) | TSlice _ => Panic | _ => Ok (w, tt) end) i _ _ M2 H9) as X9.
  pose proof (opt_other s _ (fun f t w => Ok (match t with TString => VStr [] | _ => w end, tt)) i _ _ M4 H) as X. congruence.
Qed.
End Local.
(** What [near] says of one field. *)
Lemma near_field : forall env kind s v w i fd, near env kind (TStruct s) v w -> nth_error (fields_of env s) i = Some fd -> kind fd = Exact ->
  match field i v, field i w with Some x, Some y => near env kind (fd_type fd) x y | None, None => True | _, _ => False end.
Proof.
  intros env kind s v w i fd N NF K. inversion N as [t u E1 E2 E3| | |s' l l' LE P E1 E2 E3]; subst.
  - destruct (field i w); [apply N_refl|exact I].
  - cbn [field]. destruct (nth_error l i) as [x|] eqn:A; destruct (nth_error l' i) as [y|] eqn:B; try exact I.
    + destruct (P i x y A B) as [(Q & _)|(f & Q & D)]; [congruence|]. rewrite NF in Q. injection Q as <-. rewrite K in D. destruct D as [D|[(D & _)|(_ & D)]]; try discriminate. exact D.
    + apply nth_error_None in B. assert (i < length l)%nat by (apply nth_error_Some; congruence). lia.
    + apply nth_error_None in A. assert (i < length l')%nat by (apply nth_error_Some; congruence). lia.
Qed.
(** C93: two documents whose root elements have the same attributes and the same children for a field give it the same value, whatever else they have. *)
Theorem C93_field : forall F env ek kind x y s ti i fd m inp inp' ts us l l' n n' a a' k k' v w, kind_ok env ek kind Exact -> (forall s ti, type_info ek env s = Ok ti -> plain ti = true) ->
  ends x (new_decoder inp) ts -> ends y (new_decoder inp') us -> spells ts l -> spells us l' -> root l = Some (Elem n a k) -> root l' = Some (Elem n' a' k') ->
  type_info ek env s = Ok ti -> nth_error (fields_of env s) i = Some fd -> kind fd = Exact ->
  own_attrs ti i a = own_attrs ti i a' -> own_kids ti i k = own_kids ti i k' -> (n = n' /\ text_in k = text_in k') \/ (forall f, In f (general ti) -> heads i f = false) ->
  decode F env ek (enough inp) (TStruct s) (VRec m) inp = Ok v -> decode F env ek (enough inp') (TStruct s) (VRec m) inp' = Ok w ->
  match field i v, field i w with Some x, Some y => near env kind (fd_type fd) x y | None, None => True | _, _ => False end.
Proof.
  intros F env ek kind x y s ti i fd m inp inp' ts us l l' n n' a a' k k' v w W PL E1 E2 S1 S2 R1 R2 TI NF K EA EK TX D1 D2.
  pose proof (ends_short _ _ _ E1) as L1. pose proof (ends_short _ _ _ E2) as L2. destruct E1 as (d1 & e1 & C1 & _). destruct E2 as (d2 & e2 & C2 & _).
  pose proof (decode_tree F env ek kind Exact ltac:(discriminate) W PL (enough inp) ts l d1 inp (TStruct s) (VRec m) (VRec m) _ (N_refl _ _ _ _) C1 S1 R1 L1) as H1.
  pose proof (decode_tree F env ek kind Exact ltac:(discriminate) W PL (enough inp') us l' d2 inp' (TStruct s) (VRec m) (VRec m) _ (N_refl _ _ _ _) C2 S2 R2 L2) as H2.
  rewrite D1 in H1. rewrite D2 in H2. destruct (tree_read F env ek max_depth (TStruct s) (VRec m) (Elem n a k)) as [v0| | |] eqn:T1; cbn in H1; try contradiction. destruct (tree_read F env ek max_depth (TStruct s) (VRec m) (Elem n' a' k')) as [w0| | |] eqn:T2; cbn in H2; try contradiction.
  pose proof (field_same env ek F max_depth s ti i n n' a a' k k' m v0 w0 TI EA EK TX T1 T2) as X. pose proof (near_field _ _ _ _ _ _ _ H1 NF K) as N1. pose proof (near_field _ _ _ _ _ _ _ H2 NF K) as N2.
  rewrite X in N1. destruct (field i w0); destruct (field i v); try contradiction; destruct (field i w); try contradiction; auto. eapply near_trans; [exact N1|apply near_sym; exact N2].
Qed.
Print Assumptions C93_field.
(** C93: with no attributes and no children for it, a field keeps the value that it had before. *)
Theorem C93_absent : forall F env ek kind x s ti i fd v inp ts l n a k v', kind_ok env ek kind Exact -> (forall s ti, type_info ek env s = Ok ti -> plain ti = true) ->
  ends x (new_decoder inp) ts -> spells ts l -> root l = Some (Elem n a k) -> type_info ek env s = Ok ti -> nth_error (fields_of env s) i = Some fd -> kind fd = Exact ->
  own_attrs ti i a = [] -> own_kids ti i k = [] -> (forall f, In f (general ti) -> heads i f = false) -> decode F env ek (enough inp) (TStruct s) v inp = Ok v' ->
  match field i v', field i v with Some x, Some y => near env kind (fd_type fd) x y | None, None => True | _, _ => False end.
Proof.
  intros F env ek kind x s ti i fd v inp ts l n a k v' W PL E1 S1 R1 TI NF K EA EK NG D1. pose proof (ends_short _ _ _ E1) as L1. destruct E1 as (d1 & e1 & C1 & _).
  pose proof (decode_tree F env ek kind Exact ltac:(discriminate) W PL (enough inp) ts l d1 inp (TStruct s) v v _ (N_refl _ _ _ _) C1 S1 R1 L1) as H1.
  rewrite D1 in H1. destruct (tree_read F env ek max_depth (TStruct s) v (Elem n a k)) as [v0| | |] eqn:T1; cbn in H1; try contradiction. pose proof (near_field _ _ _ _ _ _ _ H1 NF K) as N1.
  assert (NA : forall y, In y a -> own_attr ti i y = false). { intros y I. destruct (own_attr ti i y) eqn:O; [|reflexivity]. assert (I' : In y (own_attrs ti i a)) by (apply filter_In; auto). rewrite EA in I'. destruct I'. }
  assert (NK : forall c, In (Child c) k -> own_kid ti i c = false). { intros c I. destruct (own_kid ti i c) eqn:O; [|reflexivity]. assert (I' : In c (own_kids ti i k)) by (apply filter_In; split; [apply in_flat_map; exists (Child c); split; [exact I|left; reflexivity]|exact O]). rewrite EK in I'. destruct I'. }
  rewrite (field_kept env ek F max_depth s ti i n a k v v0 TI NA NK NG T1) in N1. exact N1.
Qed.
Print Assumptions C93_absent.
(** The name in a tag: before the first comma, without a name space and a prefix. *)
Fixpoint upto (c : Z) (s : bytes) : bytes := match s with [] => [] | x :: s => if x =? c then [] else x :: upto c s end.
Fixpoint behind (c : Z) (s : bytes) : bytes := match s with [] => [] | x :: t => if existsb (Z.eqb c) t then behind c t else if x =? c then t else s end.
Definition key (f : fdecl) : bytes := behind 58 (behind 32 (upto 44 (fd_tag f))).
Fixpoint has (p s : bytes) : bool := beq p (firstn (length p) s) || match s with [] => false | _ :: s => has p s end.
(** The root element has something for the field. *)
Definition mentions (f : fdecl) (T : tree) : bool := let '(Elem _ a k) := T in
  if has (str ",attr") (fd_tag f) then existsb (fun x => beq (local (aname x)) (key f)) a else existsb (fun c => beq (local (tname c)) (key f)) (kids_of k).
Lemma mpd_places : forall i fd, nth_error (fields_of mpd_types MPD) (S i) = Some fd ->
  but_verbatim Exact fd = Exact /\ (forall f, In f (general (ti_of MPD)) -> heads (S i) f = false) /\
  (forall e, In e (ti_attrs (ti_of MPD)) -> heads (S i) (snd e) = true -> has (str ",attr") (fd_tag fd) = true /\ local (fst e) = key fd) /\
  (forall f, In f (ti_fields (ti_of MPD)) -> g_element (fi_flags f) = true -> heads (S i) f = true -> has (str ",attr") (fd_tag fd) = false /\ fi_name f = key fd) /\
  ti_anyattr (ti_of MPD) = None.
Proof.
  assert (G : forallb (fun f => heads 0 f) (general (ti_of MPD)) = true) by (vm_compute; reflexivity).
  assert (H : forallb (fun i => match nth_error (fields_of mpd_types MPD) (S i) with None => true | Some fd => (match but_verbatim Exact fd with Exact => true | _ => false end) &&
    (forallb (fun e => implb (heads (S i) (snd e)) (has (str ",attr") (fd_tag fd) && beq (local (fst e)) (key fd))) (ti_attrs (ti_of MPD)) &&
     forallb (fun f => implb (g_element (fi_flags f) && heads (S i) f) (negb (has (str ",attr") (fd_tag fd)) && beq (fi_name f) (key fd))) (ti_fields (ti_of MPD))) end) (seq 0 (length (fields_of mpd_types MPD))) = true) by (vm_compute; reflexivity).
  intros i fd NF. rewrite forallb_forall in H. specialize (H i). rewrite NF in H. assert (I : In i (seq 0 (length (fields_of mpd_types MPD)))) by (apply in_seq; assert (S i < length (fields_of mpd_types MPD))%nat by (apply nth_error_Some; congruence); lia).
  specialize (H I). apply andb_true_iff in H as (H1 & H2). apply andb_true_iff in H2 as (H2 & H3). rewrite forallb_forall in G, H2, H3. repeat split.
  - destruct (but_verbatim Exact fd); try discriminate. reflexivity.
  - intros f J. specialize (G f J). cbv beta in G. unfold heads in *. destruct (fi_idx f) as [|j ?]; [reflexivity|]. apply Nat.eqb_eq in G. subst j. reflexivity.
  - specialize (H2 e H). cbv beta in H2. rewrite H0 in H2. apply andb_true_iff in H2 as (A & B). exact A.
  - specialize (H2 e H). cbv beta in H2. rewrite H0 in H2. apply andb_true_iff in H2 as (A & B). apply beq_eq. exact B.
  - specialize (H3 f H). cbv beta in H3. rewrite H0, H4 in H3. apply andb_true_iff in H3 as (A & B). apply negb_true_iff. exact A.
  - specialize (H3 f H). cbv beta in H3. rewrite H0, H4 in H3. apply andb_true_iff in H3 as (A & B). apply beq_eq. exact B.
Qed.
Lemma attr_field_in : forall ti n f, ti_anyattr ti = None -> attr_field ti n = Some f -> exists e, In e (ti_attrs ti) /\ snd e = f /\ local (fst e) = local n.
Proof.
  intros ti n f AA AF. unfold attr_field in AF. destruct (find_attr (ti_attrs ti) n) as [g|] eqn:F1; [injection AF as ->; destruct (PropertiesTypeInfo.find_attr_in _ _ _ F1) as (nm & J & ->); exists (n, f); auto|].
  destruct (find_attr (ti_attrs ti) (mkname [] (local n))) as [g|] eqn:F2; [injection AF as ->; destruct (PropertiesTypeInfo.find_attr_in _ _ _ F2) as (nm & J & ->); eexists; split; [exact J|]; auto|]. congruence.
Qed.
Lemma none_mentioned : forall ti i fd n a k, ti_anyattr ti = None -> (forall e, In e (ti_attrs ti) -> heads i (snd e) = true -> has (str ",attr") (fd_tag fd) = true /\ local (fst e) = key fd) ->
  (forall f, In f (ti_fields ti) -> g_element (fi_flags f) = true -> heads i f = true -> has (str ",attr") (fd_tag fd) = false /\ fi_name f = key fd) -> mentions fd (Elem n a k) = false -> own_attrs ti i a = [] /\ own_kids ti i k = [].
Proof.
  intros ti i fd n a k AA PA PK ME. split.
  - destruct (own_attrs ti i a) as [|y r] eqn:O; [reflexivity|exfalso]. assert (I : In y (own_attrs ti i a)) by (rewrite O; left; reflexivity). apply filter_In in I as (I & Q). unfold own_attr in Q. destruct (attr_field ti (aname y)) as [f|] eqn:AF; [|discriminate].
    destruct (attr_field_in _ _ _ AA AF) as (e & J & <- & LN). destruct (PA e J Q) as (HA & KE). cbn [mentions] in ME. rewrite HA in ME. assert (B : existsb (fun x => beq (local (aname x)) (key fd)) a = true) by (apply existsb_exists; exists y; split; [exact I|apply beq_eq; congruence]). congruence.
  - destruct (own_kids ti i k) as [|c r] eqn:O; [reflexivity|exfalso]. assert (I : In c (own_kids ti i k)) by (rewrite O; left; reflexivity). apply filter_In in I as (I & Q). unfold own_kid in Q. destruct (find_path (ti_fields ti) [] (tname c)) as [f| |] eqn:FP; try discriminate.
    destruct (find_path_in _ _ _ _ FP) as (J & GE). pose proof (find_path_name _ _ _ _ FP) as LN. destruct (PK f J GE Q) as (HA & KE). cbn [mentions] in ME. rewrite HA in ME. assert (B : existsb (fun c => beq (local (tname c)) (key fd)) (kids_of k) = true) by (apply existsb_exists; exists c; split; [exact I|apply beq_eq; congruence]). congruence.
Qed.
(** C93 for the package: what the root element does not mention is left at zero in the MPD that is returned. *)
Theorem C93_mpd : forall F x inp ts l T i fd v, ends x (new_decoder inp) ts -> spells ts l -> root l = Some T -> nth_error (fields_of mpd_types MPD) (S i) = Some fd -> mentions fd T = false ->
  read_mpd F inp = Ok v -> field (S i) v = Some (zero_of mpd_types embed_depth (fd_type fd)).
Proof.
  intros F x inp ts l [n a k] i fd v E S1 R1 NF ME RD. destruct (mpd_places i fd NF) as (K & NG & PA & PK & AA). assert (TI : type_info embed_depth mpd_types MPD = Ok (ti_of MPD)) by (vm_compute; reflexivity).
  destruct (none_mentioned _ _ _ n _ _ AA PA PK ME) as (EA & EK). unfold read_mpd, mpd_from_bytes in RD. fold MPD in RD. change (zero_of mpd_types embed_depth (TStruct MPD)) with (zero_value MPD) in RD.
  pose proof (C93_absent F mpd_types embed_depth (but_verbatim Exact) x MPD (ti_of MPD) (S i) fd (zero_value MPD) inp ts l n a k v (mpd_kind Exact ltac:(discriminate)) (fun s ti TI => proj2 (proj2 (mpd_apart s ti TI))) E S1 R1 TI NF K EA EK NG RD) as H.
  assert (Z0 : forall i fd, nth_error (fields_of mpd_types MPD) i = Some fd -> field i (zero_value MPD) = Some (zero_of mpd_types embed_depth (fd_type fd)) /\ match zero_of mpd_types embed_depth (fd_type fd) with VRec _ | VPtr _ | VList (_ :: _) => False | _ => True end).
  { clear. assert (H : forallb (fun fd => match zero_of mpd_types embed_depth (fd_type fd) with VRec _ | VPtr _ | VList (_ :: _) => false | _ => true end) (fields_of mpd_types MPD) = true) by (vm_compute; reflexivity).
    assert (E : zero_value MPD = VRec (map (fun fd => zero_of mpd_types embed_depth (fd_type fd)) (fields_of mpd_types MPD))) by (vm_compute; reflexivity).
    intros i fd NF. split; [rewrite E; cbn [field]; rewrite nth_error_map, NF; reflexivity|]. rewrite forallb_forall in H. specialize (H fd (nth_error_In _ _ NF)). destruct (zero_of mpd_types embed_depth (fd_type fd)) as [| | | | | |[|]| | |]; auto; discriminate. }
  destruct (Z0 (S i) fd NF) as (Z1 & Z2). rewrite Z1 in H. destruct (field (S i) v) as [y|]; [|destruct H]. f_equal. remember (zero_of mpd_types embed_depth (fd_type fd)) as z eqn:EZ. clear EZ Z1. inversion H; subst; try contradiction; [reflexivity|]. match goal with X : Forall2 _ _ ?l |- _ => destruct l; [inversion X; subst; reflexivity|contradiction] end.
Qed.
Print Assumptions C93_mpd.
(** Two documents with the same Periods and nothing else in common: the Periods read are the same, and what is missing is zero. *)
Definition loc1 : bytes := str "<MPD profiles=""p""><Period id=""P1""/><BaseURL>u</BaseURL><Period id=""P2""/></MPD>".
Definition loc2 : bytes := str "<MPD id=""x"" minBufferTime=""PT2S""><UTCTiming schemeIdUri=""s""/><Period id=""P1""/><Period id=""P2""/></MPD>".
Definition got (i : nat) (inp : bytes) : option gval := match read_mpd fl1 inp with Ok v => field i v | _ => None end.
Example C93_ex : got 26 loc1 = got 26 loc2 /\ got 26 loc1 <> Some (VList []) /\ got 4 loc1 = Some (VStr (str "p")) /\ got 4 loc2 = Some (VStr []) /\ got 11 loc1 = Some VNil /\ got 11 loc2 <> Some VNil /\ got 17 loc2 = Some (VList []) /\
  (exists l l' n n' a a' k k', spells (tokens_of loc1) l /\ spells (tokens_of loc2) l' /\ root l = Some (Elem n a k) /\ root l' = Some (Elem n' a' k') /\ own_kids (ti_of MPD) 26 k = own_kids (ti_of MPD) 26 k' /\ length (own_kids (ti_of MPD) 26 k) = 2%nat /\
     own_attrs (ti_of MPD) 4 a <> [] /\ own_attrs (ti_of MPD) 4 a' = [] /\ own_attrs (ti_of MPD) 26 a = own_attrs (ti_of MPD) 26 a') /\
  map (fun f => key f) (firstn 3 (skipn 1 (fields_of mpd_types MPD))) = [str "xmlns"; str "schemaLocation"; str "id"].
Proof.
  do 7 (split; [vm_compute; (reflexivity || discriminate)|]). split; [|vm_compute; reflexivity]. exists (fst (grow 20 (tokens_of loc1))), (fst (grow 20 (tokens_of loc2))). do 6 eexists. split; [apply (grow_spells 20); vm_compute; reflexivity|]. split; [apply (grow_spells 20); vm_compute; reflexivity|].
  split; [vm_compute; reflexivity|]. split; [vm_compute; reflexivity|]. repeat split; vm_compute; (reflexivity || discriminate).
Qed.
