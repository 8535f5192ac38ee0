(** Trees that differ in the order of children with different names, in the order of attributes, and in text where there is no place for it, are read as the same value. *)
From Coq Require Import String.
From Coq Require Import ZArith List Bool Lia Permutation.
From Verif Require Import Base Lexer Decoder GoType TypeInfo Simple Unmarshal UnmarshalProofs RoundTripBody Hidden Infoset AttrOrder Tree.
Import ListNotations.
Open Scope Z_scope.

(** *** What is claimed *)
(** Fields for elements with different names are different fields. *)
Definition elements_apart (ti : tinfo) : bool :=
  forallb (fun f => forallb (fun g => negb (g_element (fi_flags f) && g_element (fi_flags g)) || beq (fi_name f) (fi_name g) || diverge (fi_idx f) (fi_idx g)) (ti_fields ti)) (ti_fields ti).
(** Structs without a field for text, and pointers and slices of these. *)
Fixpoint dataless (env : tenv) (ek : nat) (t : gtype) : bool :=
  match t with
  | TPtr t | TSlice t => dataless env ek t
  | TStruct s => match type_info ek env s with Ok ti => match first_mode is_data (ti_fields ti) with Some _ => false | None => true end | _ => true end
  | TName => true
  | _ => false
  end.
(** Element names for which all fields are of such types. *)
Definition bare_in (env : tenv) (ek : nat) (l : bytes) : bool :=
  forallb (fun d => match type_info ek env (sd_name d) with
                    | Ok ti => forallb (fun f => negb (g_element (fi_flags f)) || negb (beq (fi_name f) l) || match target env (sd_name d) (fi_idx f) with Some t => dataless env ek t | None => true end) (ti_fields ti)
                    | _ => true
                    end) env.

Section Siblings.
Variables (F : floats) (env : tenv) (ek : nat) (kind : fdecl -> care) (bare : bytes -> bool).
Hypothesis WAY : forall s ti, type_info ek env s = Ok ti ->
  forallb (fun f => way env kind (apart Mixed (fi_flags f)) s (fi_idx f)) (ti_fields ti) = true /\
  forallb (fun f => way env kind Exact s (fi_idx f)) (map snd (ti_attrs ti) ++ match ti_xmlname ti with Some x => [x] | None => [] end) = true /\
  forallb (fun f => way env kind Mixed s (fi_idx f)) (match ti_anyattr ti with Some x => [x] | None => [] end) = true.
Hypothesis APART : forall s ti, type_info ek env s = Ok ti -> attrs_apart ti = true.
Hypothesis SIBS : forall s ti, type_info ek env s = Ok ti -> elements_apart ti = true.
Hypothesis BARE : forall s ti f t, type_info ek env s = Ok ti -> In f (ti_fields ti) -> g_element (fi_flags f) = true -> bare (fi_name f) = true -> target env s (fi_idx f) = Some t -> dataless env ek t = true.
Notation near := (near env kind).
Notation mix := (mix bare).
Notation mixed_tree := (mixed_tree bare).
Definition suits (t : gtype) (n : name) : Prop := bare (local n) = true -> dataless env ek t = true.
Lemma mixed_tree_refl : forall T, mixed_tree T T.
Proof. clear. intros [n a l]. constructor; constructor. Qed.
Lemma mix_text : forall k k', mix false k k' -> text_in k = text_in k'.
Proof.
  clear. intros k k' H. remember false as b eqn:B. induction H as [b l|b l l' l'' H1 IH1 H2 IH2|b x l l' H IH|b t t' l NE|b x t l|b x t l|b x y l|b x y l|b x l D|b x l D|b t t' l MT]; subst b; cbn [text_in]; rewrite ?app_assoc; try reflexivity.
  - rewrite IH1 by reflexivity. apply IH2. reflexivity.
  - destruct x; rewrite IH by reflexivity; reflexivity.
  - destruct D as [?| ->]; [discriminate|reflexivity].
  - destruct D as [?| ->]; [discriminate|reflexivity].
Qed.
Lemma kids_mix : forall s (c : gval -> tree -> outcome uerr gval),
  (forall v w T T', mixed_tree T T' -> near (TStruct s) v w -> agrees false (near (TStruct s)) (c v T) (c w T')) ->
  (forall v T T', local (tname T) <> local (tname T') -> agrees false (near (TStruct s)) (do v1 <- c v T ; c v1 T') (do v1 <- c v T' ; c v1 T)) ->
  forall b k k', mix b k k' -> forall v w, near (TStruct s) v w -> agrees false (near (TStruct s)) (kids_loop c v k) (kids_loop c w k').
Proof.
  clear WAY APART SIBS BARE. intros s c CC CS.
  assert (NL : forall l v w, near (TStruct s) v w -> agrees false (near (TStruct s)) (kids_loop c v l) (kids_loop c w l)).
  { induction l as [|[x|T] l IH]; intros v w N; [exact N|exact (IH v w N)|]. cbn [kids_loop]. eapply agrees_bind; [exact (CC v w T T (mixed_tree_refl T) N)|exact IH]. }
  intros b k k' H. induction H as [b l|b l l' l'' H1 IH1 H2 IH2|b x l l' H IH|b t t' l NE|b x t l|b x t l|b x y l|b x y l|b x l D|b x l D|b t t' l MT]; intros v w N; try exact (NL _ v w N).
  - eapply agrees_trans; [exact (IH1 v v (N_refl _ _ _ _))|exact (IH2 v w N)].
  - destruct x as [x|T]; cbn [kids_loop]; [exact (IH v w N)|]. eapply agrees_bind; [exact (CC v w T T (mixed_tree_refl T) N)|exact IH].
  - eapply agrees_trans; [|exact (NL _ v w N)]. cbn [kids_loop].
    assert (E : forall T T', (do v1 <- c v T ; do v2 <- c v1 T' ; kids_loop c v2 l) = (do v2 <- (do v1 <- c v T ; c v1 T') ; kids_loop c v2 l)) by (intros T T'; destruct (c v T); reflexivity).
    rewrite !E. eapply agrees_bind; [exact (CS v t t' NE)|]. intros y z YZ. exact (NL l y z YZ).
  - cbn [kids_loop]. eapply agrees_bind; [exact (CC v w t t' MT N)|]. intros y z YZ. exact (NL l y z YZ).
Qed.
Lemma find_path_name : forall fs ps n f, find_path fs ps n = Field f -> fi_name f = local n.
Proof.
  clear. induction fs as [|g fs IH]; intros ps n f H; cbn [find_path] in H; [discriminate|]. destruct (_ || _); [exact (IH _ _ _ H)|]. destruct (_ =? _)%nat; [destruct (beq (fi_name g) (local n)) eqn:E; [injection H as <-; apply beq_eq; exact E|exact (IH _ _ _ H)]|].
  destruct (beq _ _); [discriminate|exact (IH _ _ _ H)].
Qed.
Definition tree_mix (read : tree_reader) : Prop := forall t v w T T', suits t (tname T) -> mixed_tree T T' -> near t v w -> agrees false (near t) (read t v T) (read t w T').
Lemma child_mix : forall read s ti, tree_mix read -> type_info ek env s = Ok ti -> forall v w T T', mixed_tree T T' -> near (TStruct s) v w -> agrees false (near (TStruct s)) (tree_child env ek read s (ti_fields ti) v T) (tree_child env ek read s (ti_fields ti) w T').
Proof.
  intros read s ti R TI v w T T' MT N. unfold tree_child. assert (E : tname T' = tname T) by (destruct MT; reflexivity). rewrite E. destruct (find_path (ti_fields ti) [] (tname T)) as [f|ps|] eqn:FP; try exact N.
  pose proof (find_path_name _ _ _ _ FP) as FN. apply find_path_in in FP as (FI & FE).
  eapply agrees_bind with (R := fun y z => near (TStruct s) (fst y) (fst z)); [|intros (y, []) (z, []) YZ; exact YZ]. eapply agrees_impl; [apply (update_near env ek false kind unit unit (fun _ _ => True) Exact); [|eapply way_field; eauto; apply element_not_apart; exact FE|exact N]|intros (y, []) (z, []) (YZ & _); exact YZ].
  intros t y z TG _ YZ. unfold with_unit. eapply agrees_bind; [apply (R t y z T T'); [|exact MT|exact YZ]|intros y' z' Q; cbn; auto]. intros B. rewrite <- FN in B. exact (BARE s ti f t TI FI FE B TG).
Qed.
Lemma child_swap : forall read s ti, type_info ek env s = Ok ti -> forall v T T', local (tname T) <> local (tname T') ->
  agrees false (near (TStruct s)) (do v1 <- tree_child env ek read s (ti_fields ti) v T ; tree_child env ek read s (ti_fields ti) v1 T') (do v1 <- tree_child env ek read s (ti_fields ti) v T' ; tree_child env ek read s (ti_fields ti) v1 T).
Proof.
  intros read s ti TI v T T' NE. assert (RF : forall y, agrees false (near (TStruct s)) y y) by (intro; apply agrees_refl; intro; apply N_refl).
  assert (ID : forall (y : outcome uerr gval), (do v1 <- y ; Ok v1) = y) by (intros [| | |]; reflexivity).
  unfold tree_child. destruct (find_path (ti_fields ti) [] (tname T)) as [f|ps|] eqn:FT, (find_path (ti_fields ti) [] (tname T')) as [g|ps'|] eqn:GT; cbn [bind]; rewrite ?ID; try apply RF.
  pose proof (find_path_name _ _ _ _ FT) as FN. pose proof (find_path_name _ _ _ _ GT) as GN. apply find_path_in in FT as (FI & FE). apply find_path_in in GT as (GI & GE).
  assert (D : diverge (fi_idx f) (fi_idx g) = true).
  { pose proof (SIBS s ti TI) as H. unfold elements_apart in H. rewrite forallb_forall in H. specialize (H f FI). cbv beta in H. rewrite forallb_forall in H. specialize (H g GI). cbv beta in H. rewrite FE, GE in H. cbn [andb negb orb] in H. apply orb_true_iff in H as [H|H]; [|exact H]. apply beq_eq in H. congruence. }
  set (P := fun (f : finfo) T v => do (v', _) <- update_at ek env s (fi_idx f) v (fun ty w => with_unit (read ty w T)) ; Ok v').
  change (agrees false (near (TStruct s)) (do v1 <- P f T v ; P g T' v1) (do v1 <- P g T' v ; P f T v1)).
  assert (K : forall f g T T' r, diverge (fi_idx f) (fi_idx g) = true -> (do v1 <- P f T v ; P g T' v1) = Ok r -> (do v1 <- P g T' v ; P f T v1) = Ok r).
  { clear. intros f g T T' r D H. unfold P in *. destruct (update_at ek env s (fi_idx f) v _) as [(v1, [])| | |] eqn:E1 in H; try discriminate. cbn [bind] in H. destruct (update_at ek env s (fi_idx g) v1 _) as [(v2, [])| | |] eqn:E2 in H; try discriminate. cbn [bind] in H. injection H as <-.
    destruct (commute env ek _ _ _ _ _ _ _ _ _ _ _ _ D E1 E2) as (v1' & X1 & X2). rewrite X1. cbn [bind]. rewrite X2. reflexivity. }
  pose proof (fun r => K f g T T' r D) as K1. rewrite diverge_sym in D. pose proof (fun r => K g f T' T r D) as K2.
  destruct (do v1 <- P f T v ; P g T' v1) as [r| | |] eqn:X; [rewrite (K1 r eq_refl); apply N_refl| | |];
    (destruct (do v1 <- P g T' v ; P f T v1) as [r'| | |] eqn:Y; [specialize (K2 r' eq_refl); discriminate| | |]); cbn; auto; intros; discriminate.
Qed.
Lemma body_mix : forall read, tree_mix read -> forall t v w n a a' k k', suits t n -> shuffled a a' -> mix (bare (local n)) k k' -> near t v w -> agrees false (near t) (tree_body F env ek read t v n a k) (tree_body F env ek read t w n a' k').
Proof.
  intros read R t v w n a a' k k' SU SH M N.
  assert (TX : dataless env ek t = true \/ text_in k = text_in k') by (destruct (bare (local n)) eqn:B; [left; exact (SU B)|right; apply mix_text; exact M]).
  assert (LF : dataless env ek t = false -> agrees false (near t) (copy_value F t (text_in k)) (copy_value F t (text_in k'))) by (intros DL; destruct TX as [TX|TX]; [congruence|]; rewrite TX; apply agrees_refl; intro; apply N_refl).
  destruct t as [| | | | | | |t|t|s| |]; cbn [tree_body]; try (apply LF; reflexivity); try solve [cbn; auto]; [| |apply N_refl].
  - assert (MT : mixed_tree (Elem n a k) (Elem n a' k')) by (constructor; assumption).
    assert (G : forall m m', near (TSlice t) (VList m) (VList m') -> agrees false (near (TSlice t)) (do x <- read t (zero_of env ek t) (Elem n a k) ; Ok (VList (m ++ [x]))) (do x <- read t (zero_of env ek t) (Elem n a' k') ; Ok (VList (m' ++ [x])))).
    { intros m m' NM. eapply agrees_bind; [exact (R t _ _ (Elem n a k) (Elem n a' k') SU MT (N_refl _ _ _ _))|]. intros y z X. apply near_snoc; assumption. }
    destruct (near_list_inv _ _ _ _ _ N) as [<-|(m & m' & -> & -> & _)]; [|apply G; exact N]. destruct v as [| | | | | |m| | |]; try exact I. apply G. apply N_refl.
  - destruct (type_info ek env s) as [ti| | |] eqn:TI; try exact I; [|cbn; auto]. cbv zeta. cbn [dataless] in TX. rewrite TI in TX. clear LF.
    eapply agrees_bind with (R := near (TStruct s)).
    { destruct (ti_xmlname ti) as [f|] eqn:XN; [|exact N]. match goal with |- context [if ?b then _ else _] => destruct b end; [cbn; auto|]. apply (put_near env ek false kind Exact); [|exact N|].
      - destruct (WAY s ti TI) as (_ & H0 & _). rewrite forallb_forall in H0. apply H0. rewrite XN. apply in_or_app. right. left. reflexivity.
      - intros t y z YZ. cbn in *. destruct t; try exact YZ. apply N_refl. }
    clear v w N. intros v w N. eapply agrees_bind; [exact (set_attrs_shuffled env ek kind F WAY APART ti s TI a a' v w SH N)|]. clear v w N. intros v w N.
    eapply agrees_bind; [exact (touch_near env ek false kind Mixed WAY s ti is_data v w TI N)|]. clear v w N. intros v w N. eapply agrees_bind; [exact (touch_near env ek false kind Mixed WAY s ti is_comment v w TI N)|]. clear v w N. intros v w N.
    eapply agrees_bind; [exact (touch_near env ek false kind Mixed WAY s ti is_any v w TI N)|]. clear v w N. intros v w N. eapply agrees_bind; [exact (touch_near env ek false kind Mixed WAY s ti is_inner v w TI N)|]. clear v w N. intros v w N.
    eapply agrees_bind; [exact (kids_mix s _ (child_mix read s ti R TI) (child_swap read s ti TI) _ k k' M v w N)|]. clear v w N. intros v w N.
    eapply agrees_bind with (R := near (TStruct s)).
    { destruct (first_mode is_data (ti_fields ti)) as [f|] eqn:FM; [|exact N]. destruct TX as [?|TX]; [discriminate|]. rewrite TX. apply (put_near env ek false kind Exact); [eapply way_field; [exact WAY|exact TI|eapply mode_field; eauto|apply data_not_apart; eapply mode_holds; eauto]|exact N|].
      intros t y z _. destruct (copy_value F t (text_in k')); cbn; auto. apply N_refl. }
    clear v w N. intros v w N. eapply agrees_bind with (R := near (TStruct s)).
    { destruct (first_mode is_comment (ti_fields ti)) as [f|] eqn:FM; [|exact N]. apply (put_near env ek false kind Free); [eapply way_field; [exact WAY|exact TI|eapply mode_field; eauto|]|exact N|].
      - unfold apart. rewrite (mode_holds _ _ _ FM). rewrite orb_true_r. reflexivity.
      - intros t y z _. destruct t; cbn; auto. }
    clear v w N. intros v w N. destruct (first_mode is_inner (ti_fields ti)) as [f|] eqn:FM; [|exact N]. apply (put_near env ek false kind Free); [eapply way_field; [exact WAY|exact TI|eapply mode_field; eauto|]|exact N|].
    + unfold apart. rewrite (mode_holds _ _ _ FM). reflexivity.
    + intros t y z _. cbn. auto.
Qed.
Lemma read_mix : forall r, tree_mix (tree_read F env ek r).
Proof.
  induction r as [|r IH]; intros t v w T T' SU MT N; [destruct MT; cbn; auto|]. pose proof (body_mix _ IH) as B. destruct MT as [n a a' k k' SH M]. cbn [tree_read tname] in *. destruct t as [| | | | | | |t|t|s| |]; try exact (B _ v w n a a' k k' SU SH M N).
  assert (G : forall y z, near t y z -> agrees false (near (TPtr t)) (do w' <- tree_body F env ek (tree_read F env ek r) t y n a k ; Ok (VPtr w')) (do w' <- tree_body F env ek (tree_read F env ek r) t z n a' k' ; Ok (VPtr w'))).
  { intros y z YZ. eapply agrees_bind; [exact (B t y z n a a' k k' SU SH M YZ)|]. intros p q X. apply N_ptr. exact X. }
  destruct (near_ptr_inv _ _ _ _ _ N) as [<-|(y & z & -> & -> & YZ)]; apply G; [apply N_refl|exact YZ].
Qed.
End Siblings.
