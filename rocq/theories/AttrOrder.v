(** The order of attributes does not matter, as long as those with the same local name stay in order. *)
From Coq Require Import String.
From Coq Require Import ZArith List Bool Lia Permutation.
From Verif Require Import Base Lexer Decoder GoType TypeInfo Simple Unmarshal UnmarshalProofs RoundTripBody Hidden Infoset.
Import ListNotations.
Open Scope Z_scope.

(** *** What is claimed *)
(** Attributes in another order, those with the same local name in the same order. *)
Inductive shuffled : list attr -> list attr -> Prop :=
| S_refl l : shuffled l l
| S_swap l1 a b l2 : local (aname a) <> local (aname b) -> shuffled (l1 ++ a :: b :: l2) (l1 ++ b :: a :: l2)
| S_trans l l' l'' : shuffled l l' -> shuffled l' l'' -> shuffled l l''.
(** Neither field is inside the other. *)
Fixpoint diverge (p q : list nat) : bool := match p, q with i :: p, j :: q => if (i =? j)%nat then diverge p q else true | _, _ => false end.
(** The fields for attributes with different local names are different fields. *)
Definition attrs_apart (ti : tinfo) : bool :=
  forallb (fun e => forallb (fun e' => beq (local (fst e)) (local (fst e')) || diverge (fi_idx (snd e)) (fi_idx (snd e'))) (ti_attrs ti) &&
    match ti_anyattr ti with Some f => diverge (fi_idx (snd e)) (fi_idx f) | None => true end) (ti_attrs ti).

(** *** Changes to different fields *)
Definition upd (i : nat) (l : list gval) (z : gval) : list gval := firstn i l ++ z :: skipn (S i) l.
Lemma nth_upd : forall j i m z, (i < length m)%nat -> nth_error (upd i m z) j = if (j =? i)%nat then Some z else nth_error m j.
Proof.
  unfold upd. induction j as [|j IH]; intros [|i] [|u m] z E; cbn [length] in E; try lia; try reflexivity. exact (IH i m z ltac:(lia)).
Qed.
Lemma upd_length : forall i m z, (i < length m)%nat -> length (upd i m z) = length m.
Proof. intros i m z L. unfold upd. rewrite app_length. cbn [length]. rewrite firstn_length, skipn_length. lia. Qed.
Lemma upd_comm : forall i j m y z, i <> j -> (i < length m)%nat -> (j < length m)%nat -> upd j (upd i m y) z = upd i (upd j m z) y.
Proof.
  intros i j m y z NE I J. apply nth_ext_eq; [rewrite !upd_length; rewrite ?upd_length; auto|]. intros n v w A B. rewrite !nth_upd in A by (rewrite ?upd_length; auto). rewrite !nth_upd in B by (rewrite ?upd_length; auto).
  destruct (n =? j)%nat eqn:NJ, (n =? i)%nat eqn:NI; try congruence. apply Nat.eqb_eq in NJ, NI. congruence.
Qed.
Lemma upd_twice : forall i m y z, (i < length m)%nat -> upd i (upd i m y) z = upd i m z.
Proof. intros i m y z I. apply nth_ext_eq; [rewrite !upd_length; rewrite ?upd_length; auto|]. intros n v w A B. rewrite !nth_upd in A by (rewrite ?upd_length; auto). rewrite !nth_upd in B by auto. destruct (n =? i)%nat; congruence. Qed.
Section Order.
Variables (env : tenv) (ek : nat).
Definition inside {A} (rest : list nat) (t : gtype) (w : gval) (f : gtype -> gval -> outcome uerr (gval * A)) : outcome uerr (gval * A) :=
  match rest with
  | [] => f t w
  | _ => match t, w with
         | TStruct s', _ => update_at ek env s' rest w f
         | TPtr (TStruct s'), VPtr u => do (u', a) <- update_at ek env s' rest u f ; Ok (VPtr u', a)
         | TPtr (TStruct s'), VNil => do (u', a) <- update_at ek env s' rest (zero ek env (TStruct s')) f ; Ok (VPtr u', a)
         | _, _ => Panic
         end
  end.
Lemma update_cons : forall A s i rest v (f : gtype -> gval -> outcome uerr (gval * A)), update_at ek env s (i :: rest) v f =
  match v with VRec l => match nth_error (fields_of env s) i, nth_error l i with Some fd, Some w => do (w', a) <- inside rest (fd_type fd) w f ; Ok (VRec (upd i l w'), a) | _, _ => Panic end | _ => Panic end.
Proof. intros A s i rest v f. destruct v; reflexivity. Qed.
Lemma commute : forall A B (f : gtype -> gval -> outcome uerr (gval * A)) (g : gtype -> gval -> outcome uerr (gval * B)) p q s v v1 v2 a b, diverge p q = true ->
  update_at ek env s p v f = Ok (v1, a) -> update_at ek env s q v1 g = Ok (v2, b) -> exists v1', update_at ek env s q v g = Ok (v1', b) /\ update_at ek env s p v1' f = Ok (v2, a).
Proof.
  intros A B f g. induction p as [|i p IH]; intros [|j q] s v v1 v2 a b D E1 E2; try discriminate. rewrite update_cons in E1, E2. destruct v as [| | | | | | |l| |]; try discriminate.
  destruct (nth_error (fields_of env s) i) as [fd|] eqn:NF; [|discriminate]. destruct (nth_error l i) as [w|] eqn:NL; [|discriminate].
  destruct (inside p (fd_type fd) w f) as [(w1, a1)| | |] eqn:I1; try discriminate. cbn [bind] in E1. injection E1 as <- <-.
  assert (LI : (i < length l)%nat) by (apply nth_error_Some; congruence). rewrite nth_upd in E2 by exact LI. cbn [diverge] in D. destruct (i =? j)%nat eqn:IJ.
  - apply Nat.eqb_eq in IJ. subst j. rewrite NF, Nat.eqb_refl in E2. destruct (inside q (fd_type fd) w1 g) as [(w2, b2)| | |] eqn:I2; try discriminate. cbn [bind] in E2. injection E2 as <- <-. rewrite upd_twice by exact LI.
    assert (G : exists w1', inside q (fd_type fd) w g = Ok (w1', b2) /\ inside p (fd_type fd) w1' f = Ok (w2, a1)).
    { destruct p as [|x p]; [discriminate|]. destruct q as [|y q]; [destruct (x :: p); discriminate|]. unfold inside in *. destruct (fd_type fd) as [| | | | | | |t| |s'| |]; try discriminate; [|exact (IH (y :: q) s' w w1 w2 a1 b2 D I1 I2)].
      destruct t as [| | | | | | | | |s'| |]; try discriminate.
      assert (K : forall u, (do (u', a) <- update_at ek env s' (x :: p) u f ; Ok (VPtr u', a)) = Ok (w1, a1) -> exists w1', (do (u', a) <- update_at ek env s' (y :: q) u g ; Ok (VPtr u', a)) = Ok (w1', b2) /\
        match w1' with VPtr u => do (u', a) <- update_at ek env s' (x :: p) u f ; Ok (VPtr u', a) | VNil => do (u', a) <- update_at ek env s' (x :: p) (zero ek env (TStruct s')) f ; Ok (VPtr u', a) | _ => Panic end = Ok (w2, a1)).
      { intros u H. destruct (update_at ek env s' (x :: p) u f) as [(u1, a2)| | |] eqn:U1; try discriminate. cbn [bind] in H. injection H as <- <-. destruct (update_at ek env s' (y :: q) u1 g) as [(u2, b3)| | |] eqn:U2; try discriminate. cbn [bind] in I2. injection I2 as <- <-.
        destruct (IH (y :: q) s' u u1 u2 _ _ D U1 U2) as (u1' & X1 & X2). rewrite X1. exists (VPtr u1'). split; [reflexivity|]. cbv beta iota. rewrite X2. reflexivity. }
      destruct w; try discriminate; exact (K _ I1). }
    destruct G as (w1' & G1 & G2). exists (VRec (upd i l w1')). rewrite !update_cons, NF, NL, G1. cbn [bind]. split; [reflexivity|]. rewrite nth_upd by exact LI. rewrite Nat.eqb_refl, G2. cbn [bind]. rewrite upd_twice by exact LI. reflexivity.
  - rewrite Nat.eqb_sym in IJ. rewrite IJ in E2. destruct (nth_error (fields_of env s) j) as [fd2|] eqn:NF2; [|discriminate]. destruct (nth_error l j) as [w2|] eqn:NL2; [|discriminate].
    destruct (inside q (fd_type fd2) w2 g) as [(w3, b2)| | |] eqn:I2; try discriminate. cbn [bind] in E2. injection E2 as <- <-. assert (LJ : (j < length l)%nat) by (apply nth_error_Some; congruence).
    exists (VRec (upd j l w3)). rewrite !update_cons, NF2, NL2, I2. cbn [bind]. split; [reflexivity|]. rewrite nth_upd by exact LJ. rewrite Nat.eqb_sym, IJ, NF, NL, I1. cbn [bind]. rewrite upd_comm; auto. apply Nat.eqb_neq in IJ. auto.
Qed.
Lemma twice : forall A B (f : gtype -> gval -> outcome uerr (gval * A)) (g : gtype -> gval -> outcome uerr (gval * B)) p s v,
  (do (v1, _) <- update_at ek env s p v f ; update_at ek env s p v1 g) = update_at ek env s p v (fun t w => do (w1, _) <- f t w ; g t w1).
Proof.
  intros A B f g. induction p as [|i p IH]; intros s v; [reflexivity|]. rewrite !update_cons. destruct v as [| | | | | | |l| |]; try reflexivity.
  destruct (nth_error (fields_of env s) i) as [fd|] eqn:NF; [|reflexivity]. destruct (nth_error l i) as [w|] eqn:NL; [|reflexivity]. assert (LI : (i < length l)%nat) by (apply nth_error_Some; congruence).
  assert (G : (do (w1, _) <- inside p (fd_type fd) w f ; inside p (fd_type fd) w1 g) = inside p (fd_type fd) w (fun t w => do (w1, _) <- f t w ; g t w1)).
  { destruct p as [|x p]; [reflexivity|]. unfold inside. destruct (fd_type fd) as [| | | | | | |t| |s'| |]; try reflexivity; [|exact (IH s' w)]. destruct t as [| | | | | | | | |s'| |]; try reflexivity.
    destruct w; try reflexivity; match goal with |- context [update_at ek env s' (x :: p) ?u f] => specialize (IH s' u) end; rewrite <- IH; destruct (update_at ek env s' (x :: p) _ f) as [(u1, a1)| | |]; reflexivity. }
  rewrite <- G. destruct (inside p (fd_type fd) w f) as [(w1, a1)| | |]; try reflexivity. cbn [bind]. rewrite update_cons, NF, nth_upd, Nat.eqb_refl by exact LI. destruct (inside p (fd_type fd) w1 g) as [(w2, a2)| | |]; try reflexivity. cbn [bind]. rewrite upd_twice by exact LI. reflexivity.
Qed.
Lemma diverge_sym : forall p q, diverge p q = diverge q p.
Proof. induction p as [|i p IH]; intros [|j q]; try reflexivity. cbn. rewrite Nat.eqb_sym. destruct (j =? i)%nat; auto. Qed.

(** *** Near is transitive *)
Variable kind : fdecl -> care.
Lemma mixed_trans : forall v w u, mixed v w -> mixed w u -> mixed v u.
Proof. intros v w u [->|(l & l' & -> & -> & P)] [<-|(m & m' & E & -> & Q)]; auto; [left; reflexivity|right; eauto|right; eauto 6|]. injection E as <-. right. do 2 eexists. split; [reflexivity|]. split; [reflexivity|]. eapply perm_trans; eauto. Qed.
Lemma near_trans : forall v t w u, near env kind t v w -> near env kind t w u -> near env kind t v u.
Proof.
  fix IH 1. intros v t w u H G. destruct v as [| | | | |v|l|l| |]; try (inversion H; subst; exact G).
  - pose proof (IH v) as K. clear IH. inversion H as [|? ? w' H1| |]; subst; [exact G|]. inversion G as [|? ? u' G1| |]; subst; [exact H|]. apply N_ptr. exact (K _ _ _ H1 G1).
  - assert (K : forall t l1 l2, Forall2 (near env kind t) l l1 -> Forall2 (near env kind t) l1 l2 -> Forall2 (near env kind t) l l2).
    { clear - IH. intros t. induction l as [|a l IHl]; intros l1 l2 H1 G1; [inversion H1; subst; inversion G1; subst; constructor|]. pose proof (IH a t) as KA. clear IH. inversion H1 as [|? b ? m X1 X2]; subst. inversion G1 as [|? c ? m' Y1 Y2]; subst. constructor; [exact (KA _ _ X1 Y1)|exact (IHl _ _ X2 Y2)]. }
    clear IH. inversion H as [| |? ? l1 H1|]; subst; [exact G|]. inversion G as [| |? ? l2 G1|]; subst; [exact H|]. apply N_list. exact (K _ _ _ H1 G1).
  - assert (K : forall i v, nth_error l i = Some v -> forall t w u, near env kind t v w -> near env kind t w u -> near env kind t v u).
    { clear - IH. induction l as [|a l IHl]; intros [|i] v A; try discriminate; cbn in A; [injection A as <-; exact (IH a)|exact (IHl i v A)]. }
    clear IH. inversion H as [| | |s ? l1 L1 H1]; subst; [exact G|]. inversion G as [| | |? ? l2 L2 G1]; subst; [exact H|].
    apply N_rec; [congruence|]. intros i v z A C. destruct (nth_error l1 i) as [w|] eqn:B; [|exfalso; apply nth_error_None in B; assert (X : nth_error l i <> None) by congruence; apply nth_error_Some in X; lia].
    destruct (H1 i v w A B) as [(X & ->)|(f & NF & X)], (G1 i w z B C) as [(Y & ->)|(f' & NF' & Y)]; try congruence; [left; auto|]. assert (f' = f) by congruence. subst f'. right. exists f. split; [exact NF|].
    destruct X as [X|[(X & X1)|(X & X1)]]; [auto| |]; (destruct Y as [Y|[(Y & Y1)|(Y & Y1)]]; try congruence); [right; left; split; [exact X|eapply mixed_trans; eauto]|right; right; split; [exact X|exact (K i v A _ _ _ X1 Y1)]].
Qed.
Lemma agrees_trans : forall s x y z, agrees false (near env kind (TStruct s)) x y -> agrees false (near env kind (TStruct s)) y z -> agrees false (near env kind (TStruct s)) x z.
Proof. intros s [a|e| |] [b|e'| |] [c|e''| |] H G; cbn in *; try contradiction; try discriminate; auto; try (intros; discriminate). eapply near_trans; eauto. Qed.

(** *** Attributes *)
Variable F : floats.
Hypothesis WAY : forall s ti, type_info ek env s = Ok ti ->
  forallb (fun f => way env kind (apart Mixed (fi_flags f)) s (fi_idx f)) (ti_fields ti) = true /\
  forallb (fun f => way env kind Exact s (fi_idx f)) (map snd (ti_attrs ti) ++ match ti_xmlname ti with Some x => [x] | None => [] end) = true /\
  forallb (fun f => way env kind Mixed s (fi_idx f)) (match ti_anyattr ti with Some x => [x] | None => [] end) = true.
Hypothesis APART : forall s ti, type_info ek env s = Ok ti -> attrs_apart ti = true.
Definition put (s : bytes) (f : finfo) (a : attr) (v : gval) : outcome uerr (gval * unit) := update_at ek env s (fi_idx f) v (fun t w => with_unit (unmarshal_attr F env ek t w a)).
Lemma attr_field_cases : forall ti n f, attr_field ti n = Some f -> (exists e, In e (ti_attrs ti) /\ snd e = f /\ local (fst e) = local n) \/ ti_anyattr ti = Some f.
Proof.
  clear. assert (K : forall l n f, find_attr l n = Some f -> exists e, In e l /\ snd e = f /\ local (fst e) = local n).
  { intros l n f H. unfold find_attr in H. destruct (find _ l) as [e|] eqn:FA; [|discriminate]. injection H as <-. apply find_some in FA as (I & E). exists e. split; [exact I|]. split; [reflexivity|]. unfold name_eqb in E. apply andb_true_iff in E as (E1 & E2). apply beq_eq in E1, E2. congruence. }
  intros ti n f H. unfold attr_field in H. destruct (find_attr (ti_attrs ti) n) eqn:E1; [injection H as ->; left; exact (K _ _ _ E1)|]. destruct (find_attr (ti_attrs ti) (mkname [] (local n))) eqn:E2; [injection H as ->; left; exact (K _ _ _ E2)|]. right. exact H.
Qed.
Lemma fields_apart : forall s ti n m f g, type_info ek env s = Ok ti -> attr_field ti n = Some f -> attr_field ti m = Some g -> local n <> local m -> diverge (fi_idx f) (fi_idx g) = true \/ (f = g /\ way env kind Mixed s (fi_idx f) = true).
Proof.
  intros s ti n m f g TI A B NE. pose proof (APART s ti TI) as H. unfold attrs_apart in H. rewrite forallb_forall in H. destruct (WAY s ti TI) as (_ & _ & W).
  destruct (attr_field_cases _ _ _ A) as [(e & I1 & <- & L1)|A1], (attr_field_cases _ _ _ B) as [(e' & I2 & <- & L2)|B1].
  - left. specialize (H e I1). apply andb_true_iff in H as (H & _). rewrite forallb_forall in H. specialize (H e' I2). apply orb_true_iff in H as [H|H]; [|exact H]. apply beq_eq in H. congruence.
  - left. specialize (H e I1). apply andb_true_iff in H as (_ & H). rewrite B1 in H. exact H.
  - left. specialize (H e' I2). apply andb_true_iff in H as (_ & H). rewrite A1 in H. rewrite diverge_sym. exact H.
  - right. split; [congruence|]. rewrite A1 in W. cbn in W. apply andb_true_iff in W. tauto.
Qed.
Lemma swap_attrs : forall s ti a b l v, type_info ek env s = Ok ti -> local (aname a) <> local (aname b) -> agrees false (near env kind (TStruct s)) (set_attrs F env ek ti s v (a :: b :: l)) (set_attrs F env ek ti s v (b :: a :: l)).
Proof.
  intros s ti a b l v TI NE. assert (RF : forall y, agrees false (near env kind (TStruct s)) y y) by (intro; apply agrees_refl; intro; apply N_refl).
  cbn [set_attrs]. destruct (attr_field ti (aname a)) as [f|] eqn:AF, (attr_field ti (aname b)) as [g|] eqn:BF; try apply RF. fold (put s f a v) (put s g b v).
  assert (E : forall f g a b, (do (v', _) <- put s f a v ; do (v'0, _) <- update_at ek env s (fi_idx g) v' (fun t w => with_unit (unmarshal_attr F env ek t w b)) ; set_attrs F env ek ti s v'0 l) = (do (v2, _) <- (do (v1, _) <- put s f a v ; put s g b v1) ; set_attrs F env ek ti s v2 l)).
  { intros f0 g0 a0 b0. destruct (put s f0 a0 v) as [(v1, [])| | |]; reflexivity. }
  rewrite !E. clear E. apply agrees_bind with (R := fun y z => near env kind (TStruct s) (fst y) (fst z)); [|intros (y, []) (z, []) YZ; refine (set_attrs_near F env ek false kind Mixed _ WAY ti s TI l y z YZ); discriminate].
  destruct (fields_apart s ti _ _ f g TI AF BF NE) as [D|(<- & W)].
  - assert (K : forall f g a b r, diverge (fi_idx f) (fi_idx g) = true -> (do (v1, _) <- put s f a v ; put s g b v1) = Ok r -> (do (v1, _) <- put s g b v ; put s f a v1) = Ok r).
    { clear. intros f g a b (r, []) D H. destruct (put s f a v) as [(v1, [])| | |] eqn:E1; try discriminate. cbn [bind] in H. destruct (commute _ _ _ _ _ _ _ _ _ _ _ _ D E1 H) as (v1' & X1 & X2). unfold put at 1. rewrite X1. exact X2. }
    pose proof (fun r => K f g a b r D) as K1. rewrite diverge_sym in D. pose proof (fun r => K g f b a r D) as K2.
    destruct (do (v1, _) <- put s f a v ; put s g b v1) as [r| | |] eqn:X; [rewrite (K1 r eq_refl); apply N_refl| | |];
      (destruct (do (v1, _) <- put s g b v ; put s f a v1) as [r'| | |] eqn:Y; [specialize (K2 r' eq_refl); discriminate| | |]); cbn; auto; intros; discriminate.
  - unfold put. rewrite !twice. eapply agrees_impl; [apply (update_near env ek false kind unit unit (fun _ _ => True) Mixed); [|exact W|apply N_refl]|intros y z Q; exact (proj1 Q)].
    intros t y z _ FT YZ. destruct t as [| | | | | | | |t| | |]; try discriminate. destruct t; try discriminate. cbn [unmarshal_attr has_method].
    destruct YZ as [<-|(m & m' & -> & -> & P)].
    + destruct y as [| | | | | |m| | |]; cbn; auto. split; [|exact I]. right. do 2 eexists. split; [reflexivity|]. split; [reflexivity|]. rewrite <- !app_assoc. apply Permutation_app_head. constructor.
    + cbn. split; [|exact I]. right. do 2 eexists. split; [reflexivity|]. split; [reflexivity|]. rewrite <- !app_assoc. apply Permutation_app; [exact P|constructor].
Qed.
Lemma set_attrs_app : forall ti s l1 l2 v, set_attrs F env ek ti s v (l1 ++ l2) = do v1 <- set_attrs F env ek ti s v l1 ; set_attrs F env ek ti s v1 l2.
Proof.
  clear. intros ti s. induction l1 as [|a l1 IH]; intros l2 v; [reflexivity|]. cbn [app set_attrs]. destruct (attr_field ti (aname a)); [|apply IH]. destruct (update_at _ _ _ _ _ _) as [(v1, [])| | |]; try reflexivity. cbn [bind]. apply IH.
Qed.
Lemma set_attrs_shuffled : forall ti s, type_info ek env s = Ok ti -> forall a a' v w, shuffled a a' -> near env kind (TStruct s) v w -> agrees false (near env kind (TStruct s)) (set_attrs F env ek ti s v a) (set_attrs F env ek ti s w a').
Proof.
  intros ti s TI a a' v w H N. eapply agrees_trans; [refine (set_attrs_near F env ek false kind Mixed _ WAY ti s TI a v w N); discriminate|]. clear v N. induction H as [l|l1 x y l2 NE|l l' l'' H1 IH1 H2 IH2].
  - apply agrees_refl. intro. apply N_refl.
  - rewrite !set_attrs_app. destruct (set_attrs F env ek ti s w l1) as [w1| | |]; cbn [bind]; try solve [cbn; auto]. apply swap_attrs; assumption.
  - eapply agrees_trans; eauto.
Qed.
End Order.
