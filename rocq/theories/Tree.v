(** Documents as trees of elements: reading one is a matter of its tree alone, and of the tree the order of children with
    different names does not matter, nor text where there is no place for it. *)
From Coq Require Import String.
From Coq Require Import ZArith List Bool Lia Permutation.
From Verif Require Import Base Lexer Decoder DecoderSpec DecoderProofs GoType TypeInfo Simple Unmarshal UnmarshalProofs RoundTripBody Hidden Infoset AttrOrder.
Import ListNotations.
Open Scope Z_scope.

(** *** What is claimed *)
Inductive tree := Elem (n : name) (a : list attr) (kids : list node)
with node := Text (s : bytes) | Child (t : tree).
Definition tname (t : tree) : name := let '(Elem n _ _) := t in n.
(** The tokens of complete elements and what is between them. *)
Inductive spells : list token -> list node -> Prop :=
| P_nil : spells [] []
| P_text s ts l : spells ts l -> spells (TChar s :: ts) (Text s :: l)
| P_minor t ts l : match t with TStart _ _ | TEnd _ | TChar _ => False | _ => True end -> spells ts l -> spells (t :: ts) l
| P_elem n a us k ts l : spells us k -> spells ts l -> spells (TStart n a :: us ++ TEnd n :: ts) (Child (Elem n a k) :: l).
Section Mix.
(** The names of elements in which text does not matter. *)
Variable bare : bytes -> bool.
(** The same children, those with the same local name in the same order; text in other places, and if [b] other text. *)
Inductive mix : bool -> list node -> list node -> Prop :=
| M_refl b l : mix b l l
| M_trans b l l' l'' : mix b l l' -> mix b l' l'' -> mix b l l''
| M_cons b x l l' : mix b l l' -> mix b (x :: l) (x :: l')
| M_swap b t t' l : local (tname t) <> local (tname t') -> mix b (Child t :: Child t' :: l) (Child t' :: Child t :: l)
| M_move b s t l : mix b (Text s :: Child t :: l) (Child t :: Text s :: l)
| M_back b s t l : mix b (Child t :: Text s :: l) (Text s :: Child t :: l)
| M_join b s s' l : mix b (Text s :: Text s' :: l) (Text (s ++ s') :: l)
| M_cut b s s' l : mix b (Text (s ++ s') :: l) (Text s :: Text s' :: l)
| M_drop b s l : b = true \/ s = [] -> mix b (Text s :: l) l
| M_add b s l : b = true \/ s = [] -> mix b l (Text s :: l)
| M_child b t t' l : mixed_tree t t' -> mix b (Child t :: l) (Child t' :: l)
with mixed_tree : tree -> tree -> Prop :=
| M_tree n a a' k k' : shuffled a a' -> mix (bare (local n)) k k' -> mixed_tree (Elem n a k) (Elem n a' k').
End Mix.

(** *** Reading a tree *)
Fixpoint text_in (l : list node) : bytes := match l with [] => [] | Text s :: l => s ++ text_in l | _ :: l => text_in l end.
Section Tree.
Variables (F : floats) (env : tenv) (ek : nat).
Fixpoint kids_loop (c : gval -> tree -> outcome uerr gval) (v : gval) (l : list node) : outcome uerr gval :=
  match l with [] => Ok v | Text _ :: l => kids_loop c v l | Child t :: l => do v' <- c v t ; kids_loop c v' l end.
Definition tree_reader := gtype -> gval -> tree -> outcome uerr gval.
Definition tree_child (read : tree_reader) (s : bytes) (fs : list finfo) (v : gval) (t : tree) : outcome uerr gval :=
  match find_path fs [] (tname t) with
  | Field f => do (v', _) <- update_at ek env s (fi_idx f) v (fun ty w => with_unit (read ty w t)) ; Ok v'
  | _ => Ok v
  end.
Definition tree_body (read : tree_reader) (t : gtype) (v : gval) (n : name) (a : list attr) (kids : list node) : outcome uerr gval :=
  match t with
  | TPtr _ => Err (UUnknown t)
  | TAttr => OutOfFuel
  | TSlice t' => match v with VList l => do x <- read t' (zero_of env ek t') (Elem n a kids) ; Ok (VList (l ++ [x])) | _ => Panic end
  | TName => Ok (VName n)
  | TString | TBool | TInt _ | TUint _ | TFloat _ | TDuration | TFloatInf => copy_value F t (text_in kids)
  | TStruct s =>
      match type_info ek env s with
      | Err _ => Err UType
      | Panic => Panic
      | OutOfFuel => OutOfFuel
      | Ok ti =>
          do v <-
            match ti_xmlname ti with
            | None => Ok v
            | Some x =>
                if negb (beq (fi_name x) []) && negb (beq (fi_name x) (local n)) || negb (beq (fi_xmlns x) []) && negb (beq (fi_xmlns x) (space n))
                then Err (UExpected (mkname (fi_xmlns x) (fi_name x)) n)
                else do (v', _) <- update_at ek env s (fi_idx x) v (fun t w => Ok (match t with TName => VName n | _ => w end, tt)) ; Ok v'
            end ;
          do v <- set_attrs F env ek ti s v a ;
          let fs := ti_fields ti in
          do v <- touch env ek s (first_mode is_data fs) v ; do v <- touch env ek s (first_mode is_comment fs) v ; do v <- touch env ek s (first_mode is_any fs) v ; do v <- touch env ek s (first_mode is_inner fs) v ;
          do v <- kids_loop (tree_child read s fs) v kids ;
          do v <- match first_mode is_data fs with
                  | None => Ok v
                  | Some f => do (v', _) <- update_at ek env s (fi_idx f) v (fun t _ => with_unit (copy_value F t (text_in kids))) ; Ok v'
                  end ;
          do v <- match first_mode is_comment fs with
                  | None => Ok v
                  | Some f => do (v', _) <- update_at ek env s (fi_idx f) v (fun t w => match t with TString => Ok (VStr [], tt) | TSlice _ => Panic | _ => Ok (w, tt) end) ; Ok v'
                  end ;
          match first_mode is_inner fs with
          | None => Ok v
          | Some f => do (v', _) <- update_at ek env s (fi_idx f) v (fun t w => Ok (match t with TString => VStr [] | _ => w end, tt)) ; Ok v'
          end
      end
  end.
Fixpoint tree_read (r : nat) (t : gtype) (v : gval) (T : tree) {struct r} : outcome uerr gval :=
  match r with
  | O => Err UDepth
  | S r =>
      let '(Elem n a kids) := T in
      match t with
      | TPtr t' => do w' <- tree_body (tree_read r) t' (match v with VPtr w => w | _ => zero_of env ek t' end) n a kids ; Ok (VPtr w')
      | _ => tree_body (tree_read r) t v n a kids
      end
  end.

(** *** The tree is all there is to it *)
Variables (kind : fdecl -> care) (am : care).
Hypothesis AM : am <> Free.
Hypothesis WAY : forall s ti, type_info ek env s = Ok ti ->
  forallb (fun f => way env kind (apart am (fi_flags f)) s (fi_idx f)) (ti_fields ti) = true /\
  forallb (fun f => way env kind Exact s (fi_idx f)) (map snd (ti_attrs ti) ++ match ti_xmlname ti with Some x => [x] | None => [] end) = true /\
  forallb (fun f => way env kind am s (fi_idx f)) (match ti_anyattr ti with Some x => [x] | None => [] end) = true.
(** No paths in tags, and no fields for other elements. *)
Definition plain (ti : tinfo) : bool := forallb (fun f => match fi_parents f with [] => true | _ => false end) (ti_fields ti) && match first_mode is_any (ti_fields ti) with Some _ => false | None => true end.
Hypothesis PLAIN : forall s ti, type_info ek env s = Ok ti -> plain ti = true.
Notation near := (near env kind).
Lemma no_inside : forall fs n ps, forallb (fun f => match fi_parents f with [] => true | _ => false end) fs = true -> find_path fs [] n <> Inside ps.
Proof.
  clear. induction fs as [|f fs IH]; intros n ps H; [discriminate|]. cbn [forallb find_path] in *. apply andb_true_iff in H as (H1 & H2). destruct (fi_parents f); [|discriminate]. cbn [is_pre negb orb length Nat.eqb].
  destruct (_ || _); [apply IH; exact H2|]. destruct (beq _ _); [discriminate|apply IH; exact H2].
Qed.
Lemma spells_skip : forall ts l, spells ts l -> forall d d' j dp, calls d ts d' -> skip_loop (length ts + j) dp d = skip_loop j dp d'.
Proof.
  clear. induction 1 as [|s ts l H IH|t ts l M H IH|n a us k ts l H1 IH1 H2 IH2]; intros d d' j dp C.
  - inversion C; subst. reflexivity.
  - inversion C as [|? ? d1 ? ? N C']; subst. cbn [length Nat.add skip_loop]. rewrite N. apply IH. exact C'.
  - inversion C as [|? ? d1 ? ? N C']; subst. cbn [length Nat.add skip_loop]. rewrite N. destruct t; try contradiction; apply IH; exact C'.
  - inversion C as [|? ? d1 ? ? N C']; subst. destruct (calls_split _ _ _ _ C') as (d2 & C1 & C2). inversion C2 as [|? ? d3 ? ? N2 C3]; subst. cbn [length Nat.add skip_loop]. rewrite N. rewrite app_length, <- Nat.add_assoc. rewrite (IH1 _ _ _ _ C1). cbn [length Nat.add skip_loop]. rewrite N2. apply IH2. exact C3.
Qed.
Variable k : nat.
Definition after (Q : gval -> gval -> Prop) (d' : dstate) (y : gval * dstate) (z : gval) : Prop := Q (fst y) z /\ snd y = d'.
Definition child_tree (Q : gval -> gval -> Prop) (c : child_fun) (c' : gval -> tree -> outcome uerr gval) : Prop := forall v w n a us l d d', Q v w -> spells us l -> calls d (us ++ [TEnd n]) d' -> (length us < k)%nat -> agrees true (after Q d') (c v n a d) (c' w (Elem n a l)).
Lemma content_tree : forall Q c c', child_tree Q c c' -> forall us l, spells us l -> forall n v w da co d d' j, Q v w -> calls d (us ++ [TEnd n]) d' -> (length us < k)%nat -> (length us < j)%nat ->
  agrees true (fun '(v', da', _, _, d1) w' => Q v' w' /\ da' = da ++ text_in l /\ d1 = d') (content_loop j c v da co d) (kids_loop c' w l).
Proof.
  clear F AM WAY PLAIN. intros Q c c' CT. induction 1 as [|s ts l H IH|t ts l M H IH|n0 a us0 k0 ts l H1 IH1 H2 IH2]; intros n v w da co d d' j QV C LK L; (destruct j as [|j]; [lia|]); cbn [length app] in *; inversion C as [|? ? d1 ? ? N C']; subst; cbn [content_loop kids_loop text_in]; rewrite N.
  - inversion C'; subst. cbn. rewrite app_nil_r. auto.
  - eapply agrees_impl; [apply (IH n v w (da ++ s) co d1 d' j QV C' ltac:(lia) ltac:(lia))|]. intros ((((u1, u2), u3), u4), u5) w' (X1 & X2 & X3). rewrite app_assoc. auto.
  - destruct t; try contradiction; apply (IH n v w da _ d1 d' j QV C' ltac:(lia) ltac:(lia)).
  - rewrite app_length in *. cbn [length] in *. rewrite <- app_assoc in C'. cbn [app] in C'. change (TEnd n0 :: ts ++ [TEnd n]) with ([TEnd n0] ++ (ts ++ [TEnd n])) in C'. rewrite app_assoc in C'. destruct (calls_split _ _ _ _ C') as (d2 & C1 & C2).
    eapply agrees_bind; [exact (CT v w n0 a us0 k0 d1 d2 QV H1 C1 ltac:(lia))|]. intros (v1, d3) w1 (X1 & X2). cbn [fst snd] in *. subst d3. apply (IH2 n v1 w1 da co d2 d' j X1 C2); lia.
Qed.
Lemma skip_tree : forall (Q : gval -> gval -> Prop) v w us l n d d', Q v w -> spells us l -> calls d (us ++ [TEnd n]) d' -> (length us < k)%nat -> forall m a, agrees true (after Q d') (skip_child k v m a d) (Ok w).
Proof.
  clear F AM WAY PLAIN. intros Q v w us l n d d' QV H C L m a. unfold skip_child, skip. destruct (calls_split _ _ _ _ C) as (d1 & C1 & C2). inversion C2 as [|? ? d2 ? ? N C3]; subst. inversion C3; subst.
  replace k with (length us + (k - length us))%nat by lia. rewrite (spells_skip us l H d d1 _ _ C1). destruct (k - length us)%nat eqn:E; [lia|]. cbn [skip_loop]. rewrite N. split; auto.
Qed.
Definition reader_tree (r : reader) (r' : tree_reader) : Prop := forall t v w n a us l d d', near t v w -> spells us l -> calls d (us ++ [TEnd n]) d' -> (length us < k)%nat -> agrees true (after (near t) d') (r t v n a d) (r' t w (Elem n a l)).
Lemma body_tree : forall r r', reader_tree r r' -> forall t v w n a us l d d', near t v w -> spells us l -> calls d (us ++ [TEnd n]) d' -> (length us < k)%nat ->
  agrees true (after (near t) d') (unmarshal_body F env ek r k t v n a d) (tree_body r' t w n a l).
Proof.
  intros r r' R t v w n a us l d d' N H C L.
  assert (PL : forall (Q : gval -> gval -> Prop) v w, Q v w -> agrees true (fun '(_, da, _, _, d1) _ => da = text_in l /\ d1 = d') (content_loop k (skip_child k) v [] [] d) (kids_loop (fun v _ => Ok v) w l)).
  { intros Q u u' QU. eapply agrees_impl; [apply (content_tree Q (skip_child k) (fun v _ => Ok v)) with (us := us) (n := n) (d' := d'); auto; intros v0 w0 n0 a0 us0 l0 d0 d0' Q0 S0 C0 L0; exact (skip_tree Q v0 w0 us0 l0 n0 d0 d0' Q0 S0 C0 L0 n0 a0)|].
    intros ((((u1, u2), u3), u4), u5) w' (_ & X2 & X3). cbn in X2. auto. }
  assert (KO : forall w, kids_loop (fun v _ => Ok v) w l = Ok w) by (clear; induction l as [|[]]; intros w; cbn; auto).
  assert (SM : forall t, agrees true (after (near t) d') (do r <- content_loop k (skip_child k) v [] [] d ; let '(_, data, _, _, d') := r in do x <- copy_value F t data ; Ok (x, d')) (copy_value F t (text_in l))).
  { intros t0. pose proof (PL (fun _ _ => True) v w I) as P. rewrite KO in P. destruct (content_loop k (skip_child k) v [] [] d) as [((((u1, u2), u3), u4), u5)| | |]; try contradiction. destruct P as (-> & ->). cbn [bind]. destruct (copy_value F t0 (text_in l)); cbn; auto. split; [apply N_refl|reflexivity]. }
  destruct t as [| | | | | | |t|t|s| |]; cbn [unmarshal_body tree_body]; try apply SM; try solve [cbn; auto].
  - assert (G : forall m m', near (TSlice t) (VList m) (VList m') -> agrees true (after (near (TSlice t)) d') (do (x, d') <- r t (zero_of env ek t) n a d ; Ok (VList (m ++ [x]), d')) (do x <- r' t (zero_of env ek t) (Elem n a l) ; Ok (VList (m' ++ [x])))).
    { intros m m' NM. eapply agrees_bind; [exact (R t _ _ n a us l d d' (N_refl _ _ _ _) H C L)|]. intros (y, d1) z (X1 & X2). split; [apply near_snoc; [exact NM|exact X1]|exact X2]. }
    destruct (near_list_inv _ _ _ _ _ N) as [<-|(m & m' & -> & -> & _)]; [|apply G; exact N]. destruct v as [| | | | | |m| | |]; try exact I. apply G. apply N_refl.
  - destruct (type_info ek env s) as [ti| | |] eqn:TI; try exact I; [|cbn; auto]. cbv zeta.
    eapply agrees_bind with (R := near (TStruct s)).
    { destruct (ti_xmlname ti) as [f|] eqn:XN; [|exact N]. match goal with |- context [if ?b then _ else _] => destruct b end; [cbn; auto|]. apply (put_near env ek true kind Exact); [|exact N|].
      - destruct (WAY s ti TI) as (_ & H0 & _). rewrite forallb_forall in H0. apply H0. rewrite XN. apply in_or_app. right. left. reflexivity.
      - intros t y z YZ. cbn in *. destruct t; try exact YZ. apply N_refl. }
    clear v w N PL SM. intros v w N. eapply agrees_bind; [exact (set_attrs_near F env ek true kind am AM WAY ti s TI a v w N)|]. clear v w N. intros v w N.
    eapply agrees_bind; [exact (touch_near env ek true kind am WAY s ti is_data v w TI N)|]. clear v w N. intros v w N. eapply agrees_bind; [exact (touch_near env ek true kind am WAY s ti is_comment v w TI N)|]. clear v w N. intros v w N.
    eapply agrees_bind; [exact (touch_near env ek true kind am WAY s ti is_any v w TI N)|]. clear v w N. intros v w N. eapply agrees_bind; [exact (touch_near env ek true kind am WAY s ti is_inner v w TI N)|]. clear v w N. intros v w N.
    pose proof (PLAIN s ti TI) as PT. unfold plain in PT. apply andb_true_iff in PT as (PT & PA). destruct (first_mode is_any (ti_fields ti)); [discriminate|]. clear PA.
    eapply agrees_bind; [apply (content_tree (near (TStruct s))) with (c' := tree_child r' s (ti_fields ti)) (us := us) (n := n) (d' := d'); eauto|].
    { intros v0 w0 n0 a0 us0 l0 d0 d0' Q0 S0 C0 L0. unfold path_bound. cbn [path_child]. unfold tree_child. cbn [tname]. destruct (find_path (ti_fields ti) [] n0) as [f|ps|] eqn:FP; [|destruct (no_inside _ _ _ PT FP)|].
      - apply find_path_in in FP as (FI & FE).
        pose proof (update_near env ek true kind dstate unit (fun d1 _ => d1 = d0') Exact (fun t w => r t w n0 a0 d0) (fun ty w => with_unit (r' ty w (Elem n0 a0 l0))) (fi_idx f) s) as U.
        specialize (U ltac:(intros ty y z _ _ YZ; unfold with_unit; pose proof (R ty y z n0 a0 us0 l0 d0 d0' YZ S0 C0 L0) as RR; destruct (r ty y n0 a0 d0) as [(y1, d1)| | |], (r' ty z (Elem n0 a0 l0)); cbn in *; auto) v0 w0 ltac:(eapply way_field; eauto; apply element_not_apart; exact FE) Q0).
        destruct (update_at ek env s (fi_idx f) v0 (fun t w => r t w n0 a0 d0)) as [(y1, d1)| | |], (update_at ek env s (fi_idx f) w0 (fun ty w => with_unit (r' ty w (Elem n0 a0 l0)))) as [(z1, [])| | |]; cbn in *; auto.
      - exact (skip_tree (near (TStruct s)) v0 w0 us0 l0 n0 d0 d0' Q0 S0 C0 L0 n0 a0). }
    clear v w N. intros ((((v, da), c1), d1), d2) w (N & -> & ->). cbn [app].
    eapply agrees_bind with (R := near (TStruct s)).
    { destruct (first_mode is_data (ti_fields ti)) as [f|] eqn:FM; [|exact N]. apply (put_near env ek true kind Exact); [eapply way_field; [exact WAY|exact TI|eapply mode_field; eauto|apply data_not_apart; eapply mode_holds; eauto]|exact N|].
      intros t y z _. destruct (copy_value F t (text_in l)); cbn; auto. apply N_refl. }
    clear v w N. intros v w N. eapply agrees_bind with (R := near (TStruct s)).
    { destruct (first_mode is_comment (ti_fields ti)) as [f|] eqn:FM; [|exact N]. apply (put_near env ek true kind Free); [eapply way_field; [exact WAY|exact TI|eapply mode_field; eauto|]|exact N|].
      - unfold apart. rewrite (mode_holds _ _ _ FM). rewrite orb_true_r. reflexivity.
      - intros t y z _. destruct t; cbn; auto. }
    clear v w N. intros v w N.
    assert (LAST : agrees true (near (TStruct s))
      (match first_mode is_inner (ti_fields ti) with None => Ok v | Some f => do (v', _) <- update_at ek env s (fi_idx f) v (fun t w => Ok (match t with TString => VStr (firstn (length (d_inp d) - length (d_inp d1)) (d_inp d)) | _ => w end, tt)) ; Ok v' end)
      (match first_mode is_inner (ti_fields ti) with None => Ok w | Some f => do (v', _) <- update_at ek env s (fi_idx f) w (fun t w => Ok (match t with TString => VStr [] | _ => w end, tt)) ; Ok v' end)).
    { destruct (first_mode is_inner (ti_fields ti)) as [f|] eqn:FM; [|exact N]. apply (put_near env ek true kind Free); [eapply way_field; [exact WAY|exact TI|eapply mode_field; eauto|]|exact N|].
      - unfold apart. rewrite (mode_holds _ _ _ FM). reflexivity.
      - intros t y z _. cbn. auto. }
    match type of LAST with agrees _ _ ?x ?y => destruct x, y end; cbn in LAST |- *; try contradiction; auto. split; auto.
  - pose proof (PL (fun _ _ => True) (VName n) (VName n) I) as P. rewrite KO in P. destruct (content_loop k (skip_child k) (VName n) [] [] d) as [((((u1, u2), u3), u4), u5)| | |]; try contradiction. destruct P as (-> & ->). cbn. split; [apply N_refl|reflexivity].
Qed.
Lemma unmarshal_tree : forall r, reader_tree (unmarshal F env ek r k) (tree_read r).
Proof.
  induction r as [|r IH]; intros t v w n a us l d d' N H C L; [cbn; auto|]. pose proof (body_tree _ _ IH) as B. cbn [unmarshal tree_read]. destruct t as [| | | | | | |t|t|s| |]; try exact (B _ v w n a us l d d' N H C L).
  assert (G : forall y z, near t y z -> agrees true (after (near (TPtr t)) d') (do (w', d') <- unmarshal_body F env ek (unmarshal F env ek r k) k t y n a d; Ok (VPtr w', d')) (do w' <- tree_body (tree_read r) t z n a l ; Ok (VPtr w'))).
  { intros y z YZ. eapply agrees_bind; [exact (B t y z n a us l d d' YZ H C L)|]. intros (p, d1) q (X1 & X2). split; [apply N_ptr; exact X1|exact X2]. }
  destruct (near_ptr_inv _ _ _ _ _ N) as [<-|(y & z & -> & -> & YZ)]; apply G; [apply N_refl|exact YZ].
Qed.
(** The first element of a document. *)
Fixpoint root (l : list node) : option tree := match l with [] => None | Text _ :: l => root l | Child t :: _ => Some t end.
Lemma decode_tree : forall ts l d' inp t v w T, near t v w -> calls (new_decoder inp) ts d' -> spells ts l -> root l = Some T -> (length ts < k)%nat -> agrees true (near t) (decode F env ek k t v inp) (tree_read max_depth t w T).
Proof.
  intros ts l d' inp t v w T N C H RT L. unfold decode.
  assert (G : forall ts l, spells ts l -> root l = Some T -> forall d j, calls d ts d' -> (length ts < j)%nat -> let '(Elem n a kids) := T in exists us d1 d2, find_start j d = Ok (n, a, d1) /\ spells us kids /\ calls d1 (us ++ [TEnd n]) d2 /\ (length us <= length ts)%nat).
  { clear. induction 1 as [|s ts l H IH|t ts l M H IH|n0 a us0 k0 ts l H1 IH1 H2 IH2]; intros RT d j C L; (destruct j as [|j]; [cbn in L; lia|]); cbn [root] in RT; try discriminate; inversion C as [|? ? d1 ? ? N C']; subst; cbn [length find_start] in *; rewrite N.
    - specialize (IH RT d1 j C' ltac:(lia)). destruct T as [n a kids]. destruct IH as (us & e1 & e2 & X1 & X2 & X3 & X4). exists us, e1, e2. repeat split; auto.
    - specialize (IH RT d1 j C' ltac:(lia)). destruct T as [n a kids]. destruct IH as (us & e1 & e2 & X1 & X2 & X3 & X4). exists us, e1, e2. destruct t; try contradiction; repeat split; auto.
    - injection RT as <-. change (TEnd n0 :: ts) with ([TEnd n0] ++ ts) in C'. rewrite app_assoc in C'. destruct (calls_split _ _ _ _ C') as (d2 & C1 & _). exists us0, d1, d2. rewrite app_length. repeat split; auto. lia. }
  specialize (G ts l H RT _ k C L). destruct T as [n a kids]. destruct G as (us & d1 & d2 & FS & S1 & C1 & L1). rewrite FS. cbn [bind].
  pose proof (unmarshal_tree max_depth t v w n a us kids d1 d2 N S1 C1 ltac:(lia)) as U. destruct (unmarshal F env ek max_depth k t v n a d1) as [(y, d3)| | |], (tree_read max_depth t w (Elem n a kids)); cbn in *; try contradiction; auto. exact (proj1 U).
Qed.
End Tree.
