(** Property C97: the slices and pointers in an MPD that is returned have the shape of the document, at all depths. *)
From Coq Require Import String.
From Coq Require Import ZArith List Bool Lia SpecFloat Permutation.
From Verif Require Import Base Utf8 Lexer Decoder DecoderSpec DecoderProofs PropertiesDecoder GoType Schema TypeInfo PropertiesTypeInfo Simple ValueSpec Unmarshal Io UnmarshalProofs PropertiesUnmarshal RoundTripSpec RoundTripCheck RoundTripParts RoundTripBody RoundTripTest PropertiesDocument PropertiesRoundTrip Hidden Infoset PropertiesInfoset AttrOrder PropertiesAttrOrder Tree Siblings PropertiesSiblings PropertiesUnknown PropertiesLocal PropertiesElements PropertiesSingle.
Import ListNotations.
Open Scope Z_scope.

(** *** What is claimed *)
(** Fields for elements: exported, not embedded, with a name without a name space and without options but omitempty in the tag. *)
Definition element (f : fdecl) : bool := negb (fd_anon f) && exported (fd_name f) && (beq (fd_tag f) (key f) || beq (fd_tag f) (key f ++ str ",omitempty")).
Definition target (t : gtype) : option bytes := match t with TPtr (TStruct s) => Some s | _ => None end.
(** [v] of struct type [s] has the shape of the element [T], [d] levels down: slices of pointers have a pointer for each child with the name in the tag, in order, and what it points to has the shape of the child;
    a pointer is nil if there is no such child, and if there is one it is not nil. *)
Fixpoint shaped (d : nat) (s : bytes) (T : tree) (v : gval) : Prop :=
  match d with
  | O => True
  | S d => forall i fd, nth_error (fields_of mpd_types s) i = Some fd -> element fd = true ->
      match fd_type fd with
      | TSlice t => match target t with Some s' => exists xs, field i v = Some (VList xs) /\ Forall2 (fun c x => exists y, x = VPtr y /\ shaped d s' c y) (named fd T) xs | None => True end
      | t => match target t with Some s' => match named fd T with [] => field i v = Some VNil | [c] => exists y, field i v = Some (VPtr y) /\ shaped d s' c y | _ => True end | None => True end
      end
  end.

(** *** Proofs *)
Lemma nothing_found : forall fs n, find_path fs [] n = Nothing -> forall g, In g fs -> g_element (fi_flags g) = true -> fi_xmlns g = [] -> fi_parents g = [] -> fi_name g <> local n.
Proof.
  induction fs as [|f fs IH]; intros n H g I GE NX NP E; [destruct I|]. cbn [find_path] in H. destruct I as [<-|I].
  - rewrite GE, NX, NP in H. cbn [negb orb andb is_pre beq length Nat.eqb] in H. assert (B : beq (fi_name f) (local n) = true) by (apply beq_eq; exact E). rewrite B in H. discriminate H.
  - revert E. apply (IH n); auto. destruct (_ || _); [exact H|]. destruct (_ =? _)%nat; [destruct (beq (fi_name f) (local n)); [discriminate H|exact H]|]. destruct (beq _ (local n)); [discriminate H|exact H].
Qed.
Definition good (s : bytes) (ti : tinfo) (i : nat) (fd : fdecl) : bool :=
  implb (element fd && match fd_type fd with TSlice t => match target t with Some _ => true | None => false end | t => match target t with Some _ => true | None => false end end)
    (forallb (fun f => implb (heads i f) (match fi_idx f with [_] => true | _ => false end)) (ti_fields ti) && forallb (fun f => negb (heads i f)) (general ti) &&
     forallb (fun e => negb (heads i (snd e))) (ti_attrs ti) && (match ti_anyattr ti with Some f => negb (heads i f) | None => true end) &&
     forallb (fun f => implb (g_element (fi_flags f)) (Bool.eqb (heads i f) (beq (fi_name f) (key fd)))) (ti_fields ti) &&
     existsb (fun f => g_element (fi_flags f) && beq (fi_name f) (key fd) && beq (fi_xmlns f) [] && match fi_parents f with [] => true | _ => false end) (ti_fields ti) && match but_verbatim Exact fd with Exact => true | _ => false end).
Lemma package_good : forallb (fun d => match type_info embed_depth mpd_types (sd_name d) with Ok ti => forallb (fun p => good (sd_name d) ti (fst p) (snd p)) (combine (seq 0 (length (fields_of mpd_types (sd_name d)))) (fields_of mpd_types (sd_name d))) | _ => false end) mpd_types = true.
Proof. vm_compute. reflexivity. Qed.
Section Shape.
Variable F : floats.
Notation read := (tree_read F mpd_types embed_depth).
Lemma field_good : forall s i fd, nth_error (fields_of mpd_types s) i = Some fd -> exists ti, type_info embed_depth mpd_types s = Ok ti /\ good s ti i fd = true.
Proof.
  intros s i fd NF. destruct (declared mpd_types s) as [(d & I & <-)|U].
  - pose proof package_good as H. rewrite forallb_forall in H. specialize (H d I). revert H NF. generalize (type_info embed_depth mpd_types (sd_name d)) (fields_of mpd_types (sd_name d)). intros o fs H NF. destruct o as [ti| | |]; try discriminate H. exists ti. split; [reflexivity|]. rewrite forallb_forall in H. apply (H (i, fd)).
    clear -NF. assert (G : forall fs k i, nth_error fs i = Some fd -> In ((k + i)%nat, fd) (combine (seq k (length fs)) fs)).
    { clear. induction fs as [|f fs IH]; intros k [|i] H; try discriminate H; cbn [length seq combine]; [injection H as ->; left; f_equal; lia|]. right. specialize (IH (S k) i H). replace (k + S i)%nat with (S k + i)%nat by lia. exact IH. }
    exact (G fs O i NF).
  - exfalso. rewrite U in NF. destruct i; discriminate NF.
Qed.
Lemma good_facts : forall s ti i fd s', good s ti i fd = true -> element fd = true -> (fd_type fd = TPtr (TStruct s') \/ fd_type fd = TSlice (TPtr (TStruct s'))) -> plain ti = true ->
  (forall f, In f (ti_fields ti) -> heads i f = true -> fi_idx f = [i]) /\ (forall f, In f (general ti) -> heads i f = false) /\ (forall a, own_attrs ti i a = []) /\ (forall n a k, own_kids ti i k = named fd (Elem n a k)) /\ but_verbatim Exact fd = Exact.
Proof.
  intros s ti i fd s' G EL FT PL. unfold good in G. rewrite EL in G. assert (B : match fd_type fd with TSlice t => match target t with Some _ => true | None => false end | t => match target t with Some _ => true | None => false end end = true) by (destruct FT as [-> | ->]; reflexivity). rewrite B in G. cbn [andb implb] in G.
  repeat (apply andb_true_iff in G as (G & ?)). rename H into G7, H0 into G6, H1 into G5, H2 into G4, H3 into G3, H4 into G2. rewrite forallb_forall in G, G2, G3, G5. repeat split.
  - intros f J HD. specialize (G f J). rewrite HD in G. cbn [implb] in G. unfold heads in HD. destruct (fi_idx f) as [|j [|]]; try discriminate G. apply Nat.eqb_eq in HD. rewrite HD. reflexivity.
  - intros f J. apply negb_true_iff. exact (G2 f J).
  - intro a. unfold own_attrs. induction a as [|x a IH]; [reflexivity|]. cbn [filter]. unfold own_attr at 1. unfold attr_field.
    assert (Q : forall n f, find_attr (ti_attrs ti) n = Some f -> heads i f = false) by (intros n f FA; destruct (PropertiesTypeInfo.find_attr_in _ _ _ FA) as (m & J & _); apply negb_true_iff; exact (G3 (m, f) J)).
    destruct (find_attr (ti_attrs ti) (aname x)) as [f|] eqn:F1; [rewrite (Q _ _ F1); exact IH|]. destruct (find_attr (ti_attrs ti) (mkname [] (local (aname x)))) as [f|] eqn:F2; [rewrite (Q _ _ F2); exact IH|]. destruct (ti_anyattr ti) as [f|]; [|exact IH]. apply negb_true_iff in G4. rewrite G4. exact IH.
  - intros n a k. unfold own_kids, named. apply filter_ext. intro c. unfold own_kid. destruct (find_path (ti_fields ti) [] (tname c)) as [f|ps|] eqn:FP.
    + destruct (find_path_in _ _ _ _ FP) as (J & GE). pose proof (find_path_name _ _ _ _ FP) as NM. specialize (G5 f J). rewrite GE in G5. cbn [implb] in G5. apply Bool.eqb_prop in G5. rewrite G5, NM. reflexivity.
    + exfalso. unfold plain in PL. apply andb_true_iff in PL as (PL & _). exact (no_inside _ _ _ PL FP).
    + destruct (beq (local (tname c)) (key fd)) eqn:BE; [|reflexivity]. apply beq_eq in BE. apply existsb_exists in G6 as (g & J & Q). apply andb_true_iff in Q as (Q & Q4). apply andb_true_iff in Q as (Q & Q3). apply andb_true_iff in Q as (Q1 & Q2). apply beq_eq in Q2. apply beq_eq in Q3. destruct (fi_parents g) eqn:FPA; [|discriminate Q4].
      destruct (nothing_found _ _ FP g J Q1 Q3 FPA). rewrite Q2, BE. reflexivity.
  - destruct (but_verbatim Exact fd); try discriminate G7. reflexivity.
Qed.
Lemma zero_field : forall s i fd, nth_error (fields_of mpd_types s) i = Some fd -> match fd_type fd with TSlice _ => field i (zero_of mpd_types embed_depth (TStruct s)) = Some (VList []) | TPtr _ => field i (zero_of mpd_types embed_depth (TStruct s)) = Some VNil | _ => True end.
Proof.
  intros s i fd NF. assert (E : exists k, embed_depth = S k) by (eexists; reflexivity). destruct E as (k & ->). unfold zero_of. cbn [zero field]. rewrite nth_error_map, NF. cbn [option_map]. destruct (fd_type fd); auto; destruct k; reflexivity.
Qed.
(** A pointer to a struct, read from nothing. *)
Lemma pointer_read : forall r s v T y, v = VNil -> read r (TPtr (TStruct s)) v T = Ok y -> exists w, y = VPtr w /\ read r (TStruct s) (zero_of mpd_types embed_depth (TStruct s)) T = Ok w.
Proof.
  intros [|r] s v [n a k] y -> H; [discriminate H|]. cbn [tree_read] in H |- *. destruct (tree_body F mpd_types embed_depth (read r) (TStruct s) (zero_of mpd_types embed_depth (TStruct s)) n a k) as [w| | |]; try discriminate H. cbn [bind] in H. injection H as <-. eauto.
Qed.
Lemma read_shape : forall d r s T v, read r (TStruct s) (zero_of mpd_types embed_depth (TStruct s)) T = Ok v -> shaped d s T v.
Proof.
  induction d as [|d IH]; intros r s T v H; [exact I|]. cbn [shaped]. intros i fd NF EL. destruct T as [n a k]. destruct (field_good s i fd NF) as (ti & TI & G). pose proof (proj2 (proj2 (mpd_apart s ti TI))) as PL. pose proof (zero_field s i fd NF) as Z0. destruct r as [|r]; [discriminate H|].
  assert (PTR : forall s', fd_type fd = TPtr (TStruct s') -> match named fd (Elem n a k) with [] => field i v = Some VNil | [c] => exists y, field i v = Some (VPtr y) /\ shaped d s' c y | _ => True end).
  { intros s' FT. destruct (good_facts s ti i fd s' G EL (or_introl FT) PL) as (ID & NG & OA & OK & K). destruct (read_field mpd_types embed_depth F r s ti i n a k _ v TI NG H) as (u1 & u2 & w1 & w2 & A1 & A2 & A3 & A4 & A5). rewrite FT in Z0.
    assert (NA : forall y, In y a -> own_attr ti i y = false). { intros u I0. destruct (own_attr ti i u) eqn:Q; [|reflexivity]. assert (I' : In u (own_attrs ti i a)) by (apply filter_In; auto). rewrite OA in I'. destruct I'. }
    pose proof (attrs_other mpd_types embed_depth F ti s i a _ _ NA A2) as A6. assert (A7 : field i w1 = Some VNil) by (rewrite A3, A6, A1; exact Z0). rewrite <- (OK n a k). destruct (own_kids ti i k) as [|c [|c' cs]] eqn:O; [| |exact I].
    - assert (NK : forall u, In (Child u) k -> own_kid ti i u = false). { intros u I0. destruct (own_kid ti i u) eqn:Q; [|reflexivity]. assert (I' : In u (own_kids ti i k)) by (apply filter_In; split; [apply in_flat_map; exists (Child u); split; [exact I0|left; reflexivity]|exact Q]). rewrite O in I'. destruct I'. }
      rewrite A5, (kids_other mpd_types embed_depth _ ti s i k _ _ NK A4). exact A7.
    - destruct (kids_one mpd_types embed_depth F r s ti i fd NF ID k c w1 w2 VNil O A4 A7) as (y & Y1 & Y2). rewrite FT in Y1. destruct (pointer_read r s' VNil c y eq_refl Y1) as (w & -> & W). exists w. split; [rewrite A5; exact Y2|]. exact (IH r s' c w W). }
  destruct (fd_type fd) as [| | | | | | |t|t|s0| |] eqn:FT; try exact I.
  - destruct t as [| | | | | | |t|t|s'| |]; cbn [target]; try exact I. exact (PTR s' eq_refl).
  - destruct t as [| | | | | | |t|t|s'| |]; cbn [target]; try exact I. destruct t as [| | | | | | |t|t|s'| |]; try exact I. destruct (good_facts s ti i fd s' G EL (or_intror FT) PL) as (ID & NG & OA & OK & K).
    destruct (field_list mpd_types embed_depth F (S r) s ti i fd _ n a k _ v [] TI NF FT ID (OA a) NG H Z0) as (xs & E & FA). exists xs. split; [exact E|]. rewrite <- (OK n a k). clear -FA IH. induction FA as [|c x cs xs R FA IHF]; constructor; [|exact IHF].
    destruct (pointer_read (S r) s' VNil c x eq_refl (R (S r) ltac:(lia))) as (w & -> & W). exists w. split; [reflexivity|]. exact (IH (S r) s' c w W).
Qed.
Notation near := (near mpd_types (but_verbatim Exact)).
Lemma near_shape : forall d s T v v', near (TStruct s) v' v -> shaped d s T v -> shaped d s T v'.
Proof.
  induction d as [|d IH]; intros s T v v' N H; [exact I|]. cbn [shaped] in *. intros i fd NF EL. specialize (H i fd NF EL). destruct (field_good s i fd NF) as (ti & TI & G). pose proof (proj2 (proj2 (mpd_apart s ti TI))) as PL.
  assert (P : forall s' x x' c, near (TPtr (TStruct s')) x' x -> (exists y, x = VPtr y /\ shaped d s' c y) -> exists y, x' = VPtr y /\ shaped d s' c y).
  { intros s' x x' c N' (y & -> & Y). inversion N' as [|? u w N2| |]; subst; [eauto|]. exists u. split; [reflexivity|]. exact (IH s' c y u N2 Y). }
  destruct (fd_type fd) as [| | | | | | |t|t|s0| |] eqn:FT; try exact I.
  - destruct t as [| | | | | | |t|t|s'| |]; cbn [target] in *; try exact I. destruct (good_facts s ti i fd s' G EL (or_introl FT) PL) as (_ & _ & _ & _ & K). pose proof (near_field _ _ _ _ _ _ _ N NF K) as N1. rewrite FT in N1. destruct (named fd T) as [|c [|c' cs]]; [| |exact I].
    + rewrite H in N1. destruct (field i v') as [x|]; [|destruct N1]. inversion N1; subst. reflexivity.
    + destruct H as (y & E & Y). rewrite E in N1. destruct (field i v') as [x|]; [|destruct N1]. destruct (P s' _ _ c N1 (ex_intro _ y (conj eq_refl Y))) as (z & -> & Z1). eauto.
  - destruct t as [| | | | | | |t|t|s'| |]; cbn [target] in *; try exact I. destruct t as [| | | | | | |t|t|s'| |]; try exact I. destruct (good_facts s ti i fd s' G EL (or_intror FT) PL) as (_ & _ & _ & _ & K). pose proof (near_field _ _ _ _ _ _ _ N NF K) as N1. rewrite FT in N1.
    destruct H as (xs & E & FA). rewrite E in N1. destruct (field i v') as [x|]; [|destruct N1]. assert (N2 : exists ys, x = VList ys /\ Forall2 (near (TPtr (TStruct s'))) ys xs).
    { inversion N1; subst; [|eauto]. eexists. split; [reflexivity|]. clear. induction xs; constructor; auto. apply N_refl. }
    destruct N2 as (ys & -> & N2). exists ys. split; [reflexivity|]. clear -N2 FA P. revert ys N2. induction FA as [|c z cs zs R FA IHF]; intros ys N2; inversion N2 as [|y0 z' ys0 zs' N0 B' E1 E2]; subst; constructor; [exact (P s' _ _ c N0 R)|exact (IHF _ B')].
Qed.
End Shape.
(** C97 *)
Theorem C97_shape : forall F z s inp ts l T v, ends z (new_decoder inp) ts -> spells ts l -> root l = Some T -> decode F mpd_types embed_depth (enough inp) (TStruct s) (zero_of mpd_types embed_depth (TStruct s)) inp = Ok v -> forall d, shaped d s T v.
Proof.
  intros F z s inp ts l T v E S1 R1 D d. pose proof (ends_short _ _ _ E) as L1. destruct E as (d1 & e1 & C1 & _).
  pose proof (decode_tree F mpd_types embed_depth (but_verbatim Exact) Exact ltac:(discriminate) (mpd_kind Exact ltac:(discriminate)) (fun s ti TI => proj2 (proj2 (mpd_apart s ti TI))) (enough inp) ts l d1 inp (TStruct s) _ _ T (N_refl _ _ _ (zero_of mpd_types embed_depth (TStruct s))) C1 S1 R1 L1) as H1.
  rewrite D in H1. destruct (tree_read F mpd_types embed_depth max_depth (TStruct s) (zero_of mpd_types embed_depth (TStruct s)) T) as [v0| | |] eqn:T1; cbn [agrees] in H1; try contradiction. exact (near_shape d s T v0 v H1 (read_shape F d max_depth s T v0 T1)).
Qed.
Print Assumptions C97_shape.
Theorem C97_mpd : forall F z inp ts l T v, ends z (new_decoder inp) ts -> spells ts l -> root l = Some T -> read_mpd F inp = Ok v -> forall d, shaped d MPD T v.
Proof. intros F z inp ts l T v E S1 R1 RD. exact (C97_shape F z MPD inp ts l T v E S1 R1 RD). Qed.
Print Assumptions C97_mpd.
(** Two Periods, the first with two AdaptationSets; a value with another number of Periods does not have the shape. *)
Definition shape1 : bytes := str "<MPD profiles=""p""><Period><AdaptationSet/><BaseURL>u</BaseURL><AdaptationSet id=""2""/></Period><Period/></MPD>".
Definition covered (f : fdecl) : bool := element f && match fd_type f with TSlice t => match target t with Some _ => true | None => false end | t => match target t with Some _ => true | None => false end end.
Definition read_or_zero (inp : bytes) : gval := match read_mpd fl1 inp with Ok v => v | _ => VNil end.
Example C97_ex : ends EEof (new_decoder shape1) (tokens_of shape1) /\ (exists l, spells (tokens_of shape1) l /\ root l = Some (root_of shape1)) /\ (exists v, read_mpd fl1 shape1 = Ok v) /\ length (filter covered (flat_map sd_fields mpd_types)) = 171%nat /\
  (exists x y p q, got 26 shape1 = Some (VList [VPtr x; VPtr y]) /\ field 20 x = Some (VList [VPtr p; VPtr q]) /\ p <> q /\ field 20 y = Some (VList [])) /\ (~ shaped 1 MPD (root_of shape1) (read_or_zero unk1)).
Proof.
  split; [apply tokens_end; vm_compute; reflexivity|]. split; [exists (fst (grow 20 (tokens_of shape1))); split; [apply (grow_spells 20); vm_compute; reflexivity|vm_compute; reflexivity]|].
  split; [destruct (read_mpd fl1 shape1) eqn:E; [eauto| | |]; exfalso; revert E; vm_compute; discriminate|]. split; [vm_compute; reflexivity|]. split.
  - assert (G : exists x y, got 26 shape1 = Some (VList [VPtr x; VPtr y])) by (do 2 eexists; vm_compute; reflexivity). destruct G as (x & y & G). pose proof G as G'. vm_compute in G'. injection G' as <- <-. do 4 eexists. split; [exact G|]. split; [vm_compute; reflexivity|]. split; [discriminate|vm_compute; reflexivity].
  - intro H. assert (E : exists f, nth_error (fields_of mpd_types MPD) 26 = Some f /\ element f = true /\ fd_type f = TSlice (TPtr (TStruct (str "Period"))) /\ length (named f (root_of shape1)) = 2%nat) by (eexists; repeat split; vm_compute; reflexivity).
    destruct E as (f & NF & EL & FT & LN). specialize (H 26%nat f NF EL). rewrite FT in H. cbn [target] in H. destruct H as (xs & E & FA). assert (L : length xs = 2%nat) by (rewrite <- LN; symmetry; clear -FA; induction FA; cbn; auto).
    assert (E' : exists u, field 26 (read_or_zero unk1) = Some (VList [u])) by (eexists; vm_compute; reflexivity). destruct E' as (u & E'). rewrite E in E'. injection E' as ->. discriminate L.
Qed.
