(** Property C95: the value of a field for an attribute comes from the last attribute for it, and that of a field for one element from the element alone. *)
From Coq Require Import String.
From Coq Require Import ZArith List Bool Lia SpecFloat Permutation.
From Verif Require Import Base Utf8 Lexer Decoder DecoderSpec DecoderProofs PropertiesDecoder Duration GoType Schema TypeInfo PropertiesTypeInfo Simple ValueSpec Unmarshal Io UnmarshalProofs PropertiesUnmarshal RoundTripSpec RoundTripCheck RoundTripParts RoundTripBody RoundTripTest PropertiesDocument PropertiesRoundTrip Hidden Infoset PropertiesInfoset AttrOrder PropertiesAttrOrder Tree Siblings PropertiesSiblings PropertiesUnknown PropertiesLocal PropertiesElements.
Import ListNotations.
Open Scope Z_scope.

(** Types of which a value is replaced when it is read again. *)
Definition flat (t : gtype) : bool := match t with TSlice _ | TPtr (TSlice _) | TPtr (TPtr _) => false | _ => true end.
Section Single.
Variables (env : tenv) (ek : nat) (F : floats).
Lemma flat_attr : forall t v w x, flat t = true -> unmarshal_attr F env ek t v x = unmarshal_attr F env ek t w x.
Proof. intros t v w x H. destruct t as [| | | | | | |t|t|s| |]; try discriminate; try reflexivity. destruct t as [| | | | | | |t|t|s| |]; try discriminate; reflexivity. Qed.
Lemma attrs_last : forall s ti i fd, nth_error (fields_of env s) i = Some fd -> flat (fd_type fd) = true -> (forall n f, attr_field ti n = Some f -> heads i f = true -> fi_idx f = [i]) ->
  forall a p x v v', own_attrs ti i a = p ++ [x] -> set_attrs F env ek ti s v a = Ok v' -> exists y, unmarshal_attr F env ek (fd_type fd) (zero_of env ek (fd_type fd)) x = Ok y /\ field i v' = Some y.
Proof.
  intros s ti i fd NF FL ID. unfold own_attrs. induction a as [|z a IH]; intros p x v v' O H; cbn [filter set_attrs] in *; [destruct p; discriminate|]. unfold own_attr at 1 in O. destruct (attr_field ti (aname z)) as [f|] eqn:AF; [|exact (IH _ _ _ _ O H)].
  destruct (update_at ek env s (fi_idx f) v _) as [(v1, b)| | |] eqn:U in H; try discriminate. cbn [bind] in H. destruct (heads i f) eqn:HD; [|exact (IH _ _ _ _ O H)]. destruct p as [|q p]; cbn [app] in O; [|injection O as _ O; exact (IH _ _ _ _ O H)].
  injection O as -> O. rewrite (ID _ f AF HD), update_cons in U. destruct v as [| | | | | | |l| |]; try discriminate. rewrite NF in U. destruct (nth_error l i) as [w|] eqn:NL; [|discriminate]. cbn [inside] in U. unfold with_unit in U. rewrite (flat_attr _ w (zero_of env ek (fd_type fd)) x FL) in U.
  destruct (unmarshal_attr F env ek (fd_type fd) (zero_of env ek (fd_type fd)) x) as [y| | |]; try discriminate. cbn [bind] in U. injection U as <- <-. exists y. split; [reflexivity|].
  assert (NA : forall y, In y a -> own_attr ti i y = false). { intros u I. destruct (own_attr ti i u) eqn:Q; [|reflexivity]. assert (I' : In u (filter (own_attr ti i) a)) by (apply filter_In; auto). rewrite O in I'. destruct I'. }
  rewrite (attrs_other env ek F ti s i a _ _ NA H). cbn [field]. assert (L : (i < length l)%nat) by (apply nth_error_Some; congruence). rewrite (nth_mid l i y i L), Nat.eqb_refl. reflexivity.
Qed.
Lemma kids_one : forall r s ti i fd, nth_error (fields_of env s) i = Some fd -> (forall f, In f (ti_fields ti) -> heads i f = true -> fi_idx f = [i]) ->
  forall k c v v' w, own_kids ti i k = [c] -> kids_loop (tree_child env ek (tree_read F env ek r) s (ti_fields ti)) v k = Ok v' -> field i v = Some w -> exists y, tree_read F env ek r (fd_type fd) w c = Ok y /\ field i v' = Some y.
Proof.
  intros r s ti i fd NF ID. unfold own_kids. induction k as [|[x|z] k IH]; intros c v v' w O H X; cbn [kids_of flat_map app filter kids_loop] in *; [discriminate|exact (IH _ _ _ _ O H X)|]. fold (kids_of k) in O. unfold own_kid at 1 in O. unfold tree_child at 1 in H.
  destruct (find_path (ti_fields ti) [] (tname z)) as [f|ps|] eqn:FP; [|exact (IH _ _ _ _ O H X)|exact (IH _ _ _ _ O H X)]. destruct (update_at ek env s (fi_idx f) v _) as [(v1, b)| | |] eqn:U in H; try discriminate. cbn [bind] in H.
  destruct (heads i f) eqn:HD; [|apply (IH _ _ _ _ O H); rewrite (update_field env ek _ _ _ _ _ _ _ U HD); exact X]. injection O as -> O. rewrite (ID f (proj1 (find_path_in _ _ _ _ FP)) HD), update_cons in U. destruct v as [| | | | | | |l| |]; try discriminate. cbn [field] in X. rewrite NF, X in U. cbn [inside] in U. unfold with_unit in U.
  destruct (tree_read F env ek r (fd_type fd) w c) as [y| | |]; try discriminate. cbn [bind] in U. injection U as <- <-. exists y. split; [reflexivity|].
  assert (NK : forall u, In (Child u) k -> own_kid ti i u = false). { intros u I. destruct (own_kid ti i u) eqn:Q; [|reflexivity]. assert (I' : In u (filter (own_kid ti i) (kids_of k))) by (apply filter_In; split; [apply in_flat_map; exists (Child u); split; [exact I|left; reflexivity]|exact Q]). rewrite O in I'. destruct I'. }
  rewrite (kids_other env ek _ ti s i k _ _ NK H). cbn [field]. assert (L : (i < length l)%nat) by (apply nth_error_Some; congruence). rewrite (nth_mid l i y i L), Nat.eqb_refl. reflexivity.
Qed.
(** What reading does to a field that is not for the text, the name and so on: its attributes, then its children. *)
Lemma read_field : forall r s ti i n a k v v', type_info ek env s = Ok ti -> (forall f, In f (general ti) -> heads i f = false) -> tree_read F env ek (S r) (TStruct s) v (Elem n a k) = Ok v' ->
  exists u1 u2 w1 w2, field i u1 = field i v /\ set_attrs F env ek ti s u1 a = Ok u2 /\ field i w1 = field i u2 /\ kids_loop (tree_child env ek (tree_read F env ek r) s (ti_fields ti)) w1 k = Ok w2 /\ field i v' = field i w2.
Proof.
  intros r s ti i n a k v v' TI NG H. cbn [tree_read tree_body] in H. rewrite TI in H. cbv zeta in H. unfold touch in H. pose proof (modes_apart ti i NG) as M.
  assert (M1 := M is_data ltac:(intros g E; rewrite E; reflexivity)). assert (M2 := M is_comment ltac:(intros g E; rewrite E, orb_true_r; reflexivity)). assert (M3 := M is_any ltac:(intros g E; rewrite E, orb_true_r; reflexivity)). assert (M4 := M is_inner ltac:(intros g E; rewrite E, orb_true_r; reflexivity)).
  apply bind_ok in H as (v1 & H1 & H). assert (X1 : field i v1 = field i v).
  { destruct (ti_xmlname ti) as [x|] eqn:XN; [|injection H1 as <-; reflexivity]. match type of H1 with (if ?b then _ else _) = _ => destruct b; [discriminate|] end. apply (put_other env ek s x _ v v1 i H1). apply NG. unfold general. rewrite XN. left. reflexivity. }
  apply bind_ok in H as (v2 & H2 & H). apply bind_ok in H as (v3 & H3 & H). pose proof (opt_other env ek s _ (fun _ _ w => Ok (w, tt)) i _ _ M1 H3) as X3.
  apply bind_ok in H as (v4 & H4 & H). pose proof (opt_other env ek s _ (fun _ _ w => Ok (w, tt)) i _ _ M2 H4) as X4. apply bind_ok in H as (v5 & H5 & H). pose proof (opt_other env ek s _ (fun _ _ w => Ok (w, tt)) i _ _ M3 H5) as X5. apply bind_ok in H as (v6 & H6 & H). pose proof (opt_other env ek s _ (fun _ _ w => Ok (w, tt)) i _ _ M4 H6) as X6.
  apply bind_ok in H as (v7 & H7 & H). apply bind_ok in H as (v8 & H8 & H). pose proof (opt_other env ek s _ (fun f t _ => with_unit (copy_value F t (text_in k))) i _ _ M1 H8) as X8.
  apply bind_ok in H as (v9 & H9 & H). pose proof (opt_other env ek s _ (fun f t w => match t with TString => Ok (VStr [], tt) | TSlice _ => Panic | _ => Ok (w, tt) end) i _ _ M2 H9) as X9.
  pose proof (opt_other env ek s _ (fun f t w => Ok (match t with TString => VStr [] | _ => w end, tt)) i _ _ M4 H) as X. exists v1, v2, v6, v7. repeat split; auto; congruence.
Qed.
End Single.

(** C95: of the attributes for a field the last one counts. *)
Theorem C95_attr : forall F env ek kind z s ti i fd v inp ts l n a k p x v', kind_ok env ek kind Exact -> (forall s ti, type_info ek env s = Ok ti -> plain ti = true) ->
  ends z (new_decoder inp) ts -> spells ts l -> root l = Some (Elem n a k) -> type_info ek env s = Ok ti -> nth_error (fields_of env s) i = Some fd -> kind fd = Exact -> flat (fd_type fd) = true ->
  (forall n f, attr_field ti n = Some f -> heads i f = true -> fi_idx f = [i]) -> (forall f, In f (general ti) -> heads i f = false) ->
  own_attrs ti i a = p ++ [x] -> own_kids ti i k = [] -> decode F env ek (enough inp) (TStruct s) v inp = Ok v' ->
  exists y y', unmarshal_attr F env ek (fd_type fd) (zero_of env ek (fd_type fd)) x = Ok y /\ field i v' = Some y' /\ near env kind (fd_type fd) y' y.
Proof.
  intros F env ek kind z s ti i fd v inp ts l n a k p x v' W PL E1 S1 R1 TI NF K FL ID NG OA OK D1. pose proof (ends_short _ _ _ E1) as L1. destruct E1 as (d1 & e1 & C1 & _).
  pose proof (decode_tree F env ek kind Exact ltac:(discriminate) W PL (enough inp) ts l d1 inp (TStruct s) v v _ (N_refl _ _ _ _) C1 S1 R1 L1) as H1.
  rewrite D1 in H1. revert H1. generalize max_depth. intros [|r] H1; [destruct H1|]. destruct (tree_read F env ek (S r) (TStruct s) v (Elem n a k)) as [v0| | |] eqn:T1; cbn [agrees] in H1; try contradiction. pose proof (near_field _ _ _ _ _ _ _ H1 NF K) as N1.
  destruct (read_field env ek F r s ti i n a k v v0 TI NG T1) as (u1 & u2 & w1 & w2 & A1 & A2 & A3 & A4 & A5). destruct (attrs_last env ek F s ti i fd NF FL ID a p x u1 u2 OA A2) as (y & Y1 & Y2).
  assert (NK : forall u, In (Child u) k -> own_kid ti i u = false). { intros u I. destruct (own_kid ti i u) eqn:Q; [|reflexivity]. assert (I' : In u (own_kids ti i k)) by (apply filter_In; split; [apply in_flat_map; exists (Child u); split; [exact I|left; reflexivity]|exact Q]). rewrite OK in I'. destruct I'. }
  rewrite A5, (kids_other env ek _ ti s i k _ _ NK A4), A3, Y2 in N1. destruct (field i v') as [y'|]; [|destruct N1]. exists y, y'. auto.
Qed.
Print Assumptions C95_attr.
(** C95: a field with one element for it has what the element alone gives. *)
Theorem C95_element : forall F env ek kind z s ti i fd v inp ts l n a k c v', kind_ok env ek kind Exact -> (forall s ti, type_info ek env s = Ok ti -> plain ti = true) ->
  ends z (new_decoder inp) ts -> spells ts l -> root l = Some (Elem n a k) -> type_info ek env s = Ok ti -> nth_error (fields_of env s) i = Some fd -> kind fd = Exact ->
  (forall f, In f (ti_fields ti) -> heads i f = true -> fi_idx f = [i]) -> (forall f, In f (general ti) -> heads i f = false) ->
  own_attrs ti i a = [] -> own_kids ti i k = [c] -> field i v = Some (zero_of env ek (fd_type fd)) -> decode F env ek (enough inp) (TStruct s) v inp = Ok v' ->
  exists y, field i v' = Some y /\ alone F env ek kind (fd_type fd) c y.
Proof.
  intros F env ek kind z s ti i fd v inp ts l n a k c v' W PL E1 S1 R1 TI NF K ID NG OA OK X0 D1. pose proof (ends_short _ _ _ E1) as L1. destruct E1 as (d1 & e1 & C1 & _).
  pose proof (decode_tree F env ek kind Exact ltac:(discriminate) W PL (enough inp) ts l d1 inp (TStruct s) v v _ (N_refl _ _ _ _) C1 S1 R1 L1) as H1.
  rewrite D1 in H1.
  destruct (tree_read F env ek max_depth (TStruct s) v (Elem n a k)) as [v0| | |] eqn:T1; cbn [agrees] in H1; try contradiction. assert (MD : exists r, max_depth = S r) by (clear -T1; destruct max_depth as [|r]; [discriminate T1|exists r; reflexivity]). destruct MD as (r & MD). rewrite MD in T1. pose proof (near_field _ _ _ _ _ _ _ H1 NF K) as N1.
  destruct (read_field env ek F r s ti i n a k v v0 TI NG T1) as (u1 & u2 & w1 & w2 & A1 & A2 & A3 & A4 & A5).
  assert (NA : forall y, In y a -> own_attr ti i y = false). { intros u I. destruct (own_attr ti i u) eqn:Q; [|reflexivity]. assert (I' : In u (own_attrs ti i a)) by (apply filter_In; auto). rewrite OA in I'. destruct I'. }
  pose proof (attrs_other env ek F ti s i a _ _ NA A2) as A6. destruct (kids_one env ek F r s ti i fd NF ID k c w1 w2 (zero_of env ek (fd_type fd)) OK A4 ltac:(congruence)) as (y & Y1 & Y2).
  rewrite A5, Y2 in N1. destruct (field i v') as [y'|]; [|destruct N1]. exists y'. split; [reflexivity|]. pose proof (read_mono env ek F r max_depth ltac:(lia) _ _ _ _ Y1) as Y3.
  intros q inp2 us l2 T E S R2 EX. pose proof (ends_short _ _ _ E) as L. destruct E as (d & e & C & _). pose proof (decode_tree F env ek kind Exact ltac:(discriminate) W PL (enough inp2) us l2 d inp2 (fd_type fd) (zero_of env ek (fd_type fd)) (zero_of env ek (fd_type fd)) T (N_refl _ _ _ _) C S R2 L) as H.
  rewrite <- (extended_read env ek F (fd_type fd) c T EX), Y3 in H. destruct (decode F env ek (enough inp2) (fd_type fd) (zero_of env ek (fd_type fd)) inp2) as [u| | |]; cbn [agrees] in H; try contradiction. exists u. split; [reflexivity|]. eapply near_trans; [exact H|]. apply near_sym. exact N1.
Qed.
Print Assumptions C95_element.
(** *** For the package *)
Definition named_attrs (f : fdecl) (T : tree) : list attr := let '(Elem _ a _) := T in filter (fun x => beq (local (aname x)) (key f)) a.
Definition no_space (f : fdecl) : bool := negb (existsb (Z.eqb 32) (fd_tag f)).
(** What the text of an attribute means: itself, or a duration. *)
Definition meant (F : floats) (t : gtype) (s : bytes) (y : gval) : Prop :=
  match t with
  | TString => y = VStr s
  | TPtr TString => y = VPtr (VStr s)
  | TPtr TDuration => exists d, parse_duration (f_oor F) s = Ok d /\ y = VPtr (VInt d)
  | _ => False
  end.
Lemma mpd_attrs : forall i fd, nth_error (fields_of mpd_types MPD) (S i) = Some fd -> has (str ",attr") (fd_tag fd) = true -> no_space fd = true ->
  (forall x, own_attr (ti_of MPD) (S i) x = beq (local (aname x)) (key fd)) /\ (forall n f, attr_field (ti_of MPD) n = Some f -> heads (S i) f = true -> fi_idx f = [S i]) /\
  match fd_type fd with TString | TPtr TString | TPtr TDuration => True | _ => False end.
Proof.
  assert (A : forallb (fun e => match fi_idx (snd e) with [_] => true | _ => false end) (ti_attrs (ti_of MPD)) = true) by (vm_compute; reflexivity). assert (AA : ti_anyattr (ti_of MPD) = None) by (vm_compute; reflexivity).
  assert (D : forallb (fun i => match nth_error (fields_of mpd_types MPD) (S i) with Some fd => implb (has (str ",attr") (fd_tag fd) && no_space fd) (forallb (fun e => Bool.eqb (heads (S i) (snd e)) (beq (local (fst e)) (key fd))) (ti_attrs (ti_of MPD)) && existsb (fun e => name_eqb (fst e) (mkname [] (key fd))) (ti_attrs (ti_of MPD)) &&
    match fd_type fd with TString | TPtr TString | TPtr TDuration => true | _ => false end) | None => true end) (seq 0 (length (fields_of mpd_types MPD))) = true) by (vm_compute; reflexivity).
  intros i fd NF HA NS. rewrite forallb_forall in A, D. assert (I : In i (seq 0 (length (fields_of mpd_types MPD)))) by (apply in_seq; assert (S i < length (fields_of mpd_types MPD))%nat by (apply nth_error_Some; rewrite NF; discriminate); lia). specialize (D i I). rewrite NF, HA, NS in D. cbn [andb implb] in D.
  apply andb_true_iff in D as (D & D3). apply andb_true_iff in D as (D1 & D2). rewrite forallb_forall in D1.
  assert (P : forall e, In e (ti_attrs (ti_of MPD)) -> heads (S i) (snd e) = beq (local (fst e)) (key fd)) by (intros e J; apply Bool.eqb_prop; exact (D1 e J)).
  revert A AA D2 P. generalize (ti_of MPD). clear -D3. intros ti A AA D2 P. split; [|split].
  - intro x. unfold own_attr. destruct (attr_field ti (aname x)) as [f|] eqn:AF.
    + destruct (attr_field_in _ _ _ AA AF) as (e & J & <- & LN). rewrite (P e J), LN. reflexivity.
    + unfold attr_field in AF. destruct (find_attr (ti_attrs ti) (aname x)); [discriminate|]. destruct (find_attr (ti_attrs ti) (mkname [] (local (aname x)))) as [f|] eqn:F2; [discriminate|]. destruct (beq (local (aname x)) (key fd)) eqn:B; [|reflexivity]. apply beq_eq in B. apply existsb_exists in D2 as (e & J & Q).
      unfold find_attr in F2. destruct (find (fun e => name_eqb (fst e) (mkname [] (local (aname x)))) (ti_attrs ti)) eqn:FD; [discriminate|]. pose proof (find_none _ _ FD e J) as Z0. cbv beta in Z0. rewrite B in Z0. congruence.
  - intros n f AF HD. destruct (attr_field_in _ _ _ AA AF) as (e & J & <- & LN). specialize (A e J). cbv beta in A. unfold heads in HD. destruct (fi_idx (snd e)) as [|j [|]]; try discriminate. apply Nat.eqb_eq in HD. rewrite HD. reflexivity.
  - destruct (fd_type fd) as [| | | | | | |t|t|s| |]; try discriminate; auto. destruct t as [| | | | | | |t|t|s| |]; try discriminate; auto.
Qed.
Lemma dur_attr : forall F env ek v x, unmarshal_attr F env ek (TPtr TDuration) v x = bind (method_value F TDuration (avalue x)) (fun w => Ok (VPtr w)).
Proof. reflexivity. Qed.
Lemma dur_value : forall F s w, method_value F TDuration s = Ok w -> exists d, parse_duration (f_oor F) s = Ok d /\ w = VInt d.
Proof. intros F s w H. unfold method_value in H. destruct (parse_duration (f_oor F) s) as [d| | |]; try discriminate H. exists d. split; [reflexivity|]. injection H as <-. reflexivity. Qed.
Lemma meant_attr : forall F env ek kind t v x y y', match t with TString | TPtr TString | TPtr TDuration => True | _ => False end -> unmarshal_attr F env ek t v x = Ok y -> near env kind t y' y -> meant F t (avalue x) y'.
Proof.
  intros F env ek kind t v x y y' TY U N. destruct t as [| | | | | | |t|t|s| |]; try contradiction.
  - injection U as <-. inversion N; subst. reflexivity.
  - destruct t as [| | | | | | |t|t|s| |]; try contradiction.
    + injection U as <-. inversion N as [|? ? ? N'| |]; subst; [reflexivity|]. inversion N'; subst; reflexivity.
    + rewrite dur_attr in U. destruct (method_value F TDuration (avalue x)) as [w| | |] eqn:MV; try discriminate U. injection U as <-. destruct (dur_value _ _ _ MV) as (d & PD & ->). exists d. split; [exact PD|]. inversion N as [|? ? ? N'| |]; subst; [reflexivity|]. inversion N'; subst; reflexivity.
Qed.
Lemma named_own : forall ti i fd n a k, (forall x, own_attr ti i x = beq (local (aname x)) (key fd)) -> own_attrs ti i a = named_attrs fd (Elem n a k).
Proof. intros ti i fd n a k OW. unfold own_attrs, named_attrs. apply filter_ext. exact OW. Qed.
Lemma none_kid : forall ti i fd k, (forall f, In f (ti_fields ti) -> g_element (fi_flags f) = true -> heads i f = true -> has (str ",attr") (fd_tag fd) = false /\ fi_name f = key fd) -> has (str ",attr") (fd_tag fd) = true -> own_kids ti i k = [].
Proof.
  intros ti i fd k PK HA. destruct (own_kids ti i k) as [|c r] eqn:O; [reflexivity|exfalso]. assert (I : In c (own_kids ti i k)) by (rewrite O; left; reflexivity). apply filter_In in I as (I & Q). unfold own_kid in Q. destruct (find_path (ti_fields ti) [] (tname c)) as [f| |] eqn:FP; try discriminate Q.
  destruct (find_path_in _ _ _ _ FP) as (J & GE). destruct (PK f J GE Q) as (HA' & KE). rewrite HA in HA'. discriminate HA'.
Qed.
(** C95 for the package: the fields of MPD for attributes without a name space.  Together with C93_mpd this says what they are for every document that can be read. *)
Theorem C95_mpd : forall F z inp ts l T i fd p x v, ends z (new_decoder inp) ts -> spells ts l -> root l = Some T -> nth_error (fields_of mpd_types MPD) (S i) = Some fd -> has (str ",attr") (fd_tag fd) = true -> no_space fd = true ->
  named_attrs fd T = p ++ [x] -> read_mpd F inp = Ok v -> exists y, field (S i) v = Some y /\ meant F (fd_type fd) (avalue x) y.
Proof.
  intros F z inp ts l [n a k] i fd p x v E S1 R1 NF HA NS NM RD. destruct (mpd_places i fd NF) as (K & NG & PA & PK & AA). destruct (mpd_attrs i fd NF HA NS) as (OW & ID & TY). assert (TI : type_info embed_depth mpd_types MPD = Ok (ti_of MPD)) by (vm_compute; reflexivity).
  assert (OA : own_attrs (ti_of MPD) (S i) a = p ++ [x]) by (rewrite (named_own _ _ _ n a k OW); exact NM). pose proof (none_kid _ _ _ k PK HA) as OK.
  unfold read_mpd, mpd_from_bytes in RD. fold MPD in RD. change (zero_of mpd_types embed_depth (TStruct MPD)) with (zero_value MPD) in RD.
  assert (FL : flat (fd_type fd) = true) by (clear -TY; destruct (fd_type fd) as [| | | | | | |t|t|s| |]; try contradiction; try reflexivity; destruct t; try contradiction; reflexivity).
  destruct (C95_attr F mpd_types embed_depth (but_verbatim Exact) z MPD (ti_of MPD) (S i) fd (zero_value MPD) inp ts l n a k p x v (mpd_kind Exact ltac:(discriminate)) (fun s ti TI => proj2 (proj2 (mpd_apart s ti TI))) E S1 R1 TI NF K FL ID NG OA OK RD) as (y & y' & U & G & N).
  exists y'. split; [exact G|]. exact (meant_attr _ _ _ _ _ _ _ _ _ TY U N).
Qed.
Print Assumptions C95_mpd.
(** An attribute twice: the last one counts; a pointer to a string, a duration, and one element for a pointer. *)
Definition single : bytes := str "<MPD id=""a"" type=""static"" id=""b"" minBufferTime=""PT1M2S""><ContentSteering>s</ContentSteering></MPD>".
Example C95_ex : got 3 single = Some (VStr (str "b")) /\ got 5 single = Some (VPtr (VStr (str "static"))) /\ got 11 single = Some (VPtr (VInt 62000000000)) /\
  (exists y, got 32 single = Some (VPtr y)) /\ ends EEof (new_decoder single) (tokens_of single) /\ (exists l, spells (tokens_of single) l /\ root l = Some (root_of single)) /\
  map avalue (match nth_error (fields_of mpd_types MPD) 3 with Some f => named_attrs f (root_of single) | None => [] end) = [str "a"; str "b"] /\
  length (filter (fun f => has (str ",attr") (fd_tag f) && no_space f) (fields_of mpd_types MPD)) = 14%nat.
Proof.
  do 3 (split; [vm_compute; reflexivity|]). split; [eexists; vm_compute; reflexivity|]. split; [apply tokens_end; vm_compute; reflexivity|]. split; [exists (fst (grow 20 (tokens_of single))); split; [apply (grow_spells 20); vm_compute; reflexivity|vm_compute; reflexivity]|]. split; vm_compute; reflexivity.
Qed.
