(** Property C94: a slice of elements gets one entry for each child element, in the order of the document, and each entry is what the element gives when it is read alone. *)
From Coq Require Import String.
From Coq Require Import ZArith List Bool Lia SpecFloat Permutation.
From Verif Require Import Base Utf8 Lexer Decoder DecoderSpec DecoderProofs PropertiesDecoder GoType Schema TypeInfo PropertiesTypeInfo Simple ValueSpec Unmarshal Io UnmarshalProofs PropertiesUnmarshal RoundTripSpec RoundTripCheck RoundTripParts RoundTripBody RoundTripTest PropertiesDocument PropertiesRoundTrip Hidden Infoset PropertiesInfoset AttrOrder PropertiesAttrOrder Tree Siblings PropertiesSiblings PropertiesUnknown PropertiesLocal.
Import ListNotations.
Open Scope Z_scope.

Section Elements.
Variables (env : tenv) (ek : nat) (F : floats).
(** *** What can be read can be read with more depth to spare *)
Lemma bind_mono : forall {A B} (x y : outcome uerr A) (f g : A -> outcome uerr B), (forall a, x = Ok a -> y = Ok a) -> (forall a b, f a = Ok b -> g a = Ok b) -> forall b, bind x f = Ok b -> bind y g = Ok b.
Proof. intros A B [a| | |] y f g H1 H2 b E; try discriminate. rewrite (H1 a eq_refl). cbn [bind] in *. exact (H2 a b E). Qed.
Lemma update_mono : forall {A} (f g : gtype -> gval -> outcome uerr (gval * A)), (forall t w y, f t w = Ok y -> g t w = Ok y) -> forall idx s v y, update_at ek env s idx v f = Ok y -> update_at ek env s idx v g = Ok y.
Proof.
  intros A f g H. induction idx as [|i rest IH]; intros s v y E; [discriminate|]. rewrite update_cons in E |- *. destruct v as [| | | | | | |l| |]; try discriminate. destruct (nth_error (fields_of env s) i) as [fd|]; [|discriminate]. destruct (nth_error l i) as [w|]; [|discriminate].
  revert y E. apply bind_mono; [|auto]. intros a. unfold inside. destruct rest as [|j rest]; [apply H|]. destruct (fd_type fd) as [| | | | | | |t|t|s'| |]; try discriminate; [|apply IH]. destruct t as [| | | | | | |t|t|s'| |]; try discriminate. destruct w; try discriminate; apply bind_mono; auto.
Qed.
Lemma kids_mono : forall c c' : gval -> tree -> outcome uerr gval, (forall v T y, c v T = Ok y -> c' v T = Ok y) -> forall k v y, kids_loop c v k = Ok y -> kids_loop c' v k = Ok y.
Proof. intros c c' H. induction k as [|[x|T] k IH]; intros v y; cbn [kids_loop]; auto. apply bind_mono; [apply H|apply IH]. Qed.
Lemma body_mono : forall rd rd' : tree_reader, (forall t v T y, rd t v T = Ok y -> rd' t v T = Ok y) -> forall t v n a k y, tree_body F env ek rd t v n a k = Ok y -> tree_body F env ek rd' t v n a k = Ok y.
Proof.
  intros rd rd' H t v n a k y. destruct t as [| | | | | | |t|t|s| |]; cbn [tree_body]; auto.
  - destruct v; auto. apply bind_mono; [apply H|auto].
  - destruct (type_info ek env s) as [ti| | |]; auto. cbv zeta. revert y. do 6 (apply bind_mono; [auto|]; intros ?). intros y. revert y. 
    apply bind_mono; [|auto]. apply kids_mono. intros u T z. unfold tree_child. destruct (find_path _ _ _); auto. apply bind_mono; [|auto]. apply update_mono. intros t w x. unfold with_unit. apply bind_mono; [apply H|auto].
Qed.
Lemma read_mono : forall r r', (r <= r')%nat -> forall t v T y, tree_read F env ek r t v T = Ok y -> tree_read F env ek r' t v T = Ok y.
Proof.
  induction r as [|r IH]; intros r' L t v [n a k] y H; [discriminate|]. destruct r' as [|r']; [lia|]. cbn [tree_read] in *. specialize (IH r' ltac:(lia)). destruct t as [| | | | | | |t|t|s| |]; try (revert H; apply body_mono; exact IH).
  revert y H. apply bind_mono; [|auto]. intros x. apply body_mono. exact IH.
Qed.
(** *** One entry for each *)
Lemma kids_list : forall r s ti i fd t, nth_error (fields_of env s) i = Some fd -> fd_type fd = TSlice t -> (forall f, In f (ti_fields ti) -> heads i f = true -> fi_idx f = [i]) ->
  forall k v v' l0, kids_loop (tree_child env ek (tree_read F env ek r) s (ti_fields ti)) v k = Ok v' -> field i v = Some (VList l0) ->
  exists xs, field i v' = Some (VList (l0 ++ xs)) /\ Forall2 (fun c x => forall r', (r <= r')%nat -> tree_read F env ek r' t (zero_of env ek t) c = Ok x) (own_kids ti i k) xs.
Proof.
  intros r s ti i fd t NF FT ID. unfold own_kids. induction k as [|[x|c] k IH]; intros v v' l0 H X; cbn [kids_of flat_map app filter kids_loop] in *; [injection H as <-; exists []; rewrite app_nil_r; auto|exact (IH _ _ _ H X)|]. fold (kids_of k). unfold own_kid at 1. unfold tree_child at 1 in H.
  destruct (find_path (ti_fields ti) [] (tname c)) as [f|ps|] eqn:FP; [|exact (IH _ _ _ H X)|exact (IH _ _ _ H X)]. destruct (update_at ek env s (fi_idx f) v _) as [(v1, b)| | |] eqn:U in H; try discriminate. cbn [bind] in H.
  destruct (heads i f) eqn:HD; [|apply (IH _ _ _ H); rewrite (update_field env ek _ _ _ _ _ _ _ U HD); exact X]. rewrite (ID f (proj1 (find_path_in _ _ _ _ FP)) HD), update_cons in U. destruct v as [| | | | | | |l| |]; try discriminate. cbn [field] in X. rewrite NF, X in U. cbn [inside] in U. rewrite FT in U.
  destruct r as [|r]; [discriminate|]. destruct c as [n a kk]. cbn [tree_read tree_body with_unit bind] in U. destruct (tree_read F env ek r t (zero_of env ek t) (Elem n a kk)) as [y| | |] eqn:R; try discriminate. cbn [bind] in U. injection U as <- <-.
  assert (L : (i < length l)%nat) by (apply nth_error_Some; congruence). destruct (IH _ _ (l0 ++ [y]) H) as (xs & E & G); [cbn [field]; rewrite (nth_mid l i _ i L), Nat.eqb_refl; reflexivity|].
  exists (y :: xs). rewrite <- app_assoc in E. split; [exact E|]. constructor; [|exact G]. intros r' LE. apply (read_mono r); [lia|exact R].
Qed.
Theorem field_list : forall r s ti i fd t n a k v v' l0, type_info ek env s = Ok ti -> nth_error (fields_of env s) i = Some fd -> fd_type fd = TSlice t -> (forall f, In f (ti_fields ti) -> heads i f = true -> fi_idx f = [i]) ->
  own_attrs ti i a = [] -> (forall f, In f (general ti) -> heads i f = false) -> tree_read F env ek r (TStruct s) v (Elem n a k) = Ok v' -> field i v = Some (VList l0) ->
  exists xs, field i v' = Some (VList (l0 ++ xs)) /\ Forall2 (fun c x => forall r', (r <= r')%nat -> tree_read F env ek r' t (zero_of env ek t) c = Ok x) (own_kids ti i k) xs.
Proof.
  intros [|r] s ti i fd t n a k v v' l0 TI NF FT ID NA NG H X0; [discriminate|]. cbn [tree_read tree_body] in H. rewrite TI in H. cbv zeta in H. unfold touch in H. pose proof (modes_apart ti i NG) as M.
  assert (NA' : forall y, In y a -> own_attr ti i y = false). { intros y I. destruct (own_attr ti i y) eqn:O; [|reflexivity]. assert (I' : In y (own_attrs ti i a)) by (apply filter_In; auto). rewrite NA in I'. destruct I'. }
  assert (M1 := M is_data ltac:(intros g E; rewrite E; reflexivity)). assert (M2 := M is_comment ltac:(intros g E; rewrite E, orb_true_r; reflexivity)). assert (M3 := M is_any ltac:(intros g E; rewrite E, orb_true_r; reflexivity)). assert (M4 := M is_inner ltac:(intros g E; rewrite E, orb_true_r; reflexivity)).
  apply bind_ok in H as (v1 & H1 & H). assert (X1 : field i v1 = field i v).
  { destruct (ti_xmlname ti) as [x|] eqn:XN; [|injection H1 as <-; reflexivity]. match type of H1 with (if ?b then _ else _) = _ => destruct b; [discriminate|] end. apply (put_other env ek s x _ v v1 i H1). apply NG. unfold general. rewrite XN. left. reflexivity. }
  apply bind_ok in H as (v2 & H2 & H). pose proof (attrs_other env ek F _ _ _ _ _ _ NA' H2) as X2. apply bind_ok in H as (v3 & H3 & H). pose proof (opt_other env ek s _ (fun _ _ w => Ok (w, tt)) i _ _ M1 H3) as X3.
  apply bind_ok in H as (v4 & H4 & H). pose proof (opt_other env ek s _ (fun _ _ w => Ok (w, tt)) i _ _ M2 H4) as X4. apply bind_ok in H as (v5 & H5 & H). pose proof (opt_other env ek s _ (fun _ _ w => Ok (w, tt)) i _ _ M3 H5) as X5. apply bind_ok in H as (v6 & H6 & H). pose proof (opt_other env ek s _ (fun _ _ w => Ok (w, tt)) i _ _ M4 H6) as X6.
  apply bind_ok in H as (v7 & H7 & H). destruct (kids_list r s ti i fd t NF FT ID k v6 v7 l0 H7 ltac:(congruence)) as (xs & E & G).
  apply bind_ok in H as (v8 & H8 & H). pose proof (opt_other env ek s _ (fun f t _ => with_unit (copy_value F t (text_in k))) i _ _ M1 H8) as X8.
  apply bind_ok in H as (v9 & H9 & H). pose proof (opt_other env ek s _ (fun f t w => match t with TString => Ok (VStr [], tt) | TSlice _ => Panic | _ => Ok (w, tt) end) i _ _ M2 H9) as X9.
  pose proof (opt_other env ek s _ (fun f t w => Ok (match t with TString => VStr [] | _ => w end, tt)) i _ _ M4 H) as X. exists xs. split; [congruence|]. revert G. clear. induction 1; constructor; auto. intros r' L. apply H. lia.
Qed.
End Elements.

(** C94: reading an element into a slice.  [inp2] is a document with the child element alone, or with something added that is not known as in C92, for instance the declaration of a name space. *)
Definition alone F env ek kind (t : gtype) (c : tree) (y : gval) : Prop :=
  forall x inp2 ts l T, ends x (new_decoder inp2) ts -> spells ts l -> root l = Some T -> extended env ek t c T -> exists z, decode F env ek (enough inp2) t (zero_of env ek t) inp2 = Ok z /\ near env kind t z y.
Theorem C94_list : forall F env ek kind x s ti i fd t v l0 inp ts l n a k v', kind_ok env ek kind Exact -> (forall s ti, type_info ek env s = Ok ti -> plain ti = true) ->
  ends x (new_decoder inp) ts -> spells ts l -> root l = Some (Elem n a k) -> type_info ek env s = Ok ti -> nth_error (fields_of env s) i = Some fd -> kind fd = Exact -> fd_type fd = TSlice t ->
  (forall f, In f (ti_fields ti) -> heads i f = true -> fi_idx f = [i]) -> own_attrs ti i a = [] -> (forall f, In f (general ti) -> heads i f = false) ->
  decode F env ek (enough inp) (TStruct s) v inp = Ok v' -> field i v = Some (VList l0) ->
  exists l1 xs, field i v' = Some (VList (l1 ++ xs)) /\ Forall2 (near env kind t) l1 l0 /\ Forall2 (alone F env ek kind t) (own_kids ti i k) xs.
Proof.
  intros F env ek kind x s ti i fd t v l0 inp ts l n a k v' W PL E1 S1 R1 TI NF K FT ID NA NG D1 X0. pose proof (ends_short _ _ _ E1) as L1. destruct E1 as (d1 & e1 & C1 & _).
  pose proof (decode_tree F env ek kind Exact ltac:(discriminate) W PL (enough inp) ts l d1 inp (TStruct s) v v _ (N_refl _ _ _ _) C1 S1 R1 L1) as H1.
  rewrite D1 in H1. destruct (tree_read F env ek max_depth (TStruct s) v (Elem n a k)) as [v0| | |] eqn:T1; cbn in H1; try contradiction. pose proof (near_field _ _ _ _ _ _ _ H1 NF K) as N1.
  destruct (field_list env ek F max_depth s ti i fd t n a k v v0 l0 TI NF FT ID NA NG T1 X0) as (xs & E & G). rewrite E in N1. destruct (field i v') as [y|]; [|destruct N1]. rewrite FT in N1.
  assert (N2 : exists ys, y = VList ys /\ Forall2 (near env kind t) ys (l0 ++ xs)).
  { inversion N1; subst; [|eauto]. eexists. split; [reflexivity|]. clear. induction (l0 ++ xs); constructor; auto. apply N_refl. }
  destruct N2 as (ys & -> & N2). destruct (Forall2_app_inv_r _ _ N2) as (l1 & ys' & A & B & ->). exists l1, ys'. split; [reflexivity|]. split; [exact A|].
  assert (G' : Forall2 (fun c x => tree_read F env ek max_depth t (zero_of env ek t) c = Ok x) (own_kids ti i k) xs) by (revert G; clear; induction 1; constructor; auto).
  clear -W PL B G'. revert ys' B. induction G' as [|c z cs zs R G IH]; intros ys' B; inversion B as [|y0 z' ys0 zs' N0 B' E1 E2]; subst; constructor; [|apply IH; exact B'].
  intros x inp2 ts l T E S R2 EX. pose proof (ends_short _ _ _ E) as L. destruct E as (d & e & C & _). pose proof (decode_tree F env ek kind Exact ltac:(discriminate) W PL (enough inp2) ts l d inp2 t (zero_of env ek t) (zero_of env ek t) T (N_refl _ _ _ _) C S R2 L) as H.
  rewrite <- (extended_read env ek F t c T EX), R in H. destruct (decode F env ek (enough inp2) t (zero_of env ek t) inp2) as [u| | |]; cbn in H; try contradiction. exists u. split; [reflexivity|]. eapply near_trans; [exact H|]. apply near_sym. exact N0.
Qed.
Print Assumptions C94_list.
(** C94 for the package: the fields of MPD that are slices have one entry for each child element with the name in the tag. *)
Definition named (f : fdecl) (T : tree) : list tree := let '(Elem _ _ k) := T in filter (fun c => beq (local (tname c)) (key f)) (kids_of k).
Lemma mpd_slices : forall i fd t, nth_error (fields_of mpd_types MPD) i = Some fd -> fd_type fd = TSlice t ->
  (forall f, In f (ti_fields (ti_of MPD)) -> heads i f = true -> fi_idx f = [i]) /\ has (str ",attr") (fd_tag fd) = false /\ (exists j, i = S j) /\ (forall n, match find_path (ti_fields (ti_of MPD)) [] n with Field f => heads i f | _ => false end = beq (local n) (key fd)).
Proof.
  assert (A : forallb (fun f => match fi_idx f with [_] => true | _ => false end) (ti_fields (ti_of MPD)) = true) by (vm_compute; reflexivity).
  assert (B : forallb (fun fd => match fd_type fd with TSlice _ => negb (has (str ",attr") (fd_tag fd)) | _ => true end) (fields_of mpd_types MPD) = true) by (vm_compute; reflexivity).
  assert (C : forall n, find_path (ti_fields (ti_of MPD)) [] n = match find (fun f => g_element (fi_flags f) && beq (fi_name f) (local n)) (ti_fields (ti_of MPD)) with Some f => Field f | None => Nothing end).
  { assert (P : forallb (fun f => match fi_parents f, fi_xmlns f with [], [] => true | _, _ => negb (g_element (fi_flags f)) end) (ti_fields (ti_of MPD)) = true) by (vm_compute; reflexivity). intro n. revert P. generalize (ti_fields (ti_of MPD)). clear.
    induction l as [|f fs IH]; intros P; [reflexivity|]. cbn [forallb find find_path] in *. apply andb_true_iff in P as (P1 & P2). specialize (IH P2). destruct (g_element (fi_flags f)); [|cbn [negb orb andb]; exact IH]. destruct (fi_parents f); [|discriminate]. destruct (fi_xmlns f); [|discriminate]. cbn. destruct (beq (fi_name f) (local n)); [reflexivity|exact IH]. }
  assert (D : forallb (fun i => match nth_error (fields_of mpd_types MPD) i with Some fd => match fd_type fd with TSlice _ => match i with O => false | _ => forallb (fun f => implb (g_element (fi_flags f)) (Bool.eqb (heads i f) (beq (fi_name f) (key fd)))) (ti_fields (ti_of MPD)) && existsb (fun f => g_element (fi_flags f) && beq (fi_name f) (key fd)) (ti_fields (ti_of MPD)) end | _ => true end | None => true end) (seq 0 (length (fields_of mpd_types MPD))) = true) by (vm_compute; reflexivity).
  intros i fd t NF FT. rewrite forallb_forall in A, B, D. assert (I : In i (seq 0 (length (fields_of mpd_types MPD)))) by (apply in_seq; assert (i < length (fields_of mpd_types MPD))%nat by (apply nth_error_Some; congruence); lia). specialize (D i I). rewrite NF, FT in D. destruct i as [|i]; [discriminate|]. apply andb_true_iff in D as (D1 & D2). rewrite forallb_forall in D1. repeat split.
  - intros f J HD. specialize (A f J). cbv beta in A. unfold heads in HD. clear -A HD. destruct (fi_idx f) as [|j [|]]; try discriminate. apply Nat.eqb_eq in HD. rewrite HD. reflexivity.
  - specialize (B fd (nth_error_In _ _ NF)). cbv beta in B. rewrite FT in B. apply negb_true_iff. exact B.
  - eauto.
  - intro n. rewrite C. destruct (find _ _) as [f|] eqn:FD.
    + apply find_some in FD as (J & Q). apply andb_true_iff in Q as (GE & NM). apply beq_eq in NM. specialize (D1 f J). cbv beta in D1. rewrite GE in D1. cbn [implb] in D1. apply Bool.eqb_prop in D1. rewrite D1, NM. reflexivity.
    + destruct (beq (local n) (key fd)) eqn:BE; [|reflexivity]. apply beq_eq in BE. apply existsb_exists in D2 as (f & J & Q). pose proof (find_none _ _ FD f J) as Z0. cbv beta in Z0. rewrite BE, Q in Z0. discriminate.
Qed.
Theorem C94_mpd : forall F x inp ts l T i fd t v, ends x (new_decoder inp) ts -> spells ts l -> root l = Some T -> nth_error (fields_of mpd_types MPD) i = Some fd -> fd_type fd = TSlice t -> read_mpd F inp = Ok v ->
  exists xs, field i v = Some (VList xs) /\ length xs = length (named fd T) /\ Forall2 (alone F mpd_types embed_depth (but_verbatim Exact) t) (named fd T) xs.
Proof.
  intros F x inp ts l [n a k] i fd t v E S1 R1 NF FT RD. destruct (mpd_slices i fd t NF FT) as (ID & HA & (j & ->) & FP). destruct (mpd_places j fd NF) as (K & NG & PA & PK & AA). assert (TI : type_info embed_depth mpd_types MPD = Ok (ti_of MPD)) by (vm_compute; reflexivity).
  assert (EA : own_attrs (ti_of MPD) (S j) a = []).
  { destruct (own_attrs (ti_of MPD) (S j) a) as [|y r] eqn:O; [reflexivity|exfalso]. assert (I : In y (own_attrs (ti_of MPD) (S j) a)) by (rewrite O; left; reflexivity). apply filter_In in I as (I & Q). unfold own_attr in Q. destruct (attr_field (ti_of MPD) (aname y)) as [f|] eqn:AF; [|discriminate].
    destruct (attr_field_in _ _ _ AA AF) as (e & J & <- & LN). destruct (PA e J Q) as (HA' & KE). rewrite HA in HA'. discriminate. }
  assert (EK : own_kids (ti_of MPD) (S j) k = named fd (Elem n a k)).
  { unfold own_kids, named. apply filter_ext. intro c. unfold own_kid. apply FP. }
  unfold read_mpd, mpd_from_bytes in RD. fold MPD in RD. change (zero_of mpd_types embed_depth (TStruct MPD)) with (zero_value MPD) in RD.
  assert (Z0 : field (S j) (zero_value MPD) = Some (VList [])).
  { assert (E0 : zero_value MPD = VRec (map (fun fd => zero_of mpd_types embed_depth (fd_type fd)) (fields_of mpd_types MPD))) by (vm_compute; reflexivity). rewrite E0. cbn [field]. rewrite nth_error_map, NF. cbn [option_map]. rewrite FT. reflexivity. }
  destruct (C94_list F mpd_types embed_depth (but_verbatim Exact) x MPD (ti_of MPD) (S j) fd t (zero_value MPD) [] inp ts l n a k v (mpd_kind Exact ltac:(discriminate)) (fun s ti TI => proj2 (proj2 (mpd_apart s ti TI))) E S1 R1 TI NF K FT ID EA NG RD Z0) as (l1 & xs & G1 & G2 & G3).
  inversion G2; subst. rewrite EK in G3. exists xs. split; [exact G1|]. split; [symmetry; revert G3; clear; induction 1; cbn; auto|exact G3].
Qed.
Print Assumptions C94_mpd.
(** Two Periods with another element between them; the second alone, with the declaration of the name space that it is in. *)
Definition two : bytes := str "<MPD xmlns=""n"" profiles=""p""><Period id=""P1""/><BaseURL>u</BaseURL><Period id=""P2""><BaseURL>v</BaseURL></Period></MPD>".
Definition second : bytes := str "<Period xmlns=""n"" id=""P2""><BaseURL>v</BaseURL></Period>".
Definition period : gtype := TPtr (TStruct (str "Period")).
Definition root_of (inp : bytes) : tree := match root (fst (grow 20 (tokens_of inp))) with Some T => T | None => Elem (mkname [] []) [] [] end.
Definition periods : fdecl := nth 26 (fields_of mpd_types MPD) (mkfd [] false [] TString).
Example C94_ex : nth_error (fields_of mpd_types MPD) 26 = Some periods /\ fd_type periods = TSlice period /\
  ends EEof (new_decoder two) (tokens_of two) /\ (exists l, spells (tokens_of two) l /\ root l = Some (root_of two)) /\ ends EEof (new_decoder second) (tokens_of second) /\ (exists l, spells (tokens_of second) l /\ root l = Some (root_of second)) /\
  length (named periods (root_of two)) = 2%nat /\ (forall c, nth_error (named periods (root_of two)) 1 = Some c -> extended mpd_types embed_depth period c (root_of second)) /\
  exists x y, got 26 two = Some (VList [x; y]) /\ x <> y /\ decode fl1 mpd_types embed_depth (enough second) period (zero_of mpd_types embed_depth period) second = Ok y.
Proof.
  split; [vm_compute; reflexivity|]. split; [vm_compute; reflexivity|]. split; [apply tokens_end; vm_compute; reflexivity|].
  split; [exists (fst (grow 20 (tokens_of two))); split; [apply (grow_spells 20); vm_compute; reflexivity|vm_compute; reflexivity]|]. split; [apply tokens_end; vm_compute; reflexivity|].
  split; [exists (fst (grow 20 (tokens_of second))); split; [apply (grow_spells 20); vm_compute; reflexivity|vm_compute; reflexivity]|]. split; [vm_compute; reflexivity|]. split.
  - intros c H. assert (E : nth_error (named periods (root_of two)) 1 = Some (Elem (mkname (str "n") (str "Period")) [mkattr (mkname [] (str "id")) (str "P2")] [Child (Elem (mkname (str "n") (str "BaseURL")) [] [Text (str "v")])])) by (vm_compute; reflexivity).
    rewrite E in H. injection H as <-. assert (E' : root_of second = Elem (mkname (str "n") (str "Period")) ([] ++ mkattr (mkname [] (str "xmlns")) (str "n") :: [mkattr (mkname [] (str "id")) (str "P2")]) [Child (Elem (mkname (str "n") (str "BaseURL")) [] [Text (str "v")])]) by (vm_compute; reflexivity).
    rewrite E'. apply (E_attr mpd_types embed_depth period (str "Period") (ti_of (str "Period")) _ []); [reflexivity|vm_compute; reflexivity|vm_compute; reflexivity|].
    assert (K : forallb (fun e => negb (beq (local (fst e)) (str "xmlns"))) (ti_attrs (ti_of (str "Period"))) = true) by (vm_compute; reflexivity). intros e I Q. rewrite forallb_forall in K. specialize (K e I). cbv beta in K. rewrite Q in K. clear -K. vm_compute in K. discriminate K.
  - assert (G : exists x y, got 26 two = Some (VList [x; y])) by (do 2 eexists; vm_compute; reflexivity). destruct G as (x & y & G). exists x, y. split; [exact G|]. vm_compute in G. injection G as <- <-. split; [discriminate|]. vm_compute. reflexivity.
Qed.
