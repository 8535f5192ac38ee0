(** Property C96: a field for character data gets the text of the element, all of it and nothing else, and XMLName its name. *)
From Coq Require Import String.
From Coq Require Import ZArith List Bool Lia SpecFloat Permutation.
From Verif Require Import Base Utf8 Lexer Decoder DecoderSpec DecoderProofs PropertiesDecoder GoType Schema TypeInfo PropertiesTypeInfo Simple ValueSpec Unmarshal Io UnmarshalProofs PropertiesUnmarshal RoundTripSpec RoundTripCheck RoundTripParts RoundTripBody RoundTripTest PropertiesDocument PropertiesRoundTrip Hidden Infoset PropertiesInfoset AttrOrder PropertiesAttrOrder Tree Siblings PropertiesSiblings PropertiesUnknown PropertiesLocal PropertiesElements PropertiesSingle.
Import ListNotations.
Open Scope Z_scope.

Section Data.
Variables (env : tenv) (ek : nat) (F : floats).
Lemma put_one : forall {A} s i fd (g : gtype -> gval -> outcome uerr (gval * A)) f v v', nth_error (fields_of env s) i = Some fd -> fi_idx f = [i] -> put1 env ek s f g v = Ok v' -> exists w y a, field i v = Some w /\ g (fd_type fd) w = Ok (y, a) /\ field i v' = Some y.
Proof.
  intros A s i fd g f v v' NF ID H. unfold put1 in H. destruct (update_at ek env s (fi_idx f) v g) as [(u, a)| | |] eqn:U; try discriminate H. cbn [bind] in H. injection H as <-. rewrite ID, update_cons in U. destruct v as [| | | | | | |l| |]; try discriminate U. rewrite NF in U. destruct (nth_error l i) as [w|] eqn:NL; [|discriminate U]. cbn [inside] in U.
  destruct (g (fd_type fd) w) as [(y, b)| | |] eqn:G; try discriminate U. cbn [bind] in U. injection U as <- <-. exists w, y, b. cbn [field]. assert (L : (i < length l)%nat) by (apply nth_error_Some; congruence). rewrite (nth_mid l i y i L), Nat.eqb_refl. auto.
Qed.
(** The text comes last, but for comments and the inner XML. *)
Lemma read_data : forall r s ti i fd f n a k v v', type_info ek env s = Ok ti -> nth_error (fields_of env s) i = Some fd -> first_mode is_data (ti_fields ti) = Some f -> fi_idx f = [i] ->
  (forall g, In g (ti_fields ti) -> is_comment (fi_flags g) || is_inner (fi_flags g) = true -> heads i g = false) -> tree_read F env ek r (TStruct s) v (Elem n a k) = Ok v' ->
  exists y, copy_value F (fd_type fd) (text_in k) = Ok y /\ field i v' = Some y.
Proof.
  intros [|r] s ti i fd f n a k v v' TI NF FM ID NG H; [discriminate H|]. cbn [tree_read tree_body] in H. rewrite TI in H. cbv zeta in H. unfold touch in H.
  assert (M2 : forall g, first_mode is_comment (ti_fields ti) = Some g -> heads i g = false) by (intros g E; apply NG; [exact (mode_field _ _ _ E)|rewrite (mode_holds _ _ _ E); reflexivity]).
  assert (M4 : forall g, first_mode is_inner (ti_fields ti) = Some g -> heads i g = false) by (intros g E; apply NG; [exact (mode_field _ _ _ E)|rewrite (mode_holds _ _ _ E), orb_true_r; reflexivity]).
  do 7 (apply bind_ok in H as (? & _ & H)). apply bind_ok in H as (v8 & H8 & H). rewrite FM in H8. destruct (put_one s i fd (fun t _ => with_unit (copy_value F t (text_in k))) f _ _ NF ID H8) as (w & y & b & _ & Y1 & Y2).
  apply bind_ok in H as (v9 & H9 & H). pose proof (opt_other env ek s _ (fun f t w => match t with TString => Ok (VStr [], tt) | TSlice _ => Panic | _ => Ok (w, tt) end) i _ _ M2 H9) as X9.
  pose proof (opt_other env ek s _ (fun f t w => Ok (match t with TString => VStr [] | _ => w end, tt)) i _ _ M4 H) as X. exists y. split; [|congruence]. unfold with_unit in Y1. destruct (copy_value F (fd_type fd) (text_in k)); try discriminate Y1. cbn [bind] in Y1. injection Y1 as -> _. reflexivity.
Qed.
(** The name comes first; then what else is for the field, here nothing. *)
Lemma read_name : forall r s ti i fd x n a k v v', type_info ek env s = Ok ti -> nth_error (fields_of env s) i = Some fd -> fd_type fd = TName -> ti_xmlname ti = Some x -> fi_idx x = [i] ->
  (forall g, In g (ti_fields ti) -> heads i g = false) -> own_attrs ti i a = [] -> tree_read F env ek r (TStruct s) v (Elem n a k) = Ok v' ->
  field i v' = Some (VName n) /\ (fi_name x <> [] -> local n = fi_name x) /\ (fi_xmlns x <> [] -> space n = fi_xmlns x).
Proof.
  intros [|r] s ti i fd x n a k v v' TI NF FT XN ID NG OA H; [discriminate H|]. cbn [tree_read tree_body] in H. rewrite TI, XN in H. cbv zeta in H. unfold touch in H.
  assert (M : forall p g, first_mode p (ti_fields ti) = Some g -> heads i g = false) by (intros p g E; apply NG; exact (mode_field _ _ _ E)).
  assert (NA : forall y, In y a -> own_attr ti i y = false). { intros u I. destruct (own_attr ti i u) eqn:Q; [|reflexivity]. assert (I' : In u (own_attrs ti i a)) by (apply filter_In; auto). rewrite OA in I'. destruct I'. }
  assert (NK : forall c, In (Child c) k -> own_kid ti i c = false). { intros c _. unfold own_kid. destruct (find_path (ti_fields ti) [] (tname c)) as [f| |] eqn:FP; [|reflexivity|reflexivity]. apply NG. exact (proj1 (find_path_in _ _ _ _ FP)). }
  apply bind_ok in H as (v1 & H1 & H). match type of H1 with (if ?b then _ else _) = _ => destruct b eqn:B; [discriminate H1|] end. destruct (put_one s i fd (fun t w => Ok (match t with TName => VName n | _ => w end, tt)) x _ _ NF ID H1) as (w & y & b & _ & Y1 & Y2). rewrite FT in Y1. injection Y1 as <- _.
  apply bind_ok in H as (v2 & H2 & H). pose proof (attrs_other env ek F _ _ _ _ _ _ NA H2) as X2. apply bind_ok in H as (v3 & H3 & H). pose proof (opt_other env ek s _ (fun _ _ w => Ok (w, tt)) i _ _ (M _) H3) as X3.
  apply bind_ok in H as (v4 & H4 & H). pose proof (opt_other env ek s _ (fun _ _ w => Ok (w, tt)) i _ _ (M _) H4) as X4. apply bind_ok in H as (v5 & H5 & H). pose proof (opt_other env ek s _ (fun _ _ w => Ok (w, tt)) i _ _ (M _) H5) as X5. apply bind_ok in H as (v6 & H6 & H). pose proof (opt_other env ek s _ (fun _ _ w => Ok (w, tt)) i _ _ (M _) H6) as X6.
  apply bind_ok in H as (v7 & H7 & H). pose proof (kids_other env ek _ _ _ _ _ _ _ NK H7) as X7. apply bind_ok in H as (v8 & H8 & H). pose proof (opt_other env ek s _ (fun f t _ => with_unit (copy_value F t (text_in k))) i _ _ (M _) H8) as X8.
  apply bind_ok in H as (v9 & H9 & H). pose proof (opt_other env ek s _ (fun f t w => match t with TString => Ok (VStr [], tt) | TSlice _ => Panic | _ => Ok (w, tt) end) i _ _ (M _) H9) as X9.
  pose proof (opt_other env ek s _ (fun f t w => Ok (match t with TString => VStr [] | _ => w end, tt)) i _ _ (M _) H) as X. split; [congruence|].
  apply orb_false_iff in B as (B1 & B2). split; intro NE.
  - destruct (beq (fi_name x) []) eqn:Q; [apply beq_eq in Q; contradiction|]. cbn [negb andb] in B1. apply negb_false_iff in B1. apply beq_eq in B1. congruence.
  - destruct (beq (fi_xmlns x) []) eqn:Q; [apply beq_eq in Q; contradiction|]. cbn [negb andb] in B2. apply negb_false_iff in B2. apply beq_eq in B2. congruence.
Qed.
End Data.

(** C96: the text of the root element. *)
Theorem C96_text : forall F env ek kind z s ti i fd f v inp ts l n a k v', kind_ok env ek kind Exact -> (forall s ti, type_info ek env s = Ok ti -> plain ti = true) ->
  ends z (new_decoder inp) ts -> spells ts l -> root l = Some (Elem n a k) -> type_info ek env s = Ok ti -> nth_error (fields_of env s) i = Some fd -> kind fd = Exact ->
  first_mode is_data (ti_fields ti) = Some f -> fi_idx f = [i] -> (forall g, In g (ti_fields ti) -> is_comment (fi_flags g) || is_inner (fi_flags g) = true -> heads i g = false) ->
  decode F env ek (enough inp) (TStruct s) v inp = Ok v' -> exists y y', copy_value F (fd_type fd) (text_in k) = Ok y /\ field i v' = Some y' /\ near env kind (fd_type fd) y' y.
Proof.
  intros F env ek kind z s ti i fd f v inp ts l n a k v' W PL E1 S1 R1 TI NF K FM ID NG D1. pose proof (ends_short _ _ _ E1) as L1. destruct E1 as (d1 & e1 & C1 & _).
  pose proof (decode_tree F env ek kind Exact ltac:(discriminate) W PL (enough inp) ts l d1 inp (TStruct s) v v _ (N_refl _ _ _ _) C1 S1 R1 L1) as H1.
  rewrite D1 in H1. destruct (tree_read F env ek max_depth (TStruct s) v (Elem n a k)) as [v0| | |] eqn:T1; cbn [agrees] in H1; try contradiction. pose proof (near_field _ _ _ _ _ _ _ H1 NF K) as N1.
  destruct (read_data env ek F max_depth s ti i fd f n a k v v0 TI NF FM ID NG T1) as (y & Y1 & Y2). rewrite Y2 in N1. destruct (field i v') as [y'|]; [|destruct N1]. exists y, y'. auto.
Qed.
Print Assumptions C96_text.
Lemma package_data : forall d i fd, In d mpd_types -> nth_error (fields_of mpd_types (sd_name d)) i = Some fd -> fd_tag fd = str ",chardata" ->
  exists ti f, type_info embed_depth mpd_types (sd_name d) = Ok ti /\ first_mode is_data (ti_fields ti) = Some f /\ fi_idx f = [i] /\ fd_type fd = TString /\ but_verbatim Exact fd = Exact /\
    (forall g, In g (ti_fields ti) -> is_comment (fi_flags g) || is_inner (fi_flags g) = true -> heads i g = false).
Proof.
  assert (H : forallb (fun d => forallb (fun i => match nth_error (fields_of mpd_types (sd_name d)) i with None => true | Some fd => if beq (fd_tag fd) (str ",chardata") then
    match type_info embed_depth mpd_types (sd_name d) with
    | Ok ti => match first_mode is_data (ti_fields ti), fd_type fd, but_verbatim Exact fd with Some f, TString, Exact => (match fi_idx f with [j] => (j =? i)%nat | _ => false end) && forallb (fun g => implb (is_comment (fi_flags g) || is_inner (fi_flags g)) (negb (heads i g))) (ti_fields ti) | _, _, _ => false end
    | _ => false end else true end) (seq 0 (length (fields_of mpd_types (sd_name d))))) mpd_types = true) by (vm_compute; reflexivity).
  rewrite forallb_forall in H. intros d i fd I NF TG. specialize (H d I). revert H NF. generalize (fields_of mpd_types (sd_name d)) (type_info embed_depth mpd_types (sd_name d)). intros fs o H NF. rewrite forallb_forall in H.
  assert (J : In i (seq 0 (length fs))) by (apply in_seq; assert (i < length fs)%nat by (apply nth_error_Some; rewrite NF; discriminate); lia). specialize (H i J). rewrite NF, TG in H. assert (B : beq (str ",chardata") (str ",chardata") = true) by reflexivity. rewrite B in H.
  destruct o as [ti| | |]; try discriminate H. destruct (first_mode is_data (ti_fields ti)) as [f|] eqn:FM; [|discriminate H]. destruct (fd_type fd); try discriminate H. destruct (but_verbatim Exact fd) eqn:BV; try discriminate H. apply andb_true_iff in H as (H1 & H2). rewrite forallb_forall in H2.
  exists ti, f. assert (ID : fi_idx f = [i]) by (clear -H1; destruct (fi_idx f) as [|j [|]]; try discriminate H1; apply Nat.eqb_eq in H1; rewrite H1; reflexivity).
  split; [reflexivity|]. split; [exact FM|]. split; [exact ID|]. split; [reflexivity|]. split; [exact BV || reflexivity|]. intros g G Q. specialize (H2 g G). cbv beta in H2. rewrite Q in H2. apply negb_true_iff. exact H2.
Qed.
(** C96 for the package: any struct with a field for character data, read from a document of its own or, by C94 and C95, from an element in another one. *)
Theorem C96_package : forall F z d i fd v inp ts l n a k v', In d mpd_types -> nth_error (fields_of mpd_types (sd_name d)) i = Some fd -> fd_tag fd = str ",chardata" ->
  ends z (new_decoder inp) ts -> spells ts l -> root l = Some (Elem n a k) -> decode F mpd_types embed_depth (enough inp) (TStruct (sd_name d)) v inp = Ok v' -> field i v' = Some (VStr (text_in k)).
Proof.
  intros F z d i fd v inp ts l n a k v' I NF TG E S1 R1 D. destruct (package_data d i fd I NF TG) as (ti & f & TI & FM & ID & FT & K & NG).
  destruct (C96_text F mpd_types embed_depth (but_verbatim Exact) z (sd_name d) ti i fd f v inp ts l n a k v' (mpd_kind Exact ltac:(discriminate)) (fun s ti TI => proj2 (proj2 (mpd_apart s ti TI))) E S1 R1 TI NF K FM ID NG D) as (y & y' & Y1 & Y2 & N).
  rewrite FT in Y1, N. cbn [copy_value copy_simple] in Y1. injection Y1 as <-. inversion N; subst. exact Y2.
Qed.
Print Assumptions C96_package.
(** C96 for the name: XMLName of an MPD that is returned is the name of the root element, and its local part is MPD. *)
Theorem C96_name : forall F z inp ts l n a k v, ends z (new_decoder inp) ts -> spells ts l -> root l = Some (Elem n a k) -> read_mpd F inp = Ok v -> field 0 v = Some (VName n) /\ local n = str "MPD".
Proof.
  intros F z inp ts l n a k v E S1 R1 RD. pose proof (ends_short _ _ _ E) as L1. destruct E as (d1 & e1 & C1 & _). unfold read_mpd, mpd_from_bytes in RD. fold MPD in RD. change (zero_of mpd_types embed_depth (TStruct MPD)) with (zero_value MPD) in RD.
  pose proof (decode_tree F mpd_types embed_depth (but_verbatim Exact) Exact ltac:(discriminate) (mpd_kind Exact ltac:(discriminate)) (fun s ti TI => proj2 (proj2 (mpd_apart s ti TI))) (enough inp) ts l d1 inp (TStruct MPD) (zero_value MPD) (zero_value MPD) _ (N_refl _ _ _ _) C1 S1 R1 L1) as H1.
  rewrite RD in H1. destruct (tree_read F mpd_types embed_depth max_depth (TStruct MPD) (zero_value MPD) (Elem n a k)) as [v0| | |] eqn:T1; cbn [agrees] in H1; try contradiction.
  assert (TI : type_info embed_depth mpd_types MPD = Ok (ti_of MPD)) by (vm_compute; reflexivity).
  assert (X : exists x fd, ti_xmlname (ti_of MPD) = Some x /\ fi_idx x = [O] /\ fi_name x = str "MPD" /\ nth_error (fields_of mpd_types MPD) 0 = Some fd /\ fd_type fd = TName /\ but_verbatim Exact fd = Exact) by (do 2 eexists; repeat split; vm_compute; reflexivity).
  destruct X as (x & fd & XN & ID & NM & NF & FT & K).
  assert (G : forallb (fun g => negb (heads 0 g)) (ti_fields (ti_of MPD)) = true /\ forallb (fun e => negb (heads 0 (snd e))) (ti_attrs (ti_of MPD)) = true /\ ti_anyattr (ti_of MPD) = None) by (repeat split; vm_compute; reflexivity). destruct G as (G1 & G2 & AA). rewrite forallb_forall in G1, G2.
  assert (NG : forall g, In g (ti_fields (ti_of MPD)) -> heads 0 g = false) by (intros g J; apply negb_true_iff; exact (G1 g J)).
  assert (OA : own_attrs (ti_of MPD) 0 a = []).
  { unfold own_attrs. clear -G2 AA. revert G2 AA. generalize (ti_of MPD). intros ti G2 AA. induction a as [|y a IH]; [reflexivity|]. cbn [filter]. unfold own_attr at 1. destruct (attr_field ti (aname y)) as [f|] eqn:AF; [|exact IH]. destruct (attr_field_in _ _ _ AA AF) as (e & J & <- & _). specialize (G2 e J). apply negb_true_iff in G2. rewrite G2. exact IH. }
  destruct (read_name mpd_types embed_depth F max_depth MPD (ti_of MPD) 0 fd x n a k (zero_value MPD) v0 TI NF FT XN ID NG OA T1) as (Y1 & Y2 & _).
  pose proof (near_field _ _ _ _ _ _ _ H1 NF K) as N1. rewrite Y1, FT in N1. split; [|rewrite NM in Y2; apply Y2; discriminate]. destruct (field 0 v) as [y|]; [|destruct N1]. inversion N1; subst. reflexivity.
Qed.
Print Assumptions C96_name.
(** Text around a comment, CDATA, a reference and an unknown element. *)
Definition chars : bytes := str "<BaseURL serviceLocation=""a""> u<!-- c -->&amp;<b>x</b><![CDATA[<v>]]> </BaseURL>".
Example C96_ex : (exists v', decode fl1 mpd_types embed_depth (enough chars) (TStruct (str "BaseURLType")) (zero_value (str "BaseURLType")) chars = Ok v' /\ field 6 v' = Some (VStr (str " u&<v> "))) /\
  ends EEof (new_decoder chars) (tokens_of chars) /\ (exists l, spells (tokens_of chars) l /\ root l = Some (root_of chars)) /\ (let '(Elem _ _ k) := root_of chars in text_in k) = str " u&<v> " /\
  length (filter (fun d => existsb (fun f => beq (fd_tag f) (str ",chardata")) (fields_of mpd_types (sd_name d))) mpd_types) = 15%nat /\
  got 0 (str "<x:MPD xmlns:x=""n""/>") = Some (VName (mkname (str "n") (str "MPD"))).
Proof.
  split; [eexists; split; vm_compute; reflexivity|]. split; [apply tokens_end; vm_compute; reflexivity|]. split; [exists (fst (grow 20 (tokens_of chars))); split; [apply (grow_spells 20); vm_compute; reflexivity|vm_compute; reflexivity]|]. repeat split; vm_compute; reflexivity.
Qed.
