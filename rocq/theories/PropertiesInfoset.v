(** Property C87: what is read depends on the elements, attributes and text of a document, not on how they are written. *)
From Coq Require Import String.
From Coq Require Import ZArith List Bool Lia SpecFloat.
From Verif Require Import Base Utf8 Lexer Decoder DecoderSpec DecoderProofs PropertiesDecoder GoType Schema TypeInfo Simple ValueSpec Unmarshal Io UnmarshalProofs PropertiesUnmarshal RoundTripSpec RoundTripCheck RoundTripParts RoundTripTest PropertiesDocument PropertiesRoundTrip Infoset.
Import ListNotations.
Open Scope Z_scope.

Lemma ends_short : forall x inp ts, ends x (new_decoder inp) ts -> (length ts < enough inp)%nat.
Proof.
  intros x inp ts (d' & d'' & C & N). destruct (calls_bound _ _ _ C) as [B|S]; [unfold left_to_read, enough in *; cbn in B; lia|]. rewrite (stray_hangs _ S) in N. discriminate.
Qed.
(** C87. Two documents whose tokens are the same, comments, processing instructions and directives left out and text in one piece, and which end in the same way,
    are read as the same value, but for fields with comments or the text of the document as it stands, or fail with the same error. *)
Definition kind_ok (env : tenv) (ek : nat) (kind : fdecl -> care) (am : care) : Prop := forall s ti, type_info ek env s = Ok ti ->
  forallb (fun f => way env kind (apart am (fi_flags f)) s (fi_idx f)) (ti_fields ti) = true /\
  forallb (fun f => way env kind Exact s (fi_idx f)) (map snd (ti_attrs ti) ++ match ti_xmlname ti with Some x => [x] | None => [] end) = true /\
  forallb (fun f => way env kind am s (fi_idx f)) (match ti_anyattr ti with Some x => [x] | None => [] end) = true.
Lemma like_refl : forall (AL : list attr -> list attr -> Prop) l, Forall2 (like AL) l l.
Proof. induction l; constructor; auto. left. reflexivity. Qed.
Theorem C87_same : forall F env ek kind x t v inp inp' ts us, kind_ok env ek kind Exact -> ends x (new_decoder inp) ts -> ends x (new_decoder inp') us -> norm [] ts = norm [] us ->
  agrees true (near env kind t) (decode F env ek (enough inp) t v inp) (decode F env ek (enough inp') t v inp').
Proof.
  intros F env ek kind x t v inp inp' ts us W E1 E2 EQ.
  refine (decode_same F env ek x true eq (@eq_refl _) (length ts) (length us) (enough inp) (enough inp') (ends_short _ _ _ E1) (ends_short _ _ _ E2) kind Exact W _ t v v inp inp' (N_refl _ _ _ _) _).
  - intros ti s TI a a' v0 w0 <- N. exact (set_attrs_near F env ek true kind Exact ltac:(discriminate) W ti s TI a v0 w0 N).
  - exists ts, us. rewrite EQ. repeat split; auto. apply like_refl.
Qed.
Print Assumptions C87_same.
(** C87. Where no struct has such a field the results are equal. *)
Theorem C87_equal : forall F env ek x t v inp inp' ts us, kind_ok env ek (fun _ => Exact) Exact -> ends x (new_decoder inp) ts -> ends x (new_decoder inp') us -> norm [] ts = norm [] us ->
  decode F env ek (enough inp) t v inp = decode F env ek (enough inp') t v inp'.
Proof.
  intros F env ek x t v inp inp' ts us W E1 E2 EQ. pose proof (C87_same F env ek _ x t v inp inp' ts us W E1 E2 EQ) as H. destruct (decode F env ek (enough inp) t v inp), (decode F env ek (enough inp') t v inp'); cbn in H; try contradiction; try discriminate; try reflexivity; [|rewrite (H eq_refl); reflexivity].
  f_equal. eapply near_strict; eauto.
Qed.
Print Assumptions C87_equal.
(** C87 for the package: values read differ at most in the InnerXML of Ext elements. *)
Definition verbatim (f : fdecl) : bool := beq (fd_tag f) (str ",innerxml").
Definition but_verbatim (am : care) (f : fdecl) : care := if verbatim f then Free else if beq (fd_tag f) (str ",any,attr") then am else Exact.
Lemma mpd_kind : forall am, am <> Free -> kind_ok mpd_types embed_depth (but_verbatim am) am.
Proof.
  assert (H : forall am, am <> Free -> forallb (fun d => match type_info embed_depth mpd_types (sd_name d) with Ok ti => forallb (fun f => way mpd_types (but_verbatim am) (apart am (fi_flags f)) (sd_name d) (fi_idx f)) (ti_fields ti) &&
    (forallb (fun f => way mpd_types (but_verbatim am) Exact (sd_name d) (fi_idx f)) (map snd (ti_attrs ti) ++ match ti_xmlname ti with Some x => [x] | None => [] end) &&
     forallb (fun f => way mpd_types (but_verbatim am) am (sd_name d) (fi_idx f)) (match ti_anyattr ti with Some x => [x] | None => [] end)) | _ => true end) mpd_types = true) by (intros [] N; [vm_compute; reflexivity|vm_compute; reflexivity|destruct (N eq_refl)]).
  intros am A. specialize (H am A). rewrite forallb_forall in H. intros s ti TI. destruct (declared mpd_types s) as [(d & I & <-)|U]; [specialize (H d I); rewrite TI in H; rewrite !andb_true_iff in H; exact H|].
  unfold embed_depth in TI. rewrite (undeclared_info _ _ _ U) in TI. injection TI as <-. repeat split; reflexivity.
Qed.
Lemma near_impl : forall env (P : fdecl -> Prop) kind kind' t v w, (forall s f, In f (fields_of env s) -> P f) -> (forall f, P f -> kind f = kind' f) -> near env kind t v w -> near env kind' t v w.
Proof.
  intros env P kind kind' t v w HP HK. revert t v w. fix IH 4. intros t v w H. destruct H as [t v|t v w H|t l l' H|s l l' L H]; [apply N_refl|apply N_ptr; exact (IH t v w H)|apply N_list|apply N_rec; [exact L|]].
  - clear - IH H. induction H; constructor; auto.
  - intros i v w A B. destruct (H i v w A B) as [X|(f & NF & X)]; [left; exact X|]. right. exists f. split; [exact NF|]. rewrite <- (HK f (HP s f (nth_error_In _ _ NF))). destruct X as [X|[X|(X & Y)]]; [left; exact X|right; left; exact X|right; right; split; [exact X|exact (IH _ _ _ Y)]].
Qed.
Definition all_but_inner (f : fdecl) : care := if beq (fd_name f) (str "InnerXML") then Free else Exact.
Lemma mpd_inner : forall s f, In f (fields_of mpd_types s) -> verbatim f = beq (fd_name f) (str "InnerXML").
Proof.
  assert (H : forallb (fun d => forallb (fun f => Bool.eqb (verbatim f) (beq (fd_name f) (str "InnerXML"))) (fields_of mpd_types (sd_name d))) mpd_types = true) by (vm_compute; reflexivity).
  intros s f I. destruct (declared mpd_types s) as [(d & J & <-)|U].
  - rewrite forallb_forall in H. specialize (H d J). cbv beta in H. rewrite forallb_forall in H. exact (eqb_prop _ _ (H f I)).
  - exfalso. assert (E : fields_of mpd_types s = []) by exact U. rewrite E in I. exact I.
Qed.
Theorem C87_mpd : forall F x inp inp' ts us, ends x (new_decoder inp) ts -> ends x (new_decoder inp') us -> norm [] ts = norm [] us ->
  agrees true (near mpd_types all_but_inner (TStruct MPD)) (read_mpd F inp) (read_mpd F inp').
Proof.
  intros F x inp inp' ts us E1 E2 EQ. eapply agrees_impl; [exact (C87_same F mpd_types embed_depth _ x (TStruct MPD) _ inp inp' ts us (mpd_kind Exact ltac:(discriminate)) E1 E2 EQ)|]. intros v w.
  apply (near_impl mpd_types (fun f => verbatim f = beq (fd_name f) (str "InnerXML"))); [exact mpd_inner|]. intros f H. unfold but_verbatim, all_but_inner. rewrite H. destruct (beq (fd_name f) _); [reflexivity|]. destruct (beq _ _); reflexivity.
Qed.
Print Assumptions C87_mpd.
(** One document written in two ways: a header, comments, quotes, character references, CDATA, an element closed at once. *)
Definition way1 : bytes := str "<?xml version=""1.0""?><!-- c --><MPD profiles=""a&amp;b""><BaseURL>x&amp;<!-- d -->y</BaseURL><Period id=""P1""></Period></MPD>".
Definition way2 : bytes := str "<MPD  profiles='a&#38;b' ><BaseURL>x<![CDATA[&y]]></BaseURL><!DOCTYPE e><Period id='P&#x31;'/></MPD >".
Definition way3 : bytes := str "<MPD  profiles='a&#38;b' ><BaseURL>x<![CDATA[&]]> y</BaseURL><Period id='P&#x31;'/></MPD >".
Definition tokens_of (inp : bytes) : list token := fst (fst (PropertiesDecoder.run 20 (new_decoder inp))).
Lemma tokens_end : forall inp x, snd (fst (PropertiesDecoder.run 20 (new_decoder inp))) = Some x -> ends x (new_decoder inp) (tokens_of inp).
Proof.
  intros inp x H. exists (snd (PropertiesDecoder.run 20 (new_decoder inp))). pose proof (run_calls 20 (new_decoder inp)) as C.
  assert (G : forall k d, snd (fst (PropertiesDecoder.run k d)) = Some x -> exists d'', next_token (snd (PropertiesDecoder.run k d)) = TokErr x d'').
  { clear. induction k as [|k IH]; intros d H; [discriminate|]. cbn [PropertiesDecoder.run] in *. destruct (next_token d) as [t d'|e d'|] eqn:N; [|cbn in *; injection H as ->; eauto|discriminate]. specialize (IH d'). destruct (PropertiesDecoder.run k d') as ((ts, e), d2). exact (IH H). }
  destruct (G _ _ H) as (d'' & N). exists d''. split; assumption.
Qed.
Example C87_ex : ends EEof (new_decoder way1) (tokens_of way1) /\ ends EEof (new_decoder way2) (tokens_of way2) /\ norm [] (tokens_of way1) = norm [] (tokens_of way2) /\ tokens_of way1 <> tokens_of way2 /\
  norm [] (tokens_of way1) <> norm [] (tokens_of way3) /\ read_mpd fl1 way1 = read_mpd fl1 way2 /\ read_mpd fl1 way1 <> read_mpd fl1 way3 /\ exists v, read_mpd fl1 way1 = Ok v.
Proof.
  split; [apply tokens_end; vm_compute; reflexivity|]. split; [apply tokens_end; vm_compute; reflexivity|]. split; [vm_compute; reflexivity|]. split; [vm_compute; discriminate|]. split; [vm_compute; discriminate|]. split; [vm_compute; reflexivity|]. split; [vm_compute; discriminate|].
  destruct (read_mpd fl1 way1) eqn:E; [eauto| | |]; exfalso; revert E; vm_compute; discriminate.
Qed.
