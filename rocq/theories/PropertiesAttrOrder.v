(** Property C88: the order of the attributes of an element does not matter. *)
From Coq Require Import String.
From Coq Require Import ZArith List Bool Lia SpecFloat Permutation.
From Verif Require Import Base Utf8 Lexer Decoder DecoderSpec DecoderProofs PropertiesDecoder GoType Schema TypeInfo Simple ValueSpec Unmarshal Io UnmarshalProofs PropertiesUnmarshal RoundTripSpec RoundTripCheck RoundTripParts RoundTripTest PropertiesDocument PropertiesRoundTrip Infoset PropertiesInfoset AttrOrder.
Import ListNotations.
Open Scope Z_scope.

(** C88. Two documents that have the same tokens in the sense of C87, but for the order of attributes with different local names,
    can both be read or neither, and the values are the same but for the order in lists of attributes and what C87 leaves out. *)
Theorem C88_order : forall F env ek kind x t v inp inp' ts us, kind_ok env ek kind Mixed -> (forall s ti, type_info ek env s = Ok ti -> attrs_apart ti = true) ->
  ends x (new_decoder inp) ts -> ends x (new_decoder inp') us -> Forall2 (like shuffled) (norm [] ts) (norm [] us) ->
  agrees false (near env kind t) (decode F env ek (enough inp) t v inp) (decode F env ek (enough inp') t v inp').
Proof.
  intros F env ek kind x t v inp inp' ts us W AP E1 E2 EQ.
  refine (decode_same F env ek x false shuffled S_refl (length ts) (length us) (enough inp) (enough inp') (ends_short _ _ _ E1) (ends_short _ _ _ E2) kind Mixed W _ t v v inp inp' (N_refl _ _ _ _) _).
  - exact (set_attrs_shuffled env ek kind F W AP).
  - exists ts, us. repeat split; auto.
Qed.
Print Assumptions C88_order.
(** C88 for one element and one struct, without a document around it. *)
Theorem C88_attributes : forall F env ek kind s ti v a a', kind_ok env ek kind Mixed -> (forall s ti, type_info ek env s = Ok ti -> attrs_apart ti = true) -> type_info ek env s = Ok ti -> shuffled a a' ->
  agrees false (near env kind (TStruct s)) (set_attrs F env ek ti s v a) (set_attrs F env ek ti s v a').
Proof. intros F env ek kind s ti v a a' W AP TI H. exact (set_attrs_shuffled env ek kind F W AP ti s TI a a' v v H (N_refl _ _ _ _)). Qed.
Print Assumptions C88_attributes.
(** Any order will do if no local name occurs twice. *)
Theorem C88_any_order : forall a a', NoDup (map (fun x => local (aname x)) a) -> Permutation a a' -> shuffled a a'.
Proof.
  assert (C : forall x l l', shuffled l l' -> shuffled (x :: l) (x :: l')) by (intros x l l' H; induction H as [|l1 a b l2 N|]; [constructor|exact (S_swap (x :: l1) a b l2 N)|eapply S_trans; eauto]).
  intros a a' N P. induction P as [|x l l' P IH|x y l|l l' l'' P1 IH1 P2 IH2].
  - constructor.
  - apply C. apply IH. inversion N; assumption.
  - apply (S_swap [] y x l). inversion N as [|? ? I _]; subst. intro E. apply I. left. symmetry. exact E.
  - eapply S_trans; [exact (IH1 N)|]. apply IH2. eapply Permutation_NoDup; [|exact N]. apply Permutation_map. exact P1.
Qed.
Print Assumptions C88_any_order.
Lemma mpd_attrs_apart : forall s ti, type_info embed_depth mpd_types s = Ok ti -> attrs_apart ti = true.
Proof.
  assert (H : forallb (fun d => match type_info embed_depth mpd_types (sd_name d) with Ok ti => attrs_apart ti | _ => true end) mpd_types = true) by (vm_compute; reflexivity).
  rewrite forallb_forall in H. intros s ti TI. destruct (declared mpd_types s) as [(d & I & <-)|U]; [specialize (H d I); rewrite TI in H; exact H|]. unfold embed_depth in TI. rewrite (undeclared_info _ _ _ U) in TI. injection TI as <-. reflexivity.
Qed.
(** C88 for the package. *)
Theorem C88_mpd : forall F x inp inp' ts us, ends x (new_decoder inp) ts -> ends x (new_decoder inp') us -> Forall2 (like shuffled) (norm [] ts) (norm [] us) ->
  agrees false (near mpd_types (but_verbatim Mixed) (TStruct MPD)) (read_mpd F inp) (read_mpd F inp').
Proof. intros F x inp inp' ts us. refine (C88_order F mpd_types embed_depth _ x (TStruct MPD) _ inp inp' ts us (mpd_kind Mixed _) mpd_attrs_apart). discriminate. Qed.
Print Assumptions C88_mpd.
(** Three attributes the other way round; of two that share a local name the last one counts, so that their order matters. *)
Definition order1 : bytes := str "<MPD id=""i"" type=""static"" profiles=""p""><Period start=""PT1S"" id=""P1""/></MPD>".
Definition order2 : bytes := str "<MPD profiles=""p"" type=""static"" id=""i""><Period id=""P1"" start=""PT1S""/></MPD>".
Definition order3 : bytes := str "<MPD x:id=""j"" id=""i""/>".
Definition order4 : bytes := str "<MPD id=""i"" x:id=""j""/>".
Example C88_ex : ends EEof (new_decoder order1) (tokens_of order1) /\ ends EEof (new_decoder order2) (tokens_of order2) /\ Forall2 (like shuffled) (norm [] (tokens_of order1)) (norm [] (tokens_of order2)) /\
  norm [] (tokens_of order1) <> norm [] (tokens_of order2) /\ read_mpd fl1 order1 = read_mpd fl1 order2 /\ (exists v, read_mpd fl1 order1 = Ok v) /\ read_mpd fl1 order3 <> read_mpd fl1 order4.
Proof.
  split; [apply tokens_end; vm_compute; reflexivity|]. split; [apply tokens_end; vm_compute; reflexivity|]. split.
  { assert (G : forall n a a', NoDup (map (fun x => local (aname x)) a) -> Permutation a a' -> like shuffled (TStart n a) (TStart n a')) by (intros n a a' N P; right; exists n, a, a'; split; [reflexivity|]; split; [reflexivity|exact (C88_any_order a a' N P)]).
    vm_compute. constructor; [apply G; [cbn; repeat constructor; cbn; intuition discriminate|]|constructor; [apply G; [cbn; repeat constructor; cbn; intuition discriminate|constructor]|apply like_refl]].
    match goal with |- Permutation [?a; ?b; ?c] _ => exact (Permutation_rev [a; b; c]) end. }
  split; [vm_compute; discriminate|]. split; [vm_compute; reflexivity|]. split; [destruct (read_mpd fl1 order1) eqn:E; [eauto| | |]; exfalso; revert E; vm_compute; discriminate|]. vm_compute. discriminate.
Qed.
