(** Property C84: reading leaves the fields alone that are not exported. *)
From Coq Require Import String.
From Coq Require Import ZArith List Bool Lia SpecFloat.
From Verif Require Import Base Utf8 Lexer Decoder GoType Schema TypeInfo Simple ValueSpec Unmarshal Io UnmarshalProofs PropertiesUnmarshal RoundTripSpec RoundTripCheck RoundTripParts RoundTripTest PropertiesDocument PropertiesRoundTrip Hidden.
Import ListNotations.
Open Scope Z_scope.

Lemma mpd_shown : forall s ti, type_info embed_depth mpd_types s = Ok ti -> forallb (shown mpd_types s) (used ti) = true.
Proof.
  assert (H : forallb (fun d => match type_info embed_depth mpd_types (sd_name d) with Ok ti => forallb (shown mpd_types (sd_name d)) (used ti) | _ => true end) mpd_types = true) by (vm_compute; reflexivity). rewrite forallb_forall in H.
  intros s ti TI. destruct (declared mpd_types s) as [(d & I & <-)|U]; [specialize (H d I); rewrite TI in H; exact H|]. unfold embed_depth in TI. rewrite (undeclared_info _ _ _ U) in TI. injection TI as <-. reflexivity.
Qed.
(** C84. Whatever holds for the contents of the fields that are not exported or left out by their tags, in the value read into and
    for zero values, holds for their contents in what is read: they are as before, or zero in structs that are new. *)
Theorem C84_kept : forall F (P : fdecl -> gval -> Prop) t v doc v', (forall s f k, In f (fields_of mpd_types s) -> hidden f = true -> P f (zero k mpd_types (fd_type f))) ->
  decode F mpd_types embed_depth (enough doc) t v doc = Ok v' -> sealed mpd_types P t v -> sealed mpd_types P t v'.
Proof. intros F P t v doc v' FR. exact (decode_sealed mpd_types P FR F embed_depth mpd_shown (enough doc) t v doc v'). Qed.
(** C84 for the package: these fields are the links to parents, which are all nil after reading, before they are set. *)
Definition no_link (f : fdecl) (w : gval) : Prop := w = VNil.
Lemma mpd_hidden : forall s f, In f (fields_of mpd_types s) -> hidden f = true -> fd_name f = str "parent" /\ exists t, fd_type f = TPtr t.
Proof.
  assert (H : forallb (fun d => forallb (fun f => negb (hidden f) || beq (fd_name f) (str "parent") && match fd_type f with TPtr _ => true | _ => false end) (fields_of mpd_types (sd_name d))) mpd_types = true) by (vm_compute; reflexivity).
  intros s f I HF. destruct (declared mpd_types s) as [(d & J & <-)|U].
  - rewrite forallb_forall in H. specialize (H d J). cbv beta in H. rewrite forallb_forall in H. specialize (H f I). cbv beta in H. rewrite HF in H. cbn [negb orb] in H. apply andb_true_iff in H. destruct H as [H1 H2]. split; [apply beq_eq; exact H1|]. destruct (fd_type f); try discriminate. eauto.
  - exfalso. assert (E : fields_of mpd_types s = []) by exact (U). rewrite E in I. exact I.
Qed.
Theorem C84_unlinked : forall F s doc v, decode F mpd_types embed_depth (enough doc) (TStruct s) (zero_value s) doc = Ok v -> sealed mpd_types no_link (TStruct s) v.
Proof.
  assert (FR : forall s f k, In f (fields_of mpd_types s) -> hidden f = true -> no_link f (zero k mpd_types (fd_type f))) by (intros s f k I H; destruct (mpd_hidden s f I H) as [_ [t ->]]; destruct k; reflexivity).
  intros F s doc v H. refine (C84_kept F no_link _ _ doc v FR H _). apply sealed_zero. exact FR.
Qed.
(** Reading into an MPD that has a linked period: the link stays, the period that is added has none; reading into a new one sets none. *)
Definition linked_period (id : bytes) (parent : gval) : gval := VPtr (make "Period" [("Id", VStr id); ("parent", parent)]%string).
Definition of_periods (l : list gval) : gval := make "MPD" [("XMLName", VName (mkname [] (str "MPD"))); ("Profiles", VStr (str "p")); ("Periods", VList l)]%string.
Definition named_period (id : bytes) (parent : gval) : gval := VPtr (make "Period" [("XMLName", VName (mkname [] (str "Period"))); ("Id", VStr id); ("parent", parent)]%string).
Example C84_ex : let link := VPtr (of_periods []) in let doc := str "<MPD profiles=""p""><Period id=""P1""></Period></MPD>" in
  decode fl1 mpd_types embed_depth (enough doc) (TStruct MPD) (of_periods [linked_period (str "P0") link]) doc = Ok (of_periods [linked_period (str "P0") link; named_period (str "P1") VNil]) /\
  decode fl1 mpd_types embed_depth (enough doc) (TStruct MPD) (zero_value MPD) doc = Ok (of_periods [named_period (str "P1") VNil]) /\
  sealed mpd_types no_link (TStruct MPD) (of_periods [named_period (str "P1") VNil]) /\ ~ sealed mpd_types no_link (TStruct MPD) (of_periods [linked_period (str "P0") link]).
Proof.
  cbv zeta. split; [vm_compute; reflexivity|]. split; [vm_compute; reflexivity|]. split; [vm_compute; repeat split; reflexivity|]. vm_compute. intro H. repeat match goal with H : _ /\ _ |- _ => destruct H end. discriminate.
Qed.
