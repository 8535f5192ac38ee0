(** Property C89: the order of children with different names does not matter, nor does text where there is no place for it. *)
From Coq Require Import String.
From Coq Require Import ZArith List Bool Lia SpecFloat Permutation.
From Verif Require Import Base Utf8 Lexer Decoder DecoderSpec DecoderProofs PropertiesDecoder GoType Schema TypeInfo Simple ValueSpec Unmarshal Io UnmarshalProofs PropertiesUnmarshal RoundTripSpec RoundTripCheck RoundTripParts RoundTripTest PropertiesDocument PropertiesRoundTrip Infoset PropertiesInfoset AttrOrder PropertiesAttrOrder Tree Siblings.
Import ListNotations.
Open Scope Z_scope.

Lemma near_sym : forall env kind v t w, near env kind t v w -> near env kind t w v.
Proof.
  intros env kind. fix IH 1. intros v t w H. destruct v as [| | | | |v|l|l| |]; try (inversion H; subst; apply N_refl).
  - pose proof (IH v) as K. clear IH. inversion H as [|? ? w' H1| |]; subst; [apply N_refl|]. apply N_ptr. exact (K _ _ H1).
  - assert (K : forall t l1, Forall2 (near env kind t) l l1 -> Forall2 (near env kind t) l1 l).
    { clear - IH. intros t. induction l as [|a l IHl]; intros l1 H1; [inversion H1; subst; constructor|]. pose proof (IH a t) as KA. clear IH. inversion H1 as [|? b ? m X1 X2]; subst. constructor; [exact (KA _ X1)|exact (IHl _ X2)]. }
    clear IH. inversion H as [| |? ? l1 H1|]; subst; [apply N_refl|]. apply N_list. exact (K _ _ H1).
  - assert (K : forall i v, nth_error l i = Some v -> forall t w, near env kind t v w -> near env kind t w v).
    { clear - IH. induction l as [|a l IHl]; intros [|i] v A; try discriminate; cbn in A; [injection A as <-; exact (IH a)|exact (IHl i v A)]. }
    clear IH. inversion H as [| | |s ? l1 L1 H1]; subst; [apply N_refl|].
    apply N_rec; [congruence|]. intros i v w A B. destruct (H1 i w v B A) as [(X & ->)|(f & NF & X)]; [left; auto|]. right. exists f. split; [exact NF|].
    destruct X as [X|[(X & X1)|(X & X1)]]; [auto| |right; right; split; [exact X|exact (K i w B _ _ X1)]].
    right. left. split; [exact X|]. destruct X1 as [->|(m & m' & -> & -> & P)]; [left; reflexivity|right; exists m', m; split; [reflexivity|]; split; [reflexivity|apply Permutation_sym; exact P]].
Qed.

(** C89. Every document that comes to an end without error is a tree of elements, with text and other things around it. *)
Theorem C89_tree : forall inp ts, ends EEof (new_decoder inp) ts -> exists l, spells ts l.
Proof.
  intros inp ts (d' & d'' & C & N). destruct (C30_nested _ _ _ C) as (o & NE & EQ). assert (E : o = []) by (apply EQ; eauto). rewrite E in NE. clear - NE.
  assert (G : forall k ts, (length ts <= k)%nat -> (nest [] ts = Some [] -> exists l, spells ts l) /\ (forall n open, nest (n :: open) ts = Some [] -> exists us l ts', ts = us ++ TEnd n :: ts' /\ spells us l /\ nest open ts' = Some [])).
  { clear. induction k as [|k IH]; intros ts L.
    - destruct ts; [|cbn in L; lia]. split; [exists []; constructor|]. intros n o H. discriminate.
    - destruct ts as [|t ts]; [split; [exists []; constructor|]; intros n o H; discriminate|]. cbn in L. destruct (IH ts ltac:(lia)) as (I1 & I2). split.
      + intros H. destruct t as [n a|n|s|s|g s|s]; cbn [nest] in H; try discriminate; try (destruct (I1 H) as (l & S)).
        * destruct (I2 n [] H) as (us & l & ts' & -> & S & N'). rewrite app_length in L. cbn in L. destruct (proj1 (IH ts' ltac:(lia)) N') as (l' & S'). eexists. apply P_elem; eassumption.
        * eexists. apply P_text. exact S.
        * exists l. apply P_minor; [exact I|exact S].
        * exists l. apply P_minor; [exact I|exact S].
        * exists l. apply P_minor; [exact I|exact S].
      + intros n o H. destruct t as [m a|m|s|s|g s|s]; cbn [nest] in H; try (destruct (I2 n o H) as (us & l & ts' & -> & S & N')).
        * destruct (I2 m (n :: o) H) as (us & l & ts' & -> & S & N'). rewrite app_length in L. cbn in L. destruct (proj2 (IH ts' ltac:(lia)) n o N') as (us2 & l2 & ts2 & -> & S2 & N2).
          exists (TStart m a :: us ++ TEnd m :: us2). eexists. exists ts2. split; [cbn; rewrite <- app_assoc; reflexivity|]. split; [apply P_elem; eassumption|exact N2].
        * destruct (name_eqb n m) eqn:NM; [|discriminate]. unfold name_eqb in NM. apply andb_true_iff in NM as (N1 & N2). apply beq_eq in N1, N2. assert (m = n) as -> by (destruct n, m; cbn in *; congruence). exists [], [], ts. split; [reflexivity|]. split; [constructor|exact H].
        * exists (TChar s :: us). eexists. exists ts'. split; [reflexivity|]. split; [apply P_text; exact S|exact N'].
        * exists (TComment s :: us), l, ts'. split; [reflexivity|]. split; [apply P_minor; [exact I|exact S]|exact N'].
        * exists (TProc g s :: us), l, ts'. split; [reflexivity|]. split; [apply P_minor; [exact I|exact S]|exact N'].
        * exists (TDirective s :: us), l, ts'. split; [reflexivity|]. split; [apply P_minor; [exact I|exact S]|exact N']. }
  exact (proj1 (G (length ts) ts (le_n _)) NE).
Qed.
Print Assumptions C89_tree.
Lemma agrees_weaken : forall {A B} (R : A -> B -> Prop) x y, agrees true R x y -> agrees false R x y.
Proof. intros A B R [a|e| |] [b|e'| |] H; cbn in *; try discriminate; auto; intros; discriminate. Qed.
Lemma bare_fields : forall env ek, (forall s ti, ~ (exists d, In d env /\ sd_name d = s) -> type_info ek env s = Ok ti -> ti_fields ti = []) -> forall s ti f t, type_info ek env s = Ok ti -> In f (ti_fields ti) -> g_element (fi_flags f) = true -> bare_in env ek (fi_name f) = true -> target env s (fi_idx f) = Some t -> dataless env ek t = true.
Proof.
  intros env ek UN. intros s ti f t TI I G B TG. unfold bare_in in B. rewrite forallb_forall in B.
    assert (X : (exists d, In d env /\ sd_name d = s) \/ ~ (exists d, In d env /\ sd_name d = s)).
    { clear. induction env as [|d e IH]; [right; intros (d & [] & _)|]. destruct (beq (sd_name d) s) eqn:E; [left; exists d; split; [left; reflexivity|apply beq_eq; exact E]|]. apply beq_neq in E. destruct IH as [(d0 & I & <-)|N]; [left; exists d0; split; [right; exact I|reflexivity]|right; intros (d0 & [<-|I] & H); [congruence|apply N; eauto]]. }
    destruct X as [(d & ID & <-)|N]; [|rewrite (UN _ _ N TI) in I; destruct I]. specialize (B d ID). cbv beta in B. rewrite TI in B. rewrite forallb_forall in B. specialize (B f I). cbv beta in B. rewrite G, TG in B. cbn [negb orb] in B.
    assert (Z : beq (fi_name f) (fi_name f) = true) by (apply beq_eq; reflexivity). rewrite Z in B. exact B.
Qed.
(** C89. Two documents whose trees differ in the order of children with different local names, the order of attributes with different local names, where text stands between children,
    and in any text inside of elements that only go to structs without a field for text, can both be read or neither, and the values are the same but for what C88 leaves out. *)
Theorem C89_order : forall F env ek kind x y t v inp inp' ts us l l' T T',
  kind_ok env ek kind Mixed -> (forall s ti, type_info ek env s = Ok ti -> attrs_apart ti = true /\ elements_apart ti = true /\ plain ti = true) ->
  ends x (new_decoder inp) ts -> ends y (new_decoder inp') us -> spells ts l -> spells us l' -> root l = Some T -> root l' = Some T' ->
  mixed_tree (bare_in env ek) T T' -> (forall s ti, ~ (exists d, In d env /\ sd_name d = s) -> type_info ek env s = Ok ti -> ti_fields ti = []) -> (bare_in env ek (local (tname T)) = true -> dataless env ek t = true) ->
  agrees false (near env kind t) (decode F env ek (enough inp) t v inp) (decode F env ek (enough inp') t v inp').
Proof.
  intros F env ek kind x y t v inp inp' ts us l l' T T' W AP E1 E2 S1 S2 R1 R2 M UN SU.
  assert (A1 : forall s ti, type_info ek env s = Ok ti -> attrs_apart ti = true) by (intros; eapply AP; eauto). assert (A2 : forall s ti, type_info ek env s = Ok ti -> elements_apart ti = true) by (intros; eapply AP; eauto). assert (A3 : forall s ti, type_info ek env s = Ok ti -> plain ti = true) by (intros; eapply AP; eauto).
  pose proof (bare_fields env ek UN) as BR.
  pose proof (ends_short _ _ _ E1) as L1. pose proof (ends_short _ _ _ E2) as L2. destruct E1 as (d1 & e1 & C1 & _). destruct E2 as (d2 & e2 & C2 & _).
  pose proof (agrees_weaken _ _ _ (decode_tree F env ek kind Mixed ltac:(discriminate) W A3 (enough inp) ts l d1 inp t v v T (N_refl _ _ _ _) C1 S1 R1 L1)) as H1.
  pose proof (agrees_weaken _ _ _ (decode_tree F env ek kind Mixed ltac:(discriminate) W A3 (enough inp') us l' d2 inp' t v v T' (N_refl _ _ _ _) C2 S2 R2 L2)) as H2.
  pose proof (read_mix F env ek kind (bare_in env ek) W A1 A2 BR max_depth t v v T T' SU M (N_refl _ _ _ _)) as H3.
  destruct (decode F env ek (enough inp) t v inp), (tree_read F env ek max_depth t v T), (tree_read F env ek max_depth t v T'), (decode F env ek (enough inp') t v inp'); cbn in *; try contradiction; auto; try (intros; discriminate).
  eapply near_trans; [exact H1|]. eapply near_trans; [exact H3|]. apply near_sym. exact H2.
Qed.
Print Assumptions C89_order.
(** C89 for the package. *)
Lemma mpd_apart : forall s ti, type_info embed_depth mpd_types s = Ok ti -> attrs_apart ti = true /\ elements_apart ti = true /\ plain ti = true.
Proof.
  assert (H : forallb (fun d => match type_info embed_depth mpd_types (sd_name d) with Ok ti => elements_apart ti && plain ti | _ => true end) mpd_types = true) by (vm_compute; reflexivity).
  rewrite forallb_forall in H. intros s ti TI. split; [exact (mpd_attrs_apart s ti TI)|]. destruct (declared mpd_types s) as [(d & I & <-)|U]; [specialize (H d I); rewrite TI in H; apply andb_true_iff in H; exact H|]. unfold embed_depth in TI. rewrite (undeclared_info _ _ _ U) in TI. injection TI as <-. split; reflexivity.
Qed.
Lemma mpd_undeclared : forall s ti, ~ (exists d, In d mpd_types /\ sd_name d = s) -> type_info embed_depth mpd_types s = Ok ti -> ti_fields ti = [].
Proof.
  intros s ti N TI. destruct (declared mpd_types s) as [X|U]; [contradiction|]. unfold embed_depth in TI. rewrite (undeclared_info _ _ _ U) in TI. injection TI as <-. reflexivity.
Qed.
Theorem C89_mpd : forall F x y inp inp' ts us l l' T T', ends x (new_decoder inp) ts -> ends y (new_decoder inp') us -> spells ts l -> spells us l' -> root l = Some T -> root l' = Some T' ->
  mixed_tree (bare_in mpd_types embed_depth) T T' -> agrees false (near mpd_types (but_verbatim Mixed) (TStruct MPD)) (read_mpd F inp) (read_mpd F inp').
Proof.
  intros F x y inp inp' ts us l l' T T' E1 E2 S1 S2 R1 R2 M. refine (C89_order F mpd_types embed_depth _ x y (TStruct MPD) _ inp inp' ts us l l' T T' (mpd_kind Mixed _) mpd_apart E1 E2 S1 S2 R1 R2 M mpd_undeclared _); [discriminate|]. intros _. vm_compute. reflexivity.
Qed.
Print Assumptions C89_mpd.

(** The tree of a list of tokens. *)
Fixpoint grow (k : nat) (ts : list token) : list node * list token :=
  match k with
  | O => ([], ts)
  | S k =>
      match ts with
      | [] => ([], ts)
      | TEnd n :: r => ([], ts)
      | TChar s :: r => let (l, r') := grow k r in (Text s :: l, r')
      | TStart n a :: r => match grow k r with
                           | (kids, TEnd m :: r2) => if name_eqb n m then let (l, r3) := grow k r2 in (Child (Elem n a kids) :: l, r3) else ([], ts)
                           | _ => ([], ts)
                           end
      | _ :: r => let (l, r') := grow k r in (l, r')
      end
  end.
Lemma grow_spells : forall k ts l, grow k ts = (l, []) -> spells ts l.
Proof.
  assert (G : forall k ts l r, grow k ts = (l, r) -> exists us, ts = us ++ r /\ spells us l).
  { assert (Z : forall ts l r, ([], ts) = (l, r) -> exists us, ts = us ++ r /\ spells us l) by (intros ts l r H; injection H as <- <-; exists []; split; [reflexivity|constructor]).
    induction k as [|k IH]; intros ts l r H; [exact (Z _ _ _ H)|]. cbn [grow] in H. destruct ts as [|t ts]; [exact (Z _ _ _ H)|]. destruct t as [n a|n|s|s|g s|s]; try exact (Z _ _ _ H).
    - destruct (grow k ts) as (kids, r1) eqn:E. destruct (IH _ _ _ E) as (us & -> & S). destruct r1 as [|[m b|m| | | |] r2]; try exact (Z _ _ _ H). destruct (name_eqb n m) eqn:NM; [|exact (Z _ _ _ H)].
      unfold name_eqb in NM. apply andb_true_iff in NM as (N1 & N2). apply beq_eq in N1, N2. assert (m = n) as -> by (destruct n, m; cbn in *; congruence).
      destruct (grow k r2) as (l3, r3) eqn:E2. injection H as <- <-. destruct (IH _ _ _ E2) as (us2 & -> & S2). exists (TStart n a :: us ++ TEnd n :: us2). split; [cbn; rewrite <- app_assoc; reflexivity|apply P_elem; assumption].
    - destruct (grow k ts) as (l1, r1) eqn:E. injection H as <- <-. destruct (IH _ _ _ E) as (us & -> & S). exists (TChar s :: us). split; [reflexivity|apply P_text; exact S].
    - destruct (grow k ts) as (l1, r1) eqn:E. injection H as <- <-. destruct (IH _ _ _ E) as (us & -> & S). exists (TComment s :: us). split; [reflexivity|apply P_minor; [exact I|exact S]].
    - destruct (grow k ts) as (l1, r1) eqn:E. injection H as <- <-. destruct (IH _ _ _ E) as (us & -> & S). exists (TProc g s :: us). split; [reflexivity|apply P_minor; [exact I|exact S]].
    - destruct (grow k ts) as (l1, r1) eqn:E. injection H as <- <-. destruct (IH _ _ _ E) as (us & -> & S). exists (TDirective s :: us). split; [reflexivity|apply P_minor; [exact I|exact S]]. }
  intros k ts l H. destruct (G _ _ _ _ H) as (us & -> & S). rewrite app_nil_r. exact S.
Qed.
(** The children and attributes of an MPD the other way round, and laid out on lines; the order of two Periods matters, and blanks in a BaseURL do. *)
Definition sib1 : bytes := str "<MPD id=""i"" profiles=""p""> <BaseURL>u</BaseURL> <Period id=""P1""/> </MPD>".
Definition sib2 : bytes := str "<MPD profiles=""p"" id=""i""><Period id=""P1""/><BaseURL>u</BaseURL></MPD>".
Definition sib3 : bytes := str "<MPD><Period id=""P1""/><Period id=""P2""/></MPD>".
Definition sib4 : bytes := str "<MPD><Period id=""P2""/><Period id=""P1""/></MPD>".
Definition sib5 : bytes := str "<MPD><BaseURL>u</BaseURL></MPD>".
Definition sib6 : bytes := str "<MPD><BaseURL> u</BaseURL></MPD>".
Example C89_ex : ends EEof (new_decoder sib1) (tokens_of sib1) /\ ends EEof (new_decoder sib2) (tokens_of sib2) /\
  (exists l l' T T', spells (tokens_of sib1) l /\ spells (tokens_of sib2) l' /\ root l = Some T /\ root l' = Some T' /\ T <> T' /\ mixed_tree (bare_in mpd_types embed_depth) T T') /\
  read_mpd fl1 sib1 = read_mpd fl1 sib2 /\ (exists v, read_mpd fl1 sib1 = Ok v) /\ read_mpd fl1 sib3 <> read_mpd fl1 sib4 /\ read_mpd fl1 sib5 <> read_mpd fl1 sib6.
Proof.
  split; [apply tokens_end; vm_compute; reflexivity|]. split; [apply tokens_end; vm_compute; reflexivity|]. split.
  { exists (fst (grow 20 (tokens_of sib1))), (fst (grow 20 (tokens_of sib2))). do 2 eexists. split; [apply (grow_spells 20); vm_compute; reflexivity|]. split; [apply (grow_spells 20); vm_compute; reflexivity|].
    split; [vm_compute; reflexivity|]. split; [vm_compute; reflexivity|]. split; [discriminate|].
    assert (B : bare_in mpd_types embed_depth (str "MPD") = true) by (vm_compute; reflexivity).
    apply M_tree; [apply (S_swap [] _ _ []); vm_compute; discriminate|]. match goal with |- mix _ ?b _ _ => replace b with true by (symmetry; exact B) end.
    eapply M_trans; [apply M_drop; left; reflexivity|]. eapply M_trans; [apply M_cons; apply M_drop; left; reflexivity|]. eapply M_trans; [apply M_swap; vm_compute; discriminate|]. apply M_cons. apply M_cons. apply M_drop. left. reflexivity. }
  split; [vm_compute; reflexivity|]. split; [destruct (read_mpd fl1 sib1) eqn:E; [eauto| | |]; exfalso; revert E; vm_compute; discriminate|]. split; vm_compute; discriminate.
Qed.
