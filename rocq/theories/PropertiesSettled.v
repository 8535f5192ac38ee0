(** Properties C42 and C44: captured attributes, exactly, and over several cycles. *)
From Coq Require Import String.
From Coq Require Import ZArith List Bool Lia SpecFloat.
From Verif Require Import Base Utf8 Lexer Printer Writer PropertiesWriter EncoderSpec Decoder GoType Schema TypeInfo Simple ValueSpec Marshal Unmarshal Io PropertiesDocument MarshalProofs UnmarshalProofs PropertiesUnmarshal PropertiesMarshal
  Plan PlanText NsHistory NsSpec NsTags RoundTripSpec RoundTripCheck RoundTripParts RoundTripExact RoundTripMain RoundTripRoot RoundTripTest PropertiesRoundTrip Stable PropertiesSignal PropertiesStable Settled.
Import ListNotations.
Open Scope Z_scope.

(** C42, with the captured attributes: they are read back as they were written, apart from declarations.  Where the element holds its
    name, in a namespace that is not written with a prefix of its own, that holds of declarations too, but for one default namespace
    in front of the others, if the value does not have it already and no element around holds its name. *)
Theorem C42_exact : forall F s l v indent header, In s (map sd_name mpd_types) -> white indent ->
  wt mpd_types (TStruct s) v = true -> clean F mpd_types (indented indent) None l (TStruct s) v -> (own_of mpd_types s v <> None -> simple l /\ l <> str "xmlns") ->
  let doc := document (program F s v) indent header in
  result (program F s v) indent = Ok tt /\
  exists v', decode F mpd_types embed_depth (enough doc) (TStruct s) (zero_value s) doc = Ok v' /\ arrives mpd_types mpd_known Open None (TStruct s) v v'.
Proof.
  intros F s l v indent header IN WH WV CV SL doc. apply in_map_iff in IN. destruct IN as (sd & <- & IN). pose proof mpd_roots as RO. rewrite forallb_forall in RO. specialize (RO sd IN).
  destruct (clean_struct F mpd_types _ None l (sd_name sd) v CV WV) as (RAW & _). assert (TI : exists ti, type_info embed_depth mpd_types (sd_name sd) = Ok ti) by (clear - RO RAW; unfold root_ok in RO; rewrite RAW in RO; destruct (type_info embed_depth mpd_types (sd_name sd)); try discriminate; eauto). destruct TI as (ti & TI).
  assert (LI : layout (indented indent) indent) by (unfold layout, indented; destruct (beq indent []) eqn:B; [apply beq_eq in B|]; auto).
  destruct (document_arrives F mpd_types embed_depth mpd_prefix mpd_known mpd_env_ok mpd_known_ok mpd_known_only mpd_rank (indented indent) mpd_ranked mpd_checked (sd_name sd) ti l v (height v) indent header LI RO TI CV WV SL ltac:(lia) (mpd_rank_low _)) as (R & v' & D & A).
  split; [exact R|]. exists v'. split; [exact D|apply A].
Qed.
Print Assumptions C42_exact.

Lemma any_field : forall P : bytes -> fdecl -> bool, forallb (fun d => forallb (P (sd_name d)) (fields_of mpd_types (sd_name d))) mpd_types = true -> forall s f, In f (fields_of mpd_types s) -> P s f = true.
Proof.
  intros P H s f I. rewrite forallb_forall in H. destruct (declared mpd_types s) as [(d & ID & <-)|U].
  - specialize (H d ID). cbv beta in H. rewrite forallb_forall in H. apply H. exact I.
  - exfalso. rewrite U in I. destruct I.
Qed.
Lemma attrs_not_child : forall s f, In f (fields_of mpd_types s) -> fd_type f = TSlice TAttr -> is_child f = false.
Proof.
  intros s f I T. pose proof (any_field (fun _ f => match fd_type f with TSlice TAttr => negb (is_child f) | _ => true end) ltac:(vm_compute; reflexivity) s f I) as H. cbv beta in H. rewrite T in H. apply negb_true_iff in H. exact H.
Qed.
Lemma no_xmlns_field : forall s g, existsb names_itself (fields_of mpd_types s) = true -> In g (fields_of mpd_types s) -> g_attr (flags_of g) = true -> label mpd_types g <> str "xmlns".
Proof.
  intros s g N I A E. pose proof (any_field (fun s g => negb (existsb names_itself (fields_of mpd_types s) && g_attr (flags_of g) && beq (label mpd_types g) (str "xmlns"))) ltac:(vm_compute; reflexivity) s g I) as H. cbv beta in H. rewrite N, A, E in H. vm_compute in H. discriminate.
Qed.

(** C44.  A document read as type [s] and written again. *)
Definition cycle (F : floats) (s : bytes) (indent : bytes) (header : bool) (doc : bytes) : bytes :=
  match decode F mpd_types embed_depth (enough doc) (TStruct s) (zero_value s) doc with Ok v => document (program F s v) indent header | _ => [] end.
(** If the captured attributes of the elements of a clean value have the default namespaces already, the document stays the same from
    the first time on it is written ... *)
Theorem C44_first : forall F s l v indent header, In s (map sd_name mpd_types) -> white indent ->
  wt mpd_types (TStruct s) v = true -> clean F mpd_types (indented indent) None l (TStruct s) v -> (own_of mpd_types s v <> None -> simple l /\ l <> str "xmlns") ->
  settled mpd_types mpd_known Open None (TStruct s) v ->
  let doc := document (program F s v) indent header in
  forall n, Nat.iter n (cycle F s indent header) doc = doc.
Proof.
  intros F s l v indent header IN WH WV CV SL ST doc. destruct (C42_exact F s l v indent header IN WH WV CV SL) as (_ & v' & RD & AR). fold doc in RD.
  assert (E : cycle F s indent header doc = doc). { unfold cycle. rewrite RD. apply (C44_stable F s l v v' indent header); auto. eapply settled_captures; eauto. }
  induction n as [|n IH]; [reflexivity|]. change (cycle F s indent header (Nat.iter n (cycle F s indent header) doc) = doc). rewrite IH. exact E.
Qed.
Print Assumptions C44_first.
(** ... and otherwise from the second time on, if the elements hold their names in namespaces that have no prefix of their own. *)
Theorem C44_settles : forall F s l v indent header, In s (map sd_name mpd_types) -> white indent ->
  wt mpd_types (TStruct s) v = true -> clean F mpd_types (indented indent) None l (TStruct s) v -> (own_of mpd_types s v <> None -> simple l /\ l <> str "xmlns") ->
  hosted mpd_types mpd_known Open None (TStruct s) v ->
  let doc := document (program F s v) indent header in
  exists v', decode F mpd_types embed_depth (enough doc) (TStruct s) (zero_value s) doc = Ok v' /\ same mpd_types (TStruct s) v v' /\
  forall n, Nat.iter (S n) (cycle F s indent header) doc = document (program F s v') indent header.
Proof.
  intros F s l v indent header IN WH WV CV SL HO doc. destruct (C42_exact F s l v indent header IN WH WV CV SL) as (_ & v' & RD & AR). fold doc in RD.
  exists v'. split; [exact RD|]. pose proof (arrives_same _ _ _ _ _ _ _ AR) as SM. split; [exact SM|].
  assert (WV' : wt mpd_types (TStruct s) v' = true). { assert (WZ : wt mpd_types (TStruct s) (zero_value s) = true) by apply mpd_env_ok. pose proof (C59_read F mpd_types embed_depth s (zero_value s) doc mpd_env_ok WZ) as R. rewrite RD in R. apply R. }
  pose proof (arrives_clean mpd_types mpd_known F (indented indent) attrs_not_child no_xmlns_field v Open None None l (TStruct s) v' CV AR HO) as CV'.
  assert (OW : own_of mpd_types s v' = own_of mpd_types s v). { destruct v as [| | | | | | |ws| |]; try (cbn [arrives] in AR; first [subst v'; reflexivity|contradiction]). destruct v' as [| | | | | | |ws'| |]; try (cbn [arrives] in AR; contradiction). cbn [same] in SM. apply own_same in SM. exact SM. }
  pose proof (hosted_settled mpd_types mpd_known Open None (TStruct s) v v' HO AR) as ST.
  assert (SL' : own_of mpd_types s v' <> None -> simple l /\ l <> str "xmlns") by (rewrite OW; exact SL).
  pose proof (C44_first F s l v' indent header IN WH WV' CV' SL' ST) as FX. cbv zeta in FX.
  intro n. rewrite <- (FX n). clear FX. assert (E : cycle F s indent header doc = document (program F s v') indent header) by (unfold cycle; rewrite RD; reflexivity). rewrite <- E. generalize doc. intro x. induction n as [|n IH]; [reflexivity|].
  change (cycle F s indent header (Nat.iter (S n) (cycle F s indent header) x) = cycle F s indent header (Nat.iter n (cycle F s indent header) (cycle F s indent header x))). rewrite IH. reflexivity.
Qed.
Print Assumptions C44_settles.
(** C44 for MPDs whose places for captured attributes are all in such elements, as those of SCTE-35 are. *)
Theorem C44_mpd : forall F v indent header, white indent -> wt mpd_types (TStruct MPD) v = true -> clean F mpd_types (indented indent) None [] (TStruct MPD) v -> hosted mpd_types mpd_known Open None (TStruct MPD) v ->
  let doc := document (program F MPD v) indent header in
  forall n, Nat.iter (S n) (again F indent header) doc = again F indent header doc.
Proof.
  intros F v indent header WH WV CV HO doc n.
  assert (IN : In MPD (map sd_name mpd_types)) by (assert (E : existsb (beq MPD) (map sd_name mpd_types) = true) by (vm_compute; reflexivity); apply existsb_exists in E; destruct E as (x & I & B); apply beq_eq in B; subst x; exact I).
  assert (SL : own_of mpd_types MPD v <> None -> simple [] /\ [] <> str "xmlns") by (intros N; exfalso; apply N; apply own_static; vm_compute; reflexivity).
  destruct (C44_settles F MPD [] v indent header IN WH WV CV SL HO) as (v' & _ & _ & IT). fold doc in IT. pose proof (IT 0%nat) as I0. pose proof (IT n) as In'. change (again F indent header) with (cycle F MPD indent header). rewrite In'. symmetry. exact I0.
Qed.
Print Assumptions C44_mpd.
Example C44_mpd_example : exists v, read_mpd fl1 moving = Ok v /\ wt mpd_types (TStruct MPD) v = true /\ clean fl1 mpd_types false None [] (TStruct MPD) v /\ hosted mpd_types mpd_known Open None (TStruct MPD) v /\ ~ settled mpd_types mpd_known Open None (TStruct MPD) v /\
  let doc := document (program fl1 MPD v) [] false in again fl1 [] false doc <> doc.
Proof.
  eexists. split; [vm_compute; reflexivity|]. split; [vm_compute; reflexivity|]. split; [apply cleanb_ok; vm_compute; reflexivity|]. split; [vm_compute; repeat constructor; discriminate|]. split; [vm_compute; intro H; inversion H; discriminate|]. vm_compute. discriminate.
Qed.
