(** Property C60: what programs build with the constructors of package mpd is written and read back. *)
From Coq Require Import String.
From Coq Require Import ZArith List Bool Lia SpecFloat.
From Verif Require Import Base Utf8 Lexer EscapeSpec Printer Writer PropertiesWriter Decoder GoType Schema TypeInfo Simple ValueSpec Marshal Unmarshal Io PropertiesDocument
  NsSpec RoundTripSpec RoundTripParts RoundTripRoot RoundTripTest LeafProofs PropertiesRoundTrip PropertiesSignal Helpers Build.
Import ListNotations.
Open Scope Z_scope.

(** Constructors. *)
Definition u32 (z : Z) : Prop := 0 <= z < 2 ^ 32.
Definition u64 (z : Z) : Prop := 0 <= z < 2 ^ 64.
Inductive constructed : string -> string -> gval -> Prop :=
| con_signal : constructed "SignalType" "Signal" new_signal
| con_section : constructed "SpliceInfoSectionType" "SpliceInfoSection" new_splice_info_section
| con_binary : forall v, xml_text v -> constructed "BinaryType" "Binary" (new_binary v)
| con_null : constructed "SpliceNullType" "SpliceNull" new_splice_null
| con_schedule : constructed "SpliceScheduleType" "SpliceSchedule" new_splice_schedule
| con_insert : constructed "SpliceInsertType" "SpliceInsert" new_splice_insert
| con_time_signal : constructed "TimeSignalType" "TimeSignal" new_time_signal
| con_bandwidth : constructed "BandwidthReservationType" "BandwidthReservation" new_bandwidth_reservation
| con_private : forall z, u32 z -> constructed "PrivateCommandType" "PrivateCommand" (new_private_command z)
| con_time : constructed "SpliceTimeType" "SpliceTime" new_splice_time
| con_break : forall b z, u64 z -> constructed "BreakDurationType" "BreakDuration" (new_break_duration b z)
| con_segmentation : constructed "SegmentationDescriptorType" "SegmentationDescriptor" new_segmentation_descriptor
| con_upid : forall v, xml_text v -> constructed "SegmentationUpidType" "SegmentationUpid" (new_segmentation_upid v).
Lemma ordinary_scte35 : ordinary_ns scte35.
Proof. apply ordinaryb_ok. vm_compute. reflexivity. Qed.
Lemma type_in : forall s, existsb (beq s) (map sd_name mpd_types) = true -> In s (map sd_name mpd_types).
Proof. intros s H. apply existsb_exists in H. destruct H as (x & I & E). apply beq_eq in E. congruence. Qed.
(** Assignments of simple values to attributes and text. *)
Definition simple_field (s n : bytes) (t : gtype) : bool :=
  match field_of s n with Some f => negb (names_itself f) && negb (fd_anon f) && negb (misnamed mpd_types f) && negb (is_child f) && match fd_type f, t with TString, TString | TBool, TBool | TPtr TString, TPtr TString => true | TUint a, TUint b => a =? b | _, _ => false end | None => false end.
Definition simple_value (t : gtype) (w : gval) : Prop := match t, w with TString, VStr x => xml_text x | TPtr TString, VPtr (VStr x) => xml_text x | TPtr TString, VNil => True | TBool, VBool _ => True | TUint b, VInt z => 0 <= z < 2 ^ b | _, _ => False end.
Lemma set_simple : forall F i d l s v n t w, made F i d l s v -> simple_field s n t = true -> simple_value t w -> made F i d l s (with_field s n w v).
Proof.
  intros F i d l s v n t w M S V. unfold simple_field in S. destruct (field_of s n) as [f|] eqn:FO; [|discriminate]. rewrite !andb_true_iff, !negb_true_iff in S. destruct S as [[[[S1 S2] S3] S4] S5].
  apply made_set with (f := f); auto.
  - destruct (fd_type f) as [| | |b| | | |[]| | | |], t as [| | |b'| | | |[]| | | |]; try discriminate; destruct w as [| | | | |[]| | | |]; try contradiction; try reflexivity. apply Z.eqb_eq in S5. subst b'. cbn [simple_value] in V. cbn [wt]. apply orb_true_iff. right. apply andb_true_iff. split; [apply Z.leb_le|apply Z.ltb_lt]; lia.
  - split; [congruence|]. split; [congruence|]. split; [intros; congruence|]. split.
    + intros ->. destruct t as [| | | | | | |[]| | | |]; contradiction.
    + intros ws a -> _. destruct t as [| | | | | | |[]| | | |]; contradiction.
  - destruct (fd_type f) as [| | |b| | | |[]| | | |], t as [| | |b'| | | |[]| | | |]; try discriminate; destruct w as [| | | | |[]| | | |]; try contradiction; cbn [clean]; auto; try (split; [discriminate|]); exact V.
Qed.
Ltac type_name := apply type_in; vm_compute; reflexivity.
Ltac set_field n t := eapply (set_simple _ _ _ _ _ _ (str n) t); [|vm_compute; reflexivity|cbn [simple_value rf_id rf_codecs rf_mime rf_bandwidth rf_sampling rf_framerate rf_width rf_height new_rep new_audio new_video]; auto].
(** C60. Each SCTE-35 constructor gives a struct that holds its canonical name. *)
Theorem C60_constructed : forall F i d s l v, constructed s l v -> d = None \/ d = Some scte35 -> made F i d (str l) (str s) v /\ own_of mpd_types (str s) v = Some (mkname scte35 (str l)).
Proof.
  intros F i d s l v C D. pose proof ordinary_scte35 as O.
  assert (N : forall s l, In (str s) (map sd_name mpd_types) -> has_raw mpd_types (str s) = false -> holds_name (str s) = true -> made F i d (str l) (str s) (make s [("XMLName"%string, canonical l)])) by (intros; apply made_named; auto).
  destruct C; (split; [|vm_compute; reflexivity]).
  all: try (apply N; [type_name|vm_compute; reflexivity|vm_compute; reflexivity]).
  - set_field "Value"%string TString. apply N; [type_name|vm_compute; reflexivity|vm_compute; reflexivity].
  - set_field "Identifier"%string (TUint 32). apply N; [type_name|vm_compute; reflexivity|vm_compute; reflexivity].
  - set_field "Duration"%string (TUint 64). set_field "AutoReturn"%string TBool. apply N; [type_name|vm_compute; reflexivity|vm_compute; reflexivity].
  - set_field "Value"%string TString. apply N; [type_name|vm_compute; reflexivity|vm_compute; reflexivity].
Qed.
Print Assumptions C60_constructed.

(** *** Assembly *)
(** A struct, a pointer to one, or a list of pointers, assigned to a field whose elements are read with the name they are written
    with; texts next to child elements are left out, since indentation would get into them. *)
Definition part_field (s n : bytes) (t : gtype) : bool :=
  match field_of s n with
  | Some f => negb (names_itself f) && negb (misnamed mpd_types f) && negb (has_text mpd_types s && is_child f) &&
      match fd_type f, t with
      | TStruct a, TStruct b => beq a b
      | TPtr (TStruct a), TPtr (TStruct b) => beq a b
      | TSlice (TPtr (TStruct a)), TSlice (TPtr (TStruct b)) => beq a b
      | _, _ => false
      end
  | None => false
  end.
Definition field_label (s n : bytes) : bytes := match field_of s n with Some f => label mpd_types f | None => [] end.
Section Assembly.
Variables (F : floats) (ZF : zero_floats F) (i : bool).
Lemma made_parts : forall d l s v, made F i d l s v -> wt mpd_types (TStruct s) v = true /\ clean F mpd_types i d l (TStruct s) v /\ exists ws, v = VRec ws.
Proof. intros d l s v M. destruct (made_clean F i d l s v ZF M) as (ws & -> & _ & W & C). split; [exact W|]. split; [exact C|]. eauto. Qed.
Lemma kept_part : forall s own f w, misnamed mpd_types f = false -> has_text mpd_types s && is_child f = false -> w <> VNil -> (forall z, w <> VFloat z) -> (forall ws a, w = VList ws -> ~ In (VAttr a) ws) -> field_kept mpd_types i s own f w.
Proof.
  intros s own f w M T N Z L. split; auto. split; [congruence|]. split. { intros _ A B. rewrite A, B in T. discriminate. } split. { intros ->. exfalso. eapply Z; reflexivity. } intros ws a E I. exfalso. eapply L; eauto.
Qed.
Lemma embed : forall d l s v n s' w, made F i d l s v -> part_field s n (TStruct s') = true -> made F i (within (own_ns s v) d) (field_label s n) s' w -> made F i d l s (with_field s n w v).
Proof.
  intros d l s v n s' w M P W. unfold part_field in P. unfold field_label in W. destruct (field_of s n) as [f|] eqn:FO; [|discriminate]. rewrite !andb_true_iff, !negb_true_iff in P. destruct P as [[[P1 P2] P3] P4].
  destruct (fd_type f) as [| | | | | | |[]|[| | | | | | |[]| | | |]| | |] eqn:TF; try discriminate. apply beq_eq in P4. subst. destruct (made_parts _ _ _ _ W) as (W1 & W2 & ws & ->).
  apply made_set with (f := f); auto; try (rewrite TF; auto). apply kept_part; auto; discriminate.
Qed.
Lemma attach : forall d l s v n s' w, made F i d l s v -> part_field s n (TPtr (TStruct s')) = true -> made F i (within (own_ns s v) d) (field_label s n) s' w -> made F i d l s (with_field s n (VPtr w) v).
Proof.
  intros d l s v n s' w M P W. unfold part_field in P. unfold field_label in W. destruct (field_of s n) as [f|] eqn:FO; [|discriminate]. rewrite !andb_true_iff, !negb_true_iff in P. destruct P as [[[P1 P2] P3] P4].
  destruct (fd_type f) as [| | | | | | |[]|[| | | | | | |[]| | | |]| | |] eqn:TF; try discriminate. apply beq_eq in P4. subst. destruct (made_parts _ _ _ _ W) as (W1 & W2 & ws & ->).
  apply made_set with (f := f); auto; try (rewrite TF). { exact W1. } { apply kept_part; auto; discriminate. } split; [discriminate|exact W2].
Qed.
Lemma attach_list : forall d l s v n s' ws, made F i d l s v -> part_field s n (TSlice (TPtr (TStruct s'))) = true -> Forall (made F i (within (own_ns s v) d) (field_label s n) s') ws -> made F i d l s (with_field s n (VList (map VPtr ws)) v).
Proof.
  intros d l s v n s' ws M P W. unfold part_field in P. unfold field_label in W. destruct (field_of s n) as [f|] eqn:FO; [|discriminate]. rewrite !andb_true_iff, !negb_true_iff in P. destruct P as [[[P1 P2] P3] P4].
  destruct (fd_type f) as [| | | | | | |[]|[| | | | | | |[]| | | |]| | |] eqn:TF; try discriminate. apply beq_eq in P4. subst.
  apply made_set with (f := f); auto; try (rewrite TF).
  - cbn [wt]. apply forallb_forall. intros x I. apply in_map_iff in I. destruct I as (w & <- & I). rewrite Forall_forall in W. exact (proj1 (made_parts _ _ _ _ (W w I))).
  - apply kept_part; auto; try discriminate. intros xs a E I. injection E as <-. apply in_map_iff in I. destruct I as (x & X & _). discriminate.
  - cbn [clean]. induction W as [|w ws W1 W2 IH]; cbn [map]; auto. split; auto. split; [discriminate|]. destruct (made_parts _ _ _ _ W1) as (_ & C & x & ->). split; [discriminate|exact C].
Qed.
End Assembly.
(** C60. The constructors of the other elements: attributes and text given as arguments, everything else zero. *)
Inductive filled : string -> gval -> Prop :=
| fil_zero : forall s, In s empty_constructors -> filled s (zero_value (str s))
| fil_mpd : forall t, xml_text t -> filled "MPD" (new_mpd t)
| fil_base : forall v, xml_text v -> filled "BaseURLType" (new_base_url v)
| fil_descriptor : forall u v n, xml_text u -> xml_text v -> xml_text n -> filled "DescriptorType" (new_descriptor u v n)
| fil_role : forall v, xml_text v -> filled "DescriptorType" (new_role v)
| fil_content : forall t v, xml_text t -> xml_text v -> filled "SCTE214ContentIdentifierType" (new_content_identifier t v)
| fil_set : forall c m b z, xml_text c -> xml_text m -> u32 z -> filled "AdaptationSetType" (new_adaptation_set c m b z)
| fil_rep : forall n c m b, xml_text n -> xml_text c -> xml_text m -> filled "RepresentationType" (representation (new_rep n c m b))
| fil_audio : forall n c m b r, xml_text n -> xml_text c -> xml_text m -> filled "RepresentationType" (representation (new_audio n c m b r))
| fil_video : forall n c m fr b w h, xml_text n -> xml_text c -> xml_text m -> xml_text fr -> filled "RepresentationType" (representation (new_video n c m fr b w h)).
Lemma loop_ascii : forall k n acc, Forall (fun c => 33 <= c < 127) acc -> Forall (fun c => 33 <= c < 127) (Heap.itoa_loop k n acc).
Proof. induction k as [|k IH]; intros n acc H; auto. cbn [Heap.itoa_loop]. assert (A : Forall (fun c => 33 <= c < 127) ((48 + n mod 10) :: acc)) by (constructor; auto; pose proof (Z.mod_pos_bound n 10); lia). destruct (n / 10 =? 0); auto. Qed.
Lemma fmt_d_text : forall z, xml_text (fmt_d z).
Proof. intros z. apply ascii_text. unfold fmt_d. change (str "-") with [45]. destruct (z <? 0); [apply Forall_app; split; [repeat constructor; lia|]|]; apply loop_ascii; constructor. Qed.
Lemma wrap_range : forall z, 0 <= wrap_u32 z < 2 ^ 32.
Proof. intros z. apply Z.mod_pos_bound. reflexivity. Qed.
Theorem C60_filled : forall F i d l s v, zero_floats F -> filled s v -> made F i d l (str s) v.
Proof.
  intros F i d l s v ZF C.
  assert (N : forall s, existsb (beq (str s)) (map sd_name mpd_types) && negb (has_raw mpd_types (str s)) && negb (holds_name (str s)) && negb (embeds_pointer (str s)) = true -> forall l d, made F i d l (str s) (zero_value (str s))).
  { intros x H l' d'. rewrite !andb_true_iff, !negb_true_iff in H. destruct H as [[[H1 H2] H3] H4]. apply made_zero; auto. apply type_in. exact H1. }
  assert (E : xml_text []) by (apply textb_ok; reflexivity).
  destruct C.
  - apply N. assert (Q : forallb (fun s => existsb (beq (str s)) (map sd_name mpd_types) && negb (has_raw mpd_types (str s)) && negb (holds_name (str s)) && negb (embeds_pointer (str s))) empty_constructors = true) by (vm_compute; reflexivity). rewrite forallb_forall in Q. exact (Q s H).
  - set_field "XMLNs"%string TString; [|apply textb_ok; vm_compute; reflexivity]. set_field "Type"%string (TPtr TString). apply N. vm_compute. reflexivity.
  - set_field "Value"%string TString. apply N. vm_compute. reflexivity.
  - set_field "Id"%string TString. set_field "Value"%string TString. set_field "SchemeIdUri"%string TString. apply N. vm_compute. reflexivity.
  - set_field "Id"%string TString. set_field "Value"%string TString. set_field "SchemeIdUri"%string TString; [|apply textb_ok; vm_compute; reflexivity]. apply N. vm_compute. reflexivity.
  - set_field "Value"%string TString. set_field "Type"%string TString. apply N. vm_compute. reflexivity.
  - set_field "ContentType"%string TString. set_field "SegmentAlignment"%string TBool. apply (embed F ZF) with (s' := str "RepresentationBaseType"); [apply N; vm_compute; reflexivity|vm_compute; reflexivity|].
    set_field "StartWithSAP"%string (TUint 32). set_field "MimeType"%string TString. apply N. vm_compute. reflexivity.
  - set_field "Bandwidth"%string (TUint 32); [|apply wrap_range]. set_field "Id"%string TString. apply (embed F ZF) with (s' := str "RepresentationBaseType"); [apply N; vm_compute; reflexivity|vm_compute; reflexivity|].
    set_field "Height"%string (TUint 32); [|cbn; lia]. set_field "Width"%string (TUint 32); [|cbn; lia]. set_field "FrameRate"%string TString. set_field "AudioSamplingRate"%string (TPtr TString). set_field "MimeType"%string TString. set_field "Codecs"%string TString. apply N. vm_compute. reflexivity.
  - set_field "Bandwidth"%string (TUint 32); [|apply wrap_range]. set_field "Id"%string TString. apply (embed F ZF) with (s' := str "RepresentationBaseType"); [apply N; vm_compute; reflexivity|vm_compute; reflexivity|].
    set_field "Height"%string (TUint 32); [|cbn; lia]. set_field "Width"%string (TUint 32); [|cbn; lia]. set_field "FrameRate"%string TString. set_field "AudioSamplingRate"%string (TPtr TString); [|apply fmt_d_text]. set_field "MimeType"%string TString. set_field "Codecs"%string TString. apply N. vm_compute. reflexivity.
  - set_field "Bandwidth"%string (TUint 32); [|apply wrap_range]. set_field "Id"%string TString. apply (embed F ZF) with (s' := str "RepresentationBaseType"); [apply N; vm_compute; reflexivity|vm_compute; reflexivity|].
    set_field "Height"%string (TUint 32); [|apply wrap_range]. set_field "Width"%string (TUint 32); [|apply wrap_range]. set_field "FrameRate"%string TString. set_field "AudioSamplingRate"%string (TPtr TString). set_field "MimeType"%string TString. set_field "Codecs"%string TString. apply N. vm_compute. reflexivity.
Qed.
Print Assumptions C60_filled.
(** C60. Structs made in these ways may be put into fields of structs made in these ways: embedded, behind a pointer, and in lists.
    Inside a struct that holds its name, those that hold theirs must have the same namespace, as all constructed ones do. *)
Theorem C60_assembled : forall F i d l s v n s', zero_floats F -> made F i d l s v -> let inside := made F i (within (own_ns s v) d) (field_label s n) s' in
  (forall w, part_field s n (TStruct s') = true -> inside w -> made F i d l s (with_field s n w v)) /\
  (forall w, part_field s n (TPtr (TStruct s')) = true -> inside w -> made F i d l s (with_field s n (VPtr w) v)) /\
  (forall ws, part_field s n (TSlice (TPtr (TStruct s'))) = true -> Forall inside ws -> made F i d l s (with_field s n (VList (map VPtr ws)) v)).
Proof. intros F i d l s v n s' ZF M inside. repeat split; intros; [eapply embed|eapply attach|eapply attach_list]; eauto. Qed.
Print Assumptions C60_assembled.
Lemma made_in : forall F i d l s v, made F i d l s v -> In s (map sd_name mpd_types).
Proof. induction 1; auto. Qed.
(** C60. A signal that is built so, in the namespace [u] (for the constructors: the canonical one), is written, and every element of it
    that holds a name is read back with the name it was built with, in [u]. *)
Theorem C60_signal : forall F s l u v indent header, zero_floats F -> white indent -> made F (indented indent) None l s v -> own_of mpd_types s v = Some (mkname u l) -> simple l -> l <> str "xmlns" ->
  let doc := document (program F s v) indent header in
  result (program F s v) indent = Ok tt /\
  exists v', decode F mpd_types embed_depth (enough doc) (TStruct s) (zero_value s) doc = Ok v' /\ same mpd_types (TStruct s) v v' /\
    held mpd_types (TStruct s) v' = held mpd_types (TStruct s) v /\ Forall (fun n => space n = u) (held mpd_types (TStruct s) v').
Proof. intros F s l u v indent header ZF WH M O S1 S2. destruct (made_parts F ZF _ _ _ _ _ M) as (W & C & _). apply C45_replay with (l := l); auto. eapply made_in; eauto. Qed.
Print Assumptions C60_signal.
(** C60. An MPD that is built so is written and read back with the same content. *)
Theorem C60_mpd : forall F v indent header, zero_floats F -> white indent -> made F (indented indent) None [] MPD v ->
  let doc := document (program F MPD v) indent header in
  result (program F MPD v) indent = Ok tt /\ exists v', read_mpd F doc = Ok v' /\ same mpd_types (TStruct MPD) v v'.
Proof. intros F v indent header ZF WH M. destruct (made_parts F ZF _ _ _ _ _ M) as (W & C & _). apply C42_mpd; auto. Qed.
Print Assumptions C60_mpd.

(** A signal built with constructors, and an MPD around it. *)
Definition built_signal : gval :=
  with_field (str "SignalType") (str "SpliceInfoSection")
    (VPtr (with_field (str "SpliceInfoSectionType") (str "TimeSignal") (VPtr (with_field (str "TimeSignalType") (str "SpliceTime") (VPtr new_splice_time) new_time_signal)) new_splice_info_section)) new_signal.
Definition built_mpd : gval :=
  with_field MPD (str "Periods") (VList (map VPtr
    [with_field (str "Period") (str "AdaptationSets") (VList (map VPtr [with_field (str "AdaptationSetType") (str "Representations") (VList (map VPtr [representation (new_video (str "v") (str "avc1") (str "video/mp4") (str "25") 1000 64 36)]))
        (new_adaptation_set (str "video") (str "video/mp4") true 1)])) (zero_value (str "Period"))])) (new_mpd (str "static")).
Lemma made_at : forall F i d d' l l' s v, made F i d l s v -> d' = d -> l' = l -> made F i d' l' s v.
Proof. intros F i d d' l l' s v M -> ->. exact M. Qed.
Example C60_floats : zero_floats fl1.
Proof. split; [apply keptb_ok; vm_compute; reflexivity|]. intros b [<-|[<-|[]]]; apply keptb_ok; vm_compute; reflexivity. Qed.
Example C60_signal_example : made fl1 false None (str "Signal") (str "SignalType") built_signal /\
  document (program fl1 (str "SignalType") built_signal) [] false = str "<Signal xmlns=""http://www.scte.org/schemas/35""><SpliceInfoSection><TimeSignal><SpliceTime></SpliceTime></TimeSignal></SpliceInfoSection></Signal>".
Proof.
  assert (C : forall s l v, constructed s l v -> made fl1 false (Some scte35) (str l) (str s) v) by (intros; apply C60_constructed; auto). pose proof C60_floats as Z.
  split; [|vm_compute; reflexivity]. unfold built_signal.
  apply (attach fl1 Z) with (s' := str "SpliceInfoSectionType"); [apply (C60_constructed fl1 false None "SignalType"%string "Signal"%string); [constructor|auto]|vm_compute; reflexivity|].
  apply (made_at fl1 false (Some scte35)) with (l := str "SpliceInfoSection"); [|vm_compute; reflexivity|vm_compute; reflexivity].
  apply (attach fl1 Z) with (s' := str "TimeSignalType"); [apply (C "SpliceInfoSectionType"%string "SpliceInfoSection"%string); constructor|vm_compute; reflexivity|].
  apply (made_at fl1 false (Some scte35)) with (l := str "TimeSignal"); [|vm_compute; reflexivity|vm_compute; reflexivity].
  apply (attach fl1 Z) with (s' := str "SpliceTimeType"); [apply (C "TimeSignalType"%string "TimeSignal"%string); constructor|vm_compute; reflexivity|].
  apply (made_at fl1 false (Some scte35)) with (l := str "SpliceTime"); [|vm_compute; reflexivity|vm_compute; reflexivity].
  apply (C "SpliceTimeType"%string "SpliceTime"%string). constructor.
Qed.
Example C60_mpd_example : made fl1 true None [] MPD built_mpd /\
  document (program fl1 MPD built_mpd) [] false = str "<MPD xmlns=""urn:mpeg:dash:schema:mpd:2011"" profiles="""" type=""static""><Period><AdaptationSet contentType=""video"" segmentAlignment=""true"" mimeType=""video/mp4"" startWithSAP=""1""><Representation id=""v"" bandwidth=""1000"" width=""64"" height=""36"" frameRate=""25"" mimeType=""video/mp4"" codecs=""avc1""></Representation></AdaptationSet></Period></MPD>".
Proof.
  pose proof C60_floats as Z. unfold built_mpd. split.
  - apply (attach_list fl1 Z) with (s' := str "Period"); [apply (C60_filled fl1 true None [] "MPD"%string); [exact Z|apply fil_mpd; apply textb_ok; vm_compute; reflexivity]|vm_compute; reflexivity|]. constructor; [|constructor].
    apply (attach_list fl1 Z) with (s' := str "AdaptationSetType"); [apply (C60_filled fl1 true _ _ "Period"%string); [exact Z|apply fil_zero; left; reflexivity]|vm_compute; reflexivity|]. constructor; [|constructor].
    apply (attach_list fl1 Z) with (s' := str "RepresentationType"); [apply (C60_filled fl1 true _ _ "AdaptationSetType"%string); [exact Z|apply fil_set; try (apply textb_ok; vm_compute; reflexivity); unfold u32; lia]|vm_compute; reflexivity|]. constructor; [|constructor].
    apply (C60_filled fl1 true _ _ "RepresentationType"%string); [exact Z|apply fil_video; apply textb_ok; vm_compute; reflexivity].
  - vm_compute. reflexivity.
Qed.
