(** Properties C41, C43, C44, C45, C46, C50, C58: documents that show where reading and writing MPDs goes wrong. *)
From Coq Require Import String.
From Coq Require Import ZArith List Bool Lia.
From Verif Require Import Base Utf8 Lexer Escape Decoder Printer Writer PropertiesWriter GoType Schema TypeInfo Simple Marshal Unmarshal Io.
Import ListNotations.
Open Scope Z_scope.

Definition MPD : bytes := str "MPD".
(** What is written for an MPD, and whether that succeeds. *)
Definition text (F : floats) (v : gval) (indent : bytes) : bytes := document (program F MPD v) indent false.
Definition writes (F : floats) (v : gval) (indent : bytes) : Prop := result (program F MPD v) indent = Ok tt.
Definition in_period (s : string) : bytes := str "<MPD xmlns=""urn:mpeg:dash:schema:mpd:2011"" profiles=""p""><Period>" ++ str s ++ str "</Period></MPD>".
Definition in_event (s : string) : bytes := in_period ("<EventStream schemeIdUri=""u""><Event presentationTime=""0"">" ++ s ++ "</Event></EventStream>").
(** A document that is read and written without change. *)
Definition unchanged (F : floats) (doc : bytes) : Prop := exists v, read_mpd F doc = Ok v /\ writes F v [] /\ text F v [] = doc.
Example unchanged_label : forall F, unchanged F (in_period "<AdaptationSet><Label id=""1"" lang=""en"">English</Label></AdaptationSet>").
Proof. intros F. eexists. split; [vm_compute; reflexivity|]. split; vm_compute; reflexivity. Qed.

(** C41 is false for GroupLabel, InitializationGroup, InitializationPresentation and QualityLatency: a document with such an element
    is not read. *)
Theorem C41_group_label_refuted : forall F, read_mpd F (in_period "<AdaptationSet><GroupLabel>English</GroupLabel></AdaptationSet>") =
  Err (UExpected (mkname [] (str "Label")) (mkname (str "urn:mpeg:dash:schema:mpd:2011") (str "GroupLabel"))).
Proof. intros F. vm_compute. reflexivity. Qed.
Print Assumptions C41_group_label_refuted.
Theorem C41_initialization_group_refuted : forall F,
  read_mpd F (str "<MPD xmlns=""urn:mpeg:dash:schema:mpd:2011""><InitializationGroup id=""1"">1 2</InitializationGroup></MPD>") =
  Err (UExpected (mkname [] (str "UIntVWithID")) (mkname (str "urn:mpeg:dash:schema:mpd:2011") (str "InitializationGroup"))).
Proof. intros F. vm_compute. reflexivity. Qed.
Print Assumptions C41_initialization_group_refuted.
Theorem C41_initialization_presentation_refuted : forall F,
  read_mpd F (str "<MPD xmlns=""urn:mpeg:dash:schema:mpd:2011""><InitializationPresentation id=""1"">1 2</InitializationPresentation></MPD>") =
  Err (UExpected (mkname [] (str "UIntVWithID")) (mkname (str "urn:mpeg:dash:schema:mpd:2011") (str "InitializationPresentation"))).
Proof. intros F. vm_compute. reflexivity. Qed.
Print Assumptions C41_initialization_presentation_refuted.
Theorem C41_quality_latency_refuted : forall F,
  read_mpd F (in_period "<ServiceDescription id=""1""><Latency><QualityLatency>1 2</QualityLatency></Latency></ServiceDescription>") =
  Err (UExpected (mkname [] (str "UIntPairsWithID")) (mkname (str "urn:mpeg:dash:schema:mpd:2011") (str "QualityLatency"))).
Proof. intros F. vm_compute. reflexivity. Qed.
Print Assumptions C41_quality_latency_refuted.

(** C43 is false: this document is read, and writing the result panics. *)
Theorem C43_refuted : forall F, exists v, read_mpd F (in_event "<ReplacePresentation returnOffset=""1""></ReplacePresentation>") = Ok v /\ result (program F MPD v) [] = Panic.
Proof. intros F. eexists. split; [vm_compute; reflexivity|vm_compute; reflexivity]. Qed.
Print Assumptions C43_refuted.
(** One inherited attribute is enough. *)
Example C43_example : forall F, unchanged F (in_event "<ReplacePresentation returnOffset=""1"" uri=""x""></ReplacePresentation>").
Proof. intros F. eexists. split; [vm_compute; reflexivity|]. split; vm_compute; reflexivity. Qed.

(** C44 is false: with an indent, an event with a child element grows with every cycle. *)
Definition cycle (F : floats) (doc : bytes) : bytes := match read_mpd F doc with Ok v => text F v (str "  ") | _ => [] end.
Definition event_doc : bytes := in_event "<InsertPresentation uri=""x""></InsertPresentation>".
Theorem C44_refuted : forall F, let d1 := cycle F event_doc in let d2 := cycle F d1 in let d3 := cycle F d2 in
  (length event_doc < length d1 < length d2 /\ length d2 < length d3)%nat.
Proof. intros F. cbv zeta. split; [split|]; apply Nat.ltb_lt; vm_compute; reflexivity. Qed.
Print Assumptions C44_refuted.
(** Without text next to child elements it is stable at once. *)
Example C44_example : forall F, let d := cycle F (in_period "<AdaptationSet><Label>x</Label><Representation id=""1"" bandwidth=""5""/></AdaptationSet>") in cycle F d = d.
Proof. intros F. vm_compute. reflexivity. Qed.

(** C45. One namespace URI throughout is replayed. *)
Example C45_example : forall F, unchanged F (in_event "<Signal xmlns=""http://www.scte.org/schemas/35/2016""><SpliceInfoSection tier=""4095""><SpliceNull></SpliceNull></SpliceInfoSection></Signal>").
Proof. intros F. eexists. split; [vm_compute; reflexivity|]. split; vm_compute; reflexivity. Qed.
(** C45 is false for different URIs at different levels: the innermost element changes its namespace. *)
Theorem C45_levels_refuted : forall F, exists v,
  read_mpd F (in_event "<Signal xmlns=""u:1""><SpliceInfoSection xmlns=""u:2""><SpliceNull xmlns=""u:1""></SpliceNull></SpliceInfoSection></Signal>") = Ok v /\ writes F v [] /\
  text F v [] = in_event "<Signal xmlns=""u:1""><SpliceInfoSection xmlns=""u:2""><SpliceNull></SpliceNull></SpliceInfoSection></Signal>".
Proof. intros F. eexists. split; [vm_compute; reflexivity|]. split; vm_compute; reflexivity. Qed.
Print Assumptions C45_levels_refuted.
(** The value of a field, by its name in the struct; and a struct with a field changed. *)
Fixpoint index_of (i : nat) (n : bytes) (fs : list fdecl) : nat := match fs with [] => i | f :: fs => if beq (fd_name f) n then i else index_of (S i) n fs end.
Definition with_field (s n : bytes) (w v : gval) : gval :=
  match v with VRec l => let i := index_of 0 n (fields_of mpd_types s) in VRec (firstn i l ++ w :: skipn (S i) l) | _ => v end.
Definition make (s : string) (fs : list (string * gval)) : gval := fold_left (fun v '(n, w) => with_field (str s) (str n) w v) fs (zero_value (str s)).
(** C45. A bare struct inside a signal made by NewSignal does not take the namespace around it, as the documentation of the
    package says, but is put in no namespace. *)
Definition bare_binary : gval :=
  make "MPD" [("XMLNs", VStr (str "urn:mpeg:dash:schema:mpd:2011")); ("Profiles", VStr (str "p")); ("Periods", VList [VPtr (make "Period" [("EventStreams", VList [VPtr (make "EventStreamType" [("SchemeIdUri", VStr (str "u"));
    ("Events", VList [VPtr (make "EventType" [("Signal", VPtr (make "SignalType" [("XMLName", VName (mkname (str "http://www.scte.org/schemas/35") (str "Signal")));
      ("Binary", VPtr (make "BinaryType" [("Value", VStr (str "AA=="))]))]))])])])])])])]%string.
Theorem C45_bare_refuted : forall F, writes F bare_binary [] /\
  text F bare_binary [] = str "<MPD xmlns=""urn:mpeg:dash:schema:mpd:2011"" profiles=""p""><Period><EventStream schemeIdUri=""u""><Event presentationTime=""0""><Signal xmlns=""http://www.scte.org/schemas/35""><Binary xmlns="""">AA==</Binary></Signal></Event></EventStream></Period></MPD>".
Proof. intros F. split; vm_compute; reflexivity. Qed.
Print Assumptions C45_bare_refuted.

(** C46 is false for the xlink attributes of AdaptationSet and for xlink:show of SegmentList: they come out in no namespace. *)
Theorem C46_refuted : forall F, exists v,
  read_mpd F (in_period "<AdaptationSet xmlns:xlink=""http://www.w3.org/1999/xlink"" xlink:href=""u""></AdaptationSet>") = Ok v /\ writes F v [] /\
  text F v [] = in_period "<AdaptationSet href=""u""></AdaptationSet>".
Proof. intros F. eexists. split; [vm_compute; reflexivity|]. split; vm_compute; reflexivity. Qed.
Print Assumptions C46_refuted.
Theorem C46_segment_list_refuted : forall F, exists v,
  read_mpd F (in_period "<SegmentList xmlns:xlink=""http://www.w3.org/1999/xlink"" xlink:show=""u""></SegmentList>") = Ok v /\ writes F v [] /\
  text F v [] = in_period "<SegmentList show=""u""></SegmentList>".
Proof. intros F. eexists. split; [vm_compute; reflexivity|]. split; vm_compute; reflexivity. Qed.
Print Assumptions C46_segment_list_refuted.

(** C50. The content of an extension is kept, whatever is in it, but the declaration of a prefix that it uses may be gone. *)
Theorem C50_prefix_refuted : forall F, exists v,
  read_mpd F (in_event "<s:Signal xmlns:s=""u:1"" xmlns:x=""u:2""><s:SpliceInfoSection><s:Ext><x:a/><!-- c --><![CDATA[d]]></s:Ext></s:SpliceInfoSection></s:Signal>") = Ok v /\ writes F v [] /\
  text F v [] = in_event "<Signal xmlns=""u:1""><SpliceInfoSection><Ext><x:a/><!-- c --><![CDATA[d]]></Ext></SpliceInfoSection></Signal>".
Proof. intros F. eexists. split; [vm_compute; reflexivity|]. split; vm_compute; reflexivity. Qed.
Print Assumptions C50_prefix_refuted.

(** C58 is false: this start tag comes out with an attribute twice, which is not well-formed XML. *)
Theorem C58_refuted : forall F, exists v,
  read_mpd F (in_period "<AssetIdentifier schemeIdUri=""u""><scte214:ContentIdentifier xmlns:scte214=""urn:scte:dash:scte214-extensions"" type=""ADI"" value=""v""/></AssetIdentifier>") = Ok v /\ writes F v [] /\
  text F v [] = in_period "<AssetIdentifier schemeIdUri=""u""><scte214:ContentIdentifier xmlns:scte214=""urn:scte:dash:scte214-extensions"" type=""ADI"" value=""v"" xmlns:scte214=""urn:scte:dash:scte214-extensions""></scte214:ContentIdentifier></AssetIdentifier>".
Proof. intros F. eexists. split; [vm_compute; reflexivity|]. split; vm_compute; reflexivity. Qed.
Print Assumptions C58_refuted.

(** A mandatory attribute whose value is zero is lost: the struct tag has omitempty. *)
Theorem C42_zero_refuted : forall F, exists v,
  read_mpd F (in_period "<SegmentTemplate><SegmentTimeline><S t=""0"" d=""0""></S></SegmentTimeline></SegmentTemplate>") = Ok v /\ writes F v [] /\
  text F v [] = in_period "<SegmentTemplate><SegmentTimeline><S t=""0""></S></SegmentTimeline></SegmentTemplate>".
Proof. intros F. eexists. split; [vm_compute; reflexivity|]. split; vm_compute; reflexivity. Qed.
Print Assumptions C42_zero_refuted.
