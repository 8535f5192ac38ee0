(** Theorems C81: SCTE-35 messages are found after a cycle as before (mpd/scte35.go:556-575). *)
From Coq Require Import String.
From Coq Require Import ZArith List Bool Lia SpecFloat.
From Verif Require Import Base Utf8 Lexer EscapeSpec Decoder DecoderProofs DecoderSpec Printer GoType Schema TypeInfo Simple ValueSpec Marshal Unmarshal Io PropertiesDocument PropertiesUnmarshal PropertiesMarshal PropertiesWriter Writer EncoderSpec NsHistory NsSpec RoundTripSpec RoundTripTest PropertiesRoundTrip ReadText PropertiesReadText.
From Verif Require Import Helpers Heap HeapSpec Objects ObjectsProofs PropertiesObjects.
Import ListNotations.

(** ** Model *)
(** scte35.go:558-564 IsSCTE35 on the value of an event stream *)
Definition carries (es : gval) : bool := is_scte35 (text_of (field (str "EventStreamType") (str "SchemeIdUri") es)).
(** scte35.go:570-575 SpliceInfo on the value of an event *)
Definition pointed (v : gval) : option gval := match v with VPtr w => Some w | _ => None end.
Definition event_splice (e : gval) : option gval :=
  splice_info (option_map (fun s => pointed (field (str "SignalType") (str "SpliceInfoSection") s)) (pointed (field (str "EventType") (str "Signal") e)))
              (pointed (field (str "EventType") (str "SpliceInfoSection") e)).

(** ** Specification *)
(** The event streams of all periods, and of the sets and representations in them; the events of a stream. *)
Definition events_of (es : gval) : list gval := items (str "EventStreamType") (str "Events") es.
Definition inband (s : bytes) (v : gval) : list gval := items (str "RepresentationBaseType") (str "InbandEventStreams") (field s (str "RepresentationBaseType") v).
Definition set_streams (a : gval) : list gval :=
  inband (str "AdaptationSetType") a ++ flat_map (inband (str "RepresentationType")) (items (str "AdaptationSetType") (str "Representations") a).
Definition period_streams (p : gval) : list gval :=
  items (str "Period") (str "EventStreams") p ++ flat_map set_streams (items (str "Period") (str "AdaptationSets") p).
Definition streams_of (v : gval) : list gval := flat_map period_streams (periods_of v).
Definition same_opt (s : bytes) (a b : option gval) : Prop :=
  match a, b with None, None => True | Some x, Some y => same mpd_types (TStruct s) x y | _, _ => False end.
(** Two event streams that tell the same: whether they carry SCTE-35, and the message of each event. *)
Definition same_messages (a b : gval) : Prop :=
  carries a = carries b /\ Forall2 (fun e e' => same_opt (str "SpliceInfoSectionType") (event_splice e) (event_splice e')) (events_of a) (events_of b).

Ltac decl := vm_compute; reflexivity.
Lemma items_same : forall s n s' v v', decl_of s n = Some (TSlice (TPtr (TStruct s'))) -> good (TStruct s) v -> same mpd_types (TStruct s) v v' -> Forall2 (same mpd_types (TStruct s')) (items s n v) (items s n v').
Proof.
  intros s n s' v v' D G S. pose proof (field_good _ _ _ _ D G) as [W L]. pose proof (field_same _ _ _ _ _ D S) as S'. unfold items. destruct (field s n v) as [| | | | | |l| | |]; try discriminate W. destruct (field s n v') as [| | | | | |l'| | |]; try contradiction S'. cbn [same wt legible] in *. revert l' W L S'. induction l as [|w l IH]; intros [|w' l'] W L S'; try contradiction S'; [constructor|].
  cbn [forallb] in W. apply andb_true_iff in W. destruct W as [W1 W2]. destruct L as [[L0 L1] L2]. destruct S' as [S1 S2]. destruct w; try discriminate W1; [congruence|]. destruct w'; try contradiction S1. cbn [flat_map app]. constructor; [exact S1|exact (IH l' W2 L2 S2)].
Qed.
Lemma pointed_same : forall s v v', good (TPtr (TStruct s)) v -> same mpd_types (TPtr (TStruct s)) v v' -> same_opt s (pointed v) (pointed v').
Proof. intros s v v' [W L] S. destruct v; try discriminate W; [cbn in S; subst v'; exact I|]. destruct v'; try contradiction S. exact S. Qed.
Lemma splice_same : forall e e', good (TStruct (str "EventType")) e -> same mpd_types (TStruct (str "EventType")) e e' -> same_opt (str "SpliceInfoSectionType") (event_splice e) (event_splice e').
Proof.
  intros e e' G S. unfold event_splice.
  assert (D1 : decl_of (str "EventType") (str "Signal") = Some (TPtr (TStruct (str "SignalType")))) by decl. assert (D2 : decl_of (str "EventType") (str "SpliceInfoSection") = Some (TPtr (TStruct (str "SpliceInfoSectionType")))) by decl. assert (D3 : decl_of (str "SignalType") (str "SpliceInfoSection") = Some (TPtr (TStruct (str "SpliceInfoSectionType")))) by decl.
  pose proof (pointed_same _ _ _ (field_good _ _ _ _ D2 G) (field_same _ _ _ _ _ D2 S)) as P2. pose proof (field_good _ _ _ _ D1 G) as G1. pose proof (pointed_same _ _ _ G1 (field_same _ _ _ _ _ D1 S)) as P1.
  destruct (field (str "EventType") (str "Signal") e) as [| | | | |x| | | |]; destruct (field (str "EventType") (str "Signal") e') as [| | | | |x'| | | |]; cbn [pointed option_map] in *; try contradiction P1; try exact P2.
  cbn [same_opt] in P1. assert (GX : good (TStruct (str "SignalType")) x) by (destruct G1 as [W L]; split; [exact W|exact (proj2 L)]).
  pose proof (pointed_same _ _ _ (field_good _ _ _ _ D3 GX) (field_same _ _ _ _ _ D3 P1)) as P3. unfold splice_info. destruct (pointed (field (str "SignalType") (str "SpliceInfoSection") x)); destruct (pointed (field (str "SignalType") (str "SpliceInfoSection") x')); try contradiction P3; [exact P3|exact P2].
Qed.
Lemma Forall2_impl_in : forall {A B} (R S : A -> B -> Prop) l l', Forall2 R l l' -> (forall a b, In a l -> R a b -> S a b) -> Forall2 S l l'.
Proof. intros A B R S l l' H. induction H as [|a b l l' HR H IH]; intro F; constructor; [apply F; [now left|exact HR]|]. apply IH. intros x y I. apply F. now right. Qed.
Lemma stream_same : forall a b, good (TStruct (str "EventStreamType")) a -> same mpd_types (TStruct (str "EventStreamType")) a b -> same_messages a b.
Proof.
  intros a b G S. split.
  - unfold carries. assert (D : decl_of (str "EventStreamType") (str "SchemeIdUri") = Some TString) by decl. pose proof (same_scalar TString _ _ I (field_same _ _ _ _ _ D S)) as E. rewrite E. reflexivity.
  - assert (D : decl_of (str "EventStreamType") (str "Events") = Some (TSlice (TPtr (TStruct (str "EventType"))))) by decl. eapply Forall2_impl_in; [exact (items_same _ _ _ _ _ D G S)|]. intros e e' IN SE. apply splice_same; [|exact SE]. exact (items_good _ _ _ _ _ (field_good _ _ _ _ D G) IN).
Qed.
Lemma flat_same : forall {A B} (R : A -> A -> Prop) (S : B -> B -> Prop) f l l', Forall2 R l l' -> (forall a b, In a l -> R a b -> Forall2 S (f a) (f b)) -> Forall2 S (flat_map f l) (flat_map f l').
Proof. intros A B R S f l l' H. induction H as [|a b l l' HR H IH]; intro F; cbn [flat_map]; [constructor|]. apply Forall2_app; [apply F; [now left|exact HR]|]. apply IH. intros x y IN. apply F. now right. Qed.
Lemma streams_same : forall s n v v', decl_of s n = Some (TSlice (TPtr (TStruct (str "EventStreamType")))) -> good (TStruct s) v -> same mpd_types (TStruct s) v v' -> Forall2 same_messages (items s n v) (items s n v').
Proof.
  intros s n v v' D G S. eapply Forall2_impl_in; [exact (items_same _ _ _ _ _ D G S)|]. intros a b IA SA. apply stream_same; [|exact SA]. exact (items_good _ _ _ _ _ (field_good _ _ _ _ D G) IA).
Qed.
Lemma inband_same : forall s v v', decl_of s (str "RepresentationBaseType") = Some (TStruct (str "RepresentationBaseType")) -> good (TStruct s) v -> same mpd_types (TStruct s) v v' -> Forall2 same_messages (inband s v) (inband s v').
Proof. intros s v v' D G S. apply streams_same; [decl|exact (field_good _ _ _ _ D G)|exact (field_same _ _ _ _ _ D S)]. Qed.
Lemma set_streams_same : forall v v', good (TStruct (str "AdaptationSetType")) v -> same mpd_types (TStruct (str "AdaptationSetType")) v v' -> Forall2 same_messages (set_streams v) (set_streams v').
Proof.
  intros v v' G S. assert (D : decl_of (str "AdaptationSetType") (str "Representations") = Some (TSlice (TPtr (TStruct (str "RepresentationType"))))) by decl. apply Forall2_app; [apply inband_same; [decl|exact G|exact S]|].
  eapply flat_same; [exact (items_same _ _ _ _ _ D G S)|]. intros a b IA SA. apply inband_same; [decl|exact (items_good _ _ _ _ _ (field_good _ _ _ _ D G) IA)|exact SA].
Qed.
Lemma period_streams_same : forall v v', good (TStruct (str "Period")) v -> same mpd_types (TStruct (str "Period")) v v' -> Forall2 same_messages (period_streams v) (period_streams v').
Proof.
  intros v v' G S. assert (D : decl_of (str "Period") (str "AdaptationSets") = Some (TSlice (TPtr (TStruct (str "AdaptationSetType"))))) by decl. apply Forall2_app; [apply streams_same; [decl|exact G|exact S]|].
  eapply flat_same; [exact (items_same _ _ _ _ _ D G S)|]. intros a b IA SA. apply set_streams_same; [exact (items_good _ _ _ _ _ (field_good _ _ _ _ D G) IA)|exact SA].
Qed.
(** C81. IsSCTE35 holds for the three schemes of SCTE 214-1 and no other. *)
Theorem C81_scheme : forall s, is_scte35 s = true <-> In s [str "urn:scte:scte35:2013:xml"; str "urn:scte:scte35:2014:xml+bin"; str "urn:scte:scte35:2013:bin"].
Proof.
  intro s. unfold is_scte35. rewrite !orb_true_iff, !beq_eq. cbn [In]. split; [intros [[-> | ->]| ->]; auto|intros [<-|[<-|[<-|[]]]]; auto].
Qed.
Print Assumptions C81_scheme.
(** C81. SpliceInfo: the section in the Signal if there is one, otherwise the one in the event. *)
Theorem C81_lookup : forall e x, event_splice e = Some x <->
  (exists s, field (str "EventType") (str "Signal") e = VPtr s /\ field (str "SignalType") (str "SpliceInfoSection") s = VPtr x) \/
  ((forall s y, field (str "EventType") (str "Signal") e = VPtr s -> field (str "SignalType") (str "SpliceInfoSection") s <> VPtr y) /\ field (str "EventType") (str "SpliceInfoSection") e = VPtr x).
Proof.
  intros e x. unfold event_splice. assert (P : forall v y, pointed v = Some y <-> v = VPtr y) by (intros v y; destruct v; cbn; split; intro H; try discriminate H; injection H as ->; reflexivity).
  destruct (pointed (field (str "EventType") (str "Signal") e)) as [s|] eqn:E1; cbn [option_map splice_info].
  - apply P in E1. destruct (pointed (field (str "SignalType") (str "SpliceInfoSection") s)) as [y|] eqn:E2.
    + apply P in E2. split; [intro H; injection H as ->; left; exists s; auto|]. intros [(s' & A & B)|(A & B)]; [congruence|destruct (A s y E1 E2)].
    + rewrite P. split; [intro H; right; split; [intros s' y A B; assert (s' = s) by congruence; subst s'; rewrite B in E2; discriminate E2|exact H]|]. intros [(s' & A & B)|(A & B)]; [assert (s' = s) by congruence; subst s'; rewrite B in E2; discriminate E2|exact B].
  - rewrite P. split; [intro H; right; split; [intros s y A; rewrite A in E1; discriminate E1|exact H]|]. intros [(s & A & B)|(A & B)]; [rewrite A in E1; discriminate E1|exact B].
Qed.
Print Assumptions C81_lookup.
(** C81. Values that are the same have the same event streams with the same messages. *)
Theorem C81_same : forall v v', good (TStruct MPD) v -> same mpd_types (TStruct MPD) v v' -> Forall2 same_messages (streams_of v) (streams_of v').
Proof.
  intros v v' G S. assert (D : decl_of (str "MPD") (str "Periods") = Some (TSlice (TPtr (TStruct (str "Period"))))) by decl.
  unfold streams_of. eapply flat_same; [exact (items_same _ _ _ _ _ D G S)|]. intros p p' IN SP. apply period_streams_same; [exact (items_good _ _ _ _ _ (field_good _ _ _ _ D G) IN)|exact SP].
Qed.
Print Assumptions C81_same.
(** C81. Writing and reading back what was read changes neither what IsSCTE35 nor what SpliceInfo says. *)
Theorem C81_cycle : forall F inp v indent header, white indent -> read_mpd F inp = Ok v -> tidy F mpd_types (indented indent) None [] (TStruct MPD) v ->
  exists v', read_mpd F (document (program F MPD v) indent header) = Ok v' /\ Forall2 same_messages (streams_of v) (streams_of v').
Proof. intros F inp v indent header W R T. destruct (C42_read F inp v indent header W R T) as [_ (v' & R' & S)]. exists v'. split; [exact R'|exact (C81_same _ _ (read_good _ _ _ R) S)]. Qed.
Print Assumptions C81_cycle.

(** An event with a Signal, one with the section itself, one with both and one with neither; read, and read back. *)
Definition doc81 : bytes := str "<MPD xmlns=""urn:mpeg:dash:schema:mpd:2011"" profiles=""p""><Period><EventStream schemeIdUri=""urn:scte:scte35:2013:xml""><Event><Signal xmlns=""http://www.scte.org/schemas/35""><SpliceInfoSection tier=""1""/></Signal></Event><Event><SpliceInfoSection xmlns=""http://www.scte.org/schemas/35"" tier=""2""/></Event><Event><SpliceInfoSection xmlns=""http://www.scte.org/schemas/35"" tier=""3""/><Signal xmlns=""http://www.scte.org/schemas/35""><SpliceInfoSection tier=""4""/></Signal></Event><Event><Signal xmlns=""http://www.scte.org/schemas/35""><Binary>AA==</Binary></Signal></Event></EventStream><AdaptationSet><InbandEventStream schemeIdUri=""urn:scte:scte35:2013:bin""/><Representation id=""r"" bandwidth=""1""><InbandEventStream schemeIdUri=""urn:scte:scte35:2013""/></Representation></AdaptationSet></Period></MPD>".
Definition tier (s : gval) : gval := field (str "SpliceInfoSectionType") (str "Tier") s.
Definition found81 (v : gval) : list (bool * list (option gval)) := map (fun es => (carries es, map (fun e => option_map tier (event_splice e)) (events_of es))) (streams_of v).
Definition expect81 := [(true, [Some (VPtr (VInt 1)); Some (VPtr (VInt 2)); Some (VPtr (VInt 4)); None]); (true, []); (false, [])].
Example C81_ex : match read_mpd fl1 doc81 with
  | Ok v => found81 v = expect81 /\ match read_mpd fl1 (document (program fl1 MPD v) (str "  ") true) with Ok v' => found81 v' = expect81 | _ => False end
  | _ => False
  end.
Proof. vm_compute. split; reflexivity. Qed.
