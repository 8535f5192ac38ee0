(** Property C44: documents that are read and written again. *)
From Coq Require Import String.
From Coq Require Import ZArith List Bool Lia SpecFloat.
From Verif Require Import Base Utf8 Lexer Printer Writer PropertiesWriter EncoderSpec Decoder GoType Schema TypeInfo Simple ValueSpec Marshal Unmarshal Io PropertiesDocument MarshalProofs UnmarshalProofs PropertiesUnmarshal PropertiesMarshal
  Plan NsSpec NsTags RoundTripSpec RoundTripCheck RoundTripParts RoundTripMain RoundTripRoot RoundTripTest PropertiesRoundTrip Stable.
Import ListNotations.
Open Scope Z_scope.

Lemma mpd_seen : forall s ti, type_info embed_depth mpd_types s = Ok ti -> forallb (path_ok mpd_types s) (compared ti) = true.
Proof.
  assert (H : forallb (fun d => match type_info embed_depth mpd_types (sd_name d) with Ok ti => forallb (path_ok mpd_types (sd_name d)) (compared ti) | _ => true end) mpd_types = true) by (vm_compute; reflexivity). rewrite forallb_forall in H.
  intros s ti TI. destruct (declared mpd_types s) as [(d & I & <-)|U]; [specialize (H d I); rewrite TI in H; exact H|]. unfold embed_depth in TI. rewrite (undeclared_info _ _ _ U) in TI. injection TI as <-. reflexivity.
Qed.

(** C44. A clean value is written as a document; if the value read from that holds the same captured attributes, writing it gives
    the same document again, with any indent and header. *)
Theorem C44_stable : forall F s l v v' indent header, In s (map sd_name mpd_types) -> white indent ->
  wt mpd_types (TStruct s) v = true -> clean F mpd_types (indented indent) None l (TStruct s) v -> (own_of mpd_types s v <> None -> simple l /\ l <> str "xmlns") ->
  let doc := document (program F s v) indent header in
  decode F mpd_types embed_depth (enough doc) (TStruct s) (zero_value s) doc = Ok v' ->
  captures mpd_types (TStruct s) v = captures mpd_types (TStruct s) v' ->
  forall indent' header', document (program F s v') indent' header' = document (program F s v) indent' header' /\ result (program F s v') indent' = result (program F s v) indent'.
Proof.
  intros F s l v v' indent header IN WH WV CV SL doc RD CA indent' header'. destruct (C42_round_trip F s l v indent header IN WH WV CV SL) as (_ & v2 & RD2 & SM). fold doc in RD2. rewrite RD in RD2. injection RD2 as <-.
  destruct (same_twin mpd_types embed_depth v _ v' SM) as [_ TW]. specialize (TW CA).
  apply in_map_iff in IN. destruct IN as (sd & <- & IN). pose proof mpd_roots as RO. rewrite forallb_forall in RO. specialize (RO sd IN).
  destruct (clean_struct F mpd_types _ None l (sd_name sd) v CV WV) as (RAW & _). assert (TI : exists ti, type_info embed_depth mpd_types (sd_name sd) = Ok ti) by (clear - RO RAW; unfold root_ok in RO; rewrite RAW in RO; destruct (type_info embed_depth mpd_types (sd_name sd)); try discriminate; eauto). destruct TI as (ti & TI).
  destruct (root_named F mpd_types embed_depth mpd_prefix mpd_known mpd_known_ok (indented indent) mpd_checked (sd_name sd) ti l v RO TI CV WV SL) as (n & lo & SN & NM).
  destruct (struct_back F mpd_types embed_depth mpd_prefix mpd_known mpd_env_ok mpd_known_ok mpd_known_only mpd_rank (indented indent) mpd_ranked mpd_checked (sd_name sd) ti None l v None n lo (height v) TI RAW CV WV ltac:(lia) SN NM) as (p & P1 & _).
  assert (PP : plan_value F mpd_types embed_depth (S (height v)) (TPtr (TStruct (sd_name sd))) (VPtr v) None = Ok [p]) by (rewrite <- P1; reflexivity).
  assert (PP' : plan_value F mpd_types embed_depth (S (height v')) (TPtr (TStruct (sd_name sd))) (VPtr v') None = Ok [p]) by (eapply (plan_twin F mpd_types embed_depth mpd_seen); [|exact PP|cbn [height]; lia]; constructor; exact TW).
  assert (E : forall st, program F (sd_name sd) v' st = program F (sd_name sd) v st) by (intros st; unfold program; rewrite (plan_plays F mpd_types embed_depth _ _ _ _ _ PP), (plan_plays F mpd_types embed_depth _ _ _ _ _ PP'); reflexivity).
  unfold document, result. rewrite E. auto.
Qed.
Print Assumptions C44_stable.
(** C44 for MPDs without places for attributes that have no field, as in all elements but those of SCTE-35, SCTE-214 and Ext: any
    number of times read and written, the document stays as it was written first. *)
Definition again (F : floats) (indent : bytes) (header : bool) (doc : bytes) : bytes := match read_mpd F doc with Ok v => document (program F MPD v) indent header | _ => [] end.
Theorem C44_cycles : forall F v indent header, white indent -> wt mpd_types (TStruct MPD) v = true -> clean F mpd_types (indented indent) None [] (TStruct MPD) v -> captures mpd_types (TStruct MPD) v = [] ->
  let doc := document (program F MPD v) indent header in
  forall n, Nat.iter n (again F indent header) doc = doc.
Proof.
  intros F v indent header WH WV CV CA doc. destruct (C42_mpd F v indent header WH WV CV) as (_ & v' & RD & SM). fold doc in RD.
  assert (E : again F indent header doc = doc).
  { unfold again. rewrite RD. apply (C44_stable F MPD [] v v' indent header); auto.
    - assert (E : existsb (beq MPD) (map sd_name mpd_types) = true) by (vm_compute; reflexivity). apply existsb_exists in E. destruct E as (x & I & B). apply beq_eq in B. subst x. exact I.
    - intros N. exfalso. apply N. apply own_static. vm_compute. reflexivity.
    - destruct (same_twin mpd_types embed_depth v _ v' SM) as [L _]. rewrite CA in *. destruct (captures mpd_types (TStruct MPD) v'); [reflexivity|discriminate]. }
  induction n as [|n IH]; [reflexivity|]. change (again F indent header (Nat.iter n (again F indent header) doc) = doc). rewrite IH. exact E.
Qed.
Print Assumptions C44_cycles.
Example C44_cycles_example : clean fl1 mpd_types true None [] (TStruct MPD) sample /\ captures mpd_types (TStruct MPD) sample = [] /\ again fl1 (str "  ") true (text fl1 sample []) <> text fl1 sample [].
Proof. split; [apply cleanb_ok; vm_compute; reflexivity|]. split; [vm_compute; reflexivity|]. intro X. apply (f_equal (@length Z)) in X. vm_compute in X. discriminate. Qed.

(** The condition on captured attributes is needed: a signal whose prefix is declared around it is written with a default namespace
    of its own, in front of its attributes; that is captured when the document is read, and then written behind them. *)
Definition moving : bytes := str "<MPD xmlns=""urn:mpeg:dash:schema:mpd:2011"" xmlns:s=""u:1"" profiles=""p""><Period><EventStream schemeIdUri=""u""><Event><s:SpliceInfoSection tier=""4095""></s:SpliceInfoSection></Event></EventStream></Period></MPD>".
Theorem C44_order_refuted : forall F, let d1 := again F [] false moving in
  d1 = in_event "<SpliceInfoSection xmlns=""u:1"" tier=""4095""></SpliceInfoSection>" /\
  again F [] false d1 = in_event "<SpliceInfoSection tier=""4095"" xmlns=""u:1""></SpliceInfoSection>".
Proof. intros F. split; vm_compute; reflexivity. Qed.
Print Assumptions C44_order_refuted.

(** Nor are documents stable that have an SCTE-214 content identifier which declares its own prefix: the declaration is kept among the
    captured attributes, and another one is written in front of them with every cycle.  From the first cycle on the document is not
    well-formed. *)
Definition identified (before after : string) : bytes :=
  in_period ("<AssetIdentifier schemeIdUri=""u""><scte214:ContentIdentifier" ++ before ++ " type=""ADI"" value=""v""" ++ after ++ "></scte214:ContentIdentifier></AssetIdentifier>").
Definition scte214_declared : string := " xmlns:scte214=""urn:scte:dash:scte214-extensions""".
Theorem C44_declaration_refuted : forall F,
  let d0 := identified scte214_declared "" in let d1 := again F [] false d0 in let d2 := again F [] false d1 in
  d1 = identified scte214_declared scte214_declared /\
  d2 = identified scte214_declared (scte214_declared ++ scte214_declared) /\
  again F [] false d2 = identified scte214_declared (scte214_declared ++ scte214_declared ++ scte214_declared).
Proof. intros F. repeat split; vm_compute; reflexivity. Qed.
Print Assumptions C44_declaration_refuted.
