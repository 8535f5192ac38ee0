(** Property C58: no start tag of a written document has an attribute twice. *)
From Coq Require Import String.
From Coq Require Import ZArith List Bool Lia SpecFloat.
From Verif Require Import Base Utf8 Lexer Escape EscapeSpec Printer Writer PropertiesWriter EncoderSpec Decoder DecoderSpec GoType Schema TypeInfo Simple ValueSpec Marshal Unmarshal Io PropertiesDocument PropertiesUnmarshal PropertiesMarshal
  NsSpec NsHistory NsTags RoundTripSpec RoundTripCheck RoundTripParts RoundTripRoot RoundTripTest Once PropertiesRoundTrip.
Import ListNotations.
Open Scope Z_scope.

(** C58. A value of any struct type of package mpd that [clean] describes, in which no captured attribute comes twice and no
    list that is written as attributes has several entries ([single]), is written as a document all of which can be read, and
    no start tag that is read has two attributes of the same namespace and name (so none has the same name twice in the text
    either). *)
Theorem C58_once : forall F s l v indent header, In s (map sd_name mpd_types) -> white indent ->
  wt mpd_types (TStruct s) v = true -> clean F mpd_types (indented indent) None l (TStruct s) v -> (own_of mpd_types s v <> None -> simple l /\ l <> str "xmlns") -> single mpd_types (TStruct s) v ->
  let doc := document (program F s v) indent header in
  exists ts d d', calls (new_decoder doc) ts d /\ next_token d = TokErr EEof d' /\ Forall unrepeated ts.
Proof.
  intros F s l v indent header IN WH WV CV SL SV doc. apply in_map_iff in IN. destruct IN as (sd & <- & IN). pose proof mpd_roots as RO. rewrite forallb_forall in RO. specialize (RO sd IN).
  destruct (clean_struct F mpd_types _ None l (sd_name sd) v CV WV) as (RAW & _).
  assert (TI : exists ti, type_info embed_depth mpd_types (sd_name sd) = Ok ti) by (clear - RO RAW; unfold root_ok in RO; rewrite RAW in RO; destruct (type_info embed_depth mpd_types (sd_name sd)); try discriminate; eauto). destruct TI as (ti & TI).
  eapply (document_once F mpd_types embed_depth mpd_prefix mpd_known mpd_env_ok mpd_known_ok mpd_known_only (indented indent) mpd_checked mpd_rank mpd_ranked); eauto.
  unfold layout, indented. destruct (beq indent []) eqn:B; [apply beq_eq in B|]; auto.
Qed.
Print Assumptions C58_once.
(** C58 for MPD.Write. *)
Theorem C58_mpd : forall F v indent header, white indent -> wt mpd_types (TStruct MPD) v = true -> clean F mpd_types (indented indent) None [] (TStruct MPD) v -> single mpd_types (TStruct MPD) v ->
  exists ts d d', calls (new_decoder (document (program F MPD v) indent header)) ts d /\ next_token d = TokErr EEof d' /\ Forall unrepeated ts.
Proof.
  intros F v indent header WH WV CV SV. apply C58_once with (l := []); auto.
  - assert (E : existsb (beq MPD) (map sd_name mpd_types) = true) by (vm_compute; reflexivity). apply existsb_exists in E. destruct E as (x & I & B). apply beq_eq in B. subst x. exact I.
  - intros N. exfalso. apply N. apply own_static. vm_compute. reflexivity.
Qed.
Print Assumptions C58_mpd.

(** A test for values. *)
Fixpoint nodupb (l : list name) : bool := match l with [] => true | x :: l => negb (existsb (name_eqb x) l) && nodupb l end.
Lemma nodupb_ok : forall l, nodupb l = true -> NoDup l.
Proof.
  induction l as [|x l IH]; intro H; [constructor|]. cbn [nodupb] in H. apply andb_true_iff in H. destruct H as [H1 H2]. constructor; [|auto]. intro I. apply negb_true_iff in H1.
  assert (X : existsb (name_eqb x) l = true) by (apply existsb_exists; exists x; split; [exact I|]; unfold name_eqb; rewrite !beq_refl; reflexivity). congruence.
Qed.
Definition aloneb (f : fdecl) (w : gval) : bool :=
  negb (g_attr (flags_of f)) ||
  match fd_type f, w with
  | TSlice TAttr, VList l => nodupb (map aname (attrs_in l))
  | TSlice _, VList l | TPtr (TSlice _), VPtr (VList l) => (length l <=? 1)%nat
  | _, _ => true
  end.
Lemma aloneb_ok : forall f w, aloneb f w = true -> alone f w.
Proof.
  intros f w H G. unfold aloneb in H. rewrite G in H. cbn [negb orb] in H. destruct (fd_type f) as [| | | | | | |t|t| | |]; try exact I.
  - destruct t; try exact I; destruct w as [| | | | |w| | | |]; try exact I; destruct w; try exact I; apply Nat.leb_le; exact H.
  - destruct t; destruct w; try exact I; try (apply Nat.leb_le; exact H). apply nodupb_ok. exact H.
Qed.
Fixpoint singleb (env : tenv) (t : gtype) (v : gval) {struct v} : bool :=
  match v with
  | VPtr w => match t with TPtr t => singleb env t w | _ => true end
  | VList ws => match t with TSlice t => forallb (singleb env t) ws | _ => true end
  | VRec ws =>
      match t with
      | TStruct s =>
          (fix go (fs : list fdecl) (ws : list gval) {struct ws} : bool :=
             match fs, ws with
             | f :: fs, w :: ws => (skipped f || aloneb f w && singleb env (fd_type f) w) && go fs ws
             | _, _ => true
             end) (fields_of env s) ws
      | _ => true
      end
  | _ => true
  end.
Lemma singleb_ok : forall env v t, singleb env t v = true -> single env t v.
Proof.
  intros env. fix IH 1. intros [x|x|x|x| |w|ws|ws|n|a] t H; try exact I.
  - cbn [singleb single] in *. destruct t; try exact I. apply IH. exact H.
  - cbn [singleb single] in *. destruct t; try exact I. induction ws as [|w ws IHw]; [exact I|]. cbn [forallb] in H. apply andb_true_iff in H. destruct H as [H1 H2]. split; [apply IH; exact H1|apply IHw; exact H2].
  - cbn [singleb single] in *. destruct t; try exact I. revert H. generalize (fields_of env s) as fs. induction ws as [|w ws IHw]; intros [|f fs] H; try exact I. apply andb_true_iff in H. destruct H as [H1 H2]. split; [|apply IHw; exact H2].
    apply orb_true_iff in H1. destruct H1 as [H1|H1]; [left; exact H1|]. apply andb_true_iff in H1. destruct H1 as [H1 H1']. right. split; [apply aloneb_ok; exact H1|apply IH; exact H1'].
Qed.

Definition reporting (keys : list string) : gval :=
  make "MPD" [("XMLNs", VStr (str "urn:mpeg:dash:schema:mpd:2011")); ("Profiles", VStr (str "p")); ("Periods", VList [VPtr (make "Period" [("ServiceDescriptions", VList [VPtr (make "ServiceDescriptionType" [
    ("ClientDataReporting", VList [VPtr (make "ClientDataReportingType" [("CMCDParameters", VList [VPtr (make "CMCDParameterType" [("Mode", VStr (str "query")); ("Keys", VPtr (VList (map (fun k => VStr (str k)) keys)))])])])])])])])])]%string.
Example C58_example : wt mpd_types (TStruct MPD) (reporting ["br"%string]) = true /\ clean fl1 mpd_types false None [] (TStruct MPD) (reporting ["br"%string]) /\ single mpd_types (TStruct MPD) (reporting ["br"%string]) /\
  text fl1 (reporting ["br"%string]) [] = in_period "<ServiceDescription id=""0""><ClientDataReporting schemeIdUri=""""><CMCDParameters mode=""query"" keys=""br""></CMCDParameters></ClientDataReporting></ServiceDescription>".
Proof. split; [vm_compute; reflexivity|]. split; [apply cleanb_ok; vm_compute; reflexivity|]. split; [apply singleb_ok; vm_compute; reflexivity|vm_compute; reflexivity]. Qed.
(** C58 is false for lists that are written as attributes: the two keys of CMCD parameters come out as two attributes of the
    same name.  Such a value is nevertheless read back by the package itself. *)
Theorem C58_keys_refuted : forall F, writes F (reporting ["br"; "bl"]%string) [] /\
  text F (reporting ["br"; "bl"]%string) [] = in_period "<ServiceDescription id=""0""><ClientDataReporting schemeIdUri=""""><CMCDParameters mode=""query"" keys=""br"" keys=""bl""></CMCDParameters></ClientDataReporting></ServiceDescription>".
Proof. intros F. split; vm_compute; reflexivity. Qed.
Print Assumptions C58_keys_refuted.
(** A signal with captured attributes, among them its default namespace, in a period with a link. *)
Definition captured_signal : gval :=
  make "MPD" [("XMLNs", VStr (str "urn:mpeg:dash:schema:mpd:2011")); ("Profiles", VStr (str "p")); ("Periods", VList [VPtr (make "Period" [("XlinkHref", VStr (str "u")); ("EventStreams", VList [VPtr (make "EventStreamType" [("SchemeIdUri", VStr (str "u"));
    ("Events", VList [VPtr (make "EventType" [("Signal", VPtr (make "SignalType" [("XMLName", VName (mkname (str "urn:s") (str "Signal"))); ("SpliceInfoSection", VPtr (make "SpliceInfoSectionType" [("XMLName", VName (mkname (str "urn:s") (str "SpliceInfoSection")));
    ("AnyAttrs", VList [VAttr (mkattr (mkname [] (str "xmlns")) (str "urn:s")); VAttr (mkattr (mkname [] (str "x")) (str "1"))])]))]))])])])])])])]%string.
Example C58_example_signal : wt mpd_types (TStruct MPD) captured_signal = true /\ clean fl1 mpd_types false None [] (TStruct MPD) captured_signal /\ single mpd_types (TStruct MPD) captured_signal /\
  text fl1 captured_signal [] = str "<MPD xmlns=""urn:mpeg:dash:schema:mpd:2011"" profiles=""p""><Period xmlns:xlink=""http://www.w3.org/1999/xlink"" xlink:href=""u""><EventStream schemeIdUri=""u""><Event presentationTime=""0""><Signal xmlns=""urn:s""><SpliceInfoSection xmlns=""urn:s"" x=""1""></SpliceInfoSection></Signal></Event></EventStream></Period></MPD>".
Proof. split; [vm_compute; reflexivity|]. split; [apply cleanb_ok; vm_compute; reflexivity|]. split; [apply singleb_ok; vm_compute; reflexivity|vm_compute; reflexivity]. Qed.
