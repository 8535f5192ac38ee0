(** Property C42: documents written by the package are read back as they were. *)
From Coq Require Import String.
From Coq Require Import ZArith List Bool Lia ZifyBool ZifyNat SpecFloat.
From Verif Require Import Base Utf8 NameTables Lexer Escape EscapeSpec Printer Writer PropertiesWriter EncoderSpec Decoder GoType Schema TypeInfo Simple ValueSpec Marshal Unmarshal Io PropertiesDocument MarshalProofs UnmarshalProofs PropertiesUnmarshal PropertiesMarshal
  NsSpec NsProofs NsHistory NsTags RoundTripSpec RoundTripCheck RoundTripParts RoundTripAttrs RoundTripRoot RoundTripTest.
Import ListNotations.
Open Scope Z_scope.

(** *** The types of package mpd *)
Lemma mpd_known_ok : forall u, In u mpd_known -> usable (mpd_prefix u) /\ NsTags.ordinary u.
Proof.
  intros u I. assert (H : Forall (fun u => simple_name (mpd_prefix u) = true /\ (3 <=? length (mpd_prefix u))%nat && equal_fold (firstn 3 (mpd_prefix u)) (str "xml") = false /\ ordinaryb u = true) mpd_known) by (repeat constructor).
  rewrite Forall_forall in H. destruct (H u I) as (H1 & H2 & H3). apply simple_name_ok in H1. destruct H1 as [A B]. split; [|apply ordinaryb_ok; auto]. split; auto. split; auto. intro X. apply fold_xmlish in X. congruence.
Qed.
Lemma mpd_known_only : forall u, usable (mpd_prefix u) -> In u mpd_known.
Proof.
  intros u U. apply usable_nonempty in U. unfold mpd_prefix in U. destruct (find (fun e => beq (fst e) u) mpd_spaces) as [e|] eqn:E; [|congruence]. apply find_some in E. destruct E as [I B]. apply beq_eq in B. subst u. apply in_map. exact I.
Qed.
Lemma mpd_checked : forall s, checked mpd_types embed_depth mpd_prefix mpd_known s = true.
Proof.
  assert (H : forallb (fun d => checked mpd_types embed_depth mpd_prefix mpd_known (sd_name d)) mpd_types = true) by (vm_compute; reflexivity). rewrite forallb_forall in H.
  intros s. destruct (declared mpd_types s) as [(d & I & <-)|U]; [apply H; exact I|]. clear H. unfold checked, embed_depth. rewrite (undeclared_info _ _ _ U). unfold round_ok, name_field_ok, has_raw. unfold covered. rewrite U. vm_compute. reflexivity.
Qed.
Lemma mpd_roots : forallb (fun d => root_ok mpd_types embed_depth mpd_prefix mpd_known (sd_name d)) mpd_types = true.
Proof. vm_compute. reflexivity. Qed.
Lemma mpd_rank_low : forall s, (mpd_rank s < max_depth)%nat.
Proof.
  intros s. apply Nat.le_lt_trans with 22%nat; [|apply Nat.ltb_lt; vm_compute; reflexivity]. unfold mpd_rank, look. destruct (find (fun e => beq (fst e) s) mpd_ranks) as [e|] eqn:E; [|lia]. apply find_some in E as (I & _).
  assert (Q : forallb (fun e => (snd e <=? 22)%nat) mpd_ranks = true) by (vm_compute; reflexivity). rewrite forallb_forall in Q. specialize (Q e I). apply Nat.leb_le in Q. exact Q.
Qed.

(** ** C42 *)
Definition indented (indent : bytes) : bool := negb (beq indent []).
(** C42. Every value of every struct type of package mpd that [clean] describes is written without error, for every white space
    indent and with or without header, and reading the document into a new value gives the same content back.  [l] is the
    name of the element, if the value holds that itself. *)
Theorem C42_round_trip : forall F s l v indent header, In s (map sd_name mpd_types) -> white indent ->
  wt mpd_types (TStruct s) v = true -> clean F mpd_types (indented indent) None l (TStruct s) v -> (own_of mpd_types s v <> None -> simple l /\ l <> str "xmlns") ->
  let doc := document (program F s v) indent header in
  result (program F s v) indent = Ok tt /\
  exists v', decode F mpd_types embed_depth (enough doc) (TStruct s) (zero_value s) doc = Ok v' /\ same mpd_types (TStruct s) v v'.
Proof.
  intros F s l v indent header IN WH WV CV SL doc. apply in_map_iff in IN. destruct IN as (sd & <- & IN). pose proof mpd_roots as RO. rewrite forallb_forall in RO. specialize (RO sd IN).
  destruct (clean_struct F mpd_types _ None l (sd_name sd) v CV WV) as (RAW & _). assert (TI : exists ti, type_info embed_depth mpd_types (sd_name sd) = Ok ti) by (clear - RO RAW; unfold root_ok in RO; rewrite RAW in RO; destruct (type_info embed_depth mpd_types (sd_name sd)); try discriminate; eauto). destruct TI as (ti & TI). eapply (document_back F mpd_types embed_depth mpd_prefix mpd_known mpd_env_ok mpd_known_ok mpd_known_only mpd_rank (indented indent) mpd_ranked mpd_checked); eauto using mpd_rank_low.
  unfold layout, indented. destruct (beq indent []) eqn:B; [apply beq_eq in B|]; auto.
Qed.
Print Assumptions C42_round_trip.
(** C42 for MPDFromBytes on what MPD.Write makes. *)
Lemma own_static : forall s v, first_self 0 (fields_of mpd_types s) = None -> own_of mpd_types s v = None.
Proof. intros s v H. unfold own_of. destruct v; auto. apply first_self_none with (i := 0%nat). exact H. Qed.
Theorem C42_mpd : forall F v indent header, white indent -> wt mpd_types (TStruct MPD) v = true -> clean F mpd_types (indented indent) None [] (TStruct MPD) v ->
  let doc := document (program F MPD v) indent header in
  result (program F MPD v) indent = Ok tt /\ exists v', read_mpd F doc = Ok v' /\ same mpd_types (TStruct MPD) v v'.
Proof.
  intros F v indent header WH WV CV. apply C42_round_trip with (l := []); auto.
  - assert (E : existsb (beq MPD) (map sd_name mpd_types) = true) by (vm_compute; reflexivity). apply existsb_exists in E. destruct E as (x & I & B). apply beq_eq in B. subst x. exact I.
  - intros N. exfalso. apply N. apply own_static. vm_compute. reflexivity.
Qed.
Print Assumptions C42_mpd.
Definition fl1 : floats := mkfl (fun _ _ => str "0") (fun _ => str "0") (fun _ s => if beq s (str "0") then Some (S754_zero false) else None) (fun _ => 0).
Definition sample : gval :=
  make "MPD" [("XMLNs", VStr (str "urn:mpeg:dash:schema:mpd:2011")); ("Profiles", VStr (str "a<b & ""c""")); ("MediaPresentationDuration", VPtr (VInt 1500000000));
    ("Periods", VList [VPtr (make "Period" [("Id", VStr (str "P0")); ("AdaptationSets", VList [VPtr (make "AdaptationSetType" [("Lang", VStr (str "en")); ("RepresentationBaseType", make "RepresentationBaseType" [("Labels", VList [VPtr (make "LabelType" [("Value", VStr (str "x]]>y"))])])]);
      ("Representations", VList [VPtr (make "RepresentationType" [("Id", VStr (str "1")); ("Bandwidth", VInt 500)])])])])])])]%string.
Example C42_example : wt mpd_types (TStruct MPD) sample = true /\ clean fl1 mpd_types true None [] (TStruct MPD) sample /\
  text fl1 sample [] = str "<MPD xmlns=""urn:mpeg:dash:schema:mpd:2011"" profiles=""a&lt;b &amp; &#34;c&#34;"" mediaPresentationDuration=""PT1.5S""><Period id=""P0""><AdaptationSet lang=""en""><Label>x]]&gt;y</Label><Representation id=""1"" bandwidth=""500""></Representation></AdaptationSet></Period></MPD>".
Proof. split; [vm_compute; reflexivity|]. split; [apply cleanb_ok; vm_compute; reflexivity|vm_compute; reflexivity]. Qed.
