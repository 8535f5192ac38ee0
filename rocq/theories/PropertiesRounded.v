(** Property C82: durations are rounded once, documents with them are stable. *)
From Coq Require Import String.
From Coq Require Import ZArith List Bool Lia SpecFloat.
From Verif Require Import Base Utf8 Lexer Duration DurationSpec DurationProofs DurationRoundTrip PropertiesDuration Printer Writer PropertiesWriter EncoderSpec Decoder GoType Schema TypeInfo Simple ValueSpec Marshal Unmarshal Io PropertiesDocument MarshalProofs UnmarshalProofs PropertiesUnmarshal PropertiesMarshal
  Plan PlanText NsHistory NsSpec NsTags RoundTripSpec RoundTripCheck RoundTripParts RoundTripExact RoundTripMain RoundTripRoot RoundTripTest PropertiesRoundTrip Stable PropertiesSignal PropertiesStable Settled PropertiesSettled PropertiesNumbers ReadText PropertiesReadText Rounded.
Import ListNotations.
Open Scope Z_scope.

(** What a duration is read as after it was written. *)
Definition reread (F : floats) (d : Z) : Z := match dur_string (f_oor F) d with Ok s => match parse_duration (f_oor F) s with Ok x => x | _ => d end | _ => d end.
(** Durations that stay as they are, and all from half a millisecond on that are not next to the largest. *)
Definition timely (F : floats) (d : Z) : Prop := kept F TDuration (VInt d) \/ 500000 <= d < 9223372036854500000.
Lemma timely_reread : forall F d, timely F d -> method_text F TDuration (VInt (reread F d)) = method_text F TDuration (VInt d) /\ kept F TDuration (VInt (reread F d)).
Proof.
  intros F d [K|R].
  - destruct K as (s & A & X & B). unfold leaf_text, leaf_value in *. cbn [has_method method_text method_value] in *. unfold reread. destruct (dur_string (f_oor F) d) as [t| | |] eqn:E; try discriminate. injection A as ->.
    destruct (parse_duration (f_oor F) s) as [x| | |] eqn:P; try discriminate. injection B as ->. cbn [method_text]. rewrite E. split; [reflexivity|]. exists s. unfold leaf_text, leaf_value. cbn [has_method method_text method_value]. rewrite E, P. auto.
  - destruct (C03_round_trip (f_oor F) d R) as (p & v & S & C & P & _ & S2). assert (E : reread F d = v) by (unfold reread; rewrite S, P; reflexivity). rewrite E. cbn [method_text]. rewrite S, S2. split; [reflexivity|].
    exists (dur_text p). unfold leaf_text, leaf_value. cbn [has_method method_text method_value]. rewrite S2, P. split; [reflexivity|]. split; [apply dur_xml; exact C|reflexivity].
Qed.
Lemma reread_range : forall F d, - 2 ^ 63 <= d < 2 ^ 63 -> - 2 ^ 63 <= reread F d < 2 ^ 63.
Proof.
  intros F d H. unfold reread. destruct (dur_string (f_oor F) d) as [s| | |]; try exact H. pose proof (method_value_ok F [] TDuration s eq_refl) as Q. cbn [method_value] in Q. destruct (parse_duration (f_oor F) s) as [x| | |]; try exact H. cbn in Q. lia.
Qed.
Lemma mpd_attrs : forall s ti f, type_info embed_depth mpd_types s = Ok ti -> In f (ti_fields ti) -> g_attr (fi_flags f) = false -> forall fd, decl_at mpd_types s (fi_idx f) = Some fd -> timed (fd_type fd) = false.
Proof.
  assert (H : forallb (fun d => match type_info embed_depth mpd_types (sd_name d) with Ok ti => forallb (fun f => g_attr (fi_flags f) || match decl_at mpd_types (sd_name d) (fi_idx f) with Some fd => negb (timed (fd_type fd)) | None => true end) (ti_fields ti) | _ => true end) mpd_types = true) by (vm_compute; reflexivity). rewrite forallb_forall in H.
  intros s ti f TI I A fd D. destruct (declared mpd_types s) as [(d & ID & <-)|U].
  - specialize (H d ID). rewrite TI in H. rewrite forallb_forall in H. specialize (H f I). rewrite A, D in H. apply negb_true_iff in H. exact H.
  - unfold embed_depth in TI. rewrite (undeclared_info _ _ _ U) in TI. injection TI as <-. destruct I.
Qed.

Section Round.
Variables (F : floats) (s l indent : bytes) (header : bool) (v : gval).
Hypotheses (IN : In s (map sd_name mpd_types)) (WH : white indent) (WV : wt mpd_types (TStruct s) v = true).
Hypothesis CV : clean F mpd_types (indented indent) None l (TStruct s) (retime mpd_types (fun _ => 0) (TStruct s) v).
Hypothesis TV : Forall (timely F) (times mpd_types (TStruct s) v).
Hypothesis SL : own_of mpd_types s v <> None -> simple l /\ l <> str "xmlns".
Let r := retime mpd_types (reread F) (TStruct s) v.
Lemma round_wt : wt mpd_types (TStruct s) r = true.
Proof. apply retime_wt; [intros d H; apply reread_range; exact H|exact WV]. Qed.
Lemma round_clean : clean F mpd_types (indented indent) None l (TStruct s) r.
Proof. apply (retime_clean F mpd_types (fun _ => 0) (reread F)); auto. intros x I. rewrite Forall_forall in TV. apply timely_reread. auto. Qed.
Lemma round_own : own_of mpd_types s r <> None -> simple l /\ l <> str "xmlns".
Proof. unfold r. rewrite retime_own. exact SL. Qed.
Lemma round_program : forall st, program F s v st = program F s r st.
Proof.
  pose proof round_wt as WR. pose proof round_clean as CR. pose proof round_own as SR.
  assert (NE : near F mpd_types (TStruct s) r v) by (apply retime_near; [exact WV|]; intros d D; rewrite Forall_forall in TV; apply timely_reread; auto).
  clearbody r. clear CV TV SL. apply in_map_iff in IN. destruct IN as (sd & <- & IN'). pose proof mpd_roots as RO. rewrite forallb_forall in RO. specialize (RO sd IN').
  destruct (clean_struct F mpd_types _ None l (sd_name sd) r CR WR) as (RAW & _). assert (TI : exists ti, type_info embed_depth mpd_types (sd_name sd) = Ok ti) by (clear - RO RAW; unfold root_ok in RO; rewrite RAW in RO; destruct (type_info embed_depth mpd_types (sd_name sd)); try discriminate; eauto). destruct TI as (ti & TI).
  destruct (root_named F mpd_types embed_depth mpd_prefix mpd_known mpd_known_ok (indented indent) mpd_checked (sd_name sd) ti l r RO TI CR WR SR) as (n & lo & SN & NM).
  destruct (struct_back F mpd_types embed_depth mpd_prefix mpd_known mpd_env_ok mpd_known_ok mpd_known_only mpd_rank (indented indent) mpd_ranked mpd_checked (sd_name sd) ti None l r None n lo (height r) TI RAW CR WR ltac:(lia) SN NM) as (p & P1 & _).
  assert (PP : plan_value F mpd_types embed_depth (S (height r)) (TPtr (TStruct (sd_name sd))) (VPtr r) None = Ok [p]) by (rewrite <- P1; reflexivity).
  assert (PP' : plan_value F mpd_types embed_depth (S (height v)) (TPtr (TStruct (sd_name sd))) (VPtr v) None = Ok [p]) by (eapply (plan_near F mpd_types embed_depth mpd_seen mpd_attrs); [|reflexivity|exact PP|cbn [height]; lia]; apply Ne_ptr; exact NE).
  intros st. unfold program. rewrite (plan_plays F mpd_types embed_depth _ _ _ _ _ PP), (plan_plays F mpd_types embed_depth _ _ _ _ _ PP'). reflexivity.
Qed.
Lemma round_document : document (program F s v) indent header = document (program F s r) indent header /\ result (program F s v) indent = result (program F s r) indent.
Proof. unfold document, result. rewrite round_program. auto. Qed.
End Round.

(** C82. A value that is clean but for its durations, which are timely, is written without error; what is read from the document is
    the same, with each duration as its text is read. *)
Theorem C82_round_trip : forall F s l v indent header, In s (map sd_name mpd_types) -> white indent -> wt mpd_types (TStruct s) v = true ->
  clean F mpd_types (indented indent) None l (TStruct s) (retime mpd_types (fun _ => 0) (TStruct s) v) -> Forall (timely F) (times mpd_types (TStruct s) v) -> (own_of mpd_types s v <> None -> simple l /\ l <> str "xmlns") ->
  let doc := document (program F s v) indent header in
  result (program F s v) indent = Ok tt /\
  exists v', decode F mpd_types embed_depth (enough doc) (TStruct s) (zero_value s) doc = Ok v' /\ same mpd_types (TStruct s) (retime mpd_types (reread F) (TStruct s) v) v'.
Proof.
  intros F s l v indent header IN WH WV CV TV SL. destruct (round_document F s l indent header v IN WV CV TV SL) as [-> ->]. apply C42_round_trip with (l := l); auto.
  - apply round_wt. exact WV.
  - apply round_clean; auto.
  - apply round_own. exact SL.
Qed.
Print Assumptions C82_round_trip.
(** How far that is from the duration itself: half a millisecond and a nanosecond, but for the last half millisecond of the first
    second, which is lost. *)
Theorem C82_distance : forall F d, 500000 <= d < 9223372036854500000 ->
  if (999500000 <=? d) && (d <? 1000000000) then reread F d = 0 else Z.abs (reread F d - d) <= 500001.
Proof.
  intros F d R. destruct (cycle_fixed (f_oor F) d R) as (t & v & E1 & E2 & _ & B & Z). assert (E : reread F d = v) by (unfold reread; rewrite E1, E2; reflexivity). rewrite E. clear E E1 E2. unfold printed_ns in B. replace (Z.abs d) with d in B by lia.
  replace (d <? 500000) with false in B by lia. destruct ((999500000 <=? d) && (d <? 1000000000)) eqn:W; [lia|]. rewrite round_ms_val in B by lia. pose proof (Z.div_mod (d + 500000) 1000000 ltac:(lia)). pose proof (Z.mod_pos_bound (d + 500000) 1000000 ltac:(lia)). lia.
Qed.
Print Assumptions C82_distance.
Example C82_distance_ex : reread fl1 1001600000 = 1002000000 /\ reread fl1 999999999 = 0 /\ reread fl1 10000000000 = 10000000000.
Proof. vm_compute. auto. Qed.

Lemma iter_in : forall {A} (f : A -> A) n x, Nat.iter (S n) f x = Nat.iter n f (f x).
Proof. intros A f n x. induction n as [|n IH]; [reflexivity|]. change (f (Nat.iter (S n) f x) = f (Nat.iter n f (f x))). rewrite IH. reflexivity. Qed.
Lemma mpd_in : In MPD (map sd_name mpd_types).
Proof. assert (E : existsb (beq MPD) (map sd_name mpd_types) = true) by (vm_compute; reflexivity). apply existsb_exists in E. destruct E as (x & I & B). apply beq_eq in B. subst x. exact I. Qed.
Lemma mpd_own : forall v, own_of mpd_types MPD v <> None -> simple [] /\ [] <> str "xmlns".
Proof. intros v N. exfalso. apply N. apply own_static. vm_compute. reflexivity. Qed.
(** C82 for documents: every document that is tidy but for its durations, which are timely, is written and read back with the
    durations as their texts are read. *)
Theorem C82_read : forall F inp v indent header, white indent -> read_mpd F inp = Ok v -> tidy F mpd_types (indented indent) None [] (TStruct MPD) (retime mpd_types (fun _ => 0) (TStruct MPD) v) -> Forall (timely F) (times mpd_types (TStruct MPD) v) ->
  let doc := document (program F MPD v) indent header in
  result (program F MPD v) indent = Ok tt /\ exists v', read_mpd F doc = Ok v' /\ same mpd_types (TStruct MPD) (retime mpd_types (reread F) (TStruct MPD) v) v'.
Proof.
  intros F inp v indent header W R T TV. pose proof (C59_mpd F inp) as WT. rewrite R in WT. destruct WT as [WT _]. apply C82_round_trip with (l := []); auto using mpd_in.
  - apply tidy_clean; [exact T|]. apply retime_legible. exact (C77_mpd F inp v R).
  - apply mpd_own.
Qed.
Print Assumptions C82_read.
(** And with no places for other attributes, it is the same document that is written ever after. *)
Theorem C82_stable : forall F inp v indent header, white indent -> read_mpd F inp = Ok v -> tidy F mpd_types (indented indent) None [] (TStruct MPD) (retime mpd_types (fun _ => 0) (TStruct MPD) v) -> Forall (timely F) (times mpd_types (TStruct MPD) v) ->
  captures mpd_types (TStruct MPD) v = [] ->
  forall n, Nat.iter (S n) (again F indent header) inp = again F indent header inp.
Proof.
  intros F inp v indent header W R T TV CA. pose proof (C59_mpd F inp) as WT. rewrite R in WT. destruct WT as [WT _].
  assert (CV : clean F mpd_types (indented indent) None [] (TStruct MPD) (retime mpd_types (fun _ => 0) (TStruct MPD) v)) by (apply tidy_clean; [exact T|]; apply retime_legible; exact (C77_mpd F inp v R)).
  assert (D : again F indent header inp = document (program F MPD (retime mpd_types (reread F) (TStruct MPD) v)) indent header) by (unfold again; rewrite R; apply (round_document F MPD [] indent header v); auto using mpd_in; apply mpd_own).
  pose proof (C44_cycles F (retime mpd_types (reread F) (TStruct MPD) v) indent header W (round_wt F MPD v WT) (round_clean F MPD [] indent v WT CV TV)) as CY. rewrite retime_captures in CY. specialize (CY CA). cbv zeta in CY. rewrite <- D in CY.
  intro n. rewrite <- (CY n). clear CY D. apply iter_in.
Qed.
Print Assumptions C82_stable.
(** If there are places for other attributes, in elements that hold their names in namespaces without prefix of their own, from the
    second time on. *)
Theorem C82_settles : forall F inp v indent header, white indent -> read_mpd F inp = Ok v -> tidy F mpd_types (indented indent) None [] (TStruct MPD) (retime mpd_types (fun _ => 0) (TStruct MPD) v) -> Forall (timely F) (times mpd_types (TStruct MPD) v) ->
  hosted mpd_types mpd_known Open None (TStruct MPD) v ->
  forall n, Nat.iter (S (S n)) (again F indent header) inp = again F indent header (again F indent header inp).
Proof.
  intros F inp v indent header W R T TV CA. pose proof (C59_mpd F inp) as WT. rewrite R in WT. destruct WT as [WT _].
  assert (CV : clean F mpd_types (indented indent) None [] (TStruct MPD) (retime mpd_types (fun _ => 0) (TStruct MPD) v)) by (apply tidy_clean; [exact T|]; apply retime_legible; exact (C77_mpd F inp v R)).
  assert (D : again F indent header inp = document (program F MPD (retime mpd_types (reread F) (TStruct MPD) v)) indent header) by (unfold again; rewrite R; apply (round_document F MPD [] indent header v); auto using mpd_in; apply mpd_own).
  assert (HO : hosted mpd_types mpd_known Open None (TStruct MPD) (retime mpd_types (reread F) (TStruct MPD) v)) by (unfold hosted; rewrite retime_places; exact CA).
  pose proof (C44_mpd F (retime mpd_types (reread F) (TStruct MPD) v) indent header W (round_wt F MPD v WT) (round_clean F MPD [] indent v WT CV TV) HO) as CY. cbv zeta in CY. rewrite <- D in CY.
  intro n. rewrite <- (CY n). clear CY D. apply iter_in.
Qed.
Print Assumptions C82_settles.
Definition uneven : bytes := str "<MPD xmlns=""urn:mpeg:dash:schema:mpd:2011"" profiles=""p"" mediaPresentationDuration=""PT1H0.0015999S"" minBufferTime=""PT2.00149S""><Period start=""PT0S""><AdaptationSet></AdaptationSet></Period></MPD>".
Example C82_ex : exists v, read_mpd fl1 uneven = Ok v /\ cleanb fl1 mpd_types true None [] (TStruct MPD) v = false /\
  tidy fl1 mpd_types true None [] (TStruct MPD) (retime mpd_types (fun _ => 0) (TStruct MPD) v) /\ times mpd_types (TStruct MPD) v = [3600001599900; 2001490000; 0] /\ Forall (timely fl1) (times mpd_types (TStruct MPD) v) /\
  captures mpd_types (TStruct MPD) v = [] /\ hosted mpd_types mpd_known Open None (TStruct MPD) v /\
  again fl1 [] false uneven = str "<MPD xmlns=""urn:mpeg:dash:schema:mpd:2011"" profiles=""p"" mediaPresentationDuration=""PT1H0M0.002S"" minBufferTime=""PT2.001S""><Period start=""PT0S""><AdaptationSet></AdaptationSet></Period></MPD>".
Proof.
  eexists. split; [vm_compute; reflexivity|]. split; [vm_compute; reflexivity|]. split; [apply clean_tidy; [intros s f I; apply (any_field (fun _ f => negb (g_comment (flags_of f)))) in I; [apply negb_true_iff in I; exact I|vm_compute; reflexivity]|apply cleanb_ok; vm_compute; reflexivity]|].
  split; [vm_compute; reflexivity|]. split.
  - match goal with |- Forall _ ?t => replace t with [3600001599900; 2001490000; 0] by (vm_compute; reflexivity) end. apply Forall_cons; [right; lia|]. apply Forall_cons; [right; lia|]. apply Forall_cons; [left; exact (C42_seconds_kept fl1 0 ltac:(lia))|apply Forall_nil].
  - split; [vm_compute; reflexivity|]. split; [unfold hosted; match goal with |- Forall _ ?t => replace t with (@nil (fate * list gval)) by (vm_compute; reflexivity) end; exact (Forall_nil _)|vm_compute; reflexivity].
Qed.
(** Durations below half a millisecond have to be left out: one of 15 nanoseconds is read as one of 14. *)
Theorem C82_short_refuted : forall F, let doc := fun t => str "<MPD xmlns=""urn:mpeg:dash:schema:mpd:2011"" profiles=""p"" minBufferTime=""" ++ str t ++ str """></MPD>" in
  again F [] false (doc "PT0.000000015S"%string) = doc "PT0.000000014S"%string /\ again F [] false (doc "PT0.000000014S"%string) = doc "PT0.000000014S"%string.
Proof. intro F. split; vm_compute; reflexivity. Qed.
Print Assumptions C82_short_refuted.
