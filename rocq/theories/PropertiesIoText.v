(** Property C85: strings and files. *)
From Coq Require Import String.
From Coq Require Import ZArith List Bool Lia SpecFloat.
From Verif Require Import Base Utf8 Lexer Decoder Printer EncoderSpec NsSpec Writer WriterProofs Pool PropertiesWriter GoType Schema Simple ValueSpec Marshal Unmarshal UnmarshalProofs PropertiesUnmarshal Io PropertiesDocument PropertiesMarshal
  RoundTripSpec RoundTripCheck RoundTripParts RoundTripTest PropertiesRoundTrip PropertiesReadText Heap HeapSpec Objects PropertiesObjects IoText.
Import ListNotations.
Open Scope Z_scope.

Lemma builder_willing : willing builder.
Proof. intros h p. reflexivity. Qed.
Lemma builder_obeys : obeys builder.
Proof. intros h p. cbn. split; [lia|lia]. Qed.
Lemma crash_shown : forall o m indent header e u n r back, willing o -> write_xml o m indent header e = Some (u, n, r, back) -> snd (m (en_p (enc_indent [] indent e))) = Panic -> r = Crashed.
Proof.
  intros o m indent header e u n r back W H K. unfold write_xml in H.
  assert (X : exists u, (if header then let '(_, err, u) := cw_write o xml_header new_dest in (err, u) else (None, new_dest)) = (None, u)).
  { destruct header; [|eauto]. unfold cw_write. rewrite W. eauto. }
  destruct X as [u0 X]. rewrite X in H. unfold enc_encode, run_step in H. change (en_p (enc_indent [] indent (acquire u0 e))) with (en_p (enc_indent [] indent e)) in H.
  destruct (m (en_p (enc_indent [] indent e))) as [[cs s] r0]. cbn [snd] in K. subst r0. destruct (p_writes _ _ _) as [e'|]; [|discriminate]. injection H as _ _ <- _. reflexivity.
Qed.
(** C85. Whatever encoder the pool hands out: WriteToString returns the document if the value can be written, otherwise the empty string
    with the error, and it panics only where encoding does. *)
Theorem C85_written : forall F s v indent header p e, pool_of p -> e = pool_new \/ In e p -> result (program F s v) indent <> OutOfFuel ->
  exists back, write_to_string F s v indent header e =
    Some (match result (program F s v) indent with Ok _ => (document (program F s v) indent header, Done) | Panic => ([], Crashed) | _ => ([], Failed) end, back).
Proof.
  intros F s v indent header p e P E NF. destruct (C23_count builder (program F s v) indent header p e builder_obeys P E NF) as (u & n & r & back & W & _ & _ & D & C).
  pose proof (C23_complete builder (program F s v) indent header p e u n r back (fun _ _ => eq_refl) P E W) as K.
  exists back. unfold write_to_string, write_value. rewrite W. assert (EN : e = pool_new) by (destruct E; auto; eapply pooled_new; eauto). subst e.
  pose proof (crash_shown _ _ _ _ _ _ _ _ _ builder_willing W) as CR. change (snd (program F s v (en_p (enc_indent [] indent pool_new)))) with (result (program F s v) indent) in CR.
  destruct (result (program F s v) indent) as [x| | |] eqn:R; [| | |contradiction].
  - assert (RD : r = Done) by (apply K; eauto). subst r. destruct (D eq_refl) as [-> _]. reflexivity.
  - destruct r; [|reflexivity|]; [destruct (proj1 K eq_refl) as [x X]; discriminate X|discriminate (C eq_refl)].
  - rewrite (CR eq_refl). reflexivity.
Qed.
Print Assumptions C85_written.
(** C85. It is what every writer gets that takes all it is given, and whatever else a writer gets is a part of it from the start. *)
Theorem C85_prefix : forall F s v indent header p e p' e' o text back u n r back', pool_of p -> e = pool_new \/ In e p -> pool_of p' -> e' = pool_new \/ In e' p' -> obeys o ->
  write_to_string F s v indent header e = Some (text, Done, back) -> write_value F o s v indent header e' = Some (u, n, r, back') ->
  (exists rest, text = u_out u ++ rest) /\ n = Z.of_nat (length (u_out u)) /\ (r = Done -> u_out u = text).
Proof.
  intros F s v indent header p e p' e' o text back u n r back' P E P' E' O T W.
  assert (NF : result (program F s v) indent <> OutOfFuel).
  { unfold write_to_string, write_value in T. destruct (write_xml builder (program F s v) indent header e) as [[[[u0 n0] r0] b0]|] eqn:W0; [|discriminate]. destruct r0; try discriminate.
    pose proof (proj1 (C23_complete builder _ _ _ _ _ _ _ _ _ (fun _ _ => eq_refl) P E W0) eq_refl) as [x X]. rewrite X. discriminate. }
  destruct (C85_written F s v indent header p e P E NF) as (b & T'). rewrite T in T'. destruct (C23_count o (program F s v) indent header p' e' O P' E' NF) as (u1 & n1 & r1 & b1 & W1 & A & B & D & _).
  unfold write_value in W. rewrite W in W1. injection W1 as <- <- <- <-. assert (X : text = document (program F s v) indent header) by (destruct (result (program F s v) indent); congruence). rewrite X. split; [exact B|]. split; [exact A|]. intros RD. exact (proj1 (D RD)).
Qed.
Print Assumptions C85_prefix.
(** C85. Reading a string gives an MPD with its objects, or the error of Unmarshal, or does not end (C59 says when). *)
Theorem C85_string : forall E F s,
  (exists v h m, @read_from_string E F s = Got v h m /\ read_mpd F s = Ok v /\ load v = Ok (h, m) /\ linked_below h m) \/
  (exists e, @read_from_string E F s = NoMPD e /\ read_mpd F s = Err e) \/
  read_mpd F s = OutOfFuel /\ stuck (new_decoder s).
Proof.
  intros E F s. unfold read_from_string, from_bytes. pose proof (C59_mpd F s) as W. destruct (read_mpd F s) as [v|e| |] eqn:R; [left|right; left; eauto|contradiction|right; right].
  - destruct (C79_linked F s v R) as (h & m & L & _ & K & _). exists v, h, m. rewrite L. auto.
  - split; [reflexivity|]. exact W.
Qed.
Print Assumptions C85_string.
(** C85. A file is read as the string of its contents; if it cannot be read, the error is the one of the file system. *)
Theorem C85_file : forall E F (files : bytes -> bytes + E) path,
  match files path with inl data => read_from_file F files path = read_from_string F data | inr e => read_from_file F files path = NoFile e end.
Proof. intros E F files path. unfold read_from_file, read_from_string, from_bytes. destruct (files path); reflexivity. Qed.
Print Assumptions C85_file.
(** C85. A string or file that was written from an MPD that was read, with nothing in it that is not carried over (C42), gives the same
    content and the same objects again. *)
Theorem C85_cycle : forall E F inp v h m indent header p e (files : bytes -> bytes + E) path, white indent -> pool_of p -> e = pool_new \/ In e p ->
  @read_from_string E F inp = Got v h m -> tidy F mpd_types (indented indent) None [] (TStruct MPD) v ->
  exists text back, mpd_write_to_string F v indent header e = Some (text, Done, back) /\
    exists v', same mpd_types (TStruct MPD) v v' /\ @read_from_string E F text = Got v' h m /\ (files path = inl text -> read_from_file F files path = Got v' h m).
Proof.
  intros E F inp v h m indent header p e files path W P I R T. destruct (C85_string E F inp) as [(v0 & h0 & m0 & G & RM & L & _)|[(x & G & _)|[G _]]].
  2: { rewrite R in G. discriminate G. }
  2: { unfold read_from_string, from_bytes in R. rewrite G in R. discriminate R. }
  rewrite R in G. injection G as <- <- <-. destruct (C42_read F inp v indent header W RM T) as (OK & v' & RD & S).
  destruct (C85_written F MPD v indent header p e P I) as (back & WR); [rewrite OK; discriminate|]. rewrite OK in WR. exists (document (program F MPD v) indent header), back. split; [exact WR|]. exists v'. split; [exact S|].
  assert (G : @read_from_string E F (document (program F MPD v) indent header) = Got v' h m) by (unfold read_from_string, from_bytes; rewrite RD, (C79_same v v' S), L; reflexivity).
  split; [exact G|]. intros FP. pose proof (C85_file E F files path) as FL. rewrite FP in FL. rewrite FL. exact G.
Qed.
Print Assumptions C85_cycle.
(** An MPD with a period, as string and as file. *)
Definition doc85 : bytes := str "<MPD profiles=""p""><Period id=""P0""></Period></MPD>".
Definition files85 (path : bytes) : bytes + Z := if beq path (str "a.mpd") then inl doc85 else inr 2.
Example C85_ex : (exists v h m, @read_from_string Z fl1 doc85 = Got v h m /\ (exists back, mpd_write_to_string fl1 v [] false pool_new = Some (doc85, Done, back)) /\
    (exists back, mpd_write_to_string fl1 v [] true pool_new = Some (xml_header ++ doc85, Done, back)) /\ read_from_file fl1 files85 (str "a.mpd") = Got v h m) /\
  read_from_file fl1 files85 (str "b.mpd") = NoFile 2 /\ (exists e, @read_from_string Z fl1 (str "<MPD>") = NoMPD e) /\
  (exists back, period_write_to_string fl1 (make "Period" [("Id", VStr (str "P0"))]%string) [] pool_new = Some (str "<Period id=""P0""></Period>", Done, back)).
Proof.
  split; [do 3 eexists; split; [vm_compute; reflexivity|]; split; [eexists; vm_compute; reflexivity|]; split; [eexists; vm_compute; reflexivity|vm_compute; reflexivity]|].
  split; [vm_compute; reflexivity|]. split; [eexists; vm_compute; reflexivity|]. eexists. vm_compute. reflexivity.
Qed.
(** An event that is read and cannot be written (C43). *)
Definition crash85 : bool := match read_mpd fl1 (in_event "<ReplacePresentation returnOffset=""1""></ReplacePresentation>") with Ok v => match mpd_write_to_string fl1 v [] true pool_new with Some ([], Crashed, _) => true | _ => false end | _ => false end.
Example C85_crash : crash85 = true.
Proof. vm_compute. reflexivity. Qed.
