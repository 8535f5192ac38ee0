(** Values as programs build them: the constructors of package mpd, struct literals and assignments to fields. *)
From Coq Require Import String.
From Coq Require Import ZArith List Bool Lia SpecFloat.
From Verif Require Import Base Utf8 Lexer EscapeSpec Printer GoType Schema TypeInfo Simple ValueSpec Io PropertiesDocument NsSpec RoundTripSpec RoundTripTest Helpers.
Import ListNotations.
Open Scope Z_scope.

(** *** Constructors
    Each returns a pointer; the value it points to is given. *)
(** SCTE35Namespace (scte35.go:66), canonicalSCTE35Name (scte35.go:473-477). *)
Definition scte35 : bytes := str "http://www.scte.org/schemas/35".
Definition canonical (l : string) : gval := VName (mkname scte35 (str l)).
(** NewSignal to NewSegmentationUpid (scte35.go:479-554). *)
Definition new_signal : gval := make "SignalType" [("XMLName", canonical "Signal")]%string.
Definition new_splice_info_section : gval := make "SpliceInfoSectionType" [("XMLName", canonical "SpliceInfoSection")]%string.
Definition new_binary (v : bytes) : gval := make "BinaryType" [("XMLName", canonical "Binary"); ("Value", VStr v)]%string.
Definition new_splice_null : gval := make "SpliceNullType" [("XMLName", canonical "SpliceNull")]%string.
Definition new_splice_schedule : gval := make "SpliceScheduleType" [("XMLName", canonical "SpliceSchedule")]%string.
Definition new_splice_insert : gval := make "SpliceInsertType" [("XMLName", canonical "SpliceInsert")]%string.
Definition new_time_signal : gval := make "TimeSignalType" [("XMLName", canonical "TimeSignal")]%string.
Definition new_bandwidth_reservation : gval := make "BandwidthReservationType" [("XMLName", canonical "BandwidthReservation")]%string.
Definition new_private_command (identifier : Z) : gval := make "PrivateCommandType" [("XMLName", canonical "PrivateCommand"); ("Identifier", VInt identifier)]%string.
Definition new_splice_time : gval := make "SpliceTimeType" [("XMLName", canonical "SpliceTime")]%string.
Definition new_break_duration (auto_return : bool) (duration : Z) : gval :=
  make "BreakDurationType" [("XMLName", canonical "BreakDuration"); ("AutoReturn", VBool auto_return); ("Duration", VInt duration)]%string.
Definition new_segmentation_descriptor : gval := make "SegmentationDescriptorType" [("XMLName", canonical "SegmentationDescriptor")]%string.
Definition new_segmentation_upid (v : bytes) : gval := make "SegmentationUpidType" [("XMLName", canonical "SegmentationUpid"); ("Value", VStr v)]%string.
(** NewSCTE214ContentIdentifier (scte214.go:99-103). *)
Definition new_content_identifier (id_type id_value : bytes) : gval := make "SCTE214ContentIdentifierType" [("Type", VStr id_type); ("Value", VStr id_value)]%string.
(** NewBaseURL (mpd.go:935-940), NewDescriptor (mpd.go:962-969), NewRole (mpd.go:971-973). *)
Definition new_base_url (v : bytes) : gval := make "BaseURLType" [("Value", VStr v)]%string.
Definition new_descriptor (scheme v id : bytes) : gval := make "DescriptorType" [("SchemeIdUri", VStr scheme); ("Value", VStr v); ("Id", VStr id)]%string.
Definition new_role (v : bytes) : gval := new_descriptor (str "urn:mpeg:dash:role:2011") v [].
(** NewMPD (mpd.go:1116-1122); DASH_NAMESPACE is mpd.go:37. *)
Definition new_mpd (typ : bytes) : gval := make "MPD" [("Type", VPtr (VStr typ)); ("XMLNs", VStr (str "urn:mpeg:dash:schema:mpd:2011"))]%string.
(** NewAdaptationSetWithParams (mpd.go:1134-1143). *)
Definition new_adaptation_set (content_type mime : bytes) (aligned : bool) (sap : Z) : gval :=
  make "AdaptationSetType" [("RepresentationBaseType", make "RepresentationBaseType" [("MimeType", VStr mime); ("StartWithSAP", VInt sap)]); ("SegmentAlignment", VBool aligned); ("ContentType", VStr content_type)]%string.
(** NewRepresentationWithID, NewAudioRepresentation, NewVideoRepresentation (mpd.go:1150-1177), whose fields are in Helpers.v. *)
Definition representation (r : rep_fields) : gval :=
  make "RepresentationType" [("RepresentationBaseType", make "RepresentationBaseType" [("Codecs", VStr (rf_codecs r)); ("MimeType", VStr (rf_mime r));
      ("AudioSamplingRate", match rf_sampling r with Some s => VPtr (VStr s) | None => VNil end); ("FrameRate", VStr (rf_framerate r)); ("Width", VInt (rf_width r)); ("Height", VInt (rf_height r))]);
    ("Id", VStr (rf_id r)); ("Bandwidth", VInt (rf_bandwidth r))]%string.
(** The constructors without arguments of mpd.go:1124-1222, which return zero values. *)
Definition empty_constructors : list string :=
  ["Period"; "AdaptationSetType"; "RepresentationType"; "SubRepresentationType"; "SegmentTemplateType"; "SegmentListType"; "SegmentTimelineType"; "InitializationSetType"; "PreselectionType";
   "ContentProtectionType"; "ProducerReferenceTimeType"; "UIntVWithIDType"]%string.

(** *** Programs
    [made F i d l s v]: the struct [v] of type [s], for an element named [l] inside elements of the namespace [d], is the result
    of a literal followed by assignments.  The literal is the zero value or, for a type whose values hold their names, one
    that gives just the name.  What is assigned is text that can be written, numbers, or again such structs. *)
Definition zero_floats (F : floats) : Prop := kept F TFloatInf (VFloat (S754_zero false)) /\ forall b, In b [32; 64] -> kept F (TFloat b) (VFloat (S754_zero false)).
Definition field_of (s n : bytes) : option fdecl := find (fun f => beq (fd_name f) n) (fields_of mpd_types s).
Definition own_ns (s : bytes) (v : gval) : option bytes := match v with VRec ws => option_map space (own_name (fields_of mpd_types s) ws) | _ => None end.
Definition within (o d : option bytes) : option bytes := match o with Some u => Some u | None => d end.
Definition holds_name (s : bytes) : bool := existsb names_itself (fields_of mpd_types s).
(** A pointer to a struct is embedded: the zero value cannot be written (see C43_refuted), so a literal must give it. *)
Definition pointer_embedded (f : fdecl) : bool := fd_anon f && match fd_type f with TPtr _ => true | _ => false end.
Definition embeds_pointer (s : bytes) : bool := existsb pointer_embedded (fields_of mpd_types s).
Inductive made (F : floats) (i : bool) (d : option bytes) (l s : bytes) : gval -> Prop :=
| made_zero : In s (map sd_name mpd_types) -> has_raw mpd_types s = false -> holds_name s = false -> embeds_pointer s = false -> made F i d l s (zero_value s)
| made_embedding : forall n f w, In s (map sd_name mpd_types) -> has_raw mpd_types s = false -> field_of s n = Some f -> pointer_embedded f = true -> wt mpd_types (fd_type f) w = true ->
    field_kept mpd_types i s None f w -> clean F mpd_types i d (label mpd_types f) (fd_type f) w -> made F i d l s (with_field s n w (zero_value s))
| made_named : forall u, In s (map sd_name mpd_types) -> has_raw mpd_types s = false -> holds_name s = true -> ordinary_ns u -> d = None \/ d = Some u ->
    made F i d l s (with_field s (str "XMLName") (VName (mkname u l)) (zero_value s))
| made_set : forall v n f w, made F i d l s v -> field_of s n = Some f -> names_itself f = false -> wt mpd_types (fd_type f) w = true ->
    field_kept mpd_types i s (own_ns s v) f w -> clean F mpd_types i (within (own_ns s v) d) (label mpd_types f) (fd_type f) w ->
    made F i d l s (with_field s n w v).

(** *** Zero values are clean *)
Fixpoint blank (t : gtype) (v : gval) {struct v} : bool :=
  match v with
  | VStr x => beq x []
  | VBool _ => true
  | VInt z => (z =? 0) && match t with TInt _ | TUint _ | TDuration => true | _ => false end
  | VFloat (S754_zero false) => match t with TFloatInf => true | TFloat b => (b =? 32) || (b =? 64) | _ => false end
  | VNil => true
  | VList [] => match t with TSlice _ => true | _ => false end
  | VName _ => true
  | VRec ws =>
      match t with
      | TStruct s =>
          negb (has_raw mpd_types s) && match own_name (fields_of mpd_types s) ws with None => true | Some _ => false end &&
          (fix go (fs : list fdecl) (ws : list gval) {struct ws} : bool :=
             match fs, ws with
             | f :: fs, w :: ws => (skipped f || (negb (fd_anon f) || match w with VNil => false | _ => true end) && (negb (misnamed mpd_types f) || absentb w) && (negb (is_child f) || negb (has_text mpd_types s) || absentb w) && blank (fd_type f) w) && go fs ws
             | _, _ => true
             end) (fields_of mpd_types s) ws
      | _ => false
      end
  | _ => false
  end.
Definition blank_field (s : bytes) (f : fdecl) (w : gval) : bool :=
  skipped f || (negb (fd_anon f) || match w with VNil => false | _ => true end) && (negb (misnamed mpd_types f) || absentb w) && (negb (is_child f) || negb (has_text mpd_types s) || absentb w) && blank (fd_type f) w.
Definition clean_field (F : floats) (i : bool) (d : option bytes) (s : bytes) (own : option bytes) (f : fdecl) (w : gval) : Prop :=
  skipped f = true \/ field_kept mpd_types i s own f w /\ clean F mpd_types i (within own d) (label mpd_types f) (fd_type f) w.
Lemma clean_fields : forall F i d s own fs ws,
  (fix go (fs : list fdecl) (ws : list gval) {struct ws} : Prop :=
     match fs, ws with
     | f :: fs, w :: ws => (skipped f = true \/ field_kept mpd_types i s own f w /\ clean F mpd_types i (match own with Some u => Some u | None => d end) (label mpd_types f) (fd_type f) w) /\ go fs ws
     | _, _ => True
     end) fs ws <-> (forall k f w, nth_error fs k = Some f -> nth_error ws k = Some w -> clean_field F i d s own f w).
Proof.
  intros F i d s own fs ws. revert fs. induction ws as [|w ws IH]; intros [|f fs].
  - split; auto. intros _ [|k] f w A; discriminate.
  - split; auto. intros _ [|k] g w _ A; discriminate.
  - split; auto. intros _ [|k] f' w' A; discriminate.
  - rewrite IH. split.
    + intros [A B] [|k] g x E1 E2; [injection E1 as <-; injection E2 as <-; exact A|exact (B k g x E1 E2)].
    + intros H. split; [exact (H O f w eq_refl eq_refl)|]. intros k g x E1 E2. exact (H (S k) g x E1 E2).
Qed.
Lemma duration_zero : forall F, kept F TDuration (VInt 0).
Proof. intros F. apply keptb_ok. vm_compute. reflexivity. Qed.
Section Zero.
Variables (F : floats) (ZF : zero_floats F).
Lemma blank_clean : forall v i d l t, blank t v = true -> clean F mpd_types i d l t v.
Proof.
  fix IH 1. intros v i d l t B. destruct v as [x|b|z|f| |w|ws|ws|n|a]; try exact I.
  - cbn [blank] in B. apply beq_eq in B. subst x. cbn [clean]. apply textb_ok. reflexivity.
  - cbn [blank] in B. apply andb_true_iff in B. destruct B as [B B']. apply Z.eqb_eq in B. subst z. cbn [clean]. destruct t; try discriminate; auto. apply duration_zero.
  - cbn [blank] in B. destruct f as [[]| | |]; try discriminate. cbn [clean]. destruct ZF as [Z1 Z2]. destruct t; try discriminate; auto. apply Z2. apply orb_true_iff in B. cbn. destruct B as [B|B]; apply Z.eqb_eq in B; auto.
  - cbn [blank] in B. discriminate.
  - destruct ws; [|discriminate]. cbn [blank] in B. destruct t; try discriminate. exact I.
  - cbn [blank] in B. destruct t as [| | | | | | | | |s| |]; try discriminate. apply andb_true_iff in B. destruct B as [B1 B2]. apply andb_true_iff in B1. destruct B1 as [B0 B1]. apply negb_true_iff in B0. cbn [clean]. split; auto.
    destruct (own_name (fields_of mpd_types s) ws) as [n|] eqn:O; [discriminate|]. cbv zeta. split; [intros n E; discriminate|]. cbn [option_map]. clear O B1.
    revert B2. generalize (fields_of mpd_types s) as fs. revert ws. fix GO 1. intros [|w ws] [|f fs] B; auto. apply andb_true_iff in B. destruct B as [B1 B2]. split; [|apply GO; exact B2].
    apply orb_true_iff in B1. destruct B1 as [B1|B1]; auto. right. rewrite !andb_true_iff in B1. destruct B1 as [[[B1 B3] B4] B5]. split; [|apply IH; exact B5].
    split. { intros A ->. rewrite A in B1. discriminate. } split. { intros A. rewrite A in B3. apply absentb_ok. exact B3. }
    split. { intros _ A1 A2. rewrite A1, A2 in B4. apply absentb_ok. exact B4. } split. { intros ->. cbn [blank] in B5. discriminate. }
    intros ws' a -> I. destruct ws'; [destruct I|discriminate].
Qed.
Lemma blank_field_clean : forall i d s own f w, blank_field s f w = true -> clean_field F i d s own f w.
Proof.
  intros i d s own f w B1. unfold blank_field in B1. apply orb_true_iff in B1. destruct B1 as [B1|B1]; [left; auto|]. right. rewrite !andb_true_iff in B1. destruct B1 as [[[B1 B3] B4] B5]. split; [|apply blank_clean; exact B5].
  split. { intros A ->. rewrite A in B1. discriminate. } split. { intros A. rewrite A in B3. apply absentb_ok. exact B3. }
  split. { intros _ A1 A2. rewrite A1, A2 in B4. apply absentb_ok. exact B4. } split. { intros ->. cbn [blank] in B5. discriminate. }
  intros ws' a -> I. destruct ws'; [destruct I|discriminate].
Qed.
End Zero.
(** Every type of the package: the fields that a literal need not give are clean. *)
Fixpoint both {A B} (p : A -> B -> bool) (l : list A) (m : list B) : bool := match l, m with [], [] => true | x :: l, y :: m => p x y && both p l m | _, _ => false end.
Lemma both_nth : forall A B (p : A -> B -> bool) l m, both p l m = true -> forall k x y, nth_error l k = Some x -> nth_error m k = Some y -> p x y = true.
Proof.
  induction l as [|a l IH]; intros [|b m] H [|k] x y E1 E2; try discriminate; cbn [both] in H; apply andb_true_iff in H; destruct H as [H1 H2].
  - injection E1 as <-. injection E2 as <-. exact H1.
  - exact (IH m H2 k x y E1 E2).
Qed.
Definition given_by_literal (f : fdecl) : bool := names_itself f || pointer_embedded f.
Definition zero_ok (s : bytes) : bool :=
  match zero_value s with
  | VRec ws => has_raw mpd_types s || both (fun f w => given_by_literal f || blank_field s f w) (fields_of mpd_types s) ws && wt mpd_types (TStruct s) (VRec ws) &&
      (length (filter given_by_literal (fields_of mpd_types s)) <=? 1)%nat && match find names_itself (fields_of mpd_types s) with Some f => names_itself (hd f (fields_of mpd_types s)) && beq (fd_name (hd f (fields_of mpd_types s))) (str "XMLName") | None => true end
  | _ => false
  end.
Lemma zeros_ok : forallb zero_ok (map sd_name mpd_types) = true.
Proof. vm_compute. reflexivity. Qed.

(** *** Assignments *)
Definition put {A} (k : nat) (w : A) (l : list A) : list A := firstn k l ++ w :: skipn (S k) l.
Lemma put_nth : forall A (w : A) l k j, (k < length l)%nat -> nth_error (put k w l) j = if (j =? k)%nat then Some w else nth_error l j.
Proof.
  induction l as [|x l IH]; intros [|k] [|j] H; cbn [length] in H; try lia; try reflexivity. specialize (IH k j ltac:(lia)). exact IH.
Qed.
Lemma put_length : forall A (w : A) l k, (k < length l)%nat -> length (put k w l) = length l.
Proof. induction l as [|x l IH]; intros [|k] H; cbn [length] in H; try lia; [reflexivity|]. specialize (IH k ltac:(lia)). cbn. f_equal. exact IH. Qed.
Lemma index_found : forall n fs i f, find (fun f => beq (fd_name f) n) fs = Some f -> exists k, index_of i n fs = (i + k)%nat /\ nth_error fs k = Some f /\ (k < length fs)%nat.
Proof.
  induction fs as [|g fs IH]; intros i f H; [discriminate|]. cbn [find index_of] in *. destruct (beq (fd_name g) n).
  - injection H as <-. exists O. cbn. repeat split; auto; lia.
  - destruct (IH (S i) f H) as (k & A & B & C). exists (S k). cbn [nth_error length]. repeat split; auto; lia.
Qed.
Lemma with_field_put : forall s n f w ws, field_of s n = Some f -> exists k, with_field s n w (VRec ws) = VRec (put k w ws) /\ nth_error (fields_of mpd_types s) k = Some f /\ (k < length (fields_of mpd_types s))%nat.
Proof. intros s n f w ws H. destruct (index_found n _ O f H) as (k & A & B & C). exists k. cbn [with_field]. rewrite A. auto. Qed.
Definition wts : list fdecl -> list gval -> bool :=
  fix go (fs : list fdecl) (l : list gval) {struct l} : bool := match fs, l with [], [] => true | f :: fs, w :: l => wt mpd_types (fd_type f) w && go fs l | _, _ => false end.
Lemma wts_length : forall fs ws, wts fs ws = true -> length ws = length fs.
Proof. induction fs as [|f fs IH]; intros [|w ws] H; try discriminate; auto. cbn in H. apply andb_true_iff in H. cbn. f_equal. apply IH. apply H. Qed.
Lemma wts_put : forall fs ws k f w, wts fs ws = true -> nth_error fs k = Some f -> wt mpd_types (fd_type f) w = true -> wts fs (put k w ws) = true.
Proof.
  induction fs as [|g fs IH]; intros [|x ws] [|k] f w H N W; try discriminate; cbn [wts] in H; apply andb_true_iff in H; destruct H as [H1 H2].
  - injection N as <-. cbn. rewrite W. exact H2.
  - cbn. rewrite H1. exact (IH ws k f w H2 N W).
Qed.
Lemma own_put : forall fs ws k f w, length ws = length fs -> nth_error fs k = Some f -> names_itself f = false -> own_name fs (put k w ws) = own_name fs ws.
Proof.
  induction fs as [|g fs IH]; intros [|x ws] [|k] f w L N W; try discriminate; cbn [length] in L.
  - injection N as <-. cbn. rewrite W. reflexivity.
  - specialize (IH ws k f w ltac:(lia) N W). cbn. destruct (names_itself g); auto.
Qed.
Lemma no_own : forall fs ws, existsb names_itself fs = false -> own_name fs ws = None.
Proof. induction fs as [|f fs IH]; intros ws H; [reflexivity|]. cbn [existsb] in H. apply orb_false_iff in H. destruct ws; [reflexivity|]. cbn. rewrite (proj1 H). apply IH. apply H. Qed.
Lemma own_put_name : forall fs ws f w, length ws = length fs -> nth_error fs 0 = Some f -> names_itself f = true -> own_name fs (put 0 (VName w) ws) = Some w.
Proof. intros [|g fs] [|x ws] f w L N W; try discriminate. injection N as <-. cbn. rewrite W. reflexivity. Qed.

Lemma zero_fields : forall s, In s (map sd_name mpd_types) -> has_raw mpd_types s = false -> exists ws, zero_value s = VRec ws /\ wts (fields_of mpd_types s) ws = true /\
  (forall k f w, nth_error (fields_of mpd_types s) k = Some f -> nth_error ws k = Some w -> given_by_literal f = true \/ blank_field s f w = true) /\
  (length (filter given_by_literal (fields_of mpd_types s)) <= 1)%nat /\
  (forall f, find names_itself (fields_of mpd_types s) = Some f -> index_of 0 (str "XMLName") (fields_of mpd_types s) = O /\ names_itself (hd f (fields_of mpd_types s)) = true).
Proof.
  intros s IN RW. pose proof zeros_ok as Z. rewrite forallb_forall in Z. specialize (Z s IN). unfold zero_ok in Z. destruct (zero_value s) as [| | | | | | |ws| |]; try discriminate. rewrite RW in Z. cbn [orb] in Z. rewrite !andb_true_iff in Z. destruct Z as [[[Z1 Z2] Z3] Z4].
  exists ws. split; [reflexivity|]. split; [exact Z2|]. split. { intros k f w E1 E2. pose proof (both_nth _ _ _ _ _ Z1 k f w E1 E2) as B. cbv beta in B. apply orb_true_iff in B. exact B. }
  split; [apply Nat.leb_le; exact Z3|]. intros f E. rewrite E in Z4. apply andb_true_iff in Z4. destruct Z4 as [Z4 Z5]. destruct (fields_of mpd_types s) as [|g gs]; [discriminate|]. cbn [hd] in *. cbn [index_of]. split; [rewrite Z5; reflexivity|exact Z4].
Qed.
Lemma one_given : forall A (p : A -> bool) l k j x y, (length (filter p l) <= 1)%nat -> nth_error l k = Some x -> p x = true -> nth_error l j = Some y -> p y = true -> j = k.
Proof.
  induction l as [|a l IH]; intros [|k] [|j] x y L E1 P1 E2 P2; cbn [nth_error] in *; try discriminate; auto; cbn [filter] in L.
  - injection E1 as ->. rewrite P1 in L. cbn [length] in L. apply nth_error_In in E2. assert (I : In y (filter p l)) by (apply filter_In; auto). destruct (filter p l); [destruct I|cbn in L; lia].
  - injection E2 as ->. rewrite P2 in L. cbn [length] in L. apply nth_error_In in E1. assert (I : In x (filter p l)) by (apply filter_In; auto). destruct (filter p l); [destruct I|cbn in L; lia].
  - f_equal. apply (IH k j x y); auto. destruct (p a); cbn in L; lia.
Qed.
Theorem made_clean : forall F i d l s v, zero_floats F -> made F i d l s v ->
  exists ws, v = VRec ws /\ has_raw mpd_types s = false /\ wts (fields_of mpd_types s) ws = true /\ clean F mpd_types i d l (TStruct s) v.
Proof.
  intros F i d l s v ZF M. induction M as [IN RW HN EP|n f w IN RW FO PE WT FK CL|u IN RW HN OU D|v n f w M IH FO NI WT FK CL].
  - destruct (zero_fields s IN RW) as (ws & E & W & B & _ & _). exists ws. rewrite E. split; [reflexivity|]. split; auto. split; auto. cbn [clean]. split; auto. unfold holds_name in HN. rewrite (no_own _ ws HN). cbv zeta. split; [intros n X; discriminate|].
    apply clean_fields. intros k f w E1 E2. apply blank_field_clean; auto. destruct (B k f w E1 E2) as [G|G]; auto. exfalso. apply nth_error_In in E1. unfold given_by_literal in G. apply orb_true_iff in G. unfold embeds_pointer in EP. destruct G as [G|G].
    + assert (X : existsb names_itself (fields_of mpd_types s) = true) by (apply existsb_exists; eauto). congruence.
    + assert (X : existsb pointer_embedded (fields_of mpd_types s) = true) by (apply existsb_exists; eauto). congruence.
  - destruct (zero_fields s IN RW) as (ws & E & W & B & L1 & _). rewrite E. destruct (with_field_put s n f w ws FO) as (k & P & NK & LK). rewrite P. exists (put k w ws). split; auto. split; auto. split; [eapply wts_put; eauto|].
    pose proof (wts_length _ _ W) as LW. assert (GF : given_by_literal f = true) by (unfold given_by_literal; rewrite PE; apply orb_true_r).
    assert (HN : existsb names_itself (fields_of mpd_types s) = false).
    { destruct (existsb names_itself (fields_of mpd_types s)) eqn:X; auto. exfalso. apply existsb_exists in X. destruct X as (g & IG & NG). destruct (In_nth_error _ _ IG) as (j & J). assert (GG : given_by_literal g = true) by (unfold given_by_literal; rewrite NG; reflexivity).
      assert (j = k) by (eapply (one_given _ given_by_literal); eauto). subst j. rewrite NK in J. injection J as <-. unfold names_itself in NG. apply andb_true_iff in NG. destruct NG as [NG _]. apply beq_eq in NG.
      (* an embedded pointer is not called XMLName *) assert (Q : forallb (fun s => forallb (fun f => negb (pointer_embedded f) || negb (beq (fd_name f) xml_name)) (fields_of mpd_types s)) (map sd_name mpd_types) = true) by (vm_compute; reflexivity).
      rewrite forallb_forall in Q. specialize (Q s IN). rewrite forallb_forall in Q. specialize (Q f IG). rewrite PE, NG, beq_refl in Q. discriminate. }
    cbn [clean]. split; auto. rewrite (no_own _ _ HN). cbv zeta. split; [intros m X; discriminate|]. apply clean_fields. intros j g x E1 E2. rewrite put_nth in E2 by lia. destruct (Nat.eqb_spec j k) as [->|NE].
    + rewrite NK in E1. injection E1 as <-. injection E2 as <-. right. auto.
    + apply blank_field_clean; auto. destruct (B j g x E1 E2) as [G|G]; auto. exfalso. apply NE. eapply (one_given _ given_by_literal); eauto.
  - destruct (zero_fields s IN RW) as (ws & E & W & B & L1 & FX). rewrite E. pose proof (wts_length _ _ W) as LW. unfold holds_name in HN. apply existsb_exists in HN. destruct HN as (g & IG & NG).
    destruct (find names_itself (fields_of mpd_types s)) as [g'|] eqn:FD; [|exfalso; pose proof (find_none _ _ FD g IG); congruence]. destruct (FX g' eq_refl) as [IX HD]. cbn [with_field]. rewrite IX. change (firstn 0 ws ++ VName (mkname u l) :: skipn 1 ws) with (put 0 (VName (mkname u l)) ws).
    destruct (fields_of mpd_types s) as [|h hs] eqn:FS; [destruct IG|]. cbn [hd] in HD.
    assert (TH : fd_type h = TName).
    { assert (Q : forallb (fun s => forallb (fun f => negb (names_itself f) || match fd_type f with TName => true | _ => false end) (fields_of mpd_types s)) (map sd_name mpd_types) = true) by (vm_compute; reflexivity).
      rewrite forallb_forall in Q. specialize (Q s IN). rewrite FS in Q. cbn [forallb] in Q. apply andb_true_iff in Q. destruct Q as [Q _]. rewrite HD in Q. destruct (fd_type h); try discriminate. reflexivity. }
    exists (put 0 (VName (mkname u l)) ws). split; auto. split; auto. split; [apply (wts_put _ ws 0 h); auto; rewrite TH; reflexivity|].
    cbn [clean]. split; auto. rewrite FS. rewrite (own_put_name (h :: hs) ws h) by auto. cbn [option_map space]. split. { intros m X. injection X as <-. auto. }
    apply (proj2 (clean_fields F i None s (Some u) _ _)). intros j f x E1 E2. rewrite put_nth in E2 by (cbn [length] in LW; lia). destruct (Nat.eqb_spec j 0) as [->|NE].
    + injection E1 as <-. injection E2 as <-. right. split; [|exact I]. split; [discriminate|]. split. { intros X. exfalso. unfold misnamed in X. rewrite TH in X. discriminate. }
      split. { intros _ _ X. exfalso. unfold is_child in X. unfold names_itself in HD. apply andb_true_iff in HD. rewrite (proj1 HD) in X. rewrite andb_false_r in X. discriminate. } split; intros; discriminate.
    + apply blank_field_clean; auto. destruct (B j f x E1 E2) as [G|G]; auto. exfalso. apply NE. apply (one_given _ given_by_literal (h :: hs) 0 j h f); auto. unfold given_by_literal. rewrite HD. reflexivity.
  - destruct IH as (ws & -> & RW & W & C). destruct (with_field_put s n f w ws FO) as (k & P & NK & LK). rewrite P. exists (put k w ws). split; auto. split; auto. split; [eapply wts_put; eauto|]. pose proof (wts_length _ _ W) as LW.
    cbn [clean] in *. destruct C as (_ & OW & C). split; auto. rewrite (own_put _ ws k f w LW NK NI). split; auto. cbv zeta in *. pose proof (proj1 (clean_fields F i d s _ _ _) C) as CF. apply clean_fields. intros j g x E1 E2. rewrite put_nth in E2 by lia. destruct (Nat.eqb_spec j k) as [->|NE].
    + rewrite NK in E1. injection E1 as <-. injection E2 as <-. right. auto.
    + exact (CF j g x E1 E2).
Qed.
