(** Property C45: the namespaces of SCTE-35 elements, which hold their own names. *)
From Coq Require Import String.
From Coq Require Import ZArith List Bool Lia SpecFloat.
From Verif Require Import Base Utf8 Lexer Printer Writer PropertiesWriter EncoderSpec Decoder GoType Schema TypeInfo Simple ValueSpec Marshal Unmarshal Io PropertiesDocument
  NsSpec NsTags RoundTripSpec RoundTripCheck RoundTripParts RoundTripRoot RoundTripTest PropertiesRoundTrip.
Import ListNotations.
Open Scope Z_scope.

Section Held.
Variable env : tenv.
(** The names that elements of a value hold themselves, in document order. *)
Fixpoint held (t : gtype) (v : gval) {struct v} : list name :=
  match v with
  | VPtr w => match t with TPtr t => held t w | _ => [] end
  | VList l => match t with TSlice t => (fix go (l : list gval) : list name := match l with [] => [] | w :: l => held t w ++ go l end) l | _ => [] end
  | VRec l =>
      match t with
      | TStruct s =>
          match own_name (fields_of env s) l with Some n => [n] | None => [] end ++
          (fix go (fs : list fdecl) (l : list gval) {struct l} : list name := match fs, l with f :: fs, w :: l => (if skipped f then [] else held (fd_type f) w) ++ go fs l | _, _ => [] end) (fields_of env s) l
      | _ => []
      end
  | _ => []
  end.
Lemma held_attrs : forall l, held (TSlice TAttr) (VList l) = [].
Proof. induction l as [|w l IH]; [reflexivity|]. change (held TAttr w ++ held (TSlice TAttr) (VList l) = []). rewrite IH. destruct w; reflexivity. Qed.
Lemma names_not_skipped : forall f, names_itself f = true -> skipped f = false.
Proof.
  intros f H. unfold names_itself in H. apply andb_true_iff in H. destruct H as [A B]. apply beq_eq in A, B. unfold skipped. rewrite A, B. reflexivity.
Qed.
Lemma own_same : forall fs l l',
  (fix go (fs : list fdecl) (l l' : list gval) {struct l} : Prop :=
     match fs, l, l' with [], [], [] => True | f :: fs, w :: l, w' :: l' => (skipped f = true \/ same env (fd_type f) w w') /\ go fs l l' | _, _, _ => False end) fs l l' -> own_name fs l' = own_name fs l.
Proof.
  intros fs l. revert fs. induction l as [|w l IH]; intros [|f fs] [|w' l'] S; try contradiction; [reflexivity|]. destruct S as [S1 S2]. cbn [own_name]. destruct (names_itself f) eqn:N; [|apply IH; exact S2].
  apply names_not_skipped in N. destruct S1 as [S1|S1]; [congruence|]. destruct w; cbn [same] in S1; try (subst w'; reflexivity).
  - destruct (fd_type f); try contradiction. destruct w'; try contradiction. reflexivity.
  - destruct (fd_type f) as [| | | | | | | |t| | |]; try contradiction. destruct w'; try reflexivity; destruct t; contradiction.
  - destruct (fd_type f); try contradiction. destruct w'; try contradiction. reflexivity.
Qed.
(** Values with the same content hold the same names. *)
Lemma same_held : forall v t v', same env t v v' -> held t v' = held t v.
Proof.
  fix IH 1. intros v t v' S. destruct v as [x|b|z|f| |w|l|l|n|a]; try (cbn [same] in S; subst v'; reflexivity).
  - cbn [same] in S. destruct t; try contradiction. destruct v'; try contradiction. cbn [held]. apply IH. exact S.
  - cbn [same] in S. destruct t as [| | | | | | | |t| | |]; try contradiction. destruct v' as [| | | | | |l'| | |]; try (destruct t; contradiction).
    assert (A : t = TAttr \/ t <> TAttr) by (destruct t; auto; right; discriminate). destruct A as [->|A]; [rewrite !held_attrs; reflexivity|].
    assert (S' : (fix go (l l' : list gval) {struct l} : Prop := match l, l' with [], [] => True | w :: l, w' :: l' => same env t w w' /\ go l l' | _, _ => False end) l l') by (destruct t; try exact S; congruence). clear S. cbn [held].
    revert l' S'. induction l as [|w l IHl]; intros [|w' l'] S'; try contradiction; [reflexivity|]. destruct S' as [S1 S2]. rewrite (IH w t w' S1), (IHl l' S2). reflexivity.
  - cbn [same] in S. destruct t as [| | | | | | | | |s| |]; try contradiction. destruct v' as [| | | | | | |l'| |]; try contradiction. cbn [held]. rewrite (own_same _ _ _ S). f_equal.
    revert l' S. generalize (fields_of env s). induction l as [|w l IHl]; intros [|f fs] [|w' l'] S; try contradiction; [reflexivity|]. destruct S as [S1 S2]. rewrite (IHl fs l' S2). f_equal. destruct (skipped f); [reflexivity|]. destruct S1 as [S1|S1]; [discriminate|]. apply IH. exact S1.
Qed.
(** Inside an element that holds its name, clean values stay in the namespace of that. *)
Lemma clean_held : forall F i v t u l, clean F env i (Some u) l t v -> Forall (fun n => space n = u) (held t v).
Proof.
  intros F i. fix IH 1. intros v t u l C. destruct v as [x|b|z|f| |w|ws|ws|n|a]; try constructor.
  - cbn [clean held] in *. destruct C as [_ C]. destruct t; try contradiction. eapply IH; exact C.
  - cbn [clean held] in *. destruct t as [| | | | | | | |t| | |]; try contradiction. induction ws as [|w ws IHw]; [constructor|]. destruct C as [[_ C1] C2]. apply Forall_app. split; [eapply IH; exact C1|exact (IHw C2)].
  - cbn [clean held] in *. destruct t as [| | | | | | | | |s| |]; try contradiction. destruct C as (_ & OW & C). cbv zeta in C. apply Forall_app. split.
    + destruct (own_name (fields_of env s) ws) as [n|] eqn:O; [|constructor]. destruct (OW n eq_refl) as (_ & _ & [D|D]); [discriminate|]. injection D as D. constructor; [auto|constructor].
    + assert (E : match option_map space (own_name (fields_of env s) ws) with Some u' => Some u' | None => Some u end = Some u). { destruct (own_name (fields_of env s) ws) as [n|] eqn:O; [|reflexivity]. destruct (OW n eq_refl) as (_ & _ & [D|D]); [discriminate|]. injection D as D. cbn [option_map]. congruence. }
      rewrite E in C. clear E OW. revert C. generalize (option_map space (own_name (fields_of env s) ws)) as o. intros o. generalize (fields_of env s) as fs. induction ws as [|w ws IHw]; intros fs C; destruct fs as [|f fs]; try constructor. destruct C as [C1 C2]. apply Forall_app. split; [|exact (IHw fs C2)].
      destruct (skipped f); [constructor|]. destruct C1 as [C1|[_ C1]]; [discriminate|]. eapply IH; exact C1.
Qed.
End Held.

(** C45. An element that holds its name (Signal, SpliceInfoSection and all below), in any namespace [u], is written so that every
    element of it that holds its name is read back with the same name, and all of them in [u]. *)
Theorem C45_replay : forall F s l u v indent header, In s (map sd_name mpd_types) -> white indent ->
  wt mpd_types (TStruct s) v = true -> clean F mpd_types (indented indent) None l (TStruct s) v -> own_of mpd_types s v = Some (mkname u l) -> simple l -> l <> str "xmlns" ->
  let doc := document (program F s v) indent header in
  result (program F s v) indent = Ok tt /\
  exists v', decode F mpd_types embed_depth (enough doc) (TStruct s) (zero_value s) doc = Ok v' /\ same mpd_types (TStruct s) v v' /\
    held mpd_types (TStruct s) v' = held mpd_types (TStruct s) v /\ Forall (fun n => space n = u) (held mpd_types (TStruct s) v').
Proof.
  intros F s l u v indent header IN WH WV CV OW S1 S2 doc. destruct (C42_round_trip F s l v indent header IN WH WV CV ltac:(auto)) as (R & v' & RD & SM). split; auto. exists v'. split; auto. split; auto.
  rewrite (same_held mpd_types v _ v' SM). split; auto. destruct v as [| | | | | | |ws| |]; try discriminate. cbn [own_of] in OW. cbn [clean held] in *. destruct CV as (_ & _ & C). rewrite OW in *. cbn [option_map space] in C. apply Forall_app. split; [repeat constructor|].
  clear - C. revert C. generalize (Some u) at 1 as o. intros o. generalize (fields_of mpd_types s) as fs. induction ws as [|w ws IHw]; intros fs C; destruct fs as [|f fs]; try constructor. destruct C as [C1 C2]. apply Forall_app. split; [|exact (IHw fs C2)].
  destruct (skipped f); [constructor|]. destruct C1 as [C1|[_ C1]]; [discriminate|]. eapply clean_held; exact C1.
Qed.
Print Assumptions C45_replay.
(** C45 for signals in MPDs: each is read back with its names. *)
Theorem C45_mpd : forall F v indent header, white indent -> wt mpd_types (TStruct MPD) v = true -> clean F mpd_types (indented indent) None [] (TStruct MPD) v ->
  let doc := document (program F MPD v) indent header in
  result (program F MPD v) indent = Ok tt /\ exists v', read_mpd F doc = Ok v' /\ same mpd_types (TStruct MPD) v v' /\ held mpd_types (TStruct MPD) v' = held mpd_types (TStruct MPD) v.
Proof. intros F v indent header WH WV CV doc. destruct (C42_mpd F v indent header WH WV CV) as (R & v' & RD & SM). split; auto. exists v'. auto using same_held. Qed.
Print Assumptions C45_mpd.
(** A signal in a namespace of its own, and two signals in different namespaces side by side. *)
Definition signal (u : string) : gval :=
  make "SignalType" [("XMLName", VName (mkname (str u) (str "Signal")));
    ("SpliceInfoSection", VPtr (make "SpliceInfoSectionType" [("XMLName", VName (mkname (str u) (str "SpliceInfoSection"))); ("SpliceNull", VPtr (make "SpliceNullType" [("XMLName", VName (mkname (str u) (str "SpliceNull")))]))]))]%string.
Definition two_signals : gval :=
  make "MPD" [("XMLNs", VStr (str "urn:mpeg:dash:schema:mpd:2011")); ("Profiles", VStr (str "p")); ("Periods", VList [VPtr (make "Period" [("EventStreams", VList [VPtr (make "EventStreamType" [("SchemeIdUri", VStr (str "u"));
    ("Events", VList [VPtr (make "EventType" [("Signal", VPtr (signal "u:1"))]); VPtr (make "EventType" [("Signal", VPtr (signal "u:2"))])])])])])])]%string.
Example C45_replay_example : clean fl1 mpd_types true None (str "Signal") (TStruct (str "SignalType")) (signal "u:1") /\
  held mpd_types (TStruct (str "SignalType")) (signal "u:1") = [mkname (str "u:1") (str "Signal"); mkname (str "u:1") (str "SpliceInfoSection"); mkname (str "u:1") (str "SpliceNull")] /\
  document (program fl1 (str "SignalType") (signal "u:1")) [] false = str "<Signal xmlns=""u:1""><SpliceInfoSection><SpliceNull></SpliceNull></SpliceInfoSection></Signal>".
Proof. split; [apply cleanb_ok; vm_compute; reflexivity|]. split; vm_compute; reflexivity. Qed.
Example C45_mpd_example : wt mpd_types (TStruct MPD) two_signals = true /\ clean fl1 mpd_types false None [] (TStruct MPD) two_signals /\
  map space (held mpd_types (TStruct MPD) two_signals) = [str "u:1"; str "u:1"; str "u:1"; str "u:2"; str "u:2"; str "u:2"].
Proof. split; [vm_compute; reflexivity|]. split; [apply cleanb_ok; vm_compute; reflexivity|vm_compute; reflexivity]. Qed.
