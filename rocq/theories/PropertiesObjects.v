(** Property C79: what is read is a linked tree of objects, whose times and addresses are those of the document. *)
From Coq Require Import String.
From Coq Require Import ZArith List Bool Lia SpecFloat.
From Coq Require Import ZifyBool ZifyNat.
From Verif Require Import Base Utf8 Lexer EscapeSpec Decoder DecoderProofs DecoderSpec Printer GoType Schema TypeInfo Simple ValueSpec Marshal Unmarshal Io PropertiesDocument PropertiesUnmarshal PropertiesMarshal PropertiesWriter Writer EncoderSpec NsHistory NsSpec RoundTripSpec RoundTripTest PropertiesRoundTrip ReadText PropertiesReadText.
From Verif Require Import Heap HeapSpec HeapProofs PropertiesHeap Objects ObjectsProofs.
Import ListNotations.
Local Open Scope nat_scope.

(** *** What the document says *)
(** The structs in a field that is a list of pointers. *)
Definition items (s n : bytes) (v : gval) : list gval :=
  match field s n v with VList l => flat_map (fun w => match w with VPtr r => [r] | _ => [] end) l | _ => [] end.
Definition periods_of (v : gval) : list gval := items (str "MPD") (str "Periods") v.
(** Start and duration of each period, the type of the MPD. *)
Definition times (v : gval) : list (option Z * option Z) := map (fun p => (dur (field (str "Period") (str "Start") p), dur (field (str "Period") (str "Duration") p))) (periods_of v).
Definition type_of (v : gval) : bytes := match field (str "MPD") (str "Type") v with VPtr (VStr s) => s | _ => str "static" end.
(** The template of a representation or, if it has none, of its adaptation set. *)
Definition template_of (a r : gval) : option gval :=
  match field (str "RepresentationType") (str "SegmentTemplate") r, field (str "AdaptationSetType") (str "SegmentTemplate") a with
  | VPtr t, _ => Some t
  | _, VPtr t => Some t
  | _, _ => None
  end.

(** *** Fields *)
Definition good (t : gtype) (v : gval) : Prop := wt mpd_types t v = true /\ legible mpd_types t v.
Definition decl_of (s n : bytes) : option gtype :=
  match find (fun f => beq (fd_name f) n) (fields_of mpd_types s) with Some f => if unchecked f || skipped f then None else Some (fd_type f) | None => None end.
Lemma field_good : forall s n t v, decl_of s n = Some t -> good (TStruct s) v -> good t (field s n v).
Proof.
  intros s n t v D [W L]. unfold decl_of in D. destruct v as [| | | | | | |ws| |]; try discriminate W. cbn [wt] in W. cbn [legible] in L. cbn [field].
  destruct (find _ (fields_of mpd_types s)) as [f0|] eqn:FD; [|discriminate D]. destruct (unchecked f0 || skipped f0) eqn:U; [discriminate D|]. injection D as <-. apply orb_false_iff in U. destruct U as [U _].
  revert ws W L FD. generalize (fields_of mpd_types s). induction l as [|f fs IH]; intros [|w ws] W L FD; try discriminate. cbn [find pick] in *. apply andb_true_iff in W. destruct W as [W1 W2]. destruct L as [L1 L2]. destruct (beq (fd_name f) n).
  - injection FD as ->. split; [exact W1|]. destruct L1 as [L1|L1]; [congruence|exact L1].
  - apply IH; auto.
Qed.
Lemma field_same : forall s n t v v', decl_of s n = Some t -> same mpd_types (TStruct s) v v' -> same mpd_types t (field s n v) (field s n v').
Proof.
  intros s n t v v' D S. unfold decl_of in D. destruct v as [| | | | | | |ws| |]; try contradiction S; try (cbn in S; subst v'; reflexivity). cbn [same] in S. destruct v' as [| | | | | | |ws'| |]; try contradiction S. cbn [field].
  destruct (find _ (fields_of mpd_types s)) as [f0|] eqn:FD; [|discriminate D]. destruct (unchecked f0 || skipped f0) eqn:U; [discriminate D|]. injection D as <-. apply orb_false_iff in U. destruct U as [_ U].
  revert ws ws' S FD. generalize (fields_of mpd_types s). induction l as [|f fs IH]; intros [|w ws] [|w' ws'] S FD; try contradiction S; try discriminate. cbn [find pick] in *. destruct S as [S1 S2]. destruct (beq (fd_name f) n).
  - injection FD as ->. destruct S1 as [S1|S1]; [congruence|exact S1].
  - apply IH; auto.
Qed.
Lemma same_scalar : forall t v v', match t with TString | TUint _ | TDuration => True | _ => False end -> same mpd_types t v v' -> v' = v.
Proof. intros t v v' T S. destruct v; destruct t; try contradiction; exact S. Qed.
Lemma same_pointer : forall t v v', match t with TString | TUint _ | TDuration => True | _ => False end -> same mpd_types (TPtr t) v v' -> v' = v.
Proof. intros t v v' T S. destruct v; try contradiction; try exact S. destruct v'; try contradiction S. cbn [same] in S. f_equal. exact (same_scalar _ _ _ T S). Qed.
Lemma one_same : forall f of s v v', (forall r r', same mpd_types (TStruct s) r r' -> of r' = of r) -> same mpd_types (TPtr (TStruct s)) v v' -> to_one f of v' = to_one f of v.
Proof. intros f of s v v' H S. destruct v; try contradiction S; try (cbn in S; subst v'; reflexivity). destruct v'; try contradiction S. cbn [same to_one] in *. now rewrite (H _ _ S). Qed.
Lemma list_same : forall f of s v v', (forall r r', same mpd_types (TStruct s) r r' -> of r' = of r) -> same mpd_types (TSlice (TPtr (TStruct s))) v v' -> to_list f of v' = to_list f of v.
Proof.
  intros f of s v v' H S. destruct v; try contradiction S; try (cbn in S; subst v'; reflexivity). destruct v' as [| | | | | |l'| | |]; try contradiction S. cbn [same to_list] in *. revert l' S. induction l as [|w l IH]; intros [|w' l'] S; try contradiction S; [reflexivity|]. destruct S as [S1 S2]. cbn [map]. f_equal; [|apply IH; exact S2].
  destruct w; try contradiction S1; try (cbn in S1; subst w'; reflexivity). destruct w'; try contradiction S1. cbn [same] in S1. now rewrite (H _ _ S1).
Qed.
Local Opaque field.
Ltac decl := vm_compute; reflexivity.
Lemma base_same : forall s n t v v', decl_of s (str "RepresentationBaseType") = Some (TStruct (str "RepresentationBaseType")) -> decl_of (str "RepresentationBaseType") n = Some t ->
  same mpd_types (TStruct s) v v' -> same mpd_types t (base_field s n v) (base_field s n v').
Proof. intros s n t v v' D1 D2 S. unfold base_field. apply (field_same _ _ _ _ _ D2). exact (field_same _ _ _ _ _ D1 S). Qed.
Lemma template_same : forall v v', same mpd_types (TStruct (str "SegmentTemplateType")) v v' -> template_tree v' = template_tree v.
Proof.
  intros v v' S. unfold template_tree. rewrite (same_scalar TString _ _ I (field_same (str "SegmentTemplateType") (str "Initialization") TString _ _ ltac:(decl) S)), (same_scalar TString _ _ I (field_same (str "SegmentTemplateType") (str "Media") TString _ _ ltac:(decl) S)). reflexivity.
Qed.
Lemma rep_same : forall v v', same mpd_types (TStruct (str "RepresentationType")) v v' -> rep_tree v' = rep_tree v.
Proof.
  intros v v' S. unfold rep_tree. cbv zeta.
  rewrite (same_scalar TString _ _ I (field_same (str "RepresentationType") (str "Id") TString _ _ ltac:(decl) S)), (same_scalar (TUint 32) _ _ I (field_same (str "RepresentationType") (str "Bandwidth") (TUint 32) _ _ ltac:(decl) S)),
    (same_scalar TString _ _ I (base_same (str "RepresentationType") (str "MimeType") TString _ _ ltac:(decl) ltac:(decl) S)), (same_scalar TString _ _ I (base_same (str "RepresentationType") (str "Codecs") TString _ _ ltac:(decl) ltac:(decl) S)).
  rewrite (list_same FProt prot_tree (str "ContentProtectionType") _ _ (fun _ _ _ => eq_refl) (base_same (str "RepresentationType") (str "ContentProtections") _ _ _ ltac:(decl) ltac:(decl) S)).
  rewrite (list_same FSubs sub_tree (str "SubRepresentationType") _ _ (fun _ _ _ => eq_refl) (field_same (str "RepresentationType") (str "SubRepresentations") _ _ _ ltac:(decl) S)).
  rewrite (one_same FTemplate template_tree (str "SegmentTemplateType") _ _ template_same (field_same (str "RepresentationType") (str "SegmentTemplate") _ _ _ ltac:(decl) S)). reflexivity.
Qed.
Lemma set_same : forall v v', same mpd_types (TStruct (str "AdaptationSetType")) v v' -> set_tree v' = set_tree v.
Proof.
  intros v v' S. unfold set_tree. cbv zeta.
  rewrite (same_scalar TString _ _ I (base_same (str "AdaptationSetType") (str "MimeType") TString _ _ ltac:(decl) ltac:(decl) S)), (same_scalar TString _ _ I (base_same (str "AdaptationSetType") (str "Codecs") TString _ _ ltac:(decl) ltac:(decl) S)).
  rewrite (list_same FProt prot_tree (str "ContentProtectionType") _ _ (fun _ _ _ => eq_refl) (base_same (str "AdaptationSetType") (str "ContentProtections") _ _ _ ltac:(decl) ltac:(decl) S)).
  rewrite (one_same FTemplate template_tree (str "SegmentTemplateType") _ _ template_same (field_same (str "AdaptationSetType") (str "SegmentTemplate") _ _ _ ltac:(decl) S)).
  rewrite (list_same FReps rep_tree (str "RepresentationType") _ _ rep_same (field_same (str "AdaptationSetType") (str "Representations") _ _ _ ltac:(decl) S)). reflexivity.
Qed.
Lemma period_same : forall v v', same mpd_types (TStruct (str "Period")) v v' -> period_tree v' = period_tree v.
Proof.
  intros v v' S. unfold period_tree. cbv zeta.
  rewrite (same_scalar TString _ _ I (field_same (str "Period") (str "Id") TString _ _ ltac:(decl) S)), (same_pointer TDuration _ _ I (field_same (str "Period") (str "Start") (TPtr TDuration) _ _ ltac:(decl) S)), (same_pointer TDuration _ _ I (field_same (str "Period") (str "Duration") (TPtr TDuration) _ _ ltac:(decl) S)).
  rewrite (one_same FTemplate template_tree (str "SegmentTemplateType") _ _ template_same (field_same (str "Period") (str "SegmentTemplate") _ _ _ ltac:(decl) S)).
  rewrite (list_same FSets set_tree (str "AdaptationSetType") _ _ set_same (field_same (str "Period") (str "AdaptationSets") _ _ _ ltac:(decl) S)), (list_same FEmpty set_tree (str "AdaptationSetType") _ _ set_same (field_same (str "Period") (str "EmptyAdaptationSets") _ _ _ ltac:(decl) S)). reflexivity.
Qed.
Lemma mpd_same : forall v v', same mpd_types (TStruct MPD) v v' -> mpd_tree v' = mpd_tree v.
Proof.
  intros v v' S. unfold mpd_tree. cbv zeta.
  rewrite (same_scalar TString _ _ I (field_same (str "MPD") (str "AvailabilityStartTime") TString _ _ ltac:(decl) S)), (same_scalar TString _ _ I (field_same (str "MPD") (str "Id") TString _ _ ltac:(decl) S)).
  rewrite (same_pointer TString _ _ I (field_same (str "MPD") (str "Type") (TPtr TString) _ _ ltac:(decl) S)), (same_pointer TDuration _ _ I (field_same (str "MPD") (str "MediaPresentationDuration") (TPtr TDuration) _ _ ltac:(decl) S)), (same_pointer TDuration _ _ I (field_same (str "MPD") (str "MinimumUpdatePeriod") (TPtr TDuration) _ _ ltac:(decl) S)).
  rewrite (list_same FPeriods period_tree (str "Period") _ _ period_same (field_same (str "MPD") (str "Periods") _ _ _ ltac:(decl) S)). reflexivity.
Qed.

(** *** The tree is sound *)
Lemma sound_app : forall a b, sound_list a -> sound_list b -> sound_list (a ++ b).
Proof. induction a as [|[f [t|]] a IH]; intros b A B; cbn in *; try tauto. destruct A as (A1 & A2 & A3). auto. Qed.
Lemma dur_sound : forall f v, field_kind f KDur -> sound_list (to_dur f v).
Proof. intros f v K. destruct v as [| | | | |[]| | | |]; cbn; auto. Qed.
Lemma string_sound : forall f v, field_kind f KStr -> sound_list (to_string f v).
Proof. intros f v K. destruct v as [| | | | |[]| | | |]; cbn; auto. Qed.
Lemma one_sound : forall f of s v, (forall r, good (TStruct s) r -> field_kind f (kind_of (of r)) /\ sound (of r)) -> good (TPtr (TStruct s)) v -> sound_list (to_one f of v).
Proof. intros f of s v H [W L]. destruct v; cbn [to_one sound_list]; auto. cbn in W, L. destruct (H v (conj W (proj2 L))). auto. Qed.
Lemma list_sound : forall f of s v, (forall r, good (TStruct s) r -> field_kind f (kind_of (of r)) /\ sound (of r)) -> good (TSlice (TPtr (TStruct s))) v -> sound_list (to_list f of v).
Proof.
  intros f of s v H [W L]. destruct v as [| | | | | |l| | |]; cbn [to_list sound_list]; auto. cbn [wt] in W. cbn [legible] in L. induction l as [|w l IH]; [exact I|]. cbn [forallb] in W. apply andb_true_iff in W. destruct W as [W1 W2]. destruct L as [[L0 L1] L2]. cbn [map].
  destruct w as [| | | | |r| | | |]; try discriminate W1; [congruence|]. cbn [sound_list]. cbn in W1, L1. destruct (H r (conj W1 (proj2 L1))). auto.
Qed.
Lemma base_good : forall s n t v, decl_of s (str "RepresentationBaseType") = Some (TStruct (str "RepresentationBaseType")) -> decl_of (str "RepresentationBaseType") n = Some t ->
  good (TStruct s) v -> good t (base_field s n v).
Proof. intros s n t v D1 D2 G. unfold base_field. apply (field_good _ _ _ _ D2). exact (field_good _ _ _ _ D1 G). Qed.
Lemma rep_sound : forall v, good (TStruct (str "RepresentationType")) v -> field_kind FReps (kind_of (rep_tree v)) /\ sound (rep_tree v).
Proof.
  intros v G. split; [reflexivity|]. unfold rep_tree. cbv zeta. rewrite sound_eq. repeat apply sound_app.
  - apply (list_sound _ _ (str "ContentProtectionType")); [intros r _; split; [reflexivity|exact I]|]. refine (base_good _ _ _ _ _ _ G); decl.
  - apply (list_sound _ _ (str "SubRepresentationType")); [intros r _; split; [reflexivity|exact I]|]. refine (field_good _ _ _ _ _ G); decl.
  - apply (one_sound _ _ (str "SegmentTemplateType")); [intros r _; split; [reflexivity|exact I]|]. refine (field_good _ _ _ _ _ G); decl.
Qed.
Lemma set_sound : forall v, good (TStruct (str "AdaptationSetType")) v -> field_kind FSets (kind_of (set_tree v)) /\ sound (set_tree v).
Proof.
  intros v G. split; [reflexivity|]. unfold set_tree. cbv zeta. rewrite sound_eq. repeat apply sound_app.
  - apply (list_sound _ _ (str "ContentProtectionType")); [intros r _; split; [reflexivity|exact I]|]. refine (base_good _ _ _ _ _ _ G); decl.
  - apply (one_sound _ _ (str "SegmentTemplateType")); [intros r _; split; [reflexivity|exact I]|]. refine (field_good _ _ _ _ _ G); decl.
  - apply (list_sound _ _ (str "RepresentationType")); [exact rep_sound|]. refine (field_good _ _ _ _ _ G); decl.
Qed.
Lemma period_sound : forall v, good (TStruct (str "Period")) v -> field_kind FPeriods (kind_of (period_tree v)) /\ sound (period_tree v).
Proof.
  intros v G. split; [reflexivity|]. unfold period_tree. cbv zeta. rewrite sound_eq. apply sound_app; [apply dur_sound; exact I|]. apply sound_app; [apply dur_sound; exact I|]. repeat apply sound_app.
  - apply (one_sound _ _ (str "SegmentTemplateType")); [intros r _; split; [reflexivity|exact I]|]. refine (field_good _ _ _ _ _ G); decl.
  - apply (list_sound _ _ (str "AdaptationSetType")); [exact set_sound|]. refine (field_good _ _ _ _ _ G); decl.
  - apply (list_sound _ _ (str "AdaptationSetType")); [exact set_sound|]. refine (field_good _ _ _ _ _ G); decl.
Qed.
Lemma mpd_sound : forall v, good (TStruct MPD) v -> sound (mpd_tree v).
Proof.
  intros v G. unfold mpd_tree. cbv zeta. rewrite sound_eq. apply sound_app; [apply string_sound; exact I|]. apply sound_app; [apply dur_sound; exact I|]. apply sound_app; [apply dur_sound; exact I|].
  apply (list_sound _ _ (str "Period")); [exact period_sound|]. refine (field_good _ _ _ _ _ G); decl.
Qed.

(** *** Loading *)
Lemma empty_fresh : fresh empty_heap.
Proof. intros x n M. discriminate M. Qed.
Lemma lists_leads : forall h x c, lists h x c -> leads h x c.
Proof. intros h x c (n & f & M & _ & I). exists n, f. auto. Qed.
Lemma load_ok : forall v, good (TStruct MPD) v -> exists h m, load v = Ok (h, m) /\ held h (mpd_tree v) m /\ linked_below h m /\ go_heap h /\ no_nil h /\ listed_once h /\
  forall x n f, mem h x = Some n -> NoDup (somes (refs n f)).
Proof.
  intros v G. unfold load. pose proof (build_ok (mpd_tree v) empty_heap (mpd_sound v G) empty_fresh) as B. destruct (build (mpd_tree v) empty_heap) as [h m]. destruct B as (_ & _ & _ & F & R & H). cbn [next empty_heap] in R.
  destruct (held_kind _ _ _ H) as (n & M & K). cbn in K.
  assert (GH : go_heap h).
  { constructor.
    - exact F.
    - intros l x f c ML I. destruct (rg_node _ _ _ _ R l (conj (Nat.le_0_l l) (F l x ML))) as (n' & M' & _ & _ & C). rewrite ML in M'. injection M' as <-. apply (C f c I).
    - intros l x c ML P. destruct (rg_node _ _ _ _ R l (conj (Nat.le_0_l l) (F l x ML))) as (n' & M' & P' & _). rewrite ML in M'. injection M' as <-. congruence. }
  assert (ND : forall x y f, mem h x = Some y -> NoDup (somes (refs y f)) /\ ~ In None (refs y f)).
  { intros l x f ML. destruct (rg_node _ _ _ _ R l (conj (Nat.le_0_l l) (F l x ML))) as (n' & M' & _ & D & _). rewrite ML in M'. injection M' as <-. apply D. }
  assert (NN : no_nil h) by (intros l x f ML _; apply (ND l x f ML)).
  assert (LO : listed_once h).
  { intros x y c LX LY. assert (EX : forall z, lists h z c -> 0 <= z < next h) by (intros z (zn & f & MZ & _); split; [lia|exact (F z zn MZ)]). apply (rg_once _ _ _ _ R x y c); auto using lists_leads. }
  destruct (C14_set_parents h m n GH NN M K (fun x y c _ _ => LO x y c)) as (h' & E & CE & LB & P1 & P2). rewrite E. cbn [bind]. exists h', m. split; [reflexivity|]. destruct CE as [EN CE].
  assert (KP : keeps h h'). { intros x y MX. specialize (CE x). rewrite MX in CE. destruct (mem h' x) as [y'|]; [|contradiction]. exists y'. auto. }
  assert (BK : forall x y', mem h' x = Some y' -> exists y, mem h x = Some y /\ nkind y' = nkind y /\ refs y' = refs y). { intros x y' MX. specialize (CE x). rewrite MX in CE. destruct (mem h x) as [y|]; [|contradiction]. exists y. tauto. }
  assert (LI : forall x c, lists h' x c -> lists h x c). { intros x c (y' & f & MX & CF & I). destruct (BK _ _ MX) as (y & MY & E1 & E2). exists y, f. rewrite <- E1, <- E2. auto. }
  split; [exact (held_keeps _ _ KP _ _ H)|]. split; [exact LB|]. split; [|split; [|split]].
  - constructor.
    + intros x y' MX. destruct (BK _ _ MX) as (y & MY & _). rewrite EN. exact (F x y MY).
    + intros x y' f c MX I. destruct (BK _ _ MX) as (y & MY & E1 & E2). rewrite E2 in I. destruct (gh_refs h GH x y f c MY I) as (cn & MC & FK). destruct (KP _ _ MC) as (cn' & MC' & EK & _). exists cn'. rewrite EK. auto.
    + intros x y' c MX P. destruct (BK _ _ MX) as (y & MY & E1 & E2). assert (PX : par h' x = Some c) by (unfold par; now rewrite MX). destruct (P2 x) as [P2x|(z & BZ & LZ & PZ)].
      * rewrite P2x in PX. unfold par in PX. rewrite MY in PX. destruct (gh_parent h GH x y c MY PX) as (cn & MC & PK). destruct (KP _ _ MC) as (cn' & MC' & EK & _). exists cn'. rewrite EK, E1. auto.
      * rewrite PZ in PX. injection PX as ->. destruct LZ as (zn & f & MZ & CF & IZ). destruct (KP _ _ MZ) as (zn' & MZ' & EK & _). exists zn'. split; [exact MZ'|]. rewrite EK, E1. destruct (gh_refs h GH c zn f x MZ IZ) as (xn & MX2 & FK). rewrite MY in MX2. injection MX2 as <-. destruct (nkind zn); destruct f; try contradiction CF; cbn in FK; rewrite FK; reflexivity.
  - intros x y' f MX CF. destruct (BK _ _ MX) as (y & MY & E1 & E2). rewrite E1 in CF. rewrite E2. exact (NN x y f MY CF).
  - intros x y c LX LY. apply (LO x y c); apply LI; assumption.
  - intros x y' f MX. destruct (BK _ _ MX) as (y & MY & E1 & E2). rewrite E2. apply (ND x y f MY).
Qed.
Lemma read_good : forall F inp v, read_mpd F inp = Ok v -> good (TStruct MPD) v.
Proof. intros F inp v R. split; [|exact (C77_mpd F inp v R)]. pose proof (C59_mpd F inp) as WT. rewrite R in WT. apply WT. Qed.

(** C79. SetParents never crashes on what was read; everything it leads to is there, is listed once and knows the object that lists it. *)
Theorem C79_linked : forall F inp v, read_mpd F inp = Ok v ->
  exists h m, load v = Ok (h, m) /\ held h (mpd_tree v) m /\ linked_below h m /\ go_heap h /\ no_nil h /\ listed_once h.
Proof. intros F inp v R. destruct (load_ok v (read_good _ _ _ R)) as (h & m & A & B & C & D & E & G & _). exists h, m. auto 10. Qed.
Print Assumptions C79_linked.
(** C79. Reading what was written gives the same objects, so that whatever is computed from them is the same. *)
Theorem C79_same : forall v v', same mpd_types (TStruct MPD) v v' -> load v' = load v.
Proof. intros v v' S. unfold load. now rewrite (mpd_same v v' S). Qed.
Print Assumptions C79_same.
Theorem C79_cycle : forall F inp v indent header, white indent -> read_mpd F inp = Ok v -> tidy F mpd_types (indented indent) None [] (TStruct MPD) v ->
  exists v', read_mpd F (document (program F MPD v) indent header) = Ok v' /\ load v' = load v.
Proof. intros F inp v indent header W R T. destruct (C42_read F inp v indent header W R T) as [_ (v' & R' & S)]. exists v'. split; [exact R'|exact (C79_same _ _ S)]. Qed.
Print Assumptions C79_cycle.

(** *** Times *)
Lemma list_entries : forall h f of s v ps, good (TSlice (TPtr (TStruct s))) v -> Forall2 (held_opt h) (map snd (to_list f of v)) ps ->
  exists ls, ps = map Some ls /\ Forall2 (fun r l => held h (of r) l) (match v with VList l => flat_map (fun w => match w with VPtr r => [r] | _ => [] end) l | _ => [] end) ls.
Proof.
  intros h f of s v ps [W L] H. destruct v as [| | | | | |l| | |]; try discriminate W. cbn [to_list wt legible] in *. revert ps H W L. induction l as [|w l IH]; intros ps H W L; cbn [map flat_map] in *.
  - inversion H; subst. exists []. split; [reflexivity|constructor].
  - cbn [forallb] in W. apply andb_true_iff in W. destruct W as [W1 W2]. destruct L as [[L0 L1] L2]. destruct w as [| | | | |r| | | |]; try discriminate W1; [congruence|]. cbn [snd] in H. inversion H as [|x p xs ps' H1 H2]; subst. destruct p as [p|]; [|contradiction]. cbn [held_opt] in H1.
    destruct (IH ps' H2 W2 L2) as (ls & -> & HF). exists (p :: ls). split; [reflexivity|]. cbn. constructor; [exact H1|exact HF].
Qed.
Lemma held_items : forall h k ds cs l n f of s nm v, held h (Tree k ds cs) l -> mem h l = Some n -> entries f cs = map snd (to_list f of (field s nm v)) -> forall s', good (TSlice (TPtr (TStruct s'))) (field s nm v) ->
  exists ls, refs n f = map Some ls /\ Forall2 (fun r c => held h (of r) c) (items s nm v) ls.
Proof.
  intros h k ds cs l n f of s nm v H M E s' G. destruct (held_node _ _ _ _ _ _ H M) as (_ & _ & R). specialize (R f). rewrite E in R. exact (list_entries h f of s' _ _ G R).
Qed.
Ltac sorted := rewrite ?entries_app; repeat first
  [ rewrite (entries_all _ (to_list _ _ _)) by (intros ? ? ?H; exact (list_field _ _ _ _ _ H))
  | rewrite (entries_all _ (to_dur _ _)) by (intros ? ? ?H; exact (dur_field _ _ _ _ H))
  | rewrite (entries_all _ (to_string _ _)) by (intros ? ? ?H; exact (string_field _ _ _ _ H))
  | rewrite (entries_all _ (to_one _ _ _)) by (intros ? ? ?H; exact (one_field _ _ _ _ _ H))
  | rewrite (entries_other _ (to_list _ _ _)) by (intros ? ? ?H; rewrite (list_field _ _ _ _ _ H); discriminate)
  | rewrite (entries_other _ (to_dur _ _)) by (intros ? ? ?H; rewrite (dur_field _ _ _ _ H); discriminate)
  | rewrite (entries_other _ (to_string _ _)) by (intros ? ? ?H; rewrite (string_field _ _ _ _ H); discriminate)
  | rewrite (entries_other _ (to_one _ _ _)) by (intros ? ? ?H; rewrite (one_field _ _ _ _ _ H); discriminate) ]; cbn [app]; rewrite ?app_nil_r; reflexivity.
Lemma mpd_entries : forall v, exists ds cs, mpd_tree v = Tree KMPD ds cs /\ entries FPeriods cs = map snd (to_list FPeriods period_tree (field (str "MPD") (str "Periods") v)) /\
  entries FMPDur cs = map snd (to_dur FMPDur (field (str "MPD") (str "MediaPresentationDuration") v)) /\ entries FMinUpd cs = map snd (to_dur FMinUpd (field (str "MPD") (str "MinimumUpdatePeriod") v)) /\
  entries FType cs = map snd (to_string FType (field (str "MPD") (str "Type") v)) /\ scalar ds FAst = text_of (field (str "MPD") (str "AvailabilityStartTime") v).
Proof. intro v. unfold mpd_tree. cbv zeta. eexists _, _. split; [reflexivity|]. split; [sorted|]. split; [sorted|]. split; [sorted|]. split; [sorted|]. reflexivity. Qed.
Lemma period_entries : forall v, exists ds cs, period_tree v = Tree KPeriod ds cs /\ entries FStart cs = map snd (to_dur FStart (field (str "Period") (str "Start") v)) /\
  entries FDuration cs = map snd (to_dur FDuration (field (str "Period") (str "Duration") v)) /\ entries FSets cs = map snd (to_list FSets set_tree (field (str "Period") (str "AdaptationSets") v)) /\
  entries FEmpty cs = map snd (to_list FEmpty set_tree (field (str "Period") (str "EmptyAdaptationSets") v)).
Proof. intro v. unfold period_tree. cbv zeta. eexists _, _. split; [reflexivity|]. split; [sorted|]. split; [sorted|]. split; [sorted|sorted]. Qed.
Lemma set_entries : forall v, exists ds cs, set_tree v = Tree KSet ds cs /\ entries FReps cs = map snd (to_list FReps rep_tree (field (str "AdaptationSetType") (str "Representations") v)) /\
  entries FTemplate cs = map snd (to_one FTemplate template_tree (field (str "AdaptationSetType") (str "SegmentTemplate") v)).
Proof. intro v. unfold set_tree. cbv zeta. eexists _, _. split; [reflexivity|]. split; [sorted|sorted]. Qed.
Lemma rep_entries : forall v, exists ds cs, rep_tree v = Tree KRep ds cs /\ entries FTemplate cs = map snd (to_one FTemplate template_tree (field (str "RepresentationType") (str "SegmentTemplate") v)) /\
  scalar ds FId = text_of (field (str "RepresentationType") (str "Id") v) /\ scalar ds FBandwidth = number_of (field (str "RepresentationType") (str "Bandwidth") v).
Proof. intro v. unfold rep_tree. cbv zeta. eexists _, _. split; [reflexivity|]. split; [sorted|]. split; reflexivity. Qed.
Lemma items_good : forall s n s' v r, good (TSlice (TPtr (TStruct s'))) (field s n v) -> In r (items s n v) -> good (TStruct s') r.
Proof.
  intros s n s' v r [W L] I. unfold items in I. destruct (field s n v) as [| | | | | |l| | |]; try contradiction I. cbn [wt legible] in W, L. revert W L I. induction l as [|w l IH]; intros W L I; [contradiction I|]. cbn [forallb] in W. apply andb_true_iff in W. destruct W as [W1 W2]. destruct L as [[L0 L1] L2]. cbn [flat_map] in I. apply in_app_or in I. destruct I as [I|I]; [|exact (IH W2 L2 I)].
  destruct w; try contradiction I. destruct I as [<-|[]]. split; [exact W1|exact (proj2 L1)].
Qed.
Lemma somes_some : forall ls : list loc, somes (map Some ls) = ls.
Proof. induction ls; cbn; [reflexivity|now f_equal]. Qed.
Lemma dur_i64 : forall w, good (TPtr TDuration) w -> i64_opt (dur w).
Proof. intros w [W _]. destruct w as [| | | | |w| | | |]; try exact I; try discriminate W. destruct w; try exact I. exact W. Qed.
Lemma mpd_periods_good : forall v, good (TStruct MPD) v -> good (TSlice (TPtr (TStruct (str "Period")))) (field (str "MPD") (str "Periods") v).
Proof. intros v G. apply (field_good (str "MPD") (str "Periods")); [decl|exact G]. Qed.
Lemma times_i64 : forall v, good (TStruct MPD) v -> timing_i64 (times v).
Proof.
  intros v G. unfold timing_i64, times. apply Forall_forall. intros e I. apply in_map_iff in I. destruct I as (p & <- & I). pose proof (items_good _ _ _ _ _ (mpd_periods_good v G) I) as GP. cbn [fst snd].
  split; apply dur_i64; apply (field_good (str "Period")); try exact GP; decl.
Qed.
Lemma type_held : forall h k ds cs l n v, held h (Tree k ds cs) l -> mem h l = Some n -> entries FType cs = map snd (to_string FType (field (str "MPD") (str "Type") v)) -> mpd_type h n = type_of v.
Proof.
  intros h k ds cs l n v H M E. destruct (held_node _ _ _ _ _ _ H M) as (_ & _ & R). specialize (R FType). rewrite E in R. unfold mpd_type, pfield, type_of.
  destruct (field (str "MPD") (str "Type") v) as [| | | | |w| | | |]; cbn in R; try (inversion R; subst; reflexivity). destruct w; cbn in R; inversion R as [|x y xs ys H1 H2]; subst; try reflexivity. destruct y as [c|]; [|contradiction]. inversion H2; subst. cbn [held_opt] in H1. rewrite held_eq in H1. destruct H1 as (cn & ps & MC & _ & D & _). rewrite MC, D. reflexivity.
Qed.
(** C79. The start of each period is the one ISO/IEC 23009-1 gives for the times the document states. *)
Theorem C79_times : forall F inp v, read_mpd F inp = Ok v ->
  exists h m mn ps, load v = Ok (h, m) /\ linked_mpd h m mn ps /\ NoDup ps /\ timing h ps = times v /\ mpd_type h mn = type_of v /\
    dfield h mn FMPDur = dur (field MPD (str "MediaPresentationDuration") v) /\ dfield h mn FMinUpd = dur (field MPD (str "MinimumUpdatePeriod") v) /\
    data mn FAst = text_of (field MPD (str "AvailabilityStartTime") v) /\
    forall i p fuel, nth_error ps i = Some p -> i < fuel ->
      (exists s, period_start (beq (type_of v) (str "static")) (times v) i s /\ get_start fuel h p = Ok (wrap_i64 s)) \/
      ((forall s, ~ period_start (beq (type_of v) (str "static")) (times v) i s) /\ get_start fuel h p = Err ErrUnknownPeriodStart).
Proof.
  intros F inp v RD. pose proof (read_good _ _ _ RD) as G. destruct (load_ok v G) as (h & m & E & H & LB & GH & NN & LO & ND). destruct (held_kind _ _ _ H) as (mn & M & K). cbn in K.
  destruct (mpd_entries v) as (ds & cs & ET & EP & ED & EU & EY & EA). rewrite ET in H. destruct (held_items h KMPD ds cs m mn FPeriods period_tree (str "MPD") (str "Periods") v H M EP _ (mpd_periods_good v G)) as (ps & RP & HP).
  assert (LM : linked_mpd h m mn ps).
  { constructor; [exact M|exact RP|]. intros p I. assert (L : lists h m p). { exists mn, FPeriods. rewrite K. split; [exact M|]. split; [exact Logic.I|]. rewrite RP. now apply in_map. }
    pose proof (LB m p (below_refl h m) L) as P. unfold par in P. destruct (mem h p) as [pn|]; [|discriminate P]. eauto. }
  assert (NP : NoDup ps). { specialize (ND m mn FPeriods M). rewrite RP, somes_some in ND. exact ND. }
  assert (TM : timing h ps = times v).
  { unfold timing, times, periods_of. clear -HP. induction HP as [|r p rs ps HR HP IH]; [reflexivity|]. cbn [map]. f_equal; [|exact IH]. destruct (held_kind _ _ _ HR) as (pn & MP & _). destruct (period_entries r) as (ds & cs & ET & E1 & E2 & _). rewrite ET in HR. rewrite MP. f_equal; [exact (dfield_held _ _ _ _ _ _ _ _ HR MP E1)|exact (dfield_held _ _ _ _ _ _ _ _ HR MP E2)]. }
  assert (TY : mpd_type h mn = type_of v) by exact (type_held _ _ _ _ _ _ _ H M EY).
  exists h, m, mn, ps. split; [exact E|]. split; [exact LM|]. split; [exact NP|]. split; [exact TM|]. split; [exact TY|]. split; [exact (dfield_held _ _ _ _ _ _ _ _ H M ED)|]. split; [exact (dfield_held _ _ _ _ _ _ _ _ H M EU)|].
  split; [destruct (held_node _ _ _ _ _ _ H M) as (_ & D & _); rewrite D; exact EA|]. intros i p fuel EI LF. rewrite <- TM, <- TY. apply (C09_period_start h m mn ps i p fuel LM NP); [|exact EI|exact LF]. rewrite TM. exact (times_i64 v G).
Qed.
Print Assumptions C79_times.

(** *** Addresses *)
Lemma template_held : forall h k ds cs l n w, held h (Tree k ds cs) l -> mem h l = Some n -> entries FTemplate cs = map snd (to_one FTemplate template_tree w) ->
  match w with VPtr t => exists c cn, pfield n FTemplate = Some c /\ mem h c = Some cn /\ data cn FInit = text_of (field (str "SegmentTemplateType") (str "Initialization") t) /\ data cn FMedia = text_of (field (str "SegmentTemplateType") (str "Media") t) | _ => pfield n FTemplate = None end.
Proof.
  intros h k ds cs l n w H M E. destruct (held_node _ _ _ _ _ _ H M) as (_ & _ & R). specialize (R FTemplate). rewrite E in R. unfold pfield. destruct w; cbn in R; inversion R as [|x y xs ys H1 H2]; subst; try reflexivity. destruct y as [c|]; [|contradiction]. cbn [held_opt] in H1. unfold template_tree in H1. rewrite held_eq in H1. destruct H1 as (cn & ps & MC & _ & D & _). exists c, cn. split; [reflexivity|]. split; [exact MC|]. rewrite !D. split; reflexivity.
Qed.
Lemma Forall2_in : forall {A B} (R : A -> B -> Prop) l l' x, Forall2 R l l' -> In x l -> exists y, In y l' /\ R x y.
Proof. intros A B R l l' x H. induction H as [|a b l l' HR H IH]; intros []; [subst; exists b; split; [now left|exact HR]|]. destruct (IH H0) as (y & I & Q). exists y. split; [now right|exact Q]. Qed.
(** C79. The addresses of a representation of the document: the template is its own or that of its adaptation set,
    the representation's id and bandwidth are put into it; without a template there is an error, never a crash. *)
Theorem C79_addresses : forall F inp v pv av rv, read_mpd F inp = Ok v -> In pv (periods_of v) -> In av (items (str "Period") (str "AdaptationSets") pv) -> In rv (items (str "AdaptationSetType") (str "Representations") av) ->
  exists h m r, load v = Ok (h, m) /\ below h m r /\ held h (rep_tree rv) r /\
    let id := text_of (field (str "RepresentationType") (str "Id") rv) in let bw := hd 0%Z (number_of (field (str "RepresentationType") (str "Bandwidth") rv)) in
    match template_of av rv with
    | Some t => get_init h r = Ok (fill_template (text_of (field (str "SegmentTemplateType") (str "Initialization") t)) id bw) /\
                get_media h r = Ok (fill_template (text_of (field (str "SegmentTemplateType") (str "Media") t)) id bw)
    | None => get_init h r = Err ErrSegmentTemplateNotSet /\ get_media h r = Err ErrSegmentTemplateNotSet
    end.
Proof.
  intros F inp v pv av rv RD IP IA IR. pose proof (read_good _ _ _ RD) as G. destruct (load_ok v G) as (h & m & E & H & LB & GH & NN & LO & ND). destruct (held_kind _ _ _ H) as (mn & M & K). cbn in K.
  destruct (mpd_entries v) as (ds & cs & ET & EP & _). rewrite ET in H. pose proof (mpd_periods_good v G) as GPS. destruct (held_items _ _ _ _ _ _ _ _ _ _ _ H M EP _ GPS) as (ps & RP & HP). destruct (Forall2_in _ _ _ _ HP IP) as (p & IPP & HPP). pose proof (items_good _ _ _ _ _ GPS IP) as GP.
  destruct (held_kind _ _ _ HPP) as (pn & MP & KP). cbn in KP. destruct (period_entries pv) as (ds1 & cs1 & ET1 & _ & _ & EP1 & _). rewrite ET1 in HPP.
  assert (GAS : good (TSlice (TPtr (TStruct (str "AdaptationSetType")))) (field (str "Period") (str "AdaptationSets") pv)) by (apply (field_good (str "Period") (str "AdaptationSets")); [decl|exact GP]).
  destruct (held_items _ _ _ _ _ _ _ _ _ _ _ HPP MP EP1 _ GAS) as (sets & RS & HS). destruct (Forall2_in _ _ _ _ HS IA) as (a & IAA & HA). pose proof (items_good _ _ _ _ _ GAS IA) as GA.
  destruct (held_kind _ _ _ HA) as (an & MA & KA). cbn in KA. destruct (set_entries av) as (ds2 & cs2 & ET2 & EP2 & ETA). rewrite ET2 in HA.
  assert (GRS : good (TSlice (TPtr (TStruct (str "RepresentationType")))) (field (str "AdaptationSetType") (str "Representations") av)) by (apply (field_good (str "AdaptationSetType") (str "Representations")); [decl|exact GA]).
  destruct (held_items _ _ _ _ _ _ _ _ _ _ _ HA MA EP2 _ GRS) as (reps & RR & HR). destruct (Forall2_in _ _ _ _ HR IR) as (r & IRR & HRR).
  assert (L1 : lists h m p) by (exists mn, FPeriods; rewrite K; split; [exact M|]; split; [exact I|]; rewrite RP; now apply in_map).
  assert (L2 : lists h p a) by (exists pn, FSets; rewrite KP; split; [exact MP|]; split; [exact I|]; rewrite RS; now apply in_map).
  assert (L3 : lists h a r) by (exists an, FReps; rewrite KA; split; [exact MA|]; split; [exact I|]; rewrite RR; now apply in_map).
  assert (B1 : below h m p) by (eapply below_step; [apply below_refl|exact L1]). assert (B2 : below h m a) by (eapply below_step; [exact B1|exact L2]). assert (B3 : below h m r) by (eapply below_step; [exact B2|exact L3]).
  exists h, m, r. split; [exact E|]. split; [exact B3|]. split; [exact HRR|]. cbv zeta. destruct (held_kind _ _ _ HRR) as (rn & MR & _). destruct (rep_entries rv) as (ds3 & cs3 & ET3 & ETR & EI & EB). rewrite ET3 in HRR.
  pose proof (LB a r B2 L3) as PR. unfold par in PR. rewrite MR in PR. destruct (held_node _ _ _ _ _ _ HRR MR) as (_ & DR & _).
  pose proof (template_held _ _ _ _ _ _ _ HRR MR ETR) as TR. pose proof (template_held _ _ _ _ _ _ _ HA MA ETA) as TA. unfold template_of. unfold get_init, get_media.
  pose proof (C18_addresses h r rn MR FInit (or_introl eq_refl)) as (_ & N1 & S1). pose proof (C18_addresses h r rn MR FMedia (or_intror eq_refl)) as (_ & N2 & S2). specialize (N1 a an PR MA). specialize (N2 a an PR MA).
  rewrite <- EI, <- EB, <- !DR.
  assert (OWN : forall t c cn, (match pfield rn FTemplate with Some t => Some t | None => pfield an FTemplate end) = Some c -> mem h c = Some cn -> data cn FInit = text_of (field (str "SegmentTemplateType") (str "Initialization") t) -> data cn FMedia = text_of (field (str "SegmentTemplateType") (str "Media") t) ->
    get_address FInit h r = Ok (fill_template (text_of (field (str "SegmentTemplateType") (str "Initialization") t)) (data rn FId) (hd 0%Z (data rn FBandwidth))) /\
    get_address FMedia h r = Ok (fill_template (text_of (field (str "SegmentTemplateType") (str "Media") t)) (data rn FId) (hd 0%Z (data rn FBandwidth)))).
  { intros t c cn TT MC D1 D2. rewrite <- D1, <- D2. split; [exact (S1 a an c cn PR MA TT MC)|exact (S2 a an c cn PR MA TT MC)]. }
  destruct (field (str "RepresentationType") (str "SegmentTemplate") rv) as [| | | | |t| | | |];
    (destruct (field (str "AdaptationSetType") (str "SegmentTemplate") av) as [| | | | |t'| | | |];
      first [ destruct TR as (c & cn & PF & MC & D1 & D2); apply (OWN t c cn); auto; now rewrite PF
            | destruct TA as (c & cn & PF & MC & D1 & D2); apply (OWN t' c cn); auto; now rewrite TR
            | split; [apply (N1 TR TA)|apply (N2 TR TA)] ]).
Qed.
Print Assumptions C79_addresses.

(** Two periods; the second has no start, its representations share the template of the adaptation set but for one. *)
Definition doc79 : bytes := str "<MPD xmlns=""urn:mpeg:dash:schema:mpd:2011"" type=""static"" profiles=""p""><Period id=""a"" start=""PT5S"" duration=""PT10S""/><Period id=""b"" duration=""PT20S""><AdaptationSet><SegmentTemplate media=""$RepresentationID$/$Number$.m4s"" initialization=""$RepresentationID$.mp4""/><Representation id=""v1"" bandwidth=""1000""/><Representation id=""v2"" bandwidth=""2000""><SegmentTemplate media=""$Bandwidth$/$Time$.m4s"" initialization=""i.mp4""/></Representation></AdaptationSet><AdaptationSet><Representation id=""t"" bandwidth=""1""/></AdaptationSet></Period></MPD>".
(** The representations of all periods, in order. *)
Definition below_field (h : heap) (f : fld) (ls : list loc) : list loc := flat_map (fun l => match mem h l with Some n => somes (refs n f) | None => [] end) ls.
Example C79_ex : match read_mpd fl1 doc79 with
  | Ok v => times v = [(Some 5000000000%Z, Some 10000000000%Z); (None, Some 20000000000%Z)] /\
      match load v with
      | Ok (h, m) =>
          let ps := below_field h FPeriods [m] in let rs := below_field h FReps (below_field h FSets ps) in
          map (get_start 3 h) ps = [Ok 5000000000%Z; Ok 15000000000%Z] /\
          map (get_media h) rs = [Ok (str "v1/$Number$.m4s"); Ok (str "2000/$Time$.m4s"); Err ErrSegmentTemplateNotSet] /\
          map (get_init h) rs = [Ok (str "v1.mp4"); Ok (str "i.mp4"); Err ErrSegmentTemplateNotSet]
      | _ => False
      end
  | _ => False
  end.
Proof. vm_compute. repeat split; reflexivity. Qed.
(** The adaptation sets in EmptyAdaptationSet elements are not linked: for their representations there are no addresses
    and asking for the inherited template crashes. *)
Definition doc79e : bytes := str "<MPD xmlns=""urn:mpeg:dash:schema:mpd:2011"" profiles=""p""><Period><EmptyAdaptationSet><SegmentTemplate media=""m"" initialization=""i""/><Representation id=""v1"" bandwidth=""1000""/></EmptyAdaptationSet></Period></MPD>".
Lemma empty_check : match read_mpd fl1 doc79e with
  | Ok v => match load v with
            | Ok (h, m) => match below_field h FReps (below_field h FEmpty (below_field h FPeriods [m])) with
                           | [r] => get_init h r = Err ErrParentNotSet /\ get_media h r = Err ErrParentNotSet /\ rep_template h r = Panic /\ rep_mime h r = Panic
                           | _ => False
                           end
            | _ => False
            end
  | _ => False
  end.
Proof. vm_compute. repeat split; reflexivity. Qed.
Theorem C79_empty_refuted : exists v h m r, read_mpd fl1 doc79e = Ok v /\ load v = Ok (h, m) /\ below_field h FReps (below_field h FEmpty (below_field h FPeriods [m])) = [r] /\
  get_init h r = Err ErrParentNotSet /\ get_media h r = Err ErrParentNotSet /\ rep_template h r = Panic /\ rep_mime h r = Panic.
Proof.
  pose proof empty_check as C. destruct (read_mpd fl1 doc79e) as [v| | |]; try contradiction C. destruct (load v) as [[h m]| | |] eqn:L; try contradiction C.
  destruct (below_field h FReps _) as [|r [|r' l]] eqn:B; try contradiction C. exists v, h, m, r. split; [reflexivity|]. split; [exact L|]. split; [exact B|exact C].
Qed.
Print Assumptions C79_empty_refuted.
