(** The objects behind a value that was read: MPDFromBytes (mpd/io.go:46-54) with SetParents.

    [tree]: an object with its scalar fields and the objects its pointers lead to, in order; only the fields that
    Heap.v names are taken.  [build] allocates the objects, those pointed at first; the addresses have no meaning.
    Every pointer field of a value that was read leads to an object of its own (xml/read.go allocates with
    reflect.New whenever a pointer is nil, and slices of pointers are grown by nil), so that the objects are a tree. *)
From Coq Require Import String.
From Coq Require Import ZArith List Bool Lia.
From Verif Require Import Base Lexer GoType Schema Io Unmarshal Heap HeapSpec.
Import ListNotations.
Local Open Scope nat_scope.

Inductive tree := Tree (k : kind) (ds : list (fld * list Z)) (cs : list (fld * option tree)).
Fixpoint scalar (ds : list (fld * list Z)) (f : fld) : list Z :=
  match ds with [] => [] | (g, x) :: ds => if fld_dec g f then x else scalar ds f end.
(** The entries for field [f], in order. *)
Definition entries {A} (f : fld) (l : list (fld * A)) : list A := map snd (filter (fun e => if fld_dec (fst e) f then true else false) l).
Fixpoint build (t : tree) (h : heap) {struct t} : heap * loc :=
  match t with
  | Tree k ds cs =>
      let '(h1, rs) :=
        (fix go (cs : list (fld * option tree)) (h : heap) {struct cs} : heap * list (fld * ptr) :=
           match cs with
           | [] => (h, [])
           | (f, None) :: cs => let '(h1, rs) := go cs h in (h1, (f, None) :: rs)
           | (f, Some t) :: cs => let '(h1, l) := build t h in let '(h2, rs) := go cs h1 in (h2, (f, Some l) :: rs)
           end) cs h in
      alloc h1 (Node k (scalar ds) (fun f => entries f rs) None)
  end.

(** Fields of a struct value, by their Go names. *)
Fixpoint pick (fs : list fdecl) (ws : list gval) (n : bytes) : gval :=
  match fs, ws with
  | f :: fs, w :: ws => if beq (fd_name f) n then w else pick fs ws n
  | _, _ => VNil
  end.
Definition field (s n : bytes) (v : gval) : gval := match v with VRec ws => pick (fields_of mpd_types s) ws n | _ => VNil end.
Definition text_of (v : gval) : list Z := match v with VStr s => s | _ => [] end.
Definition number_of (v : gval) : list Z := match v with VInt z => [z] | _ => [] end.
(** A pointer to a string or a Duration, to a struct; a slice of pointers to structs. *)
Definition to_string (f : fld) (v : gval) : list (fld * option tree) :=
  match v with VPtr (VStr s) => [(f, Some (Tree KStr [(FVal, s)] []))] | _ => [] end.
Definition to_dur (f : fld) (v : gval) : list (fld * option tree) :=
  match v with VPtr (VInt z) => [(f, Some (Tree KDur [(FVal, [z])] []))] | _ => [] end.
Definition to_one (f : fld) (of : gval -> tree) (v : gval) : list (fld * option tree) :=
  match v with VPtr r => [(f, Some (of r))] | _ => [] end.
Definition to_list (f : fld) (of : gval -> tree) (v : gval) : list (fld * option tree) :=
  match v with VList l => map (fun w => match w with VPtr r => (f, Some (of r)) | _ => (f, None) end) l | _ => [] end.

(** SubRepresentationType (mpd.go:500-508), ContentProtectionType (mpd.go:627-646): no field that Heap.v names. *)
Definition sub_tree (v : gval) : tree := Tree KSub [] [].
Definition prot_tree (v : gval) : tree := Tree KProt [] [].
(** SegmentTemplateType (mpd.go:861-867): the two address templates. *)
Definition template_tree (v : gval) : tree :=
  Tree KTemplate [(FInit, text_of (field (str "SegmentTemplateType") (str "Initialization") v)); (FMedia, text_of (field (str "SegmentTemplateType") (str "Media") v))] [].
Definition base_field (s n : bytes) (v : gval) : gval := field (str "RepresentationBaseType") n (field s (str "RepresentationBaseType") v).
(** RepresentationType (mpd.go:441-460) with the embedded RepresentationBaseType (mpd.go:519-556). *)
Definition rep_tree (v : gval) : tree :=
  let s := str "RepresentationType" in
  Tree KRep [(FId, text_of (field s (str "Id") v)); (FBandwidth, number_of (field s (str "Bandwidth") v));
             (FMime, text_of (base_field s (str "MimeType") v)); (FCodecs, text_of (base_field s (str "Codecs") v))]
    (to_list FProt prot_tree (base_field s (str "ContentProtections") v) ++
     to_list FSubs sub_tree (field s (str "SubRepresentations") v) ++
     to_one FTemplate template_tree (field s (str "SegmentTemplate") v)).
(** AdaptationSetType (mpd.go:352-389). *)
Definition set_tree (v : gval) : tree :=
  let s := str "AdaptationSetType" in
  Tree KSet [(FMime, text_of (base_field s (str "MimeType") v)); (FCodecs, text_of (base_field s (str "Codecs") v))]
    (to_list FProt prot_tree (base_field s (str "ContentProtections") v) ++
     to_one FTemplate template_tree (field s (str "SegmentTemplate") v) ++
     to_list FReps rep_tree (field s (str "Representations") v)).
(** Period (mpd.go:152-180). *)
Definition period_tree (v : gval) : tree :=
  let s := str "Period" in
  Tree KPeriod [(FId, text_of (field s (str "Id") v))]
    (to_dur FStart (field s (str "Start") v) ++ to_dur FDuration (field s (str "Duration") v) ++
     to_one FTemplate template_tree (field s (str "SegmentTemplate") v) ++
     to_list FSets set_tree (field s (str "AdaptationSets") v) ++ to_list FEmpty set_tree (field s (str "EmptyAdaptationSets") v)).
(** MPD (mpd.go:87-121). *)
Definition mpd_tree (v : gval) : tree :=
  let s := str "MPD" in
  Tree KMPD [(FAst, text_of (field s (str "AvailabilityStartTime") v)); (FId, text_of (field s (str "Id") v))]
    (to_string FType (field s (str "Type") v) ++ to_dur FMPDur (field s (str "MediaPresentationDuration") v) ++
     to_dur FMinUpd (field s (str "MinimumUpdatePeriod") v) ++
     to_list FPeriods period_tree (field s (str "Periods") v)).
(** io.go:46-54: Unmarshal, then SetParents. *)
Definition load (v : gval) : outcome merr (heap * loc) :=
  let '(h, m) := build (mpd_tree v) empty_heap in
  do h' <- mpd_set_parents h (Some m) ; Ok (h', m).

(** ** Specification *)
(** The object at [l] is [t]: its kind, its fields, and what it leads to. *)
Fixpoint held (h : heap) (t : tree) (l : loc) {struct t} : Prop :=
  match t with
  | Tree k ds cs =>
      exists n ps, mem h l = Some n /\ nkind n = k /\ (forall f, data n f = scalar ds f) /\
        (forall f, refs n f = entries f (combine (map fst cs) ps)) /\
        (fix go (cs : list (fld * option tree)) (ps : list ptr) {struct cs} : Prop :=
           match cs, ps with
           | [], [] => True
           | (_, None) :: cs, None :: ps => go cs ps
           | (_, Some t) :: cs, Some p :: ps => held h t p /\ go cs ps
           | _, _ => False
           end) cs ps
  end.
(** Every entry of a list is there, and of the right kind. *)
Definition kind_of (t : tree) : kind := match t with Tree k _ _ => k end.
Fixpoint sound (t : tree) : Prop :=
  match t with
  | Tree k ds cs =>
      (fix go (cs : list (fld * option tree)) : Prop :=
         match cs with
         | [] => True
         | (_, None) :: _ => False
         | (f, Some t) :: cs => field_kind f (kind_of t) /\ sound t /\ go cs
         end) cs
  end.
