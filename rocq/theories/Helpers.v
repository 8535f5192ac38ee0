(** Model of small helpers: profile lists, timescale, byte ranges, FloatInf64 attributes, constructors. *)
From Coq Require Import String.
From Coq Require Import ZArith List Bool Lia SpecFloat.
From Verif Require Import Base Float64 Duration Heap.
Import ListNotations.
Open Scope Z_scope.

(** [strings.Split(s, ",")]. *)
Fixpoint split_comma (s : bytes) : list bytes :=
  match s with
  | [] => [[]]
  | c :: r => if c =? 44 then [] :: split_comma r
              else match split_comma r with
                   | w :: ws => (c :: w) :: ws
                   | [] => [[c]]
                   end
  end.
(** [ListOfProfilesType.AddProfile] (mpd.go:1061-1072). *)
Definition add_profile (l profile : bytes) : bytes :=
  if beq l [] then profile
  else if existsb (fun p => beq p profile) (split_comma l) then l
  else l ++ str "," ++ profile.

(** [SegmentBaseType.GetTimescale] (mpd.go:796-801) and [SetTimescale] (mpd.go:804-809).  The field is a pointer;
    [SetTimescale] stores the address of its own parameter, so nothing else aliases it and the model keeps the
    value. *)
Definition get_timescale (field : option Z) : Z := match field with None => 1 | Some t => t end.
Definition set_timescale (field : option Z) (t : Z) : option Z :=
  let field := if t =? 1 then None else field in
  Some t.

(** [fmt.Sprintf("%d", n)] for a non-negative and for any machine integer. *)
Definition fmt_d (n : Z) : bytes := if n <? 0 then str "-" ++ itoa (- n) else itoa n.
(** [RepresentationType.SetSegmentBase] (mpd.go:471-483): the Initialization range, the index range and the flag
    stored in the new SegmentBase. *)
Definition set_segment_base (initSize sidxSize : Z) (exact : bool) : bytes * bytes * bool :=
  let initRange := str "0-" ++ fmt_d (wrap_u32 (initSize - 1)) in
  let indexRange := fmt_d initSize ++ str "-" ++ fmt_d (wrap_u32 (wrap_u32 (initSize + sidxSize) - 1)) in
  (initRange, indexRange, exact).

(** ** FloatInf64 (mpd.go:1225-1250) *)
Definition fneg (f : f64) : f64 := SFopp f.
Definition lower (c : Z) : Z := if (65 <=? c) && (c <=? 90) then c + 32 else c.
(** [strconv.ParseFloat(s, 64)]: an optional sign before digits with at most one dot, correctly rounded, an error
    on overflow; infinities and NaN in any case.  Texts with exponents, hexadecimal digits or underscores are
    left to the parameter [other]. *)
Definition plain (s : bytes) : bool :=
  let '(i, f) := split_dot s in forallb is_digit (i ++ f) && negb (beq (i ++ f) []).
Definition parse_signed (other : bytes -> option f64) (s : bytes) : option f64 :=
  let '(neg, r) := match s with
                   | c :: r => if c =? 43 then (false, r) else if c =? 45 then (true, r) else (false, s)
                   | [] => (false, s)
                   end in
  if plain r then option_map (fun f => if neg then fneg f else f) (parse_float r)
  else if beq (map lower r) (str "inf") || beq (map lower r) (str "infinity") then Some (S754_infinity neg)
  else if beq (map lower s) (str "nan") then Some S754_nan
  else other s.
(** [MarshalXMLAttr] of a non-nil [FloatInf64]: the attribute value; [format f] is
    [strconv.FormatFloat(f, 'f', -1, 64)]. *)
Definition is_pinf (f : f64) : bool := match f with S754_infinity false => true | _ => false end.
Definition float_attr (format : f64 -> bytes) (f : f64) : bytes :=
  if is_pinf f then str "INF" else format f.
(** [UnmarshalXMLAttr]. *)
Definition read_float_attr (other : bytes -> option f64) (v : bytes) : option f64 :=
  if beq v (str "INF") then Some (S754_infinity false) else parse_signed other v.

(** ** Constructors (mpd.go:1117-1177)

    The exported fields a constructor sets; all others are zero. *)
Record rep_fields := RepFields {
  rf_id : bytes; rf_codecs : bytes; rf_mime : bytes; rf_bandwidth : Z;
  rf_sampling : option bytes; rf_framerate : bytes; rf_width : Z; rf_height : Z }.
(** [NewRepresentationWithID] (mpd.go:1149-1159): [uint32(bandwidth)] keeps the low 32 bits. *)
Definition new_rep (id codec mime : bytes) (bandwidth : Z) : rep_fields :=
  RepFields id codec mime (wrap_u32 bandwidth) None [] 0 0.
(** [NewAudioRepresentation] (mpd.go:1162-1166). *)
Definition new_audio (id codec mime : bytes) (bandwidth rate : Z) : rep_fields :=
  let r := new_rep id codec mime bandwidth in
  RepFields (rf_id r) (rf_codecs r) (rf_mime r) (rf_bandwidth r) (Some (fmt_d rate)) [] 0 0.
(** [NewVideoRepresentation] (mpd.go:1169-1175). *)
Definition new_video (id codec mime framerate : bytes) (bandwidth width height : Z) : rep_fields :=
  let r := new_rep id codec mime bandwidth in
  RepFields (rf_id r) (rf_codecs r) (rf_mime r) (rf_bandwidth r) None framerate (wrap_u32 width) (wrap_u32 height).

(** ** SCTE-35 lookups (scte35.go:558-580) *)
Definition is_scte35 (scheme : bytes) : bool :=
  beq scheme (str "urn:scte:scte35:2013:xml") || beq scheme (str "urn:scte:scte35:2014:xml+bin")
  || beq scheme (str "urn:scte:scte35:2013:bin").
(** [SpliceInfo] (scte35.go:570-575): [signal] is the Signal pointer with its SpliceInfoSection pointer. *)
Definition splice_info {A} (signal : option (option A)) (direct : option A) : option A :=
  match signal with
  | Some (Some s) => Some s
  | _ => direct
  end.
