(** Specification vocabulary for the object graph: what "linked", "reachable", "same content" and the DASH
    period timing rules mean.  Nothing here mentions the functions of Heap.v, only its data types. *)
From Coq Require Import String.
From Coq Require Import ZArith List Bool.
From Verif Require Import Base Heap.
Import ListNotations.
Local Open Scope nat_scope.

(** The four lists whose members carry a parent link. *)
Definition child_field (k : kind) (f : fld) : Prop :=
  match k, f with
  | KMPD, FPeriods | KPeriod, FSets | KSet, FReps | KRep, FSubs => True
  | _, _ => False
  end.
(** [x] lists [c] as a Period, AdaptationSet, Representation or SubRepresentation. *)
Definition lists (h : heap) (x c : loc) : Prop :=
  exists n f, mem h x = Some n /\ child_field (nkind n) f /\ In (Some c) (refs n f).
Inductive below (h : heap) (m : loc) : loc -> Prop :=
| below_refl : below h m m
| below_step : forall x c, below h m x -> lists h x c -> below h m c.
(** The parent link of [c]. *)
Definition par (h : heap) (c : loc) : ptr := match mem h c with Some n => parent n | None => None end.
(** Everything listed at or below [m] points at the object that lists it. *)
Definition linked_below (h : heap) (m : loc) : Prop :=
  forall x c, below h m x -> lists h x c -> par h c = Some x.
(** No object is listed by two different objects. *)
Definition listed_once (h : heap) : Prop := forall x y c, lists h x c -> lists h y c -> x = y.

(** Facts the Go type system and memory safety guarantee. *)
Definition field_kind (f : fld) (k : kind) : Prop :=
  match f with
  | FPeriods => k = KPeriod
  | FSets | FEmpty => k = KSet
  | FReps => k = KRep
  | FSubs => k = KSub
  | FTemplate => k = KTemplate
  | FProt => k = KProt
  | _ => True
  end.
Definition parent_kind (k kp : kind) : Prop :=
  match k with KPeriod => kp = KMPD | KSet => kp = KPeriod | KRep => kp = KSet | KSub => kp = KRep | _ => False end.
Record go_heap (h : heap) : Prop := {
  gh_alloc : forall l n, mem h l = Some n -> l < next h;
  gh_refs : forall l n f c, mem h l = Some n -> In (Some c) (refs n f) ->
            exists cn, mem h c = Some cn /\ field_kind f (nkind cn);
  gh_parent : forall l n c, mem h l = Some n -> parent n = Some c ->
            exists cn, mem h c = Some cn /\ parent_kind (nkind n) (nkind cn) }.
(** The lists of children contain no nil pointer. *)
Definition no_nil (h : heap) : Prop :=
  forall l n f, mem h l = Some n -> child_field (nkind n) f -> ~ In None (refs n f).

(** Two heaps differ at most in parent links. *)
Definition content_eq (h h' : heap) : Prop :=
  next h' = next h /\
  forall l, match mem h l, mem h' l with
            | Some n, Some n' => nkind n' = nkind n /\ data n' = data n /\ refs n' = refs n
            | None, None => True
            | _, _ => False
            end.

(** Reachability through any pointer, parent links included. *)
Definition points_to (h : heap) (x y : loc) : Prop :=
  exists n, mem h x = Some n /\ ((exists f, In (Some y) (refs n f)) \/ parent n = Some y).
Inductive reach (h : heap) (r : loc) : loc -> Prop :=
| reach_refl : reach h r r
| reach_step : forall x y, reach h r x -> points_to h x y -> reach h r y.
Definition disjoint (h : heap) (a b : loc) : Prop := forall x, reach h a x -> reach h b x -> False.

(** Same exported content: a relation between objects that pairs equal kinds, equal scalar fields and related
    pointers, nil with nil. *)
Definition ptr_rel (R : loc -> loc -> Prop) (p q : ptr) : Prop :=
  match p, q with Some a, Some b => R a b | None, None => True | _, _ => False end.
Definition same_content (h : heap) (a : loc) (h' : heap) (b : loc) : Prop :=
  exists R : loc -> loc -> Prop, R a b /\
    forall x y, R x y -> exists n n', mem h x = Some n /\ mem h' y = Some n' /\
      nkind n' = nkind n /\ (forall f, data n' f = data n f) /\
      (forall f, Forall2 (ptr_rel R) (refs n f) (refs n' f)).

(** A write through the object graph with root [r]: overwrite a scalar field, a pointer field or a parent link of
    an object reachable from [r] with pointers that are nil or reachable from [r], or attach a new object. *)
Inductive write (h : heap) (r : loc) : heap -> Prop :=
| write_data : forall x n f v, reach h r x -> mem h x = Some n ->
    write h r (set_node h x (with_data n f v))
| write_refs : forall x n f ps, reach h r x -> mem h x = Some n ->
    (forall y, In (Some y) ps -> reach h r y) ->
    write h r (set_node h x (with_refs n f ps))
| write_parent : forall x n p, reach h r x -> mem h x = Some n ->
    (forall y, p = Some y -> reach h r y) ->
    write h r (set_node h x (with_parent n p))
| write_new : forall x n f k, reach h r x -> mem h x = Some n -> mem h (next h) = None ->
    write h r (set_node (fst (alloc h (empty_node k))) x (with_refs n f (refs n f ++ [Some (next h)]))).

(** ** Period timing *)

(** The periods of an MPD that points back from each of them. *)
Record linked_mpd (h : heap) (m : loc) (mn : node) (ps : list loc) : Prop := {
  lm_mpd : mem h m = Some mn;
  lm_list : refs mn FPeriods = map Some ps;
  lm_back : forall p, In p ps -> exists pn, mem h p = Some pn /\ parent pn = Some m }.
(** Explicit start and duration of each period. *)
Definition timing (h : heap) (ps : list loc) : list (option Z * option Z) :=
  map (fun p => match mem h p with
                | Some n => (dfield h n FStart, dfield h n FDuration)
                | None => (None, None)
                end) ps.
(** Every [Duration] is an int64. *)
Definition i64_opt (o : option Z) : Prop := match o with Some z => is_i64 z = true | None => True end.
Definition timing_i64 (t : list (option Z * option Z)) : Prop := Forall (fun e => i64_opt (fst e) /\ i64_opt (snd e)) t.
Fixpoint total (ds : list Z) : Z := match ds with [] => 0%Z | d :: r => (d + total r)%Z end.
(** ISO/IEC 23009-1 5.3.2.1: the start of period [i] is the explicit start of the closest period [j] at or before
    it that has one (or 0 at the first period of a static MPD) plus the durations from [j] to [i], all of which
    have to be known. *)
Definition period_start (static : bool) (t : list (option Z * option Z)) (i : nat) (v : Z) : Prop :=
  exists j base ds, j <= i /\
    ((exists d, nth_error t j = Some (Some base, d)) \/
     (j = 0 /\ static = true /\ base = 0%Z /\ exists d, nth_error t 0 = Some (None, d))) /\
    (forall k, j < k <= i -> exists d, nth_error t k = Some (None, d)) /\
    length ds = i - j /\
    (forall k, k < i - j -> exists s, nth_error t (j + k) = Some (s, Some (nth k ds 0%Z))) /\
    v = (base + total ds)%Z.

(** ** Address templates *)

(** A template is a sequence of literals and [$identifier$]s; neither contains a dollar sign. *)
Inductive tok := Lit (s : bytes) | Ident (s : bytes).
Definition tok_text (t : tok) : bytes := match t with Lit s => s | Ident s => str "$" ++ s ++ str "$" end.
Definition text (ts : list tok) : bytes := concat (map tok_text ts).
Definition dollar_free (s : bytes) : Prop := ~ In 36%Z s.
Definition toks_ok (ts : list tok) : Prop :=
  Forall (fun t => match t with Lit s | Ident s => dollar_free s end) ts.
(** Replace one identifier. *)
Definition subst (k v : bytes) (ts : list tok) : list tok :=
  map (fun t => match t with Ident s => if beq s k then Lit v else t | _ => t end) ts.
(** The text between two neighbouring identifiers, the first of which is not [k], is never the word [k]. *)
Fixpoint gaps_ok (k : bytes) (gap : option bytes) (ts : list tok) : Prop :=
  match ts with
  | [] => True
  | Lit s :: r => gaps_ok k (match gap with Some g => Some (g ++ s) | None => None end) r
  | Ident s :: r => gap <> Some k /\ gaps_ok k (if beq s k then None else Some []) r
  end.
