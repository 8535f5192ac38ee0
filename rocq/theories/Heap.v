(** Model of the linked MPD object graph: pointers, parent links, period timing, accessors, cloning.
    mpd/parents.go, mpd/period.go, mpd/mpd.go:124-137, 188-194, 391-424, 462-468, 510-516, 558-624.

    Simplifications.  Every Go struct that is reached through a pointer is one [node]; its scalar fields are
    [data], its pointer fields are lists of at most one pointer and its slices of pointers are lists of
    pointers ([refs]); struct values and embedded structs are part of the node that contains them.  A slice is a
    list: the sharing of backing arrays between slice headers is not modelled.  The node keeps the unexported
    field [parent], the only unexported field of the types involved. *)
From Coq Require Import String.
From Coq Require Import ZArith List Bool Lia SpecFloat.
From Verif Require Import Base Float64 Duration Time.
Import ListNotations.
Local Open Scope nat_scope.

Definition loc := nat.
Definition ptr := option loc.

(** Kinds of objects; [KDur] is a [Duration] and [KStr] a [string] reached through a pointer; [KOther n] is
    any other struct type of the package. *)
Inductive kind := KMPD | KPeriod | KSet | KRep | KSub | KTemplate | KProt | KDur | KStr | KOther (n : nat).
(** Fields; [FVal] is the content of [KDur] and [KStr]; [FOther n] is any other exported field. *)
Inductive fld :=
| FPeriods | FSets | FEmpty | FReps | FSubs | FStart | FDuration | FMPDur | FMinUpd | FType | FAst
| FTemplate | FProt | FId | FBandwidth | FMime | FCodecs | FInit | FMedia | FVal | FOther (n : nat).
Definition fld_dec (a b : fld) : {a = b} + {a <> b}.
Proof. decide equality. apply Nat.eq_dec. Defined.
Definition kind_dec (a b : kind) : {a = b} + {a <> b}.
Proof. decide equality. apply Nat.eq_dec. Defined.

Record node := Node { nkind : kind; data : fld -> list Z; refs : fld -> list ptr; parent : ptr }.
Record heap := Heap { mem : loc -> option node; next : loc }.

Inductive merr :=
| ErrASTRequired | ErrPeriodNotFound | ErrParentNotSet | ErrSegmentTemplateNotSet
| ErrNoMediaPresentationDuration | ErrUnknownPeriodDur | ErrUnknownPeriodStart | ErrDate.

(** Dereferencing a pointer: nil panics.  An address outside the heap does not occur in Go. *)
Definition at_loc (h : heap) (l : loc) : outcome merr node :=
  match mem h l with Some n => Ok n | None => Panic end.
Definition deref (h : heap) (p : ptr) : outcome merr node :=
  match p with None => Panic | Some l => at_loc h l end.
(** Value of a pointer field. *)
Definition pfield (n : node) (f : fld) : ptr := match refs n f with p :: _ => p | [] => None end.
(** Value of a field of type [*Duration]. *)
Definition dfield (h : heap) (n : node) (f : fld) : option Z :=
  match pfield n f with
  | None => None
  | Some l => match mem h l with Some c => Some (hd 0%Z (data c FVal)) | None => None end
  end.

Definition set_node (h : heap) (l : loc) (n : node) : heap :=
  Heap (fun x => if Nat.eqb x l then Some n else mem h x) (next h).
Definition with_parent (n : node) (p : ptr) : node := Node (nkind n) (data n) (refs n) p.
Definition with_refs (n : node) (f : fld) (l : list ptr) : node :=
  Node (nkind n) (data n) (fun g => if fld_dec g f then l else refs n g) (parent n).
Definition with_data (n : node) (f : fld) (l : list Z) : node :=
  Node (nkind n) (fun g => if fld_dec g f then l else data n g) (refs n) (parent n).

(** Allocation of a zeroed struct ([&T{}], mpd.go:1117-1222). *)
Definition empty_node (k : kind) : node := Node k (fun _ => []) (fun _ => []) None.
Definition alloc (h : heap) (n : node) : heap * loc :=
  (Heap (fun x => if Nat.eqb x (next h) then Some n else mem h x) (S (next h)), next h).
Definition empty_heap : heap := Heap (fun _ => None) 0.

(** ** Parents (parents.go) *)

(** [x.SetParent(p)] (mpd.go:188, 391, 462, 510): panics on a nil receiver. *)
Definition set_parent (h : heap) (x : ptr) (p : ptr) : outcome merr heap :=
  match x with
  | None => Panic
  | Some l => do n <- at_loc h l ; Ok (set_node h l (with_parent n p))
  end.
(** A [for range] loop whose body changes the heap. *)
Fixpoint for_each {A} (f : heap -> A -> outcome merr heap) (xs : list A) (h : heap) : outcome merr heap :=
  match xs with
  | [] => Ok h
  | x :: r => do h' <- f h x ; for_each f r h'
  end.
(** [RepresentationType.SetParents] (parents.go:62-66). *)
Definition rep_set_parents (h : heap) (r : ptr) : outcome merr heap :=
  do n <- deref h r ;
  for_each (fun h s => set_parent h s r) (refs n FSubs) h.
(** [AdaptationSetType.SetParents] (parents.go:46-53). *)
Definition set_set_parents (h : heap) (a : ptr) : outcome merr heap :=
  do n <- deref h a ;
  for_each (fun h r => do h <- set_parent h r a ; rep_set_parents h r) (refs n FReps) h.
(** [Period.SetParents] (parents.go:27-37). *)
Definition period_set_parents (h : heap) (p : ptr) : outcome merr heap :=
  do n <- deref h p ;
  for_each (fun h a => do h <- set_parent h a p ; set_set_parents h a) (refs n FSets) h.
(** [MPD.SetParents] (parents.go:5-18). *)
Definition mpd_set_parents (h : heap) (m : ptr) : outcome merr heap :=
  do n <- deref h m ;
  for_each (fun h p => do h <- set_parent h p m ; period_set_parents h p) (refs n FPeriods) h.

(** [AppendPeriod], [AppendAdaptationSet], [AppendRepresentation], [AppendSubRepresentation]
    (parents.go:21-24, 40-43, 56-59, 69-72): one function per list field. *)
Definition append_child (f : fld) (h : heap) (x c : ptr) : outcome merr heap :=
  match x with
  | None => Panic
  | Some l =>
      do n <- at_loc h l ;
      set_parent (set_node h l (with_refs n f (refs n f ++ [c]))) c x
  end.
Definition append_period := append_child FPeriods.
Definition append_set := append_child FSets.
Definition append_rep := append_child FReps.
Definition append_sub := append_child FSubs.

(** ** Period timing (period.go) *)

(** [MPD.GetType] (mpd.go:124-129). *)
Definition mpd_type (h : heap) (n : node) : bytes :=
  match pfield n FType with
  | None => str "static"
  | Some l => match mem h l with Some c => data c FVal | None => str "static" end
  end.
(** The loop of [GetIndex] (period.go:34-38). *)
Fixpoint index_of (l : loc) (ps : list ptr) (i : nat) : option nat :=
  match ps with
  | [] => None
  | p :: r => match p with
              | Some x => if Nat.eqb x l then Some i else index_of l r (S i)
              | None => index_of l r (S i)
              end
  end.
(** [GetIndex] (period.go:29-40). *)
Definition get_index (h : heap) (p : loc) : outcome merr nat :=
  do n <- at_loc h p ;
  match parent n with
  | None => Err ErrParentNotSet
  | Some m =>
      do mn <- at_loc h m ;
      match index_of p (refs mn FPeriods) 0 with
      | Some i => Ok i
      | None => Err ErrPeriodNotFound
      end
  end.
(** [m.Periods[i]] with [i] in range, dereferenced. *)
Definition period_at (h : heap) (mn : node) (i : nat) : outcome merr node :=
  match nth_error (refs mn FPeriods) i with
  | Some p => deref h p
  | None => Panic
  end.

Inductive ptype := PTBad | PTRegular | PTEarlyAvailable | PTEarlyTerminated | PTRegularOrEarlyTerminated.
(** [PeriodType.String] (period.go:53-63). *)
Definition ptype_string (t : ptype) : bytes :=
  match t with
  | PTRegular => str "regular"
  | PTEarlyAvailable => str "early-available"
  | PTEarlyTerminated => str "early-terminated"
  | _ => str "unknown"
  end.
(** The closure [isEarlyTerminated] (period.go:76-79), with Go's short-circuit evaluation. *)
Definition is_early_terminated (h : heap) (pn mn : node) (idx n : nat) : outcome merr bool :=
  match dfield h pn FDuration with
  | None => Ok false
  | Some _ =>
      match dfield h mn FMinUpd with
      | Some _ => Ok true
      | None =>
          if Nat.ltb (S idx) n then
            do q <- period_at h mn (S idx) ;
            Ok (match dfield h q FStart with Some _ => true | None => false end)
          else Ok false
      end
  end.
(** [Period.GetType] (period.go:66-98). *)
Definition get_ptype (h : heap) (p : loc) : outcome merr ptype :=
  do pn <- at_loc h p ;
  match parent pn with
  | None => Err ErrParentNotSet
  | Some m =>
      do mn <- at_loc h m ;
      let n := length (refs mn FPeriods) in
      do idx <- get_index h p ;
      match dfield h pn FStart with
      | Some _ =>
          do e <- is_early_terminated h pn mn idx n ;
          Ok (if e then PTEarlyTerminated else PTRegular)
      | None =>
          do prevdur <- (match idx with
                         | O => Ok None
                         | S i => do q <- period_at h mn i ; Ok (dfield h q FDuration)
                         end) ;
          match prevdur with
          | Some _ =>
              do e <- is_early_terminated h pn mn idx n ;
              Ok (if e then PTEarlyTerminated else PTRegularOrEarlyTerminated)
          | None =>
              if beq (mpd_type h mn) (str "dynamic") then Ok PTEarlyAvailable else Ok PTRegular
          end
      end
  end.

(** [Period.GetStart] (period.go:102-130).  Only the innermost error is kept; the Go code wraps it in a text
    ([%w]), which [errors.Is] sees through.  [fuel] bounds the recursion into earlier periods. *)
Fixpoint get_start (fuel : nat) (h : heap) (p : loc) : outcome merr Z :=
  match fuel with
  | O => OutOfFuel
  | S fuel =>
      do pn <- at_loc h p ;
      match parent pn with
      | None => Err ErrParentNotSet
      | Some m =>
          match dfield h pn FStart with
          | Some s => Ok s
          | None =>
              do idx <- get_index h p ;
              do mn <- at_loc h m ;
              match idx with
              | S i =>
                  match nth_error (refs mn FPeriods) i with
                  | Some (Some q) =>
                      do qn <- at_loc h q ;
                      match dfield h qn FDuration with
                      | Some d => do s <- get_start fuel h q ; Ok (wrap_i64 (s + d)%Z)
                      | None => Err ErrUnknownPeriodStart
                      end
                  | _ => Panic
                  end
              | O => if beq (mpd_type h mn) (str "static") then Ok 0%Z else Err ErrUnknownPeriodStart
              end
          end
      end
  end.

(** [Period.GetDuration] (period.go:133-175). *)
Definition get_duration (h : heap) (p : loc) : outcome merr Z :=
  do pn <- at_loc h p ;
  match dfield h pn FDuration with
  | Some d => Ok d
  | None =>
      match parent pn with
      | None => Err ErrParentNotSet
      | Some m =>
          do mn <- at_loc h m ;
          let n := length (refs mn FPeriods) in
          do idx <- get_index h p ;
          if beq (mpd_type h mn) (str "static") then
            match dfield h mn FMPDur with
            | None => Err ErrNoMediaPresentationDuration
            | Some mpdur =>
                do e <- (if Nat.ltb (S idx) n
                         then do q <- period_at h mn (S idx) ;
                              match dfield h q FStart with
                              | None => Err ErrUnknownPeriodDur
                              | Some s => Ok s
                              end
                         else Ok mpdur) ;
                match dfield h pn FStart with
                | None => Err ErrUnknownPeriodDur
                | Some s => Ok (wrap_i64 (e - s)%Z)
                end
            end
          else
            match dfield h pn FStart with
            | None => Err ErrUnknownPeriodDur
            | Some s =>
                if Nat.eqb (S idx) n then Err ErrUnknownPeriodDur
                else do q <- period_at h mn (S idx) ;
                     match dfield h q FStart with
                     | None => Err ErrUnknownPeriodDur
                     | Some e => Ok (wrap_i64 (e - s)%Z)
                     end
            end
      end
  end.

(** [Period.AbsoluteStart] (period.go:14-27). *)
Definition absolute_start (fuel : nat) (h : heap) (p m : loc) : outcome merr f64 :=
  do mn <- at_loc h m ;
  if beq (data mn FAst) [] then Err ErrASTRequired
  else match to_seconds (data mn FAst) with
       | None => Err ErrDate
       | Some ast =>
           do s <- get_start fuel h p ;
           Ok (fadd ast (dur_seconds s))
       end.

(** ** Accessors (mpd.go:407-424, 558-624) *)

(** [AdaptationSetType.GetSegmentTemplate], [GetMimeType], [GetCodecs], [GetContentProtections]. *)
Definition set_template (h : heap) (a : ptr) : outcome merr ptr := do n <- deref h a ; Ok (pfield n FTemplate).
Definition set_mime (h : heap) (a : ptr) : outcome merr bytes := do n <- deref h a ; Ok (data n FMime).
Definition set_codecs (h : heap) (a : ptr) : outcome merr bytes := do n <- deref h a ; Ok (data n FCodecs).
Definition set_prots (h : heap) (a : ptr) : outcome merr (list ptr) := do n <- deref h a ; Ok (refs n FProt).
(** [RepresentationType.GetSegmentTemplate] (mpd.go:558-563). *)
Definition rep_template (h : heap) (r : loc) : outcome merr ptr :=
  do n <- at_loc h r ;
  match pfield n FTemplate with None => set_template h (parent n) | Some t => Ok (Some t) end.
(** [GetMimeType] (mpd.go:603-608), [GetCodecs] (mpd.go:611-616), [GetContentProtections] (mpd.go:619-624). *)
Definition rep_mime (h : heap) (r : loc) : outcome merr bytes :=
  do n <- at_loc h r ;
  if beq (data n FMime) [] then set_mime h (parent n) else Ok (data n FMime).
Definition rep_codecs (h : heap) (r : loc) : outcome merr bytes :=
  do n <- at_loc h r ;
  if beq (data n FCodecs) [] then set_codecs h (parent n) else Ok (data n FCodecs).
Definition rep_prots (h : heap) (r : loc) : outcome merr (list ptr) :=
  do n <- at_loc h r ;
  match refs n FProt with [] => set_prots h (parent n) | l => Ok l end.

(** [strings.ReplaceAll(s, old, new)] for non-empty [old]: leftmost non-overlapping occurrences. *)
Fixpoint strip (pre s : bytes) : option bytes :=
  match pre, s with
  | [], _ => Some s
  | x :: p, y :: r => if Z.eqb x y then strip p r else None
  | _ :: _, [] => None
  end.
Fixpoint replace_all (fuel : nat) (s old new : bytes) : bytes :=
  match fuel with
  | O => s
  | S fuel =>
      match strip old s with
      | Some r => new ++ replace_all fuel r old new
      | None => match s with [] => [] | c :: r => c :: replace_all fuel r old new end
      end
  end.
(** [strconv.Itoa] of a non-negative number. *)
Fixpoint itoa_loop (fuel : nat) (n : Z) (acc : bytes) : bytes :=
  match fuel with
  | O => acc
  | S fuel => let acc := (48 + n mod 10)%Z :: acc in
              if (n / 10 =? 0)%Z then acc else itoa_loop fuel (n / 10)%Z acc
  end.
Definition itoa (n : Z) : bytes := itoa_loop 20 n [].
(** The two replacements of [GetInit] (mpd.go:577-579) and [GetMedia] (mpd.go:595-597). *)
Definition fill_template (s id : bytes) (bw : Z) : bytes :=
  let s := replace_all (length s) s (str "$RepresentationID$") id in
  replace_all (length s) s (str "$Bandwidth$") (itoa bw).
Definition get_address (f : fld) (h : heap) (r : loc) : outcome merr bytes :=
  do n <- at_loc h r ;
  match parent n with
  | None => Err ErrParentNotSet
  | Some _ =>
      do t <- rep_template h r ;
      match t with
      | None => Err ErrSegmentTemplateNotSet
      | Some t => do tn <- at_loc h t ;
                  Ok (fill_template (data tn f) (data n FId) (hd 0%Z (data n FBandwidth)))
      end
  end.
(** [GetInit] (mpd.go:568-581) and [GetMedia] (mpd.go:586-600); the test [r == nil] of the latter comes after
    the dereference and is dead. *)
Definition get_init := get_address FInit.
Definition get_media := get_address FMedia.

(** ** Cloning (mpd.go:132-136, 400-404; period.go:178-182) *)

(** [deepcopy.MustAnything] is an external library.  The model copies every object of the heap to a fresh
    address and redirects exported pointers into the copy; unexported fields are zero in the copy.  Copying
    unreachable objects too makes no difference to what can be reached from the copy. *)
Definition shift (k : nat) (p : ptr) : ptr := option_map (fun l => k + l)%nat p.
Definition copy_node (k : nat) (n : node) : node :=
  Node (nkind n) (data n) (fun f => map (shift k) (refs n f)) None.
Definition deep_copy (h : heap) (l : loc) : heap * loc :=
  (Heap (fun x => if Nat.ltb x (next h) then mem h x
                  else option_map (copy_node (next h)) (mem h (x - next h)))
        (next h + next h), next h + l)%nat.
(** [Clone], [Period.Clone], [AdaptationSetType.Clone]: copy, then [SetParents]. *)
Definition clone (sp : heap -> ptr -> outcome merr heap) (h : heap) (l : loc) : outcome merr (heap * loc) :=
  let '(h', l') := deep_copy h l in
  do h'' <- sp h' (Some l') ; Ok (h'', l').
Definition clone_mpd := clone mpd_set_parents.
Definition clone_period := clone period_set_parents.
Definition clone_set := clone set_set_parents.
