(** Values that belong to a type, and the struct types that the reader and writer can handle without a crash. *)
From Coq Require Import String.
From Coq Require Import ZArith List Bool.
From Verif Require Import Base Lexer GoType TypeInfo Simple.
Import ListNotations.
Open Scope Z_scope.

(** A value of a type: integers fit in their bits (of which there is at least one), structs have all their fields. *)
Fixpoint wt (env : tenv) (t : gtype) (v : gval) {struct v} : bool :=
  match v with
  | VStr _ => match t with TString => true | _ => false end
  | VBool _ => match t with TBool => true | _ => false end
  | VInt z => match t with
              | TInt b => (z =? 0) || (- 2 ^ (b - 1) <=? z) && (z <? 2 ^ (b - 1))
              | TUint b => (z =? 0) || (0 <=? z) && (z <? 2 ^ b)
              | TDuration => (- 2 ^ 63 <=? z) && (z <? 2 ^ 63)
              | _ => false
              end
  | VFloat _ => match t with TFloat _ | TFloatInf => true | _ => false end
  | VNil => match t with TPtr _ => true | _ => false end
  | VPtr w => match t with TPtr t => wt env t w | _ => false end
  | VList l => match t with TSlice t => forallb (wt env t) l | _ => false end
  | VRec l =>
      match t with
      | TStruct s =>
          (fix go (fs : list fdecl) (l : list gval) {struct l} : bool :=
             match fs, l with
             | [], [] => true
             | f :: fs, w :: l => wt env (fd_type f) w && go fs l
             | _, _ => false
             end) (fields_of env s) l
      | _ => false
      end
  | VName _ => match t with TName => true | _ => false end
  | VAttr _ => match t with TAttr => true | _ => false end
  end.

(** The declaration of a field of a struct or of a struct embedded in it. *)
Fixpoint decl_at (env : tenv) (s : bytes) (idx : list nat) : option fdecl :=
  match idx with
  | [] => None
  | x :: rest =>
      match nth_error (fields_of env s) x with
      | None => None
      | Some f => match rest with [] => Some f | _ => match fd_type f with TStruct s' | TPtr (TStruct s') => decl_at env s' rest | _ => None end end
      end
  end.
(** The type of the items in a field: behind pointers and slices. *)
Fixpoint item (t : gtype) : gtype := match t with TPtr t | TSlice t => item t | _ => t end.

(** Types of attributes that can be read: behind a second pointer there is no slice and no type with a method of its own. *)
Fixpoint attr_readable (t : gtype) : bool :=
  match t with
  | TSlice t => attr_readable t
  | TPtr (TSlice t) => attr_readable t
  | TPtr (TPtr (TSlice _ | TDuration | TFloatInf)) => false
  | _ => true
  end.
(** Types of text fields: no slices. *)
Definition text_readable (t : gtype) : bool := match t with TSlice _ | TPtr (TSlice _) => false | _ => true end.
(** Types of comment fields: no slices (those of bytes, which can be read, are left out). *)
Definition comment_readable (t : gtype) : bool := match t with TSlice _ => false | _ => true end.
(** Types of elements: anything but xml.Attr, which the model leaves out. *)
Definition element_readable (t : gtype) : bool := match item t with TAttr => false | _ => true end.
Definition readable (g : fflags) (t : gtype) : bool :=
  if g_attr g then attr_readable t
  else (negb (mode_eqb g m_cdata || mode_eqb g m_chardata) || text_readable t) && (negb (mode_eqb g m_comment) || comment_readable t) && (negb (g_element g || g_any g) || element_readable t).

(** Struct types for which type analysis comes to an end, whose zero values are values, and whose fields have types that
    can be read. *)
Record env_ok (ek : nat) (env : tenv) : Prop := mkeo {
  eo_zero : forall s, wt env (TStruct s) (zero ek env (TStruct s)) = true;
  eo_info : forall s, (exists ti, type_info ek env s = Ok ti) \/ exists e, type_info ek env s = Err e;
  eo_name : forall s ti x, type_info ek env s = Ok ti -> ti_xmlname ti = Some x -> decl_at env s (fi_idx x) <> None;
  eo_field : forall s ti f fd, type_info ek env s = Ok ti -> In f (ti_fields ti) -> decl_at env s (fi_idx f) = Some fd -> readable (fi_flags f) (fd_type fd) = true
}.

(** How many calls it takes to get from a field to an item: one, and one for every slice. *)
Fixpoint layers (t : gtype) : nat :=
  match t with
  | TSlice t => S (layers t)
  | TPtr (TSlice t) => S (layers t)
  | _ => 1
  end.
Definition element_like (f : finfo) : bool := g_element (fi_flags f) || g_any (fi_flags f).
(** No element field has more layers than this. *)
Definition layered (ek : nat) (env : tenv) (W : nat) : Prop :=
  forall s ti f fd, type_info ek env s = Ok ti -> In f (ti_fields ti) -> decl_at env s (fi_idx f) = Some fd -> (layers (fd_type fd) <= W)%nat.
(** Types that are not recursive: a number for every struct that is larger than what its fields need. *)
Fixpoint needs (rk : bytes -> nat) (t : gtype) : nat :=
  match t with
  | TSlice t => S (needs rk t)
  | TPtr (TSlice t) => S (needs rk t)
  | TPtr (TStruct s) | TStruct s => S (rk s)
  | _ => 1
  end.
Definition ranked (ek : nat) (env : tenv) (rk : bytes -> nat) : Prop :=
  forall s ti f fd, type_info ek env s = Ok ti -> In f (ti_fields ti) -> element_like f = true -> decl_at env s (fi_idx f) = Some fd -> (needs rk (fd_type fd) <= rk s)%nat.
