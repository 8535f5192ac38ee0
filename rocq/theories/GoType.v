(** Go types and values as far as package xml looks at them through package reflect. *)
From Coq Require Import String.
From Coq Require Import ZArith List Bool SpecFloat.
From Verif Require Import Base Float64 Lexer.
Import ListNotations.
Open Scope Z_scope.

(** Types, by kind.  Named types other than structs are their kinds, except mpd.Duration and mpd.FloatInf64, the only
    types of the module with XML methods (MarshalXMLAttr and UnmarshalXMLAttr, on pointers).  Interfaces, maps,
    arrays, byte slices and types with MarshalXML, MarshalText and the like do not occur in package mpd and are left out.
    [int] has 64 bits. *)
Inductive gtype :=
| TString | TBool | TInt (bits : Z) | TUint (bits : Z) | TFloat (bits : Z)
| TDuration | TFloatInf
| TPtr (t : gtype) | TSlice (t : gtype) | TStruct (s : bytes) | TName | TAttr.

(** A struct field (reflect.StructField): its name, whether it is embedded, the value of the tag key xml, its type. *)
Record fdecl := mkfd { fd_name : bytes; fd_anon : bool; fd_tag : bytes; fd_type : gtype }.
Record sdecl := mksd { sd_name : bytes; sd_fields : list fdecl }.
(** Exported names start with an upper case letter; those of package mpd are ASCII. *)
Definition exported (n : bytes) : bool := match n with c :: _ => (65 <=? c) && (c <=? 90) | [] => false end.

(** The declared struct types. *)
Definition tenv := list sdecl.
Fixpoint lookup (env : tenv) (n : bytes) : option sdecl :=
  match env with [] => None | d :: env => if beq (sd_name d) n then Some d else lookup env n end.
Definition fields_of (env : tenv) (n : bytes) : list fdecl := match lookup env n with Some d => sd_fields d | None => [] end.

(** Values.  Memory is left out: a pointer is nil or holds its value, so sharing and cycles are not represented; the
    nil slice and the empty slice are not distinguished.  Structs have their fields in order. *)
Inductive gval :=
| VStr (s : bytes) | VBool (b : bool) | VInt (z : Z) | VFloat (f : f64)
| VNil | VPtr (v : gval) | VList (l : list gval) | VRec (l : list gval) | VName (n : name) | VAttr (a : attr).

(** The zero value; [k] bounds the nesting of structs by value, which Go keeps finite. *)
Fixpoint zero (k : nat) (env : tenv) (t : gtype) : gval :=
  match t with
  | TString => VStr [] | TBool => VBool false | TInt _ | TUint _ | TDuration => VInt 0 | TFloat _ | TFloatInf => VFloat (S754_zero false)
  | TPtr _ => VNil | TSlice _ => VList []
  | TStruct s => VRec (match k with O => [] | S k => map (fun f => zero k env (fd_type f)) (fields_of env s) end)
  | TName => VName (mkname [] []) | TAttr => VAttr (mkattr (mkname [] []) [])
  end.
