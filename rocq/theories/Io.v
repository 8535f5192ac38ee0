(** Reading and writing MPDs: mpd/io.go:25-113 with the struct types of package mpd. *)
From Coq Require Import String.
From Coq Require Import ZArith List Bool.
From Verif Require Import Base Utf8 Lexer Escape Decoder Printer Writer GoType Schema TypeInfo Simple Marshal Unmarshal.
Import ListNotations.
Open Scope Z_scope.

(** How deep structs and slices are nested in a value. *)
Fixpoint height (v : gval) : nat :=
  match v with
  | VPtr w => height w
  | VList l | VRec l => S (fold_right Nat.max O (map height l))
  | _ => 1%nat
  end.
(** Structs of package mpd are embedded in each other at most this deep. *)
Definition embed_depth : nat := 10.
(** What Encode does for a pointer to a value of struct type [s] (marshal.go:214-220). *)
Definition program (F : floats) (s : bytes) (v : gval) : M unit :=
  marshal_value F mpd_types embed_depth (S (height v)) true (TPtr (TStruct s)) (VPtr v) None None.
(** io.go:59-78 WriteXML, 84-86 MPD.Write and 101-103 Period.Write *)
Definition write_value (F : floats) (o : writer) (s : bytes) (v : gval) (indent : bytes) (header : bool) (e : encoder) :=
  write_xml o (program F s v) indent header e.
(** io.go:46-54 MPDFromBytes, without SetParents (Objects.v [load]) *)
Definition read_mpd (F : floats) (inp : bytes) : outcome uerr gval := mpd_from_bytes F mpd_types embed_depth inp.
Definition zero_value (s : bytes) : gval := zero embed_depth mpd_types (TStruct s).
