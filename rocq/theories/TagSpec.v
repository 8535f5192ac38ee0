(** Struct tags as they are composed: "[namespace ][parent>...][prefix:]name[,flag...]". *)
From Coq Require Import String.
From Coq Require Import ZArith List Bool.
From Verif Require Import Base GoType TypeInfo.
Import ListNotations.
Open Scope Z_scope.

Definition word (x : bytes) : Prop := ~ In 32 x /\ ~ In 44 x /\ ~ In 58 x /\ ~ In 62 x.
Definition space_part (ns : bytes) : bytes := match ns with [] => [] | _ => ns ++ [32] end.
Definition name_part (p n : bytes) : bytes := match p with [] => n | _ => p ++ 58 :: n end.
Definition path_part (parents : list bytes) : bytes := concat (map (fun x => x ++ [62]) parents).
Definition flag_part (flags : list string) : bytes := concat (map (fun f => 44 :: str f) flags).
Definition tag_text (ns : bytes) (parents : list bytes) (p n : bytes) (flags : list string) : bytes :=
  space_part ns ++ (path_part parents ++ name_part p n) ++ flag_part flags.
Definition omit_flag (omit : bool) : list string := if omit then ["omitempty"%string] else [].
Definition attr_flags (omit : bool) : fflags := mkff false true false false false false false omit.
Definition element_flags (omit : bool) : fflags := mkff true false false false false false false omit.
