(** The caches of type information, shared by all goroutines (xml/typeinfo.go:57-87, 93-167).

    sync.Map is a map whose operations are atomic (standard library, from its documentation).  What is stored is not
    changed afterwards: getTypeInfo only copies out of the information about embedded structs. *)
From Coq Require Import String.
From Coq Require Import ZArith List Bool Lia.
From Verif Require Import Base Lexer Printer GoType TypeInfo.
Import ListNotations.

(** *** Goroutines that share a map *)
Section Shared.
Context {K V : Type} (keq : K -> K -> bool).
(** What a goroutine does with the map until it has its result. *)
Inductive prog (A : Type) : Type :=
| Ret (a : A)
| Load (key : K) (next : option V -> prog A)
| Store (key : K) (v : V) (next : prog A)
| LoadOrStore (key : K) (v : V) (next : V -> prog A).
Definition cache := K -> option V.
Definition empty : cache := fun _ => None.
Definition put (c : cache) (key : K) (v : V) : cache := fun x => if keq key x then Some v else c x.
(** One operation. *)
Definition step1 {A} (c : cache) (p : prog A) : cache * prog A :=
  match p with
  | Ret _ a => (c, Ret _ a)
  | Load _ key next => (c, next (c key))
  | Store _ key v next => (put c key v, next)
  | LoadOrStore _ key v next => match c key with Some w => (c, next w) | None => (put c key v, next v) end
  end.
(** All goroutines, each with what it was asked for.  At any time a new call is made or a goroutine does its next operation. *)
Definition world (A : Type) : Type := cache * list (K * prog A).
Inductive step {A} (call : K -> prog A) : world A -> world A -> Prop :=
| S_call c l key : step call (c, l) (c, l ++ [(key, call key)])
| S_run c a key p b c' p' : step1 c p = (c', p') -> step call (c, a ++ (key, p) :: b) (c', a ++ (key, p') :: b).
Inductive reach {A} (call : K -> prog A) : world A -> Prop :=
| R_start : reach call (empty, [])
| R_step w w' : reach call w -> step call w w' -> reach call w'.
End Shared.
Arguments Ret {K V A}. Arguments Load {K V A}. Arguments Store {K V A}. Arguments LoadOrStore {K V A}.
Fixpoint pbind {K V A B} (p : @prog K V A) (f : A -> @prog K V B) : @prog K V B :=
  match p with
  | Ret a => f a
  | Load key next => Load key (fun o => pbind (next o) f)
  | Store key v next => Store key v (pbind next f)
  | LoadOrStore key v next => LoadOrStore key v (fun w => pbind (next w) f)
  end.

(** typeinfo.go:70-87 getTypeImpl; [compute] is the asking of package reflect. *)
Definition get_type_impl {T I} (compute : T -> I) (t : T) : @prog T I I :=
  Load t (fun o => match o with Some v => Ret v | None => let v := compute t in Store t v (Ret v) end).

(** typeinfo.go:93-167 getTypeInfo, with the loop as in TypeInfo.v but the cache used for embedded structs. *)
Definition tprog := @prog bytes tinfo.
Definition pdo {A B} (x : outcome terr A) (f : A -> tprog (outcome terr B)) : tprog (outcome terr B) :=
  match x with Ok a => f a | Err e => Ret (Err e) | Panic => Ret Panic | OutOfFuel => Ret OutOfFuel end.
Fixpoint field_loop_p (env : tenv) (inner : bytes -> tprog (outcome terr tinfo)) (i : nat) (fs : list fdecl) (xmlname : option finfo) (fields : list finfo)
  : tprog (outcome terr (option finfo * list finfo)) :=
  match fs with
  | [] => Ret (Ok (xmlname, fields))
  | f :: fs =>
      if negb (exported (fd_name f)) && negb (fd_anon f) || beq (fd_tag f) (str "-") then field_loop_p env inner (S i) fs xmlname fields
      else match (if fd_anon f then embedded (fd_type f) else None) with
           | Some s =>
               pbind (inner s) (fun r => pdo r (fun ti =>
                 let xmlname := match xmlname, ti_xmlname ti with
                                | None, Some x => if beq (fi_name x) [] then None else Some x
                                | _, _ => xmlname
                                end in
                 pdo (add_fields fields (map (prefix_idx i) (ti_fields ti))) (fun fields => field_loop_p env inner (S i) fs xmlname fields)))
           | None =>
               pdo (struct_field_info env i f) (fun fi =>
                 if beq (fd_name f) xml_name then field_loop_p env inner (S i) fs (Some fi) fields
                 else pdo (add_field fields fi) (fun fields => field_loop_p env inner (S i) fs xmlname fields))
           end
  end.
Fixpoint get_type_info (k : nat) (env : tenv) (s : bytes) : tprog (outcome terr tinfo) :=
  match k with
  | O => Ret OutOfFuel
  | S k =>
      Load s (fun o =>
        match o with
        | Some ti => Ret (Ok ti)
        | None =>
            pbind (field_loop_p env (get_type_info k env) 0 (fields_of env s) None []) (fun r =>
              pdo r (fun '(x, fields) => LoadOrStore s (finish x fields) (fun ti => Ret (Ok ti))))
        end)
  end.
