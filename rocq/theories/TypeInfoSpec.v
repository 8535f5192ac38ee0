(** What field conflicts and promoted fields are, stated on paths and declarations only. *)
From Coq Require Import String.
From Coq Require Import ZArith List Bool.
From Verif Require Import Base Lexer GoType TypeInfo.
Import ListNotations.
Open Scope Z_scope.

(** The element path of a field: its parents and its name. *)
Definition path (f : finfo) : list bytes := fi_parents f ++ [fi_name f].
Definition extends (p q : list bytes) : Prop := exists r, r <> [] /\ q = p ++ r.
(** The kind of field: everything but omitempty. *)
Definition kind (f : finfo) := let g := fi_flags f in (g_element g, g_attr g, g_cdata g, g_chardata g, g_innerxml g, g_comment g, g_any g).
(** Two fields clash if they are of the same kind and have the same path and namespace, or one path goes on where the
    other ends and the namespaces are not different. *)
Definition clash (f g : finfo) : Prop :=
  kind f = kind g /\
  (path f = path g /\ fi_xmlns f = fi_xmlns g \/
   (extends (path f) (path g) \/ extends (path g) (path f)) /\ (fi_xmlns f = [] \/ fi_xmlns g = [] \/ fi_xmlns f = fi_xmlns g)).

(** The fields of a struct and, through embedded structs, of the structs in it, at any depth. *)
Definition visible (f : fdecl) : Prop := (exported (fd_name f) = true \/ fd_anon f = true) /\ fd_tag f <> str "-".
Definition embeds (f : fdecl) (s : bytes) : Prop := fd_anon f = true /\ (fd_type f = TStruct s \/ fd_type f = TPtr (TStruct s)).
Definition deeper (i : nat) (f : finfo) : finfo := mkfi (i :: fi_idx f) (fi_prefix f) (fi_name f) (fi_xmlns f) (fi_flags f) (fi_parents f).
Inductive promoted (env : tenv) : bytes -> finfo -> Prop :=
| P_own s i f fi : nth_error (fields_of env s) i = Some f -> visible f -> (forall s', ~ embeds f s') -> fd_name f <> str "XMLName" ->
    struct_field_info env i f = Ok fi -> promoted env s fi
| P_inner s i f s' fi : nth_error (fields_of env s) i = Some f -> visible f -> embeds f s' -> promoted env s' fi -> promoted env s (deeper i fi).
Definition shallower (f g : finfo) : Prop := (length (fi_idx f) < length (fi_idx g))%nat.
Definition level (f g : finfo) : Prop := length (fi_idx f) = length (fi_idx g).
(** Fields without parent elements. *)
Definition flat (f : finfo) : Prop := fi_parents f = [].
(** Two fields at different places of a list clash. *)
Definition clash_free (l : list finfo) : Prop := forall i j f g, i <> j -> nth_error l i = Some f -> nth_error l j = Some g -> ~ clash f g.
(** Fields that stand for the same attribute, element or other content. *)
Definition same_slot (f g : finfo) : Prop := kind f = kind g /\ fi_name f = fi_name g /\ fi_xmlns f = fi_xmlns g.

(** The candidates of a struct, in order of declaration: its own fields, and for an embedded struct the fields that are
    kept of it ([inner]). *)
Inductive listed (env : tenv) (inner : bytes -> outcome terr tinfo) : nat -> list fdecl -> list finfo -> Prop :=
| L_nil i : listed env inner i [] []
| L_skip i f fs cs : ~ visible f -> listed env inner (S i) fs cs -> listed env inner i (f :: fs) cs
| L_name i f fs fi cs : visible f -> (forall s, ~ embeds f s) -> fd_name f = str "XMLName" -> struct_field_info env i f = Ok fi -> listed env inner (S i) fs cs -> listed env inner i (f :: fs) cs
| L_own i f fs fi cs : visible f -> (forall s, ~ embeds f s) -> fd_name f <> str "XMLName" -> struct_field_info env i f = Ok fi ->
    listed env inner (S i) fs cs -> listed env inner i (f :: fs) (fi :: cs)
| L_inner i f fs s ti cs : visible f -> embeds f s -> inner s = Ok ti -> listed env inner (S i) fs cs -> listed env inner i (f :: fs) (map (deeper i) (ti_fields ti) ++ cs).

(** *** Which field gets an attribute *)
Definition is_attr (f : finfo) : Prop := kind f = (false, true, false, false, false, false, false).
Definition is_any_attr (f : finfo) : Prop := kind f = (false, true, false, false, false, false, true).
(** The field for an attribute: the one with its namespace and name; or, if there is none, one with its name and no
    namespace; or, if there is none, the first field for any attribute. *)
Definition exact (n : name) (f : finfo) : Prop := is_attr f /\ fi_xmlns f = space n /\ fi_name f = local n.
Definition no_space (n : name) (f : finfo) : Prop := is_attr f /\ fi_xmlns f = [] /\ fi_name f = local n.
Inductive chosen (fs : list finfo) (n : name) : option finfo -> Prop :=
| Ch_exact f : In f fs -> exact n f -> chosen fs n (Some f)
| Ch_plain f : In f fs -> (forall g, In g fs -> ~ exact n g) -> no_space n f -> chosen fs n (Some f)
| Ch_any a f b : fs = a ++ f :: b -> (forall g, In g fs -> ~ exact n g /\ ~ no_space n g) -> is_any_attr f -> (forall g, In g a -> ~ is_any_attr g) -> chosen fs n (Some f)
| Ch_none : (forall g, In g fs -> ~ exact n g /\ ~ no_space n g /\ ~ is_any_attr g) -> chosen fs n None.
(** The fields encoding/xml stores an attribute in: all that match, or else the first field for any attribute. *)
Definition matches (n : name) (f : finfo) : bool := mode_eqb (fi_flags f) m_attr && beq (fi_name f) (local n) && (beq (fi_xmlns f) [] || beq (fi_xmlns f) (space n)).
Definition linear_search (fs : list finfo) (n : name) : list finfo :=
  match filter (matches n) fs with
  | [] => match find (fun f => mode_eqb (fi_flags f) m_any_attr) fs with Some f => [f] | None => [] end
  | l => l
  end.
