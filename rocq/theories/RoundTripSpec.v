(** What is compared after writing and reading a value, and which values this is claimed for. *)
From Coq Require Import String.
From Coq Require Import ZArith List Bool SpecFloat.
From Verif Require Import Base Utf8 Lexer EscapeSpec Printer GoType TypeInfo Simple NsSpec.
Import ListNotations.
Open Scope Z_scope.

(** *** Declarations *)
(** Fields that are not compared: not exported, left out by their tags, or an XMLName whose tag gives the name. *)
Definition skipped (f : fdecl) : bool :=
  negb (exported (fd_name f)) && negb (fd_anon f) || beq (fd_tag f) (str "-") || beq (fd_name f) xml_name && negb (beq (fd_tag f) []).
(** An XMLName that holds the name of the element. *)
Definition names_itself (f : fdecl) : bool := beq (fd_name f) xml_name && beq (fd_tag f) [].
Definition flags_of (f : fdecl) : fflags := match parse_tag f with Ok (_, _, g) => g | _ => no_flags end.
Fixpoint item_of (t : gtype) : gtype := match t with TPtr t | TSlice t => item_of t | _ => t end.
(** A declaration of a namespace among attributes. *)
Definition is_decl (a : attr) : bool := beq (space (aname a)) (str "http://www.w3.org/2000/xmlns/") || beq (space (aname a)) [] && beq (local (aname a)) (str "xmlns").
Fixpoint attrs_in (l : list gval) : list attr := match l with [] => [] | VAttr a :: l => a :: attrs_in l | _ :: l => attrs_in l end.
Definition genuine (l : list gval) : list attr := filter (fun a => negb (is_decl a)) (attrs_in l).

Section Spec.
Variables (F : floats) (env : tenv).
(** The name of a field in documents: that of its tag, or of its type, or its own. *)
Definition label (f : fdecl) : bytes := match struct_field_info env 0 f with Ok x => fi_name x | _ => [] end.

(** *** The same content *)
(** Equal but for fields that are not compared and for namespace declarations among captured attributes. *)
Fixpoint same (t : gtype) (v v' : gval) {struct v} : Prop :=
  match v with
  | VPtr w => match t, v' with TPtr t, VPtr w' => same t w w' | _, _ => False end
  | VList l =>
      match t, v' with
      | TSlice TAttr, VList l' => genuine l' = genuine l
      | TSlice t, VList l' => (fix go (l l' : list gval) {struct l} : Prop := match l, l' with [], [] => True | w :: l, w' :: l' => same t w w' /\ go l l' | _, _ => False end) l l'
      | _, _ => False
      end
  | VRec l =>
      match t, v' with
      | TStruct s, VRec l' =>
          (fix go (fs : list fdecl) (l l' : list gval) {struct l} : Prop :=
             match fs, l, l' with
             | [], [], [] => True
             | f :: fs, w :: l, w' :: l' => (skipped f = true \/ same (fd_type f) w w') /\ go fs l l'
             | _, _, _ => False
             end) (fields_of env s) l l'
      | _, _ => False
      end
  | _ => v' = v
  end.

(** *** Values that are kept *)
(** The text of a simple value in an attribute, and what it is read as. *)
Definition leaf_text (t : gtype) (v : gval) : option bytes := if has_method t then match method_text F t v with Ok s => Some s | _ => None end else simple_text F t v.
Definition leaf_value (t : gtype) (s : bytes) : outcome uerr gval := if has_method t then method_value F t s else copy_value F t s.
(** Durations and floats are kept if their texts are read as the same number. *)
Definition kept (t : gtype) (v : gval) : Prop := exists s, leaf_text t v = Some s /\ xml_text s /\ leaf_value t s = Ok v.
(** Elements of the type are given a name that is not the one their field is read with. *)
Definition misnamed (f : fdecl) : bool :=
  match item_of (fd_type f) with
  | TStruct s => match find_xmlname 0 (fields_of env s) with Some x => negb (beq (fi_name x) (label f)) | None => false end
  | _ => false
  end.
Definition has_raw (s : bytes) : bool := existsb (fun f => g_innerxml (flags_of f)) (fields_of env s).
Definition has_text (s : bytes) : bool := existsb (fun f => g_chardata (flags_of f)) (fields_of env s).
Definition is_child (f : fdecl) : bool := g_element (flags_of f) && negb (fd_anon f) && negb (beq (fd_name f) xml_name).
Definition absent (w : gval) : Prop := w = VNil \/ w = VList [].
Fixpoint own_name (fs : list fdecl) (l : list gval) : option name :=
  match fs, l with
  | f :: fs, w :: l => if names_itself f then match w with VName n => Some n | _ => None end else own_name fs l
  | _, _ => None
  end.
(** A captured attribute: without namespace, not one that has a field, and a default namespace only if it is that of the
    element itself. *)
Definition captured (s : bytes) (own : option bytes) (a : attr) : Prop :=
  space (aname a) = [] /\ simple (local (aname a)) /\ xml_text (avalue a) /\ (local (aname a) = str "xmlns" -> own = Some (avalue a)) /\
  forall g, In g (fields_of env s) -> g_attr (flags_of g) = true -> label g <> local (aname a).
(** [i]: the document is indented. *)
Definition field_kept (i : bool) (s : bytes) (own : option bytes) (f : fdecl) (w : gval) : Prop :=
  (fd_anon f = true -> w <> VNil) /\
  (misnamed f = true -> absent w) /\
  (i = true -> has_text s = true -> is_child f = true -> absent w) /\
  (w = VFloat (S754_zero true) -> g_omit (flags_of f) = false) /\
  (forall l a, w = VList l -> In (VAttr a) l -> captured s own a).
Definition ordinary_ns (u : bytes) : Prop := u <> [] /\ u <> str "http://www.w3.org/XML/1998/namespace" /\ u <> str "http://www.w3.org/2000/xmlns/" /\ xml_text u.
(** The value [v] of type [t], in a field named [l], inside elements that hold their names and have the namespace [d]:
    strings can be written in XML, durations and floats are kept, lists have no nil entries, pointers to lists point to
    entries, no raw XML, elements that hold their names use one namespace and the names of their fields. *)
Fixpoint clean (i : bool) (d : option bytes) (l : bytes) (t : gtype) (v : gval) {struct v} : Prop :=
  match v with
  | VStr x => xml_text x
  | VInt _ | VFloat _ => match t with TDuration | TFloat _ | TFloatInf => kept t v | _ => True end
  | VPtr w => w <> VList [] /\ match t with TPtr t => clean i d l t w | _ => False end
  | VList ws => match t with TSlice t => (fix go (ws : list gval) : Prop := match ws with [] => True | w :: ws => (w <> VNil /\ clean i d l t w) /\ go ws end) ws | _ => False end
  | VRec ws =>
      match t with
      | TStruct s =>
          has_raw s = false /\
          let own := option_map space (own_name (fields_of env s) ws) in
          (forall n, own_name (fields_of env s) ws = Some n -> local n = l /\ ordinary_ns (space n) /\ (d = None \/ d = Some (space n))) /\
          (fix go (fs : list fdecl) (ws : list gval) {struct ws} : Prop :=
             match fs, ws with
             | f :: fs, w :: ws => (skipped f = true \/ field_kept i s own f w /\ clean i (match own with Some u => Some u | None => d end) (label f) (fd_type f) w) /\ go fs ws
             | _, _ => True
             end) (fields_of env s) ws
      | _ => False
      end
  | _ => True
  end.
End Spec.
