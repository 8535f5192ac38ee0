(** What is required of struct types for their values to be read as they were written; decided by computation. *)
From Coq Require Import String.
From Coq Require Import ZArith List Bool Lia ZifyBool ZifyNat.
From Verif Require Import Base Utf8 Lexer EscapeSpec Printer EncoderSpec GoType Schema TypeInfo Simple ValueSpec Marshal Unmarshal Io MarshalProofs PropertiesUnmarshal PropertiesMarshal NsSpec NsTags Plan PlanText Lens Load LeafProofs RoundTripSpec.
Import ListNotations.
Open Scope Z_scope.

Definition eqf (a b : fflags) : bool := mode_eqb a b && eqb (g_omit a) (g_omit b).
Definition inb (u : bytes) (l : list bytes) : bool := existsb (beq u) l.
Definition mem (x : list nat) (l : list (list nat)) : bool := existsb (nat_eqb_list x) l.
Definition letter (c : Z) : bool := Utf8.within 65 90 c || Utf8.within 97 122 c || (c =? 95).
Definition simpleb (s : bytes) : bool :=
  match s with [] => false | c :: t => letter c && forallb (fun c => letter c || Utf8.within 48 57 c || (c =? 45) || (c =? 46)) t end.
Fixpoint pairs {A} (p : A -> A -> bool) (l : list A) : bool := match l with [] => true | x :: l => forallb (p x) l && pairs p l end.
Fixpoint first_self (i : nat) (fs : list fdecl) : option nat := match fs with [] => None | f :: fs => if names_itself f then Some i else first_self (S i) fs end.
Definition xmlns_uri : bytes := str "http://www.w3.org/2000/xmlns/".

Section Check.
Variables (env : tenv) (ek : nat) (pfx : bytes -> bytes) (known : list bytes).

(** *** Fields *)
Fixpoint path_ok (s : bytes) (idx : list nat) : bool :=
  match idx with
  | [] => false
  | x :: rest =>
      match nth_error (fields_of env s) x with
      | None => false
      | Some f =>
          negb (skipped f) &&
          match rest with
          | [] => true
          | _ => match fd_type f with
                 | TStruct s' | TPtr (TStruct s') => fd_anon f && none (first_self 0 (fields_of env s')) && path_ok s' rest
                 | _ => false
                 end
          end
      end
  end.
Definition goes_to (ti : tinfo) (n : name) (f : finfo) : bool := match attr_field ti n with Some g => nat_eqb_list (fi_idx g) (fi_idx f) | None => false end.
(** Declarations go to no field, or among the captured attributes. *)
Definition ignores (ti : tinfo) (n : name) : bool := match attr_field ti n with None => true | Some g => mode_eqb (fi_flags g) m_any_attr end.
Definition direct (f : finfo) : bool := match fi_idx f with [_] => true | _ => false end.
(** A name without namespace and prefix, or in a known namespace with its prefix. *)
Definition ns_ok (f : finfo) : bool := if beq (fi_xmlns f) [] then beq (fi_prefix f) [] else inb (fi_xmlns f) known && beq (fi_prefix f) (pfx (fi_xmlns f)).
Definition attr_shape (t : gtype) : bool :=
  match t with
  | TPtr (TSlice TString) => true
  | TPtr t | t => simple_type t && bits_ok t
  end.
Definition attr_ok (ti : tinfo) (f : finfo) (fd : fdecl) : bool :=
  attr_shape (fd_type fd) && simpleb (fi_name f) && goes_to ti (mkname (fi_xmlns f) (fi_name f)) f &&
  (if beq (fi_xmlns f) [] then beq (snd (split_prefixed (join_prefixed (fi_prefix f) (fi_name f)))) (fi_name f) && (negb (beq (fi_name f) (str "xmlns")) || beq (fi_prefix f) [])
   else inb (fi_xmlns f) known && beq (fi_prefix f) (pfx (fi_xmlns f))).
Definition any_ok (ti : tinfo) (f : finfo) (fd : fdecl) : bool :=
  match fd_type fd with TSlice TAttr => true | _ => false end && negb (g_omit (fi_flags f)) && direct f &&
  match ti_anyattr ti with Some g => nat_eqb_list (fi_idx g) (fi_idx f) | None => false end &&
  forallb (fun g => negb (mode_eqb (fi_flags g) m_attr) || direct g) (ti_fields ti).
Definition data_ok (ti : tinfo) (f : finfo) (fd : fdecl) : bool :=
  match fd_type fd with TString => true | _ => false end && match first_mode is_data (ti_fields ti) with Some g => nat_eqb_list (fi_idx g) (fi_idx f) | None => false end.

(** *** Elements *)
Definition attrs_of (ti : tinfo) : list finfo := filter (fun f => mode_eqb (fi_flags f) m_attr) (ti_fields ti).
(** The namespaces in the tags of elements of a struct, the element being in the namespace [u]. *)
Definition uses (u : bytes) (ti : tinfo) : list bytes := filter (fun u => negb (beq u [])) (u :: map fi_xmlns (attrs_of ti)).
Definition distinctb (us : list bytes) : bool := forallb (fun u => inb u known) us && forallb (fun u => forallb (fun v => negb (beq (pfx u) (pfx v)) || beq u v) us) us.
(** No field for a default namespace. *)
Definition no_default (ti : tinfo) : bool := ignores ti (mkname [] (str "xmlns")).
Definition item_ok (s' : bytes) (f : finfo) (fd : fdecl) : bool :=
  has_raw env s' ||
  match type_info ek env s' with
  | Ok ti =>
      no_default ti &&
      match ti_xmlname ti with
      | None => ns_ok f && distinctb (uses (fi_xmlns f) ti)
      | Some x =>
          if beq (fi_name x) [] then beq (fi_xmlns x) [] && beq (fi_xmlns f) [] && forallb (fun g => beq (fi_xmlns g) []) (attrs_of ti)
          else if beq (fi_name x) (fi_name f) then (beq (fi_xmlns f) [] || beq (fi_xmlns f) (fi_xmlns x)) && ns_ok x && distinctb (uses (fi_xmlns x) ti)
          else misnamed env fd
      end
  | _ => false
  end.
Definition unit_ok (t : gtype) (f : finfo) (fd : fdecl) : bool :=
  match t with
  | TPtr (TStruct s') | TStruct s' => item_ok s' f fd
  | _ => false
  end.
Definition plain_leaf (t : gtype) : bool := simple_type t && bits_ok t && negb (has_method t).
Definition elem_ok (s : bytes) (ti : tinfo) (f : finfo) (fd : fdecl) : bool :=
  simpleb (fi_name f) && negb (beq (fi_name f) (str "xmlns")) &&
  match fd_type fd with
  | TSlice t => unit_ok t f fd
  | TPtr t => plain_leaf t && ns_ok f && distinctb (uses (fi_xmlns f) empty_info) || unit_ok (TPtr t) f fd
  | t => plain_leaf t && ns_ok f && distinctb (uses (fi_xmlns f) empty_info) || unit_ok t f fd
  end &&
  (none (first_mode is_data (ti_fields ti)) || direct f && has_text env s && is_child fd).
Definition field_ok (s : bytes) (ti : tinfo) (f : finfo) : bool :=
  path_ok s (fi_idx f) &&
  match decl_at env s (fi_idx f) with
  | None => false
  | Some fd =>
      match fi_parents f with [] => true | _ => false end && beq (fi_name f) (label env fd) && eqf (fi_flags f) (flags_of fd) &&
      (if mode_eqb (fi_flags f) m_attr then attr_ok ti f fd
       else if mode_eqb (fi_flags f) m_any_attr then any_ok ti f fd
       else if mode_eqb (fi_flags f) m_chardata then data_ok ti f fd
       else mode_eqb (fi_flags f) m_element && elem_ok s ti f fd)
  end.

(** *** Structs *)
Definition tails (x : nat) (l : list (list nat)) : list (list nat) :=
  flat_map (fun idx => match idx with y :: (_ :: _) as r => if Nat.eqb x y then [r] else [] | _ => [] end) l.
(** Every field that is compared is among [idxs], and in every embedded pointer there is one of [must]. *)
Fixpoint covered (n : nat) (s : bytes) (idxs must : list (list nat)) : bool :=
  match n with
  | O => false
  | S n => forall_i (fun x f => skipped f ||
             match (if fd_anon f then fd_type f else TString) with
             | TStruct s' => covered n s' (tails x idxs) (tails x must)
             | TPtr (TStruct s') => negb (match tails x must with [] => true | _ => false end) && covered n s' (tails x idxs) (tails x must)
             | _ => mem [x] idxs
             end) O (fields_of env s)
  end.
Definition dynamic (ti : tinfo) : option finfo := match ti_xmlname ti with Some x => if beq (fi_name x) [] then Some x else None | None => None end.
Definition family (ti : tinfo) : list finfo := match ti_xmlname ti with Some x => x :: ti_fields ti | None => ti_fields ti end.
Definition musts (s : bytes) (ti : tinfo) : list (list nat) :=
  map fi_idx (filter (fun f => negb (g_omit (fi_flags f)) && match decl_at env s (fi_idx f) with Some fd => simple_type (fd_type fd) | None => false end) (attrs_of ti)).
Definition compared (ti : tinfo) : list (list nat) := map fi_idx (match dynamic ti with Some x => x :: ti_fields ti | None => ti_fields ti end).
Definition separate (f g : finfo) : bool :=
  negb (g_element (fi_flags f)) || negb (g_element (fi_flags g)) || negb (beq (fi_name f) (fi_name g)) || negb (beq (fi_xmlns f) []) && negb (beq (fi_xmlns g) []) && negb (beq (fi_xmlns f) (fi_xmlns g)).
Definition name_field_ok (s : bytes) (ti : tinfo) : bool :=
  match ti_xmlname ti with
  | None => none (first_self 0 (fields_of env s))
  | Some x =>
      match fi_idx x with
      | [j] => match nth_error (fields_of env s) j with Some fd => match fd_type fd with TName => true | _ => false end | None => false end &&
               (if beq (fi_name x) [] then match first_self 0 (fields_of env s) with Some j' => Nat.eqb j j' | None => false end && no_default ti
                else none (first_self 0 (fields_of env s)))
      | _ => false
      end
  end.
Definition round_ok (s : bytes) (ti : tinfo) : bool :=
  pairs (fun f g => apart (fi_idx f) (fi_idx g) && apart (fi_idx g) (fi_idx f)) (family ti) && forallb (field_ok s ti) (ti_fields ti) && pairs separate (ti_fields ti) &&
  forallb (fun u => ignores ti (mkname xmlns_uri (pfx u))) known && name_field_ok s ti && covered ek s (compared ti) (musts s ti) &&
  (no_default ti || match ti_xmlname ti with Some x => negb (beq (fi_name x) []) && beq (fi_xmlns x) [] | None => false end).
Definition checked (s : bytes) : bool := has_raw env s || match type_info ek env s with Ok ti => round_ok s ti | _ => false end.
End Check.

(** *** The struct types of package mpd *)
Definition mpd_spaces : list (bytes * bytes) :=
  [(str "http://www.w3.org/2001/XMLSchema-instance", str "xsi"); (str "urn:mpeg:cenc:2013", str "cenc"); (str "urn:microsoft:playready", str "mspr");
   (str "https://dashif.org/CPS", str "dashif"); (str "urn:marlin:mas:1-0:services:schemas:mpd", str "mas"); (str "urn:mpeg:dash:schema:urlparam:2014", str "up");
   (str "urn:mpeg:dash:schema:urlparam:2016", str "up"); (str "urn:scte:dash:scte214-extensions", str "scte214"); (str "http://www.w3.org/1999/xlink", str "xlink")].
Definition mpd_prefix (u : bytes) : bytes := match find (fun e => beq (fst e) u) mpd_spaces with Some e => snd e | None => [] end.
Definition mpd_known : list bytes := map fst mpd_spaces.
