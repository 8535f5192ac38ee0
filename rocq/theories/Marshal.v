(** Writing Go values as XML elements: marshalValue, marshalAttr and marshalStruct (xml/marshal.go:510-756, 986-1155,
    1244-1277).

    Simplifications: the types and values of GoType.v; no value has MarshalXML, MarshalText and the like; the capacity
    append gives a copied attribute slice is a parameter; where the code returns early because of a write error, the
    model goes on (see Writer.v); [OutOfFuel] is also the answer for what is left out (an xml.Attr, or a value
    that is no struct and has no name given, as an element). *)
From Coq Require Import String.
From Coq Require Import ZArith List Bool Lia.
From Verif Require Import Base Utf8 Lexer Escape Printer GoType TypeInfo Simple.
Import ListNotations.
Open Scope Z_scope.

Section Marshal.
Variables (F : floats) (env : tenv) (ek : nat).

Definition unsupported {A} : outcome eerr A := Err (EncErr (str "xml: unsupported type")).
Definition mlift {A} (x : outcome eerr A) : M A := match x with Ok a => mret a | Err (EncErr m) => mfail m | Panic => mpanic | OutOfFuel => mfuel end.

(** marshal.go:735-741: the attributes for the elements of a slice *)
Fixpoint each (f : gval -> outcome eerr (list attr)) (l : list gval) : outcome eerr (list attr) :=
  match l with [] => Ok [] | v :: l => do a <- f v ; do b <- each f l ; Ok (a ++ b) end.
(** marshal.go:675-756 marshalAttr, as the attributes it appends; [addr]: the value is addressable. *)
Fixpoint marshal_attr (nm : name) (addr : bool) (t : gtype) (v : gval) {struct t} : outcome eerr (list attr) :=
  let plain (t : gtype) (v : gval) :=
    match t, v with
    | TAttr, VAttr a => Ok [a]
    | _, _ => match simple_text F t v with Some s => Ok [mkattr nm s] | None => unsupported end
    end in
  let one (t : gtype) (v : gval) := do s <- method_text F t v ; Ok (if beq (local nm) [] then [] else [mkattr nm s]) in
  match t with
  | TPtr t' =>
      match v with
      | VPtr w =>
          if has_method t' then one t' w
          else match t' with
               | TSlice t'' => match w with VList l => each (marshal_attr nm true t'') l | _ => Panic end
               | _ => plain t' w
               end
      | VNil => Ok []
      | _ => Panic
      end
  | TSlice t' => match v with VList l => each (marshal_attr nm true t') l | _ => Panic end
  | _ => if has_method t && addr then one t v else plain t v
  end.
(** marshal.go:610-637: the attributes of a struct *)
Definition field_name (f : finfo) : name := mkname (fi_xmlns f) (join_prefixed (fi_prefix f) (fi_name f)).
Fixpoint marshal_attrs (s : bytes) (fs : list finfo) (v : gval) (addr : bool) : outcome eerr (list attr) :=
  match fs with
  | [] => Ok []
  | f :: fs =>
      do a <-
        (if negb (g_attr (fi_flags f)) then Ok []
         else
           do x <- field_at env s (fi_idx f) v addr ;
           match x with
           | None => if g_omit (fi_flags f) then Ok [] else Panic (* the zero Value has no Type *)
           | Some (t, w, ad) => if g_omit (fi_flags f) && is_empty w then Ok [] else marshal_attr (field_name f) ad t w
           end) ;
      do b <- marshal_attrs s fs v addr ; Ok (a ++ b)
  end.

(** marshal.go:992-1000 indirect, and the loop of marshalValue (526-531): through pointers; [None] is a nil pointer. *)
Fixpoint drill (t : gtype) (v : gval) (addr : bool) : option (gtype * gval * bool) :=
  match t with
  | TPtr t' => match v with VPtr w => drill t' w true | _ => None end
  | _ => Some (t, v, addr)
  end.

(** marshal.go:1252-1277 parentStack.trim and push *)
Fixpoint close_all (l : list bytes) : M unit := match l with [] => mret tt | x :: l => mdo_ write_end (mkname [] x) ; close_all l end.
Fixpoint shared (a b : list bytes) : nat := match a, b with x :: a, y :: b => if beq x y then S (shared a b) else O | _, _ => O end.
Definition trim (stack parents : list bytes) : M (list bytes) :=
  let k := shared parents stack in
  mdo_ close_all (rev (skipn k stack)) ; mret (firstn k stack).
Fixpoint push (l : list bytes) : M unit := match l with [] => mret tt | x :: l => mdo_ write_start (mkname [] x) [] ; push l end.

(** marshal.go:1017-1077, 1080-1128, 1130-1139: fields that are not elements (EscapeText, xml.go:1960, leaves newlines).  [None]: the value is handled as an element
    after all. *)
Definition chardata_text (t : gtype) (v : gval) : bytes :=
  match drill t v true with Some (t, v, _) => match simple_text F t v with Some s => s | None => [] end | None => [] end.
Definition emit_comment (t : gtype) (v : gval) : M unit :=
  match drill t v true with
  | Some (TString, VStr s, _) =>
      match s with
      | [] => mret tt
      | _ =>
          mdo_ write_indent 0 ; mdo_ emit [str "<!--"] ;
          if contains (str "--") s then mfail (str "xml: comments must not contain ""--""")
          else emit ([s] ++ (if last s 0 =? 45 then [[32]] else []) ++ [str "-->"])
      end
  | _ => mfail (str "xml: bad type for comment field")
  end.
Definition raw_xml (t : gtype) (v : gval) : option bytes := match drill t v true with Some (TString, VStr s, _) => Some s | _ => None end.

(** marshal.go:1002-1155 marshalStruct; [value] writes a field as an element. *)
Fixpoint struct_fields (value : bool -> gtype -> gval -> finfo -> M unit) (s : bytes) (fs : list finfo) (v : gval) (addr : bool) (stack : list bytes) : M (list bytes) :=
  match fs with
  | [] => mret stack
  | f :: fs =>
      let g := fi_flags f in
      if g_attr g then struct_fields value s fs v addr stack
      else
        mdo x <- mlift (field_at env s (fi_idx f) v addr) ;
        match x with
        | None => struct_fields value s fs v addr stack
        | Some (t, w, ad) =>
            mdo stack <-
              (if mode_eqb g m_chardata || mode_eqb g m_cdata then
                 mdo stack <- trim stack (fi_parents f) ;
                 mdo_ emit (if mode_eqb g m_cdata then cdata_writes (chardata_text t w) else esc_writes (EText false) (chardata_text t w)) ; mret stack
               else if mode_eqb g m_comment then
                 mdo stack <- trim stack (fi_parents f) ; mdo_ emit_comment t w ; mret stack
               else if mode_eqb g m_innerxml then
                 mdo_ match raw_xml t w with Some raw => emit [raw] | None => value ad t w f end ; mret stack
               else if mode_eqb g m_element || mode_eqb g m_any_element then
                 mdo stack <- trim stack (fi_parents f) ;
                 mdo stack <- (if (length stack <? length (fi_parents f))%nat && match w with VNil => false | _ => true end
                               then mdo_ push (skipn (length stack) (fi_parents f)) ; mret (fi_parents f) else mret stack) ;
                 mdo_ value ad t w f ; mret stack
               else mdo_ value ad t w f ; mret stack) ;
            struct_fields value s fs v addr stack
        end
  end.
(** marshal.go:1152: the result of the last trim is ignored. *)
Definition ignore (m : M unit) : M unit := fun s => let '(cs, s', r) := m s in (cs, s', match r with Err _ => Ok tt | _ => r end).
Definition marshal_struct (value : bool -> gtype -> gval -> finfo -> M unit) (s : bytes) (ti : tinfo) (v : gval) (addr : bool) : M unit :=
  mdo stack <- struct_fields value s (ti_fields ti) v addr [] ;
  ignore (close_all (rev stack)).

(** A start element given by the caller: its name, its attributes, and the capacity of the slice they are copied to. *)
Definition template := (name * list attr * nat)%type.
Definition info_of (t : gtype) : outcome terr tinfo := match t with TStruct s => type_info ek env s | _ => Ok empty_info end.
(** marshal.go:564-602: the name of the element *)
Definition start_name (ti : tinfo) (t : gtype) (v : gval) (addr : bool) (fi : option finfo) (tmpl : option template) : outcome eerr name :=
  do n0 <-
    match tmpl, ti_xmlname ti with
    | Some (n, _, _), _ => Ok n
    | None, Some x =>
        if negb (beq (fi_name x) []) then Ok (field_name x)
        else match t with
             | TStruct s =>
                 do y <- field_at env s (fi_idx x) v addr ;
                 match y with
                 | None => Panic (* Interface on the zero Value *)
                 | Some (TName, VName n, _) => Ok (if beq (local n) [] then mkname [] [] else n)
                 | Some _ => Ok (mkname [] [])
                 end
             | _ => Ok (mkname [] [])
             end
    | None, None => Ok (mkname [] [])
    end ;
  let n1 := if beq (local n0) [] then match fi with Some f => field_name f | None => n0 end else n0 in
  if beq (local n1) [] then
    match t with TStruct s => if beq s [] then unsupported else Ok (mkname (space n1) s) | TName => Ok (mkname (space n1) (str "Name")) | _ => OutOfFuel end
  else Ok n1.
(** marshal.go:639-644: an element whose XMLName has neither name nor namespace leaves the namespace around it. *)
Definition reset_default (ti : tinfo) (n : name) (es : list element) : list attr :=
  match ti_xmlname ti, es with
  | Some x, e :: _ =>
      if beq (space n) [] && beq (fi_xmlns x) [] && beq (fi_name x) [] && negb (beq (el_ns e) [])
      then [mkattr (mkname [] (str "xmlns")) []] else []
  | _, _ => []
  end.

(** marshal.go:510-672 marshalValue; [k] bounds the nesting of elements. *)
Fixpoint each_value (f : gval -> M unit) (l : list gval) : M unit := match l with [] => mret tt | v :: l => mdo_ f v ; each_value f l end.
Fixpoint marshal_value (k : nat) (addr : bool) (t : gtype) (v : gval) (fi : option finfo) (tmpl : option template) : M unit :=
  match k with
  | O => mfuel
  | S k =>
      if match tmpl with Some (n, _, _) => beq (local n) [] | None => false end then mfail (str "xml: EncodeElement of StartElement with missing name")
      else if match fi with Some f => g_omit (fi_flags f) && is_empty v | None => false end then mret tt
      else
        match drill t v addr with
        | None => mret tt
        | Some (t, v, addr) =>
            match t, v with
            | TSlice t', VList l => each_value (fun w => marshal_value k true t' w fi tmpl) l
            | TSlice _, _ => mpanic
            | TAttr, _ => mfuel
            | _, _ =>
                mdo ti <- match info_of t with Ok ti => mret ti | Err _ => mfail (str "xml: bad type") | Panic => mpanic | OutOfFuel => mfuel end ;
                mdo n <- mlift (start_name ti t v addr fi tmpl) ;
                let given := match tmpl with Some (_, a, cap) => if (cap <? ti_nattrs ti)%nat then [] else a | None => [] end in
                mdo own <- mlift match t with TStruct s => marshal_attrs s (ti_fields ti) v addr | _ => Ok [] end ;
                mdo st <- mget ;
                mdo_ write_start n (given ++ own ++ reset_default ti n (p_elems st)) ;
                mdo_ match t with
                     | TStruct s => marshal_struct (fun ad t w f => marshal_value k ad t w (Some f) None) s ti v addr
                     | TName => mret tt (* the fields of xml.Name are not looked at *)
                     | _ => match simple_text F t v with Some s => emit (esc_writes EAttr s) | None => mlift unsupported end
                     end ;
                write_end n
            end
        end
  end.
End Marshal.
