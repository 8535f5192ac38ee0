(** What package xml knows about a struct type: field tags, embedded structs and name conflicts
    (xml/typeinfo.go:14-55, 89-429). *)
From Coq Require Import String.
From Coq Require Import ZArith List Bool Lia.
From Verif Require Import Base Lexer Printer GoType.
Import ListNotations.
Open Scope Z_scope.

(** typeinfo.go:39-55: the flags of a field.  fMode is all of them but fOmitEmpty. *)
Record fflags := mkff { g_element : bool; g_attr : bool; g_cdata : bool; g_chardata : bool; g_innerxml : bool; g_comment : bool; g_any : bool; g_omit : bool }.
Definition no_flags : fflags := mkff false false false false false false false false.
Definition mode_eqb (a b : fflags) : bool :=
  eqb (g_element a) (g_element b) && eqb (g_attr a) (g_attr b) && eqb (g_cdata a) (g_cdata b) && eqb (g_chardata a) (g_chardata b) &&
  eqb (g_innerxml a) (g_innerxml b) && eqb (g_comment a) (g_comment b) && eqb (g_any a) (g_any b).
Definition m_element : fflags := mkff true false false false false false false false.
Definition m_attr : fflags := mkff false true false false false false false false.
Definition m_cdata : fflags := mkff false false true false false false false false.
Definition m_chardata : fflags := mkff false false false true false false false false.
Definition m_innerxml : fflags := mkff false false false false true false false false.
Definition m_comment : fflags := mkff false false false false false true false false.
Definition m_any : fflags := mkff false false false false false false true false.
Definition m_any_attr : fflags := mkff false true false false false false true false.
Definition m_any_element : fflags := mkff true false false false false false true false.

(** typeinfo.go:30-37 *)
Record finfo := mkfi { fi_idx : list nat; fi_prefix : bytes; fi_name : bytes; fi_xmlns : bytes; fi_flags : fflags; fi_parents : list bytes }.
(** typeinfo.go:21-27; the map attrs as the list of its keys and fields, the newest first. *)
Record tinfo := mkti { ti_xmlname : option finfo; ti_fields : list finfo; ti_nattrs : nat; ti_attrs : list (name * finfo); ti_anyattr : option finfo }.

(** Errors of type analysis, by message; the field concerned. *)
Inductive terr :=
| InvalidTag (f : bytes) | NamespaceWithoutName (f : bytes) | TrailingGt (f : bytes) | ChainNotValid (f : bytes) | NameConflict (f : bytes)
| TagPathError (i j : list nat).

(** strings.Cut with a one-byte separator: the parts before and after the first one. *)
Fixpoint cut (c : Z) (s : bytes) : option (bytes * bytes) :=
  match s with
  | [] => None
  | x :: t => if x =? c then Some ([], t) else match cut c t with Some (a, b) => Some (x :: a, b) | None => None end
  end.
(** strings.Split with a one-byte separator. *)
Fixpoint split (c : Z) (s : bytes) : list bytes :=
  match s with
  | [] => [[]]
  | x :: t => if x =? c then [] :: split c t else match split c t with a :: r => (x :: a) :: r | [] => [[x]] end
  end.

(** typeinfo.go:185-202: one flag of a tag; unknown ones are ignored. *)
Definition add_flag (g : fflags) (s : bytes) : fflags :=
  if beq s (str "attr") then mkff (g_element g) true (g_cdata g) (g_chardata g) (g_innerxml g) (g_comment g) (g_any g) (g_omit g)
  else if beq s (str "cdata") then mkff (g_element g) (g_attr g) true (g_chardata g) (g_innerxml g) (g_comment g) (g_any g) (g_omit g)
  else if beq s (str "chardata") then mkff (g_element g) (g_attr g) (g_cdata g) true (g_innerxml g) (g_comment g) (g_any g) (g_omit g)
  else if beq s (str "innerxml") then mkff (g_element g) (g_attr g) (g_cdata g) (g_chardata g) true (g_comment g) (g_any g) (g_omit g)
  else if beq s (str "comment") then mkff (g_element g) (g_attr g) (g_cdata g) (g_chardata g) (g_innerxml g) true (g_any g) (g_omit g)
  else if beq s (str "any") then mkff (g_element g) (g_attr g) (g_cdata g) (g_chardata g) (g_innerxml g) (g_comment g) true (g_omit g)
  else if beq s (str "omitempty") then mkff (g_element g) (g_attr g) (g_cdata g) (g_chardata g) (g_innerxml g) (g_comment g) (g_any g) true
  else g.
Definition with_element (g : fflags) : fflags := mkff true (g_attr g) (g_cdata g) (g_chardata g) (g_innerxml g) (g_comment g) (g_any g) (g_omit g).

Definition xml_name : bytes := str "XMLName".
(** typeinfo.go:173-233: the namespace, the name part and the flags of a tag. *)
Definition parse_tag (f : fdecl) : outcome terr (bytes * bytes * fflags) :=
  let '(xmlns, tag) := match cut 32 (fd_tag f) with Some (ns, t) => (ns, t) | None => ([], fd_tag f) end in
  do (tag, g) <-
    match split 44 tag with
    | [] | [_] => Ok (tag, m_element)
    | tag :: toks =>
        let g := fold_left add_flag toks no_flags in
        let valid_mode :=
          if mode_eqb g no_flags then true
          else if mode_eqb g m_attr || mode_eqb g m_cdata || mode_eqb g m_chardata || mode_eqb g m_innerxml || mode_eqb g m_comment || mode_eqb g m_any || mode_eqb g m_any_attr
               then negb (beq (fd_name f) xml_name || negb (beq tag []) && negb (mode_eqb g m_attr))
               else false in
        let g := if mode_eqb g no_flags || mode_eqb g m_any then with_element g else g in
        let valid := valid_mode && negb (g_omit g && negb (g_element g || g_attr g)) in
        if valid then Ok (tag, g) else Err (InvalidTag (fd_name f))
    end ;
  if negb (beq xmlns []) && beq tag [] then Err (NamespaceWithoutName (fd_name f)) else Ok (xmlns, tag, g).
(** typeinfo.go:170-241 for the field XMLName. *)
Definition xmlname_info (i : nat) (f : fdecl) : outcome terr finfo :=
  do (xmlns, tag, g) <- parse_tag f ;
  let '(p, n) := split_prefixed tag in Ok (mkfi [i] p n xmlns g []).

(** typeinfo.go:293-314 lookupXMLName *)
Fixpoint find_xmlname (i : nat) (fs : list fdecl) : option finfo :=
  match fs with
  | [] => None
  | f :: fs =>
      if negb (beq (fd_name f) xml_name) then find_xmlname (S i) fs
      else match xmlname_info i f with
           | Ok fi => if beq (fi_name fi) [] then None else Some fi
           | _ => None
           end
  end.
Fixpoint lookup_xmlname (env : tenv) (t : gtype) : option finfo :=
  match t with
  | TPtr t => lookup_xmlname env t
  | TStruct s => find_xmlname 0 (fields_of env s)
  | _ => None
  end.

(** typeinfo.go:170-288 structFieldInfo for the field with index [i]. *)
Definition struct_field_info (env : tenv) (i : nat) (f : fdecl) : outcome terr finfo :=
  if beq (fd_name f) xml_name then xmlname_info i f
  else
    do (xmlns, tag, g) <- parse_tag f ;
    if beq tag [] then
      match lookup_xmlname env (fd_type f) with
      | Some x => Ok (mkfi [i] (fi_prefix x) (fi_name x) (fi_xmlns x) g [])
      | None => Ok (mkfi [i] [] (fd_name f) xmlns g [])
      end
    else
      let parents := match split 62 tag with [] :: r => fd_name f :: r | p => p end in
      let lst := last parents [] in
      if beq lst [] then Err (TrailingGt (fd_name f))
      else
        let '(p, n) := split_prefixed lst in
        let parents := map (fun x => snd (split_prefixed x)) parents in
        if (1 <? length parents)%nat && negb (g_element g) then Err (ChainNotValid (fd_name f))
        else
          let fi := mkfi [i] p n xmlns g (removelast parents) in
          match (if g_element g then lookup_xmlname env (fd_type f) else None) with
          | Some x => if beq (fi_name x) n then Ok fi else Err (NameConflict (fd_name f))
          | None => Ok fi
          end.

(** typeinfo.go:327-353: does the field conflict with one found before? *)
Fixpoint common (a b : list bytes) : bool :=
  match a, b with x :: a, y :: b => beq x y && common a b | _, _ => true end.
Definition conflict (old new : finfo) : bool :=
  mode_eqb (fi_flags old) (fi_flags new) &&
  (beq (fi_xmlns old) [] || beq (fi_xmlns new) [] || beq (fi_xmlns old) (fi_xmlns new)) &&
  common (fi_parents old) (fi_parents new) &&
  (let lo := length (fi_parents old) in let ln := length (fi_parents new) in
   if (ln <? lo)%nat then beq (nth ln (fi_parents old) []) (fi_name new)
   else if (lo <? ln)%nat then beq (nth lo (fi_parents new) []) (fi_name old)
   else beq (fi_name new) (fi_name old) && beq (fi_xmlns new) (fi_xmlns old)).
Definition depth (f : finfo) : nat := length (fi_idx f).
(** typeinfo.go:323-388 addFieldInfo *)
Definition add_field (fields : list finfo) (new : finfo) : outcome terr (list finfo) :=
  match filter (fun old => conflict old new) fields with
  | [] => Ok (fields ++ [new])
  | cs =>
      if existsb (fun old => depth old <? depth new)%nat cs then Ok fields
      else match find (fun old => depth old =? depth new)%nat cs with
           | Some old => Err (TagPathError (fi_idx old) (fi_idx new))
           | None => Ok (filter (fun old => negb (conflict old new)) fields ++ [new])
           end
  end.
Fixpoint add_fields (fields news : list finfo) : outcome terr (list finfo) :=
  match news with [] => Ok fields | n :: news => do fields <- add_field fields n ; add_fields fields news end.

(** typeinfo.go:146-163 *)
Definition finish (xmlname : option finfo) (fields : list finfo) : tinfo :=
  let attrs := filter (fun f => mode_eqb (fi_flags f) m_attr) fields in
  mkti xmlname fields (length attrs) (rev (map (fun f => (mkname (fi_xmlns f) (fi_name f), f)) attrs)) (find (fun f => mode_eqb (fi_flags f) m_any_attr) fields).

(** The struct type an embedded field is or points to (typeinfo.go:109-113).  Embedding xml.Name and xml.Attr, which are
    structs too, is left out. *)
Definition embedded (t : gtype) : option bytes :=
  match t with TStruct s | TPtr (TStruct s) => Some s | _ => None end.
Definition prefix_idx (i : nat) (f : finfo) : finfo := mkfi (i :: fi_idx f) (fi_prefix f) (fi_name f) (fi_xmlns f) (fi_flags f) (fi_parents f).

(** typeinfo.go:101-143: the loop over the fields, [inner] giving the information about embedded structs. *)
Fixpoint field_loop (env : tenv) (inner : bytes -> outcome terr tinfo) (i : nat) (fs : list fdecl) (xmlname : option finfo) (fields : list finfo)
  : outcome terr (option finfo * list finfo) :=
  match fs with
  | [] => Ok (xmlname, fields)
  | f :: fs =>
      if negb (exported (fd_name f)) && negb (fd_anon f) || beq (fd_tag f) (str "-") then field_loop env inner (S i) fs xmlname fields
      else match (if fd_anon f then embedded (fd_type f) else None) with
           | Some s =>
               do ti <- inner s ;
               let xmlname := match xmlname, ti_xmlname ti with
                              | None, Some x => if beq (fi_name x) [] then None else Some x
                              | _, _ => xmlname
                              end in
               do fields <- add_fields fields (map (prefix_idx i) (ti_fields ti)) ;
               field_loop env inner (S i) fs xmlname fields
           | None =>
               do fi <- struct_field_info env i f ;
               if beq (fd_name f) xml_name then field_loop env inner (S i) fs (Some fi) fields
               else do fields <- add_field fields fi ; field_loop env inner (S i) fs xmlname fields
           end
  end.
(** typeinfo.go:93-167 getTypeInfo without the cache (Cache.v); [k] bounds the depth of embedding, on which Go would
    otherwise recurse for ever. *)
Fixpoint type_info (k : nat) (env : tenv) (s : bytes) : outcome terr tinfo :=
  match k with
  | O => OutOfFuel
  | S k => do (x, fields) <- field_loop env (type_info k env) 0 (fields_of env s) None [] ; Ok (finish x fields)
  end.
(** The information about a type that is not a struct. *)
Definition empty_info : tinfo := finish None [].

(** typeinfo.go:412-429 value with dontInitNilPointers, on the fields [l] of a value of the struct type [s]: the field's
    type, its value and whether it is addressable ([addr]: whether the struct is).  [None] is the zero reflect.Value of
    a field behind a nil embedded pointer.  [Panic]: an index that is not there. *)
Fixpoint field_at {E} (env : tenv) (s : bytes) (idx : list nat) (v : gval) (addr : bool) : outcome E (option (gtype * gval * bool)) :=
  match idx, v with
  | x :: rest, VRec l =>
      match nth_error (fields_of env s) x, nth_error l x with
      | Some f, Some w =>
          match rest with
          | [] => Ok (Some (fd_type f, w, addr))
          | _ => match fd_type f, w with
                 | TStruct s', _ => field_at env s' rest w addr
                 | TPtr (TStruct s'), VPtr u => field_at env s' rest u true
                 | TPtr (TStruct _), VNil => Ok None
                 | _, _ => Panic
                 end
          end
      | _, _ => Panic
      end
  | _, _ => Panic
  end.
(** The same with initNilPointers, to change the field: [f] gets the field's type and value. *)
Fixpoint update_at {E A} (zk : nat) (env : tenv) (s : bytes) (idx : list nat) (v : gval) (f : gtype -> gval -> outcome E (gval * A)) {struct idx} : outcome E (gval * A) :=
  match idx, v with
  | x :: rest, VRec l =>
      match nth_error (fields_of env s) x, nth_error l x with
      | Some fd, Some w =>
          do (w', a) <-
            match rest with
            | [] => f (fd_type fd) w
            | _ => match fd_type fd, w with
                   | TStruct s', _ => update_at zk env s' rest w f
                   | TPtr (TStruct s'), VPtr u => do (u', a) <- update_at zk env s' rest u f ; Ok (VPtr u', a)
                   | TPtr (TStruct s'), VNil => do (u', a) <- update_at zk env s' rest (zero zk env (TStruct s')) f ; Ok (VPtr u', a)
                   | _, _ => Panic
                   end
            end ;
          Ok (VRec (firstn x l ++ w' :: skipn (S x) l), a)
      | _, _ => Panic
      end
  | _, _ => Panic
  end.
