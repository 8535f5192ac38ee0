(** Reading Go values from XML elements: Decode, unmarshal, unmarshalAttr and unmarshalPath (xml/read.go:137-161, 255-308,
    321-629, 699-763).

    Simplifications: the types and values of GoType.v; no value has UnmarshalXML, UnmarshalText and the like; nothing is
    said about what is left in the value when an error is returned; struct types are named, so the case of an
    anonymous struct without fields (read.go:457-469) does not arise; the limit on depth is that of platforms other
    than wasm.  [OutOfFuel] is also the answer for an xml.Attr as an element. *)
From Coq Require Import String.
From Coq Require Import ZArith List Bool Lia.
From Verif Require Import Base Utf8 Lexer Decoder GoType TypeInfo Simple.
Import ListNotations.
Open Scope Z_scope.

Section Unmarshal.
Variables (F : floats) (env : tenv) (ek : nat).
Definition zero_of (t : gtype) : gval := zero ek env t.

(** read.go:255-308 unmarshalAttr.  [plain] is the part after the pointer has been followed; slices are grown by a
    zero value.  Behind a pointer to a pointer the methods of duration.go:41-48 and mpd.go:1239-1250 are called on the
    inner pointer, nil or not (read.go:262-266); they write through it once the text is understood. *)
Fixpoint unmarshal_attr (t : gtype) (v : gval) (a : attr) {struct t} : outcome uerr gval :=
  let plain (t : gtype) := match t with TAttr => Ok (VAttr a) | _ => copy_value F t (avalue a) end in
  match t with
  | TPtr t' =>
      let w := match v with VPtr w => w | _ => zero_of t' end in
      do w' <-
        (if has_method t' then method_value F t' (avalue a)
         else match t' with
              | TSlice t'' => match w with VList l => do x <- unmarshal_attr t'' (zero_of t'') a ; Ok (VList (l ++ [x])) | _ => Panic end
              | TPtr t'' => if has_method t'' then do x <- method_value F t'' (avalue a) ; match w with VPtr _ => Ok (VPtr x) | _ => Panic end else plain t'
              | _ => plain t'
              end) ;
      Ok (VPtr w')
  | TSlice t' => match v with VList l => do x <- unmarshal_attr t' (zero_of t') a ; Ok (VList (l ++ [x])) | _ => Panic end
  | _ => if has_method t then method_value F t (avalue a) else plain t
  end.

(** read.go:481-501: which field gets an attribute. *)
Definition find_attr (m : list (name * finfo)) (n : name) : option finfo := option_map snd (find (fun e => name_eqb (fst e) n) m).
Definition attr_field (ti : tinfo) (n : name) : option finfo :=
  match find_attr (ti_attrs ti) n with
  | Some f => Some f
  | None => match find_attr (ti_attrs ti) (mkname [] (local n)) with
            | Some f => Some f
            | None => ti_anyattr ti
            end
  end.
Definition with_unit (x : outcome uerr gval) : outcome uerr (gval * unit) := do v <- x ; Ok (v, tt).
Fixpoint set_attrs (ti : tinfo) (s : bytes) (v : gval) (al : list attr) : outcome uerr gval :=
  match al with
  | [] => Ok v
  | a :: al =>
      match attr_field ti (aname a) with
      | None => set_attrs ti s v al
      | Some f =>
          do (v', _) <- update_at ek env s (fi_idx f) v (fun t w => with_unit (unmarshal_attr t w a)) ;
          set_attrs ti s v' al
      end
  end.

(** read.go:504-535: the first field of a kind, whose embedded pointers are then initialised. *)
Definition first_mode (p : fflags -> bool) (fs : list finfo) : option finfo := find (fun f => p (fi_flags f)) fs.
Definition is_data (g : fflags) : bool := mode_eqb g m_cdata || mode_eqb g m_chardata.
Definition is_comment (g : fflags) : bool := mode_eqb g m_comment.
Definition is_any (g : fflags) : bool := mode_eqb g m_any || mode_eqb g m_any_element.
Definition is_inner (g : fflags) : bool := mode_eqb g m_innerxml.
Definition touch (s : bytes) (f : option finfo) (v : gval) : outcome uerr gval :=
  match f with
  | None => Ok v
  | Some f => do (v', _) <- update_at ek env s (fi_idx f) v (fun _ w => Ok (w, tt)) ; Ok v'
  end.

(** read.go:540-598: the tokens up to the end of the element.  [child] handles a child element.  The result also has the
    decoder as it was before the end element. *)
Definition child_fun := gval -> name -> list attr -> dstate -> outcome uerr (gval * dstate).
Fixpoint content_loop (k : nat) (child : child_fun) (v : gval) (data comment : bytes) (d : dstate) : outcome uerr (gval * bytes * bytes * dstate * dstate) :=
  match k with
  | O => OutOfFuel
  | S k =>
      match next_token d with
      | TokFuel => OutOfFuel
      | TokErr e _ => Err (UTok e)
      | TokOk t d' =>
          match t with
          | TStart n a => do (v', d'') <- child v n a d' ; content_loop k child v' data comment d''
          | TEnd _ => Ok (v, data, comment, d, d')
          | TChar s => content_loop k child v (data ++ s) comment d'
          | TComment s => content_loop k child v data (comment ++ s) d'
          | _ => content_loop k child v data comment d'
          end
      end
  end.
Definition skip (k : nat) (d : dstate) : outcome uerr dstate :=
  match skip_loop k 0 d with Ok d' => Ok d' | Err e => Err (UTok e) | Panic => Panic | OutOfFuel => OutOfFuel end.
Definition skip_child (k : nat) : child_fun := fun v _ _ d => do d' <- skip k d ; Ok (v, d').

(** read.go:706-731: the first field whose path matches, or the path to go on with. *)
Inductive found := Field (f : finfo) | Inside (parents : list bytes) | Nothing.
Fixpoint is_pre (a b : list bytes) : bool := match a, b with [], _ => true | x :: a, y :: b => beq x y && is_pre a b | _, _ => false end.
Fixpoint find_path (fs : list finfo) (parents : list bytes) (n : name) : found :=
  match fs with
  | [] => Nothing
  | f :: fs =>
      if negb (g_element (fi_flags f)) || negb (is_pre parents (fi_parents f)) || negb (beq (fi_xmlns f) []) && negb (beq (fi_xmlns f) (space n))
      then find_path fs parents n
      else if (length (fi_parents f) =? length parents)%nat then
        if beq (fi_name f) (local n) then Field f else find_path fs parents n
      else if beq (nth (length parents) (fi_parents f) []) (local n) then Inside (firstn (S (length parents)) (fi_parents f))
      else find_path fs parents n
  end.
(** read.go:704-763 unmarshalPath: [None] if the element was not consumed; [q] bounds the length of the paths. *)
Definition reader := gtype -> gval -> name -> list attr -> dstate -> outcome uerr (gval * dstate).
Fixpoint path_child (q k : nat) (read : reader) (s : bytes) (fs : list finfo) (parents : list bytes) (v : gval) (n : name) (a : list attr) (d : dstate) {struct q}
  : outcome uerr (option (gval * dstate)) :=
  match q with
  | O => OutOfFuel
  | S q =>
      match find_path fs parents n with
      | Nothing => Ok None
      | Field f => do (v', d') <- update_at ek env s (fi_idx f) v (fun t w => read t w n a d) ; Ok (Some (v', d'))
      | Inside ps =>
          do r <- content_loop k (fun v n a d =>
                    do x <- path_child q k read s fs ps v n a d ;
                    match x with Some y => Ok y | None => skip_child k v n a d end) v [] [] d ;
          let '(v', _, _, _, d') := r in Ok (Some (v', d'))
      end
  end.
Definition path_bound (fs : list finfo) : nat := S (fold_right (fun f m => Nat.max (length (fi_parents f)) m) O fs).

(** read.go:424-629, for the value [v] of type [t], a pointer having been followed; [read] is for the children, [elem] for
    the element of a slice. *)
Definition unmarshal_body (read : reader) (k : nat) (t : gtype) (v : gval) (n : name) (a : list attr) (d : dstate) : outcome uerr (gval * dstate) :=
  match t with
  | TPtr _ => Err (UUnknown t)
  | TAttr => OutOfFuel
  | TSlice t' => match v with VList l => do (x, d') <- read t' (zero_of t') n a d ; Ok (VList (l ++ [x]), d') | _ => Panic end
  | TName => do r <- content_loop k (skip_child k) (VName n) [] [] d ; let '(_, _, _, _, d') := r in Ok (VName n, d')
  | TString | TBool | TInt _ | TUint _ | TFloat _ | TDuration | TFloatInf =>
      do r <- content_loop k (skip_child k) v [] [] d ;
      let '(_, data, _, _, d') := r in
      do x <- copy_value F t data ; Ok (x, d')
  | TStruct s =>
      match type_info ek env s with
      | Err _ => Err UType
      | Panic => Panic
      | OutOfFuel => OutOfFuel
      | Ok ti =>
          do v <-
            match ti_xmlname ti with
            | None => Ok v
            | Some x =>
                if negb (beq (fi_name x) []) && negb (beq (fi_name x) (local n)) || negb (beq (fi_xmlns x) []) && negb (beq (fi_xmlns x) (space n))
                then Err (UExpected (mkname (fi_xmlns x) (fi_name x)) n)
                else do (v', _) <- update_at ek env s (fi_idx x) v (fun t w => Ok (match t with TName => VName n | _ => w end, tt)) ; Ok v'
            end ;
          do v <- set_attrs ti s v a ;
          let fs := ti_fields ti in
          let save_data := first_mode is_data fs in
          let save_comment := first_mode is_comment fs in
          let save_any := first_mode is_any fs in
          let save_xml := first_mode is_inner fs in
          do v <- touch s save_data v ; do v <- touch s save_comment v ; do v <- touch s save_any v ; do v <- touch s save_xml v ;
          do r <- content_loop k (fun v n a d =>
                    do x <- path_child (path_bound fs) k read s fs [] v n a d ;
                    match x with
                    | Some y => Ok y
                    | None => match save_any with
                              | Some f => update_at ek env s (fi_idx f) v (fun t w => read t w n a d)
                              | None => skip_child k v n a d
                              end
                    end) v [] [] d ;
          let '(v, data, comment, d1, d2) := r in
          do v <- match save_data with
                  | None => Ok v
                  | Some f => do (v', _) <- update_at ek env s (fi_idx f) v (fun t _ => with_unit (copy_value F t data)) ; Ok v'
                  end ;
          do v <- match save_comment with
                  | None => Ok v
                  | Some f => do (v', _) <- update_at ek env s (fi_idx f) v (fun t w => match t with TString => Ok (VStr comment, tt) | TSlice _ => Panic | _ => Ok (w, tt) end) ; Ok v'
                  end ;
          do v <- match save_xml with
                  | None => Ok v
                  | Some f =>
                      let raw := firstn (length (d_inp d) - length (d_inp d1)) (d_inp d) in
                      do (v', _) <- update_at ek env s (fi_idx f) v (fun t w => Ok (match t with TString => VStr raw | _ => w end, tt)) ; Ok v'
                  end ;
          Ok (v, d2)
      end
  end.
(** read.go:325-629 unmarshal with a start element; [r] is how much deeper it may go, [k] bounds the tokens read. *)
Fixpoint unmarshal (r k : nat) (t : gtype) (v : gval) (n : name) (a : list attr) (d : dstate) {struct r} : outcome uerr (gval * dstate) :=
  match r with
  | O => Err UDepth
  | S r =>
      match t with
      | TPtr t' =>
          let w := match v with VPtr w => w | _ => zero_of t' end in
          do (w', d') <- unmarshal_body (unmarshal r k) k t' w n a d ; Ok (VPtr w', d')
      | _ => unmarshal_body (unmarshal r k) k t v n a d
      end
  end.
(** read.go:316-319 *)
Definition max_depth : nat := Z.to_nat 10000.
(** read.go:330-341: the first start element *)
Fixpoint find_start (k : nat) (d : dstate) : outcome uerr (name * list attr * dstate) :=
  match k with
  | O => OutOfFuel
  | S k =>
      match next_token d with
      | TokFuel => OutOfFuel
      | TokErr e _ => Err (UTok e)
      | TokOk (TStart n a) d' => Ok (n, a, d')
      | TokOk _ d' => find_start k d'
      end
  end.
(** read.go:137-161 Unmarshal into a pointer to a value [v] of type [t] *)
Definition decode (k : nat) (t : gtype) (v : gval) (inp : bytes) : outcome uerr gval :=
  do (n, a, d) <- find_start k (new_decoder inp) ;
  do (v', _) <- unmarshal max_depth k t v n a d ; Ok v'.
(** Every token but the end of a self-closing element takes at least one byte. *)
Definition enough (inp : bytes) : nat := (2 * length inp + 2)%nat.
(** mpd/io.go:46-54 MPDFromBytes, without SetParents *)
Definition mpd_from_bytes (inp : bytes) : outcome uerr gval := decode (enough inp) (TStruct (str "MPD")) (zero_of (TStruct (str "MPD"))) inp.
End Unmarshal.
