(** The printer behind Encoder: prefixes, start and end tags, indentation (xml/marshal.go:361-500, 814-950,
    1213-1242).  Everything is written as the list of byte slices handed to printer.Write, WriteString and
    WriteByte; what happens to them is in Writer.v. *)
From Coq Require Import String.
From Coq Require Import ZArith List Bool Lia.
From Verif Require Import Base Utf8 NameTables Lexer Escape Decoder.
From Verif Require Heap.
Import ListNotations.
Open Scope Z_scope.

(** A Go map from strings to strings that is only read with the zero value for missing keys. *)
Definition smap := list (bytes * bytes).
Fixpoint sget (m : smap) (k : bytes) : bytes :=
  match m with [] => [] | (x, v) :: m => if beq x k then v else sget m k end.
Definition sset (m : smap) (k v : bytes) : smap := (k, v) :: m.

(** marshal.go:368-374 *)
Record element := mkel { el_ns : bytes; el_prefix : bytes; el_name : bytes; el_n2p : smap; el_p2n : smap }.
(** marshal.go:383-389 *)
Definition split_prefixed (s : bytes) : bytes * bytes :=
  match index_byte 58 s with
  | None => ([], s)
  | Some i => if (i <? 1)%nat || (length s - 2 <? i)%nat then ([], s) else (firstn i s, skipn (S i) s)
  end.
(** marshal.go:391-396 *)
Definition join_prefixed (prefix n : bytes) : bytes := match prefix with [] => n | _ => prefix ++ [58] ++ n end.
(** marshal.go:376-381 *)
Definition new_element (n : name) : element :=
  let '(p, l) := split_prefixed (local n) in mkel (space n) p l [] [].

(** marshal.go:398-410 without w, encoder, closed and err (Writer.v); elements innermost first; seq and depth
    are mathematical integers. *)
Record pstate := mkp {
  p_seq : Z; p_indent : bytes; p_prefix : bytes; p_depth : Z; p_indented : bool; p_newline : bool;
  p_elems : list element }.
Definition new_printer : pstate := mkp 0 [] [] 0 false false [].
Definition with_elems (es : list element) (s : pstate) : pstate :=
  mkp (p_seq s) (p_indent s) (p_prefix s) (p_depth s) (p_indented s) (p_newline s) es.
Definition with_seq (q : Z) (s : pstate) : pstate :=
  mkp q (p_indent s) (p_prefix s) (p_depth s) (p_indented s) (p_newline s) (p_elems s).

(** Steps of the printer: the slices written, the new state, and how the step ended. *)
Inductive eerr := EncErr (m : bytes).
Definition M (A : Type) : Type := pstate -> list bytes * pstate * outcome eerr A.
Definition mret {A} (a : A) : M A := fun s => ([], s, Ok a).
Definition mfail {A} (m : bytes) : M A := fun s => ([], s, Err (EncErr m)).
Definition mpanic {A} : M A := fun s => ([], s, Panic).
Definition mfuel {A} : M A := fun s => ([], s, OutOfFuel).
Definition mget : M pstate := fun s => ([], s, Ok s).
Definition mput (s : pstate) : M unit := fun _ => ([], s, Ok tt).
Definition emit (cs : list bytes) : M unit := fun s => (cs, s, Ok tt).
Definition mbind {A B} (x : M A) (f : A -> M B) : M B := fun s =>
  match x s with
  | (cs, s1, Ok a) => let '(cs', s2, r) := f a s1 in (cs ++ cs', s2, r)
  | (cs, s1, Err e) => (cs, s1, Err e)
  | (cs, s1, Panic) => (cs, s1, Panic)
  | (cs, s1, OutOfFuel) => (cs, s1, OutOfFuel)
  end.
Notation "'mdo' x <- a ; b" := (mbind a (fun x => b)) (at level 200, x pattern, a at level 100, b at level 200) : outcome_scope.
Notation "'mdo_' a ; b" := (mbind a (fun _ => b)) (at level 200, a at level 100, b at level 200) : outcome_scope.

(** marshal.go:413-437 getPrefix; [inner] are the elements already passed. *)
Fixpoint find_prefix (uri : bytes) (inner es : list element) : bytes :=
  match es with
  | [] => []
  | e :: es =>
      let prefix := sget (el_n2p e) uri in
      if beq prefix [] then find_prefix uri (e :: inner) es
      else if existsb (fun x => negb (beq (sget (el_p2n x) prefix) [])) inner then []
      else prefix
  end.
Definition get_prefix (es : list element) (uri : bytes) : bytes :=
  if beq uri xmlURL then xmlPrefix else if beq uri xmlnsURL then xmlnsPrefix else find_prefix uri [] es.

(** [strings.TrimRight(s, "/")] and the part after the last slash. *)
Fixpoint trim_left (c : Z) (s : bytes) : bytes := match s with x :: t => if x =? c then trim_left c t else s | [] => [] end.
Definition trim_right (c : Z) (s : bytes) : bytes := rev (trim_left c (rev s)).
Fixpoint take_until (c : Z) (s : bytes) : bytes := match s with x :: t => if x =? c then [] else x :: take_until c t | [] => [] end.
Definition after_last (c : Z) (s : bytes) : bytes := rev (take_until c (rev s)).

(** marshal.go:459-477: the name to start from. *)
Definition pick_prefix (p2n : smap) (uri preferred : bytes) : bytes :=
  let p := if beq preferred [] || negb (beq (sget p2n preferred) []) then trim_right 47 uri else preferred in
  let p := after_last 47 p in
  let p := if beq p [] || negb (is_name p) || existsb (Z.eqb 58) p then str "_" else p in
  if (3 <=? length p)%nat && equal_fold (firstn 3 p) (str "xml") then str "_" ++ p else p.
(** [strconv.Itoa] of a non-negative number of any size. *)
Definition itoa (n : Z) : bytes := Heap.itoa_loop (S (Z.to_nat (Z.log2 n))) n [].
(** marshal.go:478-486: the loop over p.seq, already incremented once. *)
Fixpoint fresh_prefix (k : nat) (p2n : smap) (p : bytes) (seq : Z) : option (bytes * Z) :=
  match k with
  | O => None
  | S k => let id := p ++ str "_" ++ itoa seq in
           if beq (sget p2n id) [] then Some (id, seq) else fresh_prefix k p2n p (seq + 1)
  end.
(** marshal.go:442-492 createPrefix *)
Definition create_prefix (uri preferred : bytes) : M (bytes * bool) :=
  mdo s <- mget ;
  let g := get_prefix (p_elems s) uri in
  if negb (beq g []) && (beq g preferred || beq preferred []) then mret (g, false)
  else match p_elems s with
       | [] => mret ([], false)
       | e :: es =>
           let p := pick_prefix (el_p2n e) uri preferred in
           match (if beq (sget (el_p2n e) p) [] then Some (p, p_seq s)
                  else fresh_prefix (S (length (el_p2n e))) (el_p2n e) p (p_seq s + 1)) with
           | None => mfuel
           | Some (p, seq) =>
               let n2p := if beq (sget (el_n2p e) uri) [] then sset (el_n2p e) uri p else el_n2p e in
               let e' := mkel (el_ns e) (el_prefix e) (el_name e) n2p (sset (el_p2n e) p uri) in
               mdo_ mput (with_seq seq (with_elems (e' :: es) s)) ; mret (p, true)
           end
       end.

(** marshal.go:494-500 writePrefixAttr *)
Definition prefix_attr (p uri : bytes) : list bytes := [str "xmlns:"; p; str "="""] ++ esc_writes EAttr uri ++ [str """"].

(** marshal.go:1213-1242 writeIndent *)
Definition write_indent (delta : Z) : M unit :=
  mdo s <- mget ;
  if beq (p_prefix s) [] && beq (p_indent s) [] then mret tt
  else
    let s1 := if delta <? 0 then mkp (p_seq s) (p_indent s) (p_prefix s) (p_depth s - 1) false (p_newline s) (p_elems s) else s in
    if (delta <? 0) && p_indented s then mput s1
    else
      let nl := if p_newline s1 then [[10]] else [] in
      let pre := match p_prefix s1 with [] => [] | p => [p] end in
      let ind := match p_indent s1 with [] => [] | i => repeat i (Z.to_nat (p_depth s1)) end in
      mdo_ emit (nl ++ pre ++ ind) ;
      mput (mkp (p_seq s1) (p_indent s1) (p_prefix s1)
                (if 0 <? delta then p_depth s1 + 1 else p_depth s1)
                (if 0 <? delta then true else p_indented s1) true (p_elems s1)).

(** Set the prefix of the innermost element ([e.prefix = ...]). *)
Definition set_prefix (p : bytes) : M unit := fun s =>
  ([], match p_elems s with
       | e :: es => with_elems (mkel (el_ns e) p (el_name e) (el_n2p e) (el_p2n e) :: es) s
       | [] => s
       end, Ok tt).

(** marshal.go:883-911: one attribute. *)
Definition write_attr (a : attr) : M unit :=
  let n := aname a in
  if beq (local n) [] then mret tt
  else
    let '(prefix, loc) := split_prefixed (local n) in
    mdo_ emit [[32]] ;
    mdo_ (if beq (space n) xmlnsURL then
            mdo _ <- create_prefix (avalue a) loc ; emit [xmlnsPrefix; [58]]
          else if negb (beq (space n) []) then
            mdo (p, created) <- create_prefix (space n) prefix ;
            emit ((if created then prefix_attr p (space n) ++ [[32]] else []) ++ [p; [58]])
          else mret tt) ;
    emit ([loc; str "="""] ++ esc_writes EAttr (avalue a) ++ [[34]]).
Fixpoint write_attrs (a : list attr) : M unit :=
  match a with [] => mret tt | x :: a => mdo_ write_attr x ; write_attrs a end.

(** marshal.go:823-858: how the namespace of the new element [e] is found; true if it is already defined. *)
Definition space_defined (es : list element) (e : element) (a : list attr) : M bool :=
  if beq (el_ns e) [] then mret false
  else if existsb (fun x => beq (space (aname x)) [] && beq (local (aname x)) xmlnsPrefix && beq (avalue x) (el_ns e)) a then mret true
  else if negb (beq (el_prefix e) []) then mret false
  else if existsb (fun x => beq (el_prefix x) [] && beq (el_ns x) (el_ns e)) es then mret true
  else match find (fun x => beq (space (aname x)) xmlnsURL && negb (beq (local (aname x)) []) && beq (avalue x) (el_ns e)) a with
       | Some x => mdo (p, _) <- create_prefix (avalue x) (local (aname x)) ; mdo_ set_prefix p ; mret true
       | None =>
           mdo s <- mget ;
           let p := get_prefix (p_elems s) (el_ns e) in
           mdo_ set_prefix p ; mret (negb (beq p []))
       end.

(** The innermost element's prefix, as the code reads it through the pointer e. *)
Definition top_prefix (s : pstate) : bytes := match p_elems s with e :: _ => el_prefix e | [] => [] end.

(** marshal.go:814-914 writeStart *)
Definition write_start (n : name) (a : list attr) : M unit :=
  if beq (local n) [] then mfail (str "xml: start tag with no name")
  else
    let e := new_element n in
    mdo s <- mget ;
    mdo_ mput (with_elems (e :: p_elems s) s) ;
    mdo defined <- space_defined (p_elems s) e a ;
    mdo_ write_indent 1 ;
    mdo_ emit [[60]] ;
    mdo s1 <- mget ;
    mdo_ (if negb (beq (top_prefix s1) []) then
            mdo (p, created) <- (if negb (beq (el_ns e) []) && negb defined
                                 then create_prefix (el_ns e) (top_prefix s1)
                                 else mret (top_prefix s1, false)) ;
            mdo_ set_prefix p ;
            emit ([p; [58]; el_name e] ++ (if created then [[32]] ++ prefix_attr p (el_ns e) else []))
          else if negb (beq (el_ns e) []) then
            emit ([el_name e] ++ (if defined then [] else [str " xmlns="""] ++ esc_writes EAttr (el_ns e) ++ [[34]]))
          else emit [el_name e]) ;
    mdo_ write_attrs a ;
    emit [[62]].

(** marshal.go:916-949 writeEnd *)
Definition write_end (n : name) : M unit :=
  if beq (local n) [] then mfail (str "xml: end tag with no name")
  else
    mdo s <- mget ;
    match p_elems s with
    | [] => mfail (str "xml: end tag without start tag")
    | e :: es =>
        if beq (el_name e) [] then mfail (str "xml: end tag without start tag")
        else
          let '(prefix, loc) := split_prefixed (local n) in
          if negb (beq prefix []) && negb (beq (el_prefix e) []) && negb (beq prefix (el_prefix e)) then mfail (str "xml: end prefix does not match start prefix")
          else if negb (beq loc (el_name e)) then mfail (str "xml: end tag does not match start tag")
          else if negb (beq (space n) (el_ns e)) then mfail (str "xml: end namespace does not match start namespace")
          else
            mdo_ write_indent (-1) ;
            mdo_ emit ([[60]; [47]] ++ (if beq (el_prefix e) [] then [] else [el_prefix e; [58]]) ++ [el_name e; [62]]) ;
            mdo s <- mget ; mput (with_elems (tl (p_elems s)) s)
    end.

(** marshal.go:312-348 isValidDirective: [before] are the bytes already passed, newest first. *)
Fixpoint valid_directive (before dir : bytes) (depth : Z) (inquote : Z) (incomment : bool) : bool :=
  match dir with
  | [] => (depth =? 0) && (inquote =? 0) && negb incomment
  | c :: rest =>
      if incomment then
        valid_directive (c :: before) rest depth inquote
          (negb ((c =? 62) && match before with 45 :: 45 :: _ => true | _ => false end))
      else if negb (inquote =? 0) then valid_directive (c :: before) rest depth (if c =? inquote then 0 else inquote) false
      else if (c =? 39) || (c =? 34) then valid_directive (c :: before) rest depth c false
      else if c =? 60 then
        if is_prefix (str "<!--") dir && (4 <? length dir)%nat then valid_directive (c :: before) rest depth 0 true
        else valid_directive (c :: before) rest (depth + 1) 0 false
      else if c =? 62 then if depth =? 0 then false else valid_directive (c :: before) rest (depth - 1) 0 false
      else valid_directive (c :: before) rest depth 0 false
  end.

(** [bytes.Contains] *)
Definition contains (p s : bytes) : bool := match index p s with Some _ => true | None => false end.

(** marshal.go:255-307 EncodeToken, without the final cachedWriteError; [buffered] is p.w.Buffered(). *)
Definition encode_token (buffered : nat) (t : token) : M unit :=
  match t with
  | TStart n a => write_start n a
  | TEnd n => write_end n
  | TChar s => emit (esc_writes (EText false) s)
  | TComment s =>
      if contains (str "-->") s then mfail (str "xml: EncodeToken of Comment containing --> marker")
      else emit [str "<!--"; s; str "-->"]
  | TProc target inst =>
      if beq target (str "xml") && negb (buffered =? 0)%nat then mfail (str "xml: EncodeToken of ProcInst xml target only valid for xml declaration, first token encoded")
      else if negb (is_name target) then mfail (str "xml: EncodeToken of ProcInst with invalid Target")
      else if contains (str "?>") inst then mfail (str "xml: EncodeToken of ProcInst containing ?> marker")
      else emit ([str "<?"; target] ++ match inst with [] => [] | _ => [[32]; inst] end ++ [str "?>"])
  | TDirective s =>
      if valid_directive [] s 0 0 false then emit [str "<!"; s; str ">"]
      else mfail (str "xml: EncodeToken of Directive containing wrong < or > markers")
  end.
