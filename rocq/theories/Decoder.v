(** Decoder.Token, namespace translation, Skip and name interning (xml/xml.go:224-560, xml/read.go:765-787). *)
From Coq Require Import String.
From Coq Require Import ZArith List Bool Lia.
From Verif Require Import Base Utf8 Lexer.
Import ListNotations.
Open Scope Z_scope.

(** xml/xml.go:369-374 *)
Definition xmlURL : bytes := str "http://www.w3.org/XML/1998/namespace".
Definition xmlPrefix : bytes := str "xml".
Definition xmlnsURL : bytes := str "http://www.w3.org/2000/xmlns/".
Definition xmlnsPrefix : bytes := str "xmlns".

(** xml/xml.go:414-425: stack entries.  The stkEOF kind is only pushed for types with an UnmarshalXML
    method (read.go:187); package mpd has none, so it is left out.  The free list is an allocation
    detail: [push] overwrites every field that is read for its kind. *)
Inductive sent :=
| SStart (n : name)
| SNs (prefix url : bytes) (ok : bool).

(** The Go map d.ns, as its lookup function. *)
Definition nsmap := bytes -> option bytes.
Definition ns_set (m : nsmap) (k v : bytes) : nsmap := fun x => if beq x k then Some v else m x.
Definition ns_del (m : nsmap) (k : bytes) : nsmap := fun x => if beq x k then None else m x.

(** The fields of Decoder (xml/xml.go:206-223) that Token reads and writes. *)
Record dstate := mkd {
  d_inp : bytes;              (* what is left to read, including a byte put back *)
  d_close : option name;      (* needClose / toClose *)
  d_stk : list sent;
  d_ns : nsmap;
  d_err : option derr
}.

(** xml/xml.go:250-259 NewDecoder *)
Definition new_decoder (inp : bytes) : dstate := mkd inp None [] (fun _ => None) None.

(** xml/xml.go:381-398 translate; DefaultSpace is empty. *)
Definition translate (m : nsmap) (n : name) (is_elem : bool) : name :=
  let lookup (n : name) := match m (space n) with Some v => mkname v (local n) | None => n end in
  if beq (space n) xmlnsPrefix then mkname xmlnsURL (local n)
  else if beq (space n) [] && negb is_elem then n
  else if beq (space n) xmlPrefix then lookup (mkname xmlURL (local n))
  else if beq (space n) [] && beq (local n) xmlnsPrefix then n
  else lookup n.

(** xml/xml.go:332-354: the namespace attributes of a start tag. *)
Definition set_ns (p v : bytes) (s : list sent * nsmap) : list sent * nsmap :=
  let '(stk, m) := s in
  (match m p with Some old => SNs p old true | None => SNs p [] false end :: stk, ns_set m p v).
Fixpoint declare (a : list attr) (s : list sent * nsmap) : (list sent * nsmap) + derr :=
  match a with
  | [] => inl s
  | mkattr n v :: a =>
      if beq (space n) xmlnsPrefix && beq v [] then inr (ESyntax (str "empty namespace without prefix"))
      else if beq (space n) xmlnsPrefix && beq (local n) [] then inr (ESyntax (str "empty prefix"))
      else
        let s1 := if beq (space n) xmlnsPrefix then set_ns (local n) v s else s in
        let s2 := if beq (space n) [] && beq (local n) xmlnsPrefix then set_ns [] v s1 else s1 in
        declare a s2
  end.

(** xml/xml.go:535-545: undo the namespace entries on top of the stack. *)
Fixpoint undo (stk : list sent) (m : nsmap) : list sent * nsmap :=
  match stk with
  | SNs p url ok :: stk' => undo stk' (if ok then ns_set m p url else ns_del m p)
  | _ => (stk, m)
  end.

(** xml/xml.go:505-548 popElement, strict. *)
Definition pop_element (n : name) (stk : list sent) (m : nsmap) : (name * list sent * nsmap) + derr :=
  match stk with
  | SStart s :: stk' =>
      if negb (beq (local s) (local n)) then inr (ESyntax (str "element closed by another"))
      else if negb (beq (space s) (space n)) then inr (ESyntax (str "element closed in another namespace"))
      else let '(stk'', m') := undo stk' m in inl (translate m n true, stk'', m')
  | _ => inr (ESyntax (str "unexpected end element"))
  end.

(** xml/xml.go:588-612 rawToken with its state.  [inl]: a token. *)
Definition raw_step (d : dstate) : (token * dstate) + (derr * dstate) + unit :=
  match d_err d with
  | Some e => inl (inr (e, d))
  | None =>
      match d_close d with
      | Some n => inl (inl (TEnd n, mkd (d_inp d) None (d_stk d) (d_ns d) None))
      | None =>
          match raw_token (d_inp d) with
          | ROk (t, c) rest => inl (inl (t, mkd rest c (d_stk d) (d_ns d) None))
          | RErr e => inl (inr (e, mkd [] None (d_stk d) (d_ns d) (Some e)))
          | RFuel => inr tt
          end
      end
  end.

(** Result of Token. *)
Inductive tokres := TokOk (t : token) (d : dstate) | TokErr (e : derr) (d : dstate) | TokFuel.

(** xml/xml.go:300-366 Token *)
Definition next_token (d : dstate) : tokres :=
  match raw_step d with
  | inr _ => TokFuel
  | inl (inr (e, d')) =>
      match e with
      | EEof => match d_stk d' with [] => TokErr EEof d' | _ :: _ => TokErr unexpected_eof d' end
      | _ => TokErr e d'
      end
  | inl (inl (t, d')) =>
      match t with
      | TStart n a =>
          match declare a (d_stk d', d_ns d') with
          | inr e => TokErr e (mkd (d_inp d') (d_close d') (d_stk d') (d_ns d') (Some e))
          | inl (stk, m) =>
              TokOk (TStart (translate m n true) (map (fun a => mkattr (translate m (aname a) false) (avalue a)) a))
                    (mkd (d_inp d') (d_close d') (SStart n :: stk) m None)
          end
      | TEnd n =>
          match pop_element n (d_stk d') (d_ns d') with
          | inr e => TokErr e (mkd (d_inp d') (d_close d') (d_stk d') (d_ns d') (Some e))
          | inl (n', stk, m) => TokOk (TEnd n') (mkd (d_inp d') (d_close d') stk m None)
          end
      | _ => TokOk t d'
      end
  end.

(** xml/read.go:770-787 Skip, with a budget of tokens. *)
Fixpoint skip_loop (k : nat) (depth : nat) (d : dstate) : outcome derr dstate :=
  match k with
  | O => OutOfFuel
  | S k =>
      match next_token d with
      | TokFuel => OutOfFuel
      | TokErr e _ => Err e
      | TokOk t d' =>
          match t with
          | TStart _ _ => skip_loop k (S depth) d'
          | TEnd _ => match depth with O => Ok d' | S p => skip_loop k p d' end
          | _ => skip_loop k depth d'
          end
      end
  end.

(** xml/xml.go:224-246 internBytes: the map (newest entry first) and the string returned. *)
Definition max_intern : nat := 1024.
Definition intern (m : list (bytes * bytes)) (b : bytes) : list (bytes * bytes) * bytes :=
  match find (fun e => beq (fst e) b) m with
  | Some e => (m, snd e)
  | None => if (length m <? max_intern)%nat then ((b, b) :: m, b) else (m, b)
  end.
