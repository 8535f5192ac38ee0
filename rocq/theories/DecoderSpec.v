(** What the token reader should do, written without the decoder's stack and map: nesting as a list of
    open names, namespaces as the list of open start tags (innermost first). *)
From Coq Require Import String.
From Coq Require Import ZArith List Bool Lia.
From Verif Require Import Base Utf8 Lexer Decoder.
Import ListNotations.
Open Scope Z_scope.

(** Proper nesting: the open names after a token sequence, innermost first; [None] if an end does not
    close the innermost open element. *)
Fixpoint nest (open : list name) (ts : list token) : option (list name) :=
  match ts with
  | [] => Some open
  | TStart n _ :: ts => nest (n :: open) ts
  | TEnd n :: ts => match open with
                    | m :: open' => if name_eqb m n then nest open' ts else None
                    | [] => None
                    end
  | _ :: ts => nest open ts
  end.

(** *** Namespaces: https://www.w3.org/TR/xml-names/ *)
(** A start tag as written: its name and its attributes. *)
Definition tag := (name * list attr)%type.
(** The prefix an attribute declares: xmlns:p declares p, xmlns declares the default (empty) prefix. *)
Definition declares (a : attr) : option bytes :=
  if beq (space (aname a)) (str "xmlns") then Some (local (aname a))
  else if beq (space (aname a)) [] && beq (local (aname a)) (str "xmlns") then Some []
  else None.
(** The declaration of [p] in one start tag (the last one if it is repeated). *)
Fixpoint declared (a : list attr) (p : bytes) : option bytes :=
  match a with
  | [] => None
  | x :: a => match declared a p with
              | Some v => Some v
              | None => match declares x with Some q => if beq q p then Some (avalue x) else None | None => None end
              end
  end.
(** The nearest enclosing declaration. *)
Fixpoint resolve (open : list tag) (p : bytes) : option bytes :=
  match open with
  | [] => None
  | (_, a) :: open => match declared a p with Some v => Some v | None => resolve open p end
  end.
(** Expanded names.  xmlns and xml are bound for ever; an attribute without prefix has no namespace;
    an undeclared prefix is kept. *)
Definition expand (open : list tag) (elem : bool) (n : name) : name :=
  if beq (space n) (str "xmlns") then mkname (str "http://www.w3.org/2000/xmlns/") (local n)
  else if beq (space n) (str "xml") then mkname (str "http://www.w3.org/XML/1998/namespace") (local n)
  else if beq (space n) [] && (negb elem || beq (local n) (str "xmlns")) then n
  else match resolve open (space n) with Some u => mkname u (local n) | None => n end.
Definition expand_attr (open : list tag) (a : attr) : attr := mkattr (expand open false (aname a)) (avalue a).

(** The tokens as written in the input, a self-closing tag as a start and an end. *)
Inductive written : bytes -> option name -> list token -> bytes -> option name -> Prop :=
| W_nil inp c : written inp c [] inp c
| W_close inp n ts inp' c' : written inp None ts inp' c' -> written inp (Some n) (TEnd n :: ts) inp' c'
| W_tok inp t c inp1 ts inp' c' : raw_token inp = ROk (t, c) inp1 -> written inp1 c ts inp' c' -> written inp None (t :: ts) inp' c'.

(** Reading the written tokens: the tokens with expanded names and the tags left open. *)
Inductive interp : list tag -> list token -> list token -> list tag -> Prop :=
| I_nil o : interp o [] [] o
| I_start o n a ws ts o' :
    interp ((n, a) :: o) ws ts o' ->
    interp o (TStart n a :: ws) (TStart (expand ((n, a) :: o) true n) (map (expand_attr ((n, a) :: o)) a) :: ts) o'
| I_end o n a ws ts o' :
    interp o ws ts o' ->
    interp ((n, a) :: o) (TEnd n :: ws) (TEnd (expand ((n, a) :: o) true n) :: ts) o'
| I_other o t ws ts o' :
    (forall n a, t <> TStart n a) -> (forall n, t <> TEnd n) ->
    interp o ws ts o' -> interp o (t :: ws) (t :: ts) o'.

(** Successive calls of Token that return tokens. *)
Inductive calls : dstate -> list token -> dstate -> Prop :=
| Calls_nil d : calls d [] d
| Calls_tok d t d1 ts d' : next_token d = TokOk t d1 -> calls d1 ts d' -> calls d (t :: ts) d'.

(** An unread '>' where text is expected. *)
Definition stray (d : dstate) : Prop := d_err d = None /\ d_close d = None /\ exists s, d_inp d = 62 :: s.
