(** MarshalXML methods: marshalInterface (xml/marshal.go:781-799), marshalTextInterface, and what a method may do with the encoder it gets.

    A method is any program of calls on the encoder; what it does next depends on how its calls ended.  What it does besides,
    and which method a value has, is left open.  Only values given to Encode and EncodeElement have methods here, not those in
    fields of other values (Marshal.v). *)
From Coq Require Import String.
From Coq Require Import ZArith List Bool.
From Verif Require Import Base Lexer Escape Decoder Printer Writer EncoderSpec EncoderProofs GoType Simple Marshal.
Import ListNotations.
Open Scope Z_scope.

(** A value without MarshalXML as Encode or EncodeElement gets it: one of Marshal.v with the start element given, if any, or one with
    a method MarshalText, which returns a text or an error, and the start element of defaultStart (marshal.go:759-778). *)
Inductive plain :=
| mkplain (F : floats) (env : tenv) (embed fuel : nat) (addr : bool) (t : gtype) (v : gval) (start : option template)
| mktext (n : name) (a : list attr) (text : option bytes).
(** Its printer program: marshalValue, marshalTextInterface (marshal.go:801-812). *)
Definition plain_program (v : plain) : M unit :=
  match v with
  | mkplain F env embed fuel addr t v start => marshal_value F env embed fuel addr t v None start
  | mktext n a text =>
      mdo_ write_start n a ;
      mdo_ match text with None => mfail (str "MarshalText") | Some x => emit (esc_writes (EText false) x) end ;
      write_end n
  end.

(** The calls of a method; [Return true] returns nil.  [MElement n x]: Encode, or EncodeElement with a start element named n,
    of a value whose method is x. *)
Inductive method :=
| Return (ok : bool)
| MToken (t : token) (k : ended -> method)
| MFlush (k : ended -> method)
| MIndent (prefix indent : bytes) (k : method)
| MClose (k : ended -> method)
| MPlain (v : plain) (k : ended -> method)
| MElement (n : option name) (x : method) (k : ended -> method).

(** The element without a name that marshalInterface puts on the stack (marshal.go:784). *)
Definition mark : element := mkel [] [] [] [] [].
Definition set_elems (es : list element) (e : encoder) : encoder := mkenc (with_elems es (en_p e)) (en_b e) (en_closed e) (en_err e).
(** The text written since the encoder was [e]. *)
Definition added (e e' : encoder) : bytes := skipn (length (total e)) (total e').

(** marshalInterface with the check of marshalValue before it (marshal.go:511-513) and the Flush of Encode and EncodeElement after
    it (214-235); [body] runs the method.  Cutting the stack to n-1 elements keeps the outer ones. *)
Definition with_mark (o : writer) (n : option name) (body : encoder -> option (encoder * ended * list call)) (e : encoder) : option (encoder * ended * list call) :=
  if match n with Some m => beq (local m) [] | None => false end then Some (e, Failed, [])
  else
    let es := mark :: p_elems (en_p e) in
    match body (set_elems es e) with
    | None => None
    | Some (e1, Done, g) =>
        let es1 := p_elems (en_p e1) in
        if (length es <? length es1)%nat then Some (e1, Failed, g)
        else let '(e2, r) := enc_flush o (set_elems (skipn (length es1 - (length es - 1)) es1) e1) in Some (e2, r, g)
    | Some r => Some r
    end.
(** A method on an encoder: the encoder afterwards, what it returned ([Crashed]: a call panicked), and the EncodeToken calls made by
    it and by the methods it called, in order. *)
Fixpoint run_method (o : writer) (x : method) (e : encoder) : option (encoder * ended * list call) :=
  let go (k : ended -> method) (c : encoder * ended * list call) :=
    let '(e1, r, g) := c in
    match r with
    | Crashed => Some (e1, Crashed, g)
    | _ => match run_method o (k r) e1 with None => None | Some (e2, r2, h) => Some (e2, r2, g ++ h) end
    end in
  match x with
  | Return ok => Some (e, if ok then Done else Failed, [])
  | MToken t k =>
      match enc_token o t e with
      | None => None
      | Some (e1, r) => go k (e1, r, [mkcall t (match r with Done => true | _ => false end) (added e e1)])
      end
  | MFlush k => let '(e1, r) := enc_flush o e in go k (e1, r, [])
  | MIndent p i k => run_method o k (enc_indent p i e)
  | MClose k => let '(e1, r) := enc_close o e in go k (e1, r, [])
  | MPlain v k => match enc_encode o (plain_program v) e with None => None | Some (e1, r) => go k (e1, r, []) end
  | MElement n y k => match with_mark o n (run_method o y) e with None => None | Some c => go k c end
  end.
(** Encode and EncodeElement of a value with the method [x]. *)
Definition encode_method (o : writer) (n : option name) (x : method) (e : encoder) : option (encoder * ended * list call) := with_mark o n (run_method o x) e.
