(** Simple values as text: what package strconv and package strings do for package xml (standard library, from its
    documentation), marshalSimple, copyValue and the attribute methods of package mpd. *)
From Coq Require Import String.
From Coq Require Import ZArith List Bool Lia SpecFloat.
From Verif Require Import Base Float64 Utf8 Lexer Duration Printer GoType.
Import ListNotations.
Open Scope Z_scope.

(** *** Standard library *)
(** What is not modelled of package strconv: FormatFloat with format 'g' and with format 'f' (shortest, by bit size),
    ParseFloat by bit size ([None]: error); and the conversion of out-of-range floats to integers. *)
Record floats := mkfl { fmt_g : Z -> f64 -> bytes; fmt_f : f64 -> bytes; parse_f : Z -> bytes -> option f64; f_oor : f64 -> Z }.

(** strconv.FormatInt, FormatUint, FormatBool *)
Definition fmt_int (z : Z) : bytes := if z <? 0 then 45 :: itoa (- z) else itoa z.
Definition fmt_bool (b : bool) : bytes := if b then str "true" else str "false".
(** unicode.IsSpace *)
Definition uni_space (r : Z) : bool :=
  within 9 13 r || (r =? 32) || (r =? 133) || (r =? 160) || (r =? 5760) || within 8192 8202 r || (r =? 8232) || (r =? 8233) || (r =? 8239) || (r =? 8287) || (r =? 12288).
(** strings.TrimSpace: without the white space at both ends; on the runes of the string. *)
Fixpoint drop_while {A} (p : A -> bool) (l : list A) : list A := match l with x :: t => if p x then drop_while p t else l | [] => [] end.
Definition trim_space (s : bytes) : bytes :=
  let sp := fun p : Z * bytes => uni_space (fst p) in
  concat (map snd (rev (drop_while sp (rev (drop_while sp (pieces s)))))).
(** strconv.ParseUint and ParseInt, base 10: [None] is a syntax or range error. *)
Definition parse_uint_bits (bits : Z) (s : bytes) : option Z :=
  match s with
  | [] => None
  | _ => if forallb is_digit s then let v := digits_val s in if v <? 2 ^ bits then Some v else None else None
  end.
Definition parse_int_bits (bits : Z) (s : bytes) : option Z :=
  let '(neg, t) := match s with 43 :: t => (false, t) | 45 :: t => (true, t) | _ => (false, s) end in
  match parse_uint_bits 64 t with
  | None => None
  | Some v => if neg then (if v <=? 2 ^ (bits - 1) then Some (- v) else None) else if v <? 2 ^ (bits - 1) then Some v else None
  end.
(** strconv.ParseBool *)
Definition parse_bool (s : bytes) : option bool :=
  if existsb (beq s) [str "1"; str "t"; str "T"; str "TRUE"; str "true"; str "True"] then Some true
  else if existsb (beq s) [str "0"; str "f"; str "F"; str "FALSE"; str "false"; str "False"] then Some false
  else None.

(** *** Writing *)
(** marshal.go:951-984 marshalSimple: [None] is UnsupportedTypeError. *)
Definition simple_text (F : floats) (t : gtype) (v : gval) : option bytes :=
  match t, v with
  | TString, VStr s => Some s
  | TBool, VBool b => Some (fmt_bool b)
  | TInt _, VInt z | TUint _, VInt z | TDuration, VInt z => Some (fmt_int z)
  | TFloat b, VFloat f => Some (fmt_g F b f)
  | TFloatInf, VFloat f => Some (fmt_g F 64 f)
  | _, _ => None
  end.
(** marshal.go:1289-1301 isEmptyValue; a float is zero with either sign (Value.IsZero since Go 1.22). *)
Definition is_empty (v : gval) : bool :=
  match v with
  | VStr [] | VList [] | VBool false | VInt 0 | VFloat (S754_zero _) | VNil => true
  | _ => false
  end.
(** mpd/duration.go:36-41 and mpd/mpd.go:1227-1237: the attribute methods, on a pointer that is not nil. *)
Definition method_text (F : floats) (t : gtype) (v : gval) : outcome eerr bytes :=
  match t, v with
  | TDuration, VInt d => match dur_string (f_oor F) d with Ok s => Ok s | Err _ | Panic => Panic | OutOfFuel => OutOfFuel end
  | TFloatInf, VFloat f => Ok (match f with S754_infinity false => str "INF" | _ => fmt_f F f end)
  | _, _ => Panic
  end.
Definition has_method (t : gtype) : bool := match t with TDuration | TFloatInf => true | _ => false end.

(** *** Reading *)
(** Errors of reading a document: from the decoder, from type analysis, and by message. *)
Inductive uerr :=
| UTok (e : derr) | UType | UDepth | UExpected (want have : name) | UParse (t : gtype) (s : bytes) | UDur (e : dur_err) | UUnknown (t : gtype).
Definition need {A B} (t : gtype) (s : bytes) (r : option A) (f : A -> B) : outcome uerr B :=
  match r with Some a => Ok (f a) | None => Err (UParse t s) end.
(** read.go:646-694: copyValue on the type behind the pointer.  A slice that is not a byte slice makes SetBytes panic. *)
Definition copy_simple (F : floats) (t : gtype) (s : bytes) : outcome uerr gval :=
  let num {A} (z : gval) (p : bytes -> option A) (f : A -> gval) := match s with [] => Ok z | _ => need t s (p (trim_space s)) f end in
  match t with
  | TString => Ok (VStr s)
  | TBool => num (VBool false) parse_bool VBool
  | TInt b => num (VInt 0) (parse_int_bits b) VInt
  | TDuration => num (VInt 0) (parse_int_bits 64) VInt
  | TUint b => num (VInt 0) (parse_uint_bits b) VInt
  | TFloat b => num (VFloat (S754_zero false)) (parse_f F b) VFloat
  | TFloatInf => num (VFloat (S754_zero false)) (parse_f F 64) VFloat
  | TSlice _ => Panic
  | TPtr _ | TStruct _ | TName | TAttr => Err (UUnknown t)
  end.
(** read.go:631-697 copyValue, for a value that is there *)
Definition copy_value (F : floats) (t : gtype) (s : bytes) : outcome uerr gval :=
  match t with
  | TPtr t => do v <- copy_simple F t s ; Ok (VPtr v)
  | _ => copy_simple F t s
  end.
(** mpd/duration.go:43-50 and mpd/mpd.go:1239-1250 *)
Definition method_value (F : floats) (t : gtype) (s : bytes) : outcome uerr gval :=
  match t with
  | TDuration => match parse_duration (f_oor F) s with Ok d => Ok (VInt d) | Err e => Err (UDur e) | Panic => Panic | OutOfFuel => OutOfFuel end
  | _ => if beq s (str "INF") then Ok (VFloat (S754_infinity false)) else need t s (parse_f F 64 s) VFloat
  end.
