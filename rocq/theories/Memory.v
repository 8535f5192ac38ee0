(** Arrays and slices: what the tokens of a decoder refer to, CopyToken, and slices that are grown on reading
    (xml/xml.go:56-133 Copy methods and CopyToken, 300-369, 603-890, 833-883, 1178-1197; xml/read.go:295-301, 432-441,
    576-587).

    A slice is an array with an offset and a length; its capacity is the rest of the array.  [append] writes into the
    array if there is room and else moves to a new array, with as much room behind as the runtime likes: [room].
    bytes.Buffer is never read from, so that its contents start at the start of its array: WriteByte, WriteString and
    WriteRune append, Reset and Truncate shorten (package bytes, from its source).

    Simplifications: nil slices are slices without room; what a call of Token does with the buffer is any sequence of
    the operations the code uses, not the sequence for some input. *)
From Coq Require Import String.
From Coq Require Import ZArith List Bool Lia.
From Verif Require Import Base Lexer.
Import ListNotations.
Local Open Scope nat_scope.

Section Arrays.
Context {A : Type}.
(** Arrays by identity; those from [m_next] on are not yet made. *)
Record mem := mkmem { m_arr : nat -> list A; m_next : nat }.
Record slice := mksl { s_id : nat; s_off : nat; s_len : nat }.
Definition no_mem : mem := mkmem (fun _ => []) 0.
Definition contents (m : mem) (s : slice) : list A := firstn (s_len s) (skipn (s_off s) (m_arr m (s_id s))).
Definition set_arr (m : mem) (id : nat) (l : list A) : mem := mkmem (fun k => if (k =? id)%nat then l else m_arr m k) (m_next m).
(** make and a composite literal *)
Definition alloc (m : mem) (l : list A) (room : list A) : mem * slice :=
  (mkmem (fun k => if (k =? m_next m)%nat then l ++ room else m_arr m k) (S (m_next m)), mksl (m_next m) 0 (length l)).
(** Writing [l] from position [i] of an array on. *)
Definition overwrite (i : nat) (l : list A) (arr : list A) : list A := firstn i arr ++ l ++ skipn (i + length l) arr.
(** append(s, l...) *)
Definition append (m : mem) (s : slice) (l : list A) (room : list A) : mem * slice :=
  let e := s_off s + s_len s in
  if (e + length l <=? length (m_arr m (s_id s)))%nat
  then (set_arr m (s_id s) (overwrite e l (m_arr m (s_id s))), mksl (s_id s) (s_off s) (s_len s + length l))
  else alloc m (contents m s ++ l) room.
(** s[:n] *)
Definition cut (n : nat) (s : slice) : slice := mksl (s_id s) (s_off s) n.
(** reflect.Value.Grow(1) and SetLen(len + 1), xml/read.go:297-299, 437-439: the element behind the last becomes part of
    the slice as it is; a new array has zero values. *)
Definition grow1 (zero : A) (m : mem) (s : slice) (room : nat) : mem * slice :=
  let e := s_off s + s_len s in
  if (e <? length (m_arr m (s_id s)))%nat then (m, mksl (s_id s) (s_off s) (S (s_len s)))
  else let '(m', s') := alloc m (contents m s ++ [zero]) (repeat zero room) in (m', s').
(** Setting an element. *)
Definition set_elem (m : mem) (s : slice) (i : nat) (a : A) : mem := set_arr m (s_id s) (overwrite (s_off s + i) [a] (m_arr m (s_id s))).
End Arrays.
Arguments mem : clear implicits.

(** Tokens as the code has them: bytes and attributes are slices. *)
Inductive mtoken :=
| MStart (n : name) (a : slice)
| MEnd (n : name)
| MChar (s : slice)
| MComment (s : slice)
| MProc (target : bytes) (s : slice)
| MDirective (s : slice).

(** The memory, the buffer of the decoder, and the attributes of the start tag that is being read or is kept for the next
    call (xml.go:322). *)
Record state := mkst { st_bytes : mem Z; st_attrs : mem attr; st_buf : slice; st_work : option slice }.
(** The token as a value. *)
Definition value (x : state) (t : mtoken) : token :=
  match t with
  | MStart n a => TStart n (contents (st_attrs x) a)
  | MEnd n => TEnd n
  | MChar s => TChar (contents (st_bytes x) s)
  | MComment s => TComment (contents (st_bytes x) s)
  | MProc t s => TProc t (contents (st_bytes x) s)
  | MDirective s => TDirective (contents (st_bytes x) s)
  end.

(** What Token does to the memory: the buffer is emptied, written to, cut (xml.go:651-657, 708-714, 751-812, 1029, 1053,
    1141-1168); attributes get a new array (xml.go:833), are added (xml.go:883) and their names translated in place
    (xml.go:357-359). *)
Inductive action :=
| AReset
| AWrite (l : bytes) (room : bytes)
| ATruncate (n : nat)
| AMake (room : list attr)
| AAttr (a : attr) (room : list attr)
| ATranslate (i : nat) (a : attr).
Definition act (x : state) (o : action) : state :=
  match o with
  | AReset => mkst (st_bytes x) (st_attrs x) (cut 0 (st_buf x)) (st_work x)
  | AWrite l room => let '(m, b) := append (st_bytes x) (st_buf x) l room in mkst m (st_attrs x) b (st_work x)
  | ATruncate n => mkst (st_bytes x) (st_attrs x) (cut (Nat.min n (s_len (st_buf x))) (st_buf x)) (st_work x)
  | AMake room => let '(m, s) := alloc (st_attrs x) [] room in mkst (st_bytes x) m (st_buf x) (Some s)
  | AAttr a room =>
      match st_work x with
      | Some s => let '(m, s') := append (st_attrs x) s [a] room in mkst (st_bytes x) m (st_buf x) (Some s')
      | None => x
      end
  | ATranslate i a =>
      match st_work x with
      | Some s => if (i <? s_len s)%nat then mkst (st_bytes x) (set_elem (st_attrs x) s i a) (st_buf x) (st_work x) else x
      | None => x
      end
  end.
(** What is returned: the buffer without its last bytes (xml.go:664, 726, 815, 1178-1197), the start tag, an end tag, or
    nothing. *)
Inductive kind := KChar | KComment | KProc (target : bytes) | KDirective.
Inductive result := RBuf (k : kind) (chop : nat) | RStart (n : name) | REnd (n : name) | RNone.
Definition give (x : state) (r : result) : option mtoken * state :=
  match r with
  | RBuf k chop =>
      let s := cut (s_len (st_buf x) - chop) (st_buf x) in
      (Some match k with KChar => MChar s | KComment => MComment s | KProc t => MProc t s | KDirective => MDirective s end, x)
  | RStart n => match st_work x with Some s => (Some (MStart n s), mkst (st_bytes x) (st_attrs x) (st_buf x) None) | None => (None, x) end
  | REnd n => (Some (MEnd n), x)
  | RNone => (None, x)
  end.
(** A call of Token. *)
Definition call (x : state) (c : list action * result) : option mtoken * state := give (fold_left act (fst c) x) (snd c).

(** bytes.Clone, and StartElement.Copy (xml.go:64-69) *)
Definition clone {A} (m : mem A) (s : slice) : mem A * slice := alloc m (contents m s) [].
(** xml.go:116-133 CopyToken *)
Definition copy_token (x : state) (t : mtoken) : state * mtoken :=
  let bytes_of (f : slice -> mtoken) (s : slice) := let '(m, s') := clone (st_bytes x) s in (mkst m (st_attrs x) (st_buf x) (st_work x), f s') in
  match t with
  | MChar s => bytes_of MChar s
  | MComment s => bytes_of MComment s
  | MDirective s => bytes_of MDirective s
  | MProc t s => bytes_of (MProc t) s
  | MStart n a => let '(m, a') := clone (st_attrs x) a in (mkst (st_bytes x) m (st_buf x) (st_work x), MStart n a')
  | MEnd n => (x, MEnd n)
  end.

(** A program that uses a decoder: it calls Token and copies tokens; the last token returned and all that were kept. *)
Inductive use := UCall (c : list action * result) | UCopy (t : mtoken).
Definition used (x : state) (u : use) : state := match u with UCall c => snd (call x c) | UCopy t => fst (copy_token x t) end.
(** NewDecoder: an empty buffer. *)
Definition new_state : state := mkst (mkmem (fun _ => []) 1) no_mem (mksl 0 0 0) None.
Inductive reached : state -> Prop :=
| Reached_new : reached new_state
| Reached_use x u : reached x -> reached (used x u).

(** read.go:576-587: the text collected for a field, [data = append(data, t...)] for the character data of the element. *)
Fixpoint collect (x : state) (data : slice) (l : list (list action * result * bytes)) : state * slice :=
  match l with
  | [] => (x, data)
  | (c, room) :: l =>
      match call x c with
      | (Some (MChar s), x1) =>
          let '(m, data') := append (st_bytes x1) data (contents (st_bytes x1) s) room in collect (mkst m (st_attrs x1) (st_buf x1) (st_work x1)) data' l
      | (_, x1) => collect x1 data l
      end
  end.
