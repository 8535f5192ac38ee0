(** Where the printer's output goes: bufio.Writer, the counting writer, Encode, the encoder pool and WriteXML
    (mpd/io.go:12-78, xml/marshal.go:146-235, 350-360, 1158-1211). *)
From Coq Require Import String.
From Coq Require Import ZArith List Bool Lia.
From Verif Require Import Base Utf8 Lexer Escape Decoder Printer.
Import ListNotations.
Open Scope Z_scope.

(** An io.Writer: for the calls it got before and the next slice, how many bytes it accepts and the error it
    returns.  (A non-deterministic writer is any one of these.) *)
Inductive werr := WErr (code : Z).
Definition writer := list bytes -> bytes -> nat * option werr.
(** The io.Writer contract: it accepts no more than it is given and returns an error if it accepts less. *)
Definition obeys (o : writer) : Prop := forall h p, (fst (o h p) <= length p)%nat /\ ((fst (o h p) < length p)%nat -> snd (o h p) <> None).

(** The destination so far: the calls made, the bytes accepted, and countingWriter.n (mpd/io.go:12-22). *)
Record dest := mkdest { u_calls : list bytes; u_out : bytes; u_n : Z }.
Definition new_dest : dest := mkdest [] [] 0.
(** mpd/io.go:18-22 countingWriter.Write *)
Definition cw_write (o : writer) (p : bytes) (u : dest) : nat * option werr * dest :=
  let '(n, e) := o (u_calls u) p in
  (n, e, mkdest (u_calls u ++ [p]) (u_out u ++ firstn n p) (u_n u + Z.of_nat n)).

(** bufio.Writer (standard library, buffer of 4096 bytes): the buffered bytes and the sticky error.
    The io.StringWriter shortcut of WriteString does not apply to countingWriter, which has no such method. *)
Definition buf_size : nat := Z.to_nat 4096.
Record bufw := mkb { b_buf : bytes; b_err : option werr; b_dst : dest }.
Definition b_reset (u : dest) : bufw := mkb [] None u.
Definition short_write : werr := WErr (-1).
(** bufio.Writer.Flush *)
Definition b_flush (o : writer) (b : bufw) : bufw :=
  match b_err b with
  | Some _ => b
  | None =>
      match b_buf b with
      | [] => b
      | buf =>
          let '(n, e, u) := cw_write o buf (b_dst b) in
          let e := match e with None => if (n <? length buf)%nat then Some short_write else None | _ => e end in
          match e with
          | Some x => mkb (skipn n buf) (Some x) u
          | None => mkb [] None u
          end
      end
  end.
(** bufio.Writer.Write; [None] if the loop is not over after [k] rounds. *)
Fixpoint b_write (k : nat) (o : writer) (p : bytes) (b : bufw) : option bufw :=
  match b_err b with
  | Some _ => Some b
  | None =>
      if (length p <=? buf_size - length (b_buf b))%nat then Some (mkb (b_buf b ++ p) None (b_dst b))
      else
        match k with
        | O => None
        | S k =>
            match b_buf b with
            | [] => let '(n, e, u) := cw_write o p (b_dst b) in b_write k o (skipn n p) (mkb [] e u)
            | buf =>
                let n := (buf_size - length buf)%nat in
                b_write k o (skipn n p) (b_flush o (mkb (buf ++ firstn n p) None (b_dst b)))
            end
        end
  end.
(** bufio.Writer.WriteByte *)
Definition b_write_byte (o : writer) (c : Z) (b : bufw) : bufw :=
  match b_err b with
  | Some _ => b
  | None =>
      let b1 := if (buf_size <=? length (b_buf b))%nat then b_flush o b else b in
      match b_err b1 with Some _ => b1 | None => mkb (b_buf b1 ++ [c]) None (b_dst b1) end
  end.
(** The rounds a Write may need when the writer obeys its contract. *)
Definition rounds : nat := 3.

(** Encoder (marshal.go:146-156, 398-410): the printer with its buffered writer, closed flag and sticky error. *)
Record encoder := mkenc { en_p : pstate; en_b : bufw; en_closed : bool; en_err : option werr }.
Definition closed_err : werr := WErr (-2).
(** marshal.go:1158-1190 printer.Write, WriteString, WriteByte *)
Definition p_write (o : writer) (c : bytes) (e : encoder) : option encoder :=
  let err := match en_err e with None => if en_closed e then Some closed_err else None | x => x end in
  match err with
  | Some x => Some (mkenc (en_p e) (en_b e) (en_closed e) (Some x))
  | None => match b_write rounds o c (en_b e) with
            | None => None
            | Some b => Some (mkenc (en_p e) b (en_closed e) (b_err b))
            end
  end.
Fixpoint p_writes (o : writer) (cs : list bytes) (e : encoder) : option encoder :=
  match cs with
  | [] => Some e
  | c :: cs => match p_write o c e with None => None | Some e => p_writes o cs e end
  end.

(** How a call ended. *)
Inductive ended := Done | Failed | Crashed.
(** Run a printer step (all its writes, then cachedWriteError, marshal.go:1208-1211).  Where the code returns
    early because of a write error, the model goes on: the error is sticky, so nothing more is written, and
    the call fails in both. *)
Definition run_step (o : writer) (m : M unit) (e : encoder) : option (encoder * ended) :=
  let '(cs, s, r) := m (en_p e) in
  match p_writes o (cs ++ [[]]) (mkenc s (en_b e) (en_closed e) (en_err e)) with
  | None => None
  | Some e' => match r with
               | Ok _ => Some (e', match en_err e' with None => Done | Some _ => Failed end)
               | Err _ => Some (e', Failed)
               | Panic => Some (e', Crashed)
               | OutOfFuel => None
               end
  end.
(** marshal.go:352-354 Flush *)
Definition enc_flush (o : writer) (e : encoder) : encoder * ended :=
  let b := b_flush o (en_b e) in
  (mkenc (en_p e) b (en_closed e) (en_err e), match b_err b with None => Done | Some _ => Failed end).
(** marshal.go:1193-1205 Close *)
Definition enc_close (o : writer) (e : encoder) : encoder * ended :=
  if en_closed e then (e, Done)
  else
    let b := b_flush o (en_b e) in
    (mkenc (en_p e) b true (en_err e),
     match b_err b with Some _ => Failed | None => match p_elems (en_p e) with [] => Done | _ => Failed end end).
(** marshal.go:214-220 Encode, for any printer program in place of marshalValue. *)
Definition enc_encode (o : writer) (m : M unit) (e : encoder) : option (encoder * ended) :=
  match run_step o m e with
  | None => None
  | Some (e1, Done) => Some (enc_flush o e1)
  | Some r => Some r
  end.

(** marshal.go:152-156 NewEncoder on the counting writer *)
Definition new_encoder (u : dest) : encoder := mkenc new_printer (b_reset u) false None.
(** marshal.go:161-167: a pooled encoder that was never used; its destination is io.Discard. *)
Definition pool_new : encoder := new_encoder new_dest.
(** marshal.go:172-178 AcquireEncoder, given the encoder that came out of the pool *)
Definition acquire (u : dest) (e : encoder) : encoder := mkenc (en_p e) (b_reset u) false None.
(** marshal.go:182-198 ReleaseEncoder, as the encoder put back *)
Definition release (e : encoder) : encoder :=
  mkenc (mkp 0 [] [] 0 false false []) (b_reset new_dest) false None.
(** marshal.go:203-206 Indent *)
Definition enc_indent (prefix indent : bytes) (e : encoder) : encoder :=
  let s := en_p e in
  mkenc (mkp (p_seq s) indent prefix (p_depth s) (p_indented s) (p_newline s) (p_elems s)) (en_b e) (en_closed e) (en_err e).

(** xml.Header, marshal.go:20-26 *)
Definition xml_header : bytes := str "<?xml version=""1.0"" encoding=""UTF-8""?>" ++ [10].

(** mpd/io.go:59-78 WriteXML with the encoder [e] from the pool: the destination afterwards, the count
    returned, how it ended, and the encoder put back ([None]: none was taken). *)
Definition write_xml (o : writer) (m : M unit) (indent : bytes) (header : bool) (e : encoder)
  : option (dest * Z * ended * option encoder) :=
  let '(err, u) := if header then let '(_, err, u) := cw_write o xml_header new_dest in (err, u) else (None, new_dest) in
  match err with
  | Some _ => Some (u, u_n u, Failed, None)
  | None =>
      let e1 := enc_indent [] indent (acquire u e) in
      match enc_encode o m e1 with
      | None => None
      | Some (e2, Done) =>
          let '(e3, r) := enc_flush o e2 in
          Some (b_dst (en_b e3), u_n (b_dst (en_b e3)), r, Some (release e3))
      | Some (e2, r) => Some (b_dst (en_b e2), u_n (b_dst (en_b e2)), r, Some (release e2))
      end
  end.
