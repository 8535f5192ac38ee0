(** The decoder byte by byte (xml/xml.go:206-223, 300-1277, xml/read.go:222-245, 765-787): reading and
    putting back single bytes, the line and column, the buffers, the sticky error, and all the options of
    the decoder (Strict, AutoClose, Entity, CharsetReader, DefaultSpace).

    [Lexer.v] and [Decoder.v] model the same code as functions on the list of bytes that are left, for the
    options that package mpd uses; [ByteSim.v] proves that they agree with this file.

    Simplifications:
    - A reader gives finitely many bytes and then an error (io.EOF or another one).  It is not asked again
      after an error, because [d.err] is kept.
    - The texts of error messages leave out what is inserted into them (names, characters), as in Lexer.v.
    - Numbers of lines and bytes are unbounded.
    - [strings.EqualFold] is a parameter for AutoClose; for the word utf-8 it is the one of Lexer.v.
    - A decoder made from a token reader (xml.go:258-273, 588-591) is in TokenReader.v. *)
From Coq Require Import String.
From Coq Require Import ZArith List Bool Lia.
From Verif Require Import Base Utf8 NameTables Lexer Decoder.
Import ListNotations.
Open Scope Z_scope.

(** What a reader gives (io.ByteReader): bytes, then an error. *)
Inductive rfail := FEof | FFail (m : bytes).
Record source := mksrc { s_bytes : bytes; s_end : rfail }.

(** What can be in [d.err]: the reader's error, a SyntaxError with its line (xml.go:31-38), another error. *)
Inductive lerr := LRead (e : rfail) | LSyntax (m : bytes) (line : Z) | LOther (m : bytes).

(** The options, xml/xml.go:142-205. *)
Record cfg := mkcfg {
  c_strict : bool;
  c_close : list bytes;                                         (* AutoClose *)
  c_fold : bytes -> bytes -> bool;                              (* strings.EqualFold *)
  c_entity : bytes -> option bytes;                             (* Entity *)
  c_charset : option (bytes -> source -> source + bytes);       (* CharsetReader *)
  c_default : bytes                                             (* DefaultSpace *)
}.

(** The fields of Decoder that the functions reading bytes use. *)
Record lst := mkl {
  l_src : source;                    (* d.r *)
  l_next : option Z;                 (* nextByte *)
  l_line : Z;
  l_start : Z;                       (* linestart *)
  l_off : Z;                         (* offset *)
  l_saved : option bytes;            (* saved *)
  l_buf : bytes;                     (* buf *)
  l_fresh : bool;                    (* nothing was ever written to buf: Bytes() is nil *)
  l_intern : list (bytes * bytes);   (* nameIntern *)
  l_err : option lerr                (* err *)
}.

Definition set_err (e : lerr) (s : lst) : lst :=
  mkl (l_src s) (l_next s) (l_line s) (l_start s) (l_off s) (l_saved s) (l_buf s) (l_fresh s) (l_intern s) (Some e).
Definition set_buf (b : bytes) (fresh : bool) (s : lst) : lst :=
  mkl (l_src s) (l_next s) (l_line s) (l_start s) (l_off s) (l_saved s) b fresh (l_intern s) (l_err s).
Definition set_intern (i : list (bytes * bytes)) (s : lst) : lst :=
  mkl (l_src s) (l_next s) (l_line s) (l_start s) (l_off s) (l_saved s) (l_buf s) (l_fresh s) i (l_err s).
Definition set_src (r : source) (s : lst) : lst :=
  mkl r (l_next s) (l_line s) (l_start s) (l_off s) (l_saved s) (l_buf s) (l_fresh s) (l_intern s) (l_err s).
Definition set_saved (v : option bytes) (s : lst) : lst :=
  mkl (l_src s) (l_next s) (l_line s) (l_start s) (l_off s) v (l_buf s) (l_fresh s) (l_intern s) (l_err s).

(** xml/xml.go:505-507 syntaxError, stored in [d.err]. *)
Definition fail (m : bytes) (s : lst) : lst := set_err (LSyntax m (l_line s)) s.
Definition has_err (s : lst) : bool := match l_err s with Some _ => true | None => false end.

(** bytes.Buffer: Reset, WriteByte, Truncate. *)
Definition reset (s : lst) : lst := set_buf [] (l_fresh s) s.
Definition put (b : Z) (s : lst) : lst := set_buf (l_buf s ++ [b]) false s.
Definition puts (t : bytes) (s : lst) : lst := set_buf (l_buf s ++ t) (l_fresh s && beq t []) s.
Definition truncate (n : nat) (s : lst) : lst := set_buf (firstn n (l_buf s)) (l_fresh s) s.

(** Counting a byte that was read, xml/xml.go:961-966. *)
Definition count (b : Z) (s : lst) : lst :=
  mkl (l_src s) (l_next s)
      (if b =? 10 then l_line s + 1 else l_line s) (if b =? 10 then l_off s + 1 else l_start s) (l_off s + 1)
      (l_saved s) (l_buf s) (l_fresh s) (l_intern s) (l_err s).

(** xml/xml.go:946-968 getc *)
Definition getc (s : lst) : option Z * lst :=
  match l_err s with
  | Some _ => (None, s)
  | None =>
      match l_next s with
      | Some b => (Some b, count b (mkl (l_src s) None (l_line s) (l_start s) (l_off s) (l_saved s) (l_buf s)
                                        (l_fresh s) (l_intern s) None))
      | None =>
          match s_bytes (l_src s) with
          | [] => (None, set_err (LRead (s_end (l_src s))) s)
          | b :: t => (Some b, count b (mkl (mksrc t (s_end (l_src s))) None (l_line s) (l_start s) (l_off s)
                                            (option_map (fun v => v ++ [b]) (l_saved s)) (l_buf s) (l_fresh s)
                                            (l_intern s) None))
          end
      end
  end.

(** xml/xml.go:998-1005 mustgetc *)
Definition mustgetc (s : lst) : option Z * lst :=
  let '(o, s') := getc s in
  match o with
  | Some _ => (o, s')
  | None => (None, match l_err s' with Some (LRead FEof) => fail (str "unexpected EOF") s' | _ => s' end)
  end.

(** xml/xml.go:1008-1014 ungetc *)
Definition ungetc (b : Z) (s : lst) : lst :=
  mkl (l_src s) (Some b) (if b =? 10 then l_line s - 1 else l_line s) (l_start s) (l_off s - 1) (l_saved s)
      (l_buf s) (l_fresh s) (l_intern s) (l_err s).

(** xml/xml.go:973-995 InputOffset, InputPos, savedOffset *)
Definition input_offset (s : lst) : Z := l_off s.
Definition input_pos (s : lst) : Z * Z := (l_line s, l_off s - l_start s + 1).
Definition saved_offset (s : lst) : option Z :=
  option_map (fun v => Z.of_nat (length v) - match l_next s with Some _ => 1 | None => 0 end) (l_saved s).

(** Reading functions: [None] when the budget of a loop ran out, which is proved impossible; otherwise what
    the function returns ([None] for nil or [ok == false]) and the state. *)
Definition L (A : Type) := lst -> option (option A * lst).
Definition lret {A} (a : A) : L A := fun s => Some (Some a, s).
Definition lfail {A} (m : bytes) : L A := fun s => Some (None, fail m s).
(** [if x, ok = f(); !ok { return }] *)
Definition ltry {A B} (m : L A) (f : A -> L B) : L B :=
  fun s => match m s with
           | None => None
           | Some (Some a, s') => f a s'
           | Some (None, s') => Some (None, s')
           end.
(** [if x, ok = f(); !ok { if d.err == nil { d.err = syntaxError(m) }; return nil }] *)
Definition ltry_msg {A B} (m : L A) (msg : bytes) (f : A -> L B) : L B :=
  fun s => match m s with
           | None => None
           | Some (Some a, s') => f a s'
           | Some (None, s') => Some (None, if has_err s' then s' else fail msg s')
           end.
Definition ldo {B} (g : lst -> lst) (m : L B) : L B := fun s => m (g s).
Definition lmust : L Z := fun s => Some (mustgetc s).
Definition lfuel (s : lst) : nat := 2 + length (s_bytes (l_src s)).
Notation "'try' x <- m ; k" := (ltry m (fun x => k)) (at level 200, x name, m at level 100, k at level 200).
Notation "'step' g ; k" := (ldo g k) (at level 200, g at level 100, k at level 200).

(** xml/xml.go:927-940 space; the result is always [Some tt]. *)
Fixpoint space_loop (k : nat) : L unit :=
  match k with
  | O => fun _ => None
  | S k => fun s =>
      let '(o, s') := getc s in
      match o with
      | None => Some (Some tt, s')
      | Some b => if is_space b then space_loop k s' else Some (Some tt, ungetc b s')
      end
  end.
Definition lspace : L unit := fun s => space_loop (lfuel s) s.

(** *** Names *)

(** xml/xml.go:1255-1277 readName *)
Fixpoint name_loop (k : nat) : L unit :=
  match k with
  | O => fun _ => None
  | S k =>
      try b <- lmust;
      if name_byte b then step put b; name_loop k
      else step ungetc b; lret tt
  end.
Definition read_name_b : L unit :=
  fun s => (try b <- lmust;
            if name_byte b then step put b; name_loop (lfuel s)
            else step ungetc b; fun s => Some (None, s)) s.

(** xml/xml.go:1237-1250 name, with internBytes (228-245) *)
Definition name_b : L bytes :=
  step reset;
  try _ <- read_name_b;
  fun s => if is_name (l_buf s)
           then let '(i, n) := intern (l_intern s) (l_buf s) in Some (Some n, set_intern i s)
           else lfail (str "invalid XML name: " ++ l_buf s) s.

(** xml/xml.go:1213-1232 nsname *)
Definition nsname_b : L name :=
  try s <- name_b;
  match split_ns s with Some n => lret n | None => fun s => Some (None, s) end.

(** *** Character data, xml/xml.go:1028-1197 *)

(** xml.go:1098-1105: the digits; the result is the byte behind them. *)
Fixpoint digits_loop (k : nat) (base16 : bool) (b : Z) : L Z :=
  match k with
  | O => fun _ => None
  | S k => match hex_digit base16 b with
           | Some _ => step put b; try b <- lmust; digits_loop k base16 b
           | None => lret b
           end
  end.
(** [strconv.ParseUint] of a text of digits, if it is at most unicode.MaxRune. *)
Definition parse_rune (base16 : bool) (s : bytes) : option bytes :=
  let ds := map (fun b => match hex_digit base16 b with Some d => d | None => 0 end) s in
  let v := digits_value (if base16 then 16 else 10) ds in
  if negb (length s =? 0)%nat && (v <=? 1114111) then Some (encode_rune v) else None.

(** xml.go:1079-1149, behind the '&': [haveText] and [text]; [before] is the length of the buffer before '&'. *)
Definition entity_b (c : cfg) (before : nat) : L (option bytes) :=
  try b <- lmust;
  if b =? 35 then
    step put b;
    try b <- lmust;
    let number (base16 : bool) (b : Z) : L (option bytes) := fun s =>
      let start := length (l_buf s) in
      (try b <- digits_loop (lfuel s) base16 b;
       if negb (b =? 59) then step ungetc b; lret None
       else fun s => lret (parse_rune base16 (skipn start (l_buf s))) (put 59 s)) s in
    if b =? 120 then step put b; try b <- lmust; number true b
    else number false b
  else
    step ungetc b;
    fun s => match read_name_b s with
             | None => None
             | Some (o, s') =>
                 if match o with Some _ => false | None => has_err s' end then Some (None, s')
                 else (try b <- lmust;
                       if negb (b =? 59) then step ungetc b; lret None
                       else fun s =>
                         let name := skipn (S before) (l_buf s) in
                         lret (if is_name name
                               then match entity name with
                                    | Some r => Some (encode_rune r)
                                    | None => c_entity c name
                                    end
                               else None) (put 59 s)) s'
             end.

(** xml.go:1032-1177, the loop; the result is [trunc]. *)
Fixpoint text_loop_b (k : nat) (c : cfg) (quote : option Z) (cdata : bool) (b0 b1 : Z) : L nat :=
  match k with
  | O => fun _ => None
  | S k => fun s =>
      let '(o, s1) := getc s in
      match o with
      | None =>
          if cdata then
            Some (None, match l_err s1 with
                        | Some (LRead FEof) => fail (str "unexpected EOF in CDATA section") s1
                        | _ => s1
                        end)
          else Some (Some O, s1)
      | Some b =>
          let quoted := match quote with Some _ => true | None => false end in
          if negb quoted && (b0 =? 93) && (b1 =? 93) && (b =? 62) then
            if cdata then lret 2%nat s1 else lfail (str "unescaped ]]> not in CDATA section") s1
          else if (b =? 60) && negb cdata then
            if quoted then lfail (str "unescaped < inside quoted string") s1
            else lret O (ungetc 60 s1)
          else if (b =? 62) && negb cdata && negb quoted then lret O (ungetc 62 s1)
          else if match quote with Some q => b =? q | None => false end then lret O s1
          else if (b =? 38) && negb cdata then
            let before := length (l_buf s1) in
            (step put 38;
             try t <- entity_b c before;
             match t with
             | Some t => step truncate before; step puts t; text_loop_b k c quote cdata 0 0
             | None => if negb (c_strict c) then text_loop_b k c quote cdata 0 0
                       else lfail (str "invalid character entity")
             end) s1
          else
            text_loop_b k c quote cdata b1 b
              (if b =? 13 then put 10 s1
               else if (b1 =? 13) && (b =? 10) then s1
               else put b s1)
      end
  end.

(** xml.go:1028-1031, 1173-1197; a nil result without an error is possible (xml.go:1173 of an unused buffer). *)
Definition text_b (c : cfg) (quote : option Z) (cdata : bool) : L bytes :=
  step reset;
  fun s =>
    (try trunc <- text_loop_b (lfuel s) c quote cdata 0 0;
     fun s =>
       let data := firstn (length (l_buf s) - trunc) (l_buf s) in
       if forallb good_piece (pieces data)
       then Some (if l_fresh s then None else Some data, s)
       else lfail (str "invalid UTF-8 or illegal character code") s) s.

(** xml.go:892-925 attrval; unquoted values (xml.go:905-924) when not strict *)
Definition is_value_byte (b : Z) : bool :=
  within 97 122 b || within 65 90 b || within 48 57 b || (b =? 95) || (b =? 58) || (b =? 45).
Fixpoint value_loop (k : nat) : L unit :=
  match k with
  | O => fun _ => None
  | S k =>
      try b <- lmust;
      if is_value_byte b then step put b; value_loop k
      else step ungetc b; lret tt
  end.
Definition attrval_b (c : cfg) : L bytes :=
  try b <- lmust;
  if (b =? 34) || (b =? 39) then text_b c (Some b) false
  else if c_strict c then lfail (str "unquoted or missing attribute value in element")
  else
    step ungetc b;
    step reset;
    fun s => (try _ <- value_loop (lfuel s);
              fun s => Some (if l_fresh s then None else Some (l_buf s), s)) s.

(** *** Processing instructions, comments, directives *)

(** xml.go:642-654 *)
Fixpoint pi_loop_b (k : nat) (b0 : Z) : L unit :=
  match k with
  | O => fun _ => None
  | S k =>
      try b <- lmust;
      step put b;
      if (b0 =? 63) && (b =? 62) then lret tt else pi_loop_b k b
  end.
(** xml.go:660-685: the checks on an xml declaration; a reader for another encoding takes over. *)
Definition charset_b (c : cfg) (content : bytes) : L unit := fun s =>
  let ver := proc_inst (str "version") content in
  if negb (beq ver []) && negb (beq ver (str "1.0"))
  then Some (None, set_err (LOther (str "xml: unsupported version")) s)
  else
    let enc := proc_inst (str "encoding") content in
    if negb (beq enc []) && negb (equal_fold enc (str "utf-8")) then
      match c_charset c with
      | None => Some (None, set_err (LOther (str "xml: encoding declared but Decoder.CharsetReader is nil")) s)
      | Some f => match f enc (l_src s) with
                  | inr e => Some (None, set_err (LOther (str "xml: opening charset: " ++ e)) s)
                  | inl r => lret tt (set_src r s)
                  end
      end
    else lret tt s.

(** xml.go:707-724 *)
Fixpoint comment_loop_b (k : nat) (b0 b1 : Z) : L unit :=
  match k with
  | O => fun _ => None
  | S k =>
      try b <- lmust;
      step put b;
      if (b0 =? 45) && (b1 =? 45) then
        if b =? 62 then lret tt else lfail (str "invalid sequence ""--"" not allowed in comments")
      else comment_loop_b k b1 b
  end.

(** xml.go:728-736 *)
Fixpoint expect_b (p : bytes) : L unit :=
  match p with
  | [] => lret tt
  | c :: p => try b <- lmust; if b =? c then expect_b p else lfail (str "invalid <![ sequence")
  end.

(** xml.go:792-801 *)
Fixpoint skip_comment_b (k : nat) (b0 b1 : Z) : L unit :=
  match k with
  | O => fun _ => None
  | S k =>
      try b <- lmust;
      if (b0 =? 45) && (b1 =? 45) && (b =? 62) then lret tt else skip_comment_b k b1 b
  end.
(** xml.go:777-787: [None] if all of "!--" follows, else how much of it and the other byte. *)
Fixpoint match_bang_b (p : bytes) (n : nat) : L (option (nat * Z)) :=
  match p with
  | [] => lret None
  | c :: p => try b <- lmust; if b =? c then match_bang_b p (S n) else lret (Some (n, b))
  end.
(** xml.go:749-813: [pend] is the byte to handle after the jump to HandleB *)
Fixpoint directive_loop_b (k : nat) (pend : option Z) (inq : Z) (depth : Z) : L unit :=
  match k with
  | O => fun _ => None
  | S k =>
      let handle (b : Z) : L unit :=
        step put b;
        if b =? inq then directive_loop_b k None 0 depth
        else if negb (inq =? 0) then directive_loop_b k None inq depth
        else if (b =? 39) || (b =? 34) then directive_loop_b k None b depth
        else if b =? 62 then directive_loop_b k None inq (depth - 1)
        else if b =? 60 then
          try m <- match_bang_b (str "!--") 0;
          match m with
          | None =>
              step (fun s => truncate (length (l_buf s) - 1) s);
              fun s => (try _ <- skip_comment_b (lfuel s) 0 0;
                        step put 32;
                        directive_loop_b k None inq depth) s
          | Some (n, b) =>
              step puts (firstn n (str "!--"));
              directive_loop_b k (Some b) inq (depth + 1)
          end
        else directive_loop_b k None inq depth in
      match pend with
      | Some b => handle b
      | None =>
          try b <- lmust;
          if (inq =? 0) && (b =? 62) && (depth =? 0) then lret tt else handle b
      end
  end.

(** *** Start tags, xml.go:817-889 *)

(** xml.go:832-883.  When not strict, a tag may end with the input behind an attribute (836-838), an
    attribute may have no value (868), which swallows the byte behind the name. *)
Fixpoint attrs_loop_b (k : nat) (c : cfg) (acc : list attr) : L (list attr * bool) :=
  match k with
  | O => fun _ => None
  | S k =>
      try _ <- lspace;
      fun s =>
        match mustgetc s with
        | (None, s') => if negb (length acc =? 0)%nat && negb (c_strict c) then lret (acc, false) s' else Some (None, s')
        | (Some b, s') =>
            (if b =? 47 then
               try b <- lmust;
               if b =? 62 then lret (acc, true) else lfail (str "expected /> in element")
             else if b =? 62 then lret (acc, false)
             else
               step ungetc b;
               ltry_msg nsname_b (str "expected attribute name in element") (fun n =>
               try _ <- lspace;
               try b <- lmust;
               if negb (b =? 61) then
                 if c_strict c then lfail (str "attribute name without = in element")
                 else attrs_loop_b k c (acc ++ [mkattr n (local n)])
               else
                 try _ <- lspace;
                 try v <- attrval_b c;
                 attrs_loop_b k c (acc ++ [mkattr n v]))) s'
        end
  end.

(** xml.go:588-890 rawToken, behind the checks of d.err and needClose. *)
Definition raw_token_b (c : cfg) : L raw := fun s =>
  match getc s with
  | (None, s) => Some (None, s)
  | (Some b, s) =>
      (if negb (b =? 60) then
         step ungetc b;
         try data <- text_b c None false;
         lret (TChar data, None)
       else
         try b <- lmust;
         if b =? 47 then
           ltry_msg nsname_b (str "expected element name after </") (fun n =>
           try _ <- lspace;
           try b <- lmust;
           if b =? 62 then lret (TEnd n, None) else lfail (str "invalid characters between </ and >"))
         else if b =? 63 then
           ltry_msg name_b (str "expected target name after <?") (fun target =>
           try _ <- lspace;
           step reset;
           fun s =>
             (try _ <- pi_loop_b (lfuel s) 0;
              fun s =>
                let data := firstn (length (l_buf s) - 2) (l_buf s) in
                (try _ <- (if beq target (str "xml") then charset_b c data else lret tt);
                 lret (TProc target data, None)) s) s)
         else if b =? 33 then
           try b <- lmust;
           if b =? 45 then
             try b <- lmust;
             if negb (b =? 45) then lfail (str "invalid sequence <!- not part of <!--")
             else
               step reset;
               fun s => (try _ <- comment_loop_b (lfuel s) 0 0;
                         fun s => lret (TComment (firstn (length (l_buf s) - 3) (l_buf s)), None) s) s
           else if b =? 91 then
             try _ <- expect_b (str "CDATA[");
             try data <- text_b c None true;
             lret (TChar data, None)
           else
             step reset;
             step put b;
             fun s => (try _ <- directive_loop_b (2 * lfuel s) None 0 0;
                       fun s => lret (TDirective (l_buf s), None) s) s
         else
           step ungetc b;
           ltry_msg nsname_b (str "expected element name after <") (fun n =>
           fun s => (try r <- attrs_loop_b (lfuel s) c [];
                     lret (TStart n (fst r), if snd r then Some n else None)) s)) s
  end.

(** *** Tokens with names translated and nesting checked *)

(** xml/xml.go:414-425: stack entries *)
Inductive bent := BStart (n : name) | BNs (prefix url : bytes) (ok : bool) | BEof.

(** The remaining fields of Decoder. *)
Record bdec := mkb {
  b_lex : lst;
  b_close : option name;        (* needClose / toClose *)
  b_stk : list bent;
  b_ns : nsmap;
  b_tok : option token;         (* nextToken *)
  b_depth : Z                   (* unmarshalDepth *)
}.
Definition b_err (d : bdec) : option lerr := l_err (b_lex d).
Definition with_lex (s : lst) (d : bdec) : bdec := mkb s (b_close d) (b_stk d) (b_ns d) (b_tok d) (b_depth d).
Definition with_tok (t : option token) (d : bdec) : bdec :=
  mkb (b_lex d) (b_close d) (b_stk d) (b_ns d) t (b_depth d).
Definition with_close (n : option name) (d : bdec) : bdec :=
  mkb (b_lex d) n (b_stk d) (b_ns d) (b_tok d) (b_depth d).
Definition with_stk (stk : list bent) (m : nsmap) (d : bdec) : bdec :=
  mkb (b_lex d) (b_close d) stk m (b_tok d) (b_depth d).
Definition with_depth (n : Z) (d : bdec) : bdec :=
  mkb (b_lex d) (b_close d) (b_stk d) (b_ns d) (b_tok d) n.

(** xml/xml.go:250-259 NewDecoder *)
Definition new_lst (r : source) : lst := mkl r None 1 0 0 None [] true [] None.
Definition new_bdec (r : source) : bdec := mkb (new_lst r) None [] (fun _ => None) None 0.

(** xml/xml.go:588-602, 885-888 rawToken; the error is the one in the state when there is no token. *)
Definition raw_b (c : cfg) (d : bdec) : option (option token * bdec) :=
  match b_err d with
  | Some _ => Some (None, d)
  | None =>
      match b_close d with
      | Some n => Some (Some (TEnd n), with_close None d)
      | None =>
          match raw_token_b c (b_lex d) with
          | None => None
          | Some (None, s) => Some (None, with_lex s d)
          | Some (Some (t, cl), s) => Some (Some t, with_close cl (with_lex s d))
          end
      end
  end.

(** xml/xml.go:581-586 RawToken: the token and the error returned. *)
Definition errRawToken : lerr := LOther (str "xml: cannot use RawToken from UnmarshalXML method").
Definition RawToken (c : cfg) (d : bdec) : option ((option token * option lerr) * bdec) :=
  if 0 <? b_depth d then Some ((None, Some errRawToken), d)
  else match raw_b c d with
       | None => None
       | Some (Some t, d') => Some ((Some t, None), d')
       | Some (None, d') => Some ((None, b_err d'), d')
       end.

(** xml/xml.go:381-398 translate *)
Definition translate_b (c : cfg) (m : nsmap) (n : name) (is_elem : bool) : name :=
  let lookup (n : name) :=
    match m (space n) with
    | Some v => mkname v (local n)
    | None => if beq (space n) [] then mkname (c_default c) (local n) else n
    end in
  if beq (space n) xmlnsPrefix then mkname xmlnsURL (local n)
  else if beq (space n) [] && negb is_elem then n
  else if beq (space n) xmlPrefix then lookup (mkname xmlURL (local n))
  else if beq (space n) [] && beq (local n) xmlnsPrefix then n
  else lookup n.

(** xml/xml.go:332-354: the declarations of a start tag; what was done before an error stays. *)
Definition push_ns (p v : bytes) (s : list bent * nsmap) : list bent * nsmap :=
  let '(stk, m) := s in
  (match m p with Some old => BNs p old true | None => BNs p [] false end :: stk, ns_set m p v).
Fixpoint declare_b (a : list attr) (s : list bent * nsmap) : (list bent * nsmap) * option bytes :=
  match a with
  | [] => (s, None)
  | mkattr n v :: a =>
      if beq (space n) xmlnsPrefix && beq v [] then (s, Some (str "empty namespace without prefix"))
      else if beq (space n) xmlnsPrefix && beq (local n) [] then (s, Some (str "empty prefix"))
      else
        let s1 := if beq (space n) xmlnsPrefix then push_ns (local n) v s else s in
        let s2 := if beq (space n) [] && beq (local n) xmlnsPrefix then push_ns [] v s1 else s1 in
        declare_b a s2
  end.

(** xml/xml.go:535-545 *)
Fixpoint undo_b (stk : list bent) (m : nsmap) : list bent * nsmap :=
  match stk with
  | BNs p url ok :: stk' => undo_b stk' (if ok then ns_set m p url else ns_del m p)
  | _ => (stk, m)
  end.

Definition dfail (m : bytes) (d : bdec) : bdec := with_lex (fail m (b_lex d)) d.

(** xml/xml.go:515-548 popElement: the name to return, or [None] with an error set. *)
Definition pop_b (c : cfg) (n : name) (d : bdec) : option name * bdec :=
  match b_stk d with
  | BStart s :: stk =>
      let d := with_stk stk (b_ns d) d in
      if negb (beq (local s) (local n)) then
        if negb (c_strict c) then (Some s, with_close (Some n) d)
        else (None, dfail (str "element closed by another") d)
      else if negb (beq (space s) (space n)) then (None, dfail (str "element closed in another namespace") d)
      else let '(stk', m') := undo_b stk (b_ns d) in
           (Some (translate_b c (b_ns d) n true), with_stk stk' m' d)
  | _ :: stk => (None, dfail (str "unexpected end element") (with_stk stk (b_ns d) d))
  | [] => (None, dfail (str "unexpected end element") d)
  end.

(** xml/xml.go:559-575 autoClose: the invented end tag. *)
Definition auto_close (c : cfg) (t : option token) (d : bdec) : option token :=
  match b_stk d with
  | BStart s :: _ =>
      if existsb (fun x => c_fold c x (local s)) (c_close c) then
        match t with
        | Some (TEnd n) => if c_fold c (local n) (local s) then None else Some (TEnd s)
        | _ => Some (TEnd s)
        end
      else None
  | _ => None
  end.

(** xml/xml.go:300-366 Token, behind the reading of a token *)
Definition finish (c : cfg) (t : option token) (d : bdec) : (option token * option lerr) * bdec :=
  match t with
  | Some (TStart n a) =>
      let '((stk, m), e) := declare_b a (b_stk d, b_ns d) in
      match e with
      | Some msg => let d' := dfail msg (with_stk stk m d) in ((None, b_err d'), d')
      | None =>
          ((Some (TStart (translate_b c m n true)
                         (map (fun a => mkattr (translate_b c m (aname a) false) (avalue a)) a)), None),
           with_stk (BStart n :: stk) m d)
      end
  | Some (TEnd n) =>
      match pop_b c n d with
      | (Some n', d') => ((Some (TEnd n'), None), d')
      | (None, d') => ((None, b_err d'), d')
      end
  | _ => ((t, None), d)
  end.
(** xml.go:322-327 *)
Definition auto (c : cfg) (t : option token) (d : bdec) : option token * bdec :=
  if c_strict c then (t, d)
  else match auto_close c t d with
       | Some t1 => (Some t1, with_tok t d)
       | None => (t, d)
       end.
Definition Token (c : cfg) (d : bdec) : option ((option token * option lerr) * bdec) :=
  match b_stk d with
  | BEof :: _ => Some ((None, Some (LRead FEof)), d)
  | _ =>
      match b_tok d with
      | Some t => let '(t', d') := auto c (Some t) (with_tok None d) in Some (finish c t' d')
      | None =>
          match raw_b c d with
          | None => None
          | Some (t, d') =>
              match t, b_err d' with
              | None, Some e =>
                  Some ((None, Some match e, b_stk d' with
                                    | LRead FEof, _ :: _ => LSyntax (str "unexpected EOF") (l_line (b_lex d'))
                                    | _, _ => e
                                    end), d')
              | _, _ => let '(t', d'') := auto c t d' in Some (finish c t' d'')
              end
          end
      end
  end.

(** *** UnmarshalXML methods *)

(** xml/xml.go:455-477 pushEOF: below the innermost open element and its namespace entries. *)
Fixpoint below_ns (stk : list bent) : list bent :=
  match stk with
  | BNs p u ok :: stk => BNs p u ok :: below_ns stk
  | _ => BEof :: stk
  end.
Fixpoint push_eof (stk : list bent) : option (list bent) :=
  match stk with
  | [] => None                                    (* nil dereference *)
  | BStart n :: stk => Some (BStart n :: below_ns stk)
  | e :: stk => option_map (cons e) (push_eof stk)
  end.
(** xml/xml.go:481-487 popEOF *)
Definition pop_eof (d : bdec) : bool * bdec :=
  match b_stk d with
  | BEof :: stk => (true, with_stk stk (b_ns d) d)
  | _ => (false, d)
  end.

(** xml/read.go:209-227 unmarshalInterface, around the call of UnmarshalXML: before it, and behind it when it
    returned no error (the result: the whole element was read). *)
Definition enter_scope (d : bdec) : option bdec :=
  option_map (fun stk => with_depth (b_depth d + 1) (with_stk stk (b_ns d) d)) (push_eof (b_stk d)).
Definition leave_scope (d : bdec) : bool * bdec := pop_eof (with_depth (b_depth d - 1) d).

(** *** Inner XML *)

(** xml/read.go:524-529: saveXMLIndex *)
Definition begin_save (s : lst) : Z * lst :=
  match l_saved s, saved_offset s with
  | Some _, Some i => (i, s)
  | _, _ => (0, set_saved (Some []) s)
  end.
(** xml/read.go:572-575: the bytes from [i] to [j]; [None] when the slice expression panics. *)
Definition end_save (i j : Z) (s : lst) : option (bytes * lst) :=
  match l_saved s with
  | Some v => if (0 <=? i) && (i <=? j) && (j <=? Z.of_nat (length v))
              then Some (firstn (Z.to_nat (j - i)) (skipn (Z.to_nat i) v), if i =? 0 then set_saved None s else s)
              else None
  | None => None
  end.
