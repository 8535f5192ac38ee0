(** The tokenizer of the xml package (xml/xml.go), strict mode, reading a byte slice.

    Simplifications, stated once:
    - The decoder is the one [NewDecoder] makes (xml.go:250-259): Strict, no AutoClose, no extra
      Entity map, no CharsetReader, no DefaultSpace.  Only these are reachable from package mpd.
    - The reader is an in-memory byte list that ends with io.EOF.  [getc] takes the head of the list;
      [ungetc] of the byte just read puts it back, so functions return the unread rest.  A failed
      [getc] leaves the sticky error io.EOF, which reading from an empty list reproduces.
    - Line, offset and name interning are not part of the result (interning is modelled separately).
    - [text] returns a nil slice instead of an empty one when nothing was ever written to the buffer
      (an input starting with '>'); both are an empty token here. *)
From Coq Require Import String.
From Coq Require Import ZArith List Bool Lia.
From Coq Require Import ZifyBool ZifyNat ZifyN.
From Verif Require Import Base Utf8 NameTables.
Import ListNotations.
Open Scope Z_scope.

(** xml/xml.go:43-51 *)
Record name := mkname { space : bytes; local : bytes }.
Record attr := mkattr { aname : name; avalue : bytes }.
Definition name_eqb (a b : name) : bool := beq (space a) (space b) && beq (local a) (local b).

(** xml/xml.go:55-112 token types *)
Inductive token :=
| TStart (n : name) (a : list attr)
| TEnd (n : name)
| TChar (s : bytes)
| TComment (s : bytes)
| TProc (target inst : bytes)
| TDirective (s : bytes).

(** Errors: io.EOF, or a SyntaxError / version / charset error with its message (line left out). *)
Inductive derr := EEof | ESyntax (m : bytes).
Definition unexpected_eof : derr := ESyntax (str "unexpected EOF").

(** Result of a reading function: a value and the unread input, or the error left in [d.err].
    [RFuel] means the model's recursion budget ran out, which is proved impossible. *)
Inductive res (A : Type) := ROk (a : A) (rest : bytes) | RErr (e : derr) | RFuel.
Arguments ROk {A}. Arguments RErr {A}. Arguments RFuel {A}.

(** *** Names *)

(** [unicode.Is] on a table of (lo, hi, stride) ranges (standard library). *)
Definition in_table (t : list (Z * Z * Z)) (r : Z) : bool :=
  existsb (fun '(lo, hi, st) => (lo <=? r) && (r <=? hi) && ((r - lo) mod st =? 0)) t.

(** xml/xml.go:1279-1284 isNameByte *)
Definition is_name_byte (c : Z) : bool :=
  within 65 90 c || within 97 122 c || within 48 57 c || (c =? 95) || (c =? 58) || (c =? 46) || (c =? 45).
(** A byte that [readName] accepts (xml.go:1260, 1269). *)
Definition name_byte (c : Z) : bool := negb ((c <? 128) && negb (is_name_byte c)).

(** xml/xml.go:1286-1308 isName (and 1310-1332 isNameString): nonempty, no invalid UTF-8, first rune in
    [first], the others in [first] or [second]. *)
Definition bad_piece (p : Z * bytes) : bool := (fst p =? rune_error) && (length (snd p) =? 1)%nat.
Definition is_name (s : bytes) : bool :=
  match pieces s with
  | [] => false
  | p :: ps =>
      negb (bad_piece p) && in_table first_table (fst p) &&
      forallb (fun p => negb (bad_piece p) && (in_table first_table (fst p) || in_table second_table (fst p))) ps
  end.

(** xml/xml.go:1255-1277 readName.  [NNone]: the first byte cannot start a name, nothing consumed. *)
Inductive rname := NOk (s rest : bytes) | NNone | NEof.
Fixpoint span_name (acc inp : bytes) : rname :=
  match inp with
  | [] => NEof
  | b :: t => if name_byte b then span_name (acc ++ [b]) t else NOk acc inp
  end.
Definition read_name (inp : bytes) : rname :=
  match inp with
  | [] => NEof
  | b :: t => if name_byte b then span_name [b] t else NNone
  end.

(** xml/xml.go:1237-1250 name.  [inr None]: no name and no error set. *)
Definition get_name (inp : bytes) : bytes * bytes + option derr :=
  match read_name inp with
  | NEof => inr (Some unexpected_eof)
  | NNone => inr None
  | NOk s rest => if is_name s then inl (s, rest) else inr (Some (ESyntax (str "invalid XML name: " ++ s)))
  end.

(** First occurrence of a byte: [strings.IndexByte]. *)
Fixpoint index_byte (c : Z) (s : bytes) : option nat :=
  match s with
  | [] => None
  | x :: t => if x =? c then Some O else option_map S (index_byte c t)
  end.
Definition count_byte (c : Z) (s : bytes) : nat := length (filter (Z.eqb c) s).

(** xml/xml.go:1213-1232 nsname *)
Definition split_ns (s : bytes) : option name :=
  match count_byte 58 s with
  | O => Some (mkname [] s)
  | S O => match index_byte 58 s with
           | Some i => if (i <? 1)%nat || (length s - 2 <? i)%nat then None
                       else Some (mkname (firstn i s) (skipn (S i) s))
           | None => None
           end
  | _ => None
  end.
Definition get_nsname (inp : bytes) : name * bytes + option derr :=
  match get_name inp with
  | inr e => inr e
  | inl (s, rest) => match split_ns s with Some n => inl (n, rest) | None => inr None end
  end.

(** xml/xml.go:927-940 space *)
Definition is_space (b : Z) : bool := (b =? 32) || (b =? 13) || (b =? 10) || (b =? 9).
Fixpoint skip_space (inp : bytes) : bytes :=
  match inp with
  | b :: t => if is_space b then skip_space t else inp
  | [] => []
  end.

(** *** Character data, xml/xml.go:1015-1197 *)

(** The five predefined entities (xml.go:1015-1021). *)
Definition entity (s : bytes) : option Z :=
  if beq s (str "lt") then Some 60 else if beq s (str "gt") then Some 62
  else if beq s (str "amp") then Some 38 else if beq s (str "apos") then Some 39
  else if beq s (str "quot") then Some 34 else None.

Definition hex_digit (base16 : bool) (b : Z) : option Z :=
  if within 48 57 b then Some (b - 48)
  else if base16 && within 97 102 b then Some (b - 87)
  else if base16 && within 65 70 b then Some (b - 55)
  else None.
(** The digits of a character reference (xml.go:1098-1105), as their values; [None] at end of input. *)
Fixpoint span_digits (base16 : bool) (acc : list Z) (inp : bytes) : option (list Z * bytes) :=
  match inp with
  | [] => None
  | b :: t => match hex_digit base16 b with
              | Some d => span_digits base16 (acc ++ [d]) t
              | None => Some (acc, inp)
              end
  end.
Definition digits_value (base : Z) (ds : list Z) : Z := fold_left (fun v d => v * base + d) ds 0.

Definition bad_entity : derr := ESyntax (str "invalid character entity").

(** What follows '&' (xml.go:1068-1167): the replacement text, or an error (strict mode).
    [strconv.ParseUint] fails on no digits and on overflow, which is above MaxRune anyway. *)
Definition char_entity (inp : bytes) : res bytes :=
  match inp with
  | [] => RErr unexpected_eof
  | b :: t =>
      if b =? 35 then
        match t with
        | [] => RErr unexpected_eof
        | x :: t' =>
            let '(base16, start) := if x =? 120 then (true, t') else (false, t) in
            match span_digits base16 [] start with
            | None => RErr unexpected_eof
            | Some (ds, rest) =>
                match rest with
                | [] => RErr unexpected_eof
                | c :: rest' =>
                    let v := digits_value (if base16 then 16 else 10) ds in
                    if (c =? 59) && negb (length ds =? 0)%nat && (v <=? 1114111)
                    then ROk (encode_rune v) rest' else RErr bad_entity
                end
            end
        end
      else
        match read_name inp with
        | NEof => RErr unexpected_eof
        | NNone => RErr bad_entity
        | NOk s rest =>
            match rest with
            | [] => RErr unexpected_eof
            | c :: rest' =>
                if (c =? 59) && is_name s then
                  match entity s with Some r => ROk (encode_rune r) rest' | None => RErr bad_entity end
                else RErr bad_entity
            end
        end
  end.

(** xml.go:1032-1177, the Input loop: [buf] is d.buf, [b0 b1] the two previous bytes.  The result is the
    buffer, already without the two bytes "]]" that [trunc] removes (1173-1174). *)
Fixpoint text_loop (k : nat) (quote : option Z) (cdata : bool) (b0 b1 : Z) (buf inp : bytes) : res bytes :=
  match k with
  | O => RFuel
  | S k =>
      match inp with
      | [] => if cdata then RErr (ESyntax (str "unexpected EOF in CDATA section")) else ROk buf []
      | b :: t =>
          let quoted := match quote with Some _ => true | None => false end in
          if negb quoted && (b0 =? 93) && (b1 =? 93) && (b =? 62) then
            if cdata then ROk (firstn (length buf - 2) buf) t
            else RErr (ESyntax (str "unescaped ]]> not in CDATA section"))
          else if (b =? 60) && negb cdata then
            if quoted then RErr (ESyntax (str "unescaped < inside quoted string")) else ROk buf inp
          else if (b =? 62) && negb cdata && negb quoted then ROk buf inp
          else if match quote with Some q => b =? q | None => false end then ROk buf t
          else if (b =? 38) && negb cdata then
            match char_entity t with
            | ROk s rest => text_loop k quote cdata 0 0 (buf ++ s) rest
            | RErr e => RErr e
            | RFuel => RFuel
            end
          else
            let buf' := if b =? 13 then buf ++ [10]
                        else if (b1 =? 13) && (b =? 10) then buf
                        else buf ++ [b] in
            text_loop k quote cdata b1 b buf' t
      end
  end.

(** xml.go:1179-1194: every rune must be valid and in the XML character range. *)
Definition good_piece (p : Z * bytes) : bool := negb (bad_piece p) && in_char_range (fst p).
Definition text (quote : option Z) (cdata : bool) (inp : bytes) : res bytes :=
  match text_loop (S (length inp)) quote cdata 0 0 [] inp with
  | ROk data rest =>
      if forallb good_piece (pieces data) then ROk data rest
      else RErr (ESyntax (str "invalid UTF-8 or illegal character code"))
  | r => r
  end.

(** xml.go:892-903 attrval (strict part) *)
Definition attrval (inp : bytes) : res bytes :=
  match inp with
  | [] => RErr unexpected_eof
  | b :: t => if (b =? 34) || (b =? 39) then text (Some b) false t
              else RErr (ESyntax (str "unquoted or missing attribute value in element"))
  end.

(** *** Processing instructions, comments, directives *)

(** [strings.Index]: position of the first occurrence of [p]. *)
Fixpoint is_prefix (p s : bytes) : bool :=
  match p, s with
  | [], _ => true
  | x :: p, y :: s => (x =? y) && is_prefix p s
  | _ :: _, [] => false
  end.
Fixpoint index (p s : bytes) : option nat :=
  if is_prefix p s then Some O
  else match s with [] => None | _ :: t => option_map S (index p t) end.

(** xml.go:2096-2124 procInst; the loop steps over occurrences not followed by a quote. *)
Fixpoint proc_inst_loop (k : nat) (param s : bytes) : option (Z * bytes) :=
  match k with
  | O => None
  | S k =>
      match index param s with
      | None => None
      | Some i =>
          match skipn (length param + i) s with
          | [] => None
          | c :: rest => if (c =? 39) || (c =? 34) then Some (c, rest) else proc_inst_loop k param rest
          end
      end
  end.
Definition proc_inst (param s : bytes) : bytes :=
  match proc_inst_loop (S (length s)) (param ++ [61]) s with
  | None => []
  | Some (sep, rest) => match index_byte sep rest with None => [] | Some j => firstn j rest end
  end.

(** [strings.EqualFold] on ASCII letters; the letters compared with here have no other case variants. *)
Definition lower_byte (b : Z) : Z := if within 65 90 b then b + 32 else b.
Definition equal_fold (a b : bytes) : bool := beq (map lower_byte a) (map lower_byte b).

(** xml.go:642-654: up to and including "?>"; [b0] is the previous byte. *)
Fixpoint pi_loop (b0 : Z) (buf inp : bytes) : res bytes :=
  match inp with
  | [] => RErr unexpected_eof
  | b :: t => if (b0 =? 63) && (b =? 62) then ROk (firstn (length buf - 1) buf) t
              else pi_loop b (buf ++ [b]) t
  end.
(** xml.go:660-683: the checks on an xml declaration. *)
Definition xml_decl_ok (content : bytes) : option derr :=
  let ver := proc_inst (str "version") content in
  if negb (beq ver []) && negb (beq ver (str "1.0")) then Some (ESyntax (str "xml: unsupported version"))
  else let enc := proc_inst (str "encoding") content in
       if negb (beq enc []) && negb (equal_fold enc (str "utf-8"))
       then Some (ESyntax (str "xml: encoding declared but Decoder.CharsetReader is nil"))
       else None.

(** xml.go:707-724: the rest of a comment; [b0 b1] are the two previous bytes. *)
Fixpoint comment_loop (b0 b1 : Z) (buf inp : bytes) : res bytes :=
  match inp with
  | [] => RErr unexpected_eof
  | b :: t =>
      if (b0 =? 45) && (b1 =? 45) then
        if b =? 62 then ROk (firstn (length buf - 2) buf) t
        else RErr (ESyntax (str "invalid sequence ""--"" not allowed in comments"))
      else comment_loop b1 b (buf ++ [b]) t
  end.

(** xml.go:728-736: the bytes "CDATA[" must follow. *)
Fixpoint expect (p inp : bytes) : res unit :=
  match p with
  | [] => ROk tt inp
  | c :: p => match inp with
              | [] => RErr unexpected_eof
              | b :: t => if b =? c then expect p t else RErr (ESyntax (str "invalid <![ sequence"))
              end
  end.

(** xml.go:792-801: skip a comment inside a directive, up to and including its "-->". *)
Fixpoint skip_comment (b0 b1 : Z) (inp : bytes) : option bytes :=
  match inp with
  | [] => None
  | b :: t => if (b0 =? 45) && (b1 =? 45) && (b =? 62) then Some t else skip_comment b1 b t
  end.
(** xml.go:777-787: after '<' in a directive, how much of "!--" follows.
    [inl rest]: all of it; [inr (Some (n, b, rest))]: the first n bytes of it, then another byte b. *)
Fixpoint match_bang (p : bytes) (n : nat) (inp : bytes) : bytes + option (nat * Z * bytes) :=
  match p with
  | [] => inl inp
  | c :: p => match inp with
              | [] => inr None
              | b :: t => if b =? c then match_bang p (S n) t else inr (Some (n, b, t))
              end
  end.
(** xml.go:749-813: [pend] is the byte to handle after the jump to HandleB, [inq] the open quote or 0. *)
Fixpoint directive_loop (k : nat) (pend : option Z) (inq : Z) (depth : Z) (buf inp : bytes) : res bytes :=
  match k with
  | O => RFuel
  | S k =>
      let handle (b : Z) (inp : bytes) :=
        let buf' := buf ++ [b] in
        if b =? inq then directive_loop k None 0 depth buf' inp
        else if negb (inq =? 0) then directive_loop k None inq depth buf' inp
        else if (b =? 39) || (b =? 34) then directive_loop k None b depth buf' inp
        else if b =? 62 then directive_loop k None inq (depth - 1) buf' inp
        else if b =? 60 then
          match match_bang (str "!--") 0 inp with
          | inl rest =>
              match skip_comment 0 0 rest with
              | None => RErr unexpected_eof
              | Some rest' => directive_loop k None inq depth (buf ++ [32]) rest'
              end
          | inr None => RErr unexpected_eof
          | inr (Some (n, b, rest)) =>
              directive_loop k (Some b) inq (depth + 1) (buf' ++ firstn n (str "!--")) rest
          end
        else directive_loop k None inq depth buf' inp in
      match pend with
      | Some b => handle b inp
      | None =>
          match inp with
          | [] => RErr unexpected_eof
          | b :: t => if (inq =? 0) && (b =? 62) && (depth =? 0) then ROk buf t else handle b t
          end
      end
  end.

(** *** Start tags, xml.go:817-889 *)

(** The attribute loop: the attributes and whether the tag ends with "/>". *)
Fixpoint attrs_loop (k : nat) (acc : list attr) (inp : bytes) : res (list attr * bool) :=
  match k with
  | O => RFuel
  | S k =>
      match skip_space inp with
      | [] => RErr unexpected_eof
      | b :: t =>
          if b =? 47 then
            match t with
            | [] => RErr unexpected_eof
            | c :: t' => if c =? 62 then ROk (acc, true) t' else RErr (ESyntax (str "expected /> in element"))
            end
          else if b =? 62 then ROk (acc, false) t
          else
            match get_nsname (b :: t) with
            | inr (Some e) => RErr e
            | inr None => RErr (ESyntax (str "expected attribute name in element"))
            | inl (n, rest) =>
                match skip_space rest with
                | [] => RErr unexpected_eof
                | c :: rest' =>
                    if negb (c =? 61) then RErr (ESyntax (str "attribute name without = in element"))
                    else match attrval (skip_space rest') with
                         | ROk v rest'' => attrs_loop k (acc ++ [mkattr n v]) rest''
                         | RErr e => RErr e
                         | RFuel => RFuel
                         end
                end
            end
      end
  end.

(** A raw token; for a self-closing tag also the name of the pending end element
    (needClose / toClose, xml.go:885-888). *)
Definition raw := (token * option name)%type.
Definition plain_tok {A} (f : A -> token) (r : res A) : res raw :=
  match r with ROk a rest => ROk (f a, None) rest | RErr e => RErr e | RFuel => RFuel end.

(** xml.go:588-890 rawToken, after the checks of d.err and needClose. *)
Definition raw_token (inp : bytes) : res raw :=
  match inp with
  | [] => RErr EEof
  | b :: t =>
      if negb (b =? 60) then plain_tok TChar (text None false inp)
      else
        match t with
        | [] => RErr unexpected_eof
        | c :: t' =>
            if c =? 47 then
              match get_nsname t' with
              | inr (Some e) => RErr e
              | inr None => RErr (ESyntax (str "expected element name after </"))
              | inl (n, rest) =>
                  match skip_space rest with
                  | [] => RErr unexpected_eof
                  | x :: rest' => if x =? 62 then ROk (TEnd n, None) rest'
                                  else RErr (ESyntax (str "invalid characters between </ and >"))
                  end
              end
            else if c =? 63 then
              match get_name t' with
              | inr (Some e) => RErr e
              | inr None => RErr (ESyntax (str "expected target name after <?"))
              | inl (target, rest) =>
                  match pi_loop 0 [] (skip_space rest) with
                  | ROk data rest' =>
                      match (if beq target (str "xml") then xml_decl_ok data else None) with
                      | Some e => RErr e
                      | None => ROk (TProc target data, None) rest'
                      end
                  | RErr e => RErr e
                  | RFuel => RFuel
                  end
              end
            else if c =? 33 then
              match t' with
              | [] => RErr unexpected_eof
              | d :: t'' =>
                  if d =? 45 then
                    match t'' with
                    | [] => RErr unexpected_eof
                    | e :: t3 => if e =? 45 then plain_tok TComment (comment_loop 0 0 [] t3)
                                 else RErr (ESyntax (str "invalid sequence <!- not part of <!--"))
                    end
                  else if d =? 91 then
                    match expect (str "CDATA[") t'' with
                    | ROk _ rest => plain_tok TChar (text None true rest)
                    | RErr e => RErr e
                    | RFuel => RFuel
                    end
                  else plain_tok TDirective (directive_loop (2 * length t'' + 2) None 0 0 [d] t'')
              end
            else
              match get_nsname t with
              | inr (Some e) => RErr e
              | inr None => RErr (ESyntax (str "expected element name after <"))
              | inl (n, rest) =>
                  match attrs_loop (S (length rest)) [] rest with
                  | ROk (a, empty) rest' => ROk (TStart n a, if empty then Some n else None) rest'
                  | RErr e => RErr e
                  | RFuel => RFuel
                  end
              end
        end
  end.
