(** Escaping of text and attribute values, and CDATA sections (xml/xml.go:1946-2091). *)
From Coq Require Import String.
From Coq Require Import ZArith List Bool Lia.
From Coq Require Import ZifyBool ZifyNat ZifyN.
From Verif Require Import Base Utf8 Lexer.
Import ListNotations.
Open Scope Z_scope.

(** Which function: [EText nl] is escapeText with its escapeNewline argument (xml.go:1968),
    [EAttr] is printer.EscapeString (xml.go:2012). *)
Inductive emode := EText (nl : bool) | EAttr.

(** The switch on the rune (xml.go:1975-2000, 2019-2043): the replacement, or [None] to copy. *)
Definition esc_for (m : emode) (r : Z) (width : nat) : option bytes :=
  if r =? 34 then Some (str "&#34;")
  else if r =? 39 then Some (str "&#39;")
  else if r =? 38 then Some (str "&amp;")
  else if r =? 60 then Some (str "&lt;")
  else if r =? 62 then Some (str "&gt;")
  else if (r =? 9) && match m with EAttr => true | EText _ => false end then Some (str "&#x9;")
  else if r =? 10 then match m with EText false => None | _ => Some (str "&#xA;") end
  else if r =? 13 then Some (str "&#xD;")
  else if negb (in_char_range r) || ((r =? 65533) && (width =? 1)%nat) then Some [239; 191; 189]
  else None.

(** The loop, as the list of byte slices it hands to the writer; [seg] is s[last:i]. *)
Fixpoint esc_loop (k : nat) (m : emode) (seg s : bytes) : list bytes :=
  match k, s with
  | S k, _ :: _ =>
      let '(r, n) := decode_rune s in
      match esc_for m r n with
      | None => esc_loop k m (seg ++ firstn n s) (skipn n s)
      | Some e => seg :: e :: esc_loop k m [] (skipn n s)
      end
  | _, _ => [seg]
  end.
Definition esc_writes (m : emode) (s : bytes) : list bytes := esc_loop (length s) m [] s.
Definition escape (m : emode) (s : bytes) : bytes := concat (esc_writes m s).

(** [bytes.Cut] on a separator (standard library). *)
Definition cut (sep s : bytes) : option (bytes * bytes) :=
  match index sep s with
  | None => None
  | Some i => Some (firstn i s, skipn (i + length sep) s)
  end.

(** xml.go:2055-2091 emitCDATA, as the slices written; the loop cuts at each "]]>". *)
Fixpoint cdata_loop (k : nat) (s : bytes) : list bytes :=
  match k with
  | O => []
  | S k => match cut (str "]]>") s with
           | None => [s; str "]]>"]
           | Some (before, after) => before :: str "]]]]><![CDATA[>" :: cdata_loop k after
           end
  end.
Definition cdata_writes (s : bytes) : list bytes :=
  match s with
  | [] => []
  | _ => str "<![CDATA[" :: cdata_loop (S (length s)) s
  end.
Definition emit_cdata (s : bytes) : bytes := concat (cdata_writes s).
