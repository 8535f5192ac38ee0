(** Model of decoders over a stream of tokens (xml/xml.go:258-273 NewTokenDecoder, 299-366 Token, 588-591 rawToken). *)
From Coq Require Import String.
From Coq Require Import ZArith List Bool Lia.
From Verif Require Import Base Lexer Decoder ByteDecoder.
Import ListNotations.
Open Scope Z_scope.

(** A TokenReader with states [S]: its Token method returns a token, an error, or both. *)
Definition token_reader (S : Type) := S -> (option token * option lerr) * S.

Section Reader.
Context {S : Type} (next : token_reader S).

(** The fields of the Decoder besides [d.t]: of those that read bytes only [line], which stays 1, and [err], which is set but
    not looked at. *)
Definition new_tdec (s : S) : S * bdec := (s, new_bdec (mksrc [] FEof)).

(** xml/xml.go:300-366 Token with [d.t] set: rawToken is [d.t.Token], before needClose and err are looked at. *)
Definition TokenT (c : cfg) (x : S * bdec) : (option token * option lerr) * (S * bdec) :=
  let '(s, d) := x in
  let go (s : S) (t : option token) (d : bdec) :=
    let '(t', d') := auto c t d in let '(r, d'') := finish c t' d' in (r, (s, d'')) in
  match b_stk d with
  | BEof :: _ => ((None, Some (LRead FEof)), (s, d))
  | _ =>
      match b_tok d with
      | Some t => go s (Some t) (with_tok None d)
      | None =>
          let '((t, e), s') := next s in
          match t, e with
          | None, Some e =>
              ((None, Some match e, b_stk d with
                           | LRead FEof, _ :: _ => LSyntax (str "unexpected EOF") (l_line (b_lex d))
                           | _, _ => e
                           end), (s', d))
          | _, _ => go s' t d
          end
      end
  end.
End Reader.

(** The raw tokens of another decoder as a TokenReader; the last case, a loop without end, does not occur (C61_places). *)
Definition raw_tokens (c : cfg) : token_reader bdec :=
  fun d => match RawToken c d with Some (x, d') => (x, d') | None => ((None, Some (LOther [])), d) end.
