(** What it means for written start tags to keep their namespaces: stated on names, tags and tokens only. *)
From Coq Require Import String.
From Coq Require Import ZArith List Bool.
From Verif Require Import Base Utf8 Lexer EscapeSpec DecoderSpec EncoderSpec.
Import ListNotations.
Open Scope Z_scope.

(** *** Prefixes an encoder may choose by itself *)
(** The last part of a path: what follows the last slash. *)
Definition last_part (s x : bytes) : Prop := ~ In 47 x /\ (s = x \/ exists a, s = a ++ 47 :: x).
(** A prefix made of a string: its last part if that can be a prefix, with "_" in front if it starts with "xml";
    otherwise "_". *)
Inductive stem (s : bytes) : bytes -> Prop :=
| Stem_part x : last_part s x -> usable x -> stem s x
| Stem_xml x : last_part s x -> is_name x = true -> ~ In 58 x -> xmlish x -> stem s (95 :: x)
| Stem_other x : last_part s x -> ~ (is_name x = true /\ ~ In 58 x) -> stem s [95].
(** Without trailing slashes. *)
Definition trimmed (s x : bytes) : Prop := (exists k, s = x ++ repeat 47 k) /\ forall y, x <> y ++ [47].
(** Decimal digits. *)
Definition numeral (s : bytes) : Prop := s <> [] /\ Forall (fun b => 48 <= b <= 57) s.
(** [candidate u q p]: p may be chosen for the namespace u when q is the prefix asked for (empty: none). *)
Definition candidate (u q p : bytes) : Prop :=
  exists s r, (s = q /\ q <> [] \/ trimmed u s) /\ stem s r /\ (p = r \/ exists d, numeral d /\ p = r ++ 95 :: d).

(** *** Start tags that can be expected to keep their namespaces *)
(** A namespace declaration, as an attribute with its expanded name. *)
Definition xmlns_uri : bytes := str "http://www.w3.org/2000/xmlns/".
Definition is_declaration (a : attr) : bool :=
  beq (space (aname a)) xmlns_uri || (beq (space (aname a)) [] && beq (local (aname a)) (str "xmlns")).
Definition kept (a : attr) : bool := negb (is_declaration a).
(** [pol] says which namespace each prefix stands for in the whole document. *)
Definition agrees (pol : bytes -> bytes) (u q : bytes) : Prop := forall p, candidate u q p -> pol p = u.
(** Names without a colon. *)
Definition simple (l : bytes) : Prop := is_name l = true /\ ~ In 58 l.
(** A name in a namespace: a local name, or a prefix asked for and a local name. *)
Definition qualified (pol : bytes -> bytes) (u s : bytes) : Prop :=
  u <> [] /\ xml_text u /\ exists q l, parts s q l /\ (q = [] \/ simple q) /\ simple l /\ agrees pol u q.
(** Documents are read back exactly, or, if [inh], with elements of no namespace taking the default namespace they
    stand in, as a name written without prefix does. *)
Definition inherits (inh : bool) (n : name) : Prop := inh = true /\ space n = [].
Definition good_attr (inh : bool) (pol : bytes -> bytes) (n : name) (a : attr) : Prop :=
  xml_text (avalue a) /\
  (if beq (space (aname a)) xmlns_uri then usable (local (aname a)) /\ avalue a <> [] /\ agrees pol (avalue a) (local (aname a))
   else if beq (space (aname a)) [] then
     simple (local (aname a)) /\ (local (aname a) = str "xmlns" -> (avalue a = space n \/ inherits inh n) /\ forall p l, ~ prefixed (local n) p l)
   else qualified pol (space (aname a)) (local (aname a))).
(** An open element without prefix whose namespace is u. *)
Definition unprefixed_in (open : list tag) (u : bytes) : Prop :=
  exists inner m a outer, open = inner ++ (m, a) :: outer /\ space m = [] /\ resolve ((m, a) :: outer) [] = Some u.
Definition hand_default (n : name) (a : list attr) : Prop := In (mkattr (mkname [] (str "xmlns")) (space n)) a.
Definition good_element (inh : bool) (pol : bytes -> bytes) (open : list tag) (n : name) (a : list attr) : Prop :=
  if beq (space n) [] then simple (local n) /\ local n <> str "xmlns" /\ (inh = true \/ hand_default n a \/ resolve open [] = None \/ resolve open [] = Some [])
  else qualified pol (space n) (local n) /\ local n <> str "xmlns" /\
       ((forall p l, ~ prefixed (local n) p l) -> unprefixed_in open (space n) -> hand_default n a \/ resolve open [] = Some (space n)).
Definition fits (inh : bool) (pol : bytes -> bytes) (open : list tag) (n : name) (a : list attr) : Prop :=
  good_element inh pol open n a /\ Forall (good_attr inh pol n) a.

(** Start tags that do not make the encoder write an attribute twice: no prefix asked for, different names, and the
    declarations first. *)
Definition declaration_of (x : attr) : Prop := space (aname x) = xmlns_uri.
Definition unprefixed (s : bytes) : Prop := forall p l, ~ prefixed s p l.
Inductive declared_first : list attr -> Prop :=
| DF_rest a : Forall (fun x => ~ declaration_of x /\ unprefixed (local (aname x))) a -> declared_first a
| DF_decl x a : declaration_of x -> declared_first a -> declared_first (x :: a).
Definition tidy (n : name) (a : list attr) : Prop := unprefixed (local n) /\ declared_first a /\ NoDup (map aname a).

(** *** What is read back *)
(** The expanded name of a name that may ask for a prefix. *)
Definition plain_name (n m : name) : Prop := space m = space n /\ exists q, parts (local n) q (local m).
Definition tag_name (inh : bool) (n m : name) : Prop := (space m = space n \/ inherits inh n) /\ exists q, parts (local n) q (local m).
Definition plain_attr (a b : attr) : Prop := plain_name (aname a) (aname b) /\ avalue b = avalue a.
(** The attributes come back in order, among declarations; declarations given explicitly are still there. *)
Definition plain_attrs (a b : list attr) : Prop :=
  Forall2 plain_attr (filter kept a) (filter kept b) /\ incl (filter is_declaration a) (filter is_declaration b).
Definition white (w : bytes) : Prop := Forall (fun c => c = 32 \/ c = 9 \/ c = 10) w.
(** The tokens of the accepted calls, in order; tags may have white space before them. *)
Inductive resembles (inh : bool) (lay : bytes -> Prop) : list call -> list token -> Prop :=
| Re_none : resembles inh lay [] []
| Re_start h ts n a x w m b : resembles inh lay h ts -> lay w -> tag_name inh n m -> plain_attrs a b ->
    resembles inh lay (h ++ [mkcall (TStart n a) true x]) (ts ++ [TChar w; TStart m b])
| Re_end h ts n x w m : resembles inh lay h ts -> lay w -> tag_name inh n m -> resembles inh lay (h ++ [mkcall (TEnd n) true x]) (ts ++ [TChar w; TEnd m])
| Re_other h ts t x : resembles inh lay h ts -> (forall n a, t <> TStart n a) -> (forall n, t <> TEnd n) -> resembles inh lay (h ++ [mkcall t true x]) (ts ++ [t])
| Re_refused h ts t : resembles inh lay h ts -> resembles inh lay (h ++ [mkcall t false []]) ts.
(** Adjacent character data is one token; empty character data is none. *)
Fixpoint merge (acc : bytes) (ts : list token) : list token :=
  match ts with
  | [] => match acc with [] => [] | _ => [TChar acc] end
  | TChar s :: ts => merge (acc ++ s) ts
  | t :: ts => match acc with [] => t :: merge [] ts | _ => TChar acc :: t :: merge [] ts end
  end.
