(** What a balanced history of encoder calls is, independently of the printer. *)
From Coq Require Import ZArith List Bool.
From Verif Require Import Base Lexer Decoder.
Import ListNotations.
Open Scope Z_scope.

(** A name given as "prefix:local", both parts non-empty, split at the first colon; anything else has no prefix. *)
Definition prefixed (s p l : bytes) : Prop := s = p ++ 58 :: l /\ p <> [] /\ l <> [] /\ ~ In 58 p.
Definition parts (s p l : bytes) : Prop := prefixed s p l \/ (p = [] /\ l = s /\ forall q r, ~ prefixed s q r).
(** Two names of the same namespace and the same local name, whatever their prefixes. *)
Definition same_name (a b : name) : Prop := space a = space b /\ exists p q l, parts (local a) p l /\ parts (local b) q l.

(** Prefixes that may be declared: names without a colon that do not start with "xml" in any case. *)
Definition xmlish (p : bytes) : Prop := exists x m l r, p = x :: m :: l :: r /\ (x = 88 \/ x = 120) /\ (m = 77 \/ m = 109) /\ (l = 76 \/ l = 108).
Definition usable (p : bytes) : Prop := is_name p = true /\ ~ In 58 p /\ ~ xmlish p.

(** One EncodeToken call: the token, whether it was accepted, what it added to the text. *)
Record call := mkcall { c_tok : token; c_ok : bool; c_text : bytes }.
(** An open element: the name it was started with and what it is called in the text. *)
Record opened := mkopened { o_name : name; o_text : bytes }.

(** White space or the configured indentation before a tag. *)
Inductive balanced : list call -> list opened -> Prop :=
| B_none : balanced [] []
| B_start h o n a ind q rest : balanced h o -> rest = [] \/ (exists t, rest = 32 :: t) ->
    balanced (h ++ [mkcall (TStart n a) true (ind ++ [60] ++ q ++ rest ++ [62])]) (mkopened n q :: o)
| B_end h o n m ind q : balanced h (mkopened m q :: o) -> same_name n m ->
    balanced (h ++ [mkcall (TEnd n) true (ind ++ [60; 47] ++ q ++ [62])]) o
| B_refused h o t : balanced h o -> balanced (h ++ [mkcall t false []]) o
| B_other h o t x : balanced h o -> (forall n a, t <> TStart n a) -> (forall n, t <> TEnd n) -> balanced (h ++ [mkcall t true x]) o.

(** *** Directives.  [dir short d s out]: [s] closes [d] open angle brackets and is otherwise balanced, ignoring
    quoted strings and comments; [out] is [s] with each comment replaced by a space.  [short] tells whether
    the comments "<!-->" and "<!--->", which end with hyphens of their own beginning, count as comments
    rather than as the beginning of a longer one. *)
Definition quote (c : Z) : Prop := c = 34 \/ c = 39.
Definition ordinary (c : Z) : Prop := ~ quote c /\ c <> 60 /\ c <> 62.
(** "-->" occurs in [z ++ "-->"] only at the end. *)
Definition ends_once (z : bytes) : Prop := forall a b, z ++ [45; 45; 62] = a ++ [45; 45; 62] ++ b -> b = [].
Inductive dir (short : bool) : nat -> bytes -> bytes -> Prop :=
| D_end : dir short 0 [] []
| D_byte d c s out : ordinary c -> dir short d s out -> dir short d (c :: s) (c :: out)
| D_quoted d q x s out : quote q -> ~ In q x -> dir short d s out -> dir short d (q :: x ++ q :: s) (q :: x ++ q :: out)
| D_open d s out : (forall r, s <> 33 :: 45 :: 45 :: r) -> dir short (S d) s out -> dir short d (60 :: s) (60 :: out)
| D_close d s out : dir short d s out -> dir short (S d) (62 :: s) (62 :: out)
| D_comment d z s out : ends_once z -> (short = true -> forall r, z <> 62 :: r /\ z <> 45 :: 62 :: r) -> dir short d s out -> dir short d ([60; 33; 45; 45] ++ z ++ [45; 45; 62] ++ s) (32 :: out)
| D_short d x s out : short = true -> x = [62] \/ x = [45; 62] -> dir short d s out -> dir short d ([60; 33; 45; 45] ++ x ++ s) (32 :: out).
