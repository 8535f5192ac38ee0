(** What UTF-8 and XML say about text, independent of the model.  Only [bytes] is shared with it. *)
From Coq Require Import ZArith List.
From Verif Require Import Base.
Import ListNotations.
Open Scope Z_scope.

(** Base-64 digits of the payload, shortest form, no surrogates (RFC 3629). *)
Inductive utf8 : Z -> bytes -> Prop :=
| U1 : forall r, 0 <= r < 128 -> utf8 r [r]
| U2 : forall a b, 0 <= a < 32 -> 0 <= b < 64 -> 128 <= a * 64 + b ->
       utf8 (a * 64 + b) [192 + a; 128 + b]
| U3 : forall a b c, 0 <= a < 16 -> 0 <= b < 64 -> 0 <= c < 64 -> 2048 <= a * 4096 + b * 64 + c ->
       ~ 55296 <= a * 4096 + b * 64 + c <= 57343 ->
       utf8 (a * 4096 + b * 64 + c) [224 + a; 128 + b; 128 + c]
| U4 : forall a b c d, 0 <= a < 8 -> 0 <= b < 64 -> 0 <= c < 64 -> 0 <= d < 64 ->
       65536 <= a * 262144 + b * 4096 + c * 64 + d <= 1114111 ->
       utf8 (a * 262144 + b * 4096 + c * 64 + d) [240 + a; 128 + b; 128 + c; 128 + d].

(** XML 1.0, production 2 (Char). *)
Definition xml_char (r : Z) : Prop :=
  r = 9 \/ r = 10 \/ r = 13 \/ 32 <= r <= 55295 \/ 57344 <= r <= 65533 \/ 65536 <= r <= 1114111.

Definition replacement : bytes := [239; 191; 189]. (* U+FFFD *)

(** [cleaned s t]: [t] is [s] with every byte that starts no UTF-8 sequence, and every character that XML
    does not allow, replaced by U+FFFD. *)
Inductive cleaned : bytes -> bytes -> Prop :=
| C_nil : cleaned [] []
| C_good : forall r u s t, utf8 r u -> xml_char r -> cleaned s t -> cleaned (u ++ s) (u ++ t)
| C_char : forall r u s t, utf8 r u -> ~ xml_char r -> cleaned s t -> cleaned (u ++ s) (replacement ++ t)
| C_byte : forall b s t, (forall r u s', utf8 r u -> b :: s <> u ++ s') -> cleaned s t ->
           cleaned (b :: s) (replacement ++ t).

(** Text made of XML characters only. *)
Inductive xml_text : bytes -> Prop :=
| X_nil : xml_text []
| X_cons : forall r u s, utf8 r u -> xml_char r -> xml_text s -> xml_text (u ++ s).

(** Entity references as XML defines the ones used here. *)
Inductive reference : bytes -> Prop :=
| R_named : forall n, In n [[108;116]; [103;116]; [97;109;112]; [97;112;111;115]; [113;117;111;116]] -> reference (38 :: n ++ [59])
| R_dec : forall ds, ds <> [] -> Forall (fun d => 48 <= d <= 57) ds -> reference (38 :: 35 :: ds ++ [59])
| R_hex : forall ds, ds <> [] -> Forall (fun d => 48 <= d <= 57 \/ 65 <= d <= 70 \/ 97 <= d <= 102) ds ->
          reference (38 :: 35 :: 120 :: ds ++ [59]).

(** Text without markup: characters other than < > & and both quotes, or complete references. *)
Inductive no_markup : bytes -> Prop :=
| N_nil : no_markup []
| N_char : forall r u s, utf8 r u -> xml_char r -> ~ In r [60; 62; 38; 34; 39] -> no_markup s -> no_markup (u ++ s)
| N_ref : forall e s, reference e -> no_markup s -> no_markup (e ++ s).
