(** Independent specification of the dates the library reads: which texts are dates and which instant each
    names.  No model definitions are used. *)
From Coq Require Import ZArith List.
From Verif Require Import DurationSpec TimeSpec.
Import ListNotations.
Open Scope Z_scope.

(** A fraction of a second: none, or a point or a comma and digits; whole nanoseconds of it. *)
Inductive fraction : list Z -> Z -> Prop :=
| fr_none : fraction [] 0
| fr_some : forall p g, p = 46 \/ p = 44 -> g <> [] -> digits g ->
    fraction (p :: g) (dec_val g * 1000000000 / 10 ^ Z.of_nat (length g)).
(** A zone: Z, or a sign, hours and minutes; seconds east of Greenwich. *)
Inductive zone : list Z -> Z -> Prop :=
| zn_utc : zone [90] 0
| zn_east : forall th tm h m, number 2 th h -> number 2 tm m -> h <= 24 -> m <= 60 -> zone ([43] ++ th ++ [58] ++ tm) (h * 3600 + m * 60)
| zn_west : forall th tm h m, number 2 th h -> number 2 tm m -> h <= 24 -> m <= 60 -> zone ([45] ++ th ++ [58] ++ tm) (- (h * 3600 + m * 60)).
(** [names t sec ns]: the text [t] names the instant [sec] seconds and [ns] nanoseconds after the epoch. *)
Definition names (t : list Z) (sec ns : Z) : Prop :=
  exists n y mo d h mi s off ty tmo td th tmi ts tf tz,
    t = ty ++ [45] ++ tmo ++ [45] ++ td ++ [84] ++ th ++ [58] ++ tmi ++ [58] ++ ts ++ tf ++ tz /\
    number 4 ty y /\ number 2 tmo mo /\ number 2 td d /\ (number 2 th h \/ number 1 th h) /\ number 2 tmi mi /\ number 2 ts s /\
    fraction tf ns /\ zone tz off /\
    day_date n (y, mo, d) /\ h < 24 /\ mi < 60 /\ s < 60 /\ sec = n * 86400 + h * 3600 + mi * 60 + s - off.
