(** Independent specification of the Gregorian calendar and of date texts. *)
From Coq Require Import ZArith List.
From Verif Require Import DurationSpec.
Import ListNotations.
Open Scope Z_scope.

Definition leap_year (y : Z) : Prop := (4 | y) /\ (~ (100 | y) \/ (400 | y)).

(** Length of month [m] of year [y]. *)
Inductive month_length (y : Z) : Z -> Z -> Prop :=
| ml_31 : forall m, In m [1; 3; 5; 7; 8; 10; 12] -> month_length y m 31
| ml_30 : forall m, In m [4; 6; 9; 11] -> month_length y m 30
| ml_feb : ~ leap_year y -> month_length y 2 28
| ml_feb_leap : leap_year y -> month_length y 2 29.

(** The day after. *)
Inductive next_day : Z * Z * Z -> Z * Z * Z -> Prop :=
| nd_same_month : forall y m d n, month_length y m n -> 1 <= d < n -> next_day (y, m, d) (y, m, d + 1)
| nd_next_month : forall y m n, month_length y m n -> m < 12 -> next_day (y, m, n) (y, m + 1, 1)
| nd_next_year : forall y, next_day (y, 12, 31) (y + 1, 1, 1).

(** [day_date n a]: [a] is the date [n] days after (before, when negative) 1970-01-01. *)
Inductive day_date : Z -> Z * Z * Z -> Prop :=
| dd_epoch : day_date 0 (1970, 1, 1)
| dd_after : forall n a b, day_date n a -> next_day a b -> day_date (n + 1) b
| dd_before : forall n a b, day_date n b -> next_day a b -> day_date (n - 1) a.

(** [number w t n]: [t] is [n] written with exactly [w] digits. *)
Definition number (w : nat) (t : list Z) (n : Z) : Prop := length t = w /\ digits t /\ dec_val t = n.

(** YYYY-MM-DDThh:mm:ss[.f]Z *)
Definition date_text (t : list Z) (y mo d h mi s ms : Z) : Prop :=
  exists ty tmo td th tmi ts f,
    t = ty ++ [45] ++ tmo ++ [45] ++ td ++ [84] ++ th ++ [58] ++ tmi ++ [58] ++ ts ++ f ++ [90] /\
    number 4 ty y /\ number 2 tmo mo /\ number 2 td d /\ number 2 th h /\ number 2 tmi mi /\ number 2 ts s /\
    (f = [] /\ ms = 0 \/
     exists g k, f = 46 :: g /\ (1 <= k <= 3)%nat /\ number k g (ms / 10 ^ (3 - Z.of_nat k)) /\
       ms mod 10 ^ (3 - Z.of_nat k) = 0 /\ last g 48 <> 48).

(** [t] is the UTC text of the instant [ms] milliseconds after the epoch. *)
Definition instant_text (t : list Z) (ms : Z) : Prop :=
  exists n y mo d h mi s f, day_date n (y, mo, d) /\ 0 <= h < 24 /\ 0 <= mi < 60 /\ 0 <= s < 60 /\ 0 <= f < 1000 /\
    ms = (n * 86400 + h * 3600 + mi * 60 + s) * 1000 + f /\ date_text t y mo d h mi s f.
