(** Independent specification of xs:duration texts (no model definitions are used). *)
From Coq Require Import ZArith List Bool Reals Lra Lia.
Import ListNotations.
Open Scope Z_scope.

(** Decimal value by place weights. *)
Fixpoint dec_val (s : list Z) : Z :=
  match s with
  | [] => 0
  | b :: r => (b - 48) * 10 ^ Z.of_nat (length r) + dec_val r
  end.
Definition digits (s : list Z) : Prop := Forall (fun b => 48 <= b <= 57) s.

(** Components of a text [-]PT[hH][mM][s[.f]S]; an empty [f] means no decimal point. *)
Record dur_parts := {
  p_neg : bool;
  p_h : option (list Z);
  p_m : option (list Z);
  p_s : option (list Z * list Z) }.

Definition opt_text (o : option (list Z)) (designator : Z) : list Z :=
  match o with Some ds => ds ++ [designator] | None => [] end.
Definition sec_text (o : option (list Z * list Z)) : list Z :=
  match o with
  | Some (i, []) => i ++ [83]
  | Some (i, f) => i ++ [46] ++ f ++ [83]
  | None => []
  end.
Definition dur_text (p : dur_parts) : list Z :=
  (if p_neg p then [45] else []) ++ [80; 84] ++ opt_text (p_h p) 72 ++ opt_text (p_m p) 77 ++ sec_text (p_s p).

(** Nanoseconds denoted (fractions have at most nine digits in [dur_canonical]). *)
Definition opt_val (o : option (list Z)) : Z := match o with Some ds => dec_val ds | None => 0 end.
Definition sec_val (o : option (list Z * list Z)) : Z :=
  match o with
  | Some (i, f) => dec_val i * 1000000000 + dec_val f * 10 ^ (9 - Z.of_nat (length f))
  | None => 0
  end.
Definition dur_ns (p : dur_parts) : Z :=
  (if p_neg p then -1 else 1) *
  (opt_val (p_h p) * 3600000000000 + opt_val (p_m p) * 60000000000 + sec_val (p_s p)).

(** A number without superfluous zeros. *)
Definition natural_text (s : list Z) : Prop :=
  digits s /\ (s = [48] \/ exists b r, s = b :: r /\ b <> 48).
Definition opt_natural (o : option (list Z)) : Prop :=
  match o with Some ds => natural_text ds | None => True end.

(** Canonical: well-formed, fields in range, no superfluous digit and no superfluous component. *)
Definition dur_canonical (p : dur_parts) : Prop :=
  opt_natural (p_h p) /\ opt_natural (p_m p) /\
  match p_s p with
  | Some (i, f) => natural_text i /\ digits f /\ (length f <= 9)%nat /\ (f = [] \/ last f 48 <> 48) /\ dec_val i < 60
  | None => True
  end /\
  opt_val (p_m p) < 60 /\
  ~ (p_h p = None /\ p_m p = None /\ p_s p = None) /\
  (p_h p <> None -> 0 < opt_val (p_h p)) /\
  (p_m p <> None -> 0 < opt_val (p_m p) \/ (p_h p <> None /\ p_s p <> None)) /\
  (p_h p <> None -> p_s p <> None -> p_m p <> None) /\
  (p_h p <> None \/ p_m p <> None -> p_s p <> None -> 0 < sec_val (p_s p)).

(** Rounding of a nanosecond count to whole milliseconds, half away from zero. *)
Definition round_ms (n : Z) : Z := (Z.abs n + 500000) / 1000000 * 1000000 * Z.sgn n.

(** ** Texts accepted by ParseDuration *)

Definition uint_text (s : list Z) : Prop := s <> [] /\ digits s /\ dec_val s < 2 ^ 64.
(** Seconds number: digits, with or without a point, at least one digit, below the float64 overflow
    threshold (half-way between the largest float64 and 2^1024). *)
Definition sec_num (s i f : list Z) : Prop :=
  (s = i /\ f = [] \/ s = i ++ 46 :: f) /\ digits i /\ digits f /\ i ++ f <> [] /\
  dec_val (i ++ f) < (2 ^ 1024 - 2 ^ 970) * 10 ^ Z.of_nat (length f).

(** Optional [number designator] prefix with its value. *)
Inductive opt_unit (designator : Z) : list Z -> Z -> Prop :=
| ou_none : opt_unit designator [] 0
| ou_some : forall n, uint_text n -> opt_unit designator (n ++ [designator]) (dec_val n).
(** [Some (v, k)]: seconds are v / 10^k. *)
Inductive opt_sec : list Z -> option (Z * Z) -> Prop :=
| os_none : opt_sec [] None
| os_some : forall s i f, sec_num s i f -> opt_sec (s ++ [83]) (Some (dec_val (i ++ f), Z.of_nat (length f))).

(** Shape of the whole text with the values of its parts, as the code accepts it. *)
Inductive dur_accepted : list Z -> Z -> Z -> Z -> option (Z * Z) -> Prop :=
| da_days : forall n, uint_text n -> dur_accepted (80 :: n ++ [68]) (dec_val n) 0 0 None
| da_time : forall td d th h tm m ts s,
    opt_unit 68 td d -> opt_unit 72 th h -> opt_unit 77 tm m -> opt_sec ts s ->
    td ++ th ++ tm ++ ts <> [] ->
    dur_accepted (80 :: td ++ 84 :: th ++ tm ++ ts) d h m s
| da_days_after_T : forall n th h tm m ts s,
    uint_text n -> opt_unit 72 th h -> opt_unit 77 tm m -> opt_sec ts s ->
    dur_accepted (80 :: 84 :: n ++ 68 :: th ++ tm ++ ts) (dec_val n) h m s.

(** The documented format P[nD][T[nH][nM][nS]]: days before T, something after T. *)
Inductive dur_documented : list Z -> Prop :=
| dd_days : forall n, uint_text n -> dur_documented (80 :: n ++ [68])
| dd_time : forall td d th h tm m ts s,
    opt_unit 68 td d -> opt_unit 72 th h -> opt_unit 77 tm m -> opt_sec ts s ->
    th ++ tm ++ ts <> [] ->
    dur_documented (80 :: td ++ 84 :: th ++ tm ++ ts).
