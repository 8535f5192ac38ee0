(** float64 as used by package mpd.  Values are the standard library's [spec_float] with 53 bits of
    precision and maximal exponent 1024, all operations round to nearest, ties to even. *)
From Coq Require Import ZArith List Bool SpecFloat.
From Verif Require Import Base.
Import ListNotations.
Open Scope Z_scope.

Definition f64 := spec_float.

(** Go [x * y], [x / y], [x + y], [x - y] on float64. *)
Definition fmul : f64 -> f64 -> f64 := SFmul 53 1024.
Definition fdiv : f64 -> f64 -> f64 := SFdiv 53 1024.
Definition fadd : f64 -> f64 -> f64 := SFadd 53 1024.
Definition fsub : f64 -> f64 -> f64 := SFsub 53 1024.

(** Go [float64(n)] for an integer [n]. *)
Definition f64_of_Z (n : Z) : f64 := binary_normalize 53 1024 n 0 false.

(** Correctly rounded value of the non-negative rational [num/den], [den > 0]: what the Go compiler
    does for a constant and [strconv.ParseFloat] for a decimal text. *)
Definition f64_of_ratio (num den : Z) : f64 :=
  match num, den with
  | Zpos n, Zpos d =>
      let '(mz, ez, lz) := SFdiv_core_binary 53 1024 (Zpos n) 0 (Zpos d) 0 in
      binary_round_aux 53 1024 false mz ez lz
  | _, _ => S754_zero false
  end.

(** Integer part of |f| rounded half away from zero; [None] for infinities and NaN. *)
Definition round_half_abs (m : positive) (e : Z) : Z :=
  if 0 <=? e then Zpos m * 2 ^ e
  else (Zpos m + 2 ^ (- e - 1)) / 2 ^ (- e).

(** Go [math.Round]: nearest integer, half away from zero. *)
Definition fround (f : f64) : f64 :=
  match f with
  | S754_finite s m e =>
      binary_normalize 53 1024 (cond_Zopp s (round_half_abs m e)) 0 s
  | _ => f
  end.

(** Truncation toward zero of a finite float64. *)
Definition ftrunc (f : f64) : option Z :=
  match f with
  | S754_zero _ => Some 0
  | S754_finite s m e =>
      Some (cond_Zopp s (if 0 <=? e then Zpos m * 2 ^ e else Zpos m / 2 ^ (- e)))
  | _ => None
  end.

(** Go [int64(f)] / [time.Duration(f)].  When the truncated value does not fit, the Go specification
    leaves the result implementation-dependent: it is the parameter [oor]. *)
Definition f64_to_i64 (oor : f64 -> Z) (f : f64) : Z :=
  match ftrunc f with
  | Some z => if is_i64 z then z else wrap_i64 (oor f)
  | None => wrap_i64 (oor f)
  end.

(** Go [uint64(f)], same convention. *)
Definition f64_to_u64 (oor : f64 -> Z) (f : f64) : Z :=
  match ftrunc f with
  | Some z => if is_u64 z then z else wrap_u64 (oor f)
  | None => wrap_u64 (oor f)
  end.
