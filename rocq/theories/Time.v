(** Model of the date functions of mpd/io.go and of the part of Go's package time they use.
    Go's time package is external; what is modelled of it: [time.Unix], [Time.UTC], [Time.Format] and
    [time.Parse] for the layout RFC3339MS, [Time.UnixNano].  Simplification: day counts are unbounded
    integers (Go counts days from a year near -292277022399 in uint64; no count within the int64 second
    range wraps for the years this model is used for). *)
From Coq Require Import String.
From Coq Require Import ZArith List Bool SpecFloat.
From Verif Require Import Base Float64.
Import ListNotations.
Open Scope Z_scope.

(** [isLeap] (time/time.go). *)
Definition is_leap (y : Z) : bool := (y mod 4 =? 0) && (negb (y mod 100 =? 0) || (y mod 400 =? 0)).

(** [daysBefore] (time/time.go): cumulative days before month [m] (0-based) of a common year. *)
Definition days_before (m : Z) : Z :=
  match m with
  | 0 => 0 | 1 => 31 | 2 => 59 | 3 => 90 | 4 => 120 | 5 => 151 | 6 => 181 | 7 => 212 | 8 => 243
  | 9 => 273 | 10 => 304 | 11 => 334 | _ => 365
  end.

(** Year and day of the year for a day count from 0001-01-01 ([absDate] of time/time.go). *)
Definition year_yday (days : Z) : Z * Z :=
  let n400 := days / 146097 in
  let d := days - 146097 * n400 in
  let n100 := d / 36524 in
  let n100 := n100 - n100 / 4 in
  let d := d - 36524 * n100 in
  let n4 := d / 1461 in
  let d := d - 1461 * n4 in
  let n := d / 365 in
  let n := n - n / 4 in
  let d := d - 365 * n in
  (400 * n400 + 100 * n100 + 4 * n4 + n + 1, d).

(** Month and day from the day of the year ([absDate] of time/time.go). *)
Definition month_day (leap : bool) (yday : Z) : Z * Z :=
  if leap && (yday =? 59) then (2, 29)
  else
    let day := if leap && (59 <? yday) then yday - 1 else yday in
    let month := day / 31 in
    let end_ := days_before (month + 1) in
    if end_ <=? day then (month + 2, day - end_ + 1)
    else (month + 1, day - days_before month + 1).

(** Days from 0001-01-01 to 1970-01-01. *)
Definition epoch_days : Z := 719162.

(** Civil date of a day count from 1970-01-01. *)
Definition civil (n : Z) : Z * Z * Z :=
  let '(y, yd) := year_yday (n + epoch_days) in
  let '(m, d) := month_day (is_leap y) yd in
  (y, m, d).

(** [daysSinceEpoch] and [Date] (time/time.go): day count from 1970-01-01 of a civil date. *)
Definition days_of_civil (y m d : Z) : Z :=
  let y0 := y - 1 in
  let n400 := y0 / 400 in
  let y1 := y0 - 400 * n400 in
  let n100 := y1 / 100 in
  let y2 := y1 - 100 * n100 in
  let n4 := y2 / 4 in
  let y3 := y2 - 4 * n4 in
  146097 * n400 + 36524 * n100 + 1461 * n4 + 365 * y3
  + days_before (m - 1) + (if is_leap y && (3 <=? m) then 1 else 0) + (d - 1) - epoch_days.

(** [time.Unix(sec, nsec)] (time/time.go): normalised seconds and nanoseconds. *)
Definition unix (sec nsec : Z) : Z * Z :=
  if (nsec <? 0) || (1000000000 <=? nsec) then
    let n := go_div nsec 1000000000 in
    let sec := wrap_i64 (sec + n) in
    let nsec := nsec - n * 1000000000 in
    if nsec <? 0 then (wrap_i64 (sec - 1), nsec + 1000000000) else (sec, nsec)
  else (sec, nsec).

(** [appendInt] with a width (time/format.go), for non-negative numbers below 10^width. *)
Definition dig (n : Z) : Z := 48 + n mod 10.
Definition pad2 (n : Z) : bytes := [dig (n / 10); dig n].
Definition pad4 (n : Z) : bytes := [dig (n / 1000); dig (n / 100); dig (n / 10); dig n].

(** [appendNano] for ".999" (time/format.go): three digits, trailing zeros dropped, no point if none left. *)
Definition frac3 (ms : Z) : bytes :=
  if ms =? 0 then []
  else if ms mod 100 =? 0 then [46; dig (ms / 100)]
  else if ms mod 10 =? 0 then [46; dig (ms / 100); dig (ms / 10)]
  else [46; dig (ms / 100); dig (ms / 10); dig ms].

(** [t.Format(RFC3339MS)] of a UTC time (io.go:117); the year must be within 0..9999, otherwise Go prints
    a sign or more digits, which is not modelled ([None]). *)
Definition format_ms (sec nsec : Z) : option bytes :=
  let '(y, m, d) := civil (sec / 86400) in
  let r := sec mod 86400 in
  if (0 <=? y) && (y <=? 9999) then
    Some (pad4 y ++ [45] ++ pad2 m ++ [45] ++ pad2 d ++ [84] ++ pad2 (r / 3600) ++ [58] ++ pad2 (r / 60 mod 60)
          ++ [58] ++ pad2 (r mod 60) ++ frac3 (nsec / 1000000) ++ [90])
  else None.

(** [ConvertToDateTimeS] (io.go:129-132). *)
Definition to_datetime_s (s : Z) : option bytes := let '(a, b) := unix s 0 in format_ms a b.
(** [ConvertToDateTimeMS] (io.go:135-140). *)
Definition to_datetime_ms (ms : Z) : option bytes :=
  let seconds := go_div ms 1000 in
  let ns := (ms - 1000 * seconds) * 1000000 in
  let '(a, b) := unix seconds ns in format_ms a b.
(** [ConvertToDateTime] (io.go:120-126). *)
Definition to_datetime_f (oor : f64 -> Z) (seconds : f64) : option bytes :=
  let s := f64_to_i64 oor seconds in
  let ns := f64_to_i64 oor (fmul (fsub seconds (f64_of_Z s)) (f64_of_Z 1000000000)) in
  let '(a, b) := unix s ns in format_ms a b.

(** ** [time.Parse] for RFC3339MS (time/format.go) *)

(** Literal text of the layout. *)
Definition lit (c : Z) (s : bytes) : option bytes :=
  match s with b :: r => if b =? c then Some r else None | [] => None end.
(** [getnum(value, fixed=true)]: two digits. *)
Definition getnum2 (s : bytes) : option (Z * bytes) :=
  match s with
  | a :: b :: r => if is_digit a && is_digit b then Some ((a - 48) * 10 + (b - 48), r) else None
  | _ => None
  end.
(** [getnum(value, fixed=false)]: one or two digits. *)
Definition getnum12 (s : bytes) : option (Z * bytes) :=
  match s with
  | a :: r =>
      if is_digit a then
        match r with
        | b :: r' => if is_digit b then Some ((a - 48) * 10 + (b - 48), r') else Some (a - 48, r)
        | [] => Some (a - 48, r)
        end
      else None
  | [] => None
  end.
(** stdLongYear: four digits. *)
Definition getyear (s : bytes) : option (Z * bytes) :=
  match s with
  | a :: b :: c :: d :: r =>
      if is_digit a && is_digit b && is_digit c && is_digit d
      then Some ((a - 48) * 1000 + (b - 48) * 100 + (c - 48) * 10 + (d - 48), r) else None
  | _ => None
  end.
(** Leading digits. *)
Fixpoint span_digits (s : bytes) : bytes * bytes :=
  match s with
  | b :: r => if is_digit b then let '(a, c) := span_digits r in (b :: a, c) else ([], s)
  | [] => ([], [])
  end.
(** stdFracSecond9 and [parseNanoseconds]: nothing, or a point or comma and digits of which nine count. *)
Definition nano_of (ds : bytes) : Z :=
  let ds := firstn 9 ds in
  fold_left (fun acc b => acc * 10 + (b - 48)) ds 0 * 10 ^ (9 - Z.of_nat (length ds)).
Definition getfrac (s : bytes) : Z * bytes :=
  match s with
  | p :: b :: r =>
      if ((p =? 46) || (p =? 44)) && is_digit b then
        let '(ds, rest) := span_digits (b :: r) in (nano_of ds, rest)
      else (0, s)
  | _ => (0, s)
  end.
(** stdISO8601ColonTZ: Z or sign hh:mm; offset in seconds. *)
Definition getzone (s : bytes) : option (Z * bytes) :=
  match s with
  | 90 :: r => Some (0, r)
  | sg :: r =>
      if (sg =? 43) || (sg =? 45) then
        match getnum2 r with
        | Some (hh, 58 :: r2) =>
            match getnum2 r2 with
            | Some (mm, r3) =>
                if (hh <=? 24) && (mm <=? 60) then
                  Some ((if sg =? 45 then -1 else 1) * (hh * 3600 + mm * 60), r3)
                else None
            | None => None
            end
        | _ => None
        end
      else None
  | [] => None
  end.
(** [daysIn] (time/time.go). *)
Definition days_in (y m : Z) : Z :=
  if m =? 2 then (if is_leap y then 29 else 28) else days_before m - days_before (m - 1).

Notation "'let?' x := a 'in' b" := (match a with Some x => b | None => None end)
  (at level 200, x pattern, a at level 100, b at level 200).
(** Seconds and nanoseconds since the epoch, or an error. *)
Definition parse_time (s : bytes) : option (Z * Z) :=
  let? (y, s) := getyear s in
  let? s := lit 45 s in
  let? (m, s) := getnum2 s in
  if negb ((1 <=? m) && (m <=? 12)) then None else
  let? s := lit 45 s in
  let? (d, s) := getnum2 s in
  let? s := lit 84 s in
  let? (hh, s) := getnum12 s in
  if negb (hh <? 24) then None else
  let? s := lit 58 s in
  let? (mi, s) := getnum2 s in
  if negb (mi <? 60) then None else
  let? s := lit 58 s in
  let? (ss, s) := getnum2 s in
  if negb (ss <? 60) then None else
  let '(ns, s) := getfrac s in
  let? (off, s) := getzone s in
  match s with
  | _ :: _ => None
  | [] =>
      if (1 <=? d) && (d <=? days_in y m) then
        Some (days_of_civil y m d * 86400 + hh * 3600 + mi * 60 + ss - off, ns)
      else None
  end.

(** [DateTime.ConvertToSeconds] (io.go:143-149); [UnixNano] wraps in int64. *)
Definition to_seconds (s : bytes) : option f64 :=
  let? (sec, ns) := parse_time s in
  Some (fdiv (f64_of_Z (wrap_i64 (sec * 1000000000 + ns))) (f64_of_Z 1000000000)).
