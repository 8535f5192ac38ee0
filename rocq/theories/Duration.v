(** Model of mpd/duration.go and mpd/ptrs.go. *)
From Coq Require Import String.
From Coq Require Import ZArith List Bool SpecFloat.
From Verif Require Import Base Float64.
Import ListNotations.
Open Scope Z_scope.

(** [time.Second], [time.Minute], [time.Hour] in nanoseconds (Go standard library). *)
Definition second_ns : Z := 1000000000.
Definition minute_ns : Z := 60000000000.
Definition hour_ns : Z := 3600000000000.

(** The scratch buffer [var buf [32]byte] with its write index [w] (duration.go:57-58).  The bytes
    [buf[w:]] are the list, so [w = 32 - length].  [w--; buf[w] = b] panics when [w] is 0. *)
Definition buf_cap : Z := 32.
Definition put (b : Z) (t : bytes) : outcome unit bytes :=
  if Z.of_nat (length t) <? buf_cap then Ok (b :: t) else Panic.

(** [fmtFrac] (duration.go:133-151): [prec] rounds of the loop, then the decimal point. *)
Fixpoint fmtFrac_loop (prec : nat) (v : Z) (print : bool) (t : bytes) : outcome unit (Z * bool * bytes) :=
  match prec with
  | O => Ok (v, print, t)
  | S p =>
      let digit := v mod 10 in
      let print' := print || negb (digit =? 0) in
      do t' <- (if print' then put (digit + 48) t else Ok t);
      fmtFrac_loop p (v / 10) print' t'
  end.
Definition fmtFrac (t : bytes) (v : Z) (prec : nat) : outcome unit (Z * bytes) :=
  do (v', print, t') <- fmtFrac_loop prec v false t;
  do t'' <- (if print then put 46 t' else Ok t');
  Ok (v', t'').

(** [fmtInt] (duration.go:155-168).  The loop budget is the number of bits of [v]. *)
Fixpoint fmtInt_loop (fuel : nat) (v : Z) (t : bytes) : outcome unit bytes :=
  if v <=? 0 then Ok t
  else match fuel with
       | O => OutOfFuel
       | S f =>
           do t' <- put (v mod 10 + 48) t;
           fmtInt_loop f (v / 10) t'
       end.
Definition fmtInt (t : bytes) (v : Z) : outcome unit bytes :=
  if v =? 0 then put 48 t
  else fmtInt_loop (S (Z.to_nat (Z.log2_up v))) v t.

(** [uint64(math.Round(float64(ns) * 1.0e-6))] (duration.go:71). *)
Definition ns_to_ms (oor : f64 -> Z) (ns : Z) : Z :=
  f64_to_u64 oor (fround (fmul (f64_of_Z ns) (f64_of_ratio 1 1000000))).

(** [Duration.String] (duration.go:55-127).  [d] is the int64 value of the duration. *)
Definition dur_string (oor : f64 -> Z) (d : Z) : outcome unit bytes :=
  let u := wrap_u64 d in
  if u =? 0 then Ok (str "PT0S")
  else
    let neg := d <? 0 in
    let u := if neg then wrap_u64 (- u) else u in
    let s := u / second_ns in
    let ns := u - s * second_ns in
    let ms := ns_to_ms oor ns in
    do t <- put 83 [] (* 'S' *);
    do t <-
      (if (s =? 0) && (ms =? 0) then
         (* time smaller than a millisecond: 9 decimals *)
         do (u', t) <- fmtFrac t u 9;
         fmtInt t u'
       else if s =? 0 then
         (* smaller than a second *)
         do (_, t) <- fmtFrac t ms 3;
         put 48 t
       else
         do (u, t) <- fmtFrac t (wrap_u64 (1000 * s + ms)) 3;
         do t <- fmtInt t (u mod 60);
         let u := u / 60 in
         let t := if beq t (str "0S") then [] else t in
         if 0 <? u then
           do t <- put 77 t (* 'M' *);
           do t <- fmtInt t (u mod 60);
           let u := u / 60 in
           let t := if beq t (str "0M") then [] else t in
           if 0 <? u then
             do t <- put 72 t (* 'H' *);
             fmtInt t u
           else Ok t
         else Ok t);
    do t <- put 84 t (* 'T' *);
    do t <- put 80 t (* 'P' *);
    if neg then put 45 t else Ok t.

(** Parse errors (duration.go:171-290), by message. *)
Inductive dur_err :=
| DurTooShort    (* at least one number and designator are required *)
| DurNegative    (* duration cannot be negative *)
| DurFormat      (* duration must be in the format: P[nD][T[nH][nM][nS]] *)
| DurDays | DurHours | DurMinutes | DurSeconds. (* error parsing ... *)

(** [rank] (duration.go:191-203). *)
Definition rank (c : Z) : Z :=
  if c =? 68 (* D *) then 1
  else if c =? 72 (* H *) then 2
  else if c =? 77 (* M *) then 3
  else if c =? 83 (* S *) then 4
  else 0.

(** The digit-scanning loop (duration.go:219-232): digits and at most one dot.
    Returns the scanned text, whether a dot was seen, and the rest. *)
Fixpoint scan_num (sawDot : bool) (s : bytes) : bytes * bool * bytes :=
  match s with
  | [] => ([], sawDot, [])
  | b :: r =>
      if is_digit b then
        let '(n, d, r') := scan_num sawDot r in (b :: n, d, r')
      else if (b =? 46) && negb sawDot then
        let '(n, d, r') := scan_num true r in (b :: n, d, r')
      else ([], sawDot, s)
  end.

(** Value of a string of decimal digits. *)
Definition digits_val (s : bytes) : Z := fold_left (fun acc b => acc * 10 + (b - 48)) s 0.

(** [strconv.ParseUint(s, 10, 64)] on a string the scanner produced: fails when a non-digit or nothing
    is present or when the value exceeds 64 bits. *)
Definition parse_uint (s : bytes) : option Z :=
  match s with
  | [] => None
  | _ => if forallb is_digit s then
           let v := digits_val s in if v <? two64 then Some v else None
         else None
  end.

(** [strconv.ParseFloat(s, 64)] on digits with at most one dot: correctly rounded; fails without any
    digit and when the rounded value overflows. *)
Fixpoint split_dot (s : bytes) : bytes * bytes :=
  match s with
  | [] => ([], [])
  | b :: r => if b =? 46 then ([], r) else let '(i, f) := split_dot r in (b :: i, f)
  end.
Definition parse_float (s : bytes) : option f64 :=
  let '(i, f) := split_dot s in
  match i ++ f with
  | [] => None
  | ds => if forallb is_digit ds then
            let v := f64_of_ratio (digits_val ds) (10 ^ Z.of_nat (length f)) in
            match v with
            | S754_infinity _ => None
            | _ => Some v
            end
          else None
  end.

(** One number with its designator (duration.go:255-283): the contribution to the total. *)
Definition unit_value (oor : f64 -> Z) (unit : Z) (num : bytes) : outcome dur_err Z :=
  if unit =? 68 then
    match parse_uint num with
    | None => Err DurDays
    | Some n => Ok (wrap_i64 (wrap_i64 (wrap_i64 n * 24) * hour_ns))
    end
  else if unit =? 72 then
    match parse_uint num with
    | None => Err DurHours
    | Some n => Ok (wrap_i64 (wrap_i64 n * hour_ns))
    end
  else if unit =? 77 then
    match parse_uint num with
    | None => Err DurMinutes
    | Some n => Ok (wrap_i64 (wrap_i64 n * minute_ns))
    end
  else
    match parse_float num with
    | None => Err DurSeconds
    | Some f => Ok (f64_to_i64 oor (fmul f (f64_of_Z second_ns)))
    end.

(** The main loop (duration.go:205-285).  Each round consumes at least one byte, the budget is the
    length of the text. *)
Fixpoint parse_loop (oor : f64 -> Z) (fuel : nat) (s : bytes) (total : Z) (afterT seenAny : bool) (lastUnit : Z)
  : outcome dur_err Z :=
  match s with
  | [] => if seenAny then Ok total else Err DurTooShort
  | c :: r =>
      match fuel with
      | O => OutOfFuel
      | S fuel' =>
          if c =? 84 (* T *) then
            if afterT then Err DurFormat
            else parse_loop oor fuel' r total true seenAny lastUnit
          else if c =? 45 (* - *) then Err DurNegative
          else
            let '(num, sawDot, rest) := scan_num false s in
            match num, rest with
            | [], _ => Err DurFormat
            | _, [] => Err DurFormat
            | _, unit :: rest' =>
                if rank unit =? 0 then Err DurFormat
                else if rank unit <=? rank lastUnit then Err DurFormat
                else if negb (unit =? 68) && negb afterT then Err DurFormat
                else if sawDot && negb (unit =? 83) then Err DurFormat
                else
                  do v <- unit_value oor unit num;
                  parse_loop oor fuel' rest' (wrap_i64 (total + v)) afterT true unit
            end
      end
  end.

(** [ParseDuration] (duration.go:171-290). *)
Definition parse_duration (oor : f64 -> Z) (s : bytes) : outcome dur_err Z :=
  if Z.of_nat (length s) <? 3 then Err DurTooShort
  else match s with
       | [] => Err DurTooShort
       | c :: r =>
           if c =? 45 then Err DurNegative
           else if negb (c =? 80) then Err DurFormat
           else parse_loop oor (length r) r 0 false false 0
       end.

(** [Duration.Seconds] (duration.go:293-295). *)
Definition dur_seconds (d : Z) : f64 := fdiv (f64_of_Z d) (f64_of_Z second_ns).

(** [Seconds2DurPtr] (ptrs.go:14-17): [int] is 64 bits wide. *)
Definition seconds2dur (seconds : Z) : Z := wrap_i64 (seconds * second_ns).

(** [Seconds2DurPtrFloat64] (ptrs.go:20-24). *)
Definition seconds2dur_f64 (oor : f64 -> Z) (seconds : f64) : Z :=
  wrap_i64 (f64_to_i64 oor (fround (fmul seconds (f64_of_Z 1000000))) * 1000).
