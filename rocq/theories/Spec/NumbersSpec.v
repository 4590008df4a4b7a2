(** What the bit patterns of floating point numbers and the fields of INT96 timestamps mean. *)
From Verif Require Import Base.Prelude.
Open Scope N_scope.

(** ** IEEE 754 numbers: a sign bit, [eb] bits of exponent and [mb] bits of mantissa. Finite numbers are given in units of the
    smallest positive one. *)
Inductive real := NaN | Infinite (negative : bool) | Finite (z : Z).
Definition float_value (eb mb b : N) : real :=
  let mantissa := b mod 2 ^ mb in
  let exponent := (b / 2 ^ mb) mod 2 ^ eb in
  let negative := N.testbit b (eb + mb) in
  if exponent =? 2 ^ eb - 1 then if mantissa =? 0 then Infinite negative else NaN
  else
    let size := if exponent =? 0 then mantissa else (2 ^ mb + mantissa) * 2 ^ (exponent - 1) in
    Finite (if negative then - Z.of_N size else Z.of_N size)%Z.
Definition f32_value := float_value 8 23.
Definition f64_value := float_value 11 52.
(** The order of the extended reals; a NaN is comparable with nothing. *)
Definition real_compare (a b : real) : option comparison :=
  match a, b with
  | NaN, _ | _, NaN => None
  | Finite x, Finite y => Some (x ?= y)%Z
  | Infinite true, Infinite true | Infinite false, Infinite false => Some Eq
  | Infinite true, _ | _, Infinite false => Some Lt
  | Infinite false, _ | _, Infinite true => Some Gt
  end.

(** ** INT96 timestamps: nanoseconds of the day in 64 bits, then the Julian day. *)
(** The Julian day of a date of the Gregorian calendar (Fliegel and Van Flandern). *)
Definition julian_day (y mo d : Z) : Z :=
  (let a := Z.quot (mo - 14) 12 in
   Z.quot (1461 * (y + 4800 + a)) 4 + Z.quot (367 * (mo - 2 - 12 * a)) 12 - Z.quot (3 * Z.quot (y + 4900 + a) 100) 4 + d - 32075)%Z.
Definition day_ns : Z := (24 * 60 * 60 * 1000000000)%Z.
(** Nanoseconds from midnight of 1970-01-01 to a time of a day. *)
Definition instant (day nanos : Z) : Z := ((day - julian_day 1970 1 1) * day_ns + nanos)%Z.
(** The three 32-bit words. *)
Definition int96_nanos (v : N * N * N) : Z := let '(v0, v1, _) := v in to_signed 64 (v0 + 2 ^ 32 * v1).
Definition int96_day (v : N * N * N) : Z := let '(_, _, v2) := v in Z.of_N v2.
