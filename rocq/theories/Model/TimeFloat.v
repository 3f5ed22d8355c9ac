(** Model of src/openspace/time.py with IEEE-754 binary64 rounding of the
    calendar arithmetic (round to nearest even, gradual underflow; overflow is
    unreachable at these magnitudes). *)
From Coq Require Import Reals ZArith.
From Flocq Require Import Core.
From Verif.Model Require Import Num Constants Functions.
Local Open Scope R_scope.

(** the binary64 value nearest to a real *)
Definition b64 (x : R) : R := round radix2 (FLT_exp (-1074) 53) ZnearestE x.

(** time.py:56-65.  Python's [int / int] is the correctly rounded quotient;
    [30.6001] is the nearest binary64 literal and its product with an int is
    rounded again; [floor] and the integer sum are exact. *)
Definition gregorian_mjd_b64 (year month day : Z) : Z :=
  let y := year in
  let m := month in
  let d := day in
  let '(y, m) := if (m <=? 2)%Z then ((y - 1)%Z, (m + 12)%Z) else (y, m) in
  let b := (nfloor (b64 (of_Z y / 400))%R - nfloor (b64 (of_Z y / 100))%R
            + nfloor (b64 (of_Z y / 4))%R)%Z in
  (365 * y - 679004 + b + nfloor (b64 (b64 30.6001 * of_Z (m + 1)%Z))%R + d)%Z.

(** functions.py:15-28 hms_to_decimal_day with every operation rounded *)
Definition hms_to_decimal_day_b64 (hr minute sec : R) : R :=
  b64 (b64 (b64 (hr / HOURS_IN_DAY) + b64 (minute / MINUTES_IN_DAY)) + b64 (sec / SECONDS_IN_DAY)).

(** time.py:37-67 *)
Definition from_gregorian_b64 (year month day hour minute : Z) (sec : R) : R :=
  b64 (of_Z (gregorian_mjd_b64 year month day)
       + hms_to_decimal_day_b64 (of_Z hour) (of_Z minute) sec).
