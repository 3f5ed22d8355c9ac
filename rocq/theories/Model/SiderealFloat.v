(** Sidereal time as the floats compute it. *)
From Coq Require Import Reals.
From Verif.Model Require Import Num Constants Time TimeFloat AngleFloat.
Local Open Scope R_scope.

(** CPython's [math.radians]: one product with the rounded [pi / 180] *)
Definition radians_b64 (x : R) : R := b64 (x * b64 (math_pi / 180)).

(** time.py:19 *)
Definition UTC_TDT_OFFSET_b64 : R := b64 (b64 69.184 / SECONDS_IN_DAY).

(** time.py:95-113, on the modified Julian date of the epoch; 2400000.5, the
    integers 2451545 and 36525 are exact *)
Definition greenwich_hour_angle_b64 (v : R) : R :=
  let utc := b64 (v - UTC_TDT_OFFSET_b64) in
  let dec_day := pymod_b64 utc 1 in
  let j0 := b64 (b64 (utc + MJD_ZERO) - dec_day) in
  let j := b64 (b64 (j0 - J2000_JULIAN_DATE) / JULIAN_CENTURY) in
  let theta0 := b64 (b64 (b64 100.4606184 + b64 (b64 36000.77004 * j)) + b64 (b64 (b64 0.000387933 * j) * j)) in
  let total_deg := b64 (theta0 + b64 (b64 360.98564724 * dec_day)) in
  radians_b64 (pymod_b64 total_deg 360).
