(** Model of src/openspace/time.py. *)
From Verif.Model Require Import Num Constants Functions.
Local Open Scope R_scope.

(** time.py:7-27 class Epoch: a modified Julian date *)
Record epoch := Epoch { value : num }.

(** time.py:10 *)
Definition MJD_ZERO : num := 2400000.5.
(** time.py:13 *)
Definition JULIAN_CENTURY : num := 36525.
(** time.py:16 *)
Definition J2000_JULIAN_DATE : num := 2451545.
(** time.py:19 *)
Definition UTC_TDT_OFFSET : num := 69.184 / SECONDS_IN_DAY.

(** time.py:29-35 *)
Definition epoch_copy (e : epoch) : epoch := Epoch (value e).

(** time.py:56-65: the integer part of from_gregorian.  The float divisions
    [y / 400] etc. and the product [30.6001 * (m + 1)] are taken exactly here;
    C19 shows that binary64 rounding does not change the floors. *)
Definition gregorian_mjd (year month day : Z) : Z :=
  let y := year in
  let m := month in
  let d := day in
  let '(y, m) := if (m <=? 2)%Z then ((y - 1)%Z, (m + 12)%Z) else (y, m) in
  let b := (nfloor (of_Z y / 400)%R - nfloor (of_Z y / 100)%R + nfloor (of_Z y / 4)%R)%Z in
  (365 * y - 679004 + b + nfloor (30.6001 * of_Z (m + 1)%Z)%R + d)%Z.

(** time.py:37-67 *)
Definition from_gregorian (year month day hour minute : Z) (sec : num) : epoch :=
  let mjd := gregorian_mjd year month day in
  Epoch (of_Z mjd + hms_to_decimal_day (of_Z hour) (of_Z minute) sec).

(** time.py:69-75 *)
Definition julian_value (e : epoch) : num := value e + MJD_ZERO.

(** time.py:77-83 *)
Definition julian_centuries_past_j2000 (e : epoch) : num :=
  (julian_value e - J2000_JULIAN_DATE) / JULIAN_CENTURY.

(** time.py:85-93 *)
Definition plus_days (e : epoch) (t : num) : epoch := Epoch (value e + t).

(** time.py:95-113 *)
Definition greenwich_hour_angle (e : epoch) : num :=
  let utc := Epoch (value e - UTC_TDT_OFFSET) in
  let dec_day := nmod (value utc) 1 in
  let j0 := julian_value utc - dec_day in
  let j := (j0 - J2000_JULIAN_DATE) / JULIAN_CENTURY in
  let theta0 := 100.4606184 + 36000.77004 * j + 0.000387933 * j * j in
  let total_deg := theta0 + 360.98564724 * dec_day in
  radians (nmod total_deg 360).
