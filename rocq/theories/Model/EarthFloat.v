(** The Earth's orientation with IEEE-754 binary64 rounding of every operation
    (round to nearest even, gradual underflow; overflow is not modelled).
    Epochs are given by the modified Julian date they store. *)
From Coq Require Import Reals.
From Verif.Model Require Import Num Linalg Time States Obs Terrestrial TimeFloat AngleFloat ElementsFloat FrameFloat SiderealFloat GroundFloat.
Local Open Scope R_scope.

(** time.py:69-83; the literals 2400000.5, 2451545 and 36525 are exact *)
Definition julian_value_b64 (v : R) : R := b64 (v + MJD_ZERO).
Definition julian_centuries_b64 (v : R) : R := b64 (b64 (julian_value_b64 v - J2000_JULIAN_DATE) / JULIAN_CENTURY).

(** functions.py:30-43 with [d = m = 0]: [0 + 0 / 60] is exactly zero *)
Definition seconds_to_radians_b64 (s : R) : R := radians_b64 (b64 (0 + b64 (b64 s / 3600))).

(** celestial.py:67-68 and 72-89 *)
Definition OBLIQUITY_b64 : R := radians_b64 (b64 23.43929111).
Definition obliquity_b64 (v : R) : R :=
  let t := julian_centuries_b64 v in
  let a := seconds_to_radians_b64 46.815 in
  let b := seconds_to_radians_b64 0.00059 in
  let c := seconds_to_radians_b64 0.001813 in
  b64 (b64 (b64 (OBLIQUITY_b64 - b64 (a * t)) - b64 (b64 (b * t) * t)) + b64 (b64 (b64 (c * t) * t) * t)).

(** linalg.py:280-313 *)
Definition v3_rotation_matrix_b64 (L : libm) (axis : vec3) (theta : R) : res mat3 :=
  let* unit_ax := v3_normalized_b64 axis in
  let ux := x3 unit_ax in
  let uy := y3 unit_ax in
  let uz := z3 unit_ax in
  let c := cosf L theta in
  let s := sinf L theta in
  let cdiff := b64 (1 - c) in
  let x1 := b64 (c + b64 (b64 (ux * ux) * cdiff)) in
  let y1 := b64 (b64 (b64 (ux * uy) * cdiff) - b64 (uz * s)) in
  let z1 := b64 (b64 (b64 (ux * uz) * cdiff) + b64 (uy * s)) in
  let x2 := b64 (b64 (b64 (uy * ux) * cdiff) + b64 (uz * s)) in
  let y2 := b64 (c + b64 (b64 (uy * uy) * cdiff)) in
  let z2 := b64 (b64 (b64 (uy * uz) * cdiff) - b64 (ux * s)) in
  let x3 := b64 (b64 (b64 (uz * ux) * cdiff) - b64 (uy * s)) in
  let y3 := b64 (b64 (b64 (uz * uy) * cdiff) + b64 (ux * s)) in
  let z3 := b64 (c + b64 (b64 (uz * uz) * cdiff)) in
  Ok (M3 (V3 x1 y1 z1) (V3 x2 y2 z2) (V3 x3 y3 z3)).

(** celestial.py:109-111 and 166-168: the two arguments *)
Definition nutation_arg1_b64 (v : R) : R :=
  let d := b64 (julian_value_b64 v - J2000_JULIAN_DATE) in radians_b64 (b64 (125 - b64 (b64 0.05295 * d))).
Definition nutation_arg2_b64 (v : R) : R :=
  let d := b64 (julian_value_b64 v - J2000_JULIAN_DATE) in radians_b64 (b64 (b64 200.9 + b64 (b64 1.97129 * d))).
(** celestial.py:112-114 and 169-171 *)
Definition dpsi_b64 (L : libm) (v : R) : R :=
  let a := radians_b64 (b64 (-0.0048)) in
  let b := radians_b64 (b64 0.0004) in
  b64 (b64 (a * sinf L (nutation_arg1_b64 v)) - b64 (b * sinf L (nutation_arg2_b64 v))).
(** celestial.py:172-174 *)
Definition deps_b64 (L : libm) (v : R) : R :=
  let a := radians_b64 (b64 0.0026) in
  let b := radians_b64 (b64 0.0002) in
  b64 (b64 (a * cosf L (nutation_arg1_b64 v)) + b64 (b * cosf L (nutation_arg2_b64 v))).

(** celestial.py:100-118 *)
Definition gast_b64 (L : libm) (v : R) : R :=
  b64 (b64 (dpsi_b64 L v * cosf L (obliquity_b64 v)) + greenwich_hour_angle_b64 v).
Definition Earth_rotation_b64 (L : libm) (v : R) : res mat3 :=
  v3_rotation_matrix_b64 L (V3 0 0 1) (- gast_b64 L v).

(** celestial.py:129-142: the three angles *)
Definition precession_x_b64 (v : R) : R :=
  let t := julian_centuries_b64 v in
  let a := seconds_to_radians_b64 2306.2181 in
  let b := seconds_to_radians_b64 0.30188 in
  let c := seconds_to_radians_b64 0.017998 in
  b64 (b64 (b64 (a * t) + b64 (b64 (b * t) * t)) + b64 (b64 (b64 (c * t) * t) * t)).
Definition precession_y_b64 (v : R) : R :=
  let t := julian_centuries_b64 v in
  let a := seconds_to_radians_b64 2004.3109 in
  let b := seconds_to_radians_b64 0.42665 in
  let c := seconds_to_radians_b64 0.041833 in
  b64 (b64 (b64 (a * t) - b64 (b64 (b * t) * t)) - b64 (b64 (b64 (c * t) * t) * t)).
Definition precession_z_b64 (v : R) : R :=
  let t := julian_centuries_b64 v in
  let a := seconds_to_radians_b64 0.7928 in
  let b := seconds_to_radians_b64 0.000205 in
  b64 (b64 (precession_x_b64 v + b64 (b64 (a * t) * t)) + b64 (b64 (b64 (b * t) * t) * t)).

(** celestial.py:120-155 *)
Definition Earth_precession_b64 (L : libm) (v : R) : mat3 :=
  let x := precession_x_b64 v in
  let y := precession_y_b64 v in
  let z := precession_z_b64 v in
  let sz := sinf L z in
  let sy := sinf L y in
  let sx := sinf L x in
  let cz := cosf L z in
  let cy := cosf L y in
  let cx := cosf L x in
  M3 (V3 (b64 (b64 (- sz * sx) + b64 (b64 (cz * cy) * cx))) (b64 (b64 (- sz * cx) - b64 (b64 (cz * cy) * sx))) (b64 (- cz * sy)))
     (V3 (b64 (b64 (cz * sx) + b64 (b64 (sz * cy) * cx))) (b64 (b64 (cz * cx) - b64 (b64 (sz * cy) * sx))) (b64 (- sz * sy)))
     (V3 (b64 (sy * cx)) (b64 (- sy * sx)) cy).

(** celestial.py:157-184 *)
Definition Earth_nutation_b64 (L : libm) (v : R) : mat3 :=
  let dpsi := dpsi_b64 L v in
  let deps := deps_b64 L v in
  let eps := obliquity_b64 v in
  let ce := cosf L eps in
  let se := sinf L eps in
  M3 (V3 1 (b64 (- dpsi * ce)) (b64 (- dpsi * se)))
     (V3 (b64 (dpsi * ce)) 1 (- deps))
     (V3 (b64 (dpsi * se)) deps 1).

(** positions.py:112-149 *)
Definition gcrf_to_itrf_b64 (L : libm) (pos : vec3) (v : R) : res vec3 :=
  let* rot := Earth_rotation_b64 L v in
  Ok (m3_multiply_vector_b64 rot
        (m3_multiply_vector_b64 (Earth_nutation_b64 L v) (m3_multiply_vector_b64 (Earth_precession_b64 L v) pos))).

(** positions.py:168-205 *)
Definition itrf_to_gcrf_b64 (L : libm) (pos : vec3) (v : R) : res vec3 :=
  let* rot := Earth_rotation_b64 L v in
  Ok (m3_multiply_vector_b64 (m3_transpose (Earth_precession_b64 L v))
        (m3_multiply_vector_b64 (m3_transpose (Earth_nutation_b64 L v)) (m3_multiply_vector_b64 (m3_transpose rot) pos))).

(** terrestrial.py:47-61; [pos] and [v] are the target's position and the date of its epoch *)
Definition angles_and_range_b64 (L : libm) (s : site) (pos : vec3) (v : R) : res ground_obs :=
  let* tgt := gcrf_to_itrf_b64 L pos v in
  Ok (GroundObservation_b64 L (ITRF_from_fixed (Epoch v) (itrf_position s)) (enz_position_b64 s tgt) 0 0).
