(** Positions of the Sun and the Moon with IEEE-754 binary64 rounding of every
    operation (round to nearest even, gradual underflow; overflow is not
    modelled). Epochs are given by the modified Julian date they store. Integer
    and half-integer literals are exact. *)
From Coq Require Import Reals.
From Verif.Model Require Import Num Linalg TimeFloat AngleFloat ElementsFloat FrameFloat SiderealFloat EarthFloat.
Local Open Scope R_scope.

(** celestial.py:192-198 *)
Definition Sun_W_PLUS_W_b64 : R := radians_b64 (b64 282.94).
Definition Sun_COS_OBLIQUITY_b64 (L : libm) : R := cosf L OBLIQUITY_b64.
Definition Sun_SIN_OBLIQUITY_b64 (L : libm) : R := sinf L OBLIQUITY_b64.

(** celestial.py:209-238 *)
Definition Sun_get_position_b64 (L : libm) (v : R) : vec3 :=
  let a := seconds_to_radians_b64 6892 in
  let b := seconds_to_radians_b64 72 in
  let t := julian_centuries_b64 v in
  let ma := radians_b64 (b64 (b64 357.5256 + b64 (b64 35999.049 * t))) in
  let sma := sinf L ma in
  let cma := cosf L ma in
  let c2ma := cosf L (b64 (2 * ma)) in
  let lam := b64 (b64 (b64 (Sun_W_PLUS_W_b64 + ma) + b64 (a * sma)) + b64 (b64 (b64 (b * 2) * sma) * cma)) in
  let r := b64 (b64 (b64 (b64 149.619 - b64 (b64 2.499 * cma)) - b64 (b64 0.021 * c2ma)) * 1e6) in
  let x := b64 (r * cosf L lam) in
  let slam := sinf L lam in
  let y := b64 (b64 (r * slam) * Sun_COS_OBLIQUITY_b64 L) in
  let z := b64 (b64 (r * slam) * Sun_SIN_OBLIQUITY_b64 L) in
  V3 x y z.

(** celestial.py:260-265: the five arguments in terms of the centuries *)
Definition moon_l0_b64 (t : R) : R := radians_b64 (b64 (b64 (b64 218.31617 + b64 (b64 481267.88088 * t)) - b64 (b64 1.3972 * t))).
Definition moon_l_b64 (t : R) : R := radians_b64 (b64 (b64 134.96292 + b64 (b64 477198.86753 * t))).
Definition moon_lp_b64 (t : R) : R := radians_b64 (b64 (b64 357.52543 + b64 (b64 35999.04944 * t))).
Definition moon_f_b64 (t : R) : R := radians_b64 (b64 (b64 93.27283 + b64 (b64 483202.01873 * t))).
Definition moon_d_b64 (t : R) : R := radians_b64 (b64 (b64 297.85027 + b64 (b64 445267.11135 * t))).

(** celestial.py:267-300 *)
Definition moon_lambda_b64 (L : libm) (l0 l lp f d : R) : R :=
  let a0 := seconds_to_radians_b64 22640 in
  let a1 := seconds_to_radians_b64 769 in
  let a2 := seconds_to_radians_b64 4586 in
  let a3 := seconds_to_radians_b64 2370 in
  let a4 := seconds_to_radians_b64 668 in
  let a5 := seconds_to_radians_b64 412 in
  let a6 := seconds_to_radians_b64 212 in
  let a7 := seconds_to_radians_b64 206 in
  let a8 := seconds_to_radians_b64 192 in
  let a9 := seconds_to_radians_b64 165 in
  let a10 := seconds_to_radians_b64 148 in
  let a11 := seconds_to_radians_b64 125 in
  let a12 := seconds_to_radians_b64 110 in
  let a13 := seconds_to_radians_b64 55 in
  b64 (b64 (b64 (b64 (b64 (b64 (b64 (b64 (b64 (b64 (b64 (b64 (b64 (b64 (l0 + b64 (a0 * sinf L l)) + b64 (a1 * sinf L (b64 (2 * l)))) - b64 (a2 * sinf L (b64 (l - b64 (2 * d))))) + b64 (a3 * sinf L (b64 (2 * d)))) - b64 (a4 * sinf L lp)) - b64 (a5 * sinf L (b64 (2 * f)))) - b64 (a6 * sinf L (b64 (b64 (2 * l) - b64 (2 * d))))) - b64 (a7 * sinf L (b64 (b64 (l + lp) - b64 (2 * d))))) + b64 (a8 * sinf L (b64 (l + b64 (2 * d))))) - b64 (a9 * sinf L (b64 (lp - b64 (2 * d))))) + b64 (a10 * sinf L (b64 (l - lp)))) - b64 (a11 * sinf L d)) - b64 (a12 * sinf L (b64 (l + lp)))) - b64 (a13 * sinf L (b64 (b64 (2 * f) - b64 (2 * d))))).

(** celestial.py:302-323 *)
Definition moon_beta_b64 (L : libm) (l0 l lp f d lam : R) : R :=
  let a0 := seconds_to_radians_b64 18520 in
  let a1 := seconds_to_radians_b64 412 in
  let a2 := seconds_to_radians_b64 541 in
  let a3 := seconds_to_radians_b64 526 in
  let a4 := seconds_to_radians_b64 44 in
  let a5 := seconds_to_radians_b64 31 in
  let a6 := seconds_to_radians_b64 25 in
  let a7 := seconds_to_radians_b64 23 in
  let a8 := seconds_to_radians_b64 21 in
  let a9 := seconds_to_radians_b64 11 in
  b64 (b64 (b64 (b64 (b64 (b64 (b64 (b64 (a0 * sinf L (b64 (b64 (b64 (f + lam) - l0) + b64 (a1 * sinf L (b64 (b64 (2 * f) + b64 (a2 * sinf L lp))))))) - b64 (a3 * sinf L (b64 (f - b64 (2 * d))))) + b64 (a4 * sinf L (b64 (b64 (l + f) - b64 (2 * d))))) - b64 (a5 * sinf L (b64 (b64 (- l + f) - b64 (2 * d))))) - b64 (a6 * sinf L (b64 (b64 (-2 * l) + f)))) - b64 (a7 * sinf L (b64 (b64 (lp + f) - b64 (2 * d))))) + b64 (a8 * sinf L (b64 (- l + f)))) + b64 (a9 * sinf L (b64 (b64 (- lp + f) - b64 (2 * d))))).

(** celestial.py:325-336 *)
Definition moon_distance_b64 (L : libm) (l lp d : R) : R :=
  b64 (b64 (b64 (b64 (b64 (b64 (b64 (b64 (385000 - b64 (20905 * cosf L l)) - b64 (3699 * cosf L (b64 (b64 (2 * d) - l)))) - b64 (2956 * cosf L (b64 (2 * d)))) - b64 (570 * cosf L (b64 (2 * l)))) + b64 (246 * cosf L (b64 (b64 (2 * l) - b64 (2 * d))))) - b64 (205 * cosf L (b64 (lp - b64 (2 * d))))) - b64 (171 * cosf L (b64 (l + b64 (2 * d))))) - b64 (152 * cosf L (b64 (b64 (l + lp) - b64 (2 * d))))).

(** celestial.py:250-346 and linalg.py:315-325 *)
Definition Moon_get_position_b64 (L : libm) (v : R) : res vec3 :=
  let t := julian_centuries_b64 v in
  let l0 := moon_l0_b64 t in
  let l := moon_l_b64 t in
  let lp := moon_lp_b64 t in
  let f := moon_f_b64 t in
  let d := moon_d_b64 t in
  let lam := moon_lambda_b64 L l0 l lp f d in
  let beta := moon_beta_b64 L l0 l lp f d lam in
  let r := moon_distance_b64 L l lp d in
  let x := b64 (b64 (r * cosf L lam) * cosf L beta) in
  let y := b64 (b64 (r * sinf L lam) * cosf L beta) in
  let z := b64 (r * sinf L beta) in
  let* m := v3_rotation_matrix_b64 L (V3 1 0 0) OBLIQUITY_b64 in
  Ok (m3_multiply_vector_b64 m (V3 x y z)).
