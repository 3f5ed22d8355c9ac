(** Spherical coordinates and ground observations with IEEE-754 binary64
    rounding of every operation (round to nearest even, gradual underflow;
    overflow and signed zeros are not modelled). *)
From Coq Require Import Reals.
From Verif.Model Require Import Num Linalg Time Celestial Positions States Obs Terrestrial TimeFloat AngleFloat ElementsFloat PositionsFloat FrameFloat.
Local Open Scope R_scope.

(** positions.py:29-42; [wrap_b64] is the addition of [2 * pi] to a negative angle *)
Definition spherical_from_cartesian_b64 (L : libm) (pos : vec3) : spherical :=
  let ra := wrap_b64 (atan2f L (y3 pos) (x3 pos)) in
  let dec := atan2f L (z3 pos) (b64 (sqrt (b64 (b64 (x3 pos * x3 pos) + b64 (y3 pos * y3 pos))))) in
  Spherical (v3_magnitude_b64 pos) ra dec.

(** linalg.py:247-254 *)
Definition v3_scaled_b64 (v : vec3) (k : R) : vec3 := V3 (b64 (x3 v * k)) (b64 (y3 v * k)) (b64 (z3 v * k)).

(** positions.py:44-53 *)
Definition spherical_to_cartesian_b64 (L : libm) (s : spherical) : vec3 :=
  let cd := cosf L (declination s) in
  v3_scaled_b64 (V3 (b64 (cd * cosf L (right_ascension s))) (b64 (cd * sinf L (right_ascension s)))
                    (sinf L (declination s)))
                (radius s).

(** positions.py:57-77; negation is exact *)
Definition ENZ_matrix_b64 (L : libm) (lamb psi : R) : mat3 :=
  let slamb := sinf L lamb in
  let clamb := cosf L lamb in
  let spsi := sinf L psi in
  let cpsi := cosf L psi in
  M3 (V3 (- slamb) clamb 0)
     (V3 (b64 (- spsi * clamb)) (b64 (- spsi * slamb)) cpsi)
     (V3 (b64 (cpsi * clamb)) (b64 (cpsi * slamb)) spsi).

(** positions.py:283-304 *)
Definition lla_to_itrf_b64 (L : libm) (l : lla) : res vec3 :=
  let lat := latitude l in
  let longit := longitude l in
  let alt := altitude l in
  let f := FLATTENING_b64 in
  let* e := psqrt_b64 (b64 (f * b64 (2 - f))) in
  let slat := sinf L lat in
  let clat := cosf L lat in
  let* root := psqrt_b64 (b64 (1 - b64 (b64 (b64 (e * e) * slat) * slat))) in
  let* n := pdiv_b64 RADIUS_b64 root in
  Ok (V3 (b64 (b64 (b64 (n + alt) * clat) * cosf L longit))
         (b64 (b64 (b64 (n + alt) * clat) * sinf L longit))
         (b64 (b64 (b64 (n * b64 (1 - b64 (e * e))) + alt) * slat))).

(** positions.py:310-321 *)
Definition enz_to_itrf_b64 (L : libm) (l : lla) (enz : vec3) : vec3 :=
  m3_multiply_vector_b64 (m3_transpose (ENZ_matrix_b64 L (longitude l) (latitude l))) enz.

(** linalg.py:181-213 plus and minus *)
Definition v3_plus_b64 (a b : vec3) : vec3 := V3 (b64 (x3 a + x3 b)) (b64 (y3 a + y3 b)) (b64 (z3 a + z3 b)).
Definition v3_minus_b64 (a b : vec3) : vec3 := V3 (b64 (x3 a - x3 b)) (b64 (y3 a - y3 b)) (b64 (z3 a - z3 b)).

(** terrestrial.py:9-24 *)
Definition GroundSite_b64 (L : libm) (l : lla) : res site :=
  let* p := lla_to_itrf_b64 L l in
  Ok (mkSite p (latitude l) (longitude l) (ENZ_matrix_b64 L (longitude l) (latitude l))).

(** terrestrial.py:37-45 *)
Definition enz_position_b64 (s : site) (obj_itrf : vec3) : vec3 :=
  m3_multiply_vector_b64 (enz_matrix s) (v3_minus_b64 obj_itrf (itrf_position s)).

(** obs.py:77-112 *)
Definition GroundObservation_b64 (L : libm) (observer : state) (dir : vec3) (r_error ang_error : R) : ground_obs :=
  let sph := spherical_from_cartesian_b64 L (V3 (y3 dir) (x3 dir) (z3 dir)) in
  mkGroundObs (state_copy observer) (v3_copy dir)
    (radius sph) (right_ascension sph) (declination sph) r_error ang_error.

(** obs.py:114-137 *)
Definition from_angles_and_range_b64 (L : libm) (observer : state) (az el r r_error ang_error : R) : ground_obs :=
  let nez := spherical_to_cartesian_b64 L (Spherical r az el) in
  let enz := V3 (y3 nez) (x3 nez) (z3 nez) in
  GroundObservation_b64 L observer enz r_error ang_error.
