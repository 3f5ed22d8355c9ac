(** Accelerations of a spacecraft with IEEE-754 binary64 rounding of every
    operation (round to nearest even, gradual underflow; overflow is not
    modelled). *)
From Coq Require Import Reals.
From Verif.Model Require Import Num Constants Linalg Time Celestial States TimeFloat AngleFloat ElementsFloat FrameFloat GroundFloat EarthFloat BodyFloat.
Local Open Scope R_scope.

(** states.py:197-205 *)
Definition acceleration_from_earth_b64 (s : gcrf) : res vec3 :=
  let r_mag := v3_magnitude_b64 (g_position s) in
  let* k := pdiv_b64 (- MU_b64) (b64 (b64 (r_mag * r_mag) * r_mag)) in
  Ok (v3_scaled_b64 (g_position s) k).

(** states.py:214-219 and 228-233 *)
Definition third_body_b64 (mu : R) (s position : vec3) : res vec3 :=
  let r := v3_minus_b64 s position in
  let r_mag := v3_magnitude_b64 r in
  let s_mag := v3_magnitude_b64 s in
  let* k1 := pdiv_b64 1 (b64 (b64 (r_mag * r_mag) * r_mag)) in
  let vec_1 := v3_scaled_b64 r k1 in
  let* k2 := pdiv_b64 1 (b64 (b64 (s_mag * s_mag) * s_mag)) in
  let vec_2 := v3_scaled_b64 s k2 in
  Ok (v3_scaled_b64 (v3_minus_b64 vec_1 vec_2) (b64 mu)).

(** states.py:207-219 *)
Definition acceleration_from_moon_b64 (L : libm) (s : gcrf) : res vec3 :=
  let* m := Moon_get_position_b64 L (value (g_epoch s)) in
  third_body_b64 Moon_MU m (g_position s).

(** states.py:221-233 *)
Definition acceleration_from_sun_b64 (L : libm) (s : gcrf) : res vec3 :=
  third_body_b64 Sun_MU (Sun_get_position_b64 L (value (g_epoch s))) (g_position s).

(** states.py:268-274 *)
Definition gcrf_sun_vector_b64 (L : libm) (s : gcrf) : vec3 :=
  v3_minus_b64 (Sun_get_position_b64 L (value (g_epoch s))) (g_position s).

(** states.py:235-243; 1000 is exact *)
Definition acceleration_from_srp_b64 (L : libm) (s : gcrf) : res vec3 :=
  let* sun_vec := v3_normalized_b64 (gcrf_sun_vector_b64 L s) in
  let s_mag := v3_magnitude_b64 sun_vec in
  let* k := pdiv_b64 (b64 (- b64 Sun_P * g_srp_scalar s)) (b64 (b64 (s_mag * s_mag) * BASE_IN_KILO)) in
  Ok (v3_scaled_b64 sun_vec k).
