(** Duration of a burn with IEEE-754 binary64 rounding of every operation (round
    to nearest even, gradual underflow; overflow is not modelled). *)
From Coq Require Import Reals.
From Verif.Model Require Import Num Constants Linalg TimeFloat ElementsFloat.
Local Open Scope R_scope.

(** inertial.py:88-91 for the thrust vector [d]; [math.e] is the binary64 number
    nearest to e, and [**] calls the C library *)
Definition burn_duration_b64 (L : libm) (d : vec3) (m_dot m0 isp : R) : res R :=
  let* m_spec := pdiv_b64 m_dot m0 in
  let* recip := pdiv_b64 1 m_spec in
  let* ex := pdiv_b64 (b64 (m_spec * v3_magnitude_b64 d)) (b64 (b64 (- isp * m_spec) * b64 SEA_LEVEL_G)) in
  Ok (b64 (recip * b64 (1 - powf L (b64 (exp 1)) ex))).
