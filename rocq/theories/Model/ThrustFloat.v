(** Thrust acceleration with IEEE-754 binary64 rounding of every operation (round
    to nearest even, gradual underflow; overflow is not modelled). *)
From Coq Require Import Reals.
From Verif.Model Require Import Num Constants Linalg TimeFloat ElementsFloat GroundFloat.
Local Open Scope R_scope.

(** [math.log]; [logf] is the function of the C library *)
Definition plog_b64 (logf : R -> R) (x : R) : res R := if nle x 0 then Err ValueError else Ok (logf x).

(** inertial.py:129-148 for the thruster settings [d] ([thrust_direction]),
    [m_dot], [m0] and [isp] *)
Definition thrust_vector_b64 (logf : R -> R) (d : vec3) (m_dot m0 isp dt : R) : res vec3 :=
  if neq m_dot 0 then Ok (V3 0 0 0)
  else if neq dt 0 then
    let* dir := v3_normalized_b64 d in
    let* k := pdiv_b64 (b64 (b64 (m_dot * isp) * b64 SEA_LEVEL_G)) m0 in
    Ok (v3_scaled_b64 dir k)
  else
    let* q := pdiv_b64 (b64 (m_dot * dt)) m0 in
    let* ln := plog_b64 logf (b64 (1 - q)) in
    let mt := b64 (m0 - b64 (m_dot * dt)) in
    let f := b64 (b64 (m_dot * isp) * b64 SEA_LEVEL_G) in
    let* dir := v3_normalized_b64 d in
    let* fm := pdiv_b64 (- f) m_dot in
    let dv := v3_scaled_b64 dir (b64 (fm * ln)) in
    let* rate := pdiv_b64 m_dot mt in
    let* q' := pdiv_b64 (b64 (m_dot * dt)) m0 in
    let* ln' := plog_b64 logf (b64 (1 - q')) in
    let* recip := pdiv_b64 1 (- ln') in
    Ok (v3_scaled_b64 dv (b64 (rate * recip))).
