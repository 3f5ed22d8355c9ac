(** A coasting step of the inertial propagator with IEEE-754 binary64 rounding
    of every operation (round to nearest even, gradual underflow; overflow is
    not modelled). *)
From Coq Require Import Reals ZArith.
From Verif.Model Require Import Num Constants Linalg Time States Inertial TimeFloat GroundFloat ElementsFloat AngleFloat FrameFloat BodyFloat ForceFloat GravityFloat.
Local Open Scope R_scope.

(** inertial.py:67-68: [k1 + (2 k2 + (2 k3 + k4))], times 1/6 *)
Definition rk_average_b64 (k1 k2 k3 k4 : vec3) : vec3 :=
  v3_scaled_b64 (v3_plus_b64 k1 (v3_plus_b64 (v3_scaled_b64 k2 2) (v3_plus_b64 (v3_scaled_b64 k3 2) k4))) (b64 (1 / 6)).

(** inertial.py:53, 57, 62: an intermediate state; its thrust (54, 58, 63) is
    the zero vector, which [GCRF] sets already *)
Definition stage_b64 (t : R) (r v : vec3) (k : vec3 * vec3) (dt : R) : gcrf :=
  GCRF (Epoch t) (v3_plus_b64 r (v3_scaled_b64 (fst k) dt)) (v3_plus_b64 v (v3_scaled_b64 (snd k) dt)).

(** inertial.py:39-74 with the thruster shut ([m_dot] zero, so that
    [thrust_vector] returns the zero vector, inertial.py:129-148); [h] is [step_size] and
    the result the new [self.state].  [plus_days] (time.py:85-97) adds to the
    value of the epoch. *)
Definition coast_step_b64 (L : libm) (tanf : R -> R) (h : R) (s : gcrf) : res gcrf :=
  let epoch_0 := value (g_epoch s) in
  let s := set_thrust s (V3 0 0 0) in
  let '(r, v) := gcrf_vector_list s in
  let* k1 := derivative_b64 L tanf s in
  let dsecs := b64 (h / 2) in
  let ddays := b64 (dsecs / 86400) in
  let epoch_1 := b64 (epoch_0 + ddays) in
  let* k2 := derivative_b64 L tanf (stage_b64 epoch_1 r v k1 dsecs) in
  let* k3 := derivative_b64 L tanf (stage_b64 epoch_1 r v k2 dsecs) in
  let epoch_2 := b64 (epoch_1 + ddays) in
  let* k4 := derivative_b64 L tanf (stage_b64 epoch_2 r v k3 h) in
  let dv := rk_average_b64 (fst k1) (fst k2) (fst k3) (fst k4) in
  let da := rk_average_b64 (snd k1) (snd k2) (snd k3) (snd k4) in
  Ok (GCRF (Epoch epoch_2)
        (v3_plus_b64 (g_position s) (v3_scaled_b64 dv h))
        (v3_plus_b64 (g_velocity s) (v3_scaled_b64 da h))).

(** [n] calls of [step] in a row *)
Fixpoint coast_steps_b64 (L : libm) (tanf : R -> R) (h : R) (n : nat) (s : gcrf) : res gcrf :=
  match n with
  | O => Ok s
  | S k => let* s' := coast_steps_b64 L tanf h k s in coast_step_b64 L tanf h s'
  end.

(** inertial.py:100-127 with the thruster shut: the state that [step_to_epoch]
    leaves behind.  [MAX_STEP] is an integer, [ceil] and the conversion of
    [num_steps] to a float are exact, and the step size is not used when there is
    no step *)
Definition coast_to_b64 (L : libm) (tanf : R -> R) (e : epoch) (s : gcrf) : res gcrf :=
  let dt := b64 (b64 (value e - value (g_epoch s)) * 86400) in
  let num_steps := nceil (nabs (b64 (dt / MAX_STEP))) in
  coast_steps_b64 L tanf (b64 (dt / of_Z num_steps)) (Z.to_nat num_steps) s.
