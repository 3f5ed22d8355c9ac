(** Kepler's equation and the state from classical elements with IEEE-754 binary64 rounding
    of every operation (round to nearest even, gradual underflow). *)
From Coq Require Import Reals Bool.
From Verif.Model Require Import Num Linalg States Elements TimeFloat AngleFloat ElementsFloat.
Local Open Scope R_scope.

(** functions.py:696, the literal as Python stores it *)
Definition EA_TOLERANCE_b64 : R := b64 1e-12.

(** functions.py:725-728: the starting value *)
Definition EA_start_b64 (ma e : R) : R :=
  if orb (andb (nlt (- math_pi) ma) (nlt ma 0)) (nlt math_pi ma) then b64 (ma - e) else b64 (ma + e).

(** functions.py:731: one iteration, from [ea0] to [ean] *)
Definition EA_next_b64 (L : libm) (ma e ea0 : R) : res R :=
  let* q := pdiv_b64 (b64 (b64 (ma - ea0) + b64 (e * sinf L ea0))) (b64 (1 - b64 (e * cosf L ea0))) in
  Ok (b64 (ea0 + q)).

(** functions.py:730-735: the while loop; returns the last [ean] *)
Fixpoint EA_loop_b64 (L : libm) (fuel : nat) (ma e ea0 : R) : res R :=
  match fuel with
  | O => Err OutOfFuel
  | S fuel =>
      let* ean := EA_next_b64 L ma e ea0 in
      if nlt (nabs (b64 (ean - ea0))) EA_TOLERANCE_b64 then Ok ean
      else EA_loop_b64 L fuel ma e ean
  end.

(** functions.py:698-739; 737-738 is the wrap shared with the other anomalies *)
Definition EA_from_ma_e_b64 (L : libm) (fuel : nat) (ma e : R) : res R :=
  let* ean := EA_loop_b64 L fuel ma e (EA_start_b64 ma e) in
  Ok (wrap_b64 ean).

(** elements.py:79-90 *)
Definition perigee_vector_b64 (L : libm) (el : elements) : res vec3 :=
  let cw := cosf L (argument_of_perigee el) in
  let c0 := cosf L (raan el) in
  let sw := sinf L (argument_of_perigee el) in
  let s0 := sinf L (raan el) in
  let ci := cosf L (inclination el) in
  v3_normalized_b64 (V3 (b64 (b64 (cw * c0) - b64 (b64 (sw * ci) * s0)))
                        (b64 (b64 (cw * s0) + b64 (b64 (sw * ci) * c0)))
                        (b64 (sw * sinf L (inclination el)))).

(** elements.py:92-105 *)
Definition semilatus_rectum_vector_b64 (L : libm) (el : elements) : vec3 :=
  let cw := cosf L (argument_of_perigee el) in
  let c0 := cosf L (raan el) in
  let sw := sinf L (argument_of_perigee el) in
  let s0 := sinf L (raan el) in
  let ci := cosf L (inclination el) in
  V3 (b64 (b64 (- sw * c0) - b64 (b64 (cw * ci) * s0)))
     (b64 (b64 (- sw * s0) + b64 (b64 (cw * ci) * c0)))
     (b64 (cw * sinf L (inclination el))).

(** linalg.py:247-255 scaled and 191-199 plus *)
Definition v3_scaled_b64 (a : vec3) (k : R) : vec3 := V3 (b64 (x3 a * k)) (b64 (y3 a * k)) (b64 (z3 a * k)).
Definition v3_plus_b64 (a b : vec3) : vec3 := V3 (b64 (x3 a + x3 b)) (b64 (y3 a + y3 b)) (b64 (z3 a + z3 b)).

(** elements.py:107-131, with 71-77 for the eccentric anomaly *)
Definition elements_to_ijk_b64 (L : libm) (fuel : nat) (el : elements) : res state :=
  let* p := perigee_vector_b64 L el in
  let q := semilatus_rectum_vector_b64 L el in
  let a := semimajor_axis el in
  let e := eccentricity el in
  let* ea := EA_from_ma_e_b64 L fuel (mean_anomaly el) e in
  let cea := cosf L ea in
  let sea := sinf L ea in
  let r := b64 (a * b64 (1 - b64 (e * cea))) in
  let* recip_r := pdiv_b64 1 r in
  let* mu_a := pdiv_b64 MU_b64 a in
  let* root := psqrt_b64 mu_a in
  let ea_dot := b64 (recip_r * root) in
  let* sb := psqrt_b64 (b64 (1 - b64 (e * e))) in
  let b := b64 (a * sb) in
  let x_bar := b64 (a * b64 (cea - e)) in
  let y_bar := b64 (b * sea) in
  let x_bar_dot := b64 (b64 (- a * ea_dot) * sea) in
  let y_bar_dot := b64 (b64 (b * ea_dot) * cea) in
  Ok (State (el_epoch el)
        (v3_plus_b64 (v3_scaled_b64 p x_bar) (v3_scaled_b64 q y_bar))
        (v3_plus_b64 (v3_scaled_b64 p x_bar_dot) (v3_scaled_b64 q y_bar_dot))).
