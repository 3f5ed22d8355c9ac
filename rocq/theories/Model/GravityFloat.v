(** Non-spherical gravity and the state derivative with IEEE-754 binary64
    rounding of every operation (round to nearest even, gradual underflow;
    overflow is not modelled).  [tanf] is the C library's tangent. *)
From Coq Require Import Reals List.
From Verif.Model Require Import Num Constants Linalg Functions Time Celestial Positions States TimeFloat AngleFloat ElementsFloat FrameFloat GroundFloat EarthFloat BodyFloat ForceFloat.
Import ListNotations.
Local Open Scope R_scope.

(** celestial.py:15-52: every entry is a literal divided by a square root *)
Definition coefficient_b64 (c q : R) : R := b64 (b64 c / b64 (sqrt q)).

(** celestial.py:15-32 *)
Definition Earth_C_b64 : list (list R) :=
  [ [1];
    [0; 0];
    [ coefficient_b64 (-0.484165143790815e-3) (b64 0.2); coefficient_b64 (-0.206615509074176e-9) (b64 0.6);
      coefficient_b64 0.243938357328313e-5 (b64 2.4) ];
    [ coefficient_b64 0.957161207093473e-6 (b64 (1 / 7));
      coefficient_b64 0.203046201047864e-5 (b64 (6 / 7));
      coefficient_b64 0.904787894809528e-6 (b64 (60 / 7));
      coefficient_b64 0.721321757121568e-6 (b64 (360 / 7)) ];
    [ coefficient_b64 0.539965866638991e-6 (b64 (24 / 216));
      coefficient_b64 (-0.536157389388867e-6) (b64 (10 / 9));
      coefficient_b64 0.350501623962649e-6 20;
      coefficient_b64 0.990856766672321e-6 280;
      coefficient_b64 (-0.188519633023033e-6) 2240 ] ].

(** celestial.py:35-52 *)
Definition Earth_S_b64 : list (list R) :=
  [ [0];
    [0; 0];
    [0; coefficient_b64 0.138441389137979e-8 (b64 0.6); coefficient_b64 (-0.140027370385934e-5) (b64 2.4)];
    [ 0;
      coefficient_b64 0.248200415856872e-6 (b64 (6 / 7));
      coefficient_b64 (-0.619005475177618e-6) (b64 (60 / 7));
      coefficient_b64 0.141434926192941e-5 (b64 (360 / 7)) ];
    [ 0;
      coefficient_b64 (-0.473567346518086e-6) (b64 (10 / 9));
      coefficient_b64 0.662480026275829e-6 20;
      coefficient_b64 (-0.200956723567452e-6) 280;
      coefficient_b64 0.308803882149194e-6 2240 ] ].

(** functions.py:62-99 *)
Definition LegendrePolynomial_b64 (L : libm) (phi : R) : list (list R) :=
  let cos_phi := cosf L phi in
  let sin_phi := sinf L phi in
  let cos_phi_squared := b64 (cos_phi * cos_phi) in
  let sin_phi_squared := b64 (sin_phi * sin_phi) in
  [ [1; 0];
    [sin_phi; cos_phi; 0];
    [ b64 (b64 (b64 (3 * sin_phi_squared) - 1) * 0.5);
      b64 (b64 (3 * sin_phi) * cos_phi);
      b64 (3 * cos_phi_squared);
      0 ];
    [ b64 (b64 (sin_phi * b64 (b64 (5 * sin_phi_squared) - 3)) * 0.5);
      b64 (b64 (b64 (b64 (15 * sin_phi_squared) - 3) * cos_phi) * 0.5);
      b64 (b64 (15 * sin_phi) * cos_phi_squared);
      b64 (b64 (15 * cos_phi_squared) * cos_phi);
      0 ];
    [ b64 (0.125 * b64 (b64 (b64 (b64 (35 * sin_phi_squared) * sin_phi_squared) - b64 (30 * sin_phi_squared)) + 3));
      b64 (b64 (2.5 * b64 (b64 (b64 (7 * sin_phi_squared) * sin_phi) - b64 (3 * sin_phi))) * cos_phi);
      b64 (b64 (b64 (b64 (7 * sin_phi_squared) - 1) * cos_phi_squared) * 7.5);
      b64 (b64 (b64 (105 * cos_phi) * cos_phi_squared) * sin_phi);
      b64 (b64 (105 * cos_phi_squared) * cos_phi_squared);
      0 ] ].

(** states.py:168-176: body of the inner loop *)
Definition gravity_term_b64 (L : libm) (tanf : R -> R) (sphr : spherical) (p : list (list R)) (r_exponent : R)
    (n : nat) (acc : partials) (m : nat) : partials :=
  let clam := cosf L (b64 (of_nat m * right_ascension sphr)) in
  let slam := sinf L (b64 (of_nat m * right_ascension sphr)) in
  let cs := b64 (b64 (index2 Earth_C_b64 n m * clam) + b64 (index2 Earth_S_b64 n m * slam)) in
  Partials
    (b64 (partial_r acc + b64 (b64 (b64 (r_exponent * (of_nat n + 1)) * index2 p n m) * cs)))
    (b64 (partial_phi acc
     + b64 (b64 (r_exponent
       * b64 (index2 p n (m + 1) - b64 (b64 (of_nat m * tanf (declination sphr)) * index2 p n m)))
       * cs)))
    (b64 (partial_lamb acc
     + b64 (b64 (b64 (r_exponent * of_nat m) * index2 p n m)
       * b64 (b64 (index2 Earth_S_b64 n m * clam) - b64 (index2 Earth_C_b64 n m * slam))))).

(** states.py:164-180 *)
Definition gravity_sums_b64 (L : libm) (tanf : R -> R) (sphr : spherical) (p : list (list R)) (r_over_r : R) : partials :=
  fold_left
    (fun acc n =>
       let r_exponent := powf L r_over_r (of_nat n) in
       fold_left (gravity_term_b64 L tanf sphr p r_exponent n) (seq 0 (n + 1)) acc)
    (seq 2 (length Earth_S_b64 - 2))
    (Partials 0 0 0).

(** states.py:147-193 *)
Definition gravity_ecef_b64 (L : libm) (tanf : R -> R) (ecef : vec3) (r_mag : R) : res vec3 :=
  let sphr := spherical_from_cartesian_b64 L ecef in
  let p := LegendrePolynomial_b64 L (declination sphr) in
  let* recip_r := pdiv_b64 1 r_mag in
  let mu_over_r := b64 (MU_b64 * recip_r) in
  let r_over_r := b64 (b64 Earth_RADIUS * recip_r) in
  let* recip_root := pdiv_b64 1 (b64 (sqrt (b64 (b64 (x3 ecef * x3 ecef) + b64 (y3 ecef * y3 ecef))))) in
  let rz_over_root := b64 (b64 (b64 (z3 ecef * recip_r) * recip_r) * recip_root) in
  let sums := gravity_sums_b64 L tanf sphr p r_over_r in
  let pr := b64 (partial_r sums * b64 (- recip_r * mu_over_r)) in
  let pphi := b64 (partial_phi sums * mu_over_r) in
  let plamb := b64 (partial_lamb sums * mu_over_r) in
  let* root := pdiv_b64 1 recip_root in
  Ok (V3 (b64 (b64 (b64 (b64 (recip_r * pr) - b64 (rz_over_root * pphi)) * x3 ecef)
               - b64 (b64 (b64 (recip_root * recip_root) * plamb) * y3 ecef)))
         (b64 (b64 (b64 (b64 (recip_r * pr) - b64 (rz_over_root * pphi)) * y3 ecef)
               + b64 (b64 (b64 (recip_root * recip_root) * plamb) * x3 ecef)))
         (b64 (b64 (b64 (recip_r * pr) * z3 ecef) + b64 (b64 (b64 (root * recip_r) * recip_r) * pphi)))).

(** states.py:140-195 *)
Definition acceleration_from_gravity_b64 (L : libm) (tanf : R -> R) (s : gcrf) : res vec3 :=
  let* ecef := gcrf_to_itrf_b64 L (g_position s) (value (g_epoch s)) in
  let* a := gravity_ecef_b64 L tanf ecef (v3_magnitude_b64 (g_position s)) in
  itrf_to_gcrf_b64 L a (value (g_epoch s)).

(** states.py:253-266 *)
Definition derivative_b64 (L : libm) (tanf : R -> R) (s : gcrf) : res (vec3 * vec3) :=
  let net_a := acceleration_from_thrust s in
  let* ae := acceleration_from_earth_b64 s in
  let net_a := v3_plus_b64 net_a ae in
  let* net_a :=
    if g_use_perturbations s then
      let* am := acceleration_from_moon_b64 L s in
      let net_a := v3_plus_b64 net_a am in
      let* asn := acceleration_from_sun_b64 L s in
      let net_a := v3_plus_b64 net_a asn in
      let* asrp := acceleration_from_srp_b64 L s in
      let net_a := v3_plus_b64 net_a asrp in
      let* ag := acceleration_from_gravity_b64 L tanf s in
      Ok (v3_plus_b64 net_a ag)
    else Ok net_a in
  Ok (v3_copy (g_velocity s), net_a).
