(** Model of src/openspace/coordinates/states.py. *)
From Verif.Model Require Import Num Constants Linalg Functions Time Celestial Positions.
Local Open Scope R_scope.

(** states.py:12-33 class State, and its subclasses ITRF (48-59), HCW (75-86)
    and IJK (285-296) that add no attribute.  The attribute [vector] is computed
    once by the constructor from position and velocity, and no code assigns any
    of the three afterwards; it is therefore the function [state_vector]. *)
Record state := State { s_epoch : epoch; s_position : vec3; s_velocity : vec3 }.

(** states.py:33 *)
Definition state_vector (s : state) : vec6 :=
  v6_from_position_and_velocity (s_position s) (s_velocity s).

(** states.py:35-37 for ITRF, HCW and IJK *)
Definition state_copy (s : state) : state :=
  State (s_epoch s) (s_position s) (s_velocity s).

(** states.py:61-72 *)
Definition ITRF_from_fixed (e : epoch) (r : vec3) : state := State e r (V3 0 0 0).

(** states.py:88-101 *)
Definition HCW_from_state_vector (v : vec6) : state :=
  State (Epoch 0) (V3 (x6 v) (y6 v) (z6 v)) (V3 (vx6 v) (vy6 v) (vz6 v)).

(** states.py:118-138 class GCRF *)
Record gcrf := Gcrf { g_epoch : epoch; g_position : vec3; g_velocity : vec3;
                      g_thrust : vec3; g_srp_scalar : num; g_use_perturbations : bool }.

(** states.py:119-138 GCRF.__init__ *)
Definition GCRF (e : epoch) (r v : vec3) : gcrf := Gcrf e r v (V3 0 0 0) 0 true.

(** states.py:35-37 [type(self)(self.epoch, self.position, self.velocity)] for GCRF *)
Definition gcrf_copy (s : gcrf) : gcrf := GCRF (g_epoch s) (g_position s) (g_velocity s).

(** states.py:39-45 *)
Definition gcrf_vector_list (s : gcrf) : vec3 * vec3 := (g_position s, g_velocity s).

(** Attribute assignments [s.thrust = t], [s.srp_scalar = k],
    [s.use_perturbations = b]. *)
Definition set_thrust (s : gcrf) (t : vec3) : gcrf :=
  Gcrf (g_epoch s) (g_position s) (g_velocity s) t (g_srp_scalar s) (g_use_perturbations s).
Definition set_srp_scalar (s : gcrf) (k : num) : gcrf :=
  Gcrf (g_epoch s) (g_position s) (g_velocity s) (g_thrust s) k (g_use_perturbations s).
Definition set_use_perturbations (s : gcrf) (b : bool) : gcrf :=
  Gcrf (g_epoch s) (g_position s) (g_velocity s) (g_thrust s) (g_srp_scalar s) b.

(** states.py:103-115 *)
Definition HCW_frame_matrix (origin : gcrf) : res mat3 :=
  let* r := v3_normalized (g_position origin) in
  let* c := v3_normalized (v3_cross (g_position origin) (g_velocity origin)) in
  let i := v3_cross c r in
  Ok (M3 r i c).

(** states.py:153-155: the three running sums of the gravity loop *)
Record partials := Partials { partial_r : num; partial_phi : num; partial_lamb : num }.

(** List indexing [l[n][m]].  The loops keep [n], [m] inside the tables, so the
    IndexError branch is left out. *)
Definition index2 (l : list (list num)) (n m : nat) : num := nth m (nth n l []) 0.

(** states.py:168-176: body of the inner loop *)
Definition gravity_term (sphr : spherical) (p : list (list num)) (r_exponent : num)
    (n : nat) (acc : partials) (m : nat) : partials :=
  let clam := cos (of_nat m * right_ascension sphr) in
  let slam := sin (of_nat m * right_ascension sphr) in
  let cs := index2 Earth_C n m * clam + index2 Earth_S n m * slam in
  Partials
    (partial_r acc + r_exponent * (of_nat n + 1) * index2 p n m * cs)
    (partial_phi acc
     + r_exponent
       * (index2 p n (m + 1) - of_nat m * tan (declination sphr) * index2 p n m)
       * cs)
    (partial_lamb acc
     + r_exponent * of_nat m * index2 p n m
       * (index2 Earth_S n m * clam - index2 Earth_C n m * slam)).

(** states.py:164-180: the two nested loops, [n] from 2 below
    [Earth.DEGREE_AND_ORDER], [m] from 0 to [n] *)
Definition gravity_sums (sphr : spherical) (p : list (list num)) (r_over_r : num) : partials :=
  fold_left
    (fun acc n =>
       let r_exponent := npow r_over_r n in
       fold_left (gravity_term sphr p r_exponent n) (seq 0 (n + 1)) acc)
    (seq 2 (Earth_DEGREE_AND_ORDER - 2))
    (Partials 0 0 0).

(** states.py:147-193: the Earth-fixed acceleration, given the Earth-fixed
    position and the magnitude of the inertial position *)
Definition gravity_ecef (ecef : vec3) (r_mag : num) : res vec3 :=
  let sphr := spherical_from_cartesian ecef in
  let p := LegendrePolynomial (declination sphr) in
  let* recip_r := pdiv 1 r_mag in
  let mu_over_r := Earth_MU * recip_r in
  let r_over_r := Earth_RADIUS * recip_r in
  let* recip_root := pdiv 1 (sqrt (x3 ecef * x3 ecef + y3 ecef * y3 ecef)) in
  let rz_over_root := z3 ecef * recip_r * recip_r * recip_root in
  let sums := gravity_sums sphr p r_over_r in
  let pr := partial_r sums * (- recip_r * mu_over_r) in
  let pphi := partial_phi sums * mu_over_r in
  let plamb := partial_lamb sums * mu_over_r in
  let* root := pdiv 1 recip_root in
  Ok (V3 ((recip_r * pr - rz_over_root * pphi) * x3 ecef
          - (recip_root * recip_root * plamb) * y3 ecef)
         ((recip_r * pr - rz_over_root * pphi) * y3 ecef
          + (recip_root * recip_root * plamb) * x3 ecef)
         (recip_r * pr * z3 ecef + root * recip_r * recip_r * pphi)).

(** states.py:140-195 *)
Definition acceleration_from_gravity (s : gcrf) : res vec3 :=
  let* ecef := gcrf_to_itrf (g_position s) (g_epoch s) in
  let* a := gravity_ecef ecef (v3_magnitude (g_position s)) in
  itrf_to_gcrf a (g_epoch s).

(** states.py:197-205 *)
Definition acceleration_from_earth (s : gcrf) : res vec3 :=
  let r_mag := v3_magnitude (g_position s) in
  let* k := pdiv (- Earth_MU) (r_mag * r_mag * r_mag) in
  Ok (v3_scaled (g_position s) k).

(** states.py:214-219 and 228-233: the third-body formula shared by the two
    methods below *)
Definition third_body (mu : num) (s position : vec3) : res vec3 :=
  let r := v3_minus s position in
  let r_mag := v3_magnitude r in
  let s_mag := v3_magnitude s in
  let* k1 := pdiv 1 (r_mag * r_mag * r_mag) in
  let vec_1 := v3_scaled r k1 in
  let* k2 := pdiv 1 (s_mag * s_mag * s_mag) in
  let vec_2 := v3_scaled s k2 in
  Ok (v3_scaled (v3_minus vec_1 vec_2) mu).

(** states.py:207-219 *)
Definition acceleration_from_moon (s : gcrf) : res vec3 :=
  let* m := Moon_get_position (g_epoch s) in
  third_body Moon_MU m (g_position s).

(** states.py:221-233 *)
Definition acceleration_from_sun (s : gcrf) : res vec3 :=
  third_body Sun_MU (Sun_get_position (g_epoch s)) (g_position s).

(** states.py:268-274 *)
Definition gcrf_sun_vector (s : gcrf) : vec3 :=
  v3_minus (Sun_get_position (g_epoch s)) (g_position s).

(** states.py:276-282 *)
Definition gcrf_moon_vector (s : gcrf) : res vec3 :=
  let* m := Moon_get_position (g_epoch s) in
  Ok (v3_minus m (g_position s)).

(** states.py:235-243 *)
Definition acceleration_from_srp (s : gcrf) : res vec3 :=
  let* sun_vec := v3_normalized (gcrf_sun_vector s) in
  let s_mag := v3_magnitude sun_vec in
  let* k := pdiv (- Sun_P * g_srp_scalar s) (s_mag * s_mag * BASE_IN_KILO) in
  Ok (v3_scaled sun_vec k).

(** states.py:245-251 *)
Definition acceleration_from_thrust (s : gcrf) : vec3 := v3_copy (g_thrust s).

(** states.py:253-266 *)
Definition derivative (s : gcrf) : res (vec3 * vec3) :=
  let net_a := acceleration_from_thrust s in
  let* ae := acceleration_from_earth s in
  let net_a := v3_plus net_a ae in
  let* net_a :=
    if g_use_perturbations s then
      let* am := acceleration_from_moon s in
      let net_a := v3_plus net_a am in
      let* asn := acceleration_from_sun s in
      let net_a := v3_plus net_a asn in
      let* asrp := acceleration_from_srp s in
      let net_a := v3_plus net_a asrp in
      let* ag := acceleration_from_gravity s in
      Ok (v3_plus net_a ag)
    else Ok net_a in
  Ok (v3_copy (g_velocity s), net_a).

(** states.py:330-334 and 374-378 *)
Definition rsw_sez_matrix (sinphi cosphi sinlambda coslambda : num) : mat3 :=
  M3 (V3 (sinphi * coslambda) (sinphi * sinlambda) (- cosphi))
     (V3 (- sinlambda) coslambda 0)
     (V3 (cosphi * coslambda) (cosphi * sinlambda) sinphi).

(** states.py:302-346 *)
Definition gcrf_to_hcw (origin st : gcrf) : res state :=
  let magrtgt := v3_magnitude (g_position origin) in
  let magrint := v3_magnitude (g_position st) in
  let* rot_eci_rsw := HCW_frame_matrix origin in
  let vtgtrsw := m3_multiply_vector rot_eci_rsw (g_velocity origin) in
  let rintrsw := m3_multiply_vector rot_eci_rsw (g_position st) in
  let vintrsw := m3_multiply_vector rot_eci_rsw (g_velocity st) in
  let* sinphiint := pdiv (z3 rintrsw) magrint in
  let* phiint := pasin sinphiint in
  let cosphiint := cos phiint in
  let lambdaint := atan2 (y3 rintrsw) (x3 rintrsw) in
  let sinlambdaint := sin lambdaint in
  let coslambdaint := cos lambdaint in
  let* lambdadottgt := pdiv (y3 vtgtrsw) magrtgt in
  let r_hcw := V3 (magrint - magrtgt) (lambdaint * magrtgt) (phiint * magrtgt) in
  let rot_rsw_sez := rsw_sez_matrix sinphiint cosphiint sinlambdaint coslambdaint in
  let vintsez := m3_multiply_vector rot_rsw_sez vintrsw in
  let* phidotint := pdiv (- x3 vintsez) magrint in
  let* lambdadotint := pdiv (y3 vintsez) (magrint * cosphiint) in
  let v_hcw := V3 (z3 vintsez - x3 vtgtrsw)
                  (magrtgt * (lambdadotint - lambdadottgt))
                  (magrtgt * phidotint) in
  Ok (State (g_epoch origin) r_hcw v_hcw).

(** states.py:352-395 *)
Definition hcw_to_gcrf (st : state) (origin : gcrf) : res gcrf :=
  let magrtgt := v3_magnitude (g_position origin) in
  let magrint := magrtgt + x3 (s_position st) in
  let* rot_eci_rsw := HCW_frame_matrix origin in
  let vtgtrsw := m3_multiply_vector rot_eci_rsw (g_velocity origin) in
  let* lambdadottgt := pdiv (y3 vtgtrsw) magrtgt in
  let* lambdaint := pdiv (y3 (s_position st)) magrtgt in
  let* phiint := pdiv (z3 (s_position st)) magrtgt in
  let sinphiint := sin phiint in
  let cosphiint := cos phiint in
  let sinlambdaint := sin lambdaint in
  let coslambdaint := cos lambdaint in
  let rot_rsw_sez := rsw_sez_matrix sinphiint cosphiint sinlambdaint coslambdaint in
  let rdotint := x3 (s_velocity st) + x3 vtgtrsw in
  let* ydot := pdiv (y3 (s_velocity st)) magrtgt in
  let lambdadotint := ydot + lambdadottgt in
  let* phidotint := pdiv (z3 (s_velocity st)) magrtgt in
  let vintsez := V3 (- magrint * phidotint) (magrint * lambdadotint * cosphiint) rdotint in
  let vintrsw := m3_multiply_vector (m3_transpose rot_rsw_sez) vintsez in
  let vinteci := m3_multiply_vector (m3_transpose rot_eci_rsw) vintrsw in
  let rintrsw := V3 (cosphiint * magrint * coslambdaint)
                    (cosphiint * magrint * sinlambdaint)
                    (sinphiint * magrint) in
  let rinteci := m3_multiply_vector (m3_transpose rot_eci_rsw) rintrsw in
  Ok (GCRF (g_epoch origin) rinteci vinteci).
