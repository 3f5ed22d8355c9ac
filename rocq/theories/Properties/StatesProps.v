(** Properties C24, C29-C34 and C72: forces, Hill frame, state conversions. *)
From Coq Require Import Reals Lra.
From Verif.Model Require Import Num Linalg Celestial Positions States.
From Verif.Spec Require Import Geometry Gravity Forces.
From Verif.Proofs Require Import LinalgProofs Analysis GeodeticProofs GravityProofs StatesProofs.
Local Open Scope R_scope.

(** * C24 Point-mass accelerations *)

Theorem C24_earth : forall s, g_position s <> zero3 ->
  acceleration_from_earth s = Ok (attraction mu_earth (sub zero3 (g_position s))).
Proof. exact earth_ok. Qed.
Print Assumptions C24_earth.

Theorem C24_earth_centre : forall s, g_position s = zero3 ->
  acceleration_from_earth s = Err ZeroDivisionError.
Proof. exact earth_zero. Qed.
Print Assumptions C24_earth_centre.

Theorem C24_attraction_magnitude : forall mu d, d <> zero3 -> 0 <= mu ->
  norm (attraction mu d) = mu / (norm d * norm d).
Proof. exact attraction_norm. Qed.
Print Assumptions C24_attraction_magnitude.

Theorem C24_moon : forall s, norm (g_position s) < 356096 ->
  exists m, Moon_get_position (g_epoch s) = Ok m /\
  acceleration_from_moon s = Ok (sub (attraction 4902.800305555 (sub m (g_position s))) (attraction 4902.800305555 m)).
Proof. exact moon_ok. Qed.
Print Assumptions C24_moon.

Theorem C24_sun : forall s, norm (g_position s) < 147.099e6 ->
  let S := Sun_get_position (g_epoch s) in
  acceleration_from_sun s = Ok (sub (attraction 1.327124400419e11 (sub S (g_position s))) (attraction 1.327124400419e11 S)).
Proof. exact sun_ok. Qed.
Print Assumptions C24_sun.

(** at the centre of the Earth both tidal accelerations vanish *)
Theorem C24_vanishes_at_centre : forall s, g_position s = zero3 ->
  acceleration_from_moon s = Ok zero3 /\ acceleration_from_sun s = Ok zero3.
Proof. exact tides_centre. Qed.
Print Assumptions C24_vanishes_at_centre.

Example C24_example : V3 7000 (-100) 20 <> zero3 /\ norm (V3 300000 40000 0) < 356096.
Proof.
  split; [intros E; inversion E; lra|]. unfold norm, dot; cbn.
  rewrite <- (sqrt_square 356096) by lra. apply sqrt_lt_1_alt. lra.
Qed.

(** * C29 Hill frame *)

Theorem C29_rotation : forall o, cross (g_position o) (g_velocity o) <> zero3 -> exists m,
  HCW_frame_matrix o = Ok m /\ is_rotation m /\
  apply3 m (g_position o) = V3 (norm (g_position o)) 0 0 /\
  apply3 m (g_velocity o) =
    V3 (dot (g_position o) (g_velocity o) / norm (g_position o))
       (norm (cross (g_position o) (g_velocity o)) / norm (g_position o)) 0.
Proof.
  exact (fun o H => ex_intro _ (frame o) (conj (frame_ok o H) (conj (frame_rotation o H)
    (conj (frame_position o H) (frame_velocity o H))))).
Qed.
Print Assumptions C29_rotation.

Theorem C29_raises : forall o, cross (g_position o) (g_velocity o) = zero3 ->
  HCW_frame_matrix o = Err ZeroDivisionError.
Proof. exact frame_err. Qed.
Print Assumptions C29_raises.

Example C29_example : cross (V3 7000 0 100) (V3 (-1) 7.5 0.3) <> zero3.
Proof. intros E. inversion E; lra. Qed.

(** * C30 HCW to GCRF and back *)

Theorem C30_hcw_gcrf_hcw : forall h o, cross (g_position o) (g_velocity o) <> zero3 ->
  0 < norm (g_position o) + x3 (s_position h) ->
  - PI < y3 (s_position h) / norm (g_position o) <= PI ->
  - (PI / 2) < z3 (s_position h) / norm (g_position o) < PI / 2 ->
  exists g, hcw_to_gcrf h o = Ok g /\
  gcrf_to_hcw o g = Ok (State (g_epoch o) (s_position h) (s_velocity h)).
Proof. exact hcw_gcrf_hcw. Qed.
Print Assumptions C30_hcw_gcrf_hcw.

Example C30_example : let R := norm (V3 0 (-42164) 0) in
  0 < R + -100 /\ - PI < 5000 / R <= PI /\ - (PI / 2) < -2000 / R < PI / 2.
Proof.
  cbv zeta. replace (norm (V3 0 (-42164) 0)) with 42164.
  2:{ symmetry. unfold norm, dot; cbn. rewrite <- (sqrt_square 42164) by lra. f_equal. lra. }
  generalize PI_bounds; intros. lra.
Qed.

(** * C31 GCRF to HCW and back *)

Theorem C31_gcrf_hcw_gcrf : forall o s, cross (g_position o) (g_velocity o) <> zero3 ->
  cross (g_position s) (cross (g_position o) (g_velocity o)) <> zero3 ->
  exists h, gcrf_to_hcw o s = Ok h /\
  hcw_to_gcrf h o = Ok (GCRF (g_epoch o) (g_position s) (g_velocity s)).
Proof. exact gcrf_hcw_gcrf. Qed.
Print Assumptions C31_gcrf_hcw_gcrf.

Theorem C31_origin_is_zero : forall o s, cross (g_position o) (g_velocity o) <> zero3 ->
  g_position s = g_position o -> g_velocity s = g_velocity o ->
  gcrf_to_hcw o s = Ok (State (g_epoch o) zero3 zero3).
Proof. exact hcw_of_origin. Qed.
Print Assumptions C31_origin_is_zero.

Example C31_example : cross (V3 7000 0 100) (cross (V3 7000 0 100) (V3 (-1) 7.5 0.3)) <> zero3.
Proof. intros E. inversion E; lra. Qed.

(** * C32 Copying drops force-model settings *)

Theorem C32_copy : forall s,
  gcrf_copy s = Gcrf (g_epoch s) (g_position s) (g_velocity s) zero3 0 true /\
  (gcrf_copy s = s <-> g_thrust s = zero3 /\ g_srp_scalar s = 0 /\ g_use_perturbations s = true).
Proof. exact copy_drops. Qed.
Print Assumptions C32_copy.

Theorem C32_copy_is_duplicate_refuted : exists s, gcrf_copy s <> s.
Proof.
  exists (Gcrf j2000 (V3 7000 0 0) (V3 0 7.5 0) zero3 12 true). intros E. inversion E. lra.
Qed.
Print Assumptions C32_copy_is_duplicate_refuted.

(** * C33 Non-spherical gravity *)

(** In the Earth-fixed frame the loops compute the gradient. *)
Theorem C33_gradient : forall p, x3 p <> 0 \/ y3 p <> 0 -> exists g2 g3 g4,
  gravity_ecef p (norm p) = Ok (add (add g2 g3) g4) /\
  gradient_at (potential 2) p g2 /\ gradient_at (potential 3) p g3 /\ gradient_at (potential 4) p g4.
Proof. exact gravity_is_gradient. Qed.
Print Assumptions C33_gradient.

(** The method uses the length of the inertial position as radius; because the
    nutation matrix stretches vectors by up to 5.5e-9 the acceleration agrees
    with the gradient only to 4e-8 of its parts. *)
Theorem C33_acceleration : forall s, exists p, gcrf_to_itrf (g_position s) (g_epoch s) = Ok p /\
  (x3 p = 0 /\ y3 p = 0 -> acceleration_from_gravity s = Err ZeroDivisionError) /\
  (x3 p <> 0 \/ y3 p <> 0 -> exists a g2 g3 g4,
     acceleration_from_gravity s = itrf_to_gcrf a (g_epoch s) /\
     gradient_at (potential 2) p g2 /\ gradient_at (potential 3) p g3 /\ gradient_at (potential 4) p g4 /\
     norm (sub a (add (add g2 g3) g4)) <= 4e-8 * (norm g2 + norm g3 + norm g4)).
Proof. exact gravity_gcrf. Qed.
Print Assumptions C33_acceleration.

Theorem C33_coefficients : forall n m, (2 <= n <= 4)%nat -> (m <= n)%nat ->
  nth m (nth n Earth_C []) 0 = c_normalised n m * normalisation n m /\
  nth m (nth n Earth_S []) 0 = s_normalised n m * normalisation n m.
Proof. exact coefficients. Qed.
Print Assumptions C33_coefficients.

Example C33_example : exists p, gcrf_to_itrf (V3 7000 0 1000) j2000 = Ok p /\ (x3 p <> 0 \/ y3 p <> 0).
Proof. apply off_axis_j2000; [lra|]. rewrite Rabs_pos_eq; lra. Qed.

(** * C34 State derivative *)

Theorem C34_two_body : forall s, g_use_perturbations s = false -> g_position s <> zero3 ->
  derivative s = Ok (g_velocity s, add (g_thrust s) (attraction mu_earth (sub zero3 (g_position s)))).
Proof. exact derivative_two_body. Qed.
Print Assumptions C34_two_body.

Theorem C34_perturbed : forall s, g_use_perturbations s = true ->
  norm (g_position s) < 356096 ->
  (exists p, gcrf_to_itrf (g_position s) (g_epoch s) = Ok p /\ (x3 p <> 0 \/ y3 p <> 0)) ->
  exists am asn ap ag,
    acceleration_from_moon s = Ok am /\ acceleration_from_sun s = Ok asn /\
    acceleration_from_srp s = Ok ap /\ acceleration_from_gravity s = Ok ag /\
    derivative s = Ok (g_velocity s,
      add (add (add (add (add (g_thrust s) (attraction mu_earth (sub zero3 (g_position s)))) am) asn) ap) ag).
Proof. exact derivative_perturbed. Qed.
Print Assumptions C34_perturbed.

Theorem C34_centre_raises : forall s, g_position s = zero3 -> derivative s = Err ZeroDivisionError.
Proof. exact derivative_centre. Qed.
Print Assumptions C34_centre_raises.

Theorem C34_axis_raises : forall s, g_use_perturbations s = true -> norm (g_position s) < 356096 ->
  (exists p, gcrf_to_itrf (g_position s) (g_epoch s) = Ok p /\ x3 p = 0 /\ y3 p = 0) ->
  derivative s = Err ZeroDivisionError.
Proof. exact derivative_axis. Qed.
Print Assumptions C34_axis_raises.

Example C34_example : let s := GCRF j2000 (V3 7000 0 1000) (V3 0 7.5 0) in
  norm (g_position s) < 356096 /\
  (exists p, gcrf_to_itrf (g_position s) (g_epoch s) = Ok p /\ (x3 p <> 0 \/ y3 p <> 0)).
Proof.
  cbv zeta. cbn [g_position g_epoch GCRF]. split.
  - unfold norm, dot; cbn. rewrite <- (sqrt_square 356096) by lra. apply sqrt_lt_1_alt. lra.
  - apply off_axis_j2000; [lra|]. rewrite Rabs_pos_eq; lra.
Qed.

(** * C72 Solar pressure *)

Theorem C72_srp : forall s, norm (g_position s) < 147.099e6 ->
  let d := sub (Sun_get_position (g_epoch s)) (g_position s) in
  acceleration_from_srp s = Ok (scale (- (4.56e-6 * g_srp_scalar s / 1000) / norm d) d).
Proof. exact srp_ok. Qed.
Print Assumptions C72_srp.
