(** Properties of observations as input to orbit determination (C94). *)
From Coq Require Import Reals Lra Lia List.
From Verif.Model Require Import Num Constants Linalg Functions Time Celestial Positions States Inertial Elements Relative Obs Filtering Iod Constraints Payloads Artificial Terrestrial.
From Verif.Spec Require Import Geometry Gravity Operations Sensing Acquisition Axes Earth Sightings Gauss Orbit.
From Verif.Proofs Require Import NumLemmas LinalgProofs FunctionsProofs GeodeticProofs Analysis EstimationProofs SightingProofs.
From Verif.Properties Require Import EstimationProps GaussProps.
Import ListNotations.
Local Open Scope R_scope.

(** * C94 Orbit determination does not depend on who observes *)

(** The frame in which both kinds of observation report positions: precession,
    nutation, and a turn about the pole by the equation of the equinoxes. *)
Theorem C94_frame : forall p e, let w := apply3 (Earth_nutation e) (apply3 (Earth_precession e) p) in
  let g := nutation_longitude e * cos (obliquity_of_ecliptic_at_epoch e) in
  gcrf_to_ijk p e = Ok (V3 (cos g * x3 w + sin g * y3 w) (cos g * y3 w - sin g * x3 w) (z3 w)).
Proof. exact ijk_formula. Qed.
Print Assumptions C94_frame.

(** Distances survive the conversion, up to the stretch of the nutation. *)
Theorem C94_distances : forall p p' e, exists q q', gcrf_to_ijk p e = Ok q /\ gcrf_to_ijk p' e = Ok q' /\
  norm (sub p' p) <= norm (sub q' q) <= (1 + 5.5e-9) * norm (sub p' p).
Proof. exact ijk_errors. Qed.
Print Assumptions C94_distances.

(** What a ground site measures is exact. *)
Theorem C94_ground : forall lat lon alt t, - (PI / 2) < lat < PI / 2 -> -6000 <= alt ->
  exists s ob, GroundSite (LLA lat lon alt) = Ok s /\ angles_and_range s t = Ok ob /\ exact_observation (Ground ob) t.
Proof. exact ground_exact. Qed.
Print Assumptions C94_ground.

(** What a spacecraft at the same epoch measures without noise is exact. *)
Theorem C94_space : forall (cam : craft -> camera) px f u c t, 0 < px -> 0 < f < PI / 2 -> Camera px f = Ok (cam c) -> body_radius (sc_params t) <> 0 ->
  let d := sub (place_of t) (place_of c) in ~ (x3 d = 0 /\ y3 d = 0) -> current_epoch c = current_epoch t ->
  exists ob, observe cam 0 0 u c t = Ok ob /\ exact_observation (Space ob) t.
Proof. exact space_exact. Qed.
Print Assumptions C94_space.

(** So the orbit determined from two exact observations is the same for all observers. *)
Theorem C94_same_orbit : forall fuel a a' b b' t1 t2,
  exact_observation a t1 -> exact_observation a' t1 -> exact_observation b t2 -> exact_observation b' t2 ->
  coes_from_observations fuel a b = coes_from_observations fuel a' b'.
Proof. exact same_orbit. Qed.
Print Assumptions C94_same_orbit.

(** And it is the target's orbit: for the orbits of C90, any two exact
    observations give back the semi-major axis and the parameter. *)
Theorem C94_recovers : forall a b t1 t2 el xa xb, exact_observation a t1 -> exact_observation b t2 ->
  0 < semimajor_axis el -> 0 <= eccentricity el <= 0.1 -> 0 < xb - xa <= 1 ->
  gcrf_to_ijk (place_of t1) (current_epoch t1) = Ok (orbit_point el xa) ->
  gcrf_to_ijk (place_of t2) (current_epoch t2) = Ok (orbit_point el xb) ->
  (value (current_epoch t2) - value (current_epoch t1)) * 86400 = flight_time el xa xb ->
  let p := semimajor_axis el * (1 - eccentricity el ^ 2) in
  exists N, forall fuel, (N <= fuel)%nat ->
  (exists el', coes_from_observations fuel a b = Ok el' /\
     Rabs (semimajor_axis el' - semimajor_axis el) <= 1e-9 * semimajor_axis el /\
     Rabs (semimajor_axis el' * (1 - eccentricity el' ^ 2) - p) <= 1e-9 * p) \/
  (coes_from_observations fuel a b = Err ZeroDivisionError /\ Rabs (norm (orbit_point el xa) - p) <= 1e-9 * p).
Proof.
  intros a b t1 t2 el xa xb (A1 & q1 & A2 & A3) (B1 & q2 & B2 & B3) Ha He Hx E1 E2 T p.
  rewrite E1 in A3. injection A3 as <-. rewrite E2 in B3. injection B3 as <-.
  destruct (C90_recovers el xa xb (current_epoch t1) (current_epoch t2) Ha He Hx T) as (N & R). exists N. intros fuel F.
  unfold coes_from_observations. rewrite A1, A2, B1, B2. exact (R fuel F).
Qed.
Print Assumptions C94_recovers.

(** With noise, the position handed to orbit determination is off by what the
    range error [z1 * re] and the tilt [z2 * accuracy] of the sight line say. *)
Theorem C94_noise : forall (cam : craft -> camera) px f z1 z2 u c t, 0 < px -> 0 < f < PI / 2 -> Camera px f = Ok (cam c) -> body_radius (sc_params t) <> 0 ->
  let d := sub (place_of t) (place_of c) in let re := sensor_error px f (body_radius (sc_params t)) (norm d) in
  ~ (x3 d = 0 /\ y3 d = 0) -> norm d + z1 * re <> 0 -> current_epoch c = current_epoch t ->
  exists ob q q', observe cam z1 z2 u c t = Ok ob /\ gcrf_to_ijk (place_of t) (current_epoch t) = Ok q /\
    observation_ijk (Space ob) = Ok q' /\ observation_epoch (Space ob) = current_epoch t /\
    let x := sqrt ((z1 * re) ^ 2 + 2 * norm d * (norm d + z1 * re) * (1 - cos (z2 * pointing_accuracy (sc_params c)))) in
    x <= norm (sub q' q) <= (1 + 5.5e-9) * x.
Proof. exact noisy_position. Qed.
Print Assumptions C94_noise.

(** Two spacecraft at geostationary radius, 10 km apart, meet the hypotheses. *)
Example C94_example : exists c t, 0 < radians 5 < PI / 2 /\ Camera 3072 (radians 5) = Ok (wfov c) /\
  body_radius (sc_params t) <> 0 /\ sub (place_of t) (place_of c) = V3 0 10 0 /\ current_epoch c = current_epoch t /\
  exists ob, observe wfov 0 0 0 c t = Ok ob /\ exact_observation (Space ob) t.
Proof.
  destruct (created main_state) as (c & E & P & M & Ep & _ & _ & _ & _ & Br & Cw).
  destruct (created near_state) as (t & E' & P' & M' & Ep' & _ & _ & _ & _ & Br' & Cw').
  assert (A : 0 < radians 5 < PI / 2) by (unfold radians; assert (X := PI_RGT_0); lra).
  assert (D : sub (place_of t) (place_of c) = V3 0 10 0) by (rewrite P, P'; unfold sub; cbn; f_equal; ring).
  assert (B : body_radius (sc_params t) <> 0) by (rewrite Br'; lra).
  assert (T : current_epoch c = current_epoch t) by (rewrite !cur_epoch, Ep, Ep'; reflexivity).
  exists c, t. do 5 (split; [assumption|]). apply (C94_space wfov 3072 (radians 5) 0 c t); auto; [lra|]. rewrite D. cbn. intros [_ Q]. lra.
Qed.

(** A ground site sees a target on the orbit of C90 at both ends of an arc. *)
Example C94_recovers_example : let el := Elements (Epoch 0) 7000 0.05 1 2 3 4 in
  exists t1 t2 s o1 o2, GroundSite (LLA 0.6 1 0) = Ok s /\ angles_and_range s t1 = Ok o1 /\ angles_and_range s t2 = Ok o2 /\
  exact_observation (Ground o1) t1 /\ exact_observation (Ground o2) t2 /\
  gcrf_to_ijk (place_of t1) (current_epoch t1) = Ok (orbit_point el 0.3) /\
  gcrf_to_ijk (place_of t2) (current_epoch t2) = Ok (orbit_point el 0.8) /\
  (value (current_epoch t2) - value (current_epoch t1)) * 86400 = flight_time el 0.3 0.8.
Proof.
  intros el. set (e2 := Epoch (flight_time el 0.3 0.8 / 86400)).
  destruct (ijk_onto (Epoch 0) (orbit_point el 0.3)) as (p1 & P1). destruct (ijk_onto e2 (orbit_point el 0.8)) as (p2 & P2).
  destruct (created (GCRF (Epoch 0) p1 (V3 0 3 0))) as (t1 & _ & L1 & _ & T1 & _). destruct (created (GCRF e2 p2 (V3 0 3 0))) as (t2 & _ & L2 & _ & T2 & _).
  assert (B : - (PI / 2) < 0.6 < PI / 2) by (generalize PI_bounds; intros; lra). assert (A : -6000 <= 0) by lra.
  destruct (C94_ground 0.6 1 0 t1 B A) as (s & o1 & S1 & O1 & X1). destruct (C94_ground 0.6 1 0 t2 B A) as (s' & o2 & S2 & O2 & X2).
  rewrite S1 in S2. injection S2 as <-. exists t1, t2, s, o1, o2.
  assert (Q1 : place_of t1 = p1) by (rewrite L1; destruct p1; reflexivity). assert (Q2 : place_of t2 = p2) by (rewrite L2; destruct p2; reflexivity).
  assert (R1 : current_epoch t1 = Epoch 0) by (rewrite cur_epoch, T1; reflexivity). assert (R2 : current_epoch t2 = e2) by (rewrite cur_epoch, T2; reflexivity).
  do 5 (split; [assumption|]). rewrite Q1, Q2, R1, R2. do 2 (split; [assumption|]). unfold e2. cbn [value]. lra.
Qed.
