(** Model of src/openspace/estimation/obs.py. *)
From Verif.Model Require Import Num Constants Linalg Functions Time Celestial Positions States.
Local Open Scope R_scope.

(** obs.py:23-57 class SpaceObservation *)
Record space_obs := mkSpaceObs {
  so_observer_state : gcrf; so_observed_direction : vec3;
  so_range : num; so_right_ascension : num; so_declination : num;
  so_range_error : num; so_angular_error : num }.

(** obs.py:24-57 *)
Definition SpaceObservation (observer : gcrf) (dir : vec3) (r_error ang_error : num) : space_obs :=
  let sph := spherical_from_cartesian dir in
  mkSpaceObs (gcrf_copy observer) (v3_copy dir)
    (radius sph) (right_ascension sph) (declination sph) r_error ang_error.

(** obs.py:59-65 *)
Definition so_epoch (o : space_obs) : epoch := g_epoch (so_observer_state o).

(** obs.py:67-73 *)
Definition so_ijk_position (o : space_obs) : res vec3 :=
  gcrf_to_ijk (v3_plus (g_position (so_observer_state o)) (so_observed_direction o)) (so_epoch o).

(** obs.py:76-112 class GroundObservation *)
Record ground_obs := mkGroundObs {
  go_observer_state : state; go_observed_direction : vec3;
  go_range : num; go_azimuth : num; go_elevation : num;
  go_range_error : num; go_angular_error : num }.

(** obs.py:77-112 *)
Definition GroundObservation (observer : state) (dir : vec3) (r_error ang_error : num) : ground_obs :=
  let sph := spherical_from_cartesian (V3 (y3 dir) (x3 dir) (z3 dir)) in
  mkGroundObs (state_copy observer) (v3_copy dir)
    (radius sph) (right_ascension sph) (declination sph) r_error ang_error.

(** obs.py:114-137 *)
Definition from_angles_and_range (observer : state) (az el r r_error ang_error : num) : ground_obs :=
  let nez := spherical_to_cartesian (Spherical r az el) in
  let enz := V3 (y3 nez) (x3 nez) (z3 nez) in
  GroundObservation observer enz r_error ang_error.

(** obs.py:139-145 *)
Definition go_epoch (o : ground_obs) : epoch := s_epoch (go_observer_state o).

(** obs.py:153-156 and 165-168 *)
Definition go_itrf_ob (o : ground_obs) : res vec3 :=
  let* lla_site := itrf_to_lla (s_position (go_observer_state o)) in
  Ok (v3_plus (enz_to_itrf lla_site (go_observed_direction o)) (s_position (go_observer_state o))).

(** obs.py:147-157 *)
Definition go_ijk_position (o : ground_obs) : res vec3 :=
  let* itrf_ob := go_itrf_ob o in
  itrf_to_ijk itrf_ob (go_epoch o).

(** obs.py:159-169 *)
Definition go_gcrf_position (o : ground_obs) : res vec3 :=
  let* itrf_ob := go_itrf_ob o in
  itrf_to_gcrf itrf_ob (go_epoch o).
