(** Motions under the code's own derivative with perturbations switched off and
    no thrust, and directions and velocities on a Kepler orbit. *)
From Coq Require Import Reals.
From Coquelicot Require Import Coquelicot.
From Verif.Model Require Import Num Linalg Time States Elements.
From Verif.Spec Require Import Geometry Gravity.
Local Open Scope R_scope.

(** The vector function [f] has the rate of change [d] at [t]. *)
Definition rate_of (f : R -> vec3) (t : R) (d : vec3) : Prop :=
  is_derive (fun t => x3 (f t)) t (x3 d) /\
  is_derive (fun t => y3 (f t)) t (y3 d) /\
  is_derive (fun t => z3 (f t)) t (z3 d).

(** Position and velocity at every time (in seconds) change at the rate that
    derivative() returns for an unperturbed, unpowered state. *)
Definition unperturbed_motion (r v : R -> vec3) : Prop :=
  forall t, exists e srp dr dv,
    derivative (Gcrf e (r t) (v t) zero3 srp false) = Ok (dr, dv) /\ rate_of r t dr /\ rate_of v t dv.

(** The direction at the angle [u] from the ascending node in the plane with
    node [o] and inclination [i]. *)
Definition plane_direction (o i u : R) : vec3 :=
  add (scale (cos u) (V3 (cos o) (sin o) 0)) (scale (sin u) (V3 (- sin o * cos i) (cos o * cos i) (sin i))).

(** Velocity on the orbit [el] at eccentric anomaly [x]. *)
Definition orbit_velocity (el : elements) (x : R) : vec3 :=
  let o := raan el in let i := inclination el in let w := argument_of_perigee el in
  let a := semimajor_axis el in let e := eccentricity el in
  let k := sqrt (mu_earth / a) / (1 - e * cos x) in
  add (scale (- k * sin x) (plane_direction o i w))
      (scale (k * sqrt (1 - e ^ 2) * cos x) (plane_direction o i (w + PI / 2))).
