(** What a sensor sees: angles, the brightness of a diffuse sphere, and the
    radial / in-track / cross-track components of a vector. *)
From Coq Require Import Reals.
From Verif.Model Require Import Linalg.
From Verif.Spec Require Import Geometry.
Local Open Scope R_scope.

(** [t] is the angle between [a] and [b]. *)
Definition angle_between (a b : vec3) (t : R) : Prop :=
  0 <= t <= PI /\ norm a * norm b * cos t = dot a b.

Definition log10 (x : R) : R := ln x / ln 10.

(** Apparent magnitude of a diffuse sphere of the given albedo and radius, at
    the given range, lit by the Sun (magnitude -26.74), at phase angle [phi]. *)
Definition diffuse_magnitude (albedo radius range phi : R) : R :=
  -26.74 - 2.5 * log10 (2 / 3 * albedo * radius ^ 2 / (PI * range ^ 2) * (sin phi + (PI - phi) * cos phi)).

(** [dv] has the radial, in-track and cross-track components [burn] on the
    orbit with position [r] and velocity [v]. *)
Definition ric_components (r v burn dv : vec3) : Prop :=
  let h := cross r v in
  let t := cross h r in
  dot dv r = x3 burn * norm r /\ dot dv t = y3 burn * norm t /\ dot dv h = z3 burn * norm h.
