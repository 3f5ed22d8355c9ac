(** Two-body orbit notions about the Earth, written independently of the model's functions. *)
From Coq Require Import Reals.
From Verif.Model Require Import Linalg.
From Verif.Spec Require Import Geometry Gravity.
Local Open Scope R_scope.

(** Specific orbital energy and angular momentum of a position and a velocity. *)
Definition orbital_energy (r v : vec3) : R := norm v * norm v / 2 - mu_earth / norm r.
Definition momentum (r v : vec3) : vec3 := cross r v.

(** A bound orbit that is not a straight line through the centre. *)
Definition bound_orbit (r v : vec3) : Prop :=
  orbital_energy r v < 0 /\ momentum r v <> zero3.

(** Unit normal of the plane with right ascension of the ascending node [o] and inclination [i]. *)
Definition orbit_normal (o i : R) : vec3 := V3 (sin o * sin i) (- cos o * sin i) (cos i).

(** The plane of the orbit is the equator: the momentum is along the z axis. *)
Definition equatorial (r v : vec3) : Prop :=
  x3 (momentum r v) = 0 /\ y3 (momentum r v) = 0.
