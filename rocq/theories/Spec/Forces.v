(** Newton's law of gravitation. *)
From Coq Require Import Reals.
From Verif.Model Require Import Linalg.
From Verif.Spec Require Import Geometry.
Local Open Scope R_scope.

(** Acceleration towards a point mass [mu] that lies at the displacement [d]:
    magnitude mu / |d|^2 in the direction of [d]. *)
Definition attraction (mu : R) (d : vec3) : vec3 :=
  scale (mu / (norm d * norm d * norm d)) d.
