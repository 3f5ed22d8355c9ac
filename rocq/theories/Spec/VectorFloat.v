(** What is asked of [math.acos], and of the vectors an angle is taken between. *)
From Coq Require Import Reals.
From Verif.Model Require Import Linalg.
From Verif.Spec Require Import Geometry.
Local Open Scope R_scope.

(** [math.acos] is within 4.5e-16 of the true value, about one unit in the last
    place of a number near pi *)
Definition accurate_acos (acosf : R -> R) : Prop :=
  forall x, -1 <= x <= 1 -> Rabs (acosf x - acos x) <= 4.5e-16.

(** a length that neither vanishes nor overflows when squared *)
Definition ordinary (a : vec3) : Prop := 1e-15 <= norm a <= 1e30.
