(** Simulated observations and acquisition of a target. *)
From Coq Require Import Reals List.
From Verif.Model Require Import Num Linalg Time States Inertial Payloads Artificial.
From Verif.Spec Require Import Geometry Gravity Operations.
Local Open Scope R_scope.

(** Range error of a camera with [px] pixels and field of view [f] for a body of
    the given radius: the footprint of half a pixel over the body's diameter,
    times the range. *)
Definition sensor_error (px f radius range : R) : R := tan f * range ^ 2 / (4 * px * radius).

(** Specific orbital energy of a spacecraft. *)
Definition energy (c : craft) : R := norm (motion_of c) ^ 2 / 2 - mu_earth / norm (place_of c).

(** The operation is an acquisition or a simulated observation by [i]. *)
Definition estimates (i : nat) (o : op) : Prop :=
  match o with Acquire a _ => a = i | ProcessWide _ _ _ a _ => a = i | ProcessNarrow _ _ _ a _ => a = i | _ => False end.
