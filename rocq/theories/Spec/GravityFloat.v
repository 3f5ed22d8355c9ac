(** How accurate the C library's tangent and power are taken to be, and the
    latitudes at which gravity is evaluated. *)
From Coq Require Import Reals.
From Verif.Model Require Import Num Linalg Time Positions ElementsFloat.
From Verif.Spec Require Import Geometry.
Local Open Scope R_scope.

(** [math.tan] is within 2.3e-16 (1 + |tan|) *)
Definition accurate_tangent (tanf : R -> R) : Prop := forall x, Rabs (tanf x - tan x) <= 2.3e-16 * (1 + Rabs (tan x)).

(** squares, cubes and fourth powers have relative error at most 2.3e-16 *)
Definition accurate_power (L : libm) : Prop :=
  forall x n, 0 < x <= 2 -> (2 <= n <= 4)%nat -> Rabs (powf L x (INR n) - x ^ n) <= 2.3e-16 * x ^ n.

(** The position [p] is within 84.2 degrees of the equator of date: the series
    contains the tangent of the latitude, which has no bound beyond. *)
Definition below_84_degrees (p : vec3) (e : epoch) : Prop :=
  exists q, gcrf_to_itrf p e = Ok q /\ 0.1 * norm p <= sqrt (x3 q * x3 q + y3 q * y3 q).
