(** Two bodies near each other, one of them on a circular orbit. *)
From Coq Require Import Reals.
From Verif.Model Require Import Num Linalg Time States.
From Verif.Spec Require Import Geometry.
Local Open Scope R_scope.

(** A time between now and [T] seconds later (earlier, if [T] is negative). *)
Definition until (T t : R) : Prop := Rmin 0 T <= t <= Rmax 0 T.

(** A relative state about an orbit of radius [a] and rate [n]: at most [rho] above,
    below or beside the orbit, less than three radii along it, and moving relative to
    it by no more than [rho] per radian of its revolution. *)
Definition nearby (n a rho : R) (s : state) : Prop :=
  Rabs (x3 (s_position s)) <= rho /\ Rabs (y3 (s_position s)) < 3 * a /\ Rabs (z3 (s_position s)) <= rho /\
  Rabs (x3 (s_velocity s)) <= n * rho /\ Rabs (y3 (s_velocity s)) <= n * rho /\ Rabs (z3 (s_velocity s)) <= n * rho.
