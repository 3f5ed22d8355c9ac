(** How accurate the C library's logarithm is taken to be, and the thrusters
    considered. *)
From Coq Require Import Reals.
From Verif.Model Require Import Linalg.
From Verif.Spec Require Import Geometry.
Local Open Scope R_scope.

(** the logarithm of one is zero, and those of numbers below one have relative
    error at most a tenth *)
Definition decent_log (logf : R -> R) : Prop := logf 1 = 0 /\ forall x, 0 < x < 1 -> Rabs (logf x - ln x) <= 0.1 * Rabs (ln x).

Definition thruster (d : vec3) (md m isp : R) : Prop :=
  1e-6 <= md <= 1e6 /\ 1e-3 <= m <= 1e9 /\ 1 <= isp <= 1e6 /\ 1e-9 <= norm d <= 1e9.
