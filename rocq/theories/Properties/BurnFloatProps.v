(** Duration of burns in binary64. *)
From Coq Require Import Reals Lra.
From Verif.Model Require Import Num Constants Linalg Inertial ElementsFloat BurnFloat.
From Verif.Spec Require Import Geometry BurnFloat.
From Verif.Proofs Require Import NumLemmas LinalgProofs InertialProofs SafeStep BurnFloatProofs.
Local Open Scope R_scope.

(** * C124 Burn duration in binary64 *)

(** The duration computed in binary64 is wrong by at most 3.2e-15 of the time
    that it takes to use up all the mass. *)
Theorem C124_duration : forall L d md m isp, accurate_exponential L -> burnable d md m isp ->
  exists T T', burn_duration (norm d) md m isp = Ok T /\ burn_duration_b64 L d md m isp = Ok T' /\ Rabs (T' - T) <= 3.2e-15 * (m / md).
Proof. exact burn_close. Qed.
Print Assumptions C124_duration.

(** By the rocket equation a burn that long leaves some mass and delivers the
    requested change of speed to within 3.3e-15 of the exhaust speed times the
    ratio of the masses before and after. *)
Theorem C124_delivered : forall L d md m isp, accurate_exponential L -> burnable d md m isp ->
  exists T', burn_duration_b64 L d md m isp = Ok T' /\ 0 < m - md * T' /\
    Rabs (isp * 0.00981 * ln (m / (m - md * T')) - norm d) <= isp * 0.00981 * (3.3e-15 * exp (norm d / (isp * 0.00981))).
Proof. exact burn_delivers. Qed.
Print Assumptions C124_delivered.

(** a tonne, 0.1 kg/s at 300 s, 100 m/s; and a library that is exact *)
Example C124_example : burnable (V3 0 0.1 0) 0.1 1000 300 /\ accurate_exponential (Libm sin cos asin (fun _ _ => 0) Rpower).
Proof.
  split.
  - unfold burnable. rewrite norm_y by lra. lra.
  - intros b x _ _. cbn [powf]. rewrite Rminus_eq_0, Rabs_R0. assert (P := exp_pos (x * ln b)). unfold Rpower. lra.
Qed.
