(** Acceleration of the thruster in binary64. *)
From Coq Require Import Reals Lra.
From Verif.Model Require Import Num Constants Linalg Inertial ThrustFloat.
From Verif.Spec Require Import Geometry Propagation ThrustFloat.
From Verif.Proofs Require Import NumLemmas LinalgProofs InertialProofs SafeStep ThrustFloatProofs.
Local Open Scope R_scope.

(** * C125 Thrust acceleration in binary64 *)

(** At ignition, and once the share of the mass used up is at least 5.6e-17 and
    until it is nine tenths, the acceleration computed in binary64 is the one of
    a rocket with a relative error of at most 3.5e-15, however inaccurate the
    logarithm is within a tenth of itself. *)
Theorem C125_accurate : forall logf d md m isp t, decent_log logf -> thruster d md m isp ->
  t = 0 \/ (5.6e-17 <= md * t / m /\ md * t / m <= 0.9) ->
  exists a, thrust_vector_b64 logf d md m isp t = Ok a /\ norm (sub a (rocket md m isp d t)) <= 3.5e-15 * norm (rocket md m isp d t).
Proof. exact thrust_close. Qed.
Print Assumptions C125_accurate.

(** So soon after ignition that at most 5.5e-17 of the mass is used up, the
    computed mass ratio is 1, its logarithm 0 and the call divides by zero,
    although in exact arithmetic it returns the acceleration of a rocket. *)
Theorem C125_ignition : forall logf p t, decent_log logf -> thruster (thrust_direction p) (m_dot p) (m0 p) (isp p) ->
  0 < t -> m_dot p * t / m0 p <= 5.5e-17 ->
  thrust_vector p t = Ok (rocket (m_dot p) (m0 p) (isp p) (thrust_direction p) t) /\
  thrust_vector_b64 logf (thrust_direction p) (m_dot p) (m0 p) (isp p) t = Err ZeroDivisionError.
Proof.
  intros logf p t L H T Q. split; [|exact (thrust_raises _ _ _ _ _ _ L H T Q)]. destruct H as (A & B & _ & D).
  apply thrust_rocket; try lra. intros E. rewrite E in D. assert (N := norm_zero zero3). destruct N as [_ N]. rewrite N in D by reflexivity. lra.
Qed.
Print Assumptions C125_ignition.

(** With the thruster off there is no acceleration. *)
Theorem C125_off : forall logf d m isp t, thrust_vector_b64 logf d 0 m isp t = Ok (V3 0 0 0).
Proof. intros. unfold thrust_vector_b64. rewrite neq_true; reflexivity. Qed.
Print Assumptions C125_off.

(** the exact logarithm; a tonne, 0.1 kg/s at 300 s, a minute, and a tenth of a
    picosecond, after ignition *)
Example C125_example : decent_log ln /\ thruster (V3 0 0.1 0) 0.1 1000 300 /\
  (5.6e-17 <= 0.1 * 60 / 1000 /\ 0.1 * 60 / 1000 <= 0.9) /\ 0 < 1e-13 /\ 0.1 * 1e-13 / 1000 <= 5.5e-17.
Proof.
  split; [|unfold thruster; rewrite norm_y by lra; lra]. split; [exact ln_1|]. intros x X. rewrite Rminus_eq_0, Rabs_R0. assert (P := Rabs_pos (ln x)). lra.
Qed.
