(** Properties of propagation as the steps get smaller: the force model determines
    one motion from each state, and the propagator approaches it. *)
From Coq Require Import Reals Lra List.
From Verif.Model Require Import Num Constants Linalg Time States Inertial.
From Verif.Spec Require Import Geometry Propagation Motion.
From Verif.Proofs Require Import NumLemmas StatesProofs InertialProofs SafeStep ConvergenceProofs MotionExists.
Local Open Scope R_scope.

(** * C97 Smaller steps approach the true motion *)

(** One constant serves for all states, durations and step counts: [n] equal steps
    stay within a distance proportional to the step length. *)
Theorem C97_error_bound : exists K, 0 < K /\ forall s T r v D n, r 0 = g_position s -> v 0 = g_velocity s ->
  natural_motion (g_epoch s) T r v -> clear_along (g_epoch s) T r D -> (0 < n)%nat ->
  let E := K * (1 + norm (g_velocity s) + Rabs T) ^ 2 * exp (K * Rabs T) * (Rabs T / INR n) in E <= D ->
  exists q, stepped n (set_step_size (RK4 s) (T / INR n)) q /\ g_epoch (rk_state q) = later (g_epoch s) T /\
    separation (g_position (rk_state q)) (g_velocity (rk_state q)) (r T) (v T) <= E.
Proof. exact converge_start. Qed.
Print Assumptions C97_error_bound.

(** step() repeated: every accuracy is reached by all sufficiently small steps *)
Theorem C97_steps_converge : forall s T r v D, r 0 = g_position s -> v 0 = g_velocity s ->
  natural_motion (g_epoch s) T r v -> 0 < D -> clear_along (g_epoch s) T r D -> forall eps, 0 < eps ->
  exists N, (0 < N)%nat /\ forall n, (N <= n)%nat ->
  exists q, stepped n (set_step_size (RK4 s) (T / INR n)) q /\ g_epoch (rk_state q) = later (g_epoch s) T /\
    separation (g_position (rk_state q)) (g_velocity (rk_state q)) (r T) (v T) <= eps.
Proof.
  intros s T r v D R0 V0 M D0 C eps E0. destruct (converge_limit s T r v D R0 V0 M D0 C eps E0) as (N & PN & H).
  exists N. split; auto. intros n Hn. apply (H n Hn).
Qed.
Print Assumptions C97_steps_converge.

(** step_to_epoch() through equally spaced epochs does so, too *)
Theorem C97_way_points_converge : forall s T r v D, r 0 = g_position s -> v 0 = g_velocity s ->
  natural_motion (g_epoch s) T r v -> 0 < D -> clear_along (g_epoch s) T r D -> forall eps, 0 < eps ->
  exists N, forall n, (N <= n)%nat ->
  exists q, visited (RK4 s) (way_points (g_epoch s) T n) q /\ g_epoch (rk_state q) = later (g_epoch s) T /\
    separation (g_position (rk_state q)) (g_velocity (rk_state q)) (r T) (v T) <= eps.
Proof. exact way_points_converge. Qed.
Print Assumptions C97_way_points_converge.

(** Without reference to a given motion: from a state with room around it there is a
    motion, and the propagated states tend to it. *)
Theorem C97_clear_region : forall s T D, 0 < D -> clear_around s T (reach (norm (g_velocity s)) 0.05 T + D) ->
  exists r v, r 0 = g_position s /\ v 0 = g_velocity s /\ natural_motion (g_epoch s) T r v /\
  forall eps, 0 < eps -> exists N, forall n, (N <= n)%nat ->
  exists q, visited (RK4 s) (way_points (g_epoch s) T n) q /\ g_epoch (rk_state q) = later (g_epoch s) T /\
    separation (g_position (rk_state q)) (g_velocity (rk_state q)) (r T) (v T) <= eps.
Proof.
  intros s T D D0 C. destruct (motion_margin s T D) as (r & v & R0 & V0 & N & CA); auto; [lra|].
  exists r, v. split; auto. split; auto. split; auto. exact (way_points_converge s T r v D R0 V0 N D0 CA).
Qed.
Print Assumptions C97_clear_region.

(** a geosynchronous state for ten minutes, with 1000 km to spare *)
Example C97_example : clear_around (rk_state geo) 600 (reach (norm (g_velocity (rk_state geo))) 0.05 600 + 1000) /\
  exists r v, r 0 = g_position (rk_state geo) /\ v 0 = g_velocity (rk_state geo) /\
  natural_motion (g_epoch (rk_state geo)) 600 r v /\ clear_along (g_epoch (rk_state geo)) 600 r 1000.
Proof. split; [exact geo_margin|]. apply motion_margin; [lra|exact geo_margin]. Qed.

(** * C98 The force model determines the motion *)

(** A motion exists for as long as the body cannot have left the flyable region. *)
Theorem C98_exists : forall s T, clear_around s T (reach (norm (g_velocity s)) 0.05 T) ->
  exists r v, r 0 = g_position s /\ v 0 = g_velocity s /\ natural_motion (g_epoch s) T r v /\
  forall t, during T t -> norm (sub (r t) (g_position s)) <= reach (norm (g_velocity s)) 0.05 T.
Proof. exact motion_exists. Qed.
Print Assumptions C98_exists.

(** Two motions from the same state are the same. *)
Theorem C98_unique : forall e T r v r' v' D, 0 < D -> natural_motion e T r v -> natural_motion e T r' v' ->
  clear_along e T r D -> clear_along e T r' D -> r 0 = r' 0 -> v 0 = v' 0 ->
  forall t, during T t -> r t = r' t /\ v t = v' t.
Proof. exact unique_motion. Qed.
Print Assumptions C98_unique.

(** Motions from nearby states stay nearby, forwards and backwards in time. *)
Theorem C98_stable : exists K, 0 < K /\ forall e T r v r' v' D, 0 < D -> natural_motion e T r v -> natural_motion e T r' v' ->
  clear_along e T r D -> clear_along e T r' D -> let E0 := separation (r 0) (v 0) (r' 0) (v' 0) in exp (K * Rabs T) * E0 < D ->
  forall t, during T t -> separation (r t) (v t) (r' t) (v' t) <= exp (K * Rabs t) * E0.
Proof. exact stability. Qed.
Print Assumptions C98_stable.

Example C98_example : clear_around (rk_state geo) 600 (reach (norm (g_velocity (rk_state geo))) 0.05 600) /\
  clear_around (rk_state leo) (-60) (reach (norm (g_velocity (rk_state leo))) 0.05 (-60)).
Proof.
  split.
  - apply geo_clear; [rewrite Rabs_pos_eq; lra|lra].
  - replace 0.05 with (0.05 + 0) by lra. apply leo_clear. rewrite Rabs_left; lra.
Qed.
