(** Properties of the rate at which propagation approaches the true motion. *)
From Coq Require Import Reals Lra List.
From Verif.Model Require Import Num Constants Linalg Time States Inertial.
From Verif.Spec Require Import Geometry Propagation Motion.
From Verif.Proofs Require Import NumLemmas StatesProofs InertialProofs SafeStep ConvergenceProofs MotionExists OrderProofs.
Local Open Scope R_scope.

(** * C101 Fourth-order accuracy *)

(** One constant serves for all states up to a given speed and all durations up to a
    given length: the error of [n] equal steps that do not pass a UTC midnight is
    proportional to the fourth power of the step length. *)
Theorem C101_fourth_order : forall speed longest, exists C, 0 < C /\ forall s T r v D n, r 0 = g_position s -> v 0 = g_velocity s ->
  norm (g_velocity s) <= speed -> Rabs T <= longest ->
  natural_motion (g_epoch s) T r v -> clear_along (g_epoch s) T r D -> one_utc_day (g_epoch s) T ->
  (0 < n)%nat -> C * (Rabs T / INR n) <= D ->
  exists q, stepped n (set_step_size (RK4 s) (T / INR n)) q /\ g_epoch (rk_state q) = later (g_epoch s) T /\
    separation (g_position (rk_state q)) (g_velocity (rk_state q)) (r T) (v T) <= C * (Rabs T / INR n) ^ 4.
Proof. exact fourth_order. Qed.
Print Assumptions C101_fourth_order.

(** step_to_epoch() through [n] equally spaced epochs is as accurate. *)
Theorem C101_way_points : forall speed longest, exists C, 0 < C /\ forall s T r v D n, r 0 = g_position s -> v 0 = g_velocity s ->
  norm (g_velocity s) <= speed -> Rabs T <= longest ->
  natural_motion (g_epoch s) T r v -> clear_along (g_epoch s) T r D -> one_utc_day (g_epoch s) T ->
  (0 < n)%nat -> Rabs T / INR n <= 300 -> C * (Rabs T / INR n) <= D ->
  exists q, visited (RK4 s) (way_points (g_epoch s) T n) q /\ g_epoch (rk_state q) = later (g_epoch s) T /\
    separation (g_position (rk_state q)) (g_velocity (rk_state q)) (r T) (v T) <= C * (Rabs T / INR n) ^ 4.
Proof. exact fourth_order_visits. Qed.
Print Assumptions C101_way_points.

(** a geosynchronous state for the ten minutes after J2000, with 1000 km to spare *)
Example C101_example : one_utc_day (g_epoch (rk_state geo)) 600 /\
  exists r v, r 0 = g_position (rk_state geo) /\ v 0 = g_velocity (rk_state geo) /\
  natural_motion (g_epoch (rk_state geo)) 600 r v /\ clear_along (g_epoch (rk_state geo)) 600 r 1000.
Proof. split; [exact geo_day|]. apply motion_margin; [lra|exact geo_margin]. Qed.
