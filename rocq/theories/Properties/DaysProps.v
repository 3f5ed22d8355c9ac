(** C105: propagation over several days. *)
From Coq Require Import Reals Lra Lia List.
From Verif.Model Require Import Num Constants Linalg Time States Inertial.
From Verif.Spec Require Import Geometry Propagation Motion Route.
From Verif.Proofs Require Import NumLemmas StatesProofs InertialProofs SafeStep ConvergenceProofs MotionExists OrderProofs RouteProofs DaysProofs.
Import ListNotations.
Local Open Scope R_scope.

(** step_to_epoch() through any list of epochs over any number of days, with legs
    of at most [h] seconds: the error is of the fourth power of [h], plus the
    length [c] of the legs during which it is midnight. *)
Theorem C105_days : forall speed longest, exists C, 0 < C /\ forall s T r v D h l c, r 0 = g_position s -> v 0 = g_velocity s ->
  norm (g_velocity s) <= speed -> Rabs T <= longest ->
  natural_motion (g_epoch s) T r v -> clear_along (g_epoch s) T r D ->
  (forall t, In t l -> during T t) -> legs_within h 0 l -> route_length 0 l <= longest -> midnight_time (g_epoch s) 0 l c ->
  0 <= h <= 300 -> C * (h + c) <= D ->
  exists q, visited (RK4 s) (map (later (g_epoch s)) l) q /\ g_epoch (rk_state q) = later (g_epoch s) (last l 0) /\
    separation (g_position (rk_state q)) (g_velocity (rk_state q)) (r (last l 0)) (v (last l 0)) <= C * (h ^ 4 + c).
Proof. exact days. Qed.
Print Assumptions C105_days.

(** Legs over midnight no longer than [h ^ 4] seconds in all leave the error of the
    fourth order. *)
Theorem C105_short_crossings : forall speed longest, exists C, 0 < C /\ forall s T r v D h l c, r 0 = g_position s -> v 0 = g_velocity s ->
  norm (g_velocity s) <= speed -> Rabs T <= longest ->
  natural_motion (g_epoch s) T r v -> clear_along (g_epoch s) T r D ->
  (forall t, In t l -> during T t) -> legs_within h 0 l -> route_length 0 l <= longest -> midnight_time (g_epoch s) 0 l c -> c <= h ^ 4 ->
  0 <= h <= 300 -> C * (h + c) <= D ->
  exists q, visited (RK4 s) (map (later (g_epoch s)) l) q /\ g_epoch (rk_state q) = later (g_epoch s) (last l 0) /\
    separation (g_position (rk_state q)) (g_velocity (rk_state q)) (r (last l 0)) (v (last l 0)) <= C * h ^ 4.
Proof.
  intros V B. destruct (days V B) as (C & C0 & H). exists (2 * C). split; [lra|].
  intros s T r v D h l c R0 V0 HV HB NM Cl Du Lg Rl Mt Hc Hh HD. assert (c0 := mt_nonneg _ _ _ _ Mt).
  assert (HD' : C * (h + c) <= D) by (assert (0 <= C * (h + c)) by (apply Rmult_le_pos; lra); lra).
  destruct (H s T r v D h l c R0 V0 HV HB NM Cl Du Lg Rl Mt Hh HD') as (q & Q1 & Q2 & Q3). exists q. split; auto. split; auto.
  assert (C * (h ^ 4 + c) <= C * (h ^ 4 + h ^ 4)) by (apply Rmult_le_compat_l; lra). lra.
Qed.
Print Assumptions C105_short_crossings.

(** Five minutes before and after a UTC midnight at geosynchronous altitude, in legs
    of half a minute, with one leg of a second over midnight. *)
Definition eve : gcrf := GCRF (Epoch (51545 + (69.184 - 300) / 86400)) (V3 42164 0 0) (V3 0 3.07 0).
Definition over_midnight : list R := map (fun i => INR i * 30) (seq 1 9) ++ [299.5; 300.5] ++ map (fun i => 300 + INR i * 30) (seq 1 10).

Lemma eve_same t u : (0 <= t /\ t <= u /\ u < 300) \/ (300 <= t /\ t <= u /\ u <= 600) -> one_utc_day (later (g_epoch eve) t) (u - t).
Proof.
  intros H. exists (if Rlt_dec u 300 then 51544%Z else 51545%Z). intros s (x & Hx & ->). unfold later. cbn [eve GCRF g_epoch value].
  assert (0 <= x * (u - t) <= u - t) by (split; [apply Rmult_le_pos; lra|]; nra). destruct (Rlt_dec u 300); rewrite plus_IZR; lra.
Qed.

Example C105_example : (forall t, In t over_midnight -> during 600 t) /\ legs_within 30 0 over_midnight /\ route_length 0 over_midnight <= 600 /\
  midnight_time (g_epoch eve) 0 over_midnight 1 /\
  exists r v, r 0 = g_position eve /\ v 0 = g_velocity eve /\
  natural_motion (g_epoch eve) 600 r v /\ clear_along (g_epoch eve) 600 r 1000.
Proof.
  split; [|split; [|split; [|split]]].
  - intros t Ht. assert (G : 0 <= t <= 600).
    { unfold over_midnight in Ht. cbn in Ht. repeat (destruct Ht as [<-|Ht]; [lra|]). contradiction. }
    exists (t / 600). split; [lra|field].
  - cbn. repeat match goal with |- _ /\ _ => split end; auto; apply Rabs_le; lra.
  - cbn. repeat match goal with |- context [Rabs ?x] => first [rewrite (Rabs_pos_eq x) by lra | rewrite (Rabs_left x) by lra] end. lra.
  - unfold over_midnight. cbn [map seq app].
    do 10 (apply mt_same; [apply eve_same; cbn; lra|]).
    replace 1 with (Rabs (300.5 - 299.5) + 0) at 1 by (rewrite Rabs_pos_eq; lra). apply mt_over.
    do 10 (apply mt_same; [apply eve_same; cbn; lra|]). apply mt_none.
  - apply motion_margin; [lra|].
    assert (P : Rabs 600 = 600) by (apply Rabs_pos_eq; lra).
    assert (R : reach (norm (g_velocity eve)) 0.05 600 <= 24000).
    { unfold eve, reach. cbn [GCRF g_velocity]. rewrite norm_y, P by lra. lra. }
    set (D := reach (norm (g_velocity eve)) 0.05 600) in *. clearbody D.
    apply clear_check; unfold eve in *; cbn [GCRF g_epoch g_position x3 y3] in *; rewrite ?norm_x by lra; cbn [value].
    + rewrite Rabs_pos_eq; lra.
    + lra.
    + lra.
    + replace (42164 * 42164 + 0 * 0) with (42164 * 42164) by ring. rewrite sqrt_square by lra. lra.
Qed.
