(** Steps of the inertial propagator in binary64. *)
From Coq Require Import Reals ZArith Lra Lia Psatz.
From Flocq Require Import Core.
From Verif.Model Require Import Num Constants Linalg Functions Time Celestial Positions States Inertial TimeFloat AngleFloat ElementsFloat SiderealFloat EarthFloat BodyFloat ForceFloat GravityFloat.
From Verif.Model Require Import StepFloat.
From Verif.Spec Require Import Geometry Propagation Motion FrameFloat LibmAccuracy GroundFloat EarthFloat BodyFloat SiderealFloat GravityFloat.
From Verif.Spec Require Import StepFloat.
From Verif.Proofs Require Import NumLemmas LinalgProofs SiderealFloatProofs FrameFloatBasics ConvergenceProofs.
From Verif.Proofs Require Import MotionExists StepFloatProofs StepFloatError StepFloatMany StepFloatMotion.
Local Open Scope R_scope.

(** * C121 A step of the inertial propagator in binary64 *)

(** With the thruster shut, step() in binary64 succeeds and carries out the
    classical Runge-Kutta formulas up to 1.8 microseconds (2e-11 days), 30
    nanometres, 3e-14 km/s and 8e-10 km/s^2; unless one of its three epochs
    is next to a UTC midnight the accelerations are good to 2.3e-12 km/s^2. *)
Theorem C121_step : forall L tanf h t r v,
  accurate_circular L -> accurate_far L -> accurate_polar L -> accurate_tangent tanf -> accurate_power L ->
  Rabs (t - 51544.5) <= 36524 -> Rabs h <= 300 -> norm v <= 20 -> roomy t r v h ->
  exists t' r' v', coast_step_b64 L tanf h (GCRF (Epoch t) r v) = Ok (GCRF (Epoch t') r' v') /\
    runge_kutta_within 2e-11 3e-11 3e-14 8e-10 h t r v t' r' v' /\
    (clear_of_midnight t -> clear_of_midnight (t + h / 2 / 86400) -> clear_of_midnight (t + h / 86400) ->
     runge_kutta_within 2e-11 3e-11 3e-14 2.3e-12 h t r v t' r' v').
Proof.
  intros L tanf h t r v AC AF AP AT AW TB HB VB RM. assert (LI : libs L tanf) by exact (conj AC (conj AF (conj AP (conj AT AW)))).
  destruct (step_close 2.7e-8 8e-10 L tanf h t r v LI TB HB VB RM) as (t' & r' & v' & E & K); [intros u w _ _ U; apply gha_round_any; exact U|lra..|].
  exists t', r', v'. split; [exact E|]. split; [exact K|]. intros C0 C1 C2.
  destruct (step_close 8e-11 2.3e-12 L tanf h t r v LI TB HB VB RM) as (t2 & r2 & v2 & E2 & K2); [|lra..|].
  - intros u w W UW U. apply gha_round; [exact U|]. apply Rabs_le_inv in UW. destruct W as [-> | [-> | ->]]; [destruct C0 as (D & A & B)|destruct C1 as (D & A & B)|destruct C2 as (D & A & B)]; exists D; lra.
  - rewrite E in E2. inversion E2; subst. exact K2.
Qed.
Print Assumptions C121_step.

(** The new state is as close to that of the exact step: with one constant
    [K] for all states, steps and libraries. *)
Theorem C121_error : exists K, 0 < K /\ forall L tanf h t r v,
  accurate_circular L -> accurate_far L -> accurate_polar L -> accurate_tangent tanf -> accurate_power L ->
  Rabs (t - 51544.5) <= 36524 -> Rabs h <= 300 -> norm v <= 20 -> roomy t r v h ->
  clear_of_midnight t -> clear_of_midnight (t + h / 2 / 86400) -> clear_of_midnight (t + h / 86400) ->
  exists t' r' v' q, coast_step_b64 L tanf h (GCRF (Epoch t) r v) = Ok (GCRF (Epoch t') r' v') /\
    rk4_step (set_step_size (RK4 (GCRF (Epoch t) r v)) h) = (q, Ok tt) /\
    let H := Rabs h in let b := 2.3e-12 + K * (5e-11 + H * 3e-14 + H * H * 2.3e-12) in
    Rabs (t' - value (g_epoch (rk_state q))) <= 2e-11 /\
    norm (sub r' (g_position (rk_state q))) <= 3e-11 + H * (3e-14 + H * b) /\
    norm (sub v' (g_velocity (rk_state q))) <= 3e-14 + H * b.
Proof.
  destruct forces as (Lp & LF). assert (L0 := proj1 LF). exists (Lp * (1 + 45000 * Lp)). split; [apply Rmult_lt_0_compat; lra|].
  intros L tanf h t r v AC AF AP AT AW TB HB VB RM C0 C1 C2.
  destruct (C121_step L tanf h t r v AC AF AP AT AW TB HB VB RM) as (t' & r' & v' & E & _ & K). specialize (K C0 C1 C2).
  destruct (step_error Lp 2.3e-12 3e-11 3e-14 h t r v t' r' v' LF ltac:(lra) ltac:(lra) ltac:(lra) TB HB VB (fun x X => proj1 (RM x X)) C0 C1 C2 K) as (q & Q & QT & R).
  exists t', r', v', q. split; [exact E|]. split; [exact Q|]. intros H b. split; [|exact R]. rewrite QT. destruct K as (t1 & _ & _ & _ & _ & _ & _ & _ & _ & _ & _ & _ & _ & _ & _ & _ & T & _). exact T.
Qed.
Print Assumptions C121_error.

(** A geosynchronous spacecraft, in the morning. *)
Example C121_example : let t := 58000.26 in let h := 60 in let r := V3 42164 0 0 in let v := V3 0 3.07 0 in
  Rabs (t - 51544.5) <= 36524 /\ Rabs h <= 300 /\ norm v <= 20 /\ roomy t r v h /\
  clear_of_midnight t /\ clear_of_midnight (t + h / 2 / 86400) /\ clear_of_midnight (t + h / 86400).
Proof.
  intros t h r v. assert (NV : norm v = 3.07). { unfold norm, dot, v. cbn [x3 y3 z3]. replace (0 * 0 + 3.07 * 3.07 + 0 * 0) with (3.07 * 3.07) by lra. apply sqrt_square. lra. }
  split; [apply Rabs_le; unfold t; lra|]. split; [unfold h; rewrite Rabs_pos_eq; lra|]. split; [lra|]. split.
  { intros x X. rewrite NV in X. unfold reach, h in X. rewrite (Rabs_pos_eq 60) in X by lra.
    assert (D : norm (sub x r) <= 370) by lra. clear X. assert (NR : norm r = 42164). { unfold norm, dot, r. cbn [x3 y3 z3]. replace (42164 * 42164 + 0 * 0 + 0 * 0) with (42164 * 42164) by ring. apply sqrt_square. lra. }
    assert (T := sub_triangle x r zero3). rewrite !sub_zero in T. assert (XC : Rabs (x3 x - 42164) <= norm (sub x r)) by exact (proj1 (norm_ge_xyz (sub x r))).
    assert (XX : Rabs (x3 x - 42164) <= 370) by lra. apply Rabs_le_inv in XX. assert (S : 41794 <= sqrt (x3 x * x3 x + y3 x * y3 x)).
    { rewrite <- (sqrt_square 41794) by lra. apply sqrt_le_1_alt. assert (Y := Rle_0_sqr (y3 x)). unfold Rsqr in Y. assert (41794 * 41794 <= x3 x * x3 x) by (apply Rmult_le_compat; lra). lra. }
    assert (XN := proj1 (norm_ge_xyz x)). assert (XA := Rle_abs (x3 x)). rewrite NR in T. clear NR.
    split; [|lra]. split; [cbn [value]; unfold t; apply Rabs_le; lra|]. split; [lra|]. lra. }
  unfold t, h. repeat split; exists 58000%Z; lra.
Qed.

(** * C122 A run of steps in binary64 *)

(** With one constant [K] for all starts, steps and libraries: [n] steps in
    binary64 succeed whenever the [n] exact steps stay where forces and speeds
    are bounded, and end next to them. *)
Theorem C122_steps : exists K, 0 < K /\ forall L tanf h t r v n,
  accurate_circular L -> accurate_far L -> accurate_polar L -> accurate_tangent tanf -> accurate_power L -> Rabs h <= 300 ->
  let e := Epoch t in let p := set_step_size (RK4 (GCRF e r v)) h in
  (forall k q, (k < n)%nat -> stepped k p q -> Rabs (value (g_epoch (rk_state q)) - 51544.5) <= 36523 /\
    norm (g_velocity (rk_state q)) <= 19 /\ ample (value (g_epoch (rk_state q))) (g_position (rk_state q)) h) ->
  (forall k, (k <= 2 * n)%nat -> away_from_midnight (1e-10 + INR n * 2e-11) (t + INR k * (h / 2) / 86400)) ->
  let E := exp (K * (INR n * Rabs h)) * (INR n * (3.1e-11 + K * Rabs h * (2.2e-7 + INR n * 2e-11))) in E <= 1 ->
  exists q t' r' v', stepped n p q /\ coast_steps_b64 L tanf h n (GCRF e r v) = Ok (GCRF (Epoch t') r' v') /\
    Rabs (t' - value (g_epoch (rk_state q))) <= INR n * 2e-11 /\
    separation r' v' (g_position (rk_state q)) (g_velocity (rk_state q)) <= E.
Proof.
  destruct forces as (Lp & LF). assert (L0 := proj1 LF). exists (1 + 90300 * (Lp * (1 + 45000 * Lp))).
  split; [assert (0 < Lp * (1 + 45000 * Lp)) by (apply Rmult_lt_0_compat; lra); lra|].
  intros L tanf h t r v n AC AF AP AT AW HB e p HY MD E E1. assert (LI : libs L tanf) by exact (conj AC (conj AF (conj AP (conj AT AW)))).
  destruct (run_close L tanf Lp h t r v n LF LI HB HY MD E1 n (Nat.le_refl n)) as (q & qr & qv & t' & r' & v' & S & RQ & _ & _ & CS & TQ & SE).
  exists q, t', r', v'. split; [exact S|]. split; [exact CS|]. rewrite RQ. split; [exact TQ|exact SE].
Qed.
Print Assumptions C122_steps.

(** Against the motion the modelled forces cause: the discretisation error of
    C101 plus the rounding error of the [n] steps. *)
Theorem C122_motion : forall longest, exists C, 0 < C /\ forall L tanf t r v T n,
  accurate_circular L -> accurate_far L -> accurate_polar L -> accurate_tangent tanf -> accurate_power L ->
  let e := Epoch t in let h := T / INR n in let D := reach 20 0.05 h + 4 in
  Rabs T <= longest -> (0 < n)%nat -> Rabs h <= 300 -> natural_motion e T r v -> clear_along e T r D ->
  (forall x, during T x -> Rabs (t + x / 86400 - 51544.5) <= 36523 /\ norm (r x) + D <= 100000 /\ norm (v x) <= 18) ->
  (forall x, during T x -> away_from_midnight (1e-10 + INR n * 2e-11) (t + x / 86400)) -> one_utc_day e T ->
  let E := C * Rabs h ^ 4 + exp (C * Rabs T) * (3.1e-11 * INR n + C * Rabs T * (2.2e-7 + INR n * 2e-11)) in
  E <= 1 -> C * Rabs h <= D ->
  exists t' r' v', coast_steps_b64 L tanf h n (GCRF e (r 0) (v 0)) = Ok (GCRF (Epoch t') r' v') /\
    Rabs (t' - (t + T / 86400)) <= INR n * 2e-11 /\ separation r' v' (r T) (v T) <= E.
Proof.
  intros longest. destruct (float_motion longest) as (C & C0 & FM). exists C. split; [exact C0|].
  intros L tanf t r v T n AC AF AP AT AW e h D TB N0 HB NM CL FIT AM DAY E E1 CD.
  apply (FM L tanf t r v T n (conj AC (conj AF (conj AP (conj AT AW))))); auto.
  apply (FIT 0). exists 0. split; lra.
Qed.
Print Assumptions C122_motion.

(** A geosynchronous spacecraft: eight steps of half a minute meet everything
    but the condition on the bound itself (its constant is not named), ... *)
Example C122_example : let e := Epoch 51544.5 in let T := 240 in let n := 8%nat in let h := T / INR n in let D := reach 20 0.05 h + 4 in
  let p := set_step_size (RK4 geo_start) h in
  (forall k q, (k < n)%nat -> stepped k p q -> Rabs (value (g_epoch (rk_state q)) - 51544.5) <= 36523 /\
    norm (g_velocity (rk_state q)) <= 19 /\ ample (value (g_epoch (rk_state q))) (g_position (rk_state q)) h) /\
  exists r v, r 0 = V3 42164 0 0 /\ v 0 = V3 0 3.07 0 /\ natural_motion e T r v /\ clear_along e T r D /\
  (forall x, during T x -> Rabs (51544.5 + x / 86400 - 51544.5) <= 36523 /\ norm (r x) + D <= 100000 /\ norm (v x) <= 18) /\
  (forall x, during T x -> away_from_midnight (1e-10 + INR n * 2e-11) (51544.5 + x / 86400)) /\ one_utc_day e T.
Proof.
  intros e T n h D p. assert (HH : h = 30) by (unfold h, T, n; cbn [INR]; lra). assert (N8 : INR n = 8) by (unfold n; cbn [INR]; lra).
  split; [apply geo_steps; [lra|unfold n; lia|rewrite N8, HH; lra]|].
  destruct (geo_motion T h ltac:(unfold T; lra) ltac:(rewrite HH, Rabs_pos_eq; lra)) as (r & v & R0 & V0 & NM & CL & FIT).
  exists r, v. repeat (split; [assumption|]). split; [|apply geo_one_day; unfold T; lra].
  intros x Hx. apply (geo_away T); [unfold T; lra|rewrite N8; lra|exact Hx].
Qed.

(** ... and whatever that constant, a short enough flight meets that too. *)
Example C122_short : forall C, 0 < C -> let e := Epoch 51544.5 in let T := / (2 * (1 + C)) in let n := 1%nat in let h := T / INR n in let D := reach 20 0.05 h + 4 in
  (exists r v, r 0 = V3 42164 0 0 /\ v 0 = V3 0 3.07 0 /\ natural_motion e T r v /\ clear_along e T r D /\
  (forall x, during T x -> Rabs (51544.5 + x / 86400 - 51544.5) <= 36523 /\ norm (r x) + D <= 100000 /\ norm (v x) <= 18) /\
  (forall x, during T x -> away_from_midnight (1e-10 + INR n * 2e-11) (51544.5 + x / 86400)) /\ one_utc_day e T) /\ 0 < T /\
  C * Rabs h ^ 4 + exp (C * Rabs T) * (3.1e-11 * INR n + C * Rabs T * (2.2e-7 + INR n * 2e-11)) <= 1 /\ C * Rabs h <= D.
Proof.
  intros C C0 e T n h D. assert (T0 : 0 < T) by (apply Rinv_0_lt_compat; lra).
  assert (T2 : (1 + C) * T = 1 / 2) by (unfold T; field; lra). assert (TH : T <= 1 / 2) by nra. assert (CT : 0 <= C * T <= 1 / 2) by nra.
  assert (HH : h = T) by (unfold h, n; cbn [INR]; field). assert (HA : Rabs h = T) by (rewrite HH; apply Rabs_pos_eq; lra).
  split; [|split; [exact T0|]].
  - destruct (geo_motion T h ltac:(lra) ltac:(lra)) as (r & v & R0 & V0 & NM & CL & FIT).
    exists r, v. repeat (split; [assumption|]). split; [|apply geo_one_day; lra].
    intros x Hx. apply (geo_away T); [lra|unfold n; cbn [INR]; lra|exact Hx].
  - assert (SR := small_reach h ltac:(lra)). rewrite HA. rewrite (Rabs_pos_eq T) by lra. unfold n. cbn [INR]. split; [|unfold D; lra].
    assert (T3 : 0 <= T ^ 3 <= 1) by (split; [apply pow_le; lra|rewrite <- (pow1 3); apply pow_incr; lra]).
    assert (P : C * T ^ 4 <= 1 / 2). { replace (C * T ^ 4) with (C * T * T ^ 3) by ring. apply Rle_trans with (1 / 2 * 1); [apply Rmult_le_compat|]; lra. }
    assert (X : exp (C * T) <= 3). { eapply Rle_trans; [apply exp_le|apply Rlt_le, exp_le_3 || apply exp_le_3]. lra. }
    assert (X0 := exp_pos (C * T)). assert (Y : 0 <= 3.1e-11 * 1 + C * T * (2.2e-7 + 1 * 2e-11) <= 1e-6) by (generalize dependent (C * T); intros; lra).
    apply Rle_trans with (1 / 2 + 3 * 1e-6); [|lra]. apply Rplus_le_compat; [exact P|]. apply Rmult_le_compat; lra.
Qed.
