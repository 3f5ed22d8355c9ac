(** Propagation of a coasting spacecraft to an epoch in binary64. *)
From Coq Require Import Reals ZArith Lra Lia Psatz.
From Flocq Require Import Core.
From Verif.Model Require Import Num Constants Linalg Functions Time Celestial Positions States Inertial TimeFloat AngleFloat ElementsFloat SiderealFloat EarthFloat BodyFloat ForceFloat GravityFloat StepFloat.
From Verif.Spec Require Import Geometry Propagation Motion FrameFloat LibmAccuracy GroundFloat EarthFloat BodyFloat SiderealFloat GravityFloat StepFloat.
From Verif.Proofs Require Import NumLemmas LinalgProofs TimeFloatProofs SiderealFloatProofs FrameFloatBasics ConvergenceProofs MotionExists StepFloatProofs StepFloatMotion StepFloatParts StepFloatTo.
From Verif.Proofs Require ClockProofs.
From Verif.Properties Require Import StepFloatProps.
Local Open Scope R_scope.

(** * C123 Propagation to an epoch in binary64 *)

(** step_to_epoch() in binary64 is a run of equal steps, none longer than the
    largest allowed one although quotient and step are rounded, that make up
    the requested time span to within 4e-16 of itself; their number exceeds
    the 300th part of the span in seconds by at most one and a half. *)
Theorem C123_parts : forall L tanf te t r v, b64 t = t -> b64 te = te -> Rabs (t - 51544.5) <= 36524 -> Rabs (te - 51544.5) <= 36524 ->
  let T := (te - t) * 86400 in let s := GCRF (Epoch t) r v in
  exists n h, coast_to_b64 L tanf (Epoch te) s = coast_steps_b64 L tanf h n s /\
    ((0 < n)%nat -> Rabs h <= 300) /\ INR n <= Rabs T / 300 + 1.5 /\ Rabs (INR n * h - T) <= 4e-16 * Rabs T.
Proof.
  intros L tanf te t r v Ft Fe Bt Be T s. apply Rabs_le_inv in Bt, Be. destruct (Req_dec T 0) as [TZ|TN].
  - assert (te = t) by (unfold T in TZ; lra). subst te. exists 0%nat, 0. rewrite TZ, Rabs_R0. cbn [INR]. split; [|split; [lia|split; [lra|rewrite Rmult_0_l, Rminus_eq_0, Rabs_R0; lra]]].
    unfold coast_to_b64, s. cbn [g_epoch GCRF value]. rewrite Rminus_eq_0, (b64_IZR 0) by lia. rewrite Rmult_0_l, (b64_IZR 0) by lia. replace (0 / MAX_STEP) with 0 by (unfold MAX_STEP; lra). rewrite (b64_IZR 0) by lia.
    assert (Z : nceil (nabs 0) = 0%Z). { unfold nabs. rewrite Rabs_R0. assert (B := nceil_bounds 0). assert (-1 < nceil 0 < 1)%Z by (split; apply lt_IZR; lra). lia. }
    rewrite Z. reflexivity.
  - assert (TB : Rabs T <= 7000000000) by (apply Rabs_le; unfold T; lra).
    destruct (parts te t Ft Fe ltac:(lra) ltac:(lra) TN TB) as (Z0 & ZB & HB & TT).
    eexists. eexists. split; [reflexivity|]. cbn [g_epoch GCRF value s]. rewrite INR_IZR_INZ, Z2Nat.id by lia. split; [intros _; exact HB|]. split; [exact ZB|exact TT].
Qed.
Print Assumptions C123_parts.

(** Spans below 300 s: one Runge-Kutta step, with the errors of C121, that
    ends 2 microseconds or less from the requested epoch. *)
Theorem C123_short : forall L tanf te t r v,
  accurate_circular L -> accurate_far L -> accurate_polar L -> accurate_tangent tanf -> accurate_power L ->
  b64 t = t -> b64 te = te -> te <> t -> let T := (te - t) * 86400 in
  Rabs (t - 51544.5) <= 36524 -> Rabs T <= 299.9 -> norm v <= 20 -> roomy t r v (T * (1 + 1e-15)) ->
  exists h t' r' v', Rabs (h - T) <= 4e-16 * Rabs T /\
    coast_to_b64 L tanf (Epoch te) (GCRF (Epoch t) r v) = Ok (GCRF (Epoch t') r' v') /\
    Rabs (t' - te) <= 2.01e-11 /\ runge_kutta_within 2e-11 3e-11 3e-14 8e-10 h t r v t' r' v'.
Proof.
  intros L tanf te t r v AC AF AP AT AW Ft Fe NE T Bt TB VB RM. assert (B := Bt). apply Rabs_le_inv in B. assert (TA := TB). apply Rabs_le_inv in TA. assert (ET : te = t + T / 86400) by (unfold T; field).
  destruct (one_part L tanf te t r v Ft Fe ltac:(lra) ltac:(lra) NE TB) as (h & HB & HT & EQ). fold T in HT.
  assert (hT : Rabs h <= Rabs T * (1 + 1e-15)). { assert (Z := Rabs_triang (h - T) T). replace (h - T + T) with h in Z by ring. assert (P := Rabs_pos T). lra. }
  assert (RH : roomy t r v h).
  { intros x Hx. apply RM. eapply Rle_trans; [exact Hx|]. apply Rplus_le_compat_r. unfold reach. rewrite Rabs_mult, (Rabs_pos_eq (1 + 1e-15)) by lra. assert (P := Rabs_pos h). assert (NV := norm_nonneg v). apply Rmult_le_compat; lra. }
  destruct (C121_step L tanf h t r v AC AF AP AT AW Bt HB VB RH) as (t' & r' & v' & E & K & _).
  exists h, t', r', v'. split; [exact HT|]. split; [rewrite EQ; exact E|]. split; [|exact K].
  destruct K as (t1 & _ & _ & _ & _ & _ & _ & _ & _ & _ & _ & _ & _ & _ & _ & _ & Q & _).
  replace (t' - te) with (t' - (t + h / 86400) + (h - T) / 86400) by (rewrite ET; field). eapply Rle_trans; [apply Rabs_triang|].
  assert (Rabs ((h - T) / 86400) <= 1e-14) by (unfold Rdiv; rewrite Rabs_mult, (Rabs_pos_eq (/ 86400)) by lra; lra). lra.
Qed.
Print Assumptions C123_short.

(** Any span within a UTC day, against the motion the modelled forces cause
    (which must go on for a 1e-15th of the span). *)
Theorem C123_motion : exists C, 0 < C /\ forall L tanf te t r v,
  accurate_circular L -> accurate_far L -> accurate_polar L -> accurate_tangent tanf -> accurate_power L -> b64 t = t -> b64 te = te ->
  let e := Epoch t in let T := (te - t) * 86400 in let W := T * (1 + 1e-15) in let H := Rmin 300 (Rabs T) in let N := Rabs T / 300 + 2 in
  natural_motion e W r v -> clear_along e W r 10504 -> one_utc_day e W ->
  (forall x, during W x -> Rabs (t + x / 86400 - 51544.5) <= 36523 /\ norm (r x) <= 89000 /\ norm (v x) <= 18 /\ away_from_midnight 1e-8 (t + x / 86400)) ->
  let E := C * H ^ 4 + exp (C * Rabs T) * (3.1e-11 * N + C * Rabs T * (2.2e-7 + N * 2e-11)) in E <= 1 -> C * H <= 4 ->
  exists t' r' v', coast_to_b64 L tanf (Epoch te) (GCRF e (r 0) (v 0)) = Ok (GCRF (Epoch t') r' v') /\
    Rabs (t' - te) <= N * 2e-11 /\ separation r' v' (r T) (v T) <= E + 3e-14 * Rabs T.
Proof.
  destruct float_to as (C & C0 & F). exists C. split; [exact C0|]. intros L tanf te t r v AC AF AP AT AW.
  exact (F L tanf te t r v (conj AC (conj AF (conj AP (conj AT AW))))).
Qed.
Print Assumptions C123_motion.

(** Two hundred days, in about fifty-eight thousand steps, and a short span. *)
Example C123_example : let t := 58000.25 in let te := 58200.125 in
  b64 t = t /\ b64 te = te /\ Rabs (t - 51544.5) <= 36524 /\ Rabs (te - 51544.5) <= 36524.
Proof.
  intros t te. assert (A : t = IZR (232001 * 34359738368) / ClockProofs.U) by (unfold t, ClockProofs.U; simpl; lra).
  assert (B : te = IZR (465601 * 17179869184) / ClockProofs.U) by (unfold te, ClockProofs.U; simpl; lra).
  split; [rewrite A; apply ClockProofs.b64_grid; lia|]. split; [rewrite B; apply ClockProofs.b64_grid; lia|].
  unfold t, te. split; apply Rabs_le; lra.
Qed.

(** A geosynchronous spacecraft for 42 seconds. *)
Example C123_short_example : let t := 58000.25 in let te := t + 1 / 2048 in let T := (te - t) * 86400 in let r := V3 42164 0 0 in let v := V3 0 3.07 0 in
  b64 t = t /\ b64 te = te /\ te <> t /\ Rabs (t - 51544.5) <= 36524 /\ Rabs T <= 299.9 /\ norm v <= 20 /\ roomy t r v (T * (1 + 1e-15)).
Proof.
  intros t te T r v. assert (A : t = IZR (232001 * 34359738368) / ClockProofs.U) by (unfold t, ClockProofs.U; simpl; lra).
  assert (B : te = IZR (232001 * 34359738368 + 67108864) / ClockProofs.U) by (unfold te, t, ClockProofs.U; simpl; lra).
  split; [rewrite A; apply ClockProofs.b64_grid; lia|]. split; [rewrite B; apply ClockProofs.b64_grid; lia|]. clear A B.
  assert (TV : T = 42.1875) by (unfold T, te; lra). rewrite TV. clearbody T. unfold te.
  split; [lra|]. split; [apply Rabs_le; unfold t; lra|]. split; [rewrite Rabs_pos_eq; lra|].
  destruct C121_example as (_ & _ & NV & RM & _). split; [exact NV|].
  intros x X. destruct (RM x) as ((_ & F) & G).
  - eapply Rle_trans; [exact X|]. apply Rplus_le_compat_r. unfold reach. rewrite !Rabs_pos_eq by lra. assert (P := norm_nonneg (V3 0 3.07 0)). fold v in P. fold v. apply Rmult_le_compat; lra.
  - split; [|exact G]. split; [cbn [value]; unfold t; apply Rabs_le; lra|exact F].
Qed.

(** The same from J2000: everything but the conditions on the bound itself for
    169 seconds; those as well for constants up to 1e5 and the next epoch. *)
Example C123_motion_example : let t := 51544.5 in let te := t + 1 / 512 in let e := Epoch t in let T := (te - t) * 86400 in let W := T * (1 + 1e-15) in
  b64 t = t /\ b64 te = te /\ one_utc_day e W /\
  exists r v, r 0 = V3 42164 0 0 /\ v 0 = V3 0 3.07 0 /\ natural_motion e W r v /\ clear_along e W r 10504 /\
  forall x, during W x -> Rabs (t + x / 86400 - 51544.5) <= 36523 /\ norm (r x) <= 89000 /\ norm (v x) <= 18 /\ away_from_midnight 1e-8 (t + x / 86400).
Proof.
  intros t te e T W. assert (A : t = IZR (103089 * 68719476736) / ClockProofs.U) by (unfold t, ClockProofs.U; simpl; lra).
  assert (B : te = IZR (103089 * 68719476736 + 268435456) / ClockProofs.U) by (unfold te, t, ClockProofs.U; simpl; lra).
  split; [rewrite A; apply ClockProofs.b64_grid; lia|]. split; [rewrite B; apply ClockProofs.b64_grid; lia|].
  assert (WB : 0 < W <= 240) by (unfold W, T, te; lra). split; [apply geo_one_day; exact WB|]. exact (geo_motion_far W WB).
Qed.
Example C123_bound_example : forall C, 0 < C <= 100000 -> let t := 51544.5 in let te := t + 1 / 137438953472 in let e := Epoch t in let T := (te - t) * 86400 in let W := T * (1 + 1e-15) in
  let H := Rmin 300 (Rabs T) in let N := Rabs T / 300 + 2 in
  b64 te = te /\ C * H ^ 4 + exp (C * Rabs T) * (3.1e-11 * N + C * Rabs T * (2.2e-7 + N * 2e-11)) <= 1 /\ C * H <= 4 /\
  exists r v, natural_motion e W r v /\ clear_along e W r 10504.
Proof.
  intros C HC t te e T W H N. assert (B : te = IZR (103089 * 68719476736 + 1) / ClockProofs.U) by (unfold te, t, ClockProofs.U; simpl; lra).
  split; [rewrite B; apply ClockProofs.b64_grid; lia|]. assert (TB : 6e-7 <= T <= 7e-7) by (unfold T, te; lra).
  assert (WB : 0 < W <= 240) by (unfold W; lra). assert (TP : Rabs T = T) by (apply Rabs_pos_eq; lra).
  assert (HT : H = T) by (unfold H; rewrite TP; apply Rmin_right; lra). rewrite HT, TP. assert (NB : 2 <= N <= 2.1) by (unfold N; rewrite TP; lra). clearbody N.
  assert (CT : 0 <= C * T <= 0.07) by (split; [apply Rmult_le_pos; lra|]; apply Rle_trans with (100000 * 7e-7); [apply Rmult_le_compat|]; lra).
  split; [|split; [lra|destruct (geo_motion_far W WB) as (r & v & _ & _ & NM & CL & _); exists r, v; split; assumption]].
  assert (T3 : 0 <= T ^ 3 <= 1) by (split; [apply pow_le; lra|rewrite <- (pow1 3); apply pow_incr; lra]).
  assert (P : C * T ^ 4 <= 0.07). { replace (C * T ^ 4) with (C * T * T ^ 3) by ring. apply Rle_trans with (0.07 * 1); [apply Rmult_le_compat|]; lra. }
  assert (X : exp (C * T) <= 3). { eapply Rle_trans; [apply exp_le|apply exp_le_3]. lra. }
  assert (X0 := exp_pos (C * T)). assert (Y : 0 <= C * T * (2.2e-7 + N * 2e-11) <= 0.07 * 1e-6) by (split; [apply Rmult_le_pos; lra|apply Rmult_le_compat; lra]).
  apply Rle_trans with (0.07 + 3 * 1e-6); [|lra]. apply Rplus_le_compat; [exact P|]. apply Rmult_le_compat; lra.
Qed.
