(** Propagation to an epoch in binary64 against the natural motion. *)
From Coq Require Import Reals ZArith List Lra Lia Psatz.
From Flocq Require Import Core.
From Verif.Model Require Import Num Constants Linalg Functions Time Celestial Positions States Inertial TimeFloat AngleFloat ElementsFloat FrameFloat SiderealFloat GravityFloat StepFloat.
From Verif.Spec Require Import Geometry Propagation Motion FrameFloat EarthFloat SiderealFloat StepFloat.
From Verif.Proofs Require Import NumLemmas LinalgProofs TimeFloatProofs SmoothForces ConvergenceProofs OrderProofs FrameFloatBasics SiderealFloatProofs.
From Verif.Proofs Require Import InertialProofs SafeStep MotionExists StepFloatProofs StepFloatError StepFloatMany StepFloatMotion.
From Verif.Proofs Require Import StepFloatParts.
Local Open Scope R_scope.

Lemma float_to : exists C, 0 < C /\ forall L tanf te t r v, libs L tanf -> b64 t = t -> b64 te = te ->
  let e := Epoch t in let T := (te - t) * 86400 in let W := T * (1 + 1e-15) in let H := Rmin 300 (Rabs T) in let N := Rabs T / 300 + 2 in
  natural_motion e W r v -> clear_along e W r 10504 -> one_utc_day e W ->
  (forall x, during W x -> Rabs (t + x / 86400 - 51544.5) <= 36523 /\ norm (r x) <= 89000 /\ norm (v x) <= 18 /\ away_from_midnight 1e-8 (t + x / 86400)) ->
  let E := C * H ^ 4 + exp (C * Rabs T) * (3.1e-11 * N + C * Rabs T * (2.2e-7 + N * 2e-11)) in E <= 1 -> C * H <= 4 ->
  exists t' r' v', coast_to_b64 L tanf (Epoch te) (GCRF e (r 0) (v 0)) = Ok (GCRF (Epoch t') r' v') /\
    Rabs (t' - te) <= N * 2e-11 /\ separation r' v' (r T) (v T) <= E + 3e-14 * Rabs T.
Proof.
  destruct (float_motion 96000) as (C & C0 & FM). exists (2 * C). split; [lra|].
  intros L tanf te t r v LI Ft Fe e T W H N NM CL DAY FIT E E1 CH.
  assert (TP := Rabs_pos T). assert (H0 : 0 <= H) by (unfold H; apply Rmin_glb; lra). assert (H3 : H <= 300) by apply Rmin_l. assert (HT : H <= Rabs T) by apply Rmin_r.
  assert (DW0 : during W 0) by (exists 0; split; lra). assert (DWT : during W T) by (exists (/ (1 + 1e-15)); split; [lra|unfold W; field; lra]).
  destruct (Req_dec T 0) as [TZ|TN].
  { assert (te = t) by (unfold T in TZ; lra). subst te. exists t, (r 0), (v 0). split.
    - unfold coast_to_b64. cbn [e g_epoch GCRF value]. rewrite Rminus_eq_0, (b64_IZR 0) by lia. rewrite Rmult_0_l, (b64_IZR 0) by lia. replace (0 / MAX_STEP) with 0 by (unfold MAX_STEP; lra). rewrite (b64_IZR 0) by lia.
      assert (Z : nceil (nabs 0) = 0%Z). { unfold nabs. rewrite Rabs_R0. assert (B := nceil_bounds 0). assert (-1 < nceil 0 < 1)%Z by (split; apply lt_IZR; lra). lia. }
      rewrite Z. reflexivity.
    - split; [rewrite Rminus_eq_0, Rabs_R0; unfold N; lra|]. rewrite TZ, separation_self. rewrite Rabs_R0.
      assert (0 <= E); [|lra]. unfold E. apply Rplus_le_le_0_compat; [apply Rmult_le_pos; [lra|apply pow_le; lra]|]. apply Rmult_le_pos; [apply Rlt_le, exp_pos|].
      assert (0 <= 2 * C * Rabs T * (2.2e-7 + N * 2e-11)) by (repeat apply Rmult_le_pos; unfold N; lra). unfold N at 1. lra. }
  assert (TB : Rabs T <= 86400).
  { destruct DAY as (k & DAY). assert (A := DAY 0 DW0). assert (B := DAY T DWT). cbn [later value e] in A, B. rewrite plus_IZR in A, B. apply Rabs_le. lra. }
  destruct (FIT 0 DW0) as (F0 & _ & V0 & _). destruct (FIT T DWT) as (F1 & _). apply Rabs_le_inv in F0, F1.
  assert (TE : t + T / 86400 = te) by (unfold T; field). rewrite TE in F1.
  assert (PA := parts te t Ft Fe ltac:(lra) ltac:(lra)). cbv zeta in PA. fold T in PA. specialize (PA TN ltac:(lra)).
  set (dt := b64 (b64 (te - t) * 86400)) in *. set (z := nceil (nabs (b64 (dt / MAX_STEP)))) in *. set (h := b64 (dt / of_Z z)) in *. destruct PA as (Z0 & ZB & HB & TT).
  set (m := Z.to_nat z). assert (M0 : (0 < m)%nat) by (unfold m; lia). assert (ZM : IZR z = INR m) by (unfold m; rewrite INR_IZR_INZ, Z2Nat.id by lia; reflexivity). rewrite ZM in ZB, TT.
  assert (m1 : 1 <= INR m) by (change 1 with (INR 1); apply le_INR; lia).
  set (T' := INR m * h) in *. assert (HH : T' / INR m = h) by (unfold T'; field; lra).
  assert (TA : Rabs T' <= 1.1 * Rabs T). { assert (Z1 := Rabs_triang (T' - T) T). replace (T' - T + T) with T' in Z1 by ring. lra. }
  assert (hp := Rabs_pos h). assert (hT : Rabs h <= Rabs T'). { unfold T'. rewrite Rabs_mult, (Rabs_pos_eq (INR m)) by lra. assert (1 * Rabs h <= INR m * Rabs h) by (apply Rmult_le_compat_r; lra). lra. }
  assert (hH : Rabs h <= 1.1 * H). { unfold H. unfold Rmin. destruct (Rle_dec 300 (Rabs T)); lra. }
  assert (DW : during W T').
  { assert (P : 0 < Rabs T) by (apply Rabs_pos_lt; exact TN). exists (T' / T * / (1 + 1e-15)). split; [|unfold W, Rdiv; rewrite (Rmult_comm T), <- !Rmult_assoc, (Rmult_assoc (T' * / T)), Rinv_l, Rmult_1_r, Rmult_assoc, Rinv_l by (exact TN || lra); ring].
    assert (Q : Rabs (T' / T - 1) <= 4e-16). { replace (T' / T - 1) with ((T' - T) * / T) by (field; exact TN). rewrite Rabs_mult, Rabs_inv. apply Rmult_le_reg_r with (Rabs T); [exact P|]. rewrite Rmult_assoc, Rinv_l by lra. lra. }
    apply Rabs_le_inv in Q. set (q := T' / T) in *. clearbody q. clear - Q. split; [apply Rmult_le_pos; lra|]. apply Rmult_le_reg_r with (1 + 1e-15); [lra|]. rewrite Rmult_assoc, Rinv_l by lra. lra. }
  assert (RB : 0 <= reach 20 0.05 h <= 10500). { unfold reach. split; [apply Rmult_le_pos; lra|]. apply Rle_trans with (300 * (20 + 0.05 * 300)); [apply Rmult_le_compat; lra|lra]. }
  assert (N0 : 0 <= N) by (unfold N; lra). assert (mN : INR m <= N) by (unfold N; lra).
  set (E' := C * Rabs h ^ 4 + exp (C * Rabs T') * (3.1e-11 * INR m + C * Rabs T' * (2.2e-7 + INR m * 2e-11))).
  assert (EE : E' <= E).
  { unfold E', E. apply Rplus_le_compat.
    - apply Rle_trans with (C * (1.1 * H) ^ 4); [apply Rmult_le_compat_l; [lra|apply pow_incr; lra]|]. rewrite Rpow_mult_distr. assert (0 <= H ^ 4) by (apply pow_le; lra).
      replace (2 * C * H ^ 4) with (C * (2 * H ^ 4)) by ring. apply Rmult_le_compat_l; [lra|]. apply Rmult_le_compat_r; [lra|]. simpl. lra.
    - assert (CT : C * Rabs T' <= 2 * C * Rabs T). { replace (2 * C * Rabs T) with (C * (2 * Rabs T)) by ring. apply Rmult_le_compat_l; lra. }
      assert (CT0 : 0 <= C * Rabs T') by (apply Rmult_le_pos; [lra|apply Rabs_pos]).
      apply Rmult_le_compat; [apply Rlt_le, exp_pos| |apply exp_le; exact CT|].
      + apply Rplus_le_le_0_compat; [lra|]. apply Rmult_le_pos; lra.
      + apply Rplus_le_compat; [lra|]. apply Rmult_le_compat; lra. }
  assert (Chh : C * Rabs h <= 4). { apply Rle_trans with (C * (2 * H)); [apply Rmult_le_compat_l; lra|]. lra. }
  assert (F := FM L tanf t r v T' m LI). cbv zeta in F. rewrite HH in F. fold E' in F.
  destruct F as (t' & r' & v' & CS & TQ & SE).
  - exact V0.
  - lra.
  - exact M0.
  - exact HB.
  - exact (natural_part e W r v T' NM DW).
  - intros x y Hx Hy. apply (CL x y); [exact (during_trans W T' x DW Hx)|lra].
  - intros x Hx. destruct (FIT x (during_trans W T' x DW Hx)) as (G1 & G2 & G3 & _). split; [exact G1|]. split; [lra|exact G3].
  - intros x Hx. destruct (FIT x (during_trans W T' x DW Hx)) as (_ & _ & _ & (D & G4)). exists D. lra.
  - destruct DAY as (k & DAY). exists k. intros x Hx. apply DAY. exact (during_trans W T' x DW Hx).
  - lra.
  - lra.
  - exists t', r', v'. split; [exact CS|]. assert (T5 : 4e-16 * Rabs T <= 4e-11) by lra. split.
    + replace (t' - te) with (t' - (t + T' / 86400) + (T' - T) / 86400) by (rewrite <- TE; field). eapply Rle_trans; [apply Rabs_triang|].
      assert (Rabs ((T' - T) / 86400) <= 4e-16 * Rabs T) by (unfold Rdiv; rewrite Rabs_mult, (Rabs_pos_eq (/ 86400)) by lra; assert (Z := Rabs_pos (T' - T)); lra).
      assert (INR m <= N - 0.5) by (unfold N; lra). set (a := 4e-16 * Rabs T) in *. clearbody a.
      assert (A2 : Rabs ((T' - T) / 86400) <= 1e-13) by (unfold Rdiv; rewrite Rabs_mult, (Rabs_pos_eq (/ 86400)) by lra; lra). lra.
    + destruct (natural_follows e W r v 10504 ltac:(lra) CL NM) as (a & FF).
      assert (BT : Rmin T (T + (T' - T)) <= T' <= Rmax T (T + (T' - T))) by (replace (T + (T' - T)) with T' by ring; split; [apply Rmin_r|apply Rmax_r]).
      assert (DW2 : during W (T + (T' - T))) by (replace (T + (T' - T)) with T' by ring; exact DW).
      assert (MR : norm (sub (r T') (r T)) <= 3 * (Rabs (T' - T) * 18)).
      { apply (moved v r W T (T' - T) 18); [lra|intros s Hs; apply (FF s Hs)|exact DWT|exact DW2|intros s Hs; apply (FIT s Hs)|exact BT]. }
      assert (MV : norm (sub (v T') (v T)) <= 3 * (Rabs (T' - T) * 0.05)).
      { apply (moved a v W T (T' - T) 0.05); [lra|intros s Hs; apply (FF s Hs)|exact DWT|exact DW2| |exact BT].
        intros s Hs. destruct (FF s Hs) as (-> & _). assert (A := acc_small e 1 r s). unfold acc in A. rewrite !Rmult_1_r in A. apply A. apply (clear_self _ W r 10504 s ltac:(lra) CL Hs). }
      unfold separation in *. assert (Y1 := sub_triangle r' (r T') (r T)). assert (Y2 := sub_triangle v' (v T') (v T)). lra.
Qed.

(** Less than 300 seconds are covered in one step. *)
Lemma one_part L tanf te t r v : b64 t = t -> b64 te = te -> 15000 <= t -> 15000 <= te -> te <> t -> let T := (te - t) * 86400 in Rabs T <= 299.9 ->
  exists h, Rabs h <= 300 /\ Rabs (h - T) <= 4e-16 * Rabs T /\ coast_to_b64 L tanf (Epoch te) (GCRF (Epoch t) r v) = coast_step_b64 L tanf h (GCRF (Epoch t) r v).
Proof.
  intros Ft Fe Gt Ge NE T TB. assert (TN : T <> 0) by (unfold T; lra).
  destruct (parts te t Ft Fe Gt Ge TN ltac:(fold T; lra)) as (Z0 & ZB & HB & TT). fold T in ZB, TT.
  unfold coast_to_b64. cbn [g_epoch GCRF value].
  set (dt := b64 (b64 (te - t) * 86400)) in *. set (z := nceil (nabs (b64 (dt / MAX_STEP)))) in *.
  assert (z < 3)%Z by (apply lt_IZR; lra). assert (Z12 : z = 1%Z \/ z = 2%Z) by lia.
  set (h := b64 (dt / of_Z z)) in *.
  assert (E1 : z = 1%Z).
  { destruct Z12 as [|E2]; [assumption|exfalso]. assert (B := nceil_bounds (nabs (b64 (dt / MAX_STEP)))). fold z in B. rewrite E2 in B, TT. destruct B as (B & _).
    assert (dT : Rabs dt <= 299.95). { unfold dt. assert (D := ElementsFloatProofs.b64_fine (te - t)). assert (TA : Rabs T = Rabs (te - t) * 86400) by (unfold T; rewrite Rabs_mult, (Rabs_pos_eq 86400) by lra; reflexivity).
      assert (D2 := ElementsFloatProofs.b64_fine (b64 (te - t) * 86400)). set (d := b64 (te - t)) in *.
      assert (Z1 := Rabs_triang (d - (te - t)) (te - t)). replace (d - (te - t) + (te - t)) with d in Z1 by ring.
      assert (Z2 := Rabs_triang (b64 (d * 86400) - d * 86400) (d * 86400)). replace (b64 (d * 86400) - d * 86400 + d * 86400) with (b64 (d * 86400)) in Z2 by ring.
      assert (DA : Rabs (d * 86400) = Rabs d * 86400) by (rewrite Rabs_mult, (Rabs_pos_eq 86400) by lra; reflexivity). lra. }
    unfold nabs in B. rewrite b64_Rabs in B. assert (M : Rabs (dt / MAX_STEP) <= 1) by (unfold MAX_STEP, Rdiv; rewrite Rabs_mult, (Rabs_pos_eq (/ 300)) by lra; lra).
    apply b64_mono in M. rewrite (b64_IZR 1) in M by lia. lra. }
  exists h. split; [exact HB|]. split; [rewrite E1 in TT; replace (h - T) with (1 * h - T) by ring; exact TT|].
  rewrite E1. reflexivity.
Qed.

(** The geosynchronous spacecraft has 10504 km to spare. *)
Lemma geo_motion_far T : 0 < T <= 240 ->
  exists r v, r 0 = g_position geo_start /\ v 0 = g_velocity geo_start /\ natural_motion (g_epoch geo_start) T r v /\ clear_along (g_epoch geo_start) T r 10504 /\
  forall x, during T x -> Rabs (51544.5 + x / 86400 - 51544.5) <= 36523 /\ norm (r x) <= 89000 /\ norm (v x) <= 18 /\ away_from_midnight 1e-8 (51544.5 + x / 86400).
Proof.
  intros HT. assert (GR := geo_reach T ltac:(lra)). assert (P : Rabs T = T) by (apply Rabs_pos_eq; lra).
  assert (G : clear_around geo_start T (reach (norm (g_velocity geo_start)) 0.05 T + 10504)).
  { set (D := reach (norm (g_velocity geo_start)) 0.05 T) in *. clearbody D.
    apply clear_check; unfold geo_start in *; cbn [GCRF g_epoch g_position x3 y3 value] in *; rewrite ?norm_x by lra.
    - rewrite Rminus_eq_0, Rabs_R0. lra.
    - lra.
    - lra.
    - replace (42164 * 42164 + 0 * 0) with (42164 * 42164) by ring. rewrite sqrt_square by lra. lra. }
  destruct (motion_exists geo_start T) as (r & v & R0 & V0 & N & B). { intros t x Ht Hx. apply (G t x Ht). lra. }
  assert (CL : clear_along (g_epoch geo_start) T r 10504). { intros t x Ht Hx. apply (G t x Ht). assert (A := sub_triangle x (r t) (g_position geo_start)). assert (Q := B t Ht). lra. }
  exists r, v. split; [exact R0|]. split; [exact V0|]. split; [exact N|]. split; [exact CL|]. intros x Hx.
  assert (X : 0 <= x <= T) by (destruct Hx as (y & Y & ->); nra).
  split; [apply Rabs_le; lra|]. split; [|split; [|apply (geo_away T); [exact HT|lra|exact Hx]]].
  - assert (Q := B x Hx). assert (Z := sub_triangle (r x) (g_position geo_start) zero3). rewrite !sub_zero, geo_distance in Z. lra.
  - destruct (natural_follows _ T r v 10504 ltac:(lra) CL N) as (a & FF). destruct (FF x Hx) as (_ & _ & I).
    assert (Q : norm (sub (v x) (v 0)) <= x * 0.05).
    { apply (integral_le_const a x _ 0.05 (proj1 X) I). intros s Hs. assert (DS : during T s) by (exists (s / T); split; [split; [apply Rmult_le_pos; [lra|apply Rlt_le, Rinv_0_lt_compat; lra]|apply Rmult_le_reg_r with T; [lra|]; unfold Rdiv; rewrite Rmult_assoc, Rinv_l; lra]|field; lra]).
      destruct (FF s DS) as (-> & _). assert (A := acc_small (g_epoch geo_start) 1 r s). unfold acc in A. rewrite !Rmult_1_r in A. apply A. apply (clear_self _ T r 10504 s ltac:(lra) CL DS). }
    assert (Z := sub_triangle (v x) (v 0) zero3). rewrite !sub_zero, V0, geo_speed in Z. rewrite V0 in Q. lra.
Qed.
