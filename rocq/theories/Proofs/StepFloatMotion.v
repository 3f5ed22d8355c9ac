(** Runs of steps in binary64 against the natural motion. *)
From Coq Require Import Reals ZArith List Lra Lia Psatz.
From Flocq Require Import Core.
From Verif.Model Require Import Num Constants Linalg Functions Time Celestial Positions States Inertial TimeFloat AngleFloat ElementsFloat FrameFloat SiderealFloat GravityFloat.
From Verif.Model Require Import StepFloat.
From Verif.Spec Require Import Geometry Propagation Motion FrameFloat EarthFloat SiderealFloat.
From Verif.Spec Require Import StepFloat.
From Verif.Proofs Require Import NumLemmas LinalgProofs SmoothForces ConvergenceProofs OrderProofs FrameFloatBasics SiderealFloatProofs.
From Verif.Proofs Require Import InertialProofs SafeStep MotionExists StepFloatProofs StepFloatError StepFloatMany.
Local Open Scope R_scope.

Lemma float_motion longest : exists C, 0 < C /\ forall L tanf t r v T n, libs L tanf ->
  let e := Epoch t in let h := T / INR n in let D := reach 20 0.05 h + 4 in
  norm (v 0) <= 18 -> Rabs T <= longest -> (0 < n)%nat -> Rabs h <= 300 ->
  natural_motion e T r v -> clear_along e T r D ->
  (forall x, during T x -> Rabs (t + x / 86400 - 51544.5) <= 36523 /\ norm (r x) + D <= 100000 /\ norm (v x) <= 18) ->
  (forall x, during T x -> away_from_midnight (1e-10 + INR n * 2e-11) (t + x / 86400)) -> one_utc_day e T ->
  let E := C * Rabs h ^ 4 + exp (C * Rabs T) * (3.1e-11 * INR n + C * Rabs T * (2.2e-7 + INR n * 2e-11)) in E <= 1 -> C * Rabs h <= D ->
  exists t' r' v', coast_steps_b64 L tanf h n (GCRF e (r 0) (v 0)) = Ok (GCRF (Epoch t') r' v') /\
    Rabs (t' - (t + T / 86400)) <= INR n * 2e-11 /\ separation r' v' (r T) (v T) <= E.
Proof.
  destruct forces as (Lp & LF). assert (L0 := proj1 LF). destruct (fourth_order 18 longest) as (C4 & C40 & FO).
  set (K := 1 + 90300 * (Lp * (1 + 45000 * Lp))). assert (M0 : 0 < Lp * (1 + 45000 * Lp)) by (apply Rmult_lt_0_compat; lra). assert (K1 : 1 <= K) by (unfold K; lra).
  set (C := C4 + K).
  exists C. split; [unfold C; lra|].
  intros L tanf t r v T n LI e h D V0 TB N0 HB NM CL FIT AW DAY E E1 CD.
  assert (n1 : 1 <= INR n) by (change 1 with (INR 1); apply le_INR; lia).
  assert (Th : T = INR n * h) by (unfold h; field; lra). assert (H0 := Rabs_pos h).
  assert (TH : Rabs T = INR n * Rabs h) by (rewrite Th, Rabs_mult, (Rabs_pos_eq (INR n)) by lra; reflexivity).
  assert (T0 := Rabs_pos T).
  assert (R0 : 0 <= reach 20 0.05 h) by (unfold reach; apply Rmult_le_pos; lra). assert (D4 : 4 <= D) by (unfold D; lra).
  assert (h4 : 0 <= Rabs h ^ 4) by (apply pow_le; lra).
  assert (KC : K <= C) by (unfold C; lra). set (W := 2.2e-7 + INR n * 2e-11). assert (W0 : 0 <= W) by (unfold W; lra).
  assert (KT : K * Rabs T <= C * Rabs T) by (apply Rmult_le_compat_r; lra). assert (KT0 : 0 <= K * Rabs T) by (apply Rmult_le_pos; lra).
  assert (KTW : K * Rabs T * W <= C * Rabs T * W) by (apply Rmult_le_compat_r; lra). assert (KTW0 : 0 <= K * Rabs T * W) by (apply Rmult_le_pos; lra).
  assert (C4h : C4 * Rabs h ^ 4 <= C * Rabs h ^ 4) by (apply Rmult_le_compat_r; [exact h4|unfold C; lra]).
  set (F := exp (C * Rabs T) * (3.1e-11 * INR n + C * Rabs T * W)). assert (CE : 0 <= F) by (unfold F; apply Rmult_le_pos; [apply Rlt_le, exp_pos|lra]). change (E) with (C * Rabs h ^ 4 + F) in *.
  assert (C4D : C4 * Rabs h <= D) by (eapply Rle_trans; [|exact CD]; apply Rmult_le_compat_r; [lra|unfold C; lra]).
  assert (DU : forall k, (k <= n)%nat -> during T (INR k * h)).
  { intros k Hk. exists (INR k / INR n). assert (k0 := pos_INR k). assert (INR k <= INR n) by (apply le_INR; lia). split.
    - split; [apply Rmult_le_pos; [lra|apply Rlt_le, Rinv_0_lt_compat; lra]|]. apply Rmult_le_reg_r with (INR n); [lra|]. unfold Rdiv. rewrite Rmult_assoc, Rinv_l by lra. lra.
    - rewrite Th. field. lra. }
  set (p := set_step_size (RK4 (GCRF e (r 0) (v 0))) h).
  assert (EX : forall k, (k <= n)%nat -> exists q, stepped k p q /\ value (g_epoch (rk_state q)) = t + INR k * h / 86400 /\ separation (g_position (rk_state q)) (g_velocity (rk_state q)) (r (INR k * h)) (v (INR k * h)) <= C4 * Rabs h ^ 4).
  { intros k Hk. destruct k as [|k].
    - exists p. split; [constructor|]. cbn [INR]. rewrite Rmult_0_l. split; [cbn; lra|]. change (separation (r 0) (v 0) (r 0) (v 0) <= C4 * Rabs h ^ 4). rewrite separation_self. apply Rmult_le_pos; lra.
    - set (m := S k) in *. assert (m1 : 1 <= INR m) by (change 1 with (INR 1); apply le_INR; unfold m; lia). assert (HH : INR m * h / INR m = h) by (field; lra). assert (DM := DU m Hk).
      destruct (FO (GCRF e (r 0) (v 0)) (INR m * h) r v D m eq_refl eq_refl V0) as (q & S & G & SE).
      + eapply Rle_trans; [apply (during_abs T _ DM)|exact TB].
      + apply (natural_part e T r v _ NM DM).
      + apply (clear_part e T r D _ CL DM).
      + destruct DAY as (dy & DAY). exists dy. intros x Hx. apply DAY. apply (during_trans T _ x DM Hx).
      + unfold m; lia.
      + rewrite Rabs_mult, (Rabs_pos_eq (INR m)) by lra. replace (INR m * Rabs h / INR m) with (Rabs h) by (field; lra). exact C4D.
      + rewrite HH in S. exists q. split; [exact S|]. split; [rewrite G; cbn; reflexivity|]. eapply Rle_trans; [exact SE|]. right. rewrite Rabs_mult, (Rabs_pos_eq (INR m)) by lra. replace (INR m * Rabs h / INR m) with (Rabs h) by (field; lra). reflexivity. }
  assert (B4 : C4 * Rabs h ^ 4 <= 1) by lra.
  assert (HY : forall k q, (k < n)%nat -> stepped k p q -> Rabs (value (g_epoch (rk_state q)) - 51544.5) <= 36523 /\ norm (g_velocity (rk_state q)) <= 19 /\ ample (value (g_epoch (rk_state q))) (g_position (rk_state q)) h).
  { intros k q Hk S. destruct (EX k ltac:(lia)) as (q1 & S1 & G & SE). assert (q1 = q) by (apply (stepped_unique k p); auto). subst q1. assert (DK := DU k ltac:(lia)). destruct (FIT _ DK) as (F1 & F2 & F3).
    unfold separation in SE. assert (P0 := norm_nonneg (sub (g_position (rk_state q)) (r (INR k * h)))). assert (P1 := norm_nonneg (sub (g_velocity (rk_state q)) (v (INR k * h)))).
    split; [rewrite G; exact F1|]. split.
    - assert (Z := sub_triangle (g_velocity (rk_state q)) (v (INR k * h)) zero3). rewrite !sub_zero in Z. lra.
    - intros x Hx. assert (Z := sub_triangle x (g_position (rk_state q)) (r (INR k * h))). assert (XD : norm (sub x (r (INR k * h))) <= D) by (unfold D; lra).
      split; [rewrite G; exact (CL _ x DK XD)|]. assert (Z2 := sub_triangle x (r (INR k * h)) zero3). rewrite !sub_zero in Z2. lra. }
  assert (MD : forall k, (k <= 2 * n)%nat -> away_from_midnight (1e-10 + INR n * 2e-11) (t + INR k * (h / 2) / 86400)).
  { intros k Hk. apply AW. exists (INR k / (2 * INR n)). assert (k0 := pos_INR k). assert (K2 : INR k <= 2 * INR n) by (change 2 with (INR 2); rewrite <- mult_INR; apply le_INR; lia). split.
    - split; [apply Rmult_le_pos; [lra|apply Rlt_le, Rinv_0_lt_compat; lra]|]. apply Rmult_le_reg_r with (2 * INR n); [lra|]. unfold Rdiv. rewrite Rmult_assoc, Rinv_l by lra. lra.
    - rewrite Th. field. lra. }
  set (dl := 3.1e-11 + K * Rabs h * W).
  assert (RB : exp (K * (INR n * Rabs h)) * (INR n * dl) <= F).
  { assert (Z : INR n * dl = 3.1e-11 * INR n + K * Rabs T * W) by (unfold dl; rewrite TH; generalize 3.1e-11; intros; ring). rewrite Z, <- TH. unfold F. apply Rmult_le_compat; [apply Rlt_le, exp_pos|lra|apply exp_le; exact KT|lra]. }
  assert (CH0 : 0 <= C * Rabs h ^ 4) by (apply Rmult_le_pos; [unfold C; lra|exact h4]).
  destruct (run_close L tanf Lp h t (r 0) (v 0) n LF LI HB HY MD ltac:(fold K W dl; lra) n (Nat.le_refl n)) as (q & qr & qv & t' & r' & v' & S & RQ & _ & _ & CS & TQ & SE).
  exists t', r', v'. split; [exact CS|]. split; [rewrite Th; exact TQ|].
  destruct (EX n (Nat.le_refl n)) as (q1 & S1 & _ & SE1). assert (q1 = q) by (apply (stepped_unique n p); auto). subst q1. rewrite RQ in SE1. cbn [g_position g_velocity GCRF] in SE1. rewrite <- Th in SE1.
  unfold separation in *. assert (Z1 := sub_triangle r' qr (r T)). assert (Z2 := sub_triangle v' qv (v T)). fold K W dl in SE. lra.
Qed.

(** A geosynchronous spacecraft in the four minutes after J2000. *)
Definition geo_start : gcrf := GCRF (Epoch 51544.5) (V3 42164 0 0) (V3 0 3.07 0).
Lemma geo_clear T : 0 < T <= 240 -> clear_around geo_start T (reach (norm (g_velocity geo_start)) 0.05 T + 1000).
Proof.
  intros HT. assert (P : Rabs T = T) by (apply Rabs_pos_eq; lra).
  assert (R : reach (norm (g_velocity geo_start)) 0.05 T <= 4000).
  { unfold geo_start, reach. cbn [GCRF g_velocity]. rewrite norm_y, P by lra. nra. }
  set (D := reach (norm (g_velocity geo_start)) 0.05 T) in *. clearbody D.
  apply clear_check; unfold geo_start in *; cbn [GCRF g_epoch g_position x3 y3 value] in *; rewrite ?norm_x by lra.
  - rewrite Rminus_eq_0, Rabs_R0. lra.
  - lra.
  - lra.
  - replace (42164 * 42164 + 0 * 0) with (42164 * 42164) by ring. rewrite sqrt_square by lra. lra.
Qed.
Lemma geo_speed : norm (g_velocity geo_start) = 3.07.
Proof. unfold geo_start. cbn [GCRF g_velocity]. apply norm_y. lra. Qed.
Lemma geo_distance : norm (g_position geo_start) = 42164.
Proof. unfold geo_start. cbn [GCRF g_position]. apply norm_x. lra. Qed.
Lemma geo_reach T : 0 <= T <= 240 -> reach (norm (g_velocity geo_start)) 0.05 T <= 4000.
Proof. intros HT. rewrite geo_speed. unfold reach. rewrite Rabs_pos_eq by lra. nra. Qed.
Lemma small_reach h : Rabs h <= 30 -> 0 <= reach 20 0.05 h <= 645.
Proof. intros H. unfold reach. assert (0 <= Rabs h) by apply Rabs_pos. nra. Qed.
Lemma geo_motion T h : 0 < T <= 240 -> Rabs h <= 30 -> let D := reach 20 0.05 h + 4 in
  exists r v, r 0 = g_position geo_start /\ v 0 = g_velocity geo_start /\ natural_motion (g_epoch geo_start) T r v /\ clear_along (g_epoch geo_start) T r D /\
  forall x, during T x -> Rabs (51544.5 + x / 86400 - 51544.5) <= 36523 /\ norm (r x) + D <= 100000 /\ norm (v x) <= 18.
Proof.
  intros HT Hh D. assert (SR := small_reach h Hh). assert (G := geo_clear T HT). assert (GR := geo_reach T ltac:(lra)).
  destruct (motion_exists geo_start T) as (r & v & R0 & V0 & N & B). { intros t x Ht Hx. apply (G t x Ht). lra. }
  assert (CL : clear_along (g_epoch geo_start) T r D). { intros t x Ht Hx. apply (G t x Ht). assert (A := sub_triangle x (r t) (g_position geo_start)). assert (Q := B t Ht). unfold D in Hx. lra. }
  exists r, v. split; [exact R0|]. split; [exact V0|]. split; [exact N|]. split; [exact CL|]. intros x Hx.
  assert (X : 0 <= x <= T) by (destruct Hx as (y & Y & ->); nra).
  split; [apply Rabs_le; lra|]. split.
  - assert (Q := B x Hx). assert (Z := sub_triangle (r x) (g_position geo_start) zero3). rewrite !sub_zero, geo_distance in Z. unfold D. lra.
  - destruct (natural_follows _ T r v D ltac:(unfold D; lra) CL N) as (a & FF). destruct (FF x Hx) as (_ & _ & I).
    assert (Q : norm (sub (v x) (v 0)) <= x * 0.05).
    { apply (integral_le_const a x _ 0.05 (proj1 X) I). intros s Hs. assert (DS : during T s) by (exists (s / T); split; [split; [apply Rmult_le_pos; [lra|apply Rlt_le, Rinv_0_lt_compat; lra]|apply Rmult_le_reg_r with T; [lra|]; unfold Rdiv; rewrite Rmult_assoc, Rinv_l; lra]|field; lra]).
      destruct (FF s DS) as (-> & _). assert (A := acc_small (g_epoch geo_start) 1 r s). unfold acc in A. rewrite !Rmult_1_r in A. apply A. apply (clear_self _ T r D s ltac:(unfold D; lra) CL DS). }
    assert (Z := sub_triangle (v x) (v 0) zero3). rewrite !sub_zero, V0, geo_speed in Z. rewrite V0 in Q. lra.
Qed.
Lemma geo_away T m x : 0 < T <= 240 -> m <= 0.1 -> during T x -> away_from_midnight m (51544.5 + x / 86400).
Proof. intros HT Hm (y & Y & ->). exists 51544%Z. assert (0 <= y * T <= 240) by nra. lra. Qed.
Lemma geo_one_day T : 0 < T <= 240 -> one_utc_day (g_epoch geo_start) T.
Proof. intros HT. exists 51544%Z. intros t (y & Y & ->). assert (0 <= y * T <= 240) by nra. cbn [geo_start GCRF g_epoch later value]. rewrite plus_IZR. lra. Qed.

(** Its exact steps. *)
Lemma geo_steps h n : 0 < h <= 30 -> (0 < n)%nat -> INR n * h <= 240 -> forall k q, (k < n)%nat -> stepped k (set_step_size (RK4 geo_start) h) q ->
  Rabs (value (g_epoch (rk_state q)) - 51544.5) <= 36523 /\ norm (g_velocity (rk_state q)) <= 19 /\ ample (value (g_epoch (rk_state q))) (g_position (rk_state q)) h.
Proof.
  intros Hh N0 NH k q Hk S. assert (k0 := pos_INR k). assert (kn : INR k <= INR n) by (apply le_INR; lia). assert (n1 : 1 <= INR n) by (change 1 with (INR 1); apply le_INR; lia).
  set (p := set_step_size (RK4 geo_start) h) in *. assert (TP : 0 < INR n * h <= 240) by (split; [apply Rmult_lt_0_compat; lra|exact NH]).
  assert (KH : 0 <= INR k * h <= INR n * h) by (split; [apply Rmult_le_pos; lra|apply Rmult_le_compat_r; lra]).
  assert (G := geo_clear _ TP). assert (GR := geo_reach (INR n * h) ltac:(lra)). assert (SR := small_reach h ltac:(rewrite Rabs_pos_eq; lra)).
  destruct (safe_steps p 0 n N0) with (n := k) as (q1 & S1 & _ & P1 & P2).
  - apply off_bounded. reflexivity.
  - cbn. rewrite Rabs_pos_eq; lra.
  - change (clear_around geo_start (INR n * h) (reach (norm (g_velocity geo_start)) (0.05 + 0) (INR n * h))). rewrite Rplus_0_r. intros t x Ht Hx. apply (G t x Ht). lra.
  - lia.
  - assert (q1 = q) by (apply (stepped_unique k p); auto). subst q1.
    change (norm (sub (g_position (rk_state q)) (g_position geo_start)) <= reach (norm (g_velocity geo_start)) (0.05 + 0) (INR k * h)) in P1.
    change (norm (sub (g_velocity (rk_state q)) (g_velocity geo_start)) <= (0.05 + 0) * Rabs (INR k * h)) in P2.
    rewrite Rplus_0_r in P1, P2. rewrite Rabs_pos_eq in P2 by lra. assert (GK := geo_reach (INR k * h) ltac:(lra)).
    destruct (stepped_inv _ _ _ S) as [_ E6]. 
    assert (EV : value (g_epoch (rk_state q)) = 51544.5 + INR k * h / 86400) by (rewrite E6; cbn; lra).
    split; [rewrite EV; apply Rabs_le; lra|]. split.
    + assert (Z := sub_triangle (g_velocity (rk_state q)) (g_velocity geo_start) zero3). rewrite !sub_zero, geo_speed in Z. lra.
    + intros x Hx. assert (Z := sub_triangle x (g_position (rk_state q)) (g_position geo_start)). split.
      * rewrite EV. apply (G (INR k * h) x).
        -- exists (INR k / INR n). split; [split; [apply Rmult_le_pos; [lra|apply Rlt_le, Rinv_0_lt_compat; lra]|apply Rmult_le_reg_r with (INR n); [lra|]; unfold Rdiv; rewrite Rmult_assoc, Rinv_l; lra]|field; lra].
        -- assert (M : reach (norm (g_velocity geo_start)) 0.05 (INR k * h) <= reach (norm (g_velocity geo_start)) 0.05 (INR n * h)).
           { unfold reach. rewrite geo_speed, !Rabs_pos_eq by lra. apply Rmult_le_compat; lra. }
           lra.
      * assert (Z2 := sub_triangle x (g_position geo_start) zero3). rewrite !sub_zero, geo_distance in Z2. lra.
Qed.
