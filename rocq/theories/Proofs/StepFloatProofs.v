From Coq Require Import Reals ZArith List Lra Lia Psatz.
From Flocq Require Import Core.
From Verif.Model Require Import Num Constants Linalg Functions Time Celestial Positions States TimeFloat AngleFloat ElementsFloat FrameFloat SiderealFloat GroundFloat EarthFloat BodyFloat ForceFloat GravityFloat.
From Verif.Model Require Import StepFloat.
From Verif.Spec Require Import Geometry Gravity Forces Earth Propagation LibmAccuracy FrameFloat SiderealFloat EarthFloat GroundFloat BodyFloat GravityFloat.
From Verif.Spec Require Import StepFloat.
From Verif.Proofs Require Import NumLemmas LinalgProofs PositionsProofs CelestialProofs StatesProofs AccelerationProofs TimeFloatProofs AngleFloatProofs ElementsFloatProofs StateFloatProofs VectorFloatProofs ClockProofs PiDigits Analysis FrameFloatBasics SiderealFloatProofs FrameFloatTrip EarthFloatProofs EarthFloatChain BodyFloatProofs ForceFloatProofs.
From Verif.Proofs Require Import SmoothForces.
From Verif.Proofs Require Import GravityFloatBasics GravityFloatAngles GravityFloatBack GravityFloatDerivative.
Local Open Scope R_scope.

(** * Rounded vector operations *)
Lemma verr0 a : verr 0 a a.
Proof. unfold verr. replace (sub a a) with zero3 by (unfold sub, zero3; f_equal; ring). rewrite (proj2 (norm_zero zero3) eq_refl). lra. Qed.

Lemma scal_close d k' k c' c H B : verr d k' k -> Rabs (c' - c) <= 1.12e-16 * Rabs c + 1e-60 -> Rabs c <= H -> norm k <= B -> H <= 1e6 -> B <= 1e6 ->
  verr (1.0001 * (H * d) + d * 1e-50 + 2.25e-16 * (H * B) + 1e-52) (v3_scaled_b64 k' c') (scale c k).
Proof.
  intros V C CH NB H6 B6. assert (c0 := Rabs_pos c). assert (n0 := norm_nonneg k). assert (V' := V). unfold verr in V'. assert (d0 : 0 <= d) by (eapply Rle_trans; [apply norm_nonneg|exact V']).
  assert (VN := verr_norm _ _ _ V). assert (CB : Rabs c' <= 1.00001 * Rabs c + 1e-60).
  { replace c' with (c + (c' - c)) by ring. eapply Rle_trans; [apply Rabs_triang|]. lra. }
  assert (D : verr (Rabs c' * d + Rabs (c' - c) * norm k) (scale c' k') (scale c k)).
  { unfold verr. replace (sub (scale c' k') (scale c k)) with (add (scale c' (sub k' k)) (scale (c' - c) k)) by (unfold sub, add, scale; cbn [x3 y3 z3]; f_equal; ring).
    eapply Rle_trans; [apply norm_triangle|]. rewrite !norm_scale. apply Rplus_le_compat; [apply Rmult_le_compat_l; [apply Rabs_pos|exact V']|lra]. }
  rewrite scaled_rnd. eapply verr_weaken; [eapply verr_trans; [apply vround|exact D]|]. rewrite norm_scale.
  assert (X : forall u w x y, (u * x + w) * y = u * (x * y) + w * y) by (intros; ring). assert (X2 : forall u w x y z, (u * x + w) * (y + z) = u * (x * y) + u * (x * z) + w * y + w * z) by (intros; ring).
  assert (K1 : Rabs c' * norm k' <= (1.00001 * Rabs c + 1e-60) * (norm k + d)) by (apply Rmult_le_compat; [apply Rabs_pos|apply norm_nonneg|exact CB|lra]). rewrite X2 in K1.
  assert (K3 : Rabs c' * d <= (1.00001 * Rabs c + 1e-60) * d) by (apply Rmult_le_compat_r; lra). rewrite X in K3.
  assert (K4 : Rabs (c' - c) * norm k <= (1.12e-16 * Rabs c + 1e-60) * norm k) by (apply Rmult_le_compat_r; lra). rewrite X in K4.
  assert (K5 : Rabs c * norm k <= H * B) by (apply Rmult_le_compat; lra). assert (K6 : Rabs c * d <= H * d) by (apply Rmult_le_compat_r; lra).
  assert (K7 : 0 <= Rabs c * norm k) by (apply Rmult_le_pos; lra). assert (K8 : 0 <= Rabs c * d) by (apply Rmult_le_pos; lra).
  set (p1 := Rabs c' * norm k') in *. set (p2 := Rabs c' * d) in *. set (p3 := Rabs (c' - c) * norm k) in *. set (p4 := Rabs c * norm k) in *. set (p5 := Rabs c * d) in *. set (p6 := H * B) in *. set (p7 := H * d) in *.
  assert (N6 : norm k <= 1e6) by lra. clearbody p1 p2 p3 p4 p5 p6 p7. clear - K1 K3 K4 K5 K6 K7 K8 N6 n0 d0. lra.
Qed.

Lemma axpy_close d x k' k c' c A H B : verr d k' k -> Rabs (c' - c) <= 1.12e-16 * Rabs c + 1e-60 -> Rabs c <= H -> norm k <= B -> H <= 1e6 -> B <= 1e6 -> norm x <= A ->
  verr (1.001 * (H * d) + d * 1e-40 + 1.12e-16 * A + 3.4e-16 * (H * B) + 1e-50) (v3_plus_b64 x (v3_scaled_b64 k' c')) (add x (scale c k)) /\ norm (add x (scale c k)) <= A + H * B.
Proof.
  intros V C CH NB H6 B6 NA. assert (S := scal_close d k' k c' c H B V C CH NB H6 B6).
  assert (NS : norm (scale c k) <= H * B) by (rewrite norm_scale; apply Rmult_le_compat; [apply Rabs_pos|apply norm_nonneg|exact CH|exact NB]).
  destruct (plus_close 0 _ x x _ _ A (H * B) (verr0 x) S NA NS) as [P Q]. split; [|exact Q].
  assert (HB : 0 <= H * B) by (eapply Rle_trans; [apply norm_nonneg|exact NS]). assert (d0 : 0 <= d) by (unfold verr in V; eapply Rle_trans; [apply norm_nonneg|exact V]).
  assert (Hd : 0 <= H * d) by (apply Rmult_le_pos; [eapply Rle_trans; [apply Rabs_pos|exact CH]|exact d0]).
  eapply verr_weaken; [exact P|]. generalize dependent (H * B). generalize dependent (H * d). intros. clear - HB Hd d0. lra.
Qed.

Lemma cst_close c : Rabs (b64 c - c) <= 1.12e-16 * Rabs c + 1e-60.
Proof. apply b64_fine. Qed.
Lemma same_close c : Rabs (c - c) <= 1.12e-16 * Rabs c + 1e-60.
Proof. rewrite Rminus_diag_eq, Rabs_R0 by reflexivity. assert (H := Rabs_pos c). lra. Qed.

Lemma average_close k1 k2 k3 k4 B : norm k1 <= B -> norm k2 <= B -> norm k3 <= B -> norm k4 <= B -> B <= 1000 ->
  verr (6.5e-16 * B + 1e-48) (rk_average_b64 k1 k2 k3 k4) (scale (1 / 6) (add k1 (add (scale 2 k2) (add (scale 2 k3) k4)))) /\
  norm (scale (1 / 6) (add k1 (add (scale 2 k2) (add (scale 2 k3) k4)))) <= B.
Proof.
  intros N1 N2 N3 N4 B3. assert (B0 : 0 <= B) by (eapply Rle_trans; [apply norm_nonneg|exact N1]).
  assert (T2 : Rabs 2 <= 2) by (rewrite Rabs_pos_eq; lra).
  assert (S2 := scal_close 0 k2 k2 2 2 2 B (verr0 k2) (same_close 2) T2 N2 ltac:(lra) ltac:(lra)).
  assert (S3 := scal_close 0 k3 k3 2 2 2 B (verr0 k3) (same_close 2) T2 N3 ltac:(lra) ltac:(lra)).
  assert (M2 : norm (scale 2 k2) <= 2 * B) by (rewrite norm_scale, Rabs_pos_eq; lra). assert (M3 : norm (scale 2 k3) <= 2 * B) by (rewrite norm_scale, Rabs_pos_eq; lra).
  destruct (plus_close _ 0 _ _ k4 k4 (2 * B) B S3 (verr0 k4) M3 N4) as [P1 Q1].
  assert (P1' : verr (8e-16 * B + 1e-51) (v3_plus_b64 (v3_scaled_b64 k3 2) k4) (add (scale 2 k3) k4)) by (eapply verr_weaken; [exact P1|clear - B0; lra]).
  assert (Q1' : norm (add (scale 2 k3) k4) <= 3 * B) by (clear - Q1; lra).
  destruct (plus_close _ _ _ _ _ _ (2 * B) (3 * B) S2 P1' M2 Q1') as [P2 Q2].
  assert (P2' : verr (1.82e-15 * B + 1e-50) (v3_plus_b64 (v3_scaled_b64 k2 2) (v3_plus_b64 (v3_scaled_b64 k3 2) k4)) (add (scale 2 k2) (add (scale 2 k3) k4))) by (eapply verr_weaken; [exact P2|clear - B0; lra]).
  assert (Q2' : norm (add (scale 2 k2) (add (scale 2 k3) k4)) <= 5 * B) by (clear - Q2; lra).
  destruct (plus_close 0 _ k1 k1 _ _ B (5 * B) (verr0 k1) P2' N1 Q2') as [P3 Q3].
  assert (P3' : verr (2.5e-15 * B + 1e-49) (v3_plus_b64 k1 (v3_plus_b64 (v3_scaled_b64 k2 2) (v3_plus_b64 (v3_scaled_b64 k3 2) k4))) (add k1 (add (scale 2 k2) (add (scale 2 k3) k4)))) by (eapply verr_weaken; [exact P3|clear - B0; lra]).
  assert (Q3' : norm (add k1 (add (scale 2 k2) (add (scale 2 k3) k4))) <= 6 * B) by (clear - Q3; lra).
  assert (T6 : Rabs (1 / 6) <= 1 / 6) by (rewrite Rabs_pos_eq; lra).
  assert (S := scal_close _ _ _ (b64 (1 / 6)) (1 / 6) (1 / 6) (6 * B) P3' (cst_close (1 / 6)) T6 Q3' ltac:(lra) ltac:(lra)).
  split; [eapply verr_weaken; [exact S|clear - B0; lra]|]. rewrite norm_scale. rewrite Rabs_pos_eq by lra. clear - Q3'. lra.
Qed.

(** * One evaluation of the forces *)
Definition libs (L : libm) (tanf : R -> R) : Prop := accurate_circular L /\ accurate_far L /\ accurate_polar L /\ accurate_tangent tanf /\ accurate_power L.

Lemma pull_close d eps L tanf t r v : libs L tanf -> flyable (Epoch t) r -> norm r <= 100000 ->
  close_angle d (greenwich_hour_angle_b64 t) (greenwich_hour_angle (Epoch t)) -> 8e-11 <= d <= 2.7e-8 -> 0.0286 * d + 5e-15 <= eps -> eps <= 1e-4 ->
  exists a g, derivative_b64 L tanf (GCRF (Epoch t) r v) = Ok (v, a) /\ pull t r g /\ verr eps a g /\ norm a <= 0.051.
Proof.
  intros (AC & AF & AP & AT & AW) F R5 C DB EB E4. assert (F0 := F). destruct F as (SV & RB & _). cbn [value] in SV.
  assert (HE : forall q, gcrf_to_itrf r (Epoch t) = Ok q -> 0.1 * norm r <= hyp q).
  { intros q Q. destruct (flyable_axis _ _ F0) as (q1 & Q1 & _ & H1). assert (q1 = q) by congruence. subst q1.
    destruct (gcrf_round_trip r (Epoch t)) as (q1 & _ & Q2 & _ & _ & N). assert (q1 = q) by congruence. subst q1. unfold hyp. lra. }
  destruct (full_close d L tanf (GCRF (Epoch t) r v) t eq_refl eq_refl AC AF AP AT AW SV C DB ltac:(cbn [g_position GCRF]; lra) HE) as ([x a] & [y g] & E' & E & X & Y & H).
  cbv zeta in H. cbn [fst snd g_position g_velocity g_thrust g_srp_scalar GCRF] in X, Y, H. subst x y.
  rewrite (proj2 (norm_zero (V3 0 0 0)) eq_refl), Rabs_R0 in H. exists a, g. split; [exact E'|].
  assert (PL : pull t r g).
  { set (p := Pt t r (day_of t)). assert (FP : flying p) by (split; [exact F0|reflexivity]). intros w. assert (D1 := derivative_total p v FP). assert (D2 := derivative_total p w FP).
    unfold ep, p in D1, D2. cbn [pt_t pt_r] in D1, D2. rewrite E in D1. injection D1. intros Z. rewrite D2, Z. reflexivity. }
  split; [exact PL|].
  destruct (fly_derivative (GCRF (Epoch t) r v) F0 ltac:(cbn; rewrite Rabs_R0; lra)) as (g2 & D2 & N2).
  assert (G2 : norm g <= 0.05). { rewrite E in D2. injection D2. intros Z. cbn [g_thrust GCRF] in Z. rewrite Z. replace (add _ g2) with g2 by (unfold add; destruct g2; cbn; f_equal; ring). exact N2. }
  assert (GB : Earth_MU / (norm r * norm r) <= 0.009435).
  { apply Rmult_le_reg_r with (norm r * norm r); [apply Rmult_lt_0_compat; lra|]. assert (P : norm r * norm r <> 0) by (apply Rgt_not_eq, Rmult_lt_0_compat; lra). rewrite div_mul by exact P.
    assert (6500 * 6500 <= norm r * norm r) by (apply Rmult_le_compat; lra). unfold Earth_MU. lra. }
  assert (G0 : 0 <= Earth_MU / (norm r * norm r)) by (apply Rlt_le, Rdiv_lt_0_compat; [unfold Earth_MU; lra|apply Rmult_lt_0_compat; lra]).
  assert (QB : 0 <= (Earth_RADIUS / norm r) ^ 2 <= 0.963).
  { assert (Q : 0 <= Earth_RADIUS / norm r <= 0.9813). { split; [apply Rlt_le, Rdiv_lt_0_compat; unfold Earth_RADIUS; lra|]. apply Rmult_le_reg_r with (norm r); [lra|]. rewrite div_mul by lra. unfold Earth_RADIUS. lra. }
    split; [apply pow_le; lra|]. apply Rle_trans with (0.9813 ^ 2); [apply pow_incr; exact Q|lra]. }
  set (G := Earth_MU / _) in *. set (Q := (Earth_RADIUS / norm r) ^ 2) in *.
  assert (SB : 0 <= Q * G <= 0.963 * 0.009435) by (split; [apply Rmult_le_pos; lra|apply Rmult_le_compat; lra]).
  assert (WB : (1.00001 * d + 1.3e-14) * (Q * G) <= (1.00001 * d + 1.3e-14) * 0.0090861) by (apply Rmult_le_compat_l; lra).
  assert (V : verr eps a g).
  { unfold verr. eapply Rle_trans; [exact H|]. set (z := (1.00001 * d + 1.3e-14) * (Q * G)) in *. clearbody z. clear - WB EB GB G0 DB. lra. }
  split; [exact V|]. assert (VN := verr_norm _ _ _ V). lra.
Qed.

(** * A step *)
Lemma displaced d c k r x : verr d x (add r (scale c k)) -> norm (sub x r) <= d + Rabs c * norm k.
Proof.
  unfold verr. intros H. replace (sub x r) with (add (sub x (add r (scale c k))) (scale c k)) by (unfold sub, add, scale; cbn [x3 y3 z3]; f_equal; ring).
  eapply Rle_trans; [apply norm_triangle|]. rewrite norm_scale. lra.
Qed.

Lemma epochs_close t h : Rabs (t - 51544.5) <= 36524 -> Rabs h <= 300 -> let dd := b64 (b64 (h / 2) / 86400) in let t1 := b64 (t + dd) in let t2 := b64 (t1 + dd) in
  Rabs (t1 - (t + h / 2 / 86400)) <= 2e-11 /\ Rabs (t2 - (t + h / 86400)) <= 2e-11 /\ Rabs (t1 - 51544.5) <= 36525 /\ Rabs (t2 - 51544.5) <= 36525.
Proof.
  intros T H dd t1 t2. apply Rabs_le_inv in T. apply Rabs_le_inv in H.
  assert (S : Rabs (b64 (h / 2) - h / 2) <= 1.7e-14). { eapply Rle_trans; [apply b64_fine|]. assert (Rabs (h / 2) <= 150) by (apply Rabs_le; lra). lra. } apply Rabs_le_inv in S.
  assert (D : Rabs (dd - b64 (h / 2) / 86400) <= 2e-19). { unfold dd. eapply Rle_trans; [apply b64_fine|]. assert (Rabs (b64 (h / 2) / 86400) <= 0.00175) by (apply Rabs_le; lra). lra. } apply Rabs_le_inv in D.
  assert (E1 : Rabs (t1 - (t + dd)) <= 9.88e-12). { unfold t1. eapply Rle_trans; [apply b64_fine|]. assert (Rabs (t + dd) <= 88069) by (apply Rabs_le; lra). lra. } apply Rabs_le_inv in E1.
  assert (E2 : Rabs (t2 - (t1 + dd)) <= 9.88e-12). { unfold t2. eapply Rle_trans; [apply b64_fine|]. assert (Rabs (t1 + dd) <= 88069) by (apply Rabs_le; lra). lra. } apply Rabs_le_inv in E2.
  repeat split; apply Rabs_le; lra.
Qed.

Lemma step_close d eps L tanf h t r v : libs L tanf -> Rabs (t - 51544.5) <= 36524 -> Rabs h <= 300 -> norm v <= 20 ->
  (forall x, norm (sub x r) <= reach (norm v) 0.05 h + 1 -> flyable (Epoch t) x /\ norm x <= 100000) ->
  (forall u w, (w = t \/ w = t + h / 2 / 86400 \/ w = t + h / 86400) -> Rabs (u - w) <= 2e-11 -> Rabs (u - 51544.5) <= 36525 -> close_angle d (greenwich_hour_angle_b64 u) (greenwich_hour_angle (Epoch u))) ->
  8e-11 <= d <= 2.7e-8 -> 0.0286 * d + 5e-15 <= eps -> eps <= 1e-4 ->
  exists t' r' v', coast_step_b64 L tanf h (GCRF (Epoch t) r v) = Ok (GCRF (Epoch t') r' v') /\ runge_kutta_within 2e-11 3e-11 3e-14 eps h t r v t' r' v'.
Proof.
  intros LB TB HB VB RM CA DB EB E4. destruct (epochs_close t h TB HB) as (T1 & T2 & S1 & S2). cbv zeta in T1, T2, S1, S2.
  set (dd := b64 (b64 (h / 2) / 86400)) in *. set (t1 := b64 (t + dd)) in *. set (t2 := b64 (t1 + dd)) in *.
  assert (H0 := Rabs_pos h). assert (V0 := norm_nonneg v). set (H := Rabs h) in *. set (N := norm v) in *.
  assert (RE : reach N 0.05 h = H * N + 0.05 * (H * H)) by (unfold reach; fold H; lra). assert (HN : 0 <= H * N) by (apply Rmult_le_pos; lra). assert (HH : 0 <= H * H) by (apply Rmult_le_pos; lra).
  assert (H2 : Rabs (h / 2) = H / 2) by (unfold Rdiv; rewrite Rabs_mult, (Rabs_pos_eq (/ 2)) by lra; reflexivity).
  assert (S0 : Rabs (t - 51544.5) <= 36525) by lra.
  assert (PU : forall u w x z, (w = t \/ w = t + h / 2 / 86400 \/ w = t + h / 86400) -> Rabs (u - w) <= 2e-11 -> Rabs (u - 51544.5) <= 36525 -> norm (sub x r) <= reach N 0.05 h + 1 ->
    exists a g, derivative_b64 L tanf (GCRF (Epoch u) x z) = Ok (z, a) /\ pull u x g /\ verr eps a g /\ norm a <= 0.051).
  { intros u w x z W U U' X. destruct (RM x X) as [F X5]. destruct F as (_ & F). apply (pull_close d eps L tanf u x z LB); auto. { split; [exact U'|exact F]. } apply (CA u w); auto. }
  assert (RR : norm (sub r r) = 0) by (replace (sub r r) with zero3 by (unfold sub, zero3; f_equal; ring); apply (proj2 (norm_zero zero3) eq_refl)).
  destruct (RM r ltac:(lra)) as [_ R5].
  destruct (PU t t r v ltac:(auto) ltac:(rewrite Rminus_diag_eq, Rabs_R0 by reflexivity; lra) S0 ltac:(lra)) as (a1 & g1 & D1 & P1 & A1 & B1).
  (* second stage *)
  set (ds := b64 (h / 2)) in *. assert (DS := cst_close (h / 2)). fold ds in DS.
  destruct (axpy_close 0 r v v ds (h / 2) 100000 150 20 (verr0 v) DS ltac:(lra) VB ltac:(lra) ltac:(lra) R5) as [X2 _].
  assert (X2' : verr 3e-11 (v3_plus_b64 r (v3_scaled_b64 v ds)) (add r (scale (h / 2) v))) by (eapply verr_weaken; [exact X2|clear; lra]). clear X2. set (r2 := v3_plus_b64 r (v3_scaled_b64 v ds)) in *.
  destruct (axpy_close 0 v a1 a1 ds (h / 2) 20 150 0.051 (verr0 a1) DS ltac:(lra) B1 ltac:(lra) ltac:(lra) VB) as [Y2 _].
  assert (Y2' : verr 3e-14 (v3_plus_b64 v (v3_scaled_b64 a1 ds)) (add v (scale (h / 2) a1))) by (eapply verr_weaken; [exact Y2|clear; lra]). clear Y2. set (v2 := v3_plus_b64 v (v3_scaled_b64 a1 ds)) in *.
  assert (Q2 := displaced _ _ _ _ _ X2'). fold N in Q2. rewrite H2 in Q2.
  assert (HR : forall x y, x / 2 * y = (x * y) / 2) by (intros; unfold Rdiv; ring).
  destruct (PU t1 (t + h / 2 / 86400) r2 v2 ltac:(auto) T1 S1 ltac:(rewrite HR in Q2; lra)) as (a2 & g2 & D2 & P2 & A2 & B2).
  assert (GV : forall c a z K, Rabs c <= K * H -> 0 <= K <= 1 -> norm a <= 0.051 -> verr 3e-14 z (add v (scale c a)) -> norm z <= N + 0.051 * K * H + 3e-14).
  { intros c a z K CK K0 NA VZ. assert (VN := verr_norm _ _ _ VZ). assert (TT := norm_triangle v (scale c a)). rewrite norm_scale in TT.
    assert (Rabs c * norm a <= K * H * 0.051) by (apply Rmult_le_compat; [apply Rabs_pos|apply norm_nonneg|exact CK|exact NA]). fold N in TT. clear - VN TT H1. lra. }
  assert (M2 := GV (h / 2) a1 v2 (1 / 2) ltac:(lra) ltac:(lra) B1 Y2').
  (* third stage *)
  destruct (axpy_close 0 r v2 v2 ds (h / 2) 100000 150 36 (verr0 v2) DS ltac:(lra) ltac:(lra) ltac:(lra) ltac:(lra) R5) as [X3 _].
  assert (X3' : verr 3e-11 (v3_plus_b64 r (v3_scaled_b64 v2 ds)) (add r (scale (h / 2) v2))) by (eapply verr_weaken; [exact X3|clear; lra]). clear X3. set (r3 := v3_plus_b64 r (v3_scaled_b64 v2 ds)) in *.
  destruct (axpy_close 0 v a2 a2 ds (h / 2) 20 150 0.051 (verr0 a2) DS ltac:(lra) B2 ltac:(lra) ltac:(lra) VB) as [Y3 _].
  assert (Y3' : verr 3e-14 (v3_plus_b64 v (v3_scaled_b64 a2 ds)) (add v (scale (h / 2) a2))) by (eapply verr_weaken; [exact Y3|clear; lra]). clear Y3. set (v3 := v3_plus_b64 v (v3_scaled_b64 a2 ds)) in *.
  assert (Q3 := displaced _ _ _ _ _ X3'). rewrite H2, HR in Q3.
  assert (HM : forall u, norm u <= N + 0.051 * (1 / 2) * H + 3e-14 -> H * norm u <= H * N + 0.0255 * (H * H) + 1e-11).
  { intros u U. assert (H * norm u <= H * (N + 0.051 * (1 / 2) * H + 3e-14)) by (apply Rmult_le_compat_l; lra). lra. }
  assert (M2' := HM v2 M2).
  destruct (PU t1 (t + h / 2 / 86400) r3 v3 ltac:(auto) T1 S1 ltac:(lra)) as (a3 & g3 & D3 & P3 & A3 & B3).
  assert (M3 := GV (h / 2) a2 v3 (1 / 2) ltac:(lra) ltac:(lra) B2 Y3').
  (* fourth stage *)
  assert (SH := same_close h).
  destruct (axpy_close 0 r v3 v3 h h 100000 300 36 (verr0 v3) SH ltac:(fold H; lra) ltac:(lra) ltac:(lra) ltac:(lra) R5) as [X4 _].
  assert (X4' : verr 3e-11 (v3_plus_b64 r (v3_scaled_b64 v3 h)) (add r (scale h v3))) by (eapply verr_weaken; [exact X4|clear; lra]). clear X4. set (r4 := v3_plus_b64 r (v3_scaled_b64 v3 h)) in *.
  destruct (axpy_close 0 v a3 a3 h h 20 300 0.051 (verr0 a3) SH ltac:(fold H; lra) B3 ltac:(lra) ltac:(lra) VB) as [Y4 _].
  assert (Y4' : verr 3e-14 (v3_plus_b64 v (v3_scaled_b64 a3 h)) (add v (scale h a3))) by (eapply verr_weaken; [exact Y4|clear; lra]). clear Y4. set (v4 := v3_plus_b64 v (v3_scaled_b64 a3 h)) in *.
  assert (Q4 := displaced _ _ _ _ _ X4'). fold H in Q4. assert (M3' := HM v3 M3).
  destruct (PU t2 (t + h / 86400) r4 v4 ltac:(auto) T2 S2 ltac:(lra)) as (a4 & g4 & D4 & P4 & A4 & B4).
  assert (M4 := GV h a3 v4 1 ltac:(fold H; lra) ltac:(lra) B3 Y4').
  (* the new state *)
  destruct (average_close v v2 v3 v4 36) as [W1 W2]; [fold N; lra..|].
  destruct (average_close a1 a2 a3 a4 0.051) as [Z1 Z2]; [lra..|].
  destruct (axpy_close _ r _ _ h h 100000 300 36 W1 SH ltac:(fold H; lra) W2 ltac:(lra) ltac:(lra) R5) as [XF _].
  destruct (axpy_close _ v _ _ h h 20 300 0.051 Z1 SH ltac:(fold H; lra) Z2 ltac:(lra) ltac:(lra) VB) as [YF _].
  assert (SS : forall u, scale h (scale (1 / 6) u) = scale (h / 6) u) by (intros u; unfold scale; cbn [x3 y3 z3]; f_equal; field).
  rewrite SS in XF, YF.
  exists t2. eexists. eexists. split.
  - unfold coast_step_b64. cbv zeta. change (set_thrust (GCRF (Epoch t) r v) (V3 0 0 0)) with (GCRF (Epoch t) r v). cbn [value g_epoch GCRF gcrf_vector_list g_position g_velocity].
    change (Gcrf (Epoch t) r v (V3 0 0 0) 0 true) with (GCRF (Epoch t) r v). rewrite D1. cbn [bind]. fold ds. fold dd. fold t1. fold t2.
    unfold stage_b64. cbn [fst snd]. fold r2. fold v2. rewrite D2. cbn [bind fst snd]. fold r3. fold v3. rewrite D3. cbn [bind fst snd]. fold r4. fold v4. rewrite D4. cbn [bind fst snd]. reflexivity.
  - exists t1, r2, r3, r4, v2, v3, v4, a1, a2, a3, a4, g1, g2, g3, g4. unfold close3.
    split; [exact T1|]. split; [exact T2|]. split; [split; [exact P1|exact A1]|]. split; [split; [exact X2'|split; [exact Y2'|split; [exact P2|exact A2]]]|].
    split; [split; [exact X3'|split; [exact Y3'|split; [exact P3|exact A3]]]|]. split; [split; [exact X4'|split; [exact Y4'|split; [exact P4|exact A4]]]|].
    split; [eapply Rle_trans; [exact XF|clear; lra]|eapply Rle_trans; [exact YF|clear; lra]].
Qed.
