From Coq Require Import Reals ZArith List Lra Lia Psatz.
From Flocq Require Import Core.
From Verif.Model Require Import Num Constants Linalg Functions Time Celestial Positions States TimeFloat AngleFloat ElementsFloat FrameFloat SiderealFloat GroundFloat EarthFloat BodyFloat ForceFloat GravityFloat.
From Verif.Spec Require Import Geometry Gravity Forces Earth LibmAccuracy FrameFloat SiderealFloat EarthFloat GroundFloat BodyFloat.
From Verif.Spec Require Import GravityFloat.
From Verif.Proofs Require Import NumLemmas LinalgProofs PositionsProofs CelestialProofs StatesProofs AccelerationProofs TimeFloatProofs AngleFloatProofs ElementsFloatProofs StateFloatProofs VectorFloatProofs ClockProofs PiDigits Analysis FrameFloatBasics SiderealFloatProofs FrameFloatTrip EarthFloatProofs EarthFloatChain BodyFloatProofs ForceFloatProofs.
From Verif.Proofs Require Import GravityFloatBasics GravityFloatAngles GravityFloatEcef GravityFloatBack.
Local Open Scope R_scope.

Lemma plus_close d e a' a b' b A B : verr d a' a -> verr e b' b -> norm a <= A -> norm b <= B ->
  verr (1.0001 * (d + e) + 1.12e-16 * (A + B) + 2e-60) (v3_plus_b64 a' b') (add a b) /\ norm (add a b) <= A + B.
Proof.
  intros V W NA NB. assert (T := norm_triangle a b). split; [|lra].
  assert (D : verr (d + e) (add a' b') (add a b)).
  { unfold verr in *. replace (sub (add a' b') (add a b)) with (add (sub a' a) (sub b' b)) by (unfold sub, add; cbn [x3 y3 z3]; f_equal; ring). eapply Rle_trans; [apply norm_triangle|]. lra. }
  assert (VN := verr_norm _ _ _ D). assert (0 <= d + e) by (eapply Rle_trans; [apply norm_nonneg|exact D]).
  rewrite plus_rnd. eapply verr_weaken; [eapply verr_trans; [apply vround|exact D]|]. lra.
Qed.

Lemma tide_size mu s p R m : 0 <= mu -> 0 < m -> norm p <= R -> R + m <= norm s -> norm (sub (attraction mu (sub s p)) (attraction mu s)) <= 2 * (mu / (m * m)).
Proof.
  intros MU M P S. assert (P0 := norm_nonneg p).
  assert (A := far_attraction mu s p m MU M ltac:(lra)). assert (B := far_attraction mu s zero3 m MU M ltac:(rewrite (proj2 (norm_zero zero3) eq_refl); lra)).
  replace (sub s zero3) with s in B by (unfold sub, zero3; destruct s; cbn; f_equal; ring).
  set (a := attraction mu (sub s p)) in *. set (b := attraction mu s) in *.
  replace (sub a b) with (add a (scale (-1) b)) by (unfold sub, add, scale; cbn [x3 y3 z3]; f_equal; ring). eapply Rle_trans; [apply norm_triangle|]. rewrite norm_scale. replace (Rabs (-1)) with 1 by (rewrite Rabs_left; lra). lra.
Qed.

Lemma two_body_close L tanf s : 1 <= norm (g_position s) <= 1e12 -> g_use_perturbations s = false ->
  exists f' f, derivative_b64 L tanf s = Ok f' /\ derivative s = Ok f /\ fst f' = g_velocity s /\ fst f = g_velocity s /\
    norm (sub (snd f') (snd f)) <= 1.62e-15 * (Earth_MU / (norm (g_position s) * norm (g_position s))) + 1.13e-16 * norm (g_thrust s) + 2e-60.
Proof.
  intros B U. destruct (earth_close s B) as (a & a' & E & E' & H & N). unfold derivative_b64, derivative. rewrite E, E', U. cbn [bind].
  eexists. eexists. split; [reflexivity|]. split; [reflexivity|]. cbn [fst snd]. split; [unfold v3_copy; destruct (g_velocity s); reflexivity|]. split; [unfold v3_copy; destruct (g_velocity s); reflexivity|].
  set (t := acceleration_from_thrust s). assert (TN : norm t = norm (g_thrust s)) by (unfold t, acceleration_from_thrust, v3_copy; destruct (g_thrust s); reflexivity).
  rewrite N in H. set (G := Earth_MU / _) in *. assert (G0 : 0 <= G) by (rewrite <- N; apply norm_nonneg). assert (T0 := norm_nonneg (g_thrust s)).
  destruct (plus_close 0 _ t t a' a (norm t) G ltac:(unfold verr; replace (sub t t) with zero3 by (unfold sub, zero3; f_equal; ring); rewrite (proj2 (norm_zero zero3) eq_refl); lra) H ltac:(lra) ltac:(lra)) as [P _].
  unfold verr in P. change (v3_plus t a) with (add t a). lra.
Qed.

Lemma full_close d L tanf s v : let p := g_position s in let R := norm p in g_epoch s = Epoch v -> g_use_perturbations s = true ->
  accurate_circular L -> accurate_far L -> accurate_polar L -> accurate_tangent tanf -> accurate_power L -> span v ->
  close_angle d (greenwich_hour_angle_b64 v) (greenwich_hour_angle (Epoch v)) -> 8e-11 <= d <= 2.7e-8 ->
  6378.137 <= R <= 100000 -> (forall q, gcrf_to_itrf p (Epoch v) = Ok q -> 0.1 * R <= hyp q) ->
  exists f' f, derivative_b64 L tanf s = Ok f' /\ derivative s = Ok f /\ fst f' = g_velocity s /\ fst f = g_velocity s /\
    let G := Earth_MU / (R * R) in
    norm (sub (snd f') (snd f)) <= 3.125 * ((1.00001 * d + 1.3e-14) * ((Earth_RADIUS / R) ^ 2 * G)) + 2.2e-15 * (G + norm (g_thrust s)) + 1.3e-15 + 1.3e-19 * Rabs (g_srp_scalar s).
Proof.
  intros p R EP U AC AF AP AT AW SV C DB RB HE.
  destruct (earth_close s ltac:(fold p R; lra)) as (ae & ae' & E1 & E1' & H1 & N1). fold p R in N1.
  destruct (Moon_norm (Epoch v)) as (mn & EM & MB).
  assert (MD : 256000 <= norm (sub mn p)) by (assert (T := norm_sub_ge mn p); fold R in T; lra).
  assert (MU : norm (sub mn p) <= 1e9).
  { replace (sub mn p) with (add mn (scale (-1) p)) by (unfold sub, add, scale; cbn [x3 y3 z3]; f_equal; ring). eapply Rle_trans; [apply norm_triangle|]. rewrite norm_scale. replace (Rabs (-1)) with 1 by (rewrite Rabs_left; lra). fold R. lra. }
  destruct (moon_force_close L v s mn AF SV EP EM ltac:(fold p; lra)) as (am & am' & E2 & E2' & H2). fold p in H2.
  destruct (sun_force_close L v s AF SV EP ltac:(fold p R; lra)) as (as0 & as' & E3 & E3' & H3).
  destruct (srp_close L v s AF SV EP ltac:(fold p R; lra)) as (ap & ap' & E4 & E4' & H4 & N4).
  destruct (gravity_close d L tanf s v EP AC AP AT AW SV C DB ltac:(fold p R; lra) HE) as (ag & a & E5' & E5 & H5). fold p R in H5. cbv zeta in H5. destruct H5 as (H5 & N5 & SP).
  (* sizes *)
  assert (N2 : norm am <= 1e-6).
  { unfold acceleration_from_moon in E2. rewrite EP, EM in E2. cbn [bind] in E2. fold p in E2. rewrite third_exact in E2 by lra. apply (ok_inj vec3) in E2. rewrite <- E2.
    eapply Rle_trans; [apply (tide_size Moon_MU mn p R 256000); unfold Moon_MU; fold R; lra|]. unfold Moon_MU. lra. }
  assert (N3 : norm as0 <= 2e-5).
  { rewrite (sun_ok s) in E3 by (fold p R; lra). rewrite EP in E3. apply (ok_inj vec3) in E3. rewrite <- E3. fold p. assert (SN := sun_range_norm v).
    eapply Rle_trans; [apply (tide_size Sun_MU _ p R 1.37e8); unfold Sun_MU; fold R; lra|]. unfold Sun_MU. lra. }
  assert (W2 : 3.9 * (/ norm (sub mn p) ^ 3 + / norm mn ^ 3) <= 4.7e-16).
  { assert (K : forall x, 256000 <= x -> / x ^ 3 <= 6e-17).
    { intros x X. apply Rle_trans with (/ 256000 ^ 3); [apply Rinv_le_contravar; [lra|apply pow_incr; lra]|]. lra. }
    assert (K1 := K (norm (sub mn p)) MD). assert (K2 := K (norm mn) ltac:(lra)). lra. }
  unfold derivative_b64, derivative. rewrite E1, E1', U. cbn [bind]. rewrite E2, E2'. cbn [bind]. rewrite E3, E3'. cbn [bind]. rewrite E4, E4'. cbn [bind]. rewrite E5, E5'. cbn [bind].
  eexists. eexists. split; [reflexivity|]. split; [reflexivity|]. cbn [fst snd]. split; [unfold v3_copy; destruct (g_velocity s); reflexivity|]. split; [unfold v3_copy; destruct (g_velocity s); reflexivity|].
  set (t := acceleration_from_thrust s). assert (TN : norm t = norm (g_thrust s)) by (unfold t, acceleration_from_thrust, v3_copy; destruct (g_thrust s); reflexivity).
  assert (T0 := norm_nonneg (g_thrust s)). set (T := norm (g_thrust s)) in *.
  cbv zeta. set (G := Earth_MU / (R * R)) in *. assert (G0 : 0 <= G) by (rewrite <- N1; apply norm_nonneg).
  assert (SG : (Earth_RADIUS / R) ^ 2 * (Earth_MU / R) / R = (Earth_RADIUS / R) ^ 2 * G) by (unfold G; field; lra). rewrite SG in *.
  set (S := (Earth_RADIUS / R) ^ 2 * G) in *.
  assert (RQ : 0 <= (Earth_RADIUS / R) ^ 2 <= 1).
  { assert (Q : 0 <= Earth_RADIUS / R <= 1). { split; [apply Rlt_le, Rdiv_lt_0_compat; unfold Earth_RADIUS; lra|]. apply Rmult_le_reg_r with R; [lra|]. rewrite div_mul by lra. unfold Earth_RADIUS. lra. }
    split; [apply pow_le; lra|]. rewrite <- (pow1 2). apply pow_incr. exact Q. }
  assert (SL : S <= G) by (unfold S; rewrite <- (Rmult_1_l G) at 2; apply Rmult_le_compat_r; lra).
  set (c := Rabs (g_srp_scalar s)) in *. assert (c0 : 0 <= c) by apply Rabs_pos. rewrite N1 in H1. rewrite N4 in H4.
  assert (H2' : verr 4.7e-16 am' am) by (eapply verr_weaken; [exact H2|exact W2]).
  destruct (plus_close 0 _ t t ae' ae T G ltac:(unfold verr; replace (sub t t) with zero3 by (unfold sub, zero3; f_equal; ring); rewrite (proj2 (norm_zero zero3) eq_refl); lra) H1 ltac:(lra) ltac:(lra)) as [P1 Q1].
  assert (P1' : verr (1.613e-15 * G + 1.13e-16 * T + 3e-60) (v3_plus_b64 t ae') (add t ae)) by (eapply verr_weaken; [exact P1|clear - T0 G0; lra]).
  destruct (plus_close _ _ _ _ am' am (T + G) 1e-6 P1' H2' Q1 N2) as [P2 Q2].
  assert (P2' : verr (1.726e-15 * G + 2.26e-16 * T + 4.71e-16) (v3_plus_b64 (v3_plus_b64 t ae') am') (add (add t ae) am)) by (eapply verr_weaken; [exact P2|clear - T0 G0; lra]).
  destruct (plus_close _ _ _ _ as' as0 (T + G + 1e-6) 2e-5 P2' H3 Q2 N3) as [P3 Q3].
  assert (P3' : verr (1.839e-15 * G + 3.39e-16 * T + 1.272e-15) (v3_plus_b64 (v3_plus_b64 (v3_plus_b64 t ae') am') as') (add (add (add t ae) am) as0)) by (eapply verr_weaken; [exact P3|clear - T0 G0; lra]).
  destruct (plus_close _ _ _ _ ap' ap (T + G + 1e-6 + 2e-5) (4.56e-9 * c) P3' H4 Q3 ltac:(lra)) as [P4 Q4].
  assert (P4' : verr (1.952e-15 * G + 4.52e-16 * T + 1.273e-15 + 1.278e-19 * c) (v3_plus_b64 (v3_plus_b64 (v3_plus_b64 (v3_plus_b64 t ae') am') as') ap') (add (add (add (add t ae) am) as0) ap)) by (eapply verr_weaken; [exact P4|clear - T0 G0 c0; lra]).
  destruct (plus_close _ _ _ _ ag a (T + G + 1e-6 + 2e-5 + 4.56e-9 * c) (0.074 * S) P4' H5 Q4 N5) as [P5 _].
  unfold verr in P5. change (norm (sub (v3_plus_b64 (v3_plus_b64 (v3_plus_b64 (v3_plus_b64 (v3_plus_b64 t ae') am') as') ap') ag) (add (add (add (add (add t ae) am) as0) ap) a)) <= 3.125 * ((1.00001 * d + 1.3e-14) * S) + 2.2e-15 * (G + T) + 1.3e-15 + 1.3e-19 * c).
  eapply Rle_trans; [exact P5|]. set (wS := (1.00001 * d + 1.3e-14) * S). assert (0 <= wS) by (apply Rmult_le_pos; lra). clearbody wS. clear - H T0 G0 c0 SL. lra.
Qed.
