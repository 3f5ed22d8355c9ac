From Coq Require Import Reals ZArith List Lra Lia Psatz.
From Flocq Require Import Core.
From Verif.Model Require Import Num Constants Linalg Functions Time Celestial Positions States TimeFloat AngleFloat ElementsFloat FrameFloat SiderealFloat GroundFloat EarthFloat BodyFloat ForceFloat GravityFloat.
From Verif.Spec Require Import Geometry Earth LibmAccuracy FrameFloat SiderealFloat EarthFloat GroundFloat.
From Verif.Spec Require Import GravityFloat.
From Verif.Proofs Require Import NumLemmas LinalgProofs PositionsProofs CelestialProofs TimeFloatProofs AngleFloatProofs ElementsFloatProofs StateFloatProofs VectorFloatProofs ClockProofs PiDigits Analysis FrameFloatBasics SiderealFloatProofs GroundFloatProofs GroundSiteProofs FrameFloatTrip OrbitFloatAngles OrbitFloatProofs EarthFloatProofs EarthFloatChain.
From Verif.Proofs Require Import GravityFloatBasics GravityFloatAngles GravityFloatEcef.
Local Notation near := ElementsFloatProofs.near.
Local Open Scope R_scope.

(** a rounded matrix times a vector that may be small *)
Lemma mat_bound k m' m w' w D N : rows_close k m' m -> mild m -> 0 <= k <= 1e-14 -> verr D w' w -> norm w' <= N -> 1e-30 <= N ->
  verr (1.0001 * D + (3.01 * k + 6.2e-16) * N) (m3_multiply_vector_b64 m' w') (apply3 m w).
Proof.
  intros (R1 & R2 & R3) M K W WN NL. destruct (mild_rows m M) as (U1 & U2 & U3).
  destruct M as [M _]. assert (M' := M (sub w' w)). rewrite apply3_sub in M'. unfold verr in W.
  assert (P := norm_nonneg w').
  assert (G : forall r' r, within3 k r' r -> norm r <= 1.001 -> Rabs (v3_dot_b64 r' w' - dot r w') <= (3.41e-16 + 1.7321 * k) * N).
  { intros r' r H U. apply within_verr in H. assert (V := verr_norm _ _ _ H). assert (E := dot_err (1.7321 * k) r' r w' 1.0011 H ltac:(lra) ltac:(lra)). unfold err in E. eapply Rle_trans; [exact E|].
    assert (B : (3.4e-16 * 1.0011 + 1.7321 * k) * norm w' <= (3.4e-16 * 1.0011 + 1.7321 * k) * N) by (apply Rmult_le_compat_l; lra). lra. }
  assert (Z : verr (1.7321 * ((3.41e-16 + 1.7321 * k) * N)) (m3_multiply_vector_b64 m' w') (apply3 m w')).
  { apply within_verr. unfold within3, m3_multiply_vector_b64, apply3. cbn [x3 y3 z3]. auto. }
  apply verr_weaken with (1.7321 * ((3.41e-16 + 1.7321 * k) * N) + 1.0001 * D).
  - eapply verr_trans; [exact Z|]. unfold verr. lra.
  - assert (0 <= k * N) by (apply Rmult_le_pos; lra). lra.
Qed.

Lemma back_close d L v a' a D N : accurate_circular L -> span v -> close_angle d (greenwich_hour_angle_b64 v) (greenwich_hour_angle (Epoch v)) ->
  verr D a' a -> norm a <= N -> 0 <= D <= 1e-4 * N -> 1e-25 <= N ->
  exists p' p, itrf_to_gcrf_b64 L a' v = Ok p' /\ itrf_to_gcrf a (Epoch v) = Ok p /\ norm (sub p' p) <= 1.0004 * D + 1.001 * (d + 1.3e-14) * N.
Proof.
  intros A H G V NA DN NL. destruct (rotation_rows L v A H) as (m & E & RM). unfold itrf_to_gcrf_b64. rewrite E. cbn [bind]. rewrite itrf_to_gcrf_ok. eexists. eexists. split; [reflexivity|]. split; [reflexivity|].
  assert (D0 : 0 <= d) by (destruct G as [k K]; eapply Rle_trans; [apply Rabs_pos|exact K]).
  set (M := 1.0003 * N).
  set (w := apply3 (transposed (rotz (- gast_b64 L v))) a).
  assert (TN : norm w = norm a) by apply rotation_norm, transposed_rotation, rotz_rotation.
  assert (NS := nutation_stretch (Epoch v) w). rewrite <- nutation_transposed_norm in NS. assert (PA := norm_nonneg a). rewrite TN in NS.
  assert (VN := verr_norm _ _ _ V).
  assert (S1 : verr (1.0001 * D + 2.43e-15 * M) (m3_multiply_vector_b64 (m3_transpose m) a') w).
  { eapply verr_weaken; [apply (mat_bound 6e-16 _ _ _ _ D M); [apply rows_transposed; exact RM|apply mild_transposed, rotz_mild|lra|exact V|unfold M; lra|unfold M; lra]|]. unfold M. lra. }
  assert (VN1 := verr_norm _ _ _ S1).
  assert (S2 : verr (1.00021 * D + 3.51e-15 * M) (m3_multiply_vector_b64 (m3_transpose (Earth_nutation_b64 L v)) (m3_multiply_vector_b64 (m3_transpose m) a')) (apply3 (transposed (Earth_nutation (Epoch v))) w)).
  { eapply verr_weaken; [eapply (mat_bound 1.5e-16 _ _ _ _ _ M); [apply rows_transposed, nutation_rows; auto|apply mild_transposed, mild_nutation|lra|exact S1|unfold M in *; lra|unfold M; lra]|]. unfold M. lra. }
  assert (VN2 := verr_norm _ _ _ S2).
  assert (S3 : verr (1.00032 * D + 1.17e-14 * M) (m3_multiply_vector_b64 (m3_transpose (Earth_precession_b64 L v)) (m3_multiply_vector_b64 (m3_transpose (Earth_nutation_b64 L v)) (m3_multiply_vector_b64 (m3_transpose m) a'))) (mid_gcrf L a v)).
  { unfold mid_gcrf. fold w. eapply verr_weaken; [eapply (mat_bound 2.5e-15 _ _ _ _ _ M); [apply rows_transposed, precession_close; auto|apply mild_transposed, mild_rotation, precession_rotation|lra|exact S2|unfold M in *; lra|unfold M; lra]|]. unfold M. lra. }
  assert (C := rotz_close _ _ _ a (close_angle_opp _ _ _ (trig_angle v d L A H G))). rewrite <- (rotz_transposed (- gast_b64 L v)), <- (rotz_transposed (- gast (Epoch v))) in C.
  unfold mid_gcrf in S3.
  set (p1 := apply3 (transposed (rotz (- gast_b64 L v))) a) in *. set (p2 := apply3 (transposed (rotz (- gast (Epoch v)))) a) in *.
  assert (NT := nutation_stretch (Epoch v) (sub p1 p2)). rewrite <- nutation_transposed_norm, apply3_sub in NT.
  assert (PN := rotation_norm _ (sub (apply3 (transposed (Earth_nutation (Epoch v))) p1) (apply3 (transposed (Earth_nutation (Epoch v))) p2)) (transposed_rotation _ (precession_rotation (Epoch v)))). rewrite apply3_sub in PN.
  assert (T := verr_trans _ _ _ _ _ S3 (Req_le _ _ PN)). unfold verr in T. eapply Rle_trans; [exact T|].
  assert (C' : (d + 9.5e-16) * norm a <= (d + 9.5e-16) * N) by (apply Rmult_le_compat_l; lra).
  assert (0 <= d * N) by (apply Rmult_le_pos; lra). unfold M.
  replace ((d + 9.5e-16) * N) with (d * N + 9.5e-16 * N) in C' by lra.
  replace (1.001 * (d + 1.3e-14) * N) with (1.001 * (d * N) + 1.001 * (1.3e-14 * N)) by lra. lra.
Qed.

Lemma gravity_close d L tanf s v : let p := g_position s in let R := norm p in g_epoch s = Epoch v ->
  accurate_circular L -> accurate_polar L -> accurate_tangent tanf -> accurate_power L -> span v ->
  close_angle d (greenwich_hour_angle_b64 v) (greenwich_hour_angle (Epoch v)) -> 8e-11 <= d <= 2.7e-8 ->
  6378.137 <= R <= 1e6 -> (forall q, gcrf_to_itrf p (Epoch v) = Ok q -> 0.1 * R <= hyp q) ->
  exists a' a, acceleration_from_gravity_b64 L tanf s = Ok a' /\ acceleration_from_gravity s = Ok a /\
    let S := (Earth_RADIUS / R) ^ 2 * (Earth_MU / R) / R in norm (sub a' a) <= 3.12 * ((1.00001 * d + 1.3e-14) * S) /\ norm a <= 0.074 * S /\ 0 < S.
Proof.
  intros p R EP AC AP AT AW SV G DB RB HE. unfold acceleration_from_gravity_b64, acceleration_from_gravity. rewrite EP. cbn [value]. fold p.
  destruct (to_itrf_close d L v p AC SV G ltac:(fold R; lra)) as (e' & e & E' & E & V). rewrite E', E. cbn [bind]. fold R in V.
  set (w := 1.00001 * d + 1.3e-14) in *. assert (W : unit_range w) by (unfold unit_range, w; lra).
  assert (NE : 0.99999 * R <= norm e <= 1.00001 * R).
  { rewrite gcrf_to_itrf_ok in E. apply (ok_inj vec3) in E. subst e. rewrite (rotation_norm _ _ (rotz_rotation _)).
    assert (NS := nutation_stretch (Epoch v) (apply3 (Earth_precession (Epoch v)) p)). rewrite (rotation_norm _ p (precession_rotation _)) in NS. fold R in NS. lra. }
  destruct (ecef_close L tanf w R (v3_magnitude_b64 p) e' e W AC AP AT AW RB (mag_near p ltac:(fold R; lra)) V NE (HE e E)) as (b' & b & B' & B & C). cbv zeta in C. destruct C as [C CN].
  change (v3_magnitude p) with R. rewrite B', B. cbn [bind].
  set (S := (Earth_RADIUS / R) ^ 2 * (Earth_MU / R) / R) in *.
  assert (IR : 0 < / R) by (apply Rinv_0_lt_compat; lra). assert (IL : / 1e6 <= / R) by (apply Rinv_le_contravar; lra).
  assert (SL : 1e-14 <= S).
  { unfold S, Earth_RADIUS, Earth_MU, Rdiv. assert (A1 : 6e-3 <= 6378.137 * / R) by lra. assert (A2 : 0.39 <= 398600.4418 * / R) by lra. set (x := 6378.137 * / R) in *. set (y := 398600.4418 * / R) in *.
    replace (x ^ 2) with (x * x) by ring. assert (3.6e-5 <= x * x) by (apply Rle_trans with (6e-3 * 6e-3); [lra|apply Rmult_le_compat; lra]). assert (1.4e-5 <= x * x * y) by (apply Rle_trans with (3.6e-5 * 0.39); [lra|apply Rmult_le_compat; lra]).
    apply Rle_trans with (1.4e-5 * / 1e6); [lra|]. apply Rmult_le_compat; lra. }
  unfold unit_range in W. assert (WS : 0 < w * S <= 2.8e-8 * S) by (split; [apply Rmult_lt_0_compat; lra|apply Rmult_le_compat_r; lra]).
  destruct (back_close d L v b' b (3.04 * (w * S)) (0.073 * S) AC SV G C CN ltac:(lra) ltac:(lra)) as (a' & a & A' & A & Z).
  exists a', a. split; [exact A'|]. split; [exact A|]. cbv zeta. split; [|split; [|lra]].
  - eapply Rle_trans; [exact Z|].
    assert (Q : 1.001 * (d + 1.3e-14) * (0.073 * S) <= 0.0731 * (w * S)).
    { replace (1.001 * (d + 1.3e-14) * (0.073 * S)) with (1.001 * 0.073 * ((d + 1.3e-14) * S)) by ring. assert ((d + 1.3e-14) * S <= w * S) by (apply Rmult_le_compat_r; unfold w; lra). lra. }
    lra.
  - rewrite itrf_to_gcrf_ok in A. apply (ok_inj vec3) in A. subst a. rewrite (rotation_norm _ _ (transposed_rotation _ (precession_rotation _))), nutation_transposed_norm.
    assert (NS := nutation_stretch (Epoch v) (apply3 (transposed (rotz (- gast (Epoch v)))) b)). rewrite (rotation_norm _ b (transposed_rotation _ (rotz_rotation _))) in NS. assert (PB := norm_nonneg b). lra.
Qed.
