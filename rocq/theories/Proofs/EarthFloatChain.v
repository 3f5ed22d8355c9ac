From Coq Require Import Reals ZArith Lra Lia Bool Psatz.
From Flocq Require Import Core.
From Verif.Model Require Import Num Constants Linalg Functions Time Celestial Positions States Artificial Obs Terrestrial GroundFloat TimeFloat AngleFloat ElementsFloat FrameFloat SiderealFloat EarthFloat.
From Verif.Spec Require Import Geometry Earth LibmAccuracy FrameFloat SiderealFloat GroundFloat EarthFloat.
From Verif.Proofs Require Import NumLemmas LinalgProofs PositionsProofs CelestialProofs TimeFloatProofs AngleFloatProofs ElementsFloatProofs StateFloatProofs VectorFloatProofs ClockProofs PiDigits Analysis FrameFloatBasics SiderealFloatProofs GroundFloatProofs GroundSiteProofs FrameFloatTrip EarthFloatProofs.
Local Open Scope R_scope.

(** * Nutation *)
Lemma bnd_arg1 v : span v -> bnd 36 3.2e-13 (nutation_arg1_b64 v) (radians (125 - 0.05295 * (julian_value (Epoch v) - J2000_JULIAN_DATE))).
Proof.
  intros H. assert (D := bnd_days v H). unfold nutation_arg1_b64. cbv zeta.
  assert (O : bnd 125 0 125 125) by (apply bnd_same; rewrite Rabs_pos_eq; lra).
  assert (C := bcw 0.05295 ltac:(clear; lra) 6e-18 ltac:(clear; lra)).
  assert (z2 := bmw _ _ _ _ _ _ _ _ C D 1.933999e3 1.594896e-11 ltac:(clear; lra) ltac:(clear; lra) ltac:(clear; lra)).
  assert (z1 := bsw _ _ _ _ _ _ _ _ O z2 2.058999e3 1.634114e-11 ltac:(clear; lra) ltac:(clear; lra) ltac:(clear; lra)).
  exact (bradw _ _ _ _ z1 36 3.2e-13 ltac:(clear; lra) ltac:(clear; lra) ltac:(clear; lra)).
Qed.
Lemma bnd_arg2 v : span v -> bnd 1261 1.2e-11 (nutation_arg2_b64 v) (radians (200.9 + 1.97129 * (julian_value (Epoch v) - J2000_JULIAN_DATE))).
Proof.
  intros H. assert (D := bnd_days v H). unfold nutation_arg2_b64. cbv zeta.
  assert (O := bcw 200.9 ltac:(clear; lra) 2.3e-14 ltac:(clear; lra)). assert (C := bcw 1.97129 ltac:(clear; lra) 2.3e-16 ltac:(clear; lra)).
  assert (z2 := bmw _ _ _ _ _ _ _ _ C D 7.200137e4 5.940124e-10 ltac:(clear; lra) ltac:(clear; lra) ltac:(clear; lra)).
  assert (z1 := baw _ _ _ _ _ _ _ _ O z2 7.220227e4 6.081353e-10 ltac:(clear; lra) ltac:(clear; lra) ltac:(clear; lra)).
  exact (bradw _ _ _ _ z1 1261 1.2e-11 ltac:(clear; lra) ltac:(clear; lra) ltac:(clear; lra)).
Qed.

Lemma bnd_dpsi L v : accurate_circular L -> span v -> bnd 9.1e-5 1.3e-16 (dpsi_b64 L v) (nutation_longitude (Epoch v)).
Proof.
  intros A H. destruct (bsincosw L _ _ _ _ A (bnd_arg1 v H) ltac:(clear; lra) 3.203e-13 ltac:(clear; lra)) as [S1 _]. destruct (bsincosw L _ _ _ _ A (bnd_arg2 v H) ltac:(clear; lra) 1.201e-11 ltac:(clear; lra)) as [S2 _].
  unfold dpsi_b64. rewrite <- dpsi_eq. cbv zeta. replace 125.0 with 125 by lra.
  assert (B1 : bnd 0.0048 5.424000e-19 (b64 (-0.0048)) (-0.0048)) by (eapply bnd_weaken; [apply (bnd_const _ 0.0048); apply Rabs_le; lra| |]; clear; lra).
  assert (B2 := bcw 0.0004 ltac:(clear; lra) 4.520000e-20 ltac:(clear; lra)).
  assert (R1 := bradw _ _ _ _ B1 8.377584e-5 3.842005e-20 ltac:(clear; lra) ltac:(clear; lra) ltac:(clear; lra)). assert (R2 := bradw _ _ _ _ B2 6.981320e-6 3.201671e-21 ltac:(clear; lra) ltac:(clear; lra) ltac:(clear; lra)).
  assert (z2 := bmw _ _ _ _ _ _ _ _ R1 S1 8.377584e-5 2.715004e-17 ltac:(clear; lra) ltac:(clear; lra) ltac:(clear; lra)).
  assert (z3 := bmw _ _ _ _ _ _ _ _ R2 S2 6.981320e-6 8.468822e-17 ltac:(clear; lra) ltac:(clear; lra) ltac:(clear; lra)).
  assert (z1 := bsw _ _ _ _ _ _ _ _ z2 z3 9.075716e-5 1.129671e-16 ltac:(clear; lra) ltac:(clear; lra) ltac:(clear; lra)).
  eapply bnd_weaken; [exact z1| |]; clear; lra.
Qed.
Lemma bnd_deps L v : accurate_circular L -> span v -> bnd 4.9e-5 1e-16 (deps_b64 L v) (nutation_obliquity (Epoch v)).
Proof.
  intros A H. destruct (bsincosw L _ _ _ _ A (bnd_arg1 v H) ltac:(clear; lra) 3.203e-13 ltac:(clear; lra)) as [_ C1]. destruct (bsincosw L _ _ _ _ A (bnd_arg2 v H) ltac:(clear; lra) 1.201e-11 ltac:(clear; lra)) as [_ C2].
  unfold deps_b64. rewrite <- deps_eq. cbv zeta. replace 125.0 with 125 by lra.
  assert (B1 := bcw 0.0026 ltac:(clear; lra) 2.938000e-19 ltac:(clear; lra)).
  assert (B2 := bcw 0.0002 ltac:(clear; lra) 2.260000e-20 ltac:(clear; lra)).
  assert (R1 := bradw _ _ _ _ B1 4.537858e-5 2.081086e-20 ltac:(clear; lra) ltac:(clear; lra) ltac:(clear; lra)). assert (R2 := bradw _ _ _ _ B2 3.490660e-6 1.600836e-21 ltac:(clear; lra) ltac:(clear; lra) ltac:(clear; lra)).
  assert (z2 := bmw _ _ _ _ _ _ _ _ R1 C1 4.537858e-5 1.470627e-17 ltac:(clear; lra) ltac:(clear; lra) ltac:(clear; lra)).
  assert (z3 := bmw _ _ _ _ _ _ _ _ R2 C2 3.490660e-6 4.234411e-17 ltac:(clear; lra) ltac:(clear; lra) ltac:(clear; lra)).
  assert (z1 := baw _ _ _ _ _ _ _ _ z2 z3 4.886924e-5 5.762647e-17 ltac:(clear; lra) ltac:(clear; lra) ltac:(clear; lra)).
  eapply bnd_weaken; [exact z1| |]; clear; lra.
Qed.

Definition rows_close (k : R) (m' m : mat3) : Prop :=
  within3 k (m3_row1 m') (m3_row1 m) /\ within3 k (m3_row2 m') (m3_row2 m) /\ within3 k (m3_row3 m') (m3_row3 m).
Lemma rows_transposed k m' m : rows_close k m' m -> rows_close k (m3_transpose m') (transposed m).
Proof. intros ((A & B & C) & (D & E & F) & (G & H & I)). unfold rows_close, within3, m3_transpose, transposed. cbn [m3_row1 m3_row2 m3_row3 x3 y3 z3]. auto 10. Qed.

Lemma nutation_rows L v : accurate_circular L -> span v -> rows_close 1.5e-16 (Earth_nutation_b64 L v) (Earth_nutation (Epoch v)).
Proof.
  intros A H. assert (P := bnd_dpsi L v A H). assert (E := bnd_deps L v A H).
  destruct (bnd_sincos L _ _ _ _ A (bnd_obliquity v H)) as [SE CE]; [lra|].
  unfold rows_close, Earth_nutation_b64, Earth_nutation. cbv zeta.
  rewrite <- dpsi_eq in P. rewrite <- deps_eq in E. cbv zeta in P, E. cbn [m3_row1 m3_row2 m3_row3].
  match type of P with bnd _ _ _ ?s => set (dp := s) in * end. match type of E with bnd _ _ _ ?s => set (de := s) in * end.
  assert (NP := bnd_opp _ _ _ _ P). assert (NE := bnd_opp _ _ _ _ E).
  assert (W : forall X d q' q, bnd X d q' q -> d <= 1.5e-16 -> Rabs (q' - q) <= 1.5e-16) by (intros X d q' q [_ K] B; unfold err in K; lra).
  assert (O : Rabs (1 - 1.0) <= 1.5e-16) by (replace (1 - 1.0) with 0 by lra; rewrite Rabs_R0; lra).
  unfold within3. cbn [x3 y3 z3].
  repeat split; first [exact O | eapply W; [first [eassumption | apply bnd_mul; eassumption]|lra]].
Qed.

(** * The daily rotation *)
Lemma bnd_gast L v : accurate_circular L -> span v -> err 9.5e-16 (gast_b64 L v)
  (nutation_longitude (Epoch v) * cos (obliquity_of_ecliptic_at_epoch (Epoch v)) + greenwich_hour_angle_b64 v) /\ Rabs (gast_b64 L v) <= 8.
Proof.
  intros A H. assert (P := bnd_dpsi L v A H). destruct (bnd_sincos L _ _ _ _ A (bnd_obliquity v H)) as [_ CE]; [lra|].
  assert (G := gha_b64_range v). assert (B := bnd_mul _ _ _ _ _ _ _ _ P CE).
  assert (GB : bnd 6.2831853072 0 (greenwich_hour_angle_b64 v) (greenwich_hour_angle_b64 v)) by (apply bnd_same; rewrite Rabs_pos_eq; lra).
  assert (S := bnd_add _ _ _ _ _ _ _ _ B GB). unfold gast_b64. destruct S as [U E].
  assert (E' : err 9.5e-16 (b64 (b64 (dpsi_b64 L v * cosf L (obliquity_b64 v)) + greenwich_hour_angle_b64 v)) (nutation_longitude (Epoch v) * cos (obliquity_of_ecliptic_at_epoch (Epoch v)) + greenwich_hour_angle_b64 v)) by (eapply err_weaken; [exact E|lra]).
  split; auto. assert (V := err_upper _ _ _ _ E' U). lra.
Qed.

Lemma unit_axis : v3_normalized_b64 (V3 0 0 1) = Ok (V3 0 0 1).
Proof.
  unfold v3_normalized_b64, v3_magnitude_b64, v3_dot_b64. cbn [x3 y3 z3].
  repeat first [rewrite Rmult_0_l | rewrite Rmult_0_r | rewrite Rmult_1_l | rewrite Rplus_0_l | rewrite b64_0 | rewrite b64_1 | rewrite sqrt_1].
  rewrite div_ok by lra. cbn [bind]. replace (1 / 1) with 1 by field.
  repeat first [rewrite Rmult_0_l | rewrite Rmult_0_r | rewrite Rmult_1_l | rewrite b64_0 | rewrite b64_1]. reflexivity.
Qed.

Lemma rotation_rows L v : accurate_circular L -> span v -> exists m, Earth_rotation_b64 L v = Ok m /\ rows_close 6e-16 m (rotz (- gast_b64 L v)).
Proof.
  intros A H. destruct (bnd_gast L v A H) as [_ G]. unfold Earth_rotation_b64, v3_rotation_matrix_b64. rewrite unit_axis. cbn [bind].
  set (th := - gast_b64 L v). assert (TB : Rabs th <= 8) by (unfold th; rewrite Rabs_Ropp; auto). destruct (A th ltac:(lra)) as [S C].
  set (c := cosf L th) in *. set (s := sinf L th) in *. cbv zeta. cbn [x3 y3 z3].
  eexists. split; [reflexivity|]. 
  repeat first [rewrite Rmult_0_l | rewrite Rmult_0_r | rewrite Rmult_1_l | rewrite Rmult_1_r | rewrite Rplus_0_l | rewrite Rplus_0_r | rewrite Rminus_0_r | rewrite b64_0 | rewrite b64_1].
  unfold rows_close, rotz, within3. cbn [m3_row1 m3_row2 m3_row3 x3 y3 z3].
  assert (SB := abs_sin th). assert (CB := abs_cos th).
  assert (C1 : Rabs (b64 c - cos th) <= 6e-16) by (apply (err_round _ _ _ _ _ C CB); lra).
  assert (S1 : err 4e-16 (b64 s) (sin th)) by (apply (err_round _ _ _ _ _ S SB); lra).
  assert (S2 : Rabs (b64 (b64 s) - sin th) <= 6e-16) by (rewrite b64_idem; unfold err in S1; lra).
  assert (S3 : Rabs (b64 (0 - b64 s) - - sin th) <= 6e-16).
  { rewrite Rminus_0_l. apply (err_round _ _ _ _ _ (err_opp _ _ _ S1) (abs_opp _ _ SB)). lra. }
  assert (Z : Rabs (0 - 0) <= 6e-16) by (rewrite Rminus_0_r, Rabs_R0; lra).
  assert (O : Rabs (b64 (c + b64 (b64 (1 - c))) - 1) <= 6e-16).
  { rewrite b64_idem. apply Rabs_le_inv in C. apply Rabs_le_inv in CB. assert (F := b64_fine (1 - c)).
    assert (Rabs (1 - c) <= 2.001) by (apply Rabs_le; lra). assert (K : err 2.3e-16 (c + b64 (1 - c)) 1) by (unfold err; replace (c + b64 (1 - c) - 1) with (b64 (1 - c) - (1 - c)) by ring; lra).
    apply (err_round _ _ _ 1 _ K); [rewrite Rabs_R1|]; lra. }
  repeat split; assumption.
Qed.

(** two turns about the same axis *)
Lemma rotz_close a b d x : close_angle d a b -> norm (sub (apply3 (rotz a) x) (apply3 (rotz b) x)) <= d * norm x.
Proof.
  intros (k & K). set (q := a - b - 2 * PI * IZR k) in *. assert (D0 : 0 <= d) by (eapply Rle_trans; [apply Rabs_pos|exact K]).
  assert (CQ : cos (a - b) = cos q).
  { replace (a - b) with (q + 2 * PI * IZR k) by (unfold q; ring). apply cos_shift_Z. }
  assert (L := cos_lower q). rewrite <- CQ in L. rewrite cos_minus in L.
  assert (N := norm_sq3 x). assert (P := norm_nonneg x).
  assert (QQ : q * q <= d * d) by (apply Rabs_le_inv in K; nra).
  apply Rsqr_incr_0_var; [|apply Rmult_le_pos; auto]. unfold Rsqr. rewrite norm_sq3.
  unfold sub, apply3, rotz, dot. destruct x as [x y z]. cbn [x3 y3 z3 m3_row1 m3_row2 m3_row3] in *.
  assert (A := sin2_cos2' a). assert (B := sin2_cos2' b). set (ca := cos a) in *. set (sa := sin a) in *. set (cb := cos b) in *. set (sb := sin b) in *.
  replace ((_ - _) * _ + (_ - _) * _ + (_ - _) * _) with (((ca * ca + sa * sa) + (cb * cb + sb * sb) - 2 * (ca * cb + sa * sb)) * (x * x + y * y)) by ring.
  replace (d * norm (V3 x y z) * (d * norm (V3 x y z))) with (d * d * (norm (V3 x y z) * norm (V3 x y z))) by ring. rewrite N.
  assert (XY : 0 <= x * x + y * y) by nra.
  apply Rle_trans with (d * d * (x * x + y * y)); [apply Rmult_le_compat_r; lra|]. apply Rmult_le_compat_l; nra.
Qed.

(** * A rounded matrix times a rounded vector *)
Definition mild (m : mat3) : Prop := (forall x, norm (apply3 m x) <= 1.0001 * norm x) /\ (forall x, norm (apply3 (transposed m) x) <= 1.0001 * norm x).
Lemma mild_rotation m : is_rotation m -> mild m.
Proof.
  intros R. split; intros x; assert (P := norm_nonneg x); [rewrite rotation_norm by auto|rewrite rotation_norm by (apply transposed_rotation; auto)]; lra.
Qed.
Lemma nutation_transposed_norm e x : norm (apply3 (transposed (Earth_nutation e)) x) = norm (apply3 (Earth_nutation e) x).
Proof. unfold norm. f_equal. rewrite nutation_apply, nutation_transposed. unfold dot, add, sub, cross. cbn. ring. Qed.
Lemma mild_nutation e : mild (Earth_nutation e).
Proof. split; intros x; assert (P := norm_nonneg x); [|rewrite nutation_transposed_norm]; assert (N := nutation_stretch e x); lra. Qed.
Lemma mild_transposed m : mild m -> mild (transposed m).
Proof. intros [A B]. split; [exact B|]. intros x. rewrite transposed_involutive. apply A. Qed.
Lemma mild_rows m : mild m -> norm (m3_row1 m) <= 1.001 /\ norm (m3_row2 m) <= 1.001 /\ norm (m3_row3 m) <= 1.001.
Proof.
  intros [_ B]. assert (U : norm (V3 1 0 0) = 1 /\ norm (V3 0 1 0) = 1 /\ norm (V3 0 0 1) = 1) by (repeat split; unfold norm, dot; cbn [x3 y3 z3]; (replace (_ + _ + _) with 1 by ring); apply sqrt_1).
  destruct U as (U1 & U2 & U3). assert (B1 := B (V3 1 0 0)). assert (B2 := B (V3 0 1 0)). assert (B3 := B (V3 0 0 1)). rewrite U1 in B1. rewrite U2 in B2. rewrite U3 in B3.
  destruct m as [[a b c] [d e f] [g h i]]. unfold apply3, transposed, dot in *. cbn [m3_row1 m3_row2 m3_row3 x3 y3 z3] in *.
  ring_simplify (a * 1 + d * 0 + g * 0) (b * 1 + e * 0 + h * 0) (c * 1 + f * 0 + i * 0) in B1.
  ring_simplify (a * 0 + d * 1 + g * 0) (b * 0 + e * 1 + h * 0) (c * 0 + f * 1 + i * 0) in B2.
  ring_simplify (a * 0 + d * 0 + g * 1) (b * 0 + e * 0 + h * 1) (c * 0 + f * 0 + i * 1) in B3. repeat split; lra.
Qed.
Lemma apply3_sub m a b : apply3 m (sub a b) = sub (apply3 m a) (apply3 m b).
Proof. unfold apply3, sub, dot. cbn. f_equal; ring. Qed.

Lemma mat_close k m' m w' w d N : rows_close k m' m -> mild m -> 0 <= k <= 1e-14 -> verr (d * N) w' w -> 0.99 * N <= norm w <= 1.001 * N -> 0 <= d <= 1e-7 -> 2e-9 <= N ->
  verr ((1.0001 * d + 3.01 * k + 6.1e-16) * N) (m3_multiply_vector_b64 m' w') (apply3 m w).
Proof.
  intros (R1 & R2 & R3) M K W WN D NL. assert (VN := verr_norm _ _ _ W). destruct (mild_rows m M) as (U1 & U2 & U3).
  assert (DN : 0 <= d * N <= 1e-7 * N) by (split; [apply Rmult_le_pos; lra|apply Rmult_le_compat_r; lra]).
  assert (WP : 0.9 * N <= norm w' <= 1.0011 * N) by lra.
  destruct M as [M _]. assert (M' := M (sub w' w)). rewrite apply3_sub in M'. unfold verr in W.
  set (d1 := 3.5e-16 + 1.7321 * k).
  assert (A1 : err (d1 * norm w') (v3_dot_b64 (m3_row1 m') w') (dot (m3_row1 m) w')) by (apply (row_err (1.7321 * k)); [apply within_verr; exact R1|exact U1|lra|lra|unfold d1; lra]).
  assert (A2 : err (d1 * norm w') (v3_dot_b64 (m3_row2 m') w') (dot (m3_row2 m) w')) by (apply (row_err (1.7321 * k)); [apply within_verr; exact R2|exact U2|lra|lra|unfold d1; lra]).
  assert (A3 : err (d1 * norm w') (v3_dot_b64 (m3_row3 m') w') (dot (m3_row3 m) w')) by (apply (row_err (1.7321 * k)); [apply within_verr; exact R3|exact U3|lra|lra|unfold d1; lra]).
  assert (Z : verr (1.7321 * (d1 * norm w')) (m3_multiply_vector_b64 m' w') (apply3 m w')).
  { apply within_verr. unfold within3, m3_multiply_vector_b64, apply3. cbn [x3 y3 z3]. auto. }
  apply verr_weaken with (1.7321 * (d1 * norm w') + 1.0001 * (d * N)).
  - eapply verr_trans; [exact Z|]. unfold verr. lra.
  - assert (B : d1 * norm w' <= d1 * (1.0011 * N)) by (apply Rmult_le_compat_l; unfold d1; lra).
    assert (KN : 0 <= k * N) by (apply Rmult_le_pos; lra). unfold d1 in *. 
    replace ((3.5e-16 + 1.7321 * k) * (1.0011 * N)) with (1.0011 * (3.5e-16 * N) + 1.0011 * (1.7321 * (k * N))) in B by lra.
    replace ((1.0001 * d + 3.01 * k + 6.1e-16) * N) with (1.0001 * (d * N) + 3.01 * (k * N) + 6.1e-16 * N) by lra. lra.
Qed.

(** * The whole conversions *)
Lemma trig_angle v d L : accurate_circular L -> span v -> close_angle d (greenwich_hour_angle_b64 v) (greenwich_hour_angle (Epoch v)) ->
  close_angle (d + 9.5e-16) (- gast_b64 L v) (- gast (Epoch v)).
Proof.
  intros A H [k K]. destruct (bnd_gast L v A H) as [G _]. exists (- k)%Z. unfold gast, err in *. rewrite opp_IZR.
  set (x := nutation_longitude _ * _) in *. apply Rabs_le_inv in K. apply Rabs_le_inv in G. apply Rabs_le. lra.
Qed.
Lemma rotz_mild a : mild (rotz a). Proof. apply mild_rotation, rotz_rotation. Qed.
Lemma precession_close L v : accurate_circular L -> span v -> rows_close 2.5e-15 (Earth_precession_b64 L v) (Earth_precession (Epoch v)).
Proof. exact (precession_rows L v). Qed.
Lemma verr_refl x N : verr (0 * N) x x.
Proof. unfold verr. rewrite Rmult_0_l. replace (sub x x) with (V3 0 0 0) by (unfold sub; f_equal; ring). unfold norm, dot; cbn [x3 y3 z3]. replace (0 * 0 + 0 * 0 + 0 * 0) with 0 by ring. rewrite sqrt_0. lra. Qed.

(** the computed vector against exact matrices with the computed rotation angle *)
Definition mid_itrf (L : libm) (p : vec3) (v : R) : vec3 :=
  apply3 (rotz (- gast_b64 L v)) (apply3 (Earth_nutation (Epoch v)) (apply3 (Earth_precession (Epoch v)) p)).
Lemma to_itrf_chain L v p : accurate_circular L -> span v -> 2e-9 <= norm p ->
  exists q', gcrf_to_itrf_b64 L p v = Ok q' /\ verr (1.17e-14 * norm p) q' (mid_itrf L p v).
Proof.
  intros A H N. destruct (rotation_rows L v A H) as (m & E & RM). unfold gcrf_to_itrf_b64. rewrite E. cbn [bind]. eexists. split; [reflexivity|].
  assert (PN : norm (apply3 (Earth_precession (Epoch v)) p) = norm p) by apply rotation_norm, precession_rotation.
  assert (NS := nutation_stretch (Epoch v) (apply3 (Earth_precession (Epoch v)) p)). rewrite PN in NS.
  assert (S1 : verr (8.14e-15 * norm p) (m3_multiply_vector_b64 (Earth_precession_b64 L v) p) (apply3 (Earth_precession (Epoch v)) p)).
  { eapply verr_weaken; [apply (mat_close 2.5e-15 _ _ _ _ 0 (norm p)); [apply precession_close; auto|apply mild_rotation, precession_rotation|lra|apply verr_refl|lra|lra|lra]|]. apply Rmult_le_compat_r; lra. }
  assert (S2 : verr (9.21e-15 * norm p) (m3_multiply_vector_b64 (Earth_nutation_b64 L v) (m3_multiply_vector_b64 (Earth_precession_b64 L v) p)) (apply3 (Earth_nutation (Epoch v)) (apply3 (Earth_precession (Epoch v)) p))).
  { eapply verr_weaken; [apply (mat_close 1.5e-16 _ _ _ _ 8.14e-15 (norm p)); [apply nutation_rows; auto|apply mild_nutation|lra|exact S1|lra|lra|lra]|]. apply Rmult_le_compat_r; lra. }
  unfold mid_itrf.
  eapply verr_weaken; [apply (mat_close 6e-16 _ _ _ _ 9.21e-15 (norm p)); [exact RM|apply rotz_mild|lra|exact S2|lra|lra|lra]|]. apply Rmult_le_compat_r; lra.
Qed.

Lemma to_itrf_close d L v p : accurate_circular L -> span v -> close_angle d (greenwich_hour_angle_b64 v) (greenwich_hour_angle (Epoch v)) -> 2e-9 <= norm p ->
  exists q' q, gcrf_to_itrf_b64 L p v = Ok q' /\ gcrf_to_itrf p (Epoch v) = Ok q /\ norm (sub q' q) <= (1.00001 * d + 1.3e-14) * norm p.
Proof.
  intros A H G N. destruct (to_itrf_chain L v p A H N) as (q' & E & V). rewrite gcrf_to_itrf_ok. exists q'. eexists. split; [exact E|]. split; [reflexivity|].
  assert (D0 : 0 <= d) by (destruct G as [k K]; eapply Rle_trans; [apply Rabs_pos|exact K]).
  assert (C := rotz_close _ _ _ (apply3 (Earth_nutation (Epoch v)) (apply3 (Earth_precession (Epoch v)) p)) (trig_angle v d L A H G)).
  assert (NS := nutation_stretch (Epoch v) (apply3 (Earth_precession (Epoch v)) p)). rewrite (rotation_norm _ p (precession_rotation _)) in NS.
  unfold mid_itrf in V. assert (T := verr_trans _ _ _ _ _ V C). unfold verr in T. eapply Rle_trans; [exact T|].
  set (y := norm (apply3 _ _)) in *. assert ((d + 9.5e-16) * y <= (d + 9.5e-16) * ((1 + 5.5e-9) * norm p)) by (apply Rmult_le_compat_l; lra).
  assert (0 <= d * norm p) by (apply Rmult_le_pos; lra). 
  replace ((d + 9.5e-16) * ((1 + 5.5e-9) * norm p)) with ((1 + 5.5e-9) * (d * norm p) + (1 + 5.5e-9) * (9.5e-16 * norm p)) in * by lra.
  replace ((1.00001 * d + 1.3e-14) * norm p) with (1.00001 * (d * norm p) + 1.3e-14 * norm p) by lra. lra.
Qed.

Definition mid_gcrf (L : libm) (q : vec3) (v : R) : vec3 :=
  apply3 (transposed (Earth_precession (Epoch v))) (apply3 (transposed (Earth_nutation (Epoch v))) (apply3 (transposed (rotz (- gast_b64 L v))) q)).
Lemma to_gcrf_chain d c L v q' q N : accurate_circular L -> span v -> 2e-9 <= N -> verr (d * N) q' q -> N <= norm q <= (1 + 1e-8) * N -> 0 <= d <= 1e-9 -> 1.001 * d + 1.17e-14 <= c ->
  exists p', itrf_to_gcrf_b64 L q' v = Ok p' /\ verr (c * N) p' (mid_gcrf L q v).
Proof.
  intros A H NB V NQ D DC. destruct (rotation_rows L v A H) as (m & E & RM). unfold itrf_to_gcrf_b64. rewrite E. cbn [bind]. eexists. split; [reflexivity|].
  set (w := apply3 (transposed (rotz (- gast_b64 L v))) q).
  assert (TN : norm w = norm q) by apply rotation_norm, transposed_rotation, rotz_rotation.
  assert (NS := nutation_stretch (Epoch v) w). rewrite <- nutation_transposed_norm in NS.
  assert (S1 : verr ((1.0001 * d + 2.42e-15) * N) (m3_multiply_vector_b64 (m3_transpose m) q') w).
  { eapply verr_weaken; [apply (mat_close 6e-16 _ _ _ _ d N); [apply rows_transposed; exact RM|apply mild_transposed, rotz_mild|lra|exact V|lra|lra|lra]|]. apply Rmult_le_compat_r; lra. }
  assert (S2 : verr ((1.00021 * d + 3.49e-15) * N) (m3_multiply_vector_b64 (m3_transpose (Earth_nutation_b64 L v)) (m3_multiply_vector_b64 (m3_transpose m) q')) (apply3 (transposed (Earth_nutation (Epoch v))) w)).
  { eapply verr_weaken; [apply (mat_close 1.5e-16 _ _ _ _ (1.0001 * d + 2.42e-15) N); [apply rows_transposed, nutation_rows; auto|apply mild_transposed, mild_nutation|lra|exact S1|lra|lra|lra]|]. apply Rmult_le_compat_r; lra. }
  unfold mid_gcrf. fold w.
  eapply verr_weaken; [apply (mat_close 2.5e-15 _ _ _ _ (1.00021 * d + 3.49e-15) N); [apply rows_transposed, precession_close; auto|apply mild_transposed, mild_rotation, precession_rotation|lra|exact S2|lra|lra|lra]|]. apply Rmult_le_compat_r; lra.
Qed.

Lemma rotz_transposed a : transposed (rotz a) = rotz (- a).
Proof. unfold transposed, rotz. cbn. rewrite cos_neg, sin_neg. f_equal; f_equal; ring. Qed.
Lemma close_angle_opp d a b : close_angle d a b -> close_angle d (- a) (- b).
Proof. intros [k K]. exists (- k)%Z. rewrite opp_IZR. rewrite <- Rabs_Ropp. replace (- (- a - - b - 2 * PI * - IZR k)) with (a - b - 2 * PI * IZR k) by ring. exact K. Qed.

Lemma to_gcrf_close d L v q : accurate_circular L -> span v -> close_angle d (greenwich_hour_angle_b64 v) (greenwich_hour_angle (Epoch v)) -> 2e-9 <= norm q ->
  exists p' p, itrf_to_gcrf_b64 L q v = Ok p' /\ itrf_to_gcrf q (Epoch v) = Ok p /\ norm (sub p' p) <= (1.00001 * d + 1.3e-14) * norm q.
Proof.
  intros A H G N. destruct (to_gcrf_chain 0 1.17e-14 L v q q (norm q) A H N (verr_refl _ _)) as (p' & E & V); [lra|lra|lra|].
  rewrite itrf_to_gcrf_ok. exists p'. eexists. split; [exact E|]. split; [reflexivity|].
  assert (D0 : 0 <= d) by (destruct G as [k K]; eapply Rle_trans; [apply Rabs_pos|exact K]).
  assert (C := rotz_close _ _ _ q (close_angle_opp _ _ _ (trig_angle v d L A H G))). rewrite <- (rotz_transposed (- gast_b64 L v)), <- (rotz_transposed (- gast (Epoch v))) in C.
  unfold mid_gcrf in V.
  set (a := apply3 (transposed (rotz (- gast_b64 L v))) q) in *. set (b := apply3 (transposed (rotz (- gast (Epoch v)))) q) in *.
  assert (NS := nutation_stretch (Epoch v) (sub a b)). rewrite <- nutation_transposed_norm, apply3_sub in NS.
  assert (PN := rotation_norm _ (sub (apply3 (transposed (Earth_nutation (Epoch v))) a) (apply3 (transposed (Earth_nutation (Epoch v))) b)) (transposed_rotation _ (precession_rotation (Epoch v)))). rewrite apply3_sub in PN.
  assert (T := verr_trans _ _ _ _ _ V (Req_le _ _ PN)). unfold verr in T. eapply Rle_trans; [exact T|].
  assert (0 <= d * norm q) by (apply Rmult_le_pos; lra).
  replace ((d + 9.5e-16) * norm q) with (d * norm q + 9.5e-16 * norm q) in C by lra.
  replace ((1.00001 * d + 1.3e-14) * norm q) with (1.00001 * (d * norm q) + 1.3e-14 * norm q) by lra. lra.
Qed.

Lemma trip_close L v p : accurate_circular L -> span v -> 2e-9 <= norm p ->
  exists q' p' q r, gcrf_to_itrf_b64 L p v = Ok q' /\ itrf_to_gcrf_b64 L q' v = Ok p' /\ gcrf_to_itrf p (Epoch v) = Ok q /\ itrf_to_gcrf q (Epoch v) = Ok r /\
    norm (sub p' r) <= 2.4e-14 * norm p.
Proof.
  intros A H N. destruct (to_itrf_chain L v p A H N) as (q' & E & V).
  assert (NS := nutation_stretch (Epoch v) (apply3 (Earth_precession (Epoch v)) p)). rewrite (rotation_norm _ p (precession_rotation _)) in NS.
  assert (MN : norm (mid_itrf L p v) = norm (apply3 (Earth_nutation (Epoch v)) (apply3 (Earth_precession (Epoch v)) p))) by apply rotation_norm, rotz_rotation.
  destruct (to_gcrf_chain 1.17e-14 2.4e-14 L v q' (mid_itrf L p v) (norm p) A H N V) as (p' & E' & V'); [lra|lra|lra|].
  exists q', p'. rewrite gcrf_to_itrf_ok. eexists _, _. split; [exact E|]. split; [exact E'|]. split; [reflexivity|]. split; [apply itrf_to_gcrf_ok|].
  unfold verr, mid_gcrf, mid_itrf in V'. rewrite transposed_inverse in V' by apply rotz_rotation. rewrite transposed_inverse by apply rotz_rotation. exact V'.
Qed.

(** * A site's view of a target *)
Lemma seen_range s p v ob : (exists l, GroundSite l = Ok s) -> forall t, sc_position t = p -> current_epoch t = Epoch v -> angles_and_range s t = Ok ob ->
  exists q, gcrf_to_itrf p (Epoch v) = Ok q /\ go_range ob = norm (sub q (itrf_position s)) /\ go_observed_direction ob = enz_position s q /\ go_epoch ob = Epoch v.
Proof.
  intros [l G] t P E A. unfold angles_and_range in A. rewrite P, E in A. destruct (gcrf_to_itrf p (Epoch v)) as [q|] eqn:Q; [|discriminate]. cbn [bind] in A. apply ok_inj in A. subst ob.
  exists q. split; auto. unfold GroundObservation. cbn [go_range go_observed_direction radius spherical_from_cartesian]. split; [|split; reflexivity].
  unfold GroundSite in G. destruct (lla_to_itrf l) as [v0|]; [|discriminate]. cbn [bind] in G. apply ok_inj in G. subst s. cbn [itrf_position].
  set (w := enz_position _ q). assert (W : norm w = norm (sub q v0)).
  { unfold w, enz_position. cbn [enz_matrix itrf_position]. exact (rotation_norm _ (sub q v0) (ENZ_rotation _ _)). }
  rewrite <- W. unfold norm, v3_magnitude, v3_dot, dot. cbn [x3 y3 z3]. f_equal. ring.
Qed.

Lemma sight_close d L l t v : accurate_circular L -> accurate_polar L -> Rabs (latitude l) <= 8 -> Rabs (longitude l) <= 8 -> Rabs (altitude l) <= 1e9 ->
  span v -> current_epoch t = Epoch v -> close_angle d (greenwich_hour_angle_b64 v) (greenwich_hour_angle (Epoch v)) -> d <= 2.7e-8 -> 2e-9 <= norm (sc_position t) <= 1e7 ->
  exists s' s ob' ob, GroundSite_b64 L l = Ok s' /\ GroundSite l = Ok s /\ angles_and_range_b64 L s' (sc_position t) v = Ok ob' /\ angles_and_range s t = Ok ob /\
    go_epoch ob' = go_epoch ob /\
    let S := 6400 + Rabs (altitude l) in let D := go_range ob in
    let c := (1.00002 * d + 1.4e-14) * norm (sc_position t) in
    (1 <= D ->
     Rabs (go_range ob' - D) <= 4e-15 * S + 3.3e-15 * D + c /\
     within3 (2.4e-15 * S + 4.7e-15 * D + c) (scale (go_range ob') (sighting (go_azimuth ob') (go_elevation ob'))) (go_observed_direction ob)).
Proof.
  intros AC A HA HO HL H ET G DB NP. assert (D0 : 0 <= d) by (destruct G as [k K]; eapply Rle_trans; [apply Rabs_pos|exact K]).
  destruct (to_itrf_close d L v (sc_position t) AC H G (proj1 NP)) as (q' & q & E' & E & V).
  destruct (site_observation L l q' (ITRF_from_fixed (Epoch v) (V3 0 0 0)) 0 0 A HA HO HL) as (s' & s & F' & F & T).
  destruct (site_observation L l q' (ITRF_from_fixed (Epoch v) (itrf_position s')) 0 0 A HA HO HL) as (s1' & s1 & F1' & F1 & T1).
  rewrite F' in F1'. rewrite F in F1. apply ok_inj in F1'. apply ok_inj in F1. subst s1' s1. clear T. cbv zeta in T1.
  exists s', s. unfold angles_and_range_b64. rewrite E'. cbn [bind]. eexists.
  assert (O : exists ob, angles_and_range s t = Ok ob) by (unfold angles_and_range; rewrite ET, E; cbn [bind]; eexists; reflexivity).
  destruct O as [ob O]. exists ob. destruct (seen_range s _ v ob (ex_intro _ l F) t eq_refl ET O) as (q1 & Q1 & R1 & Dir & Ep).
  rewrite E in Q1. apply ok_inj in Q1. subst q1.
  split; [exact F'|]. split; [exact F|]. split; [reflexivity|]. split; [exact O|]. split; [rewrite Ep; reflexivity|].
  cbv zeta. set (N := norm (sc_position t)) in *. set (S := 6400 + Rabs (altitude l)) in *. intros DD. rewrite R1, Dir in *.
  set (e := (1.00001 * d + 1.3e-14) * N) in *.
  assert (S0 : 0 <= S) by (unfold S; assert (Z := Rabs_pos (altitude l)); lra).
  assert (EB : 0 <= e <= 0.28). { assert (0 <= d * N <= 2.7e-8 * 1e7) by (split; [apply Rmult_le_pos; lra|apply Rmult_le_compat; lra]). replace e with (1.00001 * (d * N) + 1.3e-14 * N) by (unfold e; lra). lra. }
  assert (EC : 1.000005 * e <= (1.00002 * d + 1.4e-14) * N).
  { unfold e. rewrite <- Rmult_assoc. apply Rmult_le_compat_r; [unfold N; apply norm_nonneg|]. lra. }
  set (D := norm (sub q (itrf_position s))) in *. set (D' := norm (sub q' (itrf_position s))) in *.
  assert (DW : Rabs (D' - D) <= e).
  { assert (X := norm_triangle (sub q' q) (sub q (itrf_position s))). assert (Y := norm_triangle (sub q q') (sub q' (itrf_position s))).
    replace (add (sub q' q) (sub q (itrf_position s))) with (sub q' (itrf_position s)) in X by (unfold add, sub; cbn; f_equal; ring).
    replace (add (sub q q') (sub q' (itrf_position s))) with (sub q (itrf_position s)) in Y by (unfold add, sub; cbn; f_equal; ring).
    rewrite (norm_sub_sym q q') in Y. fold D D' in X, Y. apply Rabs_le. lra. }
  apply Rabs_le_inv in DW. destruct T1 as [TR TW]; [lra|]. split.
  - apply Rabs_le_inv in TR. apply Rabs_le. lra.
  - assert (Q : within3 e (enz_position s q') (enz_position s q)).
    { assert (EN : norm (sub (enz_position s q') (enz_position s q)) <= e).
      { unfold GroundSite in F. destruct (lla_to_itrf l) as [z|]; [|discriminate]. cbn [bind] in F. apply ok_inj in F. subst s. cbn [itrf_position] in *. unfold enz_position. cbn [enz_matrix itrf_position].
        set (m := ENZ_matrix (longitude l) (latitude l)).
        change (norm (sub (apply3 m (sub q' z)) (apply3 m (sub q z))) <= e). rewrite <- apply3_sub. rewrite rotation_norm by apply ENZ_rotation.
        replace (sub (sub q' z) (sub q z)) with (sub q' q) by (unfold sub; cbn; f_equal; ring). exact V. }
      destruct (norm_ge_xyz (sub (enz_position s q') (enz_position s q))) as (X & Y & Z). unfold within3. unfold sub in X, Y, Z, EN. cbn [x3 y3 z3] in X, Y, Z. repeat split; lra. }
    destruct TW as (X & Y & Z). destruct Q as (X1 & Y1 & Z1).
    apply Rabs_le_inv in X, Y, Z, X1, Y1, Z1. unfold within3. repeat split; apply Rabs_le; lra.
Qed.
