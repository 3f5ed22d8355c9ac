From Coq Require Import Reals ZArith Lra Lia Psatz.
From Flocq Require Import Core.
From Verif.Model Require Import Num Constants Linalg Functions Time Celestial States Elements TimeFloat AngleFloat ElementsFloat.
From Verif.Spec Require Import Geometry Gravity Orbit SiderealFloat FrameFloat GroundFloat LibmAccuracy.
From Verif.Proofs Require Import NumLemmas LinalgProofs CelestialProofs HillTwoBodyProofs FunctionsProofs ElementsProofs TwoBodyProofs TimeFloatProofs AngleFloatProofs ElementsFloatProofs ClockProofs PiDigits Analysis StateFloatProofs FrameFloatBasics FrameFloatTrip GroundFloatProofs GroundSiteProofs.
From Verif.Proofs Require Import OrbitFloatAngles.
Local Notation near := ElementsFloatProofs.near.
Local Open Scope R_scope.

(** * Orientation *)
Lemma verr_parts d w' w : verr d w' w -> Rabs (x3 w' - x3 w) <= d /\ Rabs (y3 w' - y3 w) <= d /\ Rabs (z3 w' - z3 w) <= d.
Proof. unfold verr. intros H. destruct (norm_ge_xyz (sub w' w)) as (A & B & C). unfold sub in A, B, C, H. cbn [x3 y3 z3] in *. repeat split; lra. Qed.

Lemma polar_accurate L y x : accurate_polar L -> close_angle 4.5e-16 (atan2f L y x) (atan2 y x) /\ Rabs (atan2f L y x) <= 3.2.
Proof.
  intros [_ A]. specialize (A y x). split; [apply ca_near; exact A|]. assert (R := atan2_range y x). assert (P := PI_digits). apply Rabs_le_inv in A. apply Rabs_le. lra.
Qed.

Lemma polar_wrapped L y x b d : accurate_polar L -> close_angle d (atan2 y x) b -> close_angle (d + 2.1e-15) (wrap_b64 (atan2f L y x)) (wrap b).
Proof.
  intros A H. destruct (polar_accurate L y x A) as [C B]. apply ca_wrap.
  eapply ca_weaken; [eapply ca_trans; [apply ca_wrap_b64; lra|eapply ca_trans; [exact C|exact H]]|]. lra.
Qed.

Lemma node_close L w' w s : accurate_polar L -> s * s = x3 w * x3 w + y3 w * y3 w -> 1e-6 <= s <= 1 -> verr 2.5e-15 w' w ->
  close_angle (6e-15 / s) (RAAN_from_w_b64 L w') (RAAN_from_w w).
Proof.
  intros A SS SB V. destruct (verr_parts _ _ _ V) as (X & Y & _).
  change (RAAN_from_w w) with (wrap (atan2 (x3 w) (- y3 w))). unfold RAAN_from_w_b64.
  assert (Y' : Rabs (- y3 w' - - y3 w) <= 2.5e-15) by (rewrite <- Rabs_Ropp; replace (- (- y3 w' - - y3 w)) with (y3 w' - y3 w) by ring; exact Y).
  assert (C := atan2_close (- y3 w) (x3 w) (- y3 w') (x3 w') s 2.5e-15 ltac:(rewrite SS; ring) ltac:(lra) Y' X ltac:(lra)).
  eapply ca_weaken; [apply polar_wrapped; [exact A|exact C]|].
  assert (K : 1 <= / s) by (rewrite <- Rinv_1; apply Rinv_le_contravar; lra). unfold Rdiv at 1 2. lra.
Qed.

Lemma axis_lip x y x' y' d : norm (sub (V3 x' y' 0) (V3 x y 0)) <= d -> Rabs (sqrt (x' * x' + y' * y') - sqrt (x * x + y * y)) <= d.
Proof.
  intros H. assert (N : forall a b, norm (V3 a b 0) = sqrt (a * a + b * b)) by (intros; unfold norm, dot; cbn; f_equal; ring).
  rewrite <- !N. assert (A := norm_sub_ge (V3 x' y' 0) (V3 x y 0)). assert (B := norm_sub_ge (V3 x y 0) (V3 x' y' 0)). rewrite norm_sub_sym in B. apply Rabs_le. lra.
Qed.

Lemma incl_close L w' w : accurate_polar L -> dot w w = 1 -> 1e-6 <= sqrt (x3 w * x3 w + y3 w * y3 w) -> verr 2.5e-15 w' w ->
  Rabs (I_from_w_b64 L w' - I_from_w w) <= 5e-15.
Proof.
  intros A U SB V. destruct (verr_parts _ _ _ V) as (_ & _ & Z). unfold I_from_w_b64, I_from_w.
  destruct w as [x y z], w' as [x' y' z']. unfold dot in U. cbn [x3 y3 z3] in *. destruct (axis_close x' y') as [P0 PC].
  set (rho' := b64 (sqrt _)) in *. set (s := sqrt (x * x + y * y)) in *. set (s' := sqrt (x' * x' + y' * y')) in *.
  assert (SS : s * s = x * x + y * y) by (apply sqrt_sqrt; nra).
  assert (D : Rabs (s' - s) <= 2.5e-15).
  { apply axis_lip. eapply Rle_trans; [|exact V]. unfold norm, dot, sub. cbn [x3 y3 z3]. apply sqrt_le_1_alt. assert (0 <= (z' - z) * (z' - z)) by apply Rle_0_sqr. lra. }
  assert (S1 : s <= 1) by (assert (0 <= z * z) by apply Rle_0_sqr; nra).
  assert (D' : Rabs (rho' - s) <= 2.9e-15) by (apply Rabs_le_inv in D; apply Rabs_le_inv in PC; apply Rabs_le; lra).
  assert (C := atan2_close z s z' rho' 1 2.9e-15 ltac:(nra) ltac:(lra) ltac:(lra) D' ltac:(lra)).
  destruct A as [_ A]. specialize (A rho' z').
  assert (T : forall b c, 0 <= b -> 0 <= atan2 b c <= PI).
  { intros b c B. assert (R := atan2_range b c). split; [|lra]. destruct (atan2_polar b c) as [_ Q]. apply Rnot_lt_le. intros N.
    assert (sin (atan2 b c) < 0) by (apply sin_lt_0_var; lra). assert (K := sqrt_pos (c * c + b * b)).
    destruct (Req_dec (sqrt (c * c + b * b)) 0) as [Z0|Z0]; [|nra].
    assert (c * c + b * b = 0) by (rewrite <- (sqrt_sqrt (c * c + b * b)) by nra; rewrite Z0; ring).
    assert (b = 0) by nra. assert (c = 0) by nra. subst. unfold atan2, nlt in N. repeat (destruct (Rlt_dec _ _) in N; try lra). }
  assert (T1 := T rho' z' P0). assert (T2 := T s z ltac:(lra)).
  destruct C as [k K]. assert (PD := PI_digits). apply Rabs_le_inv in K.
  assert (KZ : k = 0%Z).
  { assert (IZR k < 1) by nra. assert (-1 < IZR k) by nra. apply lt_IZR in H. apply (lt_IZR (-1)) in H0. lia. }
  subst k. apply Rabs_le_inv in A. apply Rabs_le. lra.
Qed.

Lemma div_common k R s : R <> 0 -> s <> 0 -> k * R / (R * s) = k * / s.
Proof. intros. field. auto. Qed.

Lemma latitude_close L r w' w : accurate_polar L -> 1 <= norm r -> dot w w = 1 -> dot r w = 0 -> 
  1e-6 <= sqrt (x3 w * x3 w + y3 w * y3 w) -> verr 2.5e-15 w' w ->
  close_angle (1.1e-14 / sqrt (x3 w * x3 w + y3 w * y3 w)) (U_from_r_w_b64 L r w') (U_from_r_w r w).
Proof.
  intros A RN U O SB V. destruct (verr_parts _ _ _ V) as (DX & DY & _).
  change (U_from_r_w r w) with (wrap (atan2 (z3 r) (- x3 r * y3 w + y3 r * x3 w))). unfold U_from_r_w_b64.
  destruct w as [a b c], w' as [a' b' c'], r as [x y z]. unfold dot in U, O. cbn [x3 y3 z3] in *.
  set (s := sqrt (a * a + b * b)) in *. assert (SS : s * s = a * a + b * b) by (apply sqrt_sqrt; nra).
  assert (S1 : s <= 1) by (assert (0 <= c * c) by apply Rle_0_sqr; nra).
  set (R := norm (V3 x y z)) in *. assert (RR : R * R = x * x + y * y + z * z) by (apply (norm_sq3 (V3 x y z))).
  assert (XB : Rabs x <= R) by (destruct (norm_ge_xyz (V3 x y z)) as (Q & _); exact Q). assert (YB : Rabs y <= R) by (destruct (norm_ge_xyz (V3 x y z)) as (_ & Q & _); exact Q).
  assert (AB : Rabs a <= 1) by (apply Rabs_le; assert (0 <= b * b) by apply Rle_0_sqr; assert (0 <= c * c) by apply Rle_0_sqr; nra).
  assert (BB : Rabs b <= 1) by (apply Rabs_le; assert (0 <= a * a) by apply Rle_0_sqr; assert (0 <= c * c) by apply Rle_0_sqr; nra).
  assert (PX : err (2.65e-15 * R) (b64 (- x * b')) (- x * b)).
  { apply (err_mulr 0 2.5e-15 (- x) (- x) b' b R 1); [apply err_same|exact DY|rewrite Rabs_Ropp; exact XB|exact BB|]. lra. }
  assert (PY : err (2.65e-15 * R) (b64 (y * a')) (y * a)).
  { apply (err_mulr 0 2.5e-15 y y a' a R 1); [apply err_same|exact DX|exact YB|exact AB|]. lra. }
  assert (XR := abs_mul_le _ _ _ _ ltac:(rewrite <- Rabs_Ropp in XB; exact XB) BB). assert (YR := abs_mul_le _ _ _ _ YB AB).
  assert (Q : err (5.6e-15 * R) (b64 (b64 (- x * b') + b64 (y * a'))) (- x * b + y * a)).
  { apply (err_addr _ _ _ _ _ _ (2 * R) _ PX PY); [eapply Rle_trans; [apply Rabs_triang|lra]|lra]. }
  assert (PP : R * s * (R * s) = (- x * b + y * a) * (- x * b + y * a) + z * z).
  { replace (R * s * (R * s)) with (R * R * (s * s)) by ring. rewrite RR, SS. 
    assert (C1 : (x * a + y * b) * (x * a + y * b) = z * c * (z * c)) by (replace (x * a + y * b) with (- (z * c)) by lra; ring).
    assert (C2 : c * c = 1 - a * a - b * b) by lra. replace (z * c * (z * c)) with (z * z * (c * c)) in C1 by ring. rewrite C2 in C1. lra. }
  assert (RS : 0 < R * s) by (apply Rmult_lt_0_compat; lra).
  assert (Z0 : Rabs (z - z) <= 5.6e-15 * R) by (rewrite Rminus_diag_eq, Rabs_R0 by reflexivity; lra).
  assert (SM : 5.6e-15 * R <= 0.01 * (R * s)) by nra.
  assert (C := atan2_close _ z _ z _ (5.6e-15 * R) PP RS Q Z0 SM).
  rewrite div_common in C by lra.
  eapply ca_weaken; [apply polar_wrapped; [exact A|exact C]|].
  assert (K : 1 <= / s) by (rewrite <- Rinv_1; apply Rinv_le_contravar; lra). unfold Rdiv at 1 2. lra.
Qed.

(** * Anomalies *)
Lemma wrap_b64_bound x : Rabs x <= 3.2 -> 0 <= wrap_b64 x <= 7.
Proof.
  intros A. assert (MP := math_pi_close). assert (P := PI_digits). apply Rabs_le_inv in A. unfold wrap_b64, nlt. destruct (Rlt_dec x 0).
  - assert (F := b64_fine (x + 2 * math_pi)). rewrite (Rabs_pos_eq (x + 2 * math_pi)) in F by lra. apply Rabs_le_inv in F. lra.
  - lra.
Qed.

Lemma motion_scale a' : 100 <= a' <= 1.1e7 ->
  exists n', N_from_a_mu_b64 a' MU_b64 = Ok n' /\ near 5.8 (b64 (b64 (a' * a') * n')) (sqrt (Earth_MU * a')).
Proof.
  intros A. assert (MU : 1e5 <= Earth_MU <= 1e6) by (unfold Earth_MU; lra).
  assert (S2 : 1e4 <= a' * a' <= 1.3e14) by nra. assert (S3 : 1e6 <= a' * a' * a' <= 2e21) by nra.
  assert (N2 : near 1.14 (b64 (a' * a')) (a' * a')) by (eapply near_weaken; [apply near_round with (k := 0); [lra| |rewrite Rabs_pos_eq; lra]|lra]; unfold near; rewrite Rminus_diag_eq, Rabs_R0 by reflexivity; lra).
  assert (NA : near 0 a' a') by (unfold near; rewrite Rminus_diag_eq, Rabs_R0 by reflexivity; lra).
  assert (N3 : near 2.3 (b64 (b64 (a' * a') * a')) (a' * a' * a')).
  { eapply near_weaken; [apply near_round; [|apply (near_mul 1.14 0); [lra|lra|exact N2|exact NA]|rewrite Rabs_pos_eq by lra]; lra|lra]. }
  set (a2 := b64 (a' * a')) in *. set (a3 := b64 (a2 * a')) in *.
  assert (P3 := near_abs 2.3 a3 (a' * a' * a') ltac:(lra) N3).
  assert (PM := near_abs 1.13 MU_b64 Earth_MU ltac:(lra) mu_near).
  set (c := a' * a' * a') in *.
  assert (QL : 1e-17 <= Earth_MU / c) by (apply Rmult_le_reg_r with c; [lra|]; rewrite div_mul by lra; lra).
  assert (NQ : near 4.7 (b64 (MU_b64 / a3)) (Earth_MU / c)).
  { eapply near_weaken; [apply near_round; [|apply (near_div 1.13 2.3); [lra|lra|lra|exact mu_near|exact N3]|rewrite Rabs_pos_eq by lra]; lra|lra]. }
  assert (PQ := near_abs 4.7 (b64 (MU_b64 / a3)) (Earth_MU / c) ltac:(lra) NQ).
  unfold N_from_a_mu_b64. fold a2 a3. rewrite div_ok by lra. cbn [bind]. set (q3 := b64 (MU_b64 / a3)) in *.
  rewrite sqrt_ok by lra. eexists. split; [reflexivity|].
  assert (SQ : 1e-9 <= sqrt (Earth_MU / c)) by (replace 1e-9 with (sqrt (1e-9 * 1e-9)) by (apply sqrt_square; lra); apply sqrt_le_1_alt; lra).
  assert (NS : near 3.51 (b64 (sqrt q3)) (sqrt (Earth_MU / c))).
  { eapply near_weaken; [apply near_round; [|apply (near_sqrt 4.7); [lra|lra|exact NQ]|rewrite Rabs_pos_eq by lra]; lra|lra]. }
  assert (E : sqrt (Earth_MU * a') = a' * a' * sqrt (Earth_MU / c)).
  { apply sqrt_eq; [apply Rmult_le_pos; lra|]. replace (a' * a' * sqrt (Earth_MU / c) * (a' * a' * sqrt (Earth_MU / c))) with (a' * a' * (a' * a') * (sqrt (Earth_MU / c) * sqrt (Earth_MU / c))) by ring.
    rewrite sqrt_sqrt by lra. generalize Earth_MU. intros m. unfold c. field. lra. }
  rewrite E. eapply near_weaken; [apply near_round; [|apply (near_mul 1.14 3.51); [lra|lra|exact N2|exact NS]|rewrite Rabs_pos_eq by nra; nra]; lra|lra].
Qed.

Lemma sqrt_scale m a a' : 0 < m -> 0 < a -> Rabs (a' - a) <= 1e-13 * a -> Rabs (sqrt (m * a') - sqrt (m * a)) <= 5.1e-14 * sqrt (m * a).
Proof.
  intros M A D. apply Rabs_le_inv in D. assert (P : 0 < m * a) by nra. assert (S := sqrt_lt_R0 _ P). assert (SS := sqrt_sqrt (m * a) ltac:(lra)).
  set (s := sqrt (m * a)) in *. apply Rabs_le. split.
  - assert ((1 - 5.1e-14) * s <= sqrt (m * a')); [|lra]. rewrite <- (sqrt_square ((1 - 5.1e-14) * s)) by lra. apply sqrt_le_1_alt.
    replace ((1 - 5.1e-14) * s * ((1 - 5.1e-14) * s)) with ((1 - 5.1e-14) * (1 - 5.1e-14) * (s * s)) by ring. rewrite SS. nra.
  - assert (sqrt (m * a') <= (1 + 5.1e-14) * s); [|lra]. rewrite <- (sqrt_square ((1 + 5.1e-14) * s)) by lra. apply sqrt_le_1_alt.
    replace ((1 + 5.1e-14) * s * ((1 + 5.1e-14) * s)) with ((1 + 5.1e-14) * (1 + 5.1e-14) * (s * s)) by ring. rewrite SS. nra.
Qed.

Lemma quotient_close n' d' q d K : 0 < K -> 0.999 * K <= d' -> Rabs (n' - q * d') <= d * K -> Rabs q <= 2 -> 0 <= d <= 1e-3 -> err (1.002 * d + 2.3e-16) (b64 (n' / d')) q.
Proof.
  intros K0 D N Q B. assert (E : n' / d' * d' = n') by (apply div_mul; lra). set (p := n' / d') in *.
  assert (C : err (1.0011 * d) p q).
  { unfold err. apply Rmult_le_reg_r with d'; [lra|]. rewrite <- (Rabs_pos_eq d') at 1 by lra. rewrite <- Rabs_mult.
    replace ((p - q) * d') with (n' - q * d') by (rewrite <- E; ring). eapply Rle_trans; [exact N|]. nra. }
  apply (err_round _ _ _ 2 _ C Q). lra.
Qed.

Lemma atan2_exact e x : 0 < e -> close_angle 0 (atan2 (e * sin x) (e * cos x)) x.
Proof.
  intros E. destruct (atan2_polar (e * sin x) (e * cos x)) as [P1 P2].
  assert (CS : cos x * cos x + sin x * sin x = 1) by (assert (T := sin2_cos2 x); unfold Rsqr in T; lra).
  replace (sqrt (e * cos x * (e * cos x) + e * sin x * (e * sin x))) with e in P1, P2 by (symmetry; apply sqrt_eq; [lra|]; replace (e * cos x * (e * cos x) + e * sin x * (e * sin x)) with (e * e * (cos x * cos x + sin x * sin x)) by ring; rewrite CS; ring).
  apply Rmult_eq_reg_l in P1; [|lra]. apply Rmult_eq_reg_l in P2; [|lra].
  destruct (full_turns _ _ (eq_sym P1) (eq_sym P2)) as [k K]. exists k. rewrite K. rewrite Rabs_right; lra.
Qed.

Lemma anomaly_close L a e x a' rdv' R R' : accurate_polar L -> 500 <= a <= 1e7 -> 1e-5 <= e <= 0.9 ->
  R = a * (1 - e * cos x) -> near 2.9 R' R -> Rabs (a' - a) <= 1e-14 * (a * a / R) ->
  Rabs (rdv' - sqrt (Earth_MU * a) * (e * sin x)) <= 5e-16 * sqrt (Earth_MU * a) -> 0 <= x < 2 * PI ->
  exists n' ea', N_from_a_mu_b64 a' MU_b64 = Ok n' /\ EA_from_rdv_r_a_n_b64 L rdv' R' a' n' = Ok ea' /\
    close_angle (1.1e-13 / e) ea' x /\ 0 <= ea' <= 7.
Proof.
  intros AP A E0 ER NR DA DR X.
  assert (C1 := COS_bound x). assert (S1 := SIN_bound x). assert (CS : cos x * cos x + sin x * sin x = 1) by (assert (T := sin2_cos2 x); unfold Rsqr in T; lra).
  assert (EC : -0.9 <= e * cos x <= 0.9) by nra. assert (ES : -0.9 <= e * sin x <= 0.9) by nra.
  assert (RB : 0.1 * a <= R <= 1.9 * a) by nra.
  assert (AR : a * a / R * R = a * a) by (apply div_mul; lra).
  assert (AA : a * a / R <= 10 * a) by (apply Rmult_le_reg_r with R; [lra|rewrite AR; nra]). set (z := a * a / R) in *.
  assert (DA' : Rabs (a' - a) <= 1e-13 * a) by lra.
  assert (DB := Rabs_le_inv _ _ DA'). assert (MU : 1e5 <= Earth_MU <= 1e6) by (unfold Earth_MU; lra).
  destruct (motion_scale a' ltac:(lra)) as (n' & EN & NK). set (K' := b64 (b64 (a' * a') * n')) in *.
  assert (SC := sqrt_scale Earth_MU a a' ltac:(lra) ltac:(lra) DA').
  assert (P : 0 < Earth_MU * a) by nra. assert (K0 := sqrt_lt_R0 _ P). set (K := sqrt (Earth_MU * a)) in *.
  assert (KB : Rabs (K' - K) <= 5.3e-14 * K).
  { apply Rabs_le_inv in SC. assert (NB := near_abs 5.8 K' _ (sqrt_pos _) NK). apply Rabs_le. lra. }
  assert (KB' := Rabs_le_inv _ _ KB).
  exists n'. unfold EA_from_rdv_r_a_n_b64. fold K'. rewrite !div_ok by lra. cbn [bind]. eexists. split; [exact EN|]. split; [reflexivity|].
  assert (Y : err 7e-14 (b64 (rdv' / K')) (e * sin x)).
  { assert (T := quotient_close rdv' K' (e * sin x) 5e-14 K K0 ltac:(lra)). unfold err in *. eapply Rle_trans; [apply T|]; [|apply Rabs_le; lra|lra|lra].
    replace (rdv' - e * sin x * K') with ((rdv' - K * (e * sin x)) + (e * sin x) * (K - K')) by ring. eapply Rle_trans; [apply Rabs_triang|].
    assert (Rabs (e * sin x * (K - K')) <= 0.9 * (5.3e-14 * K)).
    { rewrite Rabs_mult. apply Rmult_le_compat; try apply Rabs_pos; [apply Rabs_le; lra|rewrite Rabs_minus_sym; exact KB]. } lra. }
  assert (Q : err 1.2e-14 (b64 (R' / a')) (1 - e * cos x)).
  { assert (T := quotient_close R' a' (1 - e * cos x) 1.1e-14 a ltac:(lra) ltac:(lra)). unfold err in *. eapply Rle_trans; [apply T|]; [|apply Rabs_le; lra|lra|lra].
    assert (NB := near_abs 2.9 R' R ltac:(lra) NR). assert (Q0 : 0 <= 1 - e * cos x) by lra. set (q := 1 - e * cos x) in *.
    replace (R' - q * a') with ((R' - R) + q * (a - a')) by (rewrite ER; ring). eapply Rle_trans; [apply Rabs_triang|].
    assert (Rabs (R' - R) <= 2.9e-16 * R) by (apply Rabs_le; lra).
    assert (Rabs (q * (a - a')) <= q * (1e-14 * z)) by (rewrite Rabs_mult, (Rabs_pos_eq q), (Rabs_minus_sym a a') by lra; apply Rmult_le_compat_l; lra).
    assert (QZ : q * z = a). { apply Rmult_eq_reg_r with R; [|lra]. replace (q * z * R) with (q * (z * R)) by ring. rewrite AR, ER. ring. }
    lra. }
  assert (W : err 7e-14 (b64 (1 - b64 (R' / a'))) (e * cos x)).
  { replace (e * cos x) with (1 - (1 - e * cos x)) by ring. apply (err_round 1.2e-14 _ _ 1); [|apply Rabs_le; lra|lra].
    unfold err in *. replace (1 - b64 (R' / a') - (1 - (1 - e * cos x))) with (- (b64 (R' / a') - (1 - e * cos x))) by ring. rewrite Rabs_Ropp. exact Q. }
  assert (PP : e * e = e * cos x * (e * cos x) + e * sin x * (e * sin x)) by (replace (e * cos x * (e * cos x) + e * sin x * (e * sin x)) with (e * e * (cos x * cos x + sin x * sin x)) by ring; rewrite CS; ring).
  assert (C := atan2_close _ _ _ _ e 7e-14 PP ltac:(lra) W Y ltac:(lra)).
  assert (EX : close_angle (1.44 * (7e-14 / e)) (atan2 (b64 (rdv' / K')) (b64 (1 - b64 (R' / a')))) x).
  { replace (1.44 * (7e-14 / e)) with (1.44 * (7e-14 / e) + 0) by ring. eapply ca_trans; [exact C|]. apply atan2_exact; lra. }
  split.
  - destruct (polar_accurate L (b64 (rdv' / K')) (b64 (1 - b64 (R' / a'))) AP) as [CC CB].
    eapply ca_weaken; [eapply ca_trans; [apply ca_wrap_b64; lra|eapply ca_trans; [exact CC|exact EX]]|].
    assert (KI : 1.1 <= / e) by (apply Rmult_le_reg_r with e; [lra|]; rewrite Rinv_l; lra). unfold Rdiv. lra.
  - apply wrap_b64_bound. apply (polar_accurate L _ _ AP).
Qed.

Lemma ecc_root e e' : 0 < e -> 0 <= e' -> Rabs (e' ^ 2 - e ^ 2) <= 1e-14 -> Rabs (e' - e) <= 1e-14 / e.
Proof.
  intros E E' D. apply Rmult_le_reg_r with e; auto. rewrite div_mul by lra. apply Rle_trans with (Rabs (e' - e) * (e' + e)).
  - apply Rmult_le_compat_l; [apply Rabs_pos|lra].
  - rewrite <- (Rabs_pos_eq (e' + e)) by lra. rewrite <- Rabs_mult. replace ((e' - e) * (e' + e)) with (e' ^ 2 - e ^ 2) by ring. exact D.
Qed.

Lemma mean_close L e e' x x' : accurate_polar L -> 1e-5 <= e <= 0.9 -> 0 <= e' <= 1 -> Rabs (e' - e) <= 1e-14 / e ->
  close_angle (1.1e-13 / e) x' x -> Rabs x' <= 7 -> close_angle (2.5e-13 / e) (MA_from_ea_e_b64 L x' e') (MA_from_ea_e x e).
Proof.
  intros [AT _] E0 E1 DE DX X. destruct (AT x' ltac:(lra)) as [AS _]. destruct (ca_trig _ _ _ DX) as [_ DS].
  change (MA_from_ea_e x e) with (wrap (x - e * sin x)). unfold MA_from_ea_e_b64.
  assert (KI : 1.1 <= / e) by (apply Rmult_le_reg_r with e; [lra|]; rewrite Rinv_l; lra).
  assert (KU : / e <= 1e5) by (apply Rmult_le_reg_r with e; [lra|]; rewrite Rinv_l; lra).
  unfold Rdiv in *. set (k := / e) in *. assert (S1 := SIN_bound x).
  assert (ES : err (1.11e-13 * k) (sinf L x') (sin x)).
  { unfold err. replace (sinf L x' - sin x) with ((sinf L x' - sin x') + (sin x' - sin x)) by ring. eapply Rle_trans; [apply Rabs_triang|]. lra. }
  assert (EM : err (1.13e-13 * k) (b64 (e' * sinf L x')) (e * sin x)).
  { apply (err_mulr (1e-14 * k) (1.11e-13 * k) e' e (sinf L x') (sin x) 0.9 1 _ DE ES); [rewrite Rabs_pos_eq; lra|apply Rabs_le; lra|].
    assert (k * k <= 1e5 * k) by nra. nra. }
  assert (EB : Rabs (b64 (e' * sinf L x')) <= 0.91).
  { assert (B : Rabs (e * sin x) <= 0.9 * 1) by (apply abs_mul_le; [rewrite Rabs_pos_eq; lra|apply Rabs_le; lra]).
    unfold err in EM. apply Rabs_le_inv in EM. apply Rabs_le_inv in B. apply Rabs_le. lra. }
  set (m := b64 (e' * sinf L x')) in *. assert (F := b64_fine (x' - m)).
  assert (XM : Rabs (x' - m) <= 7.91) by (apply Rabs_le_inv in X; apply Rabs_le_inv in EB; apply Rabs_le; lra).
  apply ca_wrap. eapply ca_weaken; [eapply ca_trans; [apply ca_wrap_b64|eapply ca_trans; [apply ca_near; exact F|eapply ca_sub; [exact DX|apply ca_near; exact EM]]]|].
  - apply Rabs_le_inv in F. assert (XB := Rabs_le_inv _ _ XM). apply Rabs_le. split; lra.
  - lra.
Qed.

Lemma root_close e e' : 1e-5 <= e <= 0.9 -> 0 <= e' <= 1 -> Rabs (e' ^ 2 - e ^ 2) <= 1e-14 ->
  0 <= b64 (1 - b64 (e' * e')) /\ err 2.6e-14 (b64 (sqrt (b64 (1 - b64 (e' * e'))))) (sqrt (1 - e * e)).
Proof.
  intros E E1 D. replace (e' ^ 2 - e ^ 2) with (e' * e' - e * e) in D by ring.
  assert (EB : e * e <= 0.81) by nra. assert (E0 : 0 <= e * e) by nra.
  assert (D1 : err 1.02e-14 (b64 (e' * e')) (e * e)) by (apply (err_round 1e-14 _ _ 1); [exact D|rewrite Rabs_pos_eq; lra|lra]).
  assert (D2 : err 1.04e-14 (b64 (1 - b64 (e' * e'))) (1 - e * e)).
  { apply (err_round 1.02e-14 _ _ 1); [|rewrite Rabs_pos_eq; lra|lra]. unfold err in *. replace (1 - b64 (e' * e') - (1 - e * e)) with (- (b64 (e' * e') - e * e)) by ring. rewrite Rabs_Ropp. exact D1. }
  set (f := b64 (1 - b64 (e' * e'))) in *. set (g := 1 - e * e) in *. assert (G : 0.19 <= g <= 1) by (unfold g; lra).
  unfold err in D2. assert (DB := Rabs_le_inv _ _ D2). split; [lra|].
  assert (S : 0.43 <= sqrt g). { replace 0.43 with (sqrt (0.43 * 0.43)) by (apply sqrt_square; lra). apply sqrt_le_1_alt. lra. }
  assert (SU : sqrt g <= 1) by (rewrite <- sqrt_1; apply sqrt_le_1_alt; lra).
  apply (err_round 2.5e-14 _ _ 1); [|rewrite Rabs_pos_eq; lra|lra]. unfold err.
  assert (S' := sqrt_pos f). assert (Q := sqrt_sqrt f ltac:(lra)). assert (Q' := sqrt_sqrt g ltac:(lra)).
  set (p := sqrt f) in *. set (q := sqrt g) in *. apply Rmult_le_reg_r with (p + q); [lra|]. rewrite <- (Rabs_pos_eq (p + q)) at 1 by lra. rewrite <- Rabs_mult.
  replace ((p - q) * (p + q)) with (f - g) by (rewrite <- Q, <- Q'; ring). nra.
Qed.

Lemma true_close L e e' x x' : accurate_polar L -> 1e-5 <= e <= 0.9 -> 0 <= e' <= 1 -> Rabs (e' ^ 2 - e ^ 2) <= 1e-14 ->
  close_angle (1.1e-13 / e) x' x -> Rabs x' <= 7 ->
  exists nu', NU_from_e_ea_b64 L e' x' = Ok nu' /\ close_angle (2.3e-12 / e) nu' (nu_of e x) /\ 0 <= nu' <= 7.
Proof.
  intros AP E0 E1 D DX X. assert (DE := ecc_root e e' ltac:(lra) ltac:(lra) D). destruct (root_close e e' E0 E1 D) as [F0 DR].
  destruct AP as [AT AP0]. assert (AP : accurate_polar L) by (split; assumption).
  destruct (AT x' ltac:(lra)) as [AS AC]. destruct (ca_trig _ _ _ DX) as [DC DS].
  unfold NU_from_e_ea_b64. rewrite sqrt_ok by exact F0. cbn [bind]. eexists. split; [reflexivity|].
  split; [|apply wrap_b64_bound; apply (polar_accurate L _ _ AP)].
  unfold nu_of. set (g := sqrt (1 - e * e)) in *. set (g' := b64 (sqrt _)) in *.
  assert (G2 : g * g = 1 - e * e) by (apply sqrt_sqrt; nra). assert (G1 : 0 <= g <= 1) by (split; [apply sqrt_pos|]; rewrite <- sqrt_1; apply sqrt_le_1_alt; nra).
  assert (KI : 1.1 <= / e) by (apply Rmult_le_reg_r with e; [lra|]; rewrite Rinv_l; lra).
  assert (KU : / e <= 1e5) by (apply Rmult_le_reg_r with e; [lra|]; rewrite Rinv_l; lra).
  unfold Rdiv in *. set (k := / e) in *. assert (S1 := SIN_bound x). assert (C1 := COS_bound x).
  assert (ES : err (1.11e-13 * k) (sinf L x') (sin x)).
  { unfold err. replace (sinf L x' - sin x) with ((sinf L x' - sin x') + (sin x' - sin x)) by ring. eapply Rle_trans; [apply Rabs_triang|]. lra. }
  assert (EC : err (1.11e-13 * k) (cosf L x') (cos x)).
  { unfold err. replace (cosf L x' - cos x) with ((cosf L x' - cos x') + (cos x' - cos x)) by ring. eapply Rle_trans; [apply Rabs_triang|]. lra. }
  assert (EY : err (1.5e-13 * k) (b64 (g' * sinf L x')) (g * sin x)).
  { apply (err_mulr 2.6e-14 (1.11e-13 * k) g' g (sinf L x') (sin x) 1 1 _ DR ES); [rewrite Rabs_pos_eq; lra|apply Rabs_le; lra|]. lra. }
  assert (EX : err (1.5e-13 * k) (b64 (cosf L x' - e')) (cos x - e)).
  { apply (err_subr (1.11e-13 * k) (1e-14 * k) (cosf L x') (cos x) e' e 2 _ EC DE); [apply Rabs_le; lra|lra]. }
  set (rho := 1 - e * cos x). assert (RB : 0.1 <= rho) by (unfold rho; nra).
  assert (PP : rho * rho = (cos x - e) * (cos x - e) + g * sin x * (g * sin x)).
  { replace (g * sin x * (g * sin x)) with (g * g * (sin x * sin x)) by ring. rewrite G2. assert (CS : sin x * sin x = 1 - cos x * cos x) by (assert (T := sin2_cos2 x); unfold Rsqr in T; lra). rewrite CS. unfold rho. ring. }
  assert (C := atan2_close _ _ _ _ rho (1.5e-13 * k) PP ltac:(lra) EX EY ltac:(lra)).
  eapply ca_weaken; [apply polar_wrapped; [exact AP|exact C]|].
  assert (RI : / rho <= 10) by (apply Rmult_le_reg_r with rho; [lra|]; rewrite Rinv_l; lra).
  assert (1.5e-13 * k / rho <= 1.5e-12 * k) by (unfold Rdiv; nra). lra.
Qed.

Lemma perigee_close u' u nu' nu d1 d2 : close_angle d1 u' u -> close_angle d2 nu' nu -> 0 <= u' <= 7 -> 0 <= nu' <= 7 ->
  close_angle (d1 + d2 + 3e-15) (W_from_u_nu_b64 u' nu') (W_from_u_nu u nu).
Proof.
  intros A B U N. assert (UN : Rabs (u' - nu') <= 7) by (apply Rabs_le; lra). change (W_from_u_nu u nu) with (wrap (u - nu)). unfold W_from_u_nu_b64. assert (F := b64_fine (u' - nu')).
  apply ca_wrap. eapply ca_weaken; [eapply ca_trans; [apply ca_wrap_b64|eapply ca_trans; [apply ca_near; exact F|eapply ca_sub; [exact A|exact B]]]|].
  - apply Rabs_le_inv in F. apply Rabs_le. split; lra.
  - lra.
Qed.

(** * All elements *)
Lemma shape_sizes r v a e x : shape r v a e x -> e <= 0.9 -> 1000 <= norm r -> a <= 1e7 ->
  500 <= a /\ 0.04 <= norm v /\ norm r * norm v <= sqrt (mu_earth * a) /\ 0.43 * (norm r * norm v) <= norm (momentum r v).
Proof.
  intros (A0 & E0 & X0 & En & Pm & Rr & Dv) E9 R1 A1. change mu_earth with Earth_MU in *.
  assert (MU : 398600 <= Earth_MU <= 398601) by (unfold Earth_MU; lra). assert (C := COS_bound x).
  assert (EC : -0.9 <= e * cos x <= 0.9) by nra. assert (AL : 500 <= a) by nra.
  set (c := e * cos x) in *. assert (PV := norm_nonneg v). set (R := norm r) in *. set (V := norm v) in *.
  assert (VV : R * (V * V) = Earth_MU * (1 + c)).
  { unfold orbital_energy in En. fold R V in En. change mu_earth with Earth_MU in En. set (m := Earth_MU) in *.
    assert (Q : V * V = 2 * (m / R) - m / a). { apply Rmult_eq_reg_l with (/ 2); [|lra]. replace (/ 2 * (V * V)) with (V ^ 2 / 2) by field. replace (V ^ 2 / 2) with (- m / (2 * a) + m / R) by lra. field. lra. }
    rewrite Q. replace (R * (2 * (m / R) - m / a)) with (m * (2 - R / a)) by (field; lra). rewrite Rr. field. lra. }
  assert (RU : R <= 1.9e7) by nra.
  assert (V1 : 0.04 <= V). { apply Rnot_lt_le. intros N. assert (V * V < 0.0016) by nra. assert (R * (V * V) <= 1.9e7 * 0.0016) by (apply Rmult_le_compat; nra). nra. }
  assert (P : 0 < Earth_MU * a) by nra. assert (SS := sqrt_sqrt (Earth_MU * a) ltac:(lra)). assert (S0 := sqrt_lt_R0 _ P). set (S := sqrt (Earth_MU * a)) in *.
  assert (RV2 : R * V * (R * V) = Earth_MU * a * ((1 - c) * (1 + c))).
  { replace (R * V * (R * V)) with (R * (R * (V * V))) by ring. rewrite VV, Rr. ring. }
  assert (HH := norm_sq3 (momentum r v)). assert (H0 := norm_nonneg (momentum r v)).
  assert (HD : norm (momentum r v) * norm (momentum r v) = Earth_MU * (a * (1 - e * e))) by (rewrite HH, Pm; reflexivity).
  set (H := norm (momentum r v)) in *. repeat split; auto.
  - apply Rsqr_incr_0_var; [|lra]. unfold Rsqr. rewrite RV2, SS. assert (0 <= Earth_MU * a * (c * c)) by (apply Rmult_le_pos; nra). lra.
  - apply Rsqr_incr_0_var; [|lra]. unfold Rsqr. rewrite HD. replace (0.43 * (R * V) * (0.43 * (R * V))) with (0.1849 * (R * V * (R * V))) by lra. rewrite RV2.
    assert (1 - e * e >= 0.19) by nra. assert (0 <= c * c) by nra. replace (Earth_MU * (a * (1 - e * e))) with (Earth_MU * a * (1 - e * e)) by ring.
    replace (0.1849 * (Earth_MU * a * ((1 - c) * (1 + c)))) with (Earth_MU * a * (0.1849 * ((1 - c) * (1 + c)))) by lra. apply Rmult_le_compat_l; [lra|]. nra.
Qed.

Lemma normal_close r v : 1 <= norm r * norm v <= 1e20 -> 0.43 * (norm r * norm v) <= norm (momentum r v) ->
  exists w', v3_normalized_b64 (v3_cross_b64 r v) = Ok w' /\ verr 2.5e-15 w' (scale (/ norm (momentum r v)) (momentum r v)).
Proof.
  intros P H. assert (C := cross_round r v ltac:(lra)). change (cross r v) with (momentum r v) in C. set (h := momentum r v) in *. set (h' := v3_cross_b64 r v) in *.
  unfold verr in C. assert (N1 := norm_sub_ge h h'). assert (N2 := norm_sub_ge h' h). rewrite (norm_sub_sym h h') in N1.
  assert (HU : norm h <= norm r * norm v).
  { unfold h. assert (T := cross_norm_le r v). exact T. }
  set (k := norm r * norm v) in *.
  destruct (unit_round h' ltac:(lra) ltac:(lra)) as (w' & E & W). exists w'. split; [exact E|].
  assert (U := unit_close h' h ltac:(lra) ltac:(lra)).
  eapply verr_weaken; [eapply verr_trans; [exact W|exact U]|].
  assert (2 * norm (sub h' h) / norm h <= 1.82e-15); [|lra]. apply Rmult_le_reg_r with (norm h); [lra|]. rewrite div_mul by lra. lra.
Qed.

Lemma norm_self0 a : norm (sub a a) = 0.
Proof. unfold norm, sub, dot. cbn [x3 y3 z3]. replace (_ + _) with 0 by ring. apply sqrt_0. Qed.

Lemma elements_close L t r v el : accurate_polar L -> elements_from_ijk (State t r v) = Ok el -> bound_orbit r v -> 1000 <= norm r ->
  semimajor_axis el <= 1e7 -> 1e-5 <= eccentricity el <= 0.9 -> 1e-6 <= sin (inclination el) ->
  exists el', elements_from_ijk_b64 L (State t r v) = Ok el' /\ el_epoch el' = t /\
    Rabs (semimajor_axis el' - semimajor_axis el) <= 1e-14 * (semimajor_axis el * semimajor_axis el / norm r) /\
    Rabs (eccentricity el' - eccentricity el) <= 1e-14 / eccentricity el /\
    Rabs (inclination el' - inclination el) <= 5e-15 /\
    close_angle (6e-15 / sin (inclination el)) (raan el') (raan el) /\
    close_angle (1.4e-14 / sin (inclination el) + 2.3e-12 / eccentricity el) (argument_of_perigee el') (argument_of_perigee el) /\
    close_angle (2.5e-13 / eccentricity el) (mean_anomaly el') (mean_anomaly el).
Proof.
  intros AP EE BO R1 A1 E1 S1. destruct (from_ijk_ok (State t r v) BO) as (a & e & x & Sh & EM). cbn [s_position s_velocity s_epoch] in *.
  assert (EL := ok_inj _ _ _ (eq_trans (eq_sym EE) EM)). set (h := momentum r v) in *. set (w := scale (/ norm h) h) in *.
  assert (FA : semimajor_axis el = a) by (rewrite EL; reflexivity). assert (FE : eccentricity el = e) by (rewrite EL; reflexivity).
  assert (FI : inclination el = I_from_w w) by (rewrite EL; reflexivity). assert (FR : raan el = RAAN_from_w w) by (rewrite EL; reflexivity).
  assert (FW : argument_of_perigee el = W_from_u_nu (U_from_r_w r w) (nu_of e x)) by (rewrite EL; reflexivity).
  assert (FM : mean_anomaly el = MA_from_ea_e x e) by (rewrite EL; reflexivity).
  assert (SZ := shape_sizes r v a e x Sh ltac:(lra) R1 ltac:(lra)). destruct SZ as (A5 & V1 & RV & HH). fold h in HH.
  assert (KU : sqrt (mu_earth * a) <= 1e10). { change mu_earth with Earth_MU. rewrite <- (sqrt_square 1e10) by lra. apply sqrt_le_1_alt. unfold Earth_MU. nra. }
  assert (RV1 : 40 <= norm r * norm v) by nra.
  destruct (rounded_elements L t r v el EE BO R1 ltac:(lra) ltac:(fold h; lra) A1) as [(el' & E' & T' & A' & EB & E2)|[_ Bad]]; [|exfalso; rewrite FE in *; nra].
  exists el'. split; [exact E'|]. split; [exact T'|]. split; [exact A'|].
  destruct (normal_close r v ltac:(lra) ltac:(fold h; lra)) as (w' & EW & DW). fold h w in DW.
  assert (HP : 0 < norm h) by lra.
  assert (WU : dot w w = 1).
  { unfold w. rewrite dot_scale_l, dot_scale_r. assert (N := norm_sq3 h). replace (dot h h) with (norm h * norm h) by (rewrite N; unfold dot; ring). field. lra. }
  assert (OW : dot r w = 0) by (unfold w; rewrite dot_scale_r; unfold h, momentum, dot, cross; cbn [x3 y3 z3]; ring).
  assert (SI := sin_I w WU). rewrite <- FI in SI. set (s := sin (inclination el)) in *.
  assert (SU : s <= 1) by (unfold s; apply SIN_bound).
  unfold elements_from_ijk_b64 in E'. cbn [s_position s_velocity s_epoch] in E'. rewrite EW in E'. cbn [bind] in E'.
  apply bind_ok in E'. destruct E' as (a' & Ea' & E'). apply bind_ok in E'. destruct E' as (p' & Ep' & E'). apply bind_ok in E'. destruct E' as (e' & Ee' & E').
  apply bind_ok in E'. destruct E' as (n' & En' & E'). apply bind_ok in E'. destruct E' as (x' & Ex' & E'). apply bind_ok in E'. destruct E' as (nu' & Eu' & E').
  apply ok_inj in E'. assert (GA : semimajor_axis el' = a') by (rewrite <- E'; reflexivity). assert (GE : eccentricity el' = e') by (rewrite <- E'; reflexivity).
  assert (GI : inclination el' = I_from_w_b64 L w') by (rewrite <- E'; reflexivity). assert (GR : raan el' = RAAN_from_w_b64 L w') by (rewrite <- E'; reflexivity).
  assert (GW : argument_of_perigee el' = W_from_u_nu_b64 (U_from_r_w_b64 L r w') nu') by (rewrite <- E'; reflexivity).
  assert (GM : mean_anomaly el' = MA_from_ea_e_b64 L x' e') by (rewrite <- E'; reflexivity). clear E'.
  rewrite GA, FA in A'. rewrite GE, FE in E2. rewrite GE in EB. rewrite FE in E1. rewrite FA in A1.
  destruct Sh as (A0 & E0 & X0 & _ & _ & Rr & Dv). change mu_earth with Earth_MU in *.
  assert (DD := dot_err 0 r r v (norm r) ltac:(unfold verr; rewrite norm_self0; lra) ltac:(lra) ltac:(lra)). unfold err in DD. rewrite Dv in DD.
  destruct (anomaly_close L a e x a' (v3_dot_b64 r v) (norm r) (v3_magnitude_b64 r) AP ltac:(lra) E1 Rr ltac:(apply mag_near; lra) A' ltac:(lra) X0) as (n2 & x2 & EN2 & EX2 & CX & XB).
  rewrite EN2 in En'. apply ok_inj in En'. subst n2. rewrite EX2 in Ex'. apply ok_inj in Ex'. subst x2.
  assert (XA : Rabs x' <= 7) by (rewrite Rabs_pos_eq; lra).
  destruct (true_close L e e' x x' AP E1 EB E2 CX XA) as (nu2 & EU2 & CU & UB). rewrite EU2 in Eu'. apply ok_inj in Eu'. subst nu2.
  assert (DE := ecc_root e e' ltac:(lra) ltac:(lra) E2).
  rewrite GE, GI, GR, GW, GM, FE, FI, FR, FW, FM.
  split; [exact DE|]. split; [apply incl_close; auto; rewrite <- SI; exact S1|].
  split; [apply (node_close L w' w s AP); [rewrite SI; apply sqrt_sqrt; nra|lra|exact DW]|].
  split; [|apply mean_close; auto].
  assert (CL := latitude_close L r w' w AP ltac:(lra) WU OW ltac:(rewrite <- SI; exact S1) DW). rewrite <- SI in CL.
  assert (LB : 0 <= U_from_r_w_b64 L r w' <= 7) by (apply wrap_b64_bound; apply (polar_accurate L _ _ AP)).
  eapply ca_weaken; [apply (perigee_close _ _ _ _ _ _ CL CU LB UB)|].
  assert (K : 1 <= / s) by (rewrite <- Rinv_1; apply Rinv_le_contravar; lra). unfold Rdiv. lra.
Qed.

Lemma chord a b : norm (V3 (cos a - cos b) (sin a - sin b) 0) <= Rabs (a - b).
Proof.
  unfold norm, dot. cbn [x3 y3 z3]. rewrite <- (sqrt_square (Rabs (a - b))) by apply Rabs_pos. apply sqrt_le_1_alt.
  replace (Rabs (a - b) * Rabs (a - b)) with ((a - b) * (a - b)) by (rewrite <- Rabs_mult; symmetry; apply Rabs_pos_eq; apply Rle_0_sqr).
  assert (H := cos_2a_sin ((a - b) / 2)). replace (2 * ((a - b) / 2)) with (a - b) in H by field. rewrite cos_minus in H.
  assert (T1 := sin2_cos2 a). assert (T2 := sin2_cos2 b). unfold Rsqr in *.
  assert (S : sin ((a - b) / 2) * sin ((a - b) / 2) <= (a - b) / 2 * ((a - b) / 2)).
  { rewrite <- (Rabs_pos_eq (sin _ * _)) by apply Rle_0_sqr. rewrite <- (Rabs_pos_eq ((a - b) / 2 * _)) by apply Rle_0_sqr. rewrite !Rabs_mult.
    assert (Q : Rabs (sin ((a - b) / 2)) <= Rabs ((a - b) / 2)) by (destruct (ca_trig (Rabs ((a - b) / 2)) ((a - b) / 2) 0) as [_ Q]; [apply ca_near; rewrite Rminus_0_r; lra|rewrite sin_0, Rminus_0_r in Q; exact Q]).
    apply Rmult_le_compat; try apply Rabs_pos; exact Q. }
  nra.
Qed.

Lemma normal_moved o i o' i' d1 d2 : Rabs (i' - i) <= d1 -> close_angle d2 o' o -> 0 <= sin i ->
  norm (sub (orbit_normal o' i') (orbit_normal o i)) <= d1 + sin i * d2.
Proof.
  intros D1 [k D2] S.
  replace (o' - o - 2 * PI * IZR k) with (o' - (o + 2 * PI * IZR k)) in D2 by ring.
  replace (orbit_normal o i) with (orbit_normal (o + 2 * PI * IZR k) i) by (unfold orbit_normal; rewrite cos_shift_Z, sin_shift_Z; reflexivity).
  set (p := o + 2 * PI * IZR k) in *.
  replace (sub (orbit_normal o' i') (orbit_normal p i)) with (add (sub (orbit_normal o' i') (orbit_normal o' i)) (sub (orbit_normal o' i) (orbit_normal p i))) by (unfold sub, add; cbn [x3 y3 z3]; f_equal; ring).
  eapply Rle_trans; [apply norm_triangle|]. apply Rplus_le_compat.
  - eapply Rle_trans; [|exact D1]. eapply Rle_trans; [|apply chord]. right. unfold norm, dot, sub, orbit_normal. cbn [x3 y3 z3]. f_equal.
    assert (T := sin2_cos2 o'). unfold Rsqr in T. set (s := sin o') in *. set (c := cos o') in *.
    replace ((s * sin i' - s * sin i) * (s * sin i' - s * sin i) + (- c * sin i' - - c * sin i) * (- c * sin i' - - c * sin i)) with ((s * s + c * c) * ((sin i' - sin i) * (sin i' - sin i))) by ring. rewrite T. ring.
  - apply Rle_trans with (sin i * Rabs (o' - p)); [|apply Rmult_le_compat_l; lra]. 
    replace (sub (orbit_normal o' i) (orbit_normal p i)) with (scale (sin i) (V3 (sin o' - sin p) (- (cos o' - cos p)) 0)) by (unfold sub, scale, orbit_normal; cbn [x3 y3 z3]; f_equal; ring).
    rewrite norm_scale, (Rabs_pos_eq (sin i)) by exact S. apply Rmult_le_compat_l; [exact S|]. eapply Rle_trans; [|apply chord]. right. unfold norm, dot. cbn [x3 y3 z3]. f_equal. ring.
Qed.
