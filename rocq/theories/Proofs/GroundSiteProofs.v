From Coq Require Import Reals ZArith Lra Lia Bool Psatz.
From Flocq Require Import Core.
From Verif.Model Require Import Num Constants Linalg Time Celestial Positions States Obs Terrestrial TimeFloat AngleFloat ElementsFloat PositionsFloat FrameFloat GroundFloat.
From Verif.Spec Require Import Geometry LibmAccuracy FrameFloat GroundFloat.
From Verif.Proofs Require Import NumLemmas LinalgProofs CelestialProofs PositionsProofs GeodeticProofs StatesProofs TimeFloatProofs AngleFloatProofs ElementsFloatProofs StateFloatProofs VectorFloatProofs ClockProofs PiDigits Analysis FrameFloatBasics GroundFloatProofs.
Local Open Scope R_scope.

(** * The ellipsoid's constants *)
Lemma e2_bounds : 0.0066 < e2 < 0.0068.
Proof. rewrite <- e2_flattening. unfold Earth_FLATTENING. lra. Qed.

Lemma near_err k x' x X : ElementsFloatProofs.near k x' x -> 0 <= k -> Rabs x <= X -> err (k * 1e-16 * X) x' x.
Proof. unfold ElementsFloatProofs.near, err. intros H K B. eapply Rle_trans; [exact H|]. apply Rmult_le_compat_l; lra. Qed.
Lemma err_near d k x' x : err d x' x -> d <= k * 1e-16 * Rabs x -> ElementsFloatProofs.near k x' x.
Proof. unfold ElementsFloatProofs.near, err. lra. Qed.

(** the same facts with the hypotheses in the order of use *)
Lemma nmul k l a' a b' b : ElementsFloatProofs.near k a' a -> ElementsFloatProofs.near l b' b -> 0 <= k <= 100 -> 0 <= l <= 100 -> ElementsFloatProofs.near (k + l + 0.01) (a' * b') (a * b).
Proof. intros. apply near_mul; auto. Qed.
Lemma ndiv k l a' a b' b : ElementsFloatProofs.near k a' a -> ElementsFloatProofs.near l b' b -> 0 <= k <= 100 -> 0 <= l <= 99 -> b <> 0 -> ElementsFloatProofs.near (k + l + 0.02) (a' / b') (a / b).
Proof. intros. apply near_div; auto. Qed.
Lemma nsqrt k x' x : ElementsFloatProofs.near k x' x -> 0 <= k <= 100 -> 0 < x -> ElementsFloatProofs.near (k / 2 + 0.01) (sqrt x') (sqrt x).
Proof. intros. apply near_sqrt; auto. Qed.
Lemma nround k x' x : ElementsFloatProofs.near k x' x -> 0 <= k <= 100 -> 1e-39 <= x -> ElementsFloatProofs.near (k + 1.14) (b64 x') x.
Proof. intros. apply near_round; auto. rewrite Rabs_pos_eq; lra. Qed.

Lemma flattening_near : ElementsFloatProofs.near 2.29 FLATTENING_b64 Earth_FLATTENING.
Proof.
  unfold FLATTENING_b64, Earth_FLATTENING. assert (B := b64_near 298.2572235 ltac:(rewrite Rabs_pos_eq; lra)).
  apply near_weaken with (0 + 1.13 + 0.02 + 1.14); [|lra]. apply near_round; [lra| |rewrite Rabs_pos_eq; lra].
  apply near_div; auto; try lra. apply near_refl.
Qed.

Lemma ecc_near : exists e, psqrt_b64 (b64 (FLATTENING_b64 * b64 (2 - FLATTENING_b64))) = Ok e /\
  ElementsFloatProofs.near 8.04 (b64 (e * e)) e2.
Proof.
  assert (F := flattening_near). set (f' := FLATTENING_b64) in *. set (f := Earth_FLATTENING) in *.
  assert (Fv : 0.0033 < f < 0.0034) by (unfold f, Earth_FLATTENING; lra).
  assert (E := e2_flattening). fold f in E. assert (EB := e2_bounds).
  assert (G : ElementsFloatProofs.near 1.15 (b64 (2 - f')) (2 - f)).
  { apply near_weaken with (0.01 + 1.14); [|lra]. apply near_round; [lra| |rewrite Rabs_pos_eq; lra].
    unfold ElementsFloatProofs.near in *. rewrite (Rabs_pos_eq f) in F by lra. rewrite (Rabs_pos_eq (2 - f)) by lra.
    replace (2 - f' - (2 - f)) with (- (f' - f)) by ring. rewrite Rabs_Ropp. lra. }
  assert (P := nmul _ _ _ _ _ _ F G ltac:(lra) ltac:(lra)). rewrite E in P.
  apply nround in P; [|lra|lra].
  set (q := b64 (f' * b64 (2 - f'))) in *.
  assert (Q0 : 0 < q). { unfold ElementsFloatProofs.near in P. rewrite (Rabs_pos_eq e2) in P by lra. apply Rabs_le_inv in P. lra. }
  exists (b64 (sqrt q)). split; [apply sqrt_ok; lra|].
  assert (S := nsqrt _ _ _ P ltac:(lra) ltac:(lra)).
  assert (SB : 0.05 <= sqrt e2) by (apply Rsqr_incr_0_var; [unfold Rsqr; rewrite sqrt_sqrt by lra; lra|apply sqrt_pos]).
  apply nround in S; [|lra|lra].
  assert (M := nmul _ _ _ _ _ _ S S ltac:(lra) ltac:(lra)). rewrite sqrt_sqrt in M by lra.
  apply nround in M; [|lra|lra]. eapply near_weaken; [exact M|lra].
Qed.

Lemma radius_near : ElementsFloatProofs.near 1.13 RADIUS_b64 Ea.
Proof. unfold RADIUS_b64, Ea, Earth_RADIUS. apply b64_near. rewrite Rabs_pos_eq; lra. Qed.

(** * The site *)
Lemma err_same x : err 0 x x.
Proof. unfold err. rewrite Rminus_diag_eq, Rabs_R0; lra. Qed.

Lemma site_close L l : accurate_trig L -> Rabs (latitude l) <= 8 -> Rabs (longitude l) <= 8 ->
  exists p' p, lla_to_itrf_b64 L l = Ok p' /\ lla_to_itrf l = Ok p /\ within3 (1.3e-15 * (6400 + Rabs (altitude l))) p' p.
Proof.
  intros AT HA HO. destruct l as [lat lon alt]. cbn [latitude longitude altitude] in *.
  destruct (AT lat HA) as [SA CA]. destruct (AT lon HO) as [SO CO].
  fold (err 2.3e-16 (sinf L lat) (sin lat)) in SA. fold (err 2.3e-16 (cosf L lat) (cos lat)) in CA.
  fold (err 2.3e-16 (sinf L lon) (sin lon)) in SO. fold (err 2.3e-16 (cosf L lon) (cos lon)) in CO.
  rewrite lla_to_itrf_ok. unfold lla_to_itrf_b64. cbn [latitude longitude altitude].
  destruct ecc_near as (e & Ee & EN). rewrite Ee. cbn [bind]. clear Ee. set (ee := b64 (e * e)) in *.
  assert (EB := e2_bounds). assert (EE := near_err _ _ _ 0.0068 EN ltac:(lra) ltac:(rewrite Rabs_pos_eq; lra)).
  set (s' := sinf L lat) in *. set (s := sin lat) in *. assert (S1 : Rabs s <= 1) by apply abs_sin. assert (C1 : Rabs (cos lat) <= 1) by apply abs_cos.
  assert (A1 : err 8e-18 (b64 (ee * s')) (e2 * s)).
  { apply (err_mulr _ _ _ _ _ _ 0.0068 1 _ EE SA); auto; [rewrite Rabs_pos_eq; lra|lra]. }
  assert (B1 : Rabs (e2 * s) <= 0.0068) by (replace 0.0068 with (0.0068 * 1) by lra; apply abs_mul_le; auto; rewrite Rabs_pos_eq; lra).
  assert (A2 : err 1.1e-17 (b64 (b64 (ee * s') * s')) (e2 * s * s)).
  { apply (err_mulr _ _ _ _ _ _ 0.0068 1 _ A1 SA); auto. lra. }
  assert (W : 0.993 <= 1 - e2 * s * s <= 1).
  { assert (0 <= s * s <= 1) by (apply Rabs_le_inv in S1; split; nra). split; nra. }
  set (w := 1 - e2 * s * s) in *.
  assert (A3 : err 1.24e-16 (b64 (1 - b64 (b64 (ee * s') * s'))) w).
  { apply (err_subr _ _ _ _ _ _ 1 _ (err_same 1) A2); [fold w; rewrite Rabs_pos_eq; lra|lra]. }
  set (w' := b64 (1 - b64 (b64 (ee * s') * s'))) in *.
  assert (W0 : 0 < w') by (unfold err in A3; apply Rabs_le_inv in A3; lra).
  rewrite sqrt_ok by lra. cbn [bind].
  assert (N3 : ElementsFloatProofs.near 1.25 w' w) by (apply (err_near _ _ _ _ A3); rewrite Rabs_pos_eq; lra).
  assert (N4 := nsqrt _ _ _ N3 ltac:(lra) ltac:(lra)).
  assert (RW : 0.996 <= sqrt w <= 1).
  { split; [apply Rsqr_incr_0_var; [unfold Rsqr; rewrite sqrt_sqrt by lra; lra|apply sqrt_pos]|]. rewrite <- sqrt_1. apply sqrt_le_1_alt. lra. }
  apply nround in N4; [|lra|lra].
  assert (NR : b64 (sqrt w') <> 0). { unfold ElementsFloatProofs.near in N4. rewrite (Rabs_pos_eq (sqrt w)) in N4 by lra. apply Rabs_le_inv in N4. lra. }
  rewrite div_ok by auto. cbn [bind].
  assert (N5 := ndiv _ _ _ _ _ _ radius_near N4 ltac:(lra) ltac:(lra) ltac:(lra)). cbv zeta.
  assert (NB : 6378 <= Ea / sqrt w <= 6405).
  { unfold Ea, Earth_RADIUS. split; apply Rmult_le_reg_r with (sqrt w); try lra; rewrite div_mul by lra; lra. }
  set (n := Ea / sqrt w) in *. apply nround in N5; [|lra|lra].
  set (n' := b64 (RADIUS_b64 / b64 (sqrt w'))) in *.
  assert (EN' : err 2.61e-12 n' n).
  { eapply err_weaken; [apply (near_err _ _ _ 6405 N5); [lra|rewrite Rabs_pos_eq; lra]|lra]. }
  eexists. eexists. split; [reflexivity|]. split; [reflexivity|].
  set (S := 6400 + Rabs alt). assert (AP := Rabs_pos alt). assert (S0 : 6400 <= S) by (unfold S; lra).
  assert (NS : forall m, Rabs m <= 6405 -> Rabs (m + alt) <= 1.001 * S).
  { intros m M. eapply Rle_trans; [apply Rabs_triang|]. unfold S. lra. }
  assert (H1 : err (5.3e-16 * S) (b64 (n' + alt)) (n + alt)).
  { apply (err_addr _ _ _ _ _ _ (1.001 * S) _ EN' (err_same alt)); [apply NS; rewrite Rabs_pos_eq; lra|lra]. }
  assert (H2 : err (8.9e-16 * S) (b64 (b64 (n' + alt) * cosf L lat)) ((n + alt) * cos lat)).
  { apply (err_mulr _ _ _ _ _ _ (1.001 * S) 1 _ H1 CA); auto; [apply NS; rewrite Rabs_pos_eq; lra|lra]. }
  assert (U2 : Rabs ((n + alt) * cos lat) <= 1.001 * S).
  { replace (1.001 * S) with (1.001 * S * 1) by ring. apply abs_mul_le; auto. apply NS; rewrite Rabs_pos_eq; lra. }
  assert (K1 : err 1.18e-16 (b64 (1 - ee)) (1 - e2)).
  { apply (err_subr _ _ _ _ _ _ 1 _ (err_same 1) EE); [rewrite Rabs_pos_eq; lra|lra]. }
  assert (K2 : err 4.2e-12 (b64 (n' * b64 (1 - ee))) (n * (1 - e2))).
  { apply (err_mulr _ _ _ _ _ _ 6405 1 _ EN' K1); [rewrite Rabs_pos_eq; lra|rewrite Rabs_pos_eq; lra|lra]. }
  assert (UM : Rabs (n * (1 - e2)) <= 6405).
  { replace 6405 with (6405 * 1) by lra. apply abs_mul_le; rewrite Rabs_pos_eq; lra. }
  assert (K3 : err (7.9e-16 * S) (b64 (b64 (n' * b64 (1 - ee)) + alt)) (n * (1 - e2) + alt)).
  { apply (err_addr _ _ _ _ _ _ (1.001 * S) _ K2 (err_same alt)); [apply NS; auto|lra]. }
  unfold within3. cbn [x3 y3 z3]. split; [|split].
  - apply (err_mulr _ _ _ _ _ _ (1.001 * S) 1 _ H2 CO); auto using abs_cos. lra.
  - apply (err_mulr _ _ _ _ _ _ (1.001 * S) 1 _ H2 SO); auto using abs_sin. lra.
  - apply (err_mulr _ _ _ _ _ _ (1.001 * S) 1 _ K3 SA); auto using abs_sin. lra.
Qed.

(** * The local axes *)
Lemma enz_rows L lon lat : accurate_trig L -> Rabs lat <= 8 -> Rabs lon <= 8 ->
  let m' := ENZ_matrix_b64 L lon lat in let m := ENZ_matrix lon lat in
  within3 5.85e-16 (m3_row1 m') (m3_row1 m) /\ within3 5.85e-16 (m3_row2 m') (m3_row2 m) /\ within3 5.85e-16 (m3_row3 m') (m3_row3 m).
Proof.
  intros AT HA HO. cbn zeta. destruct (AT lat HA) as [SA CA]. destruct (AT lon HO) as [SO CO].
  fold (err 2.3e-16 (sinf L lat) (sin lat)) in SA. fold (err 2.3e-16 (cosf L lat) (cos lat)) in CA.
  fold (err 2.3e-16 (sinf L lon) (sin lon)) in SO. fold (err 2.3e-16 (cosf L lon) (cos lon)) in CO.
  assert (G : forall a' a b' b, err 2.3e-16 a' a -> err 2.3e-16 b' b -> Rabs a <= 1 -> Rabs b <= 1 -> err 5.85e-16 (b64 (a' * b')) (a * b)).
  { intros a' a b' b A B UA UB. apply (err_mulr _ _ _ _ _ _ 1 1 _ A B UA UB). lra. }
  assert (SN : Rabs (- sin lat) <= 1) by (rewrite Rabs_Ropp; apply abs_sin).
  assert (Z : err 5.85e-16 0 0.0) by (unfold err; replace (0 - 0.0) with 0 by lra; rewrite Rabs_R0; lra).
  unfold within3, ENZ_matrix_b64, ENZ_matrix. cbn [m3_row1 m3_row2 m3_row3 x3 y3 z3].
  repeat split; try (apply G; auto using err_opp, abs_sin, abs_cos); first [exact Z|eapply err_weaken; [eauto using err_opp|lra]].
Qed.

Lemma within_verr d u' u : within3 d u' u -> verr (1.7321 * d) u' u.
Proof.
  intros (A & B & C). assert (0 <= d) by (eapply Rle_trans; [apply Rabs_pos|exact A]). unfold verr. apply norm_parts; auto.
Qed.

Lemma enz_unit lon lat : norm (m3_row1 (ENZ_matrix lon lat)) = 1 /\ norm (m3_row2 (ENZ_matrix lon lat)) = 1 /\ norm (m3_row3 (ENZ_matrix lon lat)) = 1.
Proof. destruct (ENZ_rotation lon lat) as (A & B & C & _). unfold norm. rewrite A, B, C, sqrt_1. auto. Qed.

Lemma minus_close k p' p q : within3 k p' p ->
  within3 (1.01 * k + 1.13e-16 * norm (sub q p) + 1e-60) (v3_minus_b64 q p') (sub q p).
Proof.
  intros (A & B & C). assert (0 <= k) by (eapply Rle_trans; [apply Rabs_pos|exact A]).
  destruct (norm_ge_xyz (sub q p)) as (X & Y & Z). assert (P := norm_nonneg (sub q p)). set (D := norm (sub q p)) in *.
  unfold sub in X, Y, Z. unfold within3, v3_minus_b64, sub. cbn [x3 y3 z3] in *.
  repeat split.
  - apply (err_subr _ _ _ _ _ _ _ _ (err_same (x3 q)) A X). lra.
  - apply (err_subr _ _ _ _ _ _ _ _ (err_same (y3 q)) B Y). lra.
  - apply (err_subr _ _ _ _ _ _ _ _ (err_same (z3 q)) C Z). lra.
Qed.

Lemma enz_close L l q : accurate_trig L -> Rabs (latitude l) <= 8 -> Rabs (longitude l) <= 8 ->
  exists s' s, GroundSite_b64 L l = Ok s' /\ GroundSite l = Ok s /\
    let S := 6400 + Rabs (altitude l) in let D := norm (sub q (itrf_position s)) in
    within3 (2.3e-15 * S + 1.7e-15 * D) (enz_position_b64 s' q) (enz_position s q).
Proof.
  intros AT HA HO. destruct (site_close L l AT HA HO) as (p' & p & E' & E & W). unfold GroundSite_b64, GroundSite. rewrite E', E. cbn [bind].
  eexists. eexists. split; [reflexivity|]. split; [reflexivity|]. cbn zeta. cbn [itrf_position].
  unfold enz_position_b64, enz_position, m3_multiply_vector_b64, m3_multiply_vector, v3_minus. cbn [enz_matrix itrf_position]. fold (sub q p).
  set (S := 6400 + Rabs (altitude l)) in *. assert (S0 : 6400 <= S) by (unfold S; assert (Z := Rabs_pos (altitude l)); lra).
  set (D := norm (sub q p)). assert (D0 : 0 <= D) by apply norm_nonneg.
  assert (M := within_verr _ _ _ (minus_close _ _ _ q W)). fold D in M. set (d' := v3_minus_b64 q p') in *. set (d := sub q p) in *.
  assert (MN := verr_norm _ _ _ M). fold D in MN.
  destruct (enz_rows L _ _ AT HA HO) as (R1 & R2 & R3). destruct (enz_unit (longitude l) (latitude l)) as (U1 & U2 & U3).
  assert (G : forall u' u, within3 5.85e-16 u' u -> norm u = 1 -> Rabs (v3_dot_b64 u' d' - dot u d) <= 2.3e-15 * S + 1.7e-15 * D).
  { intros u' u V U. apply within_verr in V. assert (VN := verr_norm _ _ _ V).
    assert (X := dot_err _ u' u d' 1.001 V ltac:(lra) ltac:(lra)). unfold err in X.
    replace (v3_dot_b64 u' d' - dot u d) with ((v3_dot_b64 u' d' - dot u d') + dot u (sub d' d)) by (unfold dot, sub; cbn; ring).
    eapply Rle_trans; [apply Rabs_triang|]. assert (CS := cauchy_schwarz_norm u (sub d' d)). apply Rabs_le in CS. unfold verr in M. rewrite U, Rmult_1_l in CS. lra. }
  unfold within3. cbn [x3 y3 z3]. split; [|split]; apply G; auto.
Qed.

Lemma enz_columns lon lat : let m := m3_transpose (ENZ_matrix lon lat) in norm (m3_row1 m) = 1 /\ norm (m3_row2 m) = 1 /\ norm (m3_row3 m) = 1.
Proof.
  cbn zeta. unfold m3_transpose, ENZ_matrix, norm, dot. cbn.
  assert (A := sin2_cos2' lon). assert (B := sin2_cos2' lat). rewrite <- sqrt_1.
  replace 0.0 with 0 by lra. repeat split; f_equal; nra.
Qed.

Lemma enz_back_close L l v : accurate_trig L -> Rabs (latitude l) <= 8 -> Rabs (longitude l) <= 8 ->
  within3 (1.4e-15 * norm v + 6e-60) (enz_to_itrf_b64 L l v) (enz_to_itrf l v).
Proof.
  intros AT HA HO. destruct (enz_rows L _ _ AT HA HO) as ((A1 & A2 & A3) & (B1 & B2 & B3) & (C1 & C2 & C3)).
  destruct (enz_columns (longitude l) (latitude l)) as (U1 & U2 & U3). assert (P := norm_nonneg v).
  unfold enz_to_itrf_b64, enz_to_itrf, m3_multiply_vector_b64, m3_multiply_vector.
  set (m' := ENZ_matrix_b64 L (longitude l) (latitude l)) in *. set (m := ENZ_matrix (longitude l) (latitude l)) in *.
  assert (G : forall u' u, within3 5.85e-16 u' u -> norm u = 1 -> Rabs (v3_dot_b64 u' v - dot u v) <= 1.4e-15 * norm v + 6e-60).
  { intros u' u V U. apply within_verr in V. assert (VN := verr_norm _ _ _ V).
    assert (X := dot_err _ u' u v 1.001 V ltac:(lra) ltac:(lra)). unfold err in X. lra. }
  unfold within3. cbn [x3 y3 z3]. split; [|split]; apply G; auto; unfold m3_transpose; cbn [m3_row1 m3_row2 m3_row3]; repeat split; cbn [x3 y3 z3]; assumption.
Qed.

(** * Observations *)
Lemma swap_within d u v : within3 d (V3 (y3 u) (x3 u) (z3 u)) (V3 (y3 v) (x3 v) (z3 v)) -> within3 d u v.
Proof. unfold within3. cbn [x3 y3 z3]. tauto. Qed.
Lemma norm_swap d : norm (V3 (y3 d) (x3 d) (z3 d)) = norm d.
Proof. unfold norm, dot. cbn [x3 y3 z3]. f_equal. ring. Qed.

Lemma observed_close L o d e a : accurate_polar L -> 1e-6 <= norm d ->
  let ob := GroundObservation_b64 L o d e a in
  Rabs (go_range ob - norm d) <= 2.9e-16 * norm d /\
  0 <= go_azimuth ob <= 2 * math_pi /\ Rabs (go_elevation ob) <= 1.6 /\
  within3 2.6e-15 (sighting (go_azimuth ob) (go_elevation ob)) (scale (/ norm d) d).
Proof.
  intros A N. cbn zeta. unfold GroundObservation_b64. cbn [go_range go_azimuth go_elevation].
  destruct (from_cartesian_close L (V3 (y3 d) (x3 d) (z3 d)) A ltac:(rewrite norm_swap; auto)) as (R & RA & D & W). rewrite norm_swap in R, W.
  set (s := spherical_from_cartesian_b64 L _) in *. repeat split; try tauto; destruct W as (W1 & W2 & W3); unfold sighting, pointing, scale in *; cbn [x3 y3 z3] in *; assumption.
Qed.

Lemma scaled_within r' r p' u D (v : vec3) : 0 < D -> v = scale D u -> Rabs (r' - D) <= r * D -> within3 2.6e-15 p' u ->
  Rabs (x3 p') <= 1 -> Rabs (y3 p') <= 1 -> Rabs (z3 p') <= 1 -> within3 ((r + 2.6e-15) * D) (scale r' p') v.
Proof.
  intros D0 -> R (W1 & W2 & W3) P1 P2 P3.
  assert (G : forall p q, Rabs (p - q) <= 2.6e-15 -> Rabs p <= 1 -> Rabs (r' * p - D * q) <= (r + 2.6e-15) * D).
  { intros p q H B. replace (r' * p - D * q) with ((r' - D) * p + D * (p - q)) by ring. eapply Rle_trans; [apply Rabs_triang|].
    assert (Z1 := abs_mul_le _ _ _ _ R B). assert (Z2 := abs_mul_le D (p - q) D 2.6e-15 ltac:(rewrite Rabs_pos_eq; lra) H). lra. }
  unfold within3, scale. cbn [x3 y3 z3]. auto.
Qed.

Lemma scale_back v : 0 < norm v -> v = scale (norm v) (scale (/ norm v) v).
Proof. intros H. set (n := norm v) in *. destruct v as [a b c]. unfold scale. cbn. f_equal; field; lra. Qed.

Lemma unscale r u : 0 < r -> u = scale (/ r) (scale r u).
Proof. intros H. destruct u as [a b c]. unfold scale. cbn. f_equal; field; lra. Qed.

Lemma sighting_small az el : Rabs (x3 (sighting az el)) <= 1 /\ Rabs (y3 (sighting az el)) <= 1 /\ Rabs (z3 (sighting az el)) <= 1.
Proof.
  unfold sighting. cbn [x3 y3 z3]. split; [|split]; [| |apply abs_sin]; rewrite <- (Rmult_1_r 1); apply abs_mul_le; auto using abs_cos, abs_sin.
Qed.
Lemma sighting_unit az el : norm (sighting az el) = 1.
Proof. unfold sighting, norm, dot. cbn [x3 y3 z3]. rewrite <- sqrt_1. f_equal. assert (A := sin2_cos2' az). assert (B := sin2_cos2' el). nra. Qed.

Lemma site_observation L l q o e a : accurate_polar L -> Rabs (latitude l) <= 8 -> Rabs (longitude l) <= 8 -> Rabs (altitude l) <= 1e9 ->
  exists s' s, GroundSite_b64 L l = Ok s' /\ GroundSite l = Ok s /\
    let S := 6400 + Rabs (altitude l) in let D := norm (sub q (itrf_position s)) in
    let ob := GroundObservation_b64 L o (enz_position_b64 s' q) e a in
    1e-3 <= D ->
    Rabs (go_range ob - D) <= 4e-15 * S + 3.3e-15 * D /\
    within3 (2.4e-15 * S + 4.7e-15 * D) (scale (go_range ob) (sighting (go_azimuth ob) (go_elevation ob))) (enz_position s q).
Proof.
  intros A HA HO HL. destruct (enz_close L l q (proj1 A) HA HO) as (s' & s & E' & E & W). exists s', s. split; auto. split; auto. cbn zeta in *.
  intros HD. set (D := norm (sub q (itrf_position s))) in *. set (S := 6400 + Rabs (altitude l)) in *.
  assert (S0 : 6400 <= S <= 1.1e9) by (unfold S; assert (Z := Rabs_pos (altitude l)); lra).
  set (d' := enz_position_b64 s' q) in *. set (d := enz_position s q) in *.
  assert (ND : norm d = D).
  { unfold GroundSite in E. destruct (lla_to_itrf l); cbn [bind] in E; [|discriminate]. injection E as <-. unfold d, D, enz_position. cbn [enz_matrix itrf_position].
    apply (rotation_norm (ENZ_matrix (longitude l) (latitude l))). apply ENZ_rotation. }
  assert (V := within_verr _ _ _ W). assert (VN := verr_norm _ _ _ V). rewrite ND in VN.
  destruct (observed_close L o d' e a A ltac:(lra)) as (R & RA & EL & T). set (ob := GroundObservation_b64 L o d' e a) in *.
  apply Rabs_le_inv in R. split. { apply Rabs_le. lra. }
  destruct (sighting_small (go_azimuth ob) (go_elevation ob)) as (P1 & P2 & P3).
  assert (N0 : 0 < norm d') by lra.
  assert (X := scaled_within (go_range ob) 2.9e-16 _ (scale (/ norm d') d') (norm d') d' N0 (scale_back d' N0) ltac:(apply Rabs_le; lra) T P1 P2 P3).
  destruct X as (X1 & X2 & X3), W as (W1 & W2 & W3).
  assert (G : forall x y z, Rabs (x - y) <= (2.9e-16 + 2.6e-15) * norm d' -> Rabs (y - z) <= 2.3e-15 * S + 1.7e-15 * D -> Rabs (x - z) <= 2.4e-15 * S + 4.7e-15 * D).
  { intros x y z H1 H2. replace (x - z) with ((x - y) + (y - z)) by ring. eapply Rle_trans; [apply Rabs_triang|]. lra. }
  split; [|split]; [exact (G _ _ _ X1 W1)|exact (G _ _ _ X2 W2)|exact (G _ _ _ X3 W3)].
Qed.

Lemma angles_trip L o az el r e a : accurate_polar L -> Rabs az <= 8 -> Rabs el <= 8 -> 1e-3 <= r ->
  let ob := from_angles_and_range_b64 L o az el r e a in
  within3 (7.2e-16 * r) (go_observed_direction ob) (scale r (sighting az el)) /\
  Rabs (go_range ob - r) <= 1.6e-15 * r /\
  within3 5.2e-15 (sighting (go_azimuth ob) (go_elevation ob)) (sighting az el).
Proof.
  intros A HA HE HR. cbn zeta. unfold from_angles_and_range_b64.
  assert (T := to_cartesian_close L (Spherical r az el) A HA HE ltac:(cbn; lra)). cbn [radius right_ascension declination] in T.
  set (nez := spherical_to_cartesian_b64 L _) in *. set (d := V3 (y3 nez) (x3 nez) (z3 nez)).
  assert (W : within3 (7.2e-16 * r) d (scale r (sighting az el))).
  { destruct T as (T1 & T2 & T3). unfold within3, d, scale, sighting, pointing in *. cbn [x3 y3 z3] in *. repeat split; lra. }
  assert (V := within_verr _ _ _ W). assert (VN := verr_norm _ _ _ V).
  assert (NT : norm (scale r (sighting az el)) = r) by (rewrite norm_scale, sighting_unit, Rabs_pos_eq; lra). rewrite NT in VN.
  destruct (observed_close L o d e a A ltac:(lra)) as (R & _ & _ & S). set (ob := GroundObservation_b64 L o d e a) in *.
  split; [exact W|]. apply Rabs_le_inv in R. split; [apply Rabs_le; lra|].
  assert (U := unit_close d (scale r (sighting az el)) ltac:(lra) ltac:(lra)). rewrite NT in U.
  assert (U' : verr 2.5e-15 (scale (/ norm d) d) (sighting az el)).
  { rewrite (unscale r (sighting az el)) by lra.
    eapply verr_weaken; [exact U|]. unfold verr in V. apply Rmult_le_reg_r with r; [lra|]. rewrite div_mul by lra. lra. }
  unfold verr in U'. destruct (norm_ge_xyz (sub (scale (/ norm d) d) (sighting az el))) as (Q1 & Q2 & Q3). unfold sub in Q1, Q2, Q3. cbn [x3 y3 z3] in Q1, Q2, Q3.
  fold (sub (scale (/ norm d) d) (sighting az el)) in Q1, Q2, Q3.
  destruct S as (S1 & S2 & S3).
  assert (G : forall x y z, Rabs (x - y) <= 2.6e-15 -> Rabs (y - z) <= norm (sub (scale (/ norm d) d) (sighting az el)) -> Rabs (x - z) <= 5.2e-15).
  { intros x y z H1 H2. replace (x - z) with ((x - y) + (y - z)) by ring. eapply Rle_trans; [apply Rabs_triang|]. lra. }
  split; [|split]; [exact (G _ _ _ S1 Q1)|exact (G _ _ _ S2 Q2)|exact (G _ _ _ S3 Q3)].
Qed.

Lemma site_norm l p : lla_to_itrf l = Ok p -> norm p <= 1.7321 * (6405 + Rabs (altitude l)).
Proof.
  destruct l as [lat lon alt]. rewrite lla_to_itrf_ok. cbn [altitude]. cbv zeta. assert (EB := e2_bounds).
  set (s := sin lat). assert (S1 : Rabs s <= 1) by apply abs_sin.
  assert (W : 0.993 <= 1 - e2 * s * s <= 1).
  { assert (0 <= s * s <= 1) by (apply Rabs_le_inv in S1; split; nra). split; nra. }
  set (w := 1 - e2 * s * s) in *.
  assert (RW : 0.996 <= sqrt w <= 1).
  { split; [apply Rsqr_incr_0_var; [unfold Rsqr; rewrite sqrt_sqrt by lra; lra|apply sqrt_pos]|]. rewrite <- sqrt_1. apply sqrt_le_1_alt. lra. }
  assert (NB : 6378 <= Ea / sqrt w <= 6405).
  { unfold Ea, Earth_RADIUS. split; apply Rmult_le_reg_r with (sqrt w); try lra; rewrite div_mul by lra; lra. }
  set (n := Ea / sqrt w) in *. intros H.
  assert (H' : p = V3 ((n + alt) * cos lat * cos lon) ((n + alt) * cos lat * sin lon) ((n * (1 - e2) + alt) * s)) by congruence. clear H. subst p.
  assert (AP := Rabs_pos alt). set (K := 6405 + Rabs alt) in *.
  assert (G : forall m, Rabs m <= 6405 -> Rabs (m + alt) <= K) by (intros m M; eapply Rle_trans; [apply Rabs_triang|unfold K; lra]).
  assert (G1 : forall x y, Rabs x <= K -> Rabs y <= 1 -> Rabs (x * y) <= K) by (intros x y X Y; rewrite <- (Rmult_1_r K); apply abs_mul_le; auto).
  apply norm_parts; cbn [x3 y3 z3]; [unfold K; lra| | |].
  - apply G1; [|apply abs_cos]. apply G1; [|apply abs_cos]. apply G. rewrite Rabs_pos_eq; lra.
  - apply G1; [|apply abs_sin]. apply G1; [|apply abs_cos]. apply G. rewrite Rabs_pos_eq; lra.
  - apply G1; [|auto]. apply G. replace 6405 with (6405 * 1) by lra. apply abs_mul_le; rewrite Rabs_pos_eq; lra.
Qed.
