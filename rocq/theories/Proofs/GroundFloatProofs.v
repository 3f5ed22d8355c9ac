From Coq Require Import Reals ZArith Lra Lia Bool Psatz.
From Flocq Require Import Core.
From Verif.Model Require Import Num Constants Linalg Time Celestial Positions States Obs Terrestrial TimeFloat AngleFloat ElementsFloat PositionsFloat FrameFloat GroundFloat.
From Verif.Spec Require Import Geometry LibmAccuracy FrameFloat GroundFloat.
From Verif.Proofs Require Import NumLemmas LinalgProofs CelestialProofs StatesProofs TimeFloatProofs AngleFloatProofs ElementsFloatProofs StateFloatProofs VectorFloatProofs ClockProofs PiDigits Analysis FrameFloatBasics.
Local Open Scope R_scope.

(** * The rounded distance from the axis *)
Lemma b64_0 : b64 0 = 0. Proof. apply (b64_IZR 0). lia. Qed.
Lemma b64_nonneg x : 0 <= x -> 0 <= b64 x.
Proof. intros H. rewrite <- b64_0. apply b64_mono. auto. Qed.

Lemma axis_magnitude x y : v3_magnitude_b64 (V3 x y 0) = b64 (sqrt (b64 (b64 (x * x) + b64 (y * y)))).
Proof. unfold v3_magnitude_b64, v3_dot_b64. cbn [x3 y3 z3]. rewrite Rmult_0_l, b64_0, Rplus_0_r, b64_idem. auto. Qed.

Lemma sqrt_gap t t' d : 0 <= t -> 0 <= t' -> 0 <= d -> Rabs (t' - t) <= d * d -> Rabs (sqrt t' - sqrt t) <= d.
Proof.
  intros A B D H. assert (P := sqrt_pos t). assert (Q := sqrt_pos t'). assert (S := sqrt_sqrt t A). assert (S' := sqrt_sqrt t' B).
  apply Rabs_le_inv in H. apply Rabs_le. split; apply Rnot_lt_le; intros C; nra.
Qed.

Lemma axis_close x y : let rho := sqrt (x * x + y * y) in let rho' := b64 (sqrt (b64 (b64 (x * x) + b64 (y * y)))) in
  0 <= rho' /\ Rabs (rho' - rho) <= 2.9e-16 * rho + 3e-23.
Proof.
  cbn zeta. set (rho := sqrt (x * x + y * y)). assert (P : 0 <= rho) by apply sqrt_pos.
  assert (N : norm (V3 x y 0) = rho) by (unfold norm, dot, rho; cbn; f_equal; ring).
  split; [apply b64_nonneg, sqrt_pos|]. rewrite <- axis_magnitude.
  destruct (Rle_lt_dec 1e-15 rho) as [H|H].
  - assert (M := mag_near (V3 x y 0) ltac:(rewrite N; auto)). rewrite N in M. unfold ElementsFloatProofs.near in M. rewrite (Rabs_pos_eq rho) in M by auto. lra.
  - assert (S : rho * rho = x * x + y * y) by (apply sqrt_sqrt; nra).
    assert (R := dot_round (V3 x y 0) (V3 x y 0)). unfold dot in R. cbn [x3 y3 z3] in R.
    rewrite Rmult_0_l, Rabs_R0, (Rabs_pos_eq (x * x)), (Rabs_pos_eq (y * y)), !Rplus_0_r, <- S in R by nra.
    assert (Q : 0 <= v3_dot_b64 (V3 x y 0) (V3 x y 0)).
    { unfold v3_dot_b64. cbn [x3 y3 z3]. apply b64_nonneg. apply Rplus_le_le_0_compat; [apply b64_nonneg, Rplus_le_le_0_compat|]; apply b64_nonneg; nra. }
    unfold v3_magnitude_b64. set (t := v3_dot_b64 _ _) in *.
    assert (G := sqrt_gap (rho * rho) t 1.9e-23 ltac:(nra) Q ltac:(lra)). rewrite sqrt_square in G by auto.
    assert (Rabs (t - rho * rho) <= 1.9e-23 * 1.9e-23) by nra. specialize (G H0).
    assert (F := b64_fine (sqrt t)). assert (B := sqrt_pos t). rewrite (Rabs_pos_eq (sqrt t)) in F by auto.
    apply Rabs_le_inv in G. apply Rabs_le_inv in F. apply Rabs_le. lra.
Qed.

(** * Directions *)
Lemma trig_close a b d : Rabs (a - b) <= d -> Rabs (cos a - cos b) <= d /\ Rabs (sin a - sin b) <= d.
Proof. intros H. split; (eapply Rle_trans; [|exact H]); [apply cos_lip|apply sin_lip]. Qed.

Lemma wrapped_trig a b : Rabs a <= 3.2 -> Rabs (a - b) <= 4.5e-16 ->
  Rabs (cos (wrap_b64 a) - cos b) <= 1.45e-15 /\ Rabs (sin (wrap_b64 a) - sin b) <= 1.45e-15 /\ 0 <= wrap_b64 a <= 2 * math_pi.
Proof.
  intros A H. assert (MP := math_pi_close). assert (P := PI_digits). apply Rabs_le_inv in A.
  assert (W := AngleFloatProofs.wrap_range a). assert (Ab := H).
  unfold AngleFloatProofs.turn in W. 
  assert (RG : 0 <= wrap_b64 a <= 2 * math_pi) by (apply W; lra).
  rewrite <- and_assoc. split; [|exact RG].
  unfold wrap_b64 in *. unfold nlt in *. destruct (Rlt_dec a 0).
  - rewrite <- (cos_period b 1), <- (sin_period b 1). cbn [INR]. replace (b + 2 * 1 * PI) with (b + 2 * PI) by ring. apply trig_close.
    assert (F := b64_fine (a + 2 * math_pi)). rewrite (Rabs_pos_eq (a + 2 * math_pi)) in F by lra.
    apply Rabs_le_inv in F. apply Rabs_le_inv in H. apply Rabs_le. lra.
  - apply trig_close. lra.
Qed.

Lemma from_cartesian_close L v : accurate_polar L -> 1e-6 <= norm v ->
  let s := spherical_from_cartesian_b64 L v in
  Rabs (radius s - norm v) <= 2.9e-16 * norm v /\
  0 <= right_ascension s <= 2 * math_pi /\ Rabs (declination s) <= 1.6 /\
  within3 2.6e-15 (pointing (right_ascension s) (declination s)) (scale (/ norm v) v).
Proof.
  intros [AT AP] N s. unfold s, spherical_from_cartesian_b64. cbn [radius right_ascension declination]. clear s.
  destruct v as [x y z]. cbn [x3 y3 z3]. set (r := norm (V3 x y z)) in *.
  assert (M := mag_near (V3 x y z) ltac:(fold r; lra)). fold r in M. unfold ElementsFloatProofs.near in M. rewrite (Rabs_pos_eq r) in M by lra.
  split; [lra|]. clear M.
  destruct (axis_close x y) as [P0 PC]. set (rho := sqrt (x * x + y * y)) in *. set (rho' := b64 (sqrt _)) in *.
  assert (R0 : 0 <= rho) by apply sqrt_pos. assert (RS : rho * rho = x * x + y * y) by (apply sqrt_sqrt; nra).
  assert (RR : r * r = x * x + y * y + z * z) by (apply (norm_sq3 (V3 x y z))).
  assert (RL : rho <= r) by nra.
  assert (AR := atan2_range y x). assert (PD := PI_digits). assert (AX := AP y x).
  assert (AL : Rabs (atan2f L y x) <= 3.2) by (apply Rabs_le_inv in AX; apply Rabs_le; lra).
  destruct (wrapped_trig _ _ AL AX) as (WC & WS & WR). split; [exact WR|].
  set (ra := wrap_b64 (atan2f L y x)) in *. set (al := atan2 y x) in *.
  destruct (atan2_polar y x) as [PX PY]. fold rho al in PX, PY.
  (* the declination *)
  set (a := V3 rho' 0 z). set (b := V3 rho 0 z).
  assert (NB : norm b = r) by (unfold b; unfold r, norm, dot; cbn; f_equal; clear - RS; nra).
  assert (DN : norm (sub a b) = Rabs (rho' - rho)).
  { unfold norm, dot, sub, a, b. cbn [x3 y3 z3]. rewrite <- sqrt_Rsqr_abs. f_equal. unfold Rsqr. ring. }
  assert (PC' : Rabs (rho' - rho) <= 3.3e-16 * r) by lra.
  assert (NA := norm_sub_ge b a). rewrite norm_sub_sym, DN, NB in NA. assert (NA0 : 0 < norm a) by lra.
  assert (UC := unit_close a b NA0 ltac:(lra)). rewrite DN, NB in UC.
  assert (UC' : verr 6.6e-16 (scale (/ norm a) a) (scale (/ r) b)).
  { eapply verr_weaken; [exact UC|]. apply Rmult_le_reg_r with r; [lra|]. unfold Rdiv. rewrite Rmult_assoc, Rinv_l by lra. lra. }
  unfold verr in UC'. destruct (norm_ge_xyz (sub (scale (/ norm a) a) (scale (/ r) b))) as [C1 [_ C3]].
  apply (fun H => Rle_trans _ _ _ H UC') in C1. apply (fun H => Rle_trans _ _ _ H UC') in C3.
  destruct (atan2_polar z rho') as [QX QY]. set (be := atan2 z rho') in *.
  assert (NE : sqrt (rho' * rho' + z * z) = norm a) by (unfold a, norm, dot; cbn; f_equal; ring). rewrite NE in QX, QY.
  unfold sub, scale, a, b in C1, C3. cbn [x3 y3 z3] in C1, C3. fold a in C1, C3.
  assert (I1 : / norm a * rho' = cos be) by (rewrite QX at 1; field; lra).
  assert (I2 : / norm a * z = sin be) by (rewrite QY at 1; field; lra). rewrite I1 in C1. rewrite I2 in C3.
  assert (AZ := AP z rho'). fold be in AZ. set (dec := atan2f L z rho') in *.
  assert (BR : - (PI / 2) <= be <= PI / 2).
  { assert (AB := atan2_range z rho'). fold be in AB. assert (0 <= cos be) by (rewrite <- I1; apply Rmult_le_pos; [left; apply Rinv_0_lt_compat|]; lra).
    split; apply Rnot_lt_le; intros K; (assert (cos be < 0); [|lra]); [rewrite <- cos_neg|]; apply cos_lt_0; lra. }
  split. { apply Rabs_le_inv in AZ. apply Rabs_le. lra. }
  destruct (trig_close _ _ _ AZ) as [TC TS].
  assert (DC : Rabs (cos dec - / r * rho) <= 1.12e-15) by (apply Rabs_le_inv in TC; apply Rabs_le_inv in C1; apply Rabs_le; lra).
  assert (DS : Rabs (sin dec - / r * z) <= 1.12e-15) by (apply Rabs_le_inv in TS; apply Rabs_le_inv in C3; apply Rabs_le; lra).
  assert (K : 0 <= / r * rho <= 1).
  { assert (0 < / r) by (apply Rinv_0_lt_compat; lra). split; [apply Rmult_le_pos; lra|]. apply Rle_trans with (/ r * r); [apply Rmult_le_compat_l; lra|rewrite Rinv_l by lra; lra]. }
  assert (G : forall c' c, Rabs c' <= 1 -> Rabs (c' - c) <= 1.45e-15 -> Rabs (cos dec * c' - / r * rho * c) <= 2.6e-15).
  { intros c' c U H. replace (cos dec * c' - / r * rho * c) with ((cos dec - / r * rho) * c' + / r * rho * (c' - c)) by ring.
    eapply Rle_trans; [apply Rabs_triang|]. assert (X1 := abs_mul_le _ _ _ _ DC U). assert (X2 := abs_mul_le (/ r * rho) (c' - c) 1 1.45e-15).
    rewrite (Rabs_pos_eq (/ r * rho)) in X2 by lra. specialize (X2 ltac:(lra) H). lra. }
  unfold within3, pointing, scale. cbn [x3 y3 z3]. split; [|split].
  - replace (/ r * x) with (/ r * rho * cos al) by (rewrite PX; ring). apply G; auto using abs_cos.
  - replace (/ r * y) with (/ r * rho * sin al) by (rewrite PY; ring). apply G; auto using abs_sin.
  - lra.
Qed.

Lemma to_cartesian_close L s : accurate_polar L -> Rabs (right_ascension s) <= 8 -> Rabs (declination s) <= 8 -> 0 <= radius s ->
  within3 (7.1e-16 * radius s + 2e-60) (spherical_to_cartesian_b64 L s) (scale (radius s) (pointing (right_ascension s) (declination s))).
Proof.
  intros [AT _] A D P. destruct s as [r ra dec]. cbn [radius right_ascension declination] in *.
  destruct (AT ra A) as [S C]. destruct (AT dec D) as [S' C']. fold (err 2.3e-16 (sinf L ra) (sin ra)) in S. fold (err 2.3e-16 (cosf L ra) (cos ra)) in C.
  fold (err 2.3e-16 (sinf L dec) (sin dec)) in S'. fold (err 2.3e-16 (cosf L dec) (cos dec)) in C'.
  assert (M1 : err 5.85e-16 (b64 (cosf L dec * cosf L ra)) (cos dec * cos ra)).
  { apply (err_mulr _ _ _ _ _ _ 1 1 _ C' C (abs_cos _) (abs_cos _)). lra. }
  assert (M2 : err 5.85e-16 (b64 (cosf L dec * sinf L ra)) (cos dec * sin ra)).
  { apply (err_mulr _ _ _ _ _ _ 1 1 _ C' S (abs_cos _) (abs_sin _)). lra. }
  assert (G : forall c' c, err 5.85e-16 c' c -> Rabs c <= 1 -> Rabs (b64 (c' * r) - r * c) <= 7.1e-16 * r + 2e-60).
  { intros c' c H U. rewrite (Rmult_comm r c). assert (Z : err 0 r r) by (unfold err; rewrite Rminus_diag_eq, Rabs_R0; lra).
    apply (err_mulr _ _ _ _ _ _ 1 r _ H Z U); [rewrite Rabs_pos_eq; lra|]. lra. }
  unfold within3, spherical_to_cartesian_b64, v3_scaled_b64, scale, pointing. cbn [x3 y3 z3 radius right_ascension declination].
  split; [|split]; apply G; auto.
  - eapply Rle_trans; [apply abs_mul_le; apply abs_cos|lra].
  - eapply Rle_trans; [apply abs_mul_le; [apply abs_cos|apply abs_sin]|lra].
  - eapply err_weaken; [exact S'|lra].
  - apply abs_sin.
Qed.

Lemma spherical_trip L v : accurate_polar L -> 1e-6 <= norm v ->
  within3 (4e-15 * norm v) (spherical_to_cartesian_b64 L (spherical_from_cartesian_b64 L v)) v.
Proof.
  intros A N. destruct (from_cartesian_close L v A N) as (R & AR & D & W). set (s := spherical_from_cartesian_b64 L v) in *.
  assert (MP := math_pi_close). assert (PD := PI_digits). apply Rabs_le_inv in R.
  assert (T := to_cartesian_close L s A ltac:(apply Rabs_le; lra) ltac:(lra) ltac:(lra)).
  assert (G : forall c c' p u, Rabs (c' - radius s * p) <= 7.1e-16 * radius s + 2e-60 -> Rabs (p - / norm v * u) <= 2.6e-15 -> Rabs p <= 1 -> Rabs c <= norm v -> u = c -> Rabs (c' - c) <= 4e-15 * norm v).
  { intros c c' p u H1 H2 H3 H4 ->. replace (c' - c) with ((c' - radius s * p) + ((radius s - norm v) * p + norm v * (p - / norm v * c))) by (field; lra).
    eapply Rle_trans; [apply Rabs_triang|]. assert (Z := Rabs_triang ((radius s - norm v) * p) (norm v * (p - / norm v * c))).
    assert (Z1 := abs_mul_le (radius s - norm v) p (2.9e-16 * norm v) 1 ltac:(apply Rabs_le; lra) H3).
    assert (Z2 := abs_mul_le (norm v) (p - / norm v * c) (norm v) 2.6e-15 ltac:(rewrite Rabs_pos_eq; lra) H2). lra. }
  destruct W as (W1 & W2 & W3), T as (T1 & T2 & T3). unfold scale, pointing in *. cbn [x3 y3 z3] in *.
  destruct (norm_ge_xyz v) as (B1 & B2 & B3). repeat split; eapply G; eauto using abs_sin.
  - eapply Rle_trans; [apply abs_mul_le; apply abs_cos|lra].
  - eapply Rle_trans; [apply abs_mul_le; [apply abs_cos|apply abs_sin]|lra].
Qed.
