From Coq Require Import Reals ZArith List Lra Lia Psatz.
From Flocq Require Import Core.
From Verif.Model Require Import Num Constants Linalg Functions Time Celestial Positions States TimeFloat AngleFloat ElementsFloat FrameFloat GroundFloat EarthFloat BodyFloat ForceFloat GravityFloat.
From Verif.Spec Require Import Geometry LibmAccuracy FrameFloat SiderealFloat EarthFloat GroundFloat.
From Verif.Proofs Require Import NumLemmas LinalgProofs TimeFloatProofs AngleFloatProofs ElementsFloatProofs StateFloatProofs ClockProofs PiDigits Analysis FrameFloatBasics GroundFloatProofs OrbitFloatAngles OrbitFloatProofs EarthFloatProofs.
From Verif.Proofs Require Import GravityFloatBasics.
Local Notation near := ElementsFloatProofs.near.
Local Open Scope R_scope.

Lemma ca_times n d a b : close_angle d a b -> close_angle (INR n * d) (INR n * a) (INR n * b).
Proof.
  intros [k K]. exists (Z.of_nat n * k)%Z. rewrite mult_IZR, <- INR_IZR_INZ.
  replace (INR n * a - INR n * b - 2 * PI * (INR n * IZR k)) with (INR n * (a - b - 2 * PI * IZR k)) by ring.
  rewrite Rabs_mult, Rabs_pos_eq by apply pos_INR. apply Rmult_le_compat_l; [apply pos_INR|exact K].
Qed.

(** multiples of the longitude *)
Lemma multiple_gb L w n ra' ra d e : unit_range w -> accurate_circular L -> (n <= 4)%nat -> close_angle (d * w) ra' ra -> 0 <= ra' <= 7 -> INR n * d + 4.6e-5 <= e ->
  gb w 1 1 e (cosf L (b64 (of_nat n * ra'))) (cos (of_nat n * ra)) /\ gb w 1 1 e (sinf L (b64 (of_nat n * ra'))) (sin (of_nat n * ra)).
Proof.
  intros W A N C B E. unfold of_nat. assert (NB : 0 <= INR n <= 4) by (split; [apply pos_INR|]; apply le_INR in N; cbn in N; lra).
  assert (T := ca_times n _ _ _ C). set (q := INR n * ra') in *.
  assert (QB : 0 <= q <= 28) by (unfold q; split; [apply Rmult_le_pos; lra|]; apply Rle_trans with (4 * 7); [apply Rmult_le_compat; lra|lra]).
  assert (F := b64_fine q). rewrite (Rabs_pos_eq q) in F by lra.
  assert (C1 : close_angle (3.2e-15 + INR n * (d * w)) (b64 q) (INR n * ra)) by (eapply ca_trans; [apply ca_near; eapply Rle_trans; [exact F|]; lra|exact T]).
  destruct (ca_trig _ _ _ C1) as [TC TS]. apply Rabs_le_inv in F. destruct (A (b64 q)) as [S K]; [apply Rabs_le; lra|].
  unfold unit_range in W.
  assert (EW : INR n * (d * w) + 3.5e-15 <= e * (w * 1)).
  { apply Rle_trans with ((INR n * d + 4.6e-5) * w); [|rewrite Rmult_1_r; apply Rmult_le_compat_r; lra]. lra. }
  split; (split; [rewrite Rmult_1_l; first [apply abs_cos|apply abs_sin]|]).
  - replace (cosf L (b64 q) - _) with ((cosf L (b64 q) - cos (b64 q)) + (cos (b64 q) - cos (INR n * ra))) by ring. eapply Rle_trans; [apply Rabs_triang|]. lra.
  - replace (sinf L (b64 q) - _) with ((sinf L (b64 q) - sin (b64 q)) + (sin (b64 q) - sin (INR n * ra))) by ring. eapply Rle_trans; [apply Rabs_triang|]. lra.
Qed.

(** the angles of a displaced point *)
Lemma plane_moved x y x' y' d : Rabs (x' - x) <= d -> Rabs (y' - y) <= d -> Rabs (sqrt (x' * x' + y' * y') - sqrt (x * x + y * y)) <= norm (V3 (x' - x) (y' - y) 0).
Proof.
  intros A B. assert (T := norm_triangle (V3 (x' - x) (y' - y) 0) (V3 x y 0)). assert (U := norm_triangle (V3 (x - x') (y - y') 0) (V3 x' y' 0)).
  assert (F : forall a b, norm (V3 a b 0) = sqrt (a * a + b * b)) by (intros; unfold norm, dot; cbn; f_equal; ring).
  unfold add in T, U. cbn [x3 y3 z3] in T, U.
  replace (V3 (x' - x + x) (y' - y + y) (0 + 0)) with (V3 x' y' 0) in T by (f_equal; ring). replace (V3 (x - x' + x') (y - y' + y') (0 + 0)) with (V3 x y 0) in U by (f_equal; ring).
  assert (S : norm (V3 (x - x') (y - y') 0) = norm (V3 (x' - x) (y' - y) 0)) by (rewrite !F; f_equal; ring). rewrite S in U. rewrite (F x y), (F x' y') in *. apply Rabs_le. lra.
Qed.

Definition hyp (e : vec3) : R := sqrt (x3 e * x3 e + y3 e * y3 e).
Definition hyp_b64 (e : vec3) : R := b64 (sqrt (b64 (b64 (x3 e * x3 e) + b64 (y3 e * y3 e)))).

Lemma hyp_sq e : hyp e * hyp e = x3 e * x3 e + y3 e * y3 e.
Proof. unfold hyp. apply sqrt_sqrt. nra. Qed.
Lemma hyp_nonneg e : 0 <= hyp e. Proof. apply sqrt_pos. Qed.
Lemma hyp_le_norm e : hyp e <= norm e.
Proof. unfold hyp, norm, dot. apply sqrt_le_1_alt. nra. Qed.

(** Everything the sums need about the two angles. *)
Lemma angles_close L tanf w R e' e : unit_range w -> accurate_circular L -> accurate_polar L ->
  (forall x, Rabs (tanf x - tan x) <= 2.3e-16 * (1 + Rabs (tan x))) ->
  1000 <= R -> norm (sub e' e) <= w * R -> 0.99999 * R <= norm e <= 1.00001 * R -> 0.1 * R <= hyp e ->
  let s' := spherical_from_cartesian_b64 L e' in let s := spherical_from_cartesian e in
  Rabs (hyp_b64 e' - hyp e) <= 1.0001 * (w * R) /\
  close_angle (14.41 * w) (right_ascension s') (right_ascension s) /\ 0 <= right_ascension s' <= 7 /\
  gb w 1 1 1.47 (cosf L (declination s')) (cos (declination s)) /\ gb w 1 1 1.47 (sinf L (declination s')) (sin (declination s)) /\
  gb w 1 10.03 207 (tanf (declination s')) (tan (declination s)).
Proof.
  intros W AC AP AT RL V NE HE s' s. unfold unit_range in W.
  assert (WR : 0 < w * R <= 2.8e-8 * R) by (split; [apply Rmult_lt_0_compat; lra|apply Rmult_le_compat_r; lra]).
  assert (WL : 8e-11 * R <= w * R) by (apply Rmult_le_compat_r; lra).
  destruct (norm_ge_xyz (sub e' e)) as (VX & VY & VZ). unfold sub in VX, VY, VZ. cbn [x3 y3 z3] in VX, VY, VZ. fold (sub e' e) in VX, VY, VZ.
  assert (DX : Rabs (x3 e' - x3 e) <= w * R) by lra. assert (DY : Rabs (y3 e' - y3 e) <= w * R) by lra. assert (DZ : Rabs (z3 e' - z3 e) <= w * R) by lra.
  assert (PM := plane_moved _ _ _ _ _ DX DY). fold (hyp e') (hyp e) in PM.
  assert (PN : norm (V3 (x3 e' - x3 e) (y3 e' - y3 e) 0) <= norm (sub e' e)) by (unfold norm, dot, sub; cbn [x3 y3 z3]; apply sqrt_le_1_alt; assert (Z := Rle_0_sqr (z3 e' - z3 e)); unfold Rsqr in Z; clear - Z; lra).
  destruct (axis_close (x3 e') (y3 e')) as [H0 HC]. fold (hyp e') (hyp_b64 e') in H0, HC.
  assert (HU : hyp e <= 1.00001 * R) by (assert (Z := hyp_le_norm e); lra).
  assert (HD : Rabs (hyp_b64 e' - hyp e) <= 1.0001 * (w * R)).
  { apply Rabs_le_inv in PM. apply Rabs_le_inv in HC. apply Rabs_le. lra. }
  split; [exact HD|].
  (* right ascension *)
  assert (C1 := OrbitFloatAngles.atan2_close (x3 e) (y3 e) (x3 e') (y3 e') (hyp e) (w * R) (hyp_sq e) ltac:(lra) DX DY ltac:(lra)).
  assert (Q1 : w * R / hyp e <= 10 * w).
  { apply Rmult_le_reg_r with (hyp e); [lra|]. rewrite div_mul by lra. replace (10 * w * hyp e) with (w * (10 * hyp e)) by ring. apply Rmult_le_compat_l; lra. }
  assert (C2 : close_angle (14.41 * w) (right_ascension s') (right_ascension s)).
  { change (right_ascension s') with (wrap_b64 (atan2f L (y3 e') (x3 e'))). change (right_ascension s) with (wrap (atan2 (y3 e) (x3 e))).
    eapply ca_weaken; [eapply polar_wrapped; [exact AP|exact C1]|]. lra. }
  split; [exact C2|].
  split. { change (right_ascension s') with (wrap_b64 (atan2f L (y3 e') (x3 e'))). apply wrap_b64_bound. apply polar_accurate; exact AP. }
  (* declination *)
  set (ph' := declination s'). set (ph := declination s).
  assert (NN : norm e * norm e = hyp e * hyp e + z3 e * z3 e) by (rewrite hyp_sq, norm_sq3; reflexivity).
  assert (C3 := OrbitFloatAngles.atan2_close (hyp e) (z3 e) (hyp_b64 e') (z3 e') (norm e) (1.0001 * (w * R)) NN ltac:(lra) HD ltac:(lra) ltac:(lra)).
  assert (Q2 : 1.0001 * (w * R) / norm e <= 1.0002 * w).
  { apply Rmult_le_reg_r with (norm e); [lra|]. rewrite div_mul by lra. replace (1.0002 * w * norm e) with (w * (1.0002 * norm e)) by ring. replace (1.0001 * (w * R)) with (w * (1.0001 * R)) by ring. apply Rmult_le_compat_l; lra. }
  destruct (polar_accurate L (z3 e') (hyp_b64 e') AP) as [PA PB]. change (atan2f L (z3 e') (hyp_b64 e')) with ph' in PA, PB.
  assert (C4 : close_angle (1.45 * w) ph' ph) by (change ph with (atan2 (z3 e) (hyp e)); eapply ca_weaken; [eapply ca_trans; [exact PA|exact C3]|]; lra).
  destruct (ca_trig _ _ _ C4) as [TC TS]. destruct (AC ph' ltac:(lra)) as [AS AK].
  split. { split; [rewrite Rmult_1_l; apply abs_cos|]. replace (cosf L ph' - cos ph) with ((cosf L ph' - cos ph') + (cos ph' - cos ph)) by ring. eapply Rle_trans; [apply Rabs_triang|]. lra. }
  split. { split; [rewrite Rmult_1_l; apply abs_sin|]. replace (sinf L ph' - sin ph) with ((sinf L ph' - sin ph') + (sin ph' - sin ph)) by ring. eapply Rle_trans; [apply Rabs_triang|]. lra. }
  assert (CP : 0.0999 <= cos ph).
  { destruct (atan2_polar (z3 e) (hyp e)) as [X _]. fold ph in X. change (atan2 (z3 e) (hyp e)) with ph in X. rewrite <- NN, sqrt_square in X by lra.
    apply Rmult_le_reg_l with (norm e); [lra|]. rewrite <- X. lra. }
  assert (CP' : 0.09989 <= cos ph') by (apply Rabs_le_inv in TC; lra).
  assert (TD : Rabs (tan ph' - tan ph) <= 146 * w).
  { destruct C4 as [k K]. assert (SD : Rabs (sin (ph' - ph)) <= 1.45 * w).
    { assert (Z := sin_lip (ph' - ph - 2 * PI * IZR k) 0). rewrite sin_0, !Rminus_0_r in Z.
      replace (sin (ph' - ph)) with (sin (ph' - ph - 2 * PI * IZR k)); [lra|]. rewrite <- (sin_shift_Z (ph' - ph - 2 * PI * IZR k) k). f_equal. ring. }
    replace (tan ph' - tan ph) with (sin (ph' - ph) * (/ (cos ph' * cos ph))) by (unfold tan; rewrite sin_minus; field; lra).
    assert (PC : 0.009978 <= cos ph' * cos ph) by (apply Rle_trans with (0.09989 * 0.0999); [lra|apply Rmult_le_compat; lra]).
    rewrite Rabs_mult, (Rabs_pos_eq (/ _)) by (left; apply Rinv_0_lt_compat; lra).
    apply Rle_trans with (1.45 * w * / 0.009978); [apply Rmult_le_compat; [apply Rabs_pos|left; apply Rinv_0_lt_compat; lra|exact SD|apply Rinv_le_contravar; lra]|]. lra. }
  assert (TB : Rabs (tan ph) <= 10.02).
  { unfold tan, Rdiv. rewrite Rabs_mult, (Rabs_pos_eq (/ _)) by (left; apply Rinv_0_lt_compat; lra).
    apply Rle_trans with (1 * / 0.0999); [apply Rmult_le_compat; [apply Rabs_pos|left; apply Rinv_0_lt_compat; lra|apply abs_sin|apply Rinv_le_contravar; lra]|lra]. }
  split; [lra|]. assert (A := AT ph'). assert (U : Rabs (tan ph') <= 10.03) by (apply Rabs_le_inv in TD; apply Rabs_le_inv in TB; apply Rabs_le; lra).
  replace (tanf ph' - tan ph) with ((tanf ph' - tan ph') + (tan ph' - tan ph)) by ring. eapply Rle_trans; [apply Rabs_triang|]. lra.
Qed.
