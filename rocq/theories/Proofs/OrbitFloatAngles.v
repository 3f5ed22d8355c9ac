From Coq Require Import Reals ZArith Lra Lia Psatz.
From Flocq Require Import Core.
From Verif.Model Require Import Num TimeFloat AngleFloat ElementsFloat.
From Verif.Spec Require Import Geometry SiderealFloat GroundFloat LibmAccuracy.
From Verif.Proofs Require Import NumLemmas TimeFloatProofs AngleFloatProofs ElementsFloatProofs ClockProofs PiDigits Analysis StateFloatProofs.
Local Open Scope R_scope.

(** * Angles up to whole turns *)
Lemma ca_weaken d e a b : close_angle d a b -> d <= e -> close_angle e a b.
Proof. intros [k K] H. exists k. lra. Qed.
Lemma ca_near d a b : Rabs (a - b) <= d -> close_angle d a b.
Proof. intros H. exists 0%Z. replace (a - b - 2 * PI * 0) with (a - b) by ring. exact H. Qed.
Lemma ca_trans d e a b c : close_angle d a b -> close_angle e b c -> close_angle (d + e) a c.
Proof.
  intros [k K] [l L]. exists (k + l)%Z. rewrite plus_IZR. apply Rabs_le_inv in K. apply Rabs_le_inv in L. apply Rabs_le. lra.
Qed.
Lemma ca_sub d e a b x y : close_angle d a b -> close_angle e x y -> close_angle (d + e) (a - x) (b - y).
Proof.
  intros [k K] [l L]. exists (k - l)%Z. rewrite minus_IZR. apply Rabs_le_inv in K. apply Rabs_le_inv in L. apply Rabs_le. lra.
Qed.
Lemma ca_nonneg d a b : close_angle d a b -> 0 <= d.
Proof. intros [k K]. eapply Rle_trans; [apply Rabs_pos|exact K]. Qed.
Lemma ca_trig d a b : close_angle d a b -> Rabs (cos a - cos b) <= d /\ Rabs (sin a - sin b) <= d.
Proof.
  intros [k K]. rewrite <- (cos_shift_Z b k), <- (sin_shift_Z b k).
  replace (a - b - 2 * PI * IZR k) with (a - (b + 2 * PI * IZR k)) in K by ring.
  split; (eapply Rle_trans; [|exact K]); [apply cos_lip|apply sin_lip].
Qed.
Lemma ca_wrap d a b : close_angle d a b -> close_angle d a (wrap b).
Proof.
  intros H. unfold wrap. destruct (nlt b 0); auto. destruct H as [k K]. exists (k - 1)%Z. rewrite minus_IZR.
  replace (a - (b + 2 * PI) - 2 * PI * (IZR k - 1)) with (a - b - 2 * PI * IZR k) by ring. exact K.
Qed.
Lemma ca_wrap_b64 a : Rabs a <= 12 -> close_angle 1.6e-15 (wrap_b64 a) a.
Proof.
  intros A. assert (MP := math_pi_close). assert (P := PI_digits). unfold wrap_b64, nlt. destruct (Rlt_dec a 0).
  - exists 1%Z. assert (F := b64_fine (a + 2 * math_pi)). apply Rabs_le_inv in A.
    assert (U : Rabs (a + 2 * math_pi) <= 6.3) by (apply Rabs_le; lra). apply Rabs_le_inv in F. apply Rabs_le. lra.
  - apply ca_near. replace (a - a) with 0 by ring. rewrite Rabs_R0. lra.
Qed.

(** a small sine with a positive cosine is a small angle *)
Lemma small_angle t s : - (PI / 2) < t < PI / 2 -> Rabs (sin t) <= s -> s <= 0.02 -> Rabs t <= 1.0005 * s.
Proof.
  intros T S B. assert (P := PI_digits).
  assert (G : forall y, 0 <= y < PI / 2 -> sin y <= s -> y <= 1.0005 * s).
  { intros y Y Q. assert (L := sin_lower y (proj1 Y)).
    assert (Y1 : y * (1 - y * y / 6) <= s) by lra. assert (YY : y * y <= 2.5) by nra.
    assert (Y2 : y * (1 - 2.5 / 6) <= s) by nra. assert (Y3 : y <= 0.04) by lra. assert (y * y <= 0.0016) by nra.
    assert (y * (1 - 0.0016 / 6) <= s) by nra. lra. }
  apply Rabs_le_inv in S. destruct (Rle_dec 0 t).
  - rewrite Rabs_pos_eq by lra. apply G; lra.
  - rewrite Rabs_left by lra. apply G; [lra|]. rewrite sin_neg. lra.
Qed.

Lemma plane_dot x y u v p d : p * p = x * x + y * y -> 0 < p -> Rabs u <= d -> Rabs v <= d -> Rabs (x * u + y * v) <= 1.4143 * (d * p).
Proof.
  intros PP P0 U V. assert (D0 : 0 <= d) by (eapply Rle_trans; [apply Rabs_pos|exact U]). apply Rabs_le_inv in U. apply Rabs_le_inv in V.
  assert (UV : u * u + v * v <= 2 * (d * d)) by nra.
  assert (CS : (x * u + y * v) * (x * u + y * v) <= (p * p) * (u * u + v * v)).
  { rewrite PP. assert (0 <= (x * v - y * u) * (x * v - y * u)) by apply Rle_0_sqr. nra. }
  assert (CT : (x * u + y * v) * (x * u + y * v) <= (p * p) * (2 * (d * d))) by (eapply Rle_trans; [exact CS|apply Rmult_le_compat_l; [apply Rle_0_sqr|exact UV]]).
  assert (DP : 0 <= d * p) by (apply Rmult_le_pos; lra).
  apply Rsqr_incr_0_var; [|lra]. unfold Rsqr. rewrite <- Rabs_mult, Rabs_pos_eq by apply Rle_0_sqr.
  replace (1.4143 * (d * p) * (1.4143 * (d * p))) with (1.4143 * 1.4143 * ((d * p) * (d * p))) by ring.
  assert (0 <= (d * p) * (d * p)) by apply Rle_0_sqr. lra.
Qed.

(** how far a polar angle moves with the point *)
Lemma atan2_close x y x' y' p d : p * p = x * x + y * y -> 0 < p -> Rabs (x' - x) <= d -> Rabs (y' - y) <= d -> d <= 0.01 * p ->
  close_angle (1.44 * (d / p)) (atan2 y' x') (atan2 y x).
Proof.
  intros PP P0 DX DY DP. assert (D0 : 0 <= d) by (eapply Rle_trans; [apply Rabs_pos|exact DX]).
  assert (PI0 := PI_digits).
  destruct (atan2_polar y x) as [X Y]. destruct (atan2_polar y' x') as [X' Y']. assert (A := atan2_range y x). assert (A' := atan2_range y' x').
  assert (SP : sqrt (x * x + y * y) = p) by (rewrite <- PP; apply sqrt_square; lra). rewrite SP in X, Y.
  set (p' := sqrt (x' * x' + y' * y')) in *. set (t := atan2 y x) in *. set (t' := atan2 y' x') in *.
  assert (Q0 : 0 <= p') by apply sqrt_pos. assert (QQ : p' * p' = x' * x' + y' * y') by (apply sqrt_sqrt; nra).
  apply Rabs_le_inv in DX. apply Rabs_le_inv in DY. clearbody t t' p'.
  set (u := x' - x) in *. set (v := y' - y) in *.
  assert (AU : Rabs u <= d) by (apply Rabs_le; lra). assert (AV : Rabs v <= d) by (apply Rabs_le; lra).
  assert (ZB := plane_dot x y u v p d PP P0 AU AV). assert (Zc := plane_dot (- y) x u v p d ltac:(rewrite PP; ring) P0 AU AV).
  assert (DPP : 0 <= d * p <= 0.01 * (p * p)) by (split; nra).
  assert (XX' : x * x' + y * y' = p * p + (x * u + y * v)) by (rewrite PP; unfold u, v; ring).
  assert (PQ : p' * p' = p * p + 2 * (x * u + y * v) + (u * u + v * v)) by (rewrite QQ, PP; unfold u, v; ring).
  set (z := x * u + y * v) in *. set (zc := - y * u + x * v) in *. set (uv := u * u + v * v) in *. assert (UV : 0 <= uv) by (unfold uv; nra).
  apply Rabs_le_inv in ZB.
  assert (PL : 0.983 * p <= p').
  { apply Rsqr_incr_0_var; [|auto]. unfold Rsqr. rewrite PQ. assert (0 < p * p) by nra. nra. }
  assert (SN : p * p' * sin (t' - t) = zc).
  { rewrite sin_minus. unfold zc, u, v. rewrite X, Y, X', Y'. ring. }
  assert (CN : p * p' * cos (t' - t) = x * x' + y * y') by (rewrite cos_minus; rewrite X, Y, X', Y'; ring).
  assert (PW : 0 < p * p') by nra.
  assert (CP : 0 < cos (t' - t)).
  { apply Rmult_lt_reg_l with (p * p'); [auto|]. rewrite CN, XX', Rmult_0_r. assert (0 < p * p) by nra. lra. }
  assert (SB : Rabs (sin (t' - t)) <= 1.4388 * (d / p)).
  { apply Rmult_le_reg_l with (p * p'); [auto|]. rewrite <- (Rabs_pos_eq (p * p')) at 1 by lra. rewrite <- Rabs_mult, SN.
    replace (p * p' * (1.4388 * (d / p))) with (1.4388 * d * p') by (field; lra).
    apply Rle_trans with (1.4388 * d * (0.983 * p)); [lra|]. apply Rmult_le_compat_l; lra. }
  assert (DPq : d / p <= 0.01) by (apply Rmult_le_reg_r with p; auto; rewrite div_mul by lra; lra).
  assert (DP0 : 0 <= d / p) by (apply Rmult_le_reg_r with p; auto; rewrite div_mul by lra; lra).
  assert (FIN : forall k : Z, - (PI / 2) < t' - t - 2 * PI * IZR k < PI / 2 -> close_angle (1.44 * (d / p)) t' t).
  { intros k K. exists k. set (g := t' - t - 2 * PI * IZR k) in *.
    assert (SG : sin (t' - t) = sin g) by (replace (t' - t) with (g + 2 * PI * IZR k) by (unfold g; ring); apply sin_shift_Z).
    rewrite SG in SB. assert (Z := small_angle g _ K SB ltac:(lra)). lra. }
  destruct (Rlt_dec (t' - t) (- (PI / 2))) as [L|L].
  - apply (FIN (-1)%Z). destruct (Rlt_dec (t' - t) (- (3 * (PI / 2)))); [lra|].
    exfalso. assert (cos (t' - t) <= 0); [|lra]. rewrite <- (cos_shift_Z _ 1). replace (t' - t + 2 * PI * 1) with (t' - t + 2 * PI) by ring. apply cos_le_0; lra.
  - destruct (Rlt_dec (PI / 2) (t' - t)) as [U|U].
    + apply (FIN 1%Z). destruct (Rlt_dec (3 * (PI / 2)) (t' - t)); [lra|].
      exfalso. assert (cos (t' - t) <= 0); [|lra]. apply cos_le_0; lra.
    + apply (FIN 0%Z). assert (t' - t <> PI / 2) by (intros E; rewrite E, cos_PI2 in CP; lra).
      assert (t' - t <> - (PI / 2)) by (intros E; rewrite E, cos_neg, cos_PI2 in CP; lra). lra.
Qed.
