From Coq Require Import Reals ZArith Lra Lia Bool.
From Flocq Require Import Core.
From Verif.Model Require Import Num Linalg TimeFloat ElementsFloat.
From Verif.Spec Require Import Geometry.
From Verif.Proofs Require Import NumLemmas LinalgProofs Analysis TimeFloatProofs ElementsFloatProofs StateFloatProofs FloatEval FloatFailures ClockProofs.
From Verif.Model Require Import VectorFloat.
From Verif.Spec Require Import VectorFloat.
Local Open Scope R_scope.

(** * Close cosines have close angles *)

Lemma sin_mid e m : 0 <= e -> e <= m -> m <= PI - e -> sin e <= sin m.
Proof.
  intros E L U. assert (P := PI_RGT_0). destruct (Rle_dec m (PI / 2)).
  - apply sin_incr_1; lra.
  - rewrite <- (sin_PI_x m). apply sin_incr_1; lra.
Qed.

Lemma cos_gap x y d : 0 <= x <= PI -> 0 <= y <= PI -> Rabs (cos x - cos y) <= d ->
  2 * sin ((x + y) / 2) * sin (Rabs (x - y) / 2) <= d.
Proof.
  intros X Y H. rewrite form2 in H. assert (S : 0 <= sin ((x + y) / 2)) by (apply sin_ge_0; lra).
  assert (Q : Rabs (sin ((x - y) / 2)) = sin (Rabs (x - y) / 2)).
  { unfold Rabs at 2. destruct (Rcase_abs (x - y)).
    - replace (- (x - y) / 2) with (- ((x - y) / 2)) by field. rewrite sin_neg. rewrite <- Rabs_Ropp, <- sin_neg. apply Rabs_pos_eq. apply sin_ge_0; lra.
    - apply Rabs_pos_eq, sin_ge_0; lra. }
  rewrite !Rabs_mult, Q in H. rewrite (Rabs_pos_eq (sin ((x + y) / 2))) in H by auto. replace (Rabs (-2)) with 2 in H; [lra|].
  rewrite Rabs_left; lra.
Qed.

Lemma acos_rough x y d : 0 <= x <= PI -> 0 <= y <= PI -> Rabs (cos x - cos y) <= d -> d <= 0.1 ->
  25 / 72 * (Rabs (x - y) * Rabs (x - y)) <= d.
Proof.
  intros X Y H D. assert (G := cos_gap x y d X Y H). assert (P := PI_RGT_0).
  assert (AP := Rabs_pos (x - y)). assert (AU : Rabs (x - y) <= x + y /\ Rabs (x - y) <= 2 * PI - (x + y)) by (unfold Rabs; destruct (Rcase_abs (x - y)); lra).
  set (a := Rabs (x - y)) in *. clearbody a. assert (M := sin_mid (a / 2) ((x + y) / 2) ltac:(lra) ltac:(lra) ltac:(lra)).
  assert (S0 : 0 <= sin (a / 2)) by (apply sin_ge_0; lra).
  assert (SQ : 2 * (sin (a / 2) * sin (a / 2)) <= d) by (clear - G M S0; nra).
  assert (E1 : a / 2 <= 1).
  { apply Rnot_lt_le. intros C. assert (L := sin_lower 1 ltac:(lra)). assert (P2 := PI2_1). 
    assert (I : sin 1 <= sin (a / 2)) by (apply sin_incr_1; lra). clear - L I SQ D; nra. }
  assert (L := sin_lower (a / 2) ltac:(lra)). assert (L2 : 5 / 6 * (a / 2) <= sin (a / 2)) by (set (e := a / 2) in *; assert (0 <= e) by (unfold e; lra); clearbody e; clear - L E1 H0; nra).
  clear - L2 SQ AP; nra.
Qed.

Lemma acos_fine x y d : 0 <= x <= PI -> 0 <= y <= PI -> Rabs (cos x - cos y) <= d -> d <= 1.2e-15 -> 1e-6 <= sin y ->
  Rabs (x - y) * sin y <= 1.05 * d.
Proof.
  intros X Y H D SY. assert (R := acos_rough x y d X Y H ltac:(lra)). assert (G := cos_gap x y d X Y H).
  assert (AP := Rabs_pos (x - y)). assert (A1 : Rabs (x - y) <= 6e-8) by (clear - R AP D; nra).
  assert (SM : sin y - Rabs (x - y) / 2 <= sin ((x + y) / 2)).
  { assert (T := sin_lip ((x + y) / 2) y). replace ((x + y) / 2 - y) with ((x - y) / 2) in T by field.
    replace (Rabs ((x - y) / 2)) with (Rabs (x - y) / 2) in T.
    2:{ unfold Rdiv. rewrite Rabs_mult, (Rabs_pos_eq (/ 2)); lra. }
    apply Rabs_le_inv in T. lra. }
  set (a := Rabs (x - y)) in *. clearbody a.
  assert (L := sin_lower (a / 2) ltac:(lra)).
  assert (L2 : 0.999 * (a / 2) <= sin (a / 2)) by (set (e := a / 2) in *; assert (0 <= e <= 0.01) by (unfold e; lra); clearbody e; clear - L H0; nra).
  assert (M : 0.97 * sin y <= sin ((x + y) / 2)) by lra.
  assert (K : 0.97 * sin y * (0.999 * (a / 2)) <= sin ((x + y) / 2) * sin (a / 2)) by (apply Rmult_le_compat; lra).
  clear - K G AP SY. nra.
Qed.

(** * The rounded cosine *)

Lemma dot_round a b : Rabs (v3_dot_b64 a b - dot a b) <= 3.4e-16 * (Rabs (x3 a * x3 b) + Rabs (y3 a * y3 b) + Rabs (z3 a * z3 b)) + 6e-60.
Proof.
  unfold v3_dot_b64, dot. generalize (x3 a * x3 b) (y3 a * y3 b) (z3 a * z3 b). intros x y z.
  assert (BX := b64_fine x). assert (BY := b64_fine y). assert (BZ := b64_fine z).
  set (X := b64 x) in *. set (Y := b64 y) in *. set (Z := b64 z) in *.
  assert (B1 := b64_fine (X + Y)). set (T := b64 (X + Y)) in *. assert (B2 := b64_fine (T + Z)). set (U := b64 (T + Z)) in *.
  clearbody X Y Z T U.
  assert (PX := Rabs_pos x). assert (PY := Rabs_pos y). assert (PZ := Rabs_pos z).
  assert (QX : Rabs X <= Rabs x * 1.001 + 1e-60) by (clear - BX PX; split_Rabs; lra).
  assert (QY : Rabs Y <= Rabs y * 1.001 + 1e-60) by (clear - BY PY; split_Rabs; lra).
  assert (TX : Rabs X <= Rabs x + Rabs (X - x)) by (clear; split_Rabs; lra).
  assert (TY : Rabs Y <= Rabs y + Rabs (Y - y)) by (clear; split_Rabs; lra).
  assert (TZ : Rabs Z <= Rabs z + Rabs (Z - z)) by (clear; split_Rabs; lra).
  assert (T1 := Rabs_triang X Y). assert (T2 : Rabs T <= Rabs (X + Y) + Rabs (T - (X + Y))) by (clear; split_Rabs; lra).
  assert (T3 := Rabs_triang T Z).
  assert (F : Rabs (U - (x + y + z)) <= Rabs (U - (T + Z)) + Rabs (T - (X + Y)) + Rabs (X - x) + Rabs (Y - y) + Rabs (Z - z)).
  { replace (U - (x + y + z)) with ((U - (T + Z)) + (T - (X + Y)) + (X - x) + (Y - y) + (Z - z)) by ring.
    do 4 (eapply Rle_trans; [apply Rabs_triang|]; apply Rplus_le_compat_r). lra. }
  lra.
Qed.

Lemma abs_dot a b : Rabs (x3 a * x3 b) + Rabs (y3 a * y3 b) + Rabs (z3 a * z3 b) <= norm a * norm b.
Proof.
  assert (C := cauchy_schwarz_norm (V3 (Rabs (x3 a)) (Rabs (y3 a)) (Rabs (z3 a))) (V3 (Rabs (x3 b)) (Rabs (y3 b)) (Rabs (z3 b)))).
  assert (E : forall a, norm (V3 (Rabs (x3 a)) (Rabs (y3 a)) (Rabs (z3 a))) = norm a).
  { intros c. unfold norm, dot. cbn [x3 y3 z3]. f_equal. rewrite <- !Rabs_mult. rewrite !Rabs_pos_eq; auto; nra. }
  rewrite !E in C. unfold dot in C. cbn [x3 y3 z3] in C. rewrite !Rabs_mult. apply C.
Qed.

Lemma cosine_round a b : 1e-15 <= norm a -> 1e-15 <= norm b ->
  exists q, pdiv_b64 (v3_dot_b64 a b) (b64 (v3_magnitude_b64 a * v3_magnitude_b64 b)) = Ok q /\
  Rabs (q - cos_arg a b) <= 1.17e-15.
Proof.
  intros A B. assert (NA := mag_near a A). assert (NB := mag_near b B).
  assert (N0 : 1e-30 <= norm a * norm b) by (clear - A B; nra).
  assert (NM := near_mul 2.9 2.9 _ _ _ _ ltac:(lra) ltac:(lra) NA NB).
  assert (NR := near_round (2.9 + 2.9 + 0.01) _ _ ltac:(lra) NM ltac:(rewrite Rabs_pos_eq; lra)).
  assert (DR := dot_round a b). assert (AD := abs_dot a b). assert (CS := cauchy_schwarz_norm a b).
  unfold cos_arg. set (M := b64 (v3_magnitude_b64 a * v3_magnitude_b64 b)) in *. set (N := norm a * norm b) in *.
  set (D := v3_dot_b64 a b) in *. set (d := dot a b) in *. set (S := Rabs (x3 a * x3 b) + _ + _) in *. clearbody M N D d S.
  assert (NR' := near_abs (2.9 + 2.9 + 0.01 + 1.14) M N ltac:(lra) NR).
  assert (M0 : 0 < M) by lra.
  assert (E1 : Rabs (D - d) <= 3.41e-16 * N) by lra.
  assert (E2 : Rabs (M - N) <= 6.96e-16 * N) by (apply Rabs_le; lra).
  assert (DV : Rabs (D / M - d / N) <= 1.04e-15).
  { replace (D / M - d / N) with (((D - d) * N - d * (M - N)) / (M * N)) by (field; lra).
    unfold Rdiv. rewrite Rabs_mult, Rabs_inv, (Rabs_pos_eq (M * N)) by nra.
    apply Rmult_le_reg_r with (M * N); [nra|]. rewrite Rmult_assoc, Rinv_l, Rmult_1_r by nra.
    assert (T : Rabs ((D - d) * N - d * (M - N)) <= Rabs (D - d) * N + N * Rabs (M - N)).
    { replace ((D - d) * N - d * (M - N)) with ((D - d) * N + - (d * (M - N))) by ring. eapply Rle_trans; [apply Rabs_triang|].
      rewrite Rabs_Ropp, !Rabs_mult, (Rabs_pos_eq N) by lra. assert (Rabs d <= N) by (apply Rabs_le; lra). assert (P := Rabs_pos (M - N)). nra. }
    assert (T2 : Rabs (D - d) * N + N * Rabs (M - N) <= 1.037e-15 * (N * N)) by nra.
    assert (T3 : (1 - 7e-16) * (N * N) <= M * N) by (clear - NR' N0; nra). assert (0 <= N * N) by nra. clear - T T2 T3 H. lra. }
  exists (b64 (D / M)). split.
  { unfold pdiv_b64, pdiv, neq. destruct (Req_EM_T M 0); [lra|reflexivity]. }
  assert (C1 : Rabs (d / N) <= 1).
  { unfold Rdiv. rewrite Rabs_mult, Rabs_inv, (Rabs_pos_eq N) by lra. apply Rmult_le_reg_r with N; [lra|].
    rewrite Rmult_assoc, Rinv_l by lra. assert (Rabs d <= N) by (apply Rabs_le; lra). lra. }
  apply (err_round _ _ _ 1 1.17e-15 DV C1). lra.
Qed.

Lemma angle_round acosf a b t : accurate_acos acosf -> ordinary a -> ordinary b ->
  0 <= t <= PI -> norm a * norm b * cos t = dot a b ->
  exists t', v3_angle_b64 acosf a b = Ok t' /\ Rabs (t' - t) <= 6e-8 /\ (1e-6 <= sin t -> Rabs (t' - t) <= 2e-15 / sin t).
Proof.
  intros AC [A _] [B _] T G. destruct (cosine_round a b A B) as [q [Eq Q]].
  assert (N0 : 1e-30 <= norm a * norm b) by (clear - A B; nra).
  assert (CT : cos_arg a b = cos t) by (unfold cos_arg; rewrite <- G; field; split; lra). rewrite CT in Q.
  unfold v3_angle_b64. rewrite Eq. cbn [bind].
  set (q' := if nlt 1 q then 1 else if nlt q (-1) then -1 else q).
  assert (C := COS_bound t).
  assert (Q' : -1 <= q' <= 1 /\ Rabs (q' - cos t) <= 1.17e-15).
  { unfold q', nlt. destruct (Rlt_dec 1 q); [|destruct (Rlt_dec q (-1))]; split; try lra; apply Rabs_le_inv in Q; apply Rabs_le; lra. }
  destruct Q' as [R Q']. clearbody q'. exists (acosf q'). split.
  { unfold nlt. destruct (Rlt_dec q' (-1)), (Rlt_dec 1 q'); try lra. reflexivity. }
  assert (AB := acos_bound q'). rewrite <- (cos_acos q') in Q' by lra.
  assert (RO := acos_rough (acos q') t _ AB T Q' ltac:(lra)). assert (F := AC q' R).
  assert (TR : Rabs (acosf q' - t) <= 4.5e-16 + Rabs (acos q' - t)).
  { replace (acosf q' - t) with ((acosf q' - acos q') + (acos q' - t)) by ring. eapply Rle_trans; [apply Rabs_triang|]. lra. }
  assert (AP := Rabs_pos (acos q' - t)). split.
  - assert (Rabs (acos q' - t) <= 5.9e-8) by (clear - RO AP; nra). lra.
  - intros SY. assert (FI := acos_fine (acos q') t _ AB T Q' ltac:(lra) SY). assert (SB := SIN_bound t).
    apply Rmult_le_reg_r with (sin t); [lra|]. unfold Rdiv. rewrite Rmult_assoc, Rinv_l by lra.
    assert (Rabs (acosf q' - t) * sin t <= (4.5e-16 + Rabs (acos q' - t)) * sin t) by (apply Rmult_le_compat_r; lra). lra.
Qed.

(** * Concrete angles *)

Definition earg a b := FDiv (edot a b) (FMul (emag a) (emag b)).
Lemma arg_calc a b : sgn (FMul (emag a) (emag b)) = Some Gt ->
  pdiv_b64 (v3_dot_b64 (ev a) (ev b)) (b64 (v3_magnitude_b64 (ev a) * v3_magnitude_b64 (ev b))) = Ok (exact (earg a b)).
Proof. intros H. exact (div_exact (edot a b) (FMul (emag a) (emag b)) H). Qed.

Lemma angle_calc acosf a b v : sgn (FMul (emag a) (emag b)) = Some Gt -> exact (earg a b) = v -> -1 <= v <= 1 ->
  v3_angle_b64 acosf (ev a) (ev b) = Ok (acosf v).
Proof.
  intros H E R. unfold v3_angle_b64. rewrite arg_calc by auto. cbn [bind]. rewrite E. unfold nlt.
  destruct (Rlt_dec 1 v); [lra|]. destruct (Rlt_dec v (-1)); [lra|]. destruct (Rlt_dec v (-1)); [lra|]. destruct (Rlt_dec 1 v); [lra|]. reflexivity.
Qed.

Definition e120 := EV (FZ 1) (FZ 2) (FZ 0).
Definition e100 := EV (FZ 1) (FZ 0) (FZ 0).
Definition eoff := EV (FZ 1073741824) (FZ 1) (FZ 0).

Lemma exact_tick : exact (FDiv (FZ 4503599627370495) (FZ 4503599627370496)) = 1 - 1 / 4503599627370496.
Proof.
  change (exact (FDiv (FZ 4503599627370495) (FZ 4503599627370496))) with (b64 (exact (FZ 4503599627370495) / exact (FZ 4503599627370496))).
  rewrite !exact_Z by lia.
  replace (4503599627370495 / 4503599627370496) with (IZR 4503599627370495 * bpow radix2 (-52)).
  2:{ change (bpow radix2 (-52)) with (/ 4503599627370496). lra. }
  rewrite b64_dyadic by lia. change (bpow radix2 (-52)) with (/ 4503599627370496). lra.
Qed.

Lemma self_angle acosf : accurate_acos acosf -> exists t,
  v3_angle_b64 acosf (V3 1 2 0) (V3 1 2 0) = Ok t /\ 2e-8 <= t.
Proof.
  intros AC. exists (acosf (1 - 1 / 4503599627370496)). split.
  - replace (V3 1 2 0) with (ev e120) by (unfold ev, e120; cbn [ex ey ez]; rewrite !exact_Z by lia; reflexivity).
    apply angle_calc; [vm_compute; reflexivity| |lra].
    rewrite <- exact_tick. apply feq_spec. vm_compute. reflexivity.
  - assert (F := AC (1 - 1 / 4503599627370496) ltac:(lra)). apply Rabs_le_inv in F.
    assert (2.05e-8 <= acos (1 - 1 / 4503599627370496)); [|lra].
    apply Rnot_lt_le. intros C. assert (AB := acos_bound (1 - 1 / 4503599627370496)). assert (P := PI_RGT_0). assert (P2 := PI2_1).
    assert (L := cos_decreasing_1 _ 2.05e-8 (proj1 AB) (proj2 AB) ltac:(lra) ltac:(lra) C). rewrite cos_acos in L by lra.
    assert (CL := cos_lower 2.05e-8). lra.
Qed.

Lemma lost_angle acosf : accurate_acos acosf -> exists t,
  v3_angle_b64 acosf (V3 1 0 0) (V3 1073741824 1 0) = Ok t /\ t <= 1e-15.
Proof.
  intros AC. exists (acosf 1). split.
  - replace (V3 1 0 0) with (ev e100) by (unfold ev, e100; cbn [ex ey ez]; rewrite !exact_Z by lia; reflexivity).
    replace (V3 1073741824 1 0) with (ev eoff) by (unfold ev, eoff; cbn [ex ey ez]; rewrite !exact_Z by lia; reflexivity).
    apply angle_calc; [vm_compute; reflexivity| |lra].
    rewrite <- (exact_Z 1) by lia. apply feq_spec. vm_compute. reflexivity.
  - assert (F := AC 1 ltac:(lra)). rewrite acos_1 in F. apply Rabs_le_inv in F. lra.
Qed.

Lemma lost_true t : 0 <= t <= PI -> norm (V3 1 0 0) * norm (V3 1073741824 1 0) * cos t = dot (V3 1 0 0) (V3 1073741824 1 0) -> 9e-10 <= t.
Proof.
  intros T H. apply Rnot_lt_le. intros C. assert (CL := cos_lower t).
  assert (N1 := norm_sq3 (V3 1 0 0)). assert (N2 := norm_sq3 (V3 1073741824 1 0)). unfold dot in H. cbn [x3 y3 z3] in *.
  assert (P1 : 0 <= norm (V3 1 0 0)) by apply sqrt_pos. assert (P2 : 0 <= norm (V3 1073741824 1 0)) by apply sqrt_pos.
  set (n := norm (V3 1 0 0)) in *. set (m := norm (V3 1073741824 1 0)) in *. clearbody n m.
  assert (n = 1) by nra. subst n.
  assert (1073741824.0000000004 <= m) by nra.
  assert (t * t <= 8.1e-19) by nra. nra.
Qed.

(** * Pointing straight at a target *)

Lemma pointed_close v : 1e-15 <= norm v -> norm v <= 1e30 -> exists u, v3_normalized_b64 v = Ok u /\ 0.9 <= norm u <= 1.1 /\
  norm u * norm v * (1 - 4.1e-16) <= dot u v.
Proof.
  intros A AU. assert (M := mag_near v A). assert (M' := near_abs 2.9 _ (norm v) ltac:(lra) M).
  unfold v3_normalized_b64, pdiv_b64, pdiv, neq. set (m := v3_magnitude_b64 v) in *. set (n := norm v) in *.
  assert (M0 : 0 < m) by lra. destruct (Req_EM_T m 0); [lra|]. cbn [bind].
  assert (KN : ElementsFloatProofs.near 4.1 (b64 (1 / m)) (1 / n)).
  { apply near_weaken with (0 + 2.9 + 0.02 + 1.14); [|lra]. apply near_round; [lra| |].
    - apply near_div; try lra. apply near_refl. exact M.
    - rewrite Rabs_pos_eq. apply Rmult_le_reg_r with n; [lra|]. replace (1 / n * n) with 1 by (field; lra). lra.
      left. apply Rdiv_lt_0_compat; lra. }
  set (k := b64 (1 / m)) in *. assert (I0 : 0 < 1 / n) by (apply Rdiv_lt_0_compat; lra).
  assert (K := near_abs 4.1 k (1 / n) ltac:(lra) KN).
  assert (KP : 0.99 <= k * n <= 1.01).
  { assert (E : 1 / n * n = 1) by (field; lra). clear - K E A. 
    assert (B1 : (1 / n - 4.1 * 1e-16 * (1 / n)) * n <= k * n) by (apply Rmult_le_compat_r; lra).
    assert (B2 : k * n <= (1 / n + 4.1 * 1e-16 * (1 / n)) * n) by (apply Rmult_le_compat_r; lra).
    replace ((1 / n - 4.1 * 1e-16 * (1 / n)) * n) with ((1 - 4.1 * 1e-16) * (1 / n * n)) in B1 by ring.
    replace ((1 / n + 4.1 * 1e-16 * (1 / n)) * n) with ((1 + 4.1 * 1e-16) * (1 / n * n)) in B2 by ring. rewrite E in *. lra. }
  assert (K0 : 0 < k) by (clear - KP A; nra).
  set (u := V3 (b64 (x3 v * k)) (b64 (y3 v * k)) (b64 (z3 v * k))). exists u. split; auto.
  assert (N2 := norm_sq3 v). fold n in N2.
  assert (CO : forall c, Rabs c <= n -> Rabs (b64 (c * k) - k * c) <= 1.13e-16 * (k * n)).
  { intros c C. assert (F := b64_fine (c * k)). rewrite Rabs_mult, (Rabs_pos_eq k) in F by lra. replace (k * c) with (c * k) by ring.
    assert (Rabs c * k <= n * k) by (apply Rmult_le_compat_r; lra). clear - F H KP. nra. }
  assert (CB : Rabs (x3 v) <= n /\ Rabs (y3 v) <= n /\ Rabs (z3 v) <= n).
  { assert (0 <= n) by lra. repeat split; apply Rsqr_le_abs_0_alt || idtac; apply Rabs_le; clear - N2 H; split; nra. }
  assert (DN : norm (sub u (scale k v)) <= 1.97e-16 * (k * n)).
  { destruct CB as [CX [CY CZ]]. eapply Rle_trans; [apply (norm_parts _ (1.13e-16 * (k * n)))|].
    all: unfold u, sub, scale; cbn [x3 y3 z3]; first [apply CO; assumption | nra]. }
  assert (NK : norm (scale k v) = k * n) by (rewrite norm_scale, Rabs_pos_eq; auto; lra).
  assert (T1 : norm u <= k * n + 1.97e-16 * (k * n)).
  { assert (T := norm_triangle (scale k v) (sub u (scale k v))). replace (add (scale k v) (sub u (scale k v))) with u in T by (unfold u; destruct v; unfold add, sub, scale; cbn; f_equal; ring). lra. }
  assert (T2 : k * n <= norm u + 1.97e-16 * (k * n)).
  { assert (T := norm_triangle u (sub (scale k v) u)). replace (add u (sub (scale k v) u)) with (scale k v) in T by (unfold u; destruct v; unfold add, sub, scale; cbn; f_equal; ring).
    assert (E : norm (sub (scale k v) u) = norm (sub u (scale k v))) by (unfold norm, dot, sub; cbn [x3 y3 z3]; f_equal; ring). lra. }
  split; [lra|].
  assert (D : dot u v = k * (n * n) + dot (sub u (scale k v)) v).
  { rewrite N2. unfold dot, sub, scale. cbn [x3 y3 z3]. ring. }
  assert (C := cauchy_schwarz_norm (sub u (scale k v)) v). fold n in C. rewrite D.
  assert (B : norm (sub u (scale k v)) * n <= 1.97e-16 * (k * n) * n) by (apply Rmult_le_compat_r; lra).
  assert (B2 : norm u * n <= (k * n + 1.97e-16 * (k * n)) * n) by (apply Rmult_le_compat_r; lra).
  assert (0 <= k * n * n) by nra. clear - C B B2 H. lra.
Qed.

Lemma pointed_angle acosf v : accurate_acos acosf -> ordinary v -> exists u t,
  v3_normalized_b64 v = Ok u /\ v3_angle_b64 acosf u v = Ok t /\ t <= 1e-7.
Proof.
  intros AC O. assert (O' := O). destruct O' as [A AU]. destruct (pointed_close v A AU) as [u [E [N D]]]. exists u.
  assert (OU : ordinary u) by (unfold ordinary; lra).
  assert (NV : v <> zero3). { intros Z. rewrite Z in A. unfold norm, dot, zero3 in A. cbn [x3 y3 z3] in A. replace (0 * 0 + 0 * 0 + 0 * 0) with 0 in A by ring. rewrite sqrt_0 in A. lra. }
  assert (NU : u <> zero3). { intros Z. rewrite Z in N. unfold norm, dot, zero3 in N. cbn [x3 y3 z3] in N. replace (0 * 0 + 0 * 0 + 0 * 0) with 0 in N by ring. rewrite sqrt_0 in N. lra. }
  destruct (angle_spec u v NU NV) as [s [_ [S [C _]]]].
  destruct (angle_round acosf u v s AC OU O S C) as [t [T [R _]]]. exists t. split; auto. split; auto.
  assert (N0 : 0 < norm u * norm v) by nra.
  assert (CC : 1 - 4.1e-16 <= cos s). { rewrite <- C in D. apply Rmult_le_reg_l with (norm u * norm v); auto. }
  assert (CB := COS_bound s). assert (P := PI_RGT_0).
  assert (Q := acos_rough s 0 4.1e-16 S ltac:(lra) ltac:(rewrite cos_0; apply Rabs_le; lra) ltac:(lra)).
  rewrite Rminus_0_r, (Rabs_pos_eq s) in Q by lra. assert (s <= 3.5e-8) by (clear - Q S; nra). apply Rabs_le_inv in R. lra.
Qed.
