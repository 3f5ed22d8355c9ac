From Coq Require Import Reals ZArith Lra Lia Bool Psatz.
From Flocq Require Import Core.
From Coquelicot Require Import Coquelicot.
From Verif.Model Require Import Num Constants Linalg Time States TimeFloat ElementsFloat PositionsFloat.
From Verif.Spec Require Import Geometry LibmAccuracy.
From Verif.Proofs Require Import NumLemmas LinalgProofs CelestialProofs StatesProofs TimeFloatProofs ElementsFloatProofs StateFloatProofs VectorFloatProofs PiDigits Analysis GaussProofs.
From Verif.Model Require Import FrameFloat.
From Verif.Spec Require Import FrameFloat.
Local Open Scope R_scope.

(** * Vectors close in length *)
Definition verr (d : R) (u' u : vec3) : Prop := norm (sub u' u) <= d.

Lemma verr_trans d e a b c : verr d a b -> verr e b c -> verr (d + e) a c.
Proof.
  unfold verr. intros A B. assert (T := norm_triangle (sub a b) (sub b c)).
  replace (add (sub a b) (sub b c)) with (sub a c) in T by (unfold add, sub; cbn; f_equal; ring). lra.
Qed.
Lemma verr_weaken d e a b : verr d a b -> d <= e -> verr e a b.
Proof. unfold verr. lra. Qed.
Lemma verr_norm d a b : verr d a b -> norm b - d <= norm a <= norm b + d.
Proof.
  unfold verr. intros A. assert (B := norm_sub_ge a b). assert (C := norm_sub_ge b a). rewrite norm_sub_sym in C. lra.
Qed.
Lemma norm_ge_xyz a : Rabs (x3 a) <= norm a /\ Rabs (y3 a) <= norm a /\ Rabs (z3 a) <= norm a.
Proof. assert (N := norm_sq3 a). assert (P := norm_nonneg a). repeat split; apply Rabs_le; split; nra. Qed.

Lemma unit_round v : 1e-15 <= norm v -> norm v <= 1e30 -> exists u, v3_normalized_b64 v = Ok u /\ verr 6.2e-16 u (scale (/ norm v) v).
Proof.
  intros A AU. assert (M := mag_near v A). assert (M' := near_abs 2.9 _ (norm v) ltac:(lra) M).
  unfold v3_normalized_b64, pdiv_b64, pdiv, neq. set (m := v3_magnitude_b64 v) in *. set (n := norm v) in *.
  assert (M0 : 0 < m) by lra. destruct (Req_EM_T m 0); [lra|]. cbn [bind].
  assert (KN : ElementsFloatProofs.near 4.1 (b64 (1 / m)) (1 / n)).
  { apply near_weaken with (0 + 2.9 + 0.02 + 1.14); [|lra]. apply near_round; [lra| |].
    - apply near_div; try lra. apply near_refl. exact M.
    - rewrite Rabs_pos_eq. apply Rmult_le_reg_r with n; [lra|]. replace (1 / n * n) with 1 by (field; lra). lra.
      left. apply Rdiv_lt_0_compat; lra. }
  set (k := b64 (1 / m)) in *. assert (I0 : 0 < 1 / n) by (apply Rdiv_lt_0_compat; lra).
  assert (K := near_abs 4.1 k (1 / n) ltac:(lra) KN).
  assert (E : 1 / n * n = 1) by (field; lra).
  assert (KP : 1 - 4.1e-16 <= k * n <= 1 + 4.1e-16).
  { clear - K E A. 
    assert (B1 : (1 / n - 4.1 * 1e-16 * (1 / n)) * n <= k * n) by (apply Rmult_le_compat_r; lra).
    assert (B2 : k * n <= (1 / n + 4.1 * 1e-16 * (1 / n)) * n) by (apply Rmult_le_compat_r; lra).
    replace ((1 / n - 4.1 * 1e-16 * (1 / n)) * n) with ((1 - 4.1 * 1e-16) * (1 / n * n)) in B1 by ring.
    replace ((1 / n + 4.1 * 1e-16 * (1 / n)) * n) with ((1 + 4.1 * 1e-16) * (1 / n * n)) in B2 by ring. rewrite E in *. lra. }
  assert (K0 : 0 < k) by (clear - KP A; nra).
  set (u := V3 (b64 (x3 v * k)) (b64 (y3 v * k)) (b64 (z3 v * k))). exists u. split; auto.
  assert (CO : forall c, Rabs c <= n -> Rabs (b64 (c * k) - k * c) <= 1.13e-16 * (k * n)).
  { intros c C. assert (F := b64_fine (c * k)). rewrite Rabs_mult, (Rabs_pos_eq k) in F by lra. replace (k * c) with (c * k) by ring.
    assert (Rabs c * k <= n * k) by (apply Rmult_le_compat_r; lra). clear - F H KP. nra. }
  destruct (norm_ge_xyz v) as [CX [CY CZ]]. fold n in CX, CY, CZ.
  assert (DN : verr 1.97e-16 u (scale k v)).
  { unfold verr. eapply Rle_trans; [apply (norm_parts _ (1.13e-16 * (k * n)))|].
    all: unfold u, sub, scale; cbn [x3 y3 z3]; first [apply CO; assumption | lra]. }
  apply verr_weaken with (1.97e-16 + 4.1e-16); [|lra]. apply (verr_trans _ _ _ (scale k v)); auto.
  unfold verr. replace (sub (scale k v) (scale (/ n) v)) with (scale (k - / n) v) by (unfold sub, scale; cbn; f_equal; ring).
  rewrite norm_scale. fold n. rewrite <- (Rabs_pos_eq n) at 2 by lra. rewrite <- Rabs_mult. replace ((k - / n) * n) with (k * n - 1) by (field; lra). apply Rabs_le. lra.
Qed.

Lemma cross_round a b : 1e-6 <= norm a * norm b -> verr (3.9e-16 * (norm a * norm b)) (v3_cross_b64 a b) (cross a b).
Proof.
  intros H. assert (PA := norm_nonneg a). assert (PB := norm_nonneg b). assert (NA := norm_sq3 a). assert (NB := norm_sq3 b).
  unfold verr. set (R := norm a) in *. set (V := norm b) in *. apply Rle_trans with (1.7321 * (2.25e-16 * (R * V))); [|lra].
  apply norm_parts; [lra| | |]; unfold v3_cross_b64, sub, cross; destruct a as [a1 a2 a3], b as [b1 b2 b3]; cbn [x3 y3 z3] in *; apply cross_part; auto; try lra; clear - NA NB; nra.
Qed.

Lemma unit_close a b : 0 < norm a -> 0 < norm b -> verr (2 * norm (sub a b) / norm b) (scale (/ norm a) a) (scale (/ norm b) b).
Proof.
  intros A B. set (d := norm (sub a b)). unfold verr.
  replace (sub (scale (/ norm a) a) (scale (/ norm b) b)) with (add (scale (/ norm b) (sub a b)) (scale (/ norm a - / norm b) a)) by (unfold sub, add, scale; cbn; f_equal; ring).
  eapply Rle_trans; [apply norm_triangle|]. rewrite !norm_scale. fold d. rewrite (Rabs_pos_eq (/ norm b)) by (left; apply Rinv_0_lt_compat; auto).
  assert (E : Rabs (/ norm a - / norm b) * norm a <= d / norm b).
  { rewrite <- (Rabs_pos_eq (norm a)) at 2 by lra. rewrite <- Rabs_mult. replace ((/ norm a - / norm b) * norm a) with ((norm b - norm a) / norm b) by (field; lra).
    unfold Rdiv. rewrite Rabs_mult, (Rabs_pos_eq (/ norm b)) by (left; apply Rinv_0_lt_compat; auto). apply Rmult_le_compat_r; [left; apply Rinv_0_lt_compat; auto|].
    unfold d. assert (C := norm_sub_ge a b). assert (D := norm_sub_ge b a). rewrite norm_sub_sym in D. apply Rabs_le. lra. }
  unfold Rdiv in *. lra.
Qed.

Lemma cross_close da db a' a b' b : verr da a' a -> verr db b' b -> verr (da * norm b' + norm a * db) (cross a' b') (cross a b).
Proof.
  unfold verr. intros A B. replace (sub (cross a' b') (cross a b)) with (add (cross (sub a' a) b') (cross a (sub b' b))) by (unfold sub, add, cross; cbn; f_equal; ring).
  eapply Rle_trans; [apply norm_triangle|]. assert (C1 := cross_norm_le (sub a' a) b'). assert (C2 := cross_norm_le a (sub b' b)).
  assert (P1 := norm_nonneg b'). assert (P2 := norm_nonneg a).
  assert (norm (sub a' a) * norm b' <= da * norm b') by (apply Rmult_le_compat_r; auto). assert (norm a * norm (sub b' b) <= norm a * db) by (apply Rmult_le_compat_l; auto). lra.
Qed.

Lemma dot_err d u' u p U : verr d u' u -> norm u' <= U -> 0 <= d -> err ((3.4e-16 * U + d) * norm p + 6e-60) (v3_dot_b64 u' p) (dot u p).
Proof.
  intros A B D. unfold err. assert (R := dot_round u' p). assert (C := abs_dot u' p). assert (P := norm_nonneg p).
  replace (v3_dot_b64 u' p - dot u p) with ((v3_dot_b64 u' p - dot u' p) + dot (sub u' u) p) by (unfold dot, sub; cbn; ring).
  eapply Rle_trans; [apply Rabs_triang|]. assert (CS := cauchy_schwarz_norm (sub u' u) p). apply Rabs_le in CS.
  assert (norm u' * norm p <= U * norm p) by (apply Rmult_le_compat_r; auto). unfold verr in A. assert (norm (sub u' u) * norm p <= d * norm p) by (apply Rmult_le_compat_r; auto).
  lra.
Qed.

(** * The rounded frame *)
Lemma frame_round o : let R := norm (g_position o) in let V := norm (g_velocity o) in
  1 <= R <= 1e9 -> 1e-6 <= V <= 1e6 -> 0.1 * (R * V) <= norm (cross (g_position o) (g_velocity o)) ->
  exists r i c, HCW_frame_matrix_b64 o = Ok (M3 r i c) /\
    verr 6.2e-16 r (m3_row1 (frame o)) /\ verr 9.6e-15 i (m3_row2 (frame o)) /\ verr 8.5e-15 c (m3_row3 (frame o)).
Proof.
  intros R V HR HV HH. unfold HCW_frame_matrix_b64. destruct (unit_round (g_position o)) as [r [E1 Vr]]; [fold R; lra|fold R; lra|]. rewrite E1. cbn [bind].
  assert (RV : 1e-6 <= R * V <= 1e15) by (split; nra).
  assert (C := cross_round (g_position o) (g_velocity o) ltac:(fold R V; lra)). fold R V in C. set (h := cross (g_position o) (g_velocity o)) in *.
  set (h' := v3_cross_b64 (g_position o) (g_velocity o)) in *. assert (CN := verr_norm _ _ _ C).
  assert (HU : norm h <= R * V) by apply cross_norm_le.
  destruct (unit_round h') as [c [E2 Vc]]; [lra|lra|]. rewrite E2. cbn [bind]. exists r, (v3_cross_b64 c r), c. split; auto.
  assert (H0 : 0 < norm h) by lra.
  assert (VC : verr 8.5e-15 c (scale (/ norm h) h)).
  { apply verr_weaken with (6.2e-16 + 7.8e-15); [|lra]. eapply verr_trans; [exact Vc|]. eapply verr_weaken; [apply unit_close; lra|].
    apply Rmult_le_reg_r with (norm h); [lra|]. unfold Rdiv. rewrite Rmult_assoc, Rinv_l by lra. unfold verr in C. lra. }
  unfold frame. cbn [m3_row1 m3_row2 m3_row3]. fold h R. split; [exact Vr|]. split; [|exact VC].
  set (r0 := scale (/ R) (g_position o)) in *. set (c0 := scale (/ norm h) h) in *.
  assert (Nr : norm r0 = 1) by (unfold r0; rewrite norm_scale, Rabs_pos_eq by (left; apply Rinv_0_lt_compat; lra); fold R; field; lra).
  assert (Nc : norm c0 = 1) by (unfold c0; rewrite norm_scale, Rabs_pos_eq by (left; apply Rinv_0_lt_compat; lra); field; lra).
  assert (Br := verr_norm _ _ _ Vr). fold R r0 in Br. assert (Bc := verr_norm _ _ _ VC). rewrite Nr in Br. rewrite Nc in Bc.
  assert (PR : 0.99 <= norm c * norm r <= 1.001) by (split; nra).
  apply verr_weaken with (3.9e-16 * (norm c * norm r) + (8.5e-15 * norm r + norm c0 * 6.2e-16)); [|rewrite Nc; lra].
  eapply verr_trans; [apply cross_round; lra|]. apply cross_close; auto.
Qed.

(** the unit rows *)
Lemma frame_units o : ~ radial_orbit o -> norm (m3_row1 (frame o)) = 1 /\ norm (m3_row2 (frame o)) = 1 /\ norm (m3_row3 (frame o)) = 1.
Proof.
  intros H. destruct (frame_rotation o H) as (A & B & C & _). unfold norm. rewrite A, B, C, sqrt_1. auto.
Qed.

Lemma row_err e d u' u p : verr e u' u -> norm u <= 1.001 -> 0 <= e <= 1e-6 -> 1e-9 <= norm p -> 3.5e-16 + e <= d -> err (d * norm p) (v3_dot_b64 u' p) (dot u p).
Proof.
  intros A U E P D. assert (N := verr_norm _ _ _ A). eapply err_weaken; [apply (dot_err e _ _ _ 1.002); auto; lra|].
  assert ((3.4e-16 * 1.002 + e) * norm p + 6e-60 <= (3.5e-16 + e) * norm p) by lra. 
  assert ((3.5e-16 + e) * norm p <= d * norm p) by (apply Rmult_le_compat_r; lra). lra.
Qed.

(** * Quotients and inverse functions *)
Lemma err_divr dx k x' x y' y X d : err dx x' x -> Rabs x <= X -> 0 < y -> Rabs (y' - y) <= k * y -> 0 <= k <= 1e-6 -> 1e-30 * y <= X ->
  (dx + X * k) * 1.00001 + 1.121e-16 * X <= d -> y' <> 0 /\ err (d / y) (b64 (x' / y')) (x / y).
Proof.
  intros E XB Y YE K XY D. apply Rabs_le_inv in YE. assert (Y' : (1 - 1e-6) * y <= y') by nra. assert (Y0 : 0 < y') by nra. split; [lra|].
  assert (PX := Rabs_pos x). assert (PD := Rabs_pos (x' - x)). unfold err in E.
  assert (Q : err ((dx + X * k) * 1.000002 / y) (x' / y') (x / y)).
  { unfold err. replace (x' / y' - x / y) with (((x' - x) - x / y * (y' - y)) / y') by (field; lra). unfold Rdiv at 1. rewrite Rabs_mult, (Rabs_pos_eq (/ y')) by (left; apply Rinv_0_lt_compat; lra).
    apply Rmult_le_reg_r with y'; [lra|]. rewrite Rmult_assoc, Rinv_l, Rmult_1_r by lra.
    assert (A : Rabs (x' - x - x / y * (y' - y)) <= dx + X * k).
    { unfold Rminus at 1. eapply Rle_trans; [apply Rabs_triang|]. rewrite Rabs_Ropp. apply Rplus_le_compat; auto. unfold Rdiv. rewrite !Rabs_mult, (Rabs_pos_eq (/ y)) by (left; apply Rinv_0_lt_compat; lra).
      rewrite Rmult_assoc. apply Rmult_le_compat; auto; [apply Rmult_le_pos; [left; apply Rinv_0_lt_compat; lra|apply Rabs_pos]|].
      apply Rmult_le_reg_l with y; auto. rewrite <- Rmult_assoc, Rinv_r, Rmult_1_l by lra. apply Rabs_le. lra. }
    eapply Rle_trans; [exact A|]. assert (B : 0 <= dx + X * k) by (assert (0 <= X * k) by (apply Rmult_le_pos; lra); lra).
    replace ((dx + X * k) * 1.000002 / y * y') with ((dx + X * k) * (1.000002 * (y' / y))) by (field; lra).
    rewrite <- (Rmult_1_r (dx + X * k)) at 1. apply Rmult_le_compat_l; auto.
    apply Rmult_le_reg_r with y; auto. replace (1.000002 * (y' / y) * y) with (1.000002 * y') by (field; lra). lra. }
  assert (XY1 : Rabs (x / y) <= X / y).
  { unfold Rdiv. rewrite Rabs_mult, (Rabs_pos_eq (/ y)) by (left; apply Rinv_0_lt_compat; lra). apply Rmult_le_compat_r; auto. left; apply Rinv_0_lt_compat; lra. }
  assert (XY2 : 1e-30 <= X / y) by (apply Rmult_le_reg_r with y; auto; replace (X / y * y) with X by (field; lra); lra).
  eapply err_round; [exact Q|exact XY1|].
  set (q := (dx + X * k) * 1.000002 / y) in *.
  assert (Dq : q * 1.000001 + 1.1209e-16 * (X / y) <= d / y).
  { apply Rmult_le_reg_r with y; auto. replace (d / y * y) with d by (field; lra). unfold q.
    replace (((dx + X * k) * 1.000002 / y * 1.000001 + 1.1209e-16 * (X / y)) * y) with ((dx + X * k) * (1.000002 * 1.000001) + 1.1209e-16 * X) by (field; lra).
    assert (0 <= X * k) by (apply Rmult_le_pos; lra). lra. }
  assert (0 <= q) by (eapply Rle_trans; [apply Rabs_pos|exact Q]). lra.
Qed.

Lemma asin_close a b : Rabs a <= 0.88 -> Rabs b <= 0.88 -> Rabs (asin a - asin b) <= 2.13 * Rabs (a - b).
Proof.
  assert (K : forall a b, Rabs a <= 0.88 -> Rabs b <= 0.88 -> a < b -> 0 <= asin b - asin a <= 2.13 * (b - a)).
  { intros x y X Y L. apply Rabs_le_inv in X. apply Rabs_le_inv in Y.
    destruct (MVT_cor2 asin (fun x => / sqrt (1 - x ^ 2)) x y L) as [c [E C]].
    { intros c C. apply is_derive_Reals, asin_derive. lra. }
    rewrite E. assert (S : 0.47 <= sqrt (1 - c ^ 2)).
    { rewrite <- (sqrt_square 0.47) by lra. apply sqrt_le_1; nra. }
    split; [apply Rmult_le_pos; [left; apply Rinv_0_lt_compat|]; lra|]. apply Rmult_le_compat_r; [lra|].
    apply Rmult_le_reg_r with (sqrt (1 - c ^ 2)); [lra|]. rewrite Rinv_l by lra. lra. }
  intros A B. destruct (Rtotal_order a b) as [L|[->|L]].
  - assert (H := K a b A B L).
    rewrite Rabs_minus_sym, (Rabs_pos_eq (asin b - asin a)), Rabs_minus_sym, (Rabs_pos_eq (b - a)) by lra. lra.
  - rewrite !Rminus_eq_0, Rabs_R0. lra.
  - assert (H := K b a B A L).
    rewrite !Rabs_pos_eq by lra. lra.
Qed.

Lemma atan_close a b : Rabs (atan a - atan b) <= Rabs (a - b).
Proof.
  assert (K : forall a b, a < b -> atan b - atan a <= b - a).
  { intros x y L. destruct (MVT_cor2 atan (fun x => / (1 + x ^ 2)) x y L) as [c [E C]].
    { intros c C. apply derivable_pt_lim_atan. }
    rewrite E. assert (0 <= c ^ 2) by nra. assert (/ (1 + c ^ 2) <= 1).
    { apply Rmult_le_reg_r with (1 + c ^ 2); [lra|]. rewrite Rinv_l; lra. }
    assert (/ (1 + c ^ 2) * (y - x) <= 1 * (y - x)) by (apply Rmult_le_compat_r; lra). lra. }
  destruct (Rtotal_order a b) as [L|[->|L]].
  - assert (H := K a b L). assert (M := atan_increasing a b L). rewrite Rabs_minus_sym, (Rabs_pos_eq (atan b - atan a)), Rabs_minus_sym, (Rabs_pos_eq (b - a)) by lra. lra.
  - rewrite !Rminus_eq_0, Rabs_R0. lra.
  - assert (H := K b a L). assert (M := atan_increasing b a L). rewrite !Rabs_pos_eq by lra. lra.
Qed.

Lemma atan2_close dx dy y' y x' x p : 0 < p -> 0.5 * p <= x -> Rabs y <= p -> 0 <= dx <= 1e-6 -> 0 <= dy ->
  err (dx * p) x' x -> err (dy * p) y' y -> 0 < x' /\ Rabs (atan2 y' x' - atan2 y x) <= 2.00001 * dy + 4.00002 * dx.
Proof.
  intros P X Y DX DY EX EY. unfold err in *. apply Rabs_le_inv in EX. assert (X' : 0.499999 * p <= x') by nra. assert (X0 : 0 < x') by nra. split; auto.
  unfold atan2, nlt. destruct (Rlt_dec 0 x'); [|lra]. destruct (Rlt_dec 0 x) as [|n]; [|nra]. eapply Rle_trans; [apply atan_close|].
  replace (y' / x' - y / x) with (((y' - y) - y / x * (x' - x)) / x') by (field; lra).
  unfold Rdiv at 1. rewrite Rabs_mult, (Rabs_pos_eq (/ x')) by (left; apply Rinv_0_lt_compat; lra).
  apply Rmult_le_reg_r with x'; auto. rewrite Rmult_assoc, Rinv_l, Rmult_1_r by lra.
  assert (YX : Rabs (y / x) <= 2).
  { unfold Rdiv. rewrite Rabs_mult, (Rabs_pos_eq (/ x)) by (left; apply Rinv_0_lt_compat; lra). apply Rmult_le_reg_r with x; auto. rewrite Rmult_assoc, Rinv_l by lra. lra. }
  assert (A : Rabs (y' - y - y / x * (x' - x)) <= dy * p + 2 * (dx * p)).
  { unfold Rminus at 1. eapply Rle_trans; [apply Rabs_triang|]. rewrite Rabs_Ropp. apply Rplus_le_compat; auto. rewrite Rabs_mult. apply Rmult_le_compat; auto; try apply Rabs_pos. apply Rabs_le. lra. }
  eapply Rle_trans; [exact A|]. assert ((2.00001 * dy + 4.00002 * dx) * (0.499999 * p) <= (2.00001 * dy + 4.00002 * dx) * x') by (apply Rmult_le_compat_l; lra).
  assert (0 <= dy * p) by (apply Rmult_le_pos; lra). assert (0 <= dx * p) by (apply Rmult_le_pos; lra). nra.
Qed.
