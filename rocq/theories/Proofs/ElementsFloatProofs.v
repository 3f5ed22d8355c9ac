From Coq Require Import Reals ZArith Lra Psatz Lia.
From Flocq Require Import Core Relative.
From Verif.Model Require Import Num Constants Linalg Functions Time Celestial States Elements TimeFloat AngleFloat ElementsFloat.
From Verif.Spec Require Import Geometry Gravity Orbit.
From Verif.Properties Require Import ElementsProps.
From Verif.Proofs Require Import NumLemmas LinalgProofs CelestialProofs TimeFloatProofs AngleFloatProofs.
Local Open Scope R_scope.

(** * Relative errors in units of 1e-16 *)

Definition near (k x' x : R) : Prop := Rabs (x' - x) <= k * 1e-16 * Rabs x.

Lemma b64_fine x : Rabs (b64 x - x) <= 1.12e-16 * Rabs x + 1e-60.
Proof.
  destruct (error_N_FLT radix2 (-1074) 53 ltac:(lia) (fun n => negb (Z.even n)) x) as (e & d & He & Hd & _ & E).
  unfold b64. rewrite E. replace (x * (1 + e) + d - x) with (x * e + d) by ring.
  eapply Rle_trans; [apply Rabs_triang|]. rewrite Rabs_mult. assert (P := Rabs_pos x).
  apply Rplus_le_compat.
  - rewrite Rmult_comm. apply Rmult_le_compat_r; auto. eapply Rle_trans; [exact He|].
    change (bpow radix2 (- (53) + 1)) with (/ IZR 4503599627370496). lra.
  - eapply Rle_trans; [exact Hd|].
    apply Rle_trans with (bpow radix2 (-1074)); [generalize (bpow_gt_0 radix2 (-1074)); lra|].
    apply Rle_trans with (bpow radix2 (-200)); [apply bpow_le; lia|].
    change (bpow radix2 (-200)) with (/ IZR (2 ^ 200)). change (2 ^ 200)%Z with 1606938044258990275541962092341162602522202993782792835301376%Z. lra.
Qed.
Lemma b64_near x : 1e-40 <= Rabs x -> near 1.13 (b64 x) x.
Proof. intros H. unfold near. assert (B := b64_fine x). lra. Qed.
Lemma near_refl x : near 0 x x.
Proof. unfold near. rewrite Rminus_diag_eq, Rabs_R0 by auto. lra. Qed.
Lemma near_weaken k l x' x : near k x' x -> k <= l -> near l x' x.
Proof. unfold near. assert (P := Rabs_pos x). nra. Qed.
Lemma near_lower k x' x : 0 <= k <= 100 -> near k x' x -> 0.99 * Rabs x <= Rabs x'.
Proof. unfold near. intros K H. assert (P := Rabs_pos x). assert (T := Rabs_triang_inv x (x - x')). replace (x - (x - x')) with x' in T by ring.
  rewrite (Rabs_minus_sym x x') in T. nra. Qed.
Lemma near_upper k x' x : 0 <= k <= 100 -> near k x' x -> Rabs x' <= (1 + k * 1e-16) * Rabs x.
Proof. unfold near. intros K H. assert (T := Rabs_triang x (x' - x)). replace (x + (x' - x)) with x' in T by ring. lra. Qed.

Lemma near_round k x' x : 0 <= k <= 100 -> near k x' x -> 1e-39 <= Rabs x -> near (k + 1.14) (b64 x') x.
Proof.
  intros K H L. assert (Lo := near_lower k x' x K H). assert (Up := near_upper k x' x K H).
  assert (B := b64_near x' ltac:(lra)). unfold near in *.
  assert (T := Rabs_triang (b64 x' - x') (x' - x)). replace (b64 x' - x' + (x' - x)) with (b64 x' - x) in T by ring. nra.
Qed.

Lemma near_mul k l a' a b' b : 0 <= k <= 100 -> 0 <= l <= 100 -> near k a' a -> near l b' b -> near (k + l + 0.01) (a' * b') (a * b).
Proof.
  intros K L A B. assert (U := near_upper l b' b L B). unfold near in *. rewrite Rabs_mult.
  replace (a' * b' - a * b) with ((a' - a) * b' + a * (b' - b)) by ring.
  eapply Rle_trans; [apply Rabs_triang|]. rewrite !Rabs_mult.
  assert (PA := Rabs_pos a). assert (PB := Rabs_pos b). set (X := Rabs a) in *. set (Y := Rabs b) in *. set (da := Rabs (a' - a)) in *. set (db := Rabs (b' - b)) in *.
  assert (PDA : 0 <= da) by apply Rabs_pos. assert (PB' := Rabs_pos b').
  assert (XY : 0 <= X * Y) by nra.
  assert (E1 : da * Rabs b' <= (k * 1e-16 * X) * ((1 + l * 1e-16) * Y)) by (apply Rmult_le_compat; auto).
  assert (E2 : X * db <= X * (l * 1e-16 * Y)) by (apply Rmult_le_compat_l; auto).
  assert (KL : k * l * 1e-16 <= 1e-12) by nra.
  replace ((k * 1e-16 * X) * ((1 + l * 1e-16) * Y)) with ((k * 1e-16 + (k * l * 1e-16) * 1e-16) * (X * Y)) in E1 by ring.
  replace (X * (l * 1e-16 * Y)) with (l * 1e-16 * (X * Y)) in E2 by ring. nra.
Qed.

Lemma near_inv k b' b : 0 <= k <= 100 -> b <> 0 -> near k b' b -> near (k + 0.01) (/ b') (/ b).
Proof.
  intros K NZ H. assert (L := near_lower k b' b K H). assert (P := Rabs_pos_lt b NZ).
  assert (NZ' : b' <> 0) by (intros E; rewrite E, Rabs_R0 in L; lra).
  unfold near in *. rewrite Rabs_inv. replace (/ b' - / b) with (- (b' - b) * / b' * / b) by (field; auto).
  rewrite !Rabs_mult, Rabs_Ropp, !Rabs_inv.
  assert (Pi : 0 < / Rabs b) by now apply Rinv_0_lt_compat. apply Rmult_le_compat_r; [lra|].
  assert (L' : (1 - k * 1e-16) * Rabs b <= Rabs b').
  { assert (T := Rabs_triang_inv b (b - b')). replace (b - (b - b')) with b' in T by ring. rewrite (Rabs_minus_sym b b') in T. lra. }
  apply Rmult_le_reg_r with (Rabs b'); [lra|]. rewrite Rmult_assoc, Rinv_l, Rmult_1_r by lra.
  eapply Rle_trans; [exact H|]. set (X := Rabs b) in *.
  apply Rle_trans with ((k + 0.01) * 1e-16 * ((1 - k * 1e-16) * X)); [|apply Rmult_le_compat_l; lra].
  replace ((k + 0.01) * 1e-16 * ((1 - k * 1e-16) * X)) with ((k + 0.01) * (1 - k * 1e-16) * (1e-16 * X)) by ring.
  rewrite Rmult_assoc. apply Rmult_le_compat_r; [lra|]. nra.
Qed.

Lemma near_div k l a' a b' b : 0 <= k <= 100 -> 0 <= l <= 99 -> b <> 0 -> near k a' a -> near l b' b -> near (k + l + 0.02) (a' / b') (a / b).
Proof. intros K L NZ A B. unfold Rdiv. replace (k + l + 0.02) with (k + (l + 0.01) + 0.01) by lra. apply near_mul; auto; [lra|]. apply near_inv; auto; lra. Qed.

Lemma near_sqrt k x' x : 0 <= k <= 100 -> 0 < x -> near k x' x -> near (k / 2 + 0.01) (sqrt x') (sqrt x).
Proof.
  intros K P H. assert (L := near_lower k x' x K H). unfold near in *. rewrite (Rabs_pos_eq x) in * by lra.
  assert (P' : 0.98 * x <= x').
  { destruct (Rle_dec 0 x') as [A|A]; [rewrite (Rabs_pos_eq x') in L by lra; lra|]. rewrite Rabs_left1 in L by lra. rewrite Rabs_left in H by lra. nra. }
  assert (S := sqrt_lt_R0 x P). assert (S' := sqrt_lt_R0 x' ltac:(lra)). rewrite (Rabs_pos_eq (sqrt x)) by lra.
  assert (Q := sqrt_sqrt x ltac:(lra)). assert (Q' := sqrt_sqrt x' ltac:(lra)). set (s := sqrt x) in *. set (s' := sqrt x') in *.
  assert (E : Rabs (s' - s) * (s' + s) = Rabs (x' - x)).
  { rewrite <- Q, <- Q'. replace (s' * s' - s * s) with ((s' - s) * (s' + s)) by ring. rewrite Rabs_mult, (Rabs_pos_eq (s' + s)) by lra. auto. }
  assert (B : Rabs (s' - s) * (s' + s) <= k * 1e-16 * (s * s)) by (rewrite E, Q; auto).
  assert (D0 := Rabs_pos (s' - s)).
  (* first a rough bound *)
  assert (B0 : Rabs (s' - s) <= k * 1e-16 * s).
  { apply Rmult_le_reg_r with s; auto. nra. }
  assert (s - Rabs (s' - s) <= s') by (assert (T := Rle_abs (- (s' - s))); rewrite Rabs_Ropp in T; lra).
  set (d := Rabs (s' - s)) in *.
  assert (s' + s >= (2 - k * 1e-16) * s) by nra.
  apply Rmult_le_reg_r with ((2 - k * 1e-16) * s); [nra|].
  apply Rle_trans with (d * (s' + s)); [nra|]. eapply Rle_trans; [exact B|].
  replace ((k / 2 + 0.01) * 1e-16 * s * ((2 - k * 1e-16) * s)) with (((k / 2 + 0.01) * (2 - k * 1e-16)) * 1e-16 * (s * s)) by ring.
  replace (k * 1e-16 * (s * s)) with (k * (1e-16 * (s * s))) by ring. rewrite Rmult_assoc. apply Rmult_le_compat_r; nra.
Qed.

(** * Lengths and cross products *)

Lemma abs_split x y k : Rabs (x - y) <= k -> y - k <= x <= y + k.
Proof. intros H. unfold Rabs in H. destruct (Rcase_abs (x - y)); lra. Qed.
Lemma abs_join x y k : y - k <= x <= y + k -> Rabs (x - y) <= k.
Proof. intros H. unfold Rabs. destruct (Rcase_abs (x - y)); lra. Qed.
Lemma b64_pos_err x : 0 <= x -> x - (1.12e-16 * x + 1e-60) <= b64 x <= x + (1.12e-16 * x + 1e-60).
Proof. intros H. apply abs_split. assert (B := b64_fine x). rewrite (Rabs_pos_eq x) in B by auto. auto. Qed.
Lemma b64_pos x : 1e-39 <= x -> 0.99 * x <= b64 x <= 1.01 * x.
Proof. intros H. assert (B := b64_pos_err x ltac:(lra)). lra. Qed.

Lemma norm_sq3 a : norm a * norm a = x3 a * x3 a + y3 a * y3 a + z3 a * z3 a.
Proof. unfold norm. rewrite sqrt_sqrt; unfold dot; nra. Qed.

Lemma mag_near a : 1e-15 <= norm a -> near 2.9 (v3_magnitude_b64 a) (norm a).
Proof.
  intros H. unfold v3_magnitude_b64, v3_dot_b64. assert (N := norm_sq3 a). assert (N2 : 1e-30 <= norm a * norm a) by nra.
  destruct a as [x y z]. cbn [x3 y3 z3] in *.
  assert (PX : 0 <= x * x) by nra. assert (PY : 0 <= y * y) by nra. assert (PZ : 0 <= z * z) by nra.
  set (X := x * x) in *. set (Y := y * y) in *. set (Z := z * z) in *. set (n := norm _) in *.
  assert (BX := b64_pos_err X PX). assert (BY := b64_pos_err Y PY). assert (BZ := b64_pos_err Z PZ).
  assert (NX := b64_nonneg X PX). assert (NY := b64_nonneg Y PY). assert (NZ := b64_nonneg Z PZ).
  set (bx := b64 X) in *. set (bY := b64 Y) in *. set (bz := b64 Z) in *.
  assert (B1 := b64_pos_err (bx + bY) ltac:(lra)). assert (N1 := b64_nonneg (bx + bY) ltac:(lra)). set (t := b64 (bx + bY)) in *.
  assert (B2 := b64_pos_err (t + bz) ltac:(lra)). set (S := b64 (t + bz)) in *.
  assert (E : near 3.38 S (n * n)). { unfold near. rewrite (Rabs_pos_eq (n * n)) by lra. apply abs_join. lra. }
  assert (Q : near 1.7 (sqrt S) n).
  { replace n with (sqrt (n * n)) by (rewrite sqrt_square; lra). replace 1.7 with (3.38 / 2 + 0.01) by lra. apply near_sqrt; auto; lra. }
  replace 2.9 with (1.76 + 1.14) by lra. apply near_round; [lra| |rewrite Rabs_pos_eq; lra]. apply near_weaken with 1.7; auto; lra.
Qed.

Lemma two_products a b c d R V : 0 <= R -> 0 <= V -> a * a + b * b <= R * R -> c * c + d * d <= V * V -> Rabs (a * d) + Rabs (b * c) <= R * V.
Proof.
  intros PR PV H1 H2. rewrite !Rabs_mult.
  assert (Ea : Rabs a * Rabs a = a * a) by (rewrite <- Rabs_mult; apply Rabs_pos_eq; nra).
  assert (Eb : Rabs b * Rabs b = b * b) by (rewrite <- Rabs_mult; apply Rabs_pos_eq; nra).
  assert (Ec : Rabs c * Rabs c = c * c) by (rewrite <- Rabs_mult; apply Rabs_pos_eq; nra).
  assert (Ed : Rabs d * Rabs d = d * d) by (rewrite <- Rabs_mult; apply Rabs_pos_eq; nra).
  rewrite <- Ea, <- Eb in H1. rewrite <- Ec, <- Ed in H2.
  set (A := Rabs a) in *. set (B := Rabs b) in *. set (C := Rabs c) in *. set (D := Rabs d) in *.
  assert (0 <= A) by apply Rabs_pos. assert (0 <= B) by apply Rabs_pos. assert (0 <= C) by apply Rabs_pos. assert (0 <= D) by apply Rabs_pos.
  apply Rsqr_incr_0_var; [|apply Rmult_le_pos; auto]. unfold Rsqr.
  assert (Q : (A * A + B * B) * (C * C + D * D) <= (R * R) * (V * V)) by (apply Rmult_le_compat; nra).
  assert (0 <= (A * C - B * D) * (A * C - B * D)) by apply Rle_0_sqr. nra.
Qed.

Lemma cross_part a b c d R V : 0 <= R -> 0 <= V -> 1e-6 <= R * V -> a * a + b * b <= R * R -> c * c + d * d <= V * V ->
  Rabs (b64 (b64 (a * d) - b64 (b * c)) - (a * d - b * c)) <= 2.25e-16 * (R * V).
Proof.
  intros PR PV RV H1 H2. assert (T := two_products a b c d R V PR PV H1 H2).
  assert (BP := b64_fine (a * d)). assert (BQ := b64_fine (b * c)). set (P := a * d) in *. set (Q := b * c) in *.
  set (bp := b64 P) in *. set (bq := b64 Q) in *. assert (B := b64_fine (bp - bq)). set (c' := b64 (bp - bq)) in *.
  assert (PP := Rabs_pos P). assert (PQ := Rabs_pos Q).
  assert (K : Rabs (bp - bq) <= Rabs P + Rabs Q + (Rabs (bp - P) + Rabs (bq - Q))).
  { replace (bp - bq) with (P + - Q + ((bp - P) + - (bq - Q))) by ring. eapply Rle_trans; [apply Rabs_triang|].
    apply Rplus_le_compat; (eapply Rle_trans; [apply Rabs_triang|]); rewrite Rabs_Ropp; lra. }
  replace (c' - (P - Q)) with ((c' - (bp - bq)) + ((bp - P) + - (bq - Q))) by ring.
  eapply Rle_trans; [apply Rabs_triang|]. assert (M := Rabs_triang (bp - P) (- (bq - Q))). rewrite Rabs_Ropp in M. lra.
Qed.

Lemma norm_parts d m : 0 <= m -> Rabs (x3 d) <= m -> Rabs (y3 d) <= m -> Rabs (z3 d) <= m -> norm d <= 1.7321 * m.
Proof.
  intros M X Y Z. apply Rsqr_incr_0_var; [|lra]. unfold Rsqr. rewrite norm_sq3.
  assert (forall t, Rabs t <= m -> t * t <= m * m). { intros t T. assert (A := Rabs_pos t). assert (t * t = Rabs t * Rabs t) by (rewrite <- Rabs_mult, Rabs_pos_eq; nra). nra. }
  assert (A1 := H _ X). assert (A2 := H _ Y). assert (A3 := H _ Z). nra.
Qed.

Lemma momentum_near r v : let R := norm r in let V := norm v in let h := norm (cross r v) in
  1e-3 <= R * V -> 1e-9 * (R * V) <= h ->
  let c := v3_cross_b64 r v in 1e-15 <= norm c /\ Rabs (v3_magnitude_b64 c - h) <= 6.84e-16 * (R * V) /\ 0 < v3_magnitude_b64 c.
Proof.
  intros R V h RV Hh c. assert (PR : 0 <= R) by apply norm_nonneg. assert (PV : 0 <= V) by apply norm_nonneg.
  assert (NR := norm_sq3 r). assert (NV := norm_sq3 v). fold R in NR. fold V in NV.
  assert (HRV : h <= R * V).
  { apply Rsqr_incr_0_var; [|nra]. unfold Rsqr. assert (L := lagrange r v). assert (NH := norm_sq3 (cross r v)). fold h in NH. unfold dot in L. rewrite <- NH, <- NR, <- NV in L. assert (0 <= dot r v * dot r v) by nra. unfold dot in *. nra. }
  assert (Ed : norm (sub c (cross r v)) <= 1.7321 * (2.25e-16 * (R * V))).
  { apply norm_parts; [nra| | |]; unfold c, v3_cross_b64, sub, cross; destruct r as [a1 a2 a3], v as [b1 b2 b3]; cbn [x3 y3 z3] in *; apply cross_part; auto; try lra; nra. }
  assert (T1 : Rabs (norm c - h) <= norm (sub c (cross r v))).
  { apply abs_join. assert (A := norm_triangle (cross r v) (sub c (cross r v))). assert (B := norm_triangle c (sub (cross r v) c)).
    replace (add (cross r v) (sub c (cross r v))) with c in A by (unfold add, sub; destruct c; cbn; f_equal; ring).
    replace (add c (sub (cross r v) c)) with (cross r v) in B by (unfold add, sub; destruct c; destruct (cross r v); cbn; f_equal; ring).
    replace (sub (cross r v) c) with (scale (-1) (sub c (cross r v))) in B by (unfold scale, sub; cbn; f_equal; ring).
    rewrite norm_scale in B. replace (Rabs (-1)) with 1 in B by (rewrite Rabs_left; lra). fold h in A, B. lra. }
  assert (T2 := abs_split _ _ _ T1). assert (Lo : 1e-15 <= norm c) by lra. split; auto.
  assert (M := mag_near c Lo). unfold near in M. rewrite (Rabs_pos_eq (norm c)) in M by lra. apply abs_split in M. split; [apply abs_join; lra|lra].
Qed.

(** * Semi-major axis and eccentricity *)

Lemma near_abs k x' x : 0 <= x -> near k x' x -> x - k * 1e-16 * x <= x' <= x + k * 1e-16 * x.
Proof. intros P H. unfold near in H. rewrite (Rabs_pos_eq x) in H by auto. now apply abs_split. Qed.

Lemma div_mul a b : b <> 0 -> a / b * b = a.
Proof. intros. field. auto. Qed.

Lemma axis_error R V mu r' v' mu' : 1000 <= R -> 1e-3 <= V -> 1e5 <= mu <= 1e6 -> near 2.9 r' R -> near 2.9 v' V -> near 1.13 mu' mu ->
  let X := 2 / R in let D := X - V * V / mu in 0 < D ->
  let D' := b64 (b64 (2 / r') - b64 (b64 (v' * v') / mu')) in Rabs (D' - D) <= 14.5e-16 * X.
Proof.
  intros HR HV Hmu Nr Nv Nm X D PD D'.
  assert (PX : 0 < X) by (apply Rdiv_lt_0_compat; lra). set (Y := V * V / mu) in *.
  assert (VV : 1e-6 <= V * V) by nra. assert (PY : 1e-12 <= Y).
  { unfold Y. apply Rle_trans with (1e-6 / mu); [|apply Rmult_le_compat_r; [apply Rlt_le, Rinv_0_lt_compat|]; lra].
    apply Rmult_le_reg_r with mu; [lra|]. rewrite div_mul by lra. lra. }
  assert (YX : Y < X) by (unfold D in PD; lra).
  assert (NX : near 4.07 (b64 (2 / r')) X).
  { replace 4.07 with (2.93 + 1.14) by lra. apply near_round; [lra| |rewrite Rabs_pos_eq; lra].
    apply near_weaken with (0 + 2.9 + 0.02); [|lra]. apply near_div; try lra; auto. apply near_refl. }
  assert (NV : near 6.96 (b64 (v' * v')) (V * V)).
  { replace 6.96 with (5.82 + 1.14) by lra. apply near_round; [lra| |rewrite Rabs_pos_eq; lra].
    apply near_weaken with (2.9 + 2.9 + 0.01); [|lra]. apply near_mul; auto; lra. }
  assert (NY : near 9.26 (b64 (b64 (v' * v') / mu')) Y).
  { replace 9.26 with (8.12 + 1.14) by lra. apply near_round; [lra| |rewrite Rabs_pos_eq; lra].
    apply near_weaken with (6.96 + 1.13 + 0.02); [|lra]. unfold Y. apply near_div; auto; lra. }
  unfold D'. set (X' := b64 (2 / r')) in *. set (Y' := b64 (_ / mu')) in *.
  apply near_abs in NX; [|lra]. apply near_abs in NY; [|lra].
  assert (B := b64_fine (X' - Y')).
  assert (A : Rabs (X' - Y') <= 1.01 * X). { replace (X' - Y') with (X' - Y' - 0) by ring. apply abs_join. lra. }
  assert (1e-12 < X) by lra. apply abs_split in B. apply abs_join. unfold D. lra.
Qed.

Lemma ecc_error R V mu h r' v' mu' h' : 1000 <= R -> 1e-3 <= V -> 1e5 <= mu <= 1e6 -> near 2.9 r' R -> near 2.9 v' V -> near 1.13 mu' mu ->
  1e-9 * (R * V) <= h <= R * V -> 1e-10 < h' -> Rabs (h' - h) <= 6.84e-16 * (R * V) ->
  let X := 2 / R in let D := X - V * V / mu in 1e-7 <= D ->
  let D' := b64 (b64 (2 / r') - b64 (b64 (v' * v') / mu')) in let a' := b64 (1 / D') in
  let p' := b64 (b64 (h' * h') / mu') in let q' := b64 (p' / a') in let f' := b64 (1 - q') in
  0 < D' /\ 0 < a' <= 1.1e7 /\ 0 <= q' /\ 400 <= a' /\
  Rabs (a' - / D) <= 1e-14 * (/ D * / D / R) /\ Rabs (f' - (1 - h * h / mu * D)) <= 90e-16.
Proof.
  intros HR HV Hmu Nr Nv Nm Hh Hh' Eh X D PD D' a' p' q' f'.
  assert (ED : Rabs (D' - D) <= 14.5e-16 * X) by (apply (axis_error R V mu r' v' mu'); auto; fold X D; lra).
  assert (PX : 0 < X <= 2e-3).
  { split; [apply Rdiv_lt_0_compat; lra|]. unfold X. apply Rmult_le_reg_r with R; [lra|]. rewrite div_mul by lra. lra. }
  assert (PY : 0 < V * V / mu) by (apply Rdiv_lt_0_compat; nra). assert (DX : D < X) by (unfold D; lra).
  apply abs_split in ED. assert (PD' : 0.9e-7 <= D' <= 2.1e-3) by lra.
  assert (XR : X * R = 2) by (unfold X; field; lra).
  assert (I1 : 450 <= / D' <= 1.09e7).
  { split; [apply Rmult_le_reg_r with D'; [lra|]; rewrite Rinv_l by lra; lra|]. apply Rmult_le_reg_r with D'; [lra|]. rewrite Rinv_l by lra. lra. }
  assert (Na : near 1.13 a' (/ D')). { unfold a'. replace (1 / D') with (/ D') by (field; lra). apply b64_near. rewrite Rabs_pos_eq; lra. }
  assert (Na' := near_abs 1.13 a' (/ D') ltac:(lra) Na).
  assert (Pa : 0 < a' <= 1.1e7) by lra.
  split; [lra|]. split; [auto|].
  (* h'^2 *)
  set (RV := R * V) in *. assert (PRV : 1 <= RV) by (unfold RV; nra).
  apply abs_split in Eh.
  assert (H2 : Rabs (h' * h' - h * h) <= 13.7e-16 * (RV * RV)).
  { replace (h' * h' - h * h) with ((h' - h) * (h' + h)) by ring. rewrite Rabs_mult, (Rabs_pos_eq (h' + h)) by lra.
    assert (Rabs (h' - h) <= 6.84e-16 * RV) by (apply abs_join; lra). assert (h' + h <= 2.001 * RV) by lra.
    apply Rle_trans with (6.84e-16 * RV * (2.001 * RV)); [apply Rmult_le_compat; try lra; apply Rabs_pos|nra]. }
  set (P := RV * RV / mu). assert (PP : 0 < P) by (apply Rdiv_lt_0_compat; nra).
  assert (Hq : 1e-20 < h' * h') by nra.
  assert (Hm : 1e-26 < h' * h' / mu). { apply Rmult_lt_reg_r with mu; [lra|]. rewrite div_mul by lra. lra. }
  assert (Np : near 3.44 p' (h' * h' / mu)).
  { unfold p'. replace 3.44 with (2.3 + 1.14) by lra. apply near_round; [lra| |rewrite Rabs_pos_eq; lra].
    apply near_weaken with (1.13 + 1.13 + 0.02); [|lra]. apply near_div; auto; try lra. apply b64_near. rewrite Rabs_pos_eq; lra. }
  apply near_abs in Np; [|lra].
  assert (H2' : Rabs (h' * h' / mu - h * h / mu) <= 13.7e-16 * P).
  { replace (h' * h' / mu - h * h / mu) with ((h' * h' - h * h) * / mu) by (field; lra). rewrite Rabs_mult, (Rabs_pos_eq (/ mu)) by (apply Rlt_le, Rinv_0_lt_compat; lra).
    replace (13.7e-16 * P) with (13.7e-16 * (RV * RV) * / mu) by (unfold P; rewrite Rmult_assoc; reflexivity). apply Rmult_le_compat_r; [apply Rlt_le, Rinv_0_lt_compat; lra|auto]. }
  set (p := h * h / mu) in *. assert (Pp : 0 < p <= P).
  { split; [apply Rdiv_lt_0_compat; nra|]. unfold p, P, Rdiv. apply Rmult_le_compat_r; [apply Rlt_le, Rinv_0_lt_compat; lra|nra]. }
  apply abs_split in H2'. set (p2 := h' * h' / mu) in *.
  assert (Ep : p - 17.2e-16 * P <= p' <= p + 17.2e-16 * P) by lra.
  assert (PD1 : P * D <= 1).
  { assert (E : P * D = 1 - (1 - R * (V * V / mu)) ^ 2). { unfold P, D, X, RV. field. lra. } rewrite E. assert (0 <= (1 - R * (V * V / mu)) ^ 2) by apply pow2_ge_0. lra. }
  assert (PX4 : P * X <= 4).
  { assert (E : P * X = 2 * (R * (V * V / mu))) by (unfold P, X, RV; field; lra). rewrite E. assert (R * (V * V / mu) <= 2); [|lra].
    apply Rle_trans with (R * X); [apply Rmult_le_compat_l; unfold D in PD; lra|]. lra. }
  assert (EPD : p * D - 75.4e-16 <= p' * D' <= p * D + 75.4e-16).
  { assert (A1 : Rabs (p' - p) <= 17.2e-16 * P) by (apply abs_join; lra). assert (A2 : Rabs (D' - D) <= 14.5e-16 * X) by (apply abs_join; lra).
    assert (A3 : P * D' <= 1.001). { assert (P * D' <= P * (D + 14.5e-16 * X)) by (apply Rmult_le_compat_l; lra). lra. }
    apply abs_split. replace (p' * D' - p * D) with ((p' - p) * D' + p * (D' - D)) by ring. eapply Rle_trans; [apply Rabs_triang|].
    rewrite !Rabs_mult, (Rabs_pos_eq D'), (Rabs_pos_eq p) by lra.
    assert (C1 : Rabs (p' - p) * D' <= 17.2e-16 * P * D') by (apply Rmult_le_compat_r; lra).
    assert (C2 : p * Rabs (D' - D) <= P * (14.5e-16 * X)) by (apply Rmult_le_compat; try lra; apply Rabs_pos). lra. }
  assert (Pp' : 1e-27 < p'). { (* p' close to p2 *) assert (0.99 * p2 <= p') by lra. lra. }
  assert (PD2 : 0 < p * D <= 1) by (split; [apply Rmult_lt_0_compat; lra|apply Rle_trans with (P * D); [apply Rmult_le_compat_r; lra|auto]]).
  assert (Lo : 1e-35 < p' * D'). { assert (1e-27 * 0.9e-7 <= p' * D') by (apply Rmult_le_compat; lra). lra. }
  assert (Nq : near 2.33 q' (p' * D')).
  { unfold q'. replace 2.33 with (1.19 + 1.14) by lra. apply near_round; [lra| |rewrite Rabs_pos_eq; lra].
    replace (p' * D') with (p' / / D') by (field; lra). apply near_weaken with (0 + 1.13 + 0.02); [|lra]. apply near_div; try lra; auto. apply near_refl. }
  apply near_abs in Nq; [|lra].
  split; [lra|]. split; [lra|]. split.
  - (* semi-major axis *)
    assert (QD : Rabs (/ D' - / D) <= 14.6e-16 * X * (/ D * / D)).
    { replace (/ D' - / D) with ((D - D') * (/ D' * / D)) by (field; lra). rewrite Rabs_mult, (Rabs_pos_eq (/ D' * / D)).
      2:{ apply Rmult_le_pos; apply Rlt_le, Rinv_0_lt_compat; lra. }
      assert (A2 : Rabs (D - D') <= 14.5e-16 * X) by (rewrite Rabs_minus_sym; apply abs_join; lra).
      assert (ID : 0 < / D) by (apply Rinv_0_lt_compat; lra).
      assert (I2 : / D' <= 1.001 * / D).
      { apply Rmult_le_reg_r with (D' * D); [nra|]. replace (/ D' * (D' * D)) with D by (field; lra). replace (1.001 * / D * (D' * D)) with (1.001 * D') by (field; lra). lra. }
      apply Rle_trans with (14.5e-16 * X * (1.001 * / D * / D)); [|assert (0 <= X * (/ D * / D)) by (apply Rmult_le_pos; [lra|apply Rmult_le_pos; lra]); lra].
      apply Rmult_le_compat; try apply Rabs_pos; auto; [apply Rmult_le_pos; lra|]. apply Rmult_le_compat_r; lra. }
    set (A := / D) in *. assert (PA : 0 < A) by (unfold A; apply Rinv_0_lt_compat; lra).
    assert (RA : R <= 2 * A). { unfold A. apply Rmult_le_reg_r with D; [lra|]. rewrite Rmult_assoc, Rinv_l by lra. assert (D * R <= X * R) by (apply Rmult_le_compat_r; lra). lra. }
    assert (XA : X * (A * A) = 2 * (A * A / R)) by (unfold X; field; lra).
    assert (AR : A <= 2 * (A * A / R)). { apply Rmult_le_reg_r with R; [lra|]. replace (2 * (A * A / R) * R) with (2 * (A * A)) by (field; lra). nra. }
    apply abs_split in QD. rewrite Rmult_assoc, XA in QD. apply abs_join. set (W := A * A / R) in *. assert (0 < W) by (apply Rdiv_lt_0_compat; nra). lra.
  - unfold f'. assert (B := b64_fine (1 - q')). assert (Q1 : Rabs (1 - q') <= 1.001). { replace (1 - q') with (1 - q' - 0) by ring. apply abs_join. lra. }
    apply abs_split in B. apply abs_join. lra.
Qed.

Lemma div_ok x y : y <> 0 -> pdiv_b64 x y = Ok (b64 (x / y)).
Proof. intros H. unfold pdiv_b64, pdiv, neq. destruct (Req_EM_T y 0); [contradiction|reflexivity]. Qed.
Lemma sqrt_ok x : 0 <= x -> psqrt_b64 x = Ok (b64 (sqrt x)).
Proof. intros H. unfold psqrt_b64, psqrt, nlt. destruct (Rlt_dec x 0); [lra|reflexivity]. Qed.
Lemma sqrt_err x : x < 0 -> psqrt_b64 x = Err ValueError.
Proof. intros H. unfold psqrt_b64, psqrt, nlt. destruct (Rlt_dec x 0); [reflexivity|lra]. Qed.
Lemma b64_1 : b64 1 = 1.
Proof. apply (b64_IZR 1). lia. Qed.

Lemma mu_near : near 1.13 MU_b64 Earth_MU.
Proof. apply b64_near. unfold Earth_MU. rewrite Rabs_pos_eq; lra. Qed.

Lemma rounded_elements L t r v el :
  elements_from_ijk (State t r v) = Ok el -> bound_orbit r v ->
  1000 <= norm r -> 1e-3 <= norm v -> 1e-9 * (norm r * norm v) <= norm (momentum r v) -> semimajor_axis el <= 1e7 ->
  (exists el', elements_from_ijk_b64 L (State t r v) = Ok el' /\ el_epoch el' = t /\
     Rabs (semimajor_axis el' - semimajor_axis el) <= 1e-14 * (semimajor_axis el * semimajor_axis el / norm r) /\
     0 <= eccentricity el' <= 1 /\ Rabs (eccentricity el' ^ 2 - eccentricity el ^ 2) <= 1e-14) \/
  (elements_from_ijk_b64 L (State t r v) = Err ValueError /\ eccentricity el ^ 2 < 1e-14).
Proof.
  intros E BO HR HV Hh HA.
  destruct (C36_from_ijk (State t r v) BO) as (el0 & x & E0 & _ & A0 & Ee & En & Pm & _). rewrite E in E0. injection E0 as <-. cbn [s_position s_velocity] in *.
  set (R := norm r) in *. set (V := norm v) in *. set (h := norm (momentum r v)) in *.
  set (a := semimajor_axis el) in *. set (e := eccentricity el) in *.
  assert (MU : 1e5 <= Earth_MU <= 1e6) by (unfold Earth_MU; lra). change mu_earth with Earth_MU in *.
  set (D := 2 / R - V * V / Earth_MU).
  assert (DA : D = / a).
  { unfold orbital_energy in En. fold R V in En. change mu_earth with Earth_MU in En. unfold D. set (m := Earth_MU) in *.
    assert (Q : V * V = 2 * (m / R) - m / a). { apply Rmult_eq_reg_l with (/ 2); [|lra]. replace (/ 2 * (V * V)) with (V ^ 2 / 2) by field. replace (V ^ 2 / 2) with (- m / (2 * a) + m / R) by lra. field. lra. }
    rewrite Q. field. lra. }
  assert (PD : 1e-7 <= D). { rewrite DA. apply Rmult_le_reg_r with a; auto. rewrite Rinv_l by lra. lra. }
  assert (EE : e ^ 2 = 1 - h * h / Earth_MU * D).
  { rewrite DA. replace (h * h / Earth_MU) with (h ^ 2 / Earth_MU) by (f_equal; ring). rewrite <- Pm. field. lra. }
  assert (HRV : h <= R * V).
  { apply Rsqr_incr_0_var; [|nra]. unfold Rsqr. unfold h, R, V, momentum. rewrite !norm_sq3. destruct r as [r1 r2 r3], v as [v1 v2 v3]. cbn.
    unfold R, V in *. replace (norm (V3 r1 r2 r3) * norm (V3 v1 v2 v3) * (norm (V3 r1 r2 r3) * norm (V3 v1 v2 v3))) with ((norm (V3 r1 r2 r3) * norm (V3 r1 r2 r3)) * (norm (V3 v1 v2 v3) * norm (V3 v1 v2 v3))) by ring.
    rewrite !norm_sq3. cbn. assert (0 <= (r1 * v1 + r2 * v2 + r3 * v3) ^ 2) by apply pow2_ge_0. nra. }
  assert (RV1 : 1 <= R * V) by nra.
  destruct (momentum_near r v) as (Nc & Eh & Ph); fold R V; change (cross r v) with (momentum r v); fold h; try lra.
  fold R V in Eh. change (cross r v) with (momentum r v) in Eh. fold h in Eh.
  assert (Nr : near 2.9 (v3_magnitude_b64 r) R) by (apply mag_near; fold R; lra). assert (Nv : near 2.9 (v3_magnitude_b64 v) V) by (apply mag_near; fold V; lra).
  set (r' := v3_magnitude_b64 r) in *. set (v' := v3_magnitude_b64 v) in *. set (c := v3_cross_b64 r v) in *. set (h' := v3_magnitude_b64 c) in *.
  assert (Hh' : 1e-10 < h') by (apply abs_split in Eh; lra).
  destruct (ecc_error R V Earth_MU h r' v' MU_b64 h' HR HV MU Nr Nv mu_near (conj Hh HRV) Hh' Eh PD) as (PD' & Pa' & Pq & La & Ea & Ef).
  set (D' := b64 (b64 (2 / r') - b64 (b64 (v' * v') / MU_b64))) in *. set (a' := b64 (1 / D')) in *.
  set (p' := b64 (b64 (h' * h') / MU_b64)) in *. set (q' := b64 (p' / a')) in *. set (f' := b64 (1 - q')) in *.
  assert (Pr' : 0 < r') by (apply near_abs in Nr; lra).
  assert (Pm' : 1e4 < MU_b64 < 1e7) by (clear - MU; assert (Z : 0 <= Earth_MU) by lra; assert (N := near_abs _ _ _ Z mu_near); lra).
  fold D in Ea, Ef. rewrite <- EE in Ef. rewrite DA, Rinv_inv in Ea.
  assert (F1 : f' <= 1). { unfold f'. apply b64_below; [exact b64_1|]. lra. }
  unfold elements_from_ijk_b64. cbn [s_position s_velocity s_epoch]. fold r' v' c. unfold v3_normalized_b64. fold h'.
  rewrite div_ok by lra. cbn [bind]. unfold A_from_mu_r_v_b64. rewrite !div_ok by lra. cbn [bind]. fold D'. rewrite div_ok by lra. cbn [bind]. fold a'.
  unfold P_from_mu_h_b64. rewrite div_ok by lra. cbn [bind]. fold p'. unfold E_from_a_p_b64. rewrite div_ok by lra. cbn [bind]. fold q' f'.
  destruct (Rlt_dec f' 0) as [N|N].
  - right. rewrite sqrt_err by auto. split; [reflexivity|]. apply abs_split in Ef. lra.
  - left. rewrite sqrt_ok by lra. cbn [bind]. set (e' := b64 (sqrt f')).
    assert (Pe : 0 <= e'). { apply b64_nonneg, sqrt_pos. }
    assert (Pe1 : e' <= 1). { unfold e'. apply b64_below; [exact b64_1|]. rewrite <- sqrt_1. apply sqrt_le_1_alt. auto. }
    assert (Ee' : Rabs (e' * e' - f') <= 3e-16).
    { assert (S := b64_pos_err (sqrt f') (sqrt_pos _)). fold e' in S. assert (Q := sqrt_sqrt f' ltac:(lra)). assert (S0 := sqrt_pos f').
      assert (S1 : sqrt f' <= 1) by (rewrite <- sqrt_1; apply sqrt_le_1_alt; auto). set (s := sqrt f') in *. rewrite <- Q. replace (e' * e' - s * s) with ((e' - s) * (e' + s)) by ring.
      assert (Rabs (e' - s) <= 1.13e-16) by (apply abs_join; lra). rewrite Rabs_mult, (Rabs_pos_eq (e' + s)) by lra.
      apply Rle_trans with (1.13e-16 * 2); [apply Rmult_le_compat; try apply Rabs_pos; lra|lra]. }
    assert (A2b : 1.6e5 <= a' * a' <= 1.21e14) by (clear - La Pa'; split; nra).
    assert (A2 : 0.99 * (a' * a') <= b64 (a' * a') <= 1.01 * (a' * a')) by (apply b64_pos; lra). set (a2 := b64 (a' * a')) in *.
    assert (A2c : 1.5e5 <= a2 <= 1.23e14) by lra.
    assert (A3b : 1e7 <= a2 * a' <= 1.4e21) by (clear - A2c La Pa'; split; nra). assert (A3 : 0.99 * (a2 * a') <= b64 (a2 * a') <= 1.01 * (a2 * a')) by (apply b64_pos; lra). set (a3 := b64 (a2 * a')) in *.
    assert (Q3 : 1e-18 <= MU_b64 / a3).
    { apply Rmult_le_reg_r with a3; [lra|]. rewrite div_mul by lra. lra. }
    unfold N_from_a_mu_b64. fold a2 a3. rewrite div_ok by lra. cbn [bind]. assert (B3 : 0.99 * (MU_b64 / a3) <= b64 (MU_b64 / a3) <= 1.01 * (MU_b64 / a3)) by (apply b64_pos; lra). set (q3 := b64 (MU_b64 / a3)) in *.
    rewrite sqrt_ok by lra. cbn [bind]. assert (Sn : 1e-10 <= sqrt q3).
    { replace 1e-10 with (sqrt (1e-10 * 1e-10)) by (apply sqrt_square; lra). apply sqrt_le_1_alt. lra. }
    assert (Bn : 0.99 * sqrt q3 <= b64 (sqrt q3) <= 1.01 * sqrt q3) by (apply b64_pos; lra). set (n' := b64 (sqrt q3)) in *.
    unfold EA_from_rdv_r_a_n_b64. fold a2. assert (Bd : 0.9e-10 <= n') by lra. assert (Cn : 1e-10 <= a2 * n') by (clear - Bd A2c; nra). assert (Bc : 0.99 * (a2 * n') <= b64 (a2 * n') <= 1.01 * (a2 * n')) by (apply b64_pos; lra).
    rewrite !div_ok by lra. cbn [bind]. unfold NU_from_e_ea_b64.
    rewrite sqrt_ok.
    2:{ apply b64_nonneg. assert (b64 (e' * e') <= 1); [|lra]. apply b64_below; [exact b64_1|]. clear - Pe Pe1. nra. }
    cbn [bind]. eexists. split; [reflexivity|]. cbn [el_epoch semimajor_axis eccentricity]. split; [auto|]. split; [exact Ea|]. split; [lra|].
    apply abs_split in Ef. apply abs_split in Ee'. apply abs_join. replace (e' ^ 2) with (e' * e') by ring. lra.
Qed.
