(** Rounding errors of Hill propagation. *)
From Coq Require Import Reals ZArith Lra List.
From Flocq Require Import Core.Core.
From Verif.Model Require Import Num Constants Linalg Time Celestial States Relative TimeFloat AngleFloat ElementsFloat RelativeFloat.
From Verif.Spec Require Import Geometry Gravity Hill LibmAccuracy HillFloat.
From Verif.Proofs Require Import NumLemmas Analysis ElementsFloatProofs StateFloatProofs RelativeProofs.
Import ListNotations.
Local Open Scope R_scope.

(** * Sums of six products *)
Definition sum6 (a s : vec6) : R := Rabs (x6 a * x6 s) + Rabs (y6 a * y6 s) + Rabs (z6 a * z6 s) + Rabs (vx6 a * vx6 s) + Rabs (vy6 a * vy6 s) + Rabs (vz6 a * vz6 s).

Lemma add_round s s' x d S : Rabs (s' - s) <= d -> Rabs s <= S ->
  Rabs (b64 (s' + b64 x) - (s + x)) <= 1.0001 * d + 2.241e-16 * Rabs x + 1.12e-16 * S + 3e-60.
Proof.
  intros H1 H2. assert (A := b64_fine x). set (p := b64 x) in *. assert (B := b64_fine (s' + p)). set (q := b64 (s' + p)) in *.
  assert (Rabs (s' + p) <= S + d + 1.0001 * Rabs x + 1e-60).
  { replace (s' + p) with (s + (s' - s) + (x + (p - x))) by ring. eapply Rle_trans; [apply Rabs_triang|]. 
    assert (T1 := Rabs_triang s (s' - s)). assert (T2 := Rabs_triang x (p - x)). assert (P := Rabs_pos x). lra. }
  replace (q - (s + x)) with ((q - (s' + p)) + ((s' - s) + (p - x))) by ring.
  eapply Rle_trans; [apply Rabs_triang|]. assert (T := Rabs_triang (s' - s) (p - x)). assert (P := Rabs_pos x).
  assert (P2 := Rabs_pos (s' - s)). lra.
Qed.

Lemma dot6_round a s : Rabs (v6_dot_b64 a s - v6_dot a s) <= 7e-16 * sum6 a s + 1e-58.
Proof.
  unfold v6_dot_b64, v6_dot, sum6. destruct a as [a1 a2 a3 a4 a5 a6], s as [s1 s2 s3 s4 s5 s6]. cbn [x6 y6 z6 vx6 vy6 vz6].
  generalize (a1 * s1) (a2 * s2) (a3 * s3) (a4 * s4) (a5 * s5) (a6 * s6). clear. intros p1 p2 p3 p4 p5 p6.
  assert (H1 := b64_fine p1).
  assert (H2 := add_round p1 _ p2 _ _ H1 (Rle_refl _)).
  assert (S2 := Rabs_triang p1 p2).
  assert (H3 := add_round (p1 + p2) _ p3 _ _ H2 S2).
  assert (S3 := Rabs_triang (p1 + p2) p3).
  assert (H4 := add_round (p1 + p2 + p3) _ p4 _ (Rabs p1 + Rabs p2 + Rabs p3) H3 ltac:(lra)).
  assert (S4 := Rabs_triang (p1 + p2 + p3) p4).
  assert (H5 := add_round (p1 + p2 + p3 + p4) _ p5 _ (Rabs p1 + Rabs p2 + Rabs p3 + Rabs p4) H4 ltac:(lra)).
  assert (S5 := Rabs_triang (p1 + p2 + p3 + p4) p5).
  assert (H6 := add_round (p1 + p2 + p3 + p4 + p5) _ p6 _ (Rabs p1 + Rabs p2 + Rabs p3 + Rabs p4 + Rabs p5) H5 ltac:(lra)).
  assert (P1 := Rabs_pos p1). assert (P2 := Rabs_pos p2). assert (P3 := Rabs_pos p3). assert (P4 := Rabs_pos p4). assert (P5 := Rabs_pos p5). assert (P6 := Rabs_pos p6).
  eapply Rle_trans; [exact H6|]. lra.
Qed.

(** one row of the matrix: entries of position columns in units of [w], of
    velocity columns in units of [w / n] *)
Definition row_err (E A w n : R) (a' a : vec6) : Prop :=
  (err (E * w) (x6 a') (x6 a) /\ err (E * w) (y6 a') (y6 a) /\ err (E * w) (z6 a') (z6 a)) /\
  (err (E * (w * / n)) (vx6 a') (vx6 a) /\ err (E * (w * / n)) (vy6 a') (vy6 a) /\ err (E * (w * / n)) (vz6 a') (vz6 a)) /\
  (Rabs (x6 a) <= A * w /\ Rabs (y6 a) <= A * w /\ Rabs (z6 a) <= A * w) /\
  (Rabs (vx6 a) <= A * (w * / n) /\ Rabs (vy6 a) <= A * (w * / n) /\ Rabs (vz6 a) <= A * (w * / n)).

Lemma term a' a s E A W : err (E * W) a' a -> Rabs a <= A * W -> Rabs (a' * s - a * s) <= E * W * Rabs s /\ Rabs (a' * s) <= (A + E) * W * Rabs s.
Proof.
  intros H1 H2. assert (P := Rabs_pos s). split.
  - replace (a' * s - a * s) with ((a' - a) * s) by ring. rewrite Rabs_mult. apply Rmult_le_compat_r; auto.
  - rewrite Rabs_mult. apply Rmult_le_compat_r; auto. replace a' with (a + (a' - a)) by ring. eapply Rle_trans; [apply Rabs_triang|]. unfold err in H1. lra.
Qed.

Lemma abs_sum6 a b c d e f : Rabs (a + b + c + d + e + f) <= Rabs a + Rabs b + Rabs c + Rabs d + Rabs e + Rabs f.
Proof.
  assert (T1 := Rabs_triang (a + b + c + d + e) f). assert (T2 := Rabs_triang (a + b + c + d) e). assert (T3 := Rabs_triang (a + b + c) d).
  assert (T4 := Rabs_triang (a + b) c). assert (T5 := Rabs_triang a b). lra.
Qed.

Lemma row_bound E A w n a' a s : row_err E A w n a' a ->
  Rabs (v6_dot_b64 a' s - v6_dot a s) <= (E + 7e-16 * (A + E)) * w * hill_size n s + 1e-58.
Proof.
  intros ((X1 & X2 & X3) & (V1 & V2 & V3) & (A1 & A2 & A3) & (B1 & B2 & B3)).
  destruct (term _ _ (x6 s) _ _ _ X1 A1) as (T1 & U1). destruct (term _ _ (y6 s) _ _ _ X2 A2) as (T2 & U2). destruct (term _ _ (z6 s) _ _ _ X3 A3) as (T3 & U3).
  destruct (term _ _ (vx6 s) _ _ _ V1 B1) as (T4 & U4). destruct (term _ _ (vy6 s) _ _ _ V2 B2) as (T5 & U5). destruct (term _ _ (vz6 s) _ _ _ V3 B3) as (T6 & U6).
  assert (D := dot6_round a' s).
  replace (v6_dot_b64 a' s - v6_dot a s) with ((v6_dot_b64 a' s - v6_dot a' s) + (v6_dot a' s - v6_dot a s)) by ring.
  eapply Rle_trans; [apply Rabs_triang|].
  assert (S : Rabs (v6_dot a' s - v6_dot a s) <= E * w * hill_size n s).
  { unfold v6_dot. replace (_ - _) with ((x6 a' * x6 s - x6 a * x6 s) + (y6 a' * y6 s - y6 a * y6 s) + (z6 a' * z6 s - z6 a * z6 s) +
      (vx6 a' * vx6 s - vx6 a * vx6 s) + (vy6 a' * vy6 s - vy6 a * vy6 s) + (vz6 a' * vz6 s - vz6 a * vz6 s)) by ring.
    eapply Rle_trans; [apply abs_sum6|]. unfold hill_size, Rdiv. clear - T1 T2 T3 T4 T5 T6. lra. }
  assert (S6 : sum6 a' s <= (A + E) * w * hill_size n s). { unfold sum6, hill_size, Rdiv. clear - U1 U2 U3 U4 U5 U6. lra. }
  clear - D S S6. lra.
Qed.

(** * Entries *)
Lemma scaled d x' x X w' w : 0 <= d -> err d x' x -> Rabs x <= X -> rel 6.5e-16 w' w -> 1e-30 <= Rabs w -> 1 <= X ->
  err ((1.001 * d + 7.8e-16 * X) * Rabs w) (b64 (x' * w')) (x * w).
Proof.
  intros Hd Hx HX Hw W1 X1. assert (Wu := rel_upper _ _ _ Hw). unfold err, rel in *.
  assert (P : Rabs (x' * w' - x * w) <= (1.0001 * d + 6.5e-16 * X) * Rabs w).
  { replace (x' * w' - x * w) with ((x' - x) * w' + x * (w' - w)) by ring. eapply Rle_trans; [apply Rabs_triang|]. rewrite !Rabs_mult.
    assert (Rabs (x' - x) * Rabs w' <= d * (1.0001 * Rabs w)) by (apply Rmult_le_compat; try apply Rabs_pos; lra).
    assert (Rabs x * Rabs (w' - w) <= X * (6.5e-16 * Rabs w)) by (apply Rmult_le_compat; try apply Rabs_pos; lra). lra. }
  assert (Q : Rabs (x * w) <= X * Rabs w) by (rewrite Rabs_mult; apply Rmult_le_compat_r; [apply Rabs_pos|auto]).
  assert (B := b64_fine (x' * w')). assert (U : Rabs (x' * w') <= X * Rabs w + (1.0001 * d + 6.5e-16 * X) * Rabs w).
  { replace (x' * w') with (x * w + (x' * w' - x * w)) by ring. eapply Rle_trans; [apply Rabs_triang|]. lra. }
  replace (b64 (x' * w') - x * w) with ((b64 (x' * w') - x' * w') + (x' * w' - x * w)) by ring. eapply Rle_trans; [apply Rabs_triang|].
  assert (0 <= d * Rabs w) by (apply Rmult_le_pos; lra).
  assert (1 * Rabs w <= X * Rabs w) by (apply Rmult_le_compat_r; lra). lra.
Qed.

Lemma phase_err n n' t : rel 4e-16 n' n -> Rabs (n * t) <= 7.9 -> err (5.2e-16 * (1 + Rabs (n * t))) (b64 (n' * t)) (n * t) /\ Rabs (b64 (n' * t)) <= 8.
Proof.
  intros Hn Ht. unfold rel in Hn. assert (P := Rabs_pos (n * t)).
  assert (E : Rabs (n' * t - n * t) <= 4e-16 * Rabs (n * t)).
  { replace (n' * t - n * t) with ((n' - n) * t) by ring. rewrite !Rabs_mult, <- Rmult_assoc. apply Rmult_le_compat_r; [apply Rabs_pos|auto]. }
  assert (B := b64_fine (n' * t)). assert (U : Rabs (n' * t) <= 1.0001 * Rabs (n * t)).
  { replace (n' * t) with (n * t + (n' * t - n * t)) by ring. eapply Rle_trans; [apply Rabs_triang|]. lra. }
  assert (G : Rabs (b64 (n' * t) - n * t) <= 5.2e-16 * (1 + Rabs (n * t))).
  { replace (b64 (n' * t) - n * t) with ((b64 (n' * t) - n' * t) + (n' * t - n * t)) by ring. eapply Rle_trans; [apply Rabs_triang|]. lra. }
  split; [exact G|]. replace (b64 (n' * t)) with (n * t + (b64 (n' * t) - n * t)) by ring. eapply Rle_trans; [apply Rabs_triang|]. lra.
Qed.
Lemma sin_cos_err L n n' t : accurate_trig L -> rel 4e-16 n' n -> Rabs (n * t) <= 7.9 ->
  err (5.3e-16 * (1 + Rabs (n * t))) (sinf L (b64 (n' * t))) (sin (n * t)) /\ err (5.3e-16 * (1 + Rabs (n * t))) (cosf L (b64 (n' * t))) (cos (n * t)).
Proof.
  intros HL Hn Ht. unfold rel in Hn. assert (P := Rabs_pos (n * t)).
  assert (E : Rabs (n' * t - n * t) <= 4e-16 * Rabs (n * t)).
  { replace (n' * t - n * t) with ((n' - n) * t) by ring. rewrite !Rabs_mult, <- Rmult_assoc. apply Rmult_le_compat_r; [apply Rabs_pos|auto]. }
  assert (B := b64_fine (n' * t)). assert (U : Rabs (n' * t) <= 1.0001 * Rabs (n * t)).
  { replace (n' * t) with (n * t + (n' * t - n * t)) by ring. eapply Rle_trans; [apply Rabs_triang|]. lra. }
  assert (G : Rabs (b64 (n' * t) - n * t) <= 5.2e-16 * Rabs (n * t) + 1e-59).
  { replace (b64 (n' * t) - n * t) with ((b64 (n' * t) - n' * t) + (n' * t - n * t)) by ring. eapply Rle_trans; [apply Rabs_triang|]. lra. }
  destruct (phase_err n n' t Hn Ht) as (_ & B8). destruct (HL _ B8) as (S & C).
  assert (LS := sin_lip (b64 (n' * t)) (n * t)). assert (LC := cos_lip (b64 (n' * t)) (n * t)). unfold err. split.
  - replace (sinf L (b64 (n' * t)) - sin (n * t)) with ((sinf L (b64 (n' * t)) - sin (b64 (n' * t))) + (sin (b64 (n' * t)) - sin (n * t))) by ring.
    eapply Rle_trans; [apply Rabs_triang|]. lra.
  - replace (cosf L (b64 (n' * t)) - cos (n * t)) with ((cosf L (b64 (n' * t)) - cos (b64 (n' * t))) + (cos (b64 (n' * t)) - cos (n * t))) by ring.
    eapply Rle_trans; [apply Rabs_triang|]. lra.
Qed.

Lemma err_0 d : 0 <= d -> err d 0 0.
Proof. intros H. unfold err. rewrite Rminus_0_r, Rabs_R0. auto. Qed.
Lemma err_same d x : 0 <= d -> err d x x.
Proof. intros H. unfold err. rewrite Rminus_eq_0, Rabs_R0. auto. Qed.
Lemma err_const d x' x k X d' : err d x' x -> Rabs x <= X -> Rabs k * d + 1.12e-16 * (Rabs k * (X + d)) + 1e-60 <= d' -> err d' (b64 (k * x')) (k * x).
Proof.
  intros H HX Hd. apply err_round with (Rabs k * d) (Rabs k * X).
  - unfold err in *. rewrite <- Rmult_minus_distr_l, Rabs_mult. apply Rmult_le_compat_l; [apply Rabs_pos|auto].
  - rewrite Rabs_mult. apply Rmult_le_compat_l; [apply Rabs_pos|auto].
  - rewrite <- Rmult_plus_distr_l. auto.
Qed.
Lemma abs_num k : 0 <= k -> Rabs k = k. Proof. apply Rabs_pos_eq. Qed.
Lemma abs_neg k : 0 <= k -> Rabs (- k) = k. Proof. intros. rewrite Rabs_Ropp. apply Rabs_pos_eq; auto. Qed.

(** * The six rows *)
Definition exact_rows (n t : R) : mat66 := let S := sin (n * t) in let C := cos (n * t) in
  M66 (V6 (4 - 3 * C) 0 0 (S * (1 / n)) (2 * (1 - C) * (1 / n)) 0)
      (V6 (6 * (S - n * t)) 1 0 (-2 * (1 - C) * (1 / n)) ((4 * S - 3 * (n * t)) * (1 / n)) 0)
      (V6 0 0 C 0 0 (S * (1 / n)))
      (V6 (S * (3 * n)) 0 0 C (2 * S) 0)
      (V6 ((1 - C) * (-6 * n)) 0 0 (-2 * S) (4 * C - 3) 0)
      (V6 0 0 (S * - n) 0 0 C).

Lemma exact_motion n s t : n <> 0 -> m66_multiply_vector (exact_rows n t) s = motion n s t.
Proof.
  intros H. unfold m66_multiply_vector, exact_rows, motion, v6_dot. cbv zeta. cbn [m66_row1 m66_row2 m66_row3 m66_row4 m66_row5 m66_row6 x6 y6 z6 vx6 vy6 vz6].
  apply vec6_ext; cbn [x6 y6 z6 vx6 vy6 vz6]; field; auto.
Qed.

Lemma rows_err L n n' u' t : accurate_trig L -> rel 4e-16 n' n -> rel 5.2e-16 u' (1 / n) -> 1e-12 <= n <= 1e3 -> Rabs (n * t) <= 7.9 ->
  let M := 1 + Rabs (n * t) in let sn := sinf L (b64 (n' * t)) in let cs := cosf L (b64 (n' * t)) in
  row_err (6e-15 * M) 7 1 n (V6 (b64 (4 - b64 (3 * cs))) 0 0 (b64 (sn * u')) (b64 (b64 (2 * b64 (1 - cs)) * u')) 0) (m66_row1 (exact_rows n t)) /\
  row_err (1e-14 * M) (6 * M) 1 n (V6 (b64 (6 * b64 (sn - b64 (n' * t)))) 1 0 (b64 (b64 (-2 * b64 (1 - cs)) * u'))
            (b64 (b64 (b64 (4 * sn) - b64 (b64 (3 * n') * t)) * u')) 0) (m66_row2 (exact_rows n t)) /\
  row_err (2e-15 * M) 1 1 n (V6 0 0 cs 0 0 (b64 (sn * u'))) (m66_row3 (exact_rows n t)) /\
  row_err (5e-15 * M) 3 n n (V6 (b64 (b64 (3 * n') * sn)) 0 0 cs (b64 (2 * sn)) 0) (m66_row4 (exact_rows n t)) /\
  row_err (1.5e-14 * M) 12 n n (V6 (b64 (b64 (-6 * n') * b64 (1 - cs))) 0 0 (b64 (-2 * sn)) (b64 (b64 (4 * cs) - 3)) 0) (m66_row5 (exact_rows n t)) /\
  row_err (2e-15 * M) 1 n n (V6 0 0 (b64 (- n' * sn)) 0 0 cs) (m66_row6 (exact_rows n t)).
Proof.
  intros HL Hn Hu N Ht. cbv zeta. destruct (sin_cos_err L n n' t HL Hn Ht) as (Es & Ec). destruct (phase_err n n' t Hn Ht) as (Et & _).
  assert (P := Rabs_pos (n * t)). set (th := n * t) in *. set (th' := b64 (n' * t)) in *. set (M := 1 + Rabs th) in *.
  assert (M1 : 1 <= M <= 8.9) by (unfold M; lra). assert (TM : Rabs th <= M) by (unfold M; lra).
  set (sn := sinf L th') in *. set (cs := cosf L th') in *.
  assert (As := abs_sin th). assert (Ac := abs_cos th). set (s := sin th) in *. set (c := cos th) in *.
  assert (Bs := Rabs_le_inv _ _ As). assert (Bc := Rabs_le_inv _ _ Ac). assert (Bt := Rabs_le_inv _ _ TM).
  assert (U : 0 < 1 / n) by (apply Rdiv_lt_0_compat; lra). assert (Ua : Rabs (1 / n) = 1 / n) by (apply Rabs_pos_eq; lra).
  assert (Ul : 1e-30 <= Rabs (1 / n)).
  { rewrite Ua. apply Rle_trans with (1 / 1e3); [lra|]. unfold Rdiv. apply Rmult_le_compat_l; [lra|]. apply Rinv_le_contravar; lra. }
  assert (Hu2 : rel 6.5e-16 u' (1 / n)) by (unfold rel in *; eapply Rle_trans; [exact Hu|]; apply Rmult_le_compat_r; [apply Rabs_pos|lra]).
  assert (Na : Rabs n = n) by (apply Rabs_pos_eq; lra).
  assert (H3n : rel 5.2e-16 (b64 (3 * n')) (3 * n)).
  { apply rel_round with 4e-16; try lra; [|rewrite Rabs_mult, Na, Rabs_pos_eq by lra; lra].
    unfold rel in *. rewrite <- Rmult_minus_distr_l, !Rabs_mult, (Rabs_pos_eq 3) by lra. lra. }
  assert (H6n : rel 6.5e-16 (b64 (-6 * n')) (-6 * n)).
  { apply rel_round with 4e-16; try lra; [|rewrite Rabs_mult, Na, Rabs_left by lra; lra].
    unfold rel in *. rewrite <- Rmult_minus_distr_l, !Rabs_mult, (Rabs_left (-6)) by lra. lra. }
  assert (H3n2 : rel 6.5e-16 (b64 (3 * n')) (3 * n)) by (unfold rel in *; eapply Rle_trans; [exact H3n|]; apply Rmult_le_compat_r; [apply Rabs_pos|lra]).
  assert (Hn2 : rel 6.5e-16 (- n') (- n)).
  { unfold rel in *. replace (- n' - - n) with (- (n' - n)) by ring. rewrite !Rabs_Ropp. eapply Rle_trans; [exact Hn|]. apply Rmult_le_compat_r; [apply Rabs_pos|lra]. }
  (* 1 - cos *)
  assert (E1c : err (7.6e-16 * M) (b64 (1 - cs)) (1 - c)).
  { apply err_round with (5.3e-16 * M) 2; [|apply Rabs_le; lra|lra]. unfold err in *. replace (1 - cs - (1 - c)) with (- (cs - c)) by ring. rewrite Rabs_Ropp. auto. }
  assert (A1c : Rabs (1 - c) <= 2) by (apply Rabs_le; lra).
  assert (E21c : err (2e-15 * M) (b64 (2 * b64 (1 - cs))) (2 * (1 - c))).
  { apply err_const with (7.6e-16 * M) 2; auto. rewrite Rabs_pos_eq by lra. lra. }
  assert (E21n : err (2e-15 * M) (b64 (-2 * b64 (1 - cs))) (-2 * (1 - c))).
  { apply err_const with (7.6e-16 * M) 2; auto. rewrite Rabs_left by lra. lra. }
  assert (W1 : forall E x, 0 <= E -> err (E * (1 * / n)) 0 0 /\ err (E * 1) x x). { intros E x HE. split; [apply err_0|apply err_same]; [|lra]. apply Rmult_le_pos; auto. rewrite Rmult_1_l. apply Rlt_le, Rinv_0_lt_compat. lra. }
  assert (Wn : forall E x, 0 <= E -> err (E * (n * / n)) 0 0 /\ err (E * n) x x). { intros E x HE. split; [apply err_0|apply err_same]; apply Rmult_le_pos; auto; try lra. rewrite Rinv_r; lra. }
  assert (Wd : 1 * / n = 1 / n) by (unfold Rdiv; ring). assert (Wd2 : n * / n = 1) by (apply Rinv_r; lra).
  assert (MU : 1 * (1 / n) <= M * (1 / n)) by (apply Rmult_le_compat_r; lra).
  assert (MN : 1 * n <= M * n) by (apply Rmult_le_compat_r; lra).
  assert (Asu : forall x X, Rabs x <= X -> Rabs (x * (1 / n)) <= X * (1 / n)) by (intros; rewrite Rabs_mult, Ua; apply Rmult_le_compat_r; lra).
  assert (Esu : err (2e-15 * M * (1 / n)) (b64 (sn * u')) (s * (1 / n))).
  { eapply err_weaken; [apply scaled with (d := 5.3e-16 * M) (X := 1); auto; lra|]. rewrite Ua. lra. }
  repeat match goal with |- _ /\ _ => split end; unfold row_err, exact_rows; cbn [m66_row1 m66_row2 m66_row3 m66_row4 m66_row5 m66_row6 x6 y6 z6 vx6 vy6 vz6]; fold th; fold s c; rewrite ?Wd, ?Wd2.
  all: repeat match goal with |- _ /\ _ => split end.
  all: try (apply W1; lra).
  all: try (rewrite Rabs_R0; lra).
  all: try (apply err_0; lra).
  all: try (apply Asu; apply Rabs_le; lra).
  all: try (apply Rabs_le; lra).
  all: try (eapply err_weaken; [exact Ec|]; lra).
  all: try (eapply err_weaken; [exact Esu|]; lra).
  all: try (apply (err_const (5.3e-16 * M)) with 1; auto; rewrite ?(Rabs_left (-2)), ?(Rabs_pos_eq 2) by lra; lra).
  - apply err_round with (2.1e-15 * M) 7; [|apply Rabs_le; lra|lra].
    apply err_weaken with (0 + 2.1e-15 * M); [|lra]. apply err_sub; [apply err_same; lra|]. apply err_const with (5.3e-16 * M) 1; auto. rewrite Rabs_pos_eq by lra. lra.
  - eapply err_weaken; [apply scaled with (d := 2e-15 * M) (X := 4); auto; try lra; apply Rabs_le; lra|]. rewrite Ua. lra.
  - apply err_const with (1.2e-15 * M) (2 * M); [|apply Rabs_le; lra|rewrite Rabs_pos_eq by lra; lra].
    eapply err_subr; [exact Es|exact Et| |]; [instantiate (1 := M); apply Rabs_le; unfold M in *; assert (Q := Rabs_le_inv _ _ (Rle_refl (Rabs th))); lra|lra].
  - eapply err_weaken; [apply scaled with (d := 2e-15 * M) (X := 4); auto; try lra; apply Rabs_le; lra|]. rewrite Ua. lra.
  - assert (E3 : err (2e-15 * M) (b64 (b64 (3 * n') * t)) (3 * th)).
    { apply err_round with (1.6e-15 * M) (3 * M); [|apply Rabs_le; lra|lra]. unfold err, rel in *.
      replace (b64 (3 * n') * t - 3 * th) with ((b64 (3 * n') - 3 * n) * t) by (unfold th; ring). rewrite Rabs_mult.
      apply Rle_trans with (5.2e-16 * Rabs (3 * n) * Rabs t); [apply Rmult_le_compat_r; [apply Rabs_pos|auto]|].
      replace (5.2e-16 * Rabs (3 * n) * Rabs t) with (1.56e-15 * Rabs th); [lra|]. unfold th. rewrite !Rabs_mult, (Rabs_pos_eq 3) by lra. lra. }
    assert (E4 : err (2.7e-15 * M) (b64 (4 * sn)) (4 * s)).
    { apply err_const with (5.3e-16 * M) 1; auto. rewrite Rabs_pos_eq by lra. lra. }
    assert (E5 : err (5.2e-15 * M) (b64 (b64 (4 * sn) - b64 (b64 (3 * n') * t))) (4 * s - 3 * th)).
    { eapply err_subr; [exact E4|exact E3| |]; [instantiate (1 := 4 * M); apply Rabs_le|]; unfold M in *; assert (Q := Rabs_le_inv _ _ (Rle_refl (Rabs th))); lra. }
    eapply err_weaken; [apply scaled with (d := 5.2e-15 * M) (X := 4 * M); auto; try lra|rewrite Ua; lra].
    apply Rabs_le. unfold M in *; assert (Q := Rabs_le_inv _ _ (Rle_refl (Rabs th))); lra.
  - apply Rabs_le. unfold M in *; assert (Q := Rabs_le_inv _ _ (Rle_refl (Rabs th))); lra.
  - apply Asu. apply Rabs_le. unfold M in *; assert (Q := Rabs_le_inv _ _ (Rle_refl (Rabs th))); lra.
  - rewrite (Rmult_comm (b64 (3 * n'))). eapply err_weaken; [apply scaled with (d := 5.3e-16 * M) (X := 1); auto; try lra|]; rewrite Rabs_mult, Na, (Rabs_pos_eq 3) by lra; lra.
  - rewrite Rabs_mult, Rabs_mult, Na, (Rabs_pos_eq 3) by lra. assert (Rabs s * (3 * n) <= 1 * (3 * n)) by (apply Rmult_le_compat_r; lra). lra.
  - rewrite (Rmult_comm (b64 (-6 * n'))). eapply err_weaken; [apply scaled with (d := 7.6e-16 * M) (X := 2); auto; try lra|]; rewrite Rabs_mult, Na, (Rabs_left (-6)) by lra; lra.
  - apply err_round with (2.7e-15 * M) 7; [|apply Rabs_le; lra|lra].
    apply err_weaken with (2.7e-15 * M + 0); [|lra]. apply err_sub; [|apply err_same; lra]. apply err_const with (5.3e-16 * M) 1; auto. rewrite Rabs_pos_eq by lra. lra.
  - rewrite Rabs_mult, Rabs_mult, Na, (Rabs_left (-6)) by lra. assert (Rabs (1 - c) * (6 * n) <= 2 * (6 * n)) by (apply Rmult_le_compat_r; lra). lra.
  - rewrite (Rmult_comm (- n')). eapply err_weaken; [apply scaled with (d := 5.3e-16 * M) (X := 1); auto; try lra|]; rewrite Rabs_Ropp, Na; lra.
  - rewrite Rabs_mult, Rabs_Ropp, Na. apply Rmult_le_compat_r; lra.
Qed.

(** * One step *)
Definition rstep (L : libm) (n' u' : R) (s : vec6) (t : R) : vec6 :=
  let sn := sinf L (b64 (n' * t)) in let cs := cosf L (b64 (n' * t)) in
  m66_multiply_vector_b64 (M66
    (V6 (b64 (4 - b64 (3 * cs))) 0 0 (b64 (sn * u')) (b64 (b64 (2 * b64 (1 - cs)) * u')) 0)
    (V6 (b64 (6 * b64 (sn - b64 (n' * t)))) 1 0 (b64 (b64 (-2 * b64 (1 - cs)) * u')) (b64 (b64 (b64 (4 * sn) - b64 (b64 (3 * n') * t)) * u')) 0)
    (V6 0 0 cs 0 0 (b64 (sn * u')))
    (V6 (b64 (b64 (3 * n') * sn)) 0 0 cs (b64 (2 * sn)) 0)
    (V6 (b64 (b64 (-6 * n') * b64 (1 - cs))) 0 0 (b64 (-2 * sn)) (b64 (b64 (4 * cs) - 3)) 0)
    (V6 0 0 (b64 (- n' * sn)) 0 0 cs)) s.
Lemma step_run L h t : hl_n h <> 0 -> hill_step_by_seconds_b64 L h t = Ok (set_hl_state h (HCW_from_state_vector (rstep L (hl_n h) (b64 (1 / hl_n h)) (state_vector (hl_state h)) t))).
Proof. intros H. unfold hill_step_by_seconds_b64, system_matrix_b64, pdiv_b64. rewrite pdiv_ok by auto. reflexivity. Qed.

Definition flies (L : libm) (n n' u' : R) : Prop := accurate_trig L /\ rel 4e-16 n' n /\ rel 5.2e-16 u' (1 / n) /\ 1e-12 <= n <= 1e3.

Lemma size_pos n s : 0 < n -> 0 <= hill_size n s.
Proof.
  intros H. unfold hill_size. assert (0 <= / n) by (apply Rlt_le, Rinv_0_lt_compat; auto).
  assert (P := Rabs_pos). apply Rplus_le_le_0_compat; [specialize (P (x6 s)) as P1; specialize (P (y6 s)) as P2; specialize (P (z6 s)) as P3; lra|].
  apply Rmult_le_pos; auto. specialize (P (vx6 s)) as P1; specialize (P (vy6 s)) as P2; specialize (P (vz6 s)) as P3; lra.
Qed.

Lemma six_rows n M Z q1 q2 q3 q4 q5 q6 : 1e-12 <= n -> 1 <= M -> 0 <= Z ->
  q1 <= (6e-15 * M + 7e-16 * (7 + 6e-15 * M)) * 1 * Z + 1e-58 ->
  q2 <= (1e-14 * M + 7e-16 * (6 * M + 1e-14 * M)) * 1 * Z + 1e-58 ->
  q3 <= (2e-15 * M + 7e-16 * (1 + 2e-15 * M)) * 1 * Z + 1e-58 ->
  q4 <= (5e-15 * M + 7e-16 * (3 + 5e-15 * M)) * n * Z + 1e-58 ->
  q5 <= (1.5e-14 * M + 7e-16 * (12 + 1.5e-14 * M)) * n * Z + 1e-58 ->
  q6 <= (2e-15 * M + 7e-16 * (1 + 2e-15 * M)) * n * Z + 1e-58 ->
  q1 + q2 + q3 + (q4 + q5 + q6) / n <= 6.5e-14 * M * (Z + 1e-30).
Proof.
  intros N M1 HZ R1 R2 R3 R4 R5 R6.
  assert (I : 0 < / n) by (apply Rinv_0_lt_compat; lra). assert (NI : n * / n = 1) by (apply Rinv_r; lra).
  assert (I2 : / n <= 1e12). { replace 1e12 with (/ 1e-12) by lra. apply Rinv_le_contravar; lra. }
  assert (MZ : 1 * Z <= M * Z) by (apply Rmult_le_compat_r; lra).
  assert (nZ : 0 <= n * Z) by (apply Rmult_le_pos; lra). assert (MnZ : 1 * (n * Z) <= M * (n * Z)) by (apply Rmult_le_compat_r; lra).
  assert (V : q4 + q5 + q6 <= 3.4e-14 * (M * Z) * n + 3e-58) by (clear - R4 R5 R6 nZ MnZ; lra).
  assert (V2 : (q4 + q5 + q6) / n <= 3.4e-14 * (M * Z) + 3e-58 * / n).
  { unfold Rdiv. apply Rle_trans with ((3.4e-14 * (M * Z) * n + 3e-58) * / n); [apply Rmult_le_compat_r; lra|].
    apply Req_le. replace ((3.4e-14 * (M * Z) * n + 3e-58) * / n) with (3.4e-14 * (M * Z) * (n * / n) + 3e-58 * / n) by lra. rewrite NI. lra. }
  assert (W : q1 + q2 + q3 <= 3e-14 * (M * Z) + 3e-58) by (clear - R1 R2 R3 HZ MZ; lra).
  clear - V2 W I2 M1 HZ MZ. lra.
Qed.
Lemma step_bound L n n' u' s t : flies L n n' u' -> Rabs (n * t) <= 7.9 ->
  hill_size n (v6_minus (rstep L n' u' s t) (motion n s t)) <= 6.5e-14 * (1 + Rabs (n * t)) * (hill_size n s + 1e-30).
Proof.
  intros (HL & Hn & Hu & N) Ht. destruct (rows_err L n n' u' t HL Hn Hu N Ht) as (R1 & R2 & R3 & R4 & R5 & R6).
  assert (P := Rabs_pos (n * t)). rewrite <- exact_motion by lra.
  apply six_rows; try lra; [apply size_pos; lra| | | | | |]; apply row_bound; assumption.
Qed.

(** * How the exact motion spreads an error *)
Lemma motion_minus n a b t : motion n (v6_minus a b) t = v6_minus (motion n a t) (motion n b t).
Proof. unfold motion, v6_minus. cbv zeta. cbn [x6 y6 z6 vx6 vy6 vz6]. apply vec6_ext; cbn [x6 y6 z6 vx6 vy6 vz6]; unfold Rdiv; ring. Qed.
Lemma v6_minus_chain a b c : v6_minus a c = v6_minus (v6_minus a b) (v6_minus c b).
Proof. unfold v6_minus. cbn [x6 y6 z6 vx6 vy6 vz6]. apply vec6_ext; cbn [x6 y6 z6 vx6 vy6 vz6]; ring. Qed.

Lemma size_triangle n a b c : 0 < n -> hill_size n (v6_minus a c) <= hill_size n (v6_minus a b) + hill_size n (v6_minus b c).
Proof.
  intros H. assert (I : 0 <= / n) by (apply Rlt_le, Rinv_0_lt_compat; auto). unfold hill_size, v6_minus. cbn [x6 y6 z6 vx6 vy6 vz6].
  assert (T : forall x y z : R, Rabs (x - z) <= Rabs (x - y) + Rabs (y - z)) by (intros x y z; replace (x - z) with ((x - y) + (y - z)) by ring; apply Rabs_triang).
  assert (T1 := T (x6 a) (x6 b) (x6 c)). assert (T2 := T (y6 a) (y6 b) (y6 c)). assert (T3 := T (z6 a) (z6 b) (z6 c)).
  assert (T4 := T (vx6 a) (vx6 b) (vx6 c)). assert (T5 := T (vy6 a) (vy6 b) (vy6 c)). assert (T6 := T (vz6 a) (vz6 b) (vz6 c)).
  assert ((Rabs (vx6 a - vx6 c) + Rabs (vy6 a - vy6 c) + Rabs (vz6 a - vz6 c)) / n <=
    ((Rabs (vx6 a - vx6 b) + Rabs (vy6 a - vy6 b) + Rabs (vz6 a - vz6 b)) + (Rabs (vx6 b - vx6 c) + Rabs (vy6 b - vy6 c) + Rabs (vz6 b - vz6 c))) / n).
  { unfold Rdiv. apply Rmult_le_compat_r; lra. }
  unfold Rdiv in *. lra.
Qed.

Lemma spread n s t : 0 < n -> hill_size n (motion n s t) <= 28 * (1 + Rabs (n * t)) * hill_size n s.
Proof.
  intros H. assert (I : 0 < / n) by (apply Rinv_0_lt_compat; auto). assert (NI : n * / n = 1) by (apply Rinv_r; lra).
  assert (As := abs_sin (n * t)). assert (Ac := abs_cos (n * t)). assert (P := Rabs_pos (n * t)).
  assert (Bs := Rabs_le_inv _ _ As). assert (Bc := Rabs_le_inv _ _ Ac). assert (Bt := Rabs_le_inv _ _ (Rle_refl (Rabs (n * t)))).
  unfold motion. cbv zeta. set (S := sin (n * t)) in *. set (C := cos (n * t)) in *. set (th := n * t) in *. set (Q := Rabs th) in *.
  replace (3 * n * t) with (3 * th) by (unfold th; ring).
  destruct s as [x y z vx vy vz]. unfold hill_size. cbn [x6 y6 z6 vx6 vy6 vz6].
  assert (M : forall a b A, Rabs a <= A -> Rabs (a * b) <= A * Rabs b) by (intros; rewrite Rabs_mult; apply Rmult_le_compat_r; [apply Rabs_pos|auto]).
  assert (U : forall a b A, Rabs a <= A -> Rabs (a / n * b) <= A * (Rabs b * / n)).
  { intros a b A HA. unfold Rdiv. rewrite !Rabs_mult, (Rabs_pos_eq (/ n)) by lra. replace (Rabs a * / n * Rabs b) with (Rabs a * (Rabs b * / n)) by ring.
    apply Rmult_le_compat_r; auto. apply Rmult_le_pos; [apply Rabs_pos|lra]. }
  assert (W : forall a b A, Rabs a <= A -> Rabs (a * n * b) * / n <= A * Rabs b).
  { intros a b A HA. rewrite !Rabs_mult, (Rabs_pos_eq n) by lra. replace (Rabs a * n * Rabs b * / n) with (Rabs a * Rabs b * (n * / n)) by ring. rewrite NI, Rmult_1_r.
    apply Rmult_le_compat_r; auto. apply Rabs_pos. }
  assert (T3 : forall a b c, Rabs (a + b + c) <= Rabs a + Rabs b + Rabs c) by (intros; eapply Rle_trans; [apply Rabs_triang|]; apply Rplus_le_compat_r, Rabs_triang).
  assert (K1 : Rabs ((4 - 3 * C) * x + S / n * vx + 2 * (1 - C) / n * vy) <= 7 * Rabs x + 1 * (Rabs vx * / n) + 4 * (Rabs vy * / n)).
  { eapply Rle_trans; [apply T3|]. repeat apply Rplus_le_compat; [apply M|apply U|apply U]; apply Rabs_le; lra. }
  assert (K2 : Rabs (6 * (S - th) * x + y - 2 * (1 - C) / n * vx + (4 * S - 3 * th) / n * vy) <= 6 * (1 + Q) * Rabs x + Rabs y + 4 * (Rabs vx * / n) + (4 + 3 * Q) * (Rabs vy * / n)).
  { eapply Rle_trans; [apply Rabs_triang|]. apply Rplus_le_compat; [|apply U; apply Rabs_le; lra].
    unfold Rminus at 1. eapply Rle_trans; [apply Rabs_triang|]. apply Rplus_le_compat; [|rewrite Rabs_Ropp; apply U; apply Rabs_le; lra].
    eapply Rle_trans; [apply Rabs_triang|]. apply Rplus_le_compat_r. apply M. apply Rabs_le. lra. }
  assert (K3 : Rabs (C * z + S / n * vz) <= 1 * Rabs z + 1 * (Rabs vz * / n)).
  { eapply Rle_trans; [apply Rabs_triang|]. apply Rplus_le_compat; [apply M|apply U]; auto. }
  assert (K4 : Rabs (3 * n * S * x + C * vx + 2 * S * vy) * / n <= 3 * Rabs x + 1 * (Rabs vx * / n) + 2 * (Rabs vy * / n)).
  { apply Rle_trans with ((Rabs (3 * n * S * x) + Rabs (C * vx) + Rabs (2 * S * vy)) * / n); [apply Rmult_le_compat_r; [lra|apply T3]|].
    rewrite !Rmult_plus_distr_r. repeat apply Rplus_le_compat.
    - replace (3 * n * S * x) with (3 * S * n * x) by ring. apply W. apply Rabs_le. lra.
    - rewrite <- Rmult_assoc. apply Rmult_le_compat_r; [lra|]. apply M. auto.
    - rewrite <- Rmult_assoc. apply Rmult_le_compat_r; [lra|]. apply M. apply Rabs_le. lra. }
  assert (K5 : Rabs (- 6 * n * (1 - C) * x - 2 * S * vx + (4 * C - 3) * vy) * / n <= 12 * Rabs x + 2 * (Rabs vx * / n) + 7 * (Rabs vy * / n)).
  { apply Rle_trans with ((Rabs (- 6 * n * (1 - C) * x) + Rabs (- (2 * S) * vx) + Rabs ((4 * C - 3) * vy)) * / n).
    { apply Rmult_le_compat_r; [lra|]. replace (- 6 * n * (1 - C) * x - 2 * S * vx + (4 * C - 3) * vy) with (- 6 * n * (1 - C) * x + - (2 * S) * vx + (4 * C - 3) * vy) by ring. apply T3. }
    rewrite !Rmult_plus_distr_r. repeat apply Rplus_le_compat.
    - replace (- 6 * n * (1 - C) * x) with (- 6 * (1 - C) * n * x) by ring. apply W. apply Rabs_le. lra.
    - rewrite <- Rmult_assoc. apply Rmult_le_compat_r; [lra|]. apply M. apply Rabs_le. lra.
    - rewrite <- Rmult_assoc. apply Rmult_le_compat_r; [lra|]. apply M. apply Rabs_le. lra. }
  assert (K6 : Rabs (- n * S * z + C * vz) * / n <= 1 * Rabs z + 1 * (Rabs vz * / n)).
  { apply Rle_trans with ((Rabs (- n * S * z) + Rabs (C * vz)) * / n); [apply Rmult_le_compat_r; [lra|apply Rabs_triang]|].
    rewrite !Rmult_plus_distr_r. apply Rplus_le_compat.
    - replace (- n * S * z) with (- S * n * z) by ring. apply W. apply Rabs_le. lra.
    - rewrite <- Rmult_assoc. apply Rmult_le_compat_r; [lra|]. apply M. auto. }
  unfold Rdiv in *.
  assert (X1 := Rabs_pos x). assert (X2 := Rabs_pos y). assert (X3 := Rabs_pos z).
  assert (Y1 : 0 <= Rabs vx * / n) by (apply Rmult_le_pos; [apply Rabs_pos|lra]). assert (Y2 : 0 <= Rabs vy * / n) by (apply Rmult_le_pos; [apply Rabs_pos|lra]). assert (Y3 : 0 <= Rabs vz * / n) by (apply Rmult_le_pos; [apply Rabs_pos|lra]).
  assert (Z1 := Rmult_le_pos _ _ P X1). assert (Z2 := Rmult_le_pos _ _ P X2). assert (Z3 := Rmult_le_pos _ _ P X3).
  assert (Z4 := Rmult_le_pos _ _ P Y1). assert (Z5 := Rmult_le_pos _ _ P Y2). assert (Z6 := Rmult_le_pos _ _ P Y3).
  clear - K1 K2 K3 K4 K5 K6 X1 X2 X3 Y1 Y2 Y3 Z1 Z2 Z3 Z4 Z5 Z6. lra.
Qed.

(** * Many steps *)
Definition run (L : libm) (n' u' : R) (s : vec6) (l : list R) : vec6 := fold_left (rstep L n' u') l s.

Lemma covered_pos l : 0 <= covered l.
Proof. induction l as [|t l IH]; cbn [covered fold_right]; [lra|]. assert (P := Rabs_pos t). fold (covered l). lra. Qed.
Lemma covered_app l k : covered (l ++ k) = covered l + covered k.
Proof. induction l as [|t l IH]; cbn [app covered fold_right]; [fold (covered k); lra|]. fold (covered (l ++ k)). fold (covered l). rewrite IH. ring. Qed.
Lemma elapsed_covered l : Rabs (elapsed l) <= covered l.
Proof. induction l as [|t l IH]; cbn [elapsed covered fold_right]; [rewrite Rabs_R0; lra|]. fold (elapsed l). fold (covered l). assert (T := Rabs_triang t (elapsed l)). lra. Qed.

Lemma gather L n n' u' : flies L n n' u' -> forall l s B Q, 0 <= B -> n * covered l <= Q -> Forall (fun t => Rabs (n * t) <= 7.9) l ->
  (forall l1 t l2, l = l1 ++ t :: l2 -> hill_size n (run L n' u' s l1) <= B) ->
  hill_size n (v6_minus (run L n' u' s l) (motion n s (elapsed l))) <= 28 * (1 + Q) * 6.5e-14 * (INR (length l) + n * covered l) * (B + 1e-30).
Proof.
  intros F. assert (N := proj2 (proj2 (proj2 F))). intros l. induction l as [|t l IH]; intros s B Q HB HQ A Hs.
  - cbn [run fold_left elapsed fold_right covered length INR]. rewrite motion_zero by lra. unfold hill_size, v6_minus. cbn [x6 y6 z6 vx6 vy6 vz6].
    rewrite !Rminus_eq_0, !Rabs_R0. unfold Rdiv. lra.
  - inversion A as [|t' l' At Al]. subst t' l'.
    assert (Wl := covered_pos l). assert (Pt := Rabs_pos t). cbn [covered fold_right] in HQ. fold (covered l) in HQ.
    assert (Nl : 0 <= n * covered l) by (apply Rmult_le_pos; lra). assert (Nt : 0 <= n * Rabs t) by (apply Rmult_le_pos; lra).
    set (s1 := rstep L n' u' s t).
    assert (I := IH s1 B Q HB ltac:(lra) Al). 
    assert (I' : hill_size n (v6_minus (run L n' u' s1 l) (motion n s1 (elapsed l))) <= 28 * (1 + Q) * 6.5e-14 * (INR (length l) + n * covered l) * (B + 1e-30)).
    { apply I. intros l1 t1 l2 E. apply (Hs (t :: l1) t1 l2). rewrite E. reflexivity. } clear I.
    assert (S0 := Hs [] t l eq_refl). cbn [run fold_left] in S0.
    assert (D := step_bound L n n' u' s t F At). fold s1 in D.
    assert (G := spread n (v6_minus s1 (motion n s t)) (elapsed l) ltac:(lra)).
    rewrite motion_minus, motion_plus in G by lra.
    assert (E1 : Rabs (n * elapsed l) <= Q). { rewrite Rabs_mult, Rabs_pos_eq by lra. assert (n * Rabs (elapsed l) <= n * covered l) by (apply Rmult_le_compat_l; [lra|apply elapsed_covered]). lra. }
    assert (E2 : Rabs (n * t) = n * Rabs t) by (rewrite Rabs_mult, (Rabs_pos_eq n) by lra; auto).
    cbn [run fold_left elapsed fold_right covered length]. fold (elapsed l). fold (covered l). fold (run L n' u' s1 l). rewrite S_INR. fold s1. change (fold_left (rstep L n' u') l s1) with (run L n' u' s1 l).
    eapply Rle_trans; [apply (size_triangle n _ (motion n s1 (elapsed l)) _); lra|].
    set (d1 := hill_size n (v6_minus (run L n' u' s1 l) (motion n s1 (elapsed l)))) in *.
    set (d2 := hill_size n (v6_minus (motion n s1 (elapsed l)) (motion n s (t + elapsed l)))) in *.
    set (d3 := hill_size n (v6_minus s1 (motion n s t))) in *.
    assert (P3 : 0 <= d3) by (apply size_pos; lra). rewrite E2 in D.
    assert (D' : d3 <= 6.5e-14 * (1 + n * Rabs t) * (B + 1e-30)).
    { eapply Rle_trans; [exact D|]. apply Rmult_le_compat_l; [lra|]. lra. }
    assert (G' : d2 <= 28 * (1 + Q) * (6.5e-14 * (1 + n * Rabs t) * (B + 1e-30))).
    { eapply Rle_trans; [exact G|]. apply Rmult_le_compat; try lra. assert (X := Rabs_pos (n * elapsed l)). lra. }
    clear - I' G'. lra.
Qed.

Lemma run_app L n' u' s l t : run L n' u' s (l ++ [t]) = rstep L n' u' (run L n' u' s l) t.
Proof. unfold run. rewrite fold_left_app. reflexivity. Qed.
Lemma size_tri2 n a b : 0 < n -> hill_size n a <= hill_size n (v6_minus a b) + hill_size n b.
Proof.
  intros H. assert (T := size_triangle n a b (V6 0 0 0 0 0 0) H).
  replace (v6_minus a (V6 0 0 0 0 0 0)) with a in T by (apply vec6_ext; unfold v6_minus; cbn [x6 y6 z6 vx6 vy6 vz6]; ring).
  replace (v6_minus b (V6 0 0 0 0 0 0)) with b in T by (apply vec6_ext; unfold v6_minus; cbn [x6 y6 z6 vx6 vy6 vz6]; ring). auto.
Qed.

Lemma many_steps L n n' u' s Q K : flies L n n' u' -> 0 <= Q -> 0 <= K -> (K + Q) * (1 + Q) <= 1e11 ->
  forall l, Forall (fun t => Rabs (n * t) <= 7.9) l -> n * covered l <= Q -> INR (length l) <= K ->
  hill_size n (run L n' u' s l) <= 56 * (1 + Q) * (hill_size n s + 1e-30) /\
  hill_size n (v6_minus (run L n' u' s l) (motion n s (elapsed l))) <= 1.1e-10 * (1 + Q) ^ 2 * (K + Q) * (hill_size n s + 1e-30).
Proof.
  intros F HQ HK Small. assert (N := proj2 (proj2 (proj2 F))). set (Z := hill_size n s). assert (HZ : 0 <= Z) by (apply size_pos; lra).
  assert (B0 : 0 <= 56 * (1 + Q) * (Z + 1e-30)) by (apply Rmult_le_pos; lra).
  assert (Step : forall l, Forall (fun t => Rabs (n * t) <= 7.9) l -> n * covered l <= Q -> INR (length l) <= K ->
    (forall l1 t l2, l = l1 ++ t :: l2 -> hill_size n (run L n' u' s l1) <= 56 * (1 + Q) * (Z + 1e-30)) ->
    hill_size n (run L n' u' s l) <= 56 * (1 + Q) * (Z + 1e-30) /\
    hill_size n (v6_minus (run L n' u' s l) (motion n s (elapsed l))) <= 1.1e-10 * (1 + Q) ^ 2 * (K + Q) * (Z + 1e-30)).
  { intros l A W Len Hs. assert (G := gather L n n' u' F l s _ Q B0 W A Hs).
    set (q := 1 + Q) in *. assert (q1 : 1 <= q) by (unfold q; lra). set (c := Z + 1e-30) in *. assert (c0 : 1e-30 <= c) by (unfold c; lra).
    assert (qc : 1 * c <= q * c) by (apply Rmult_le_compat_r; lra).
    assert (Wl : 0 <= n * covered l) by (apply Rmult_le_pos; [lra|apply covered_pos]). assert (L0 := pos_INR (length l)).
    assert (G2 : hill_size n (v6_minus (run L n' u' s l) (motion n s (elapsed l))) <= 28 * q * 6.5e-14 * (K + Q) * (57 * (q * c))).
    { eapply Rle_trans; [exact G|]. assert (0 <= 28 * q * 6.5e-14) by lra. apply Rmult_le_compat; try lra; [apply Rmult_le_pos; lra|apply Rmult_le_compat_l; lra]. }
    assert (KQ : 0 <= K + Q) by lra. assert (qq : 0 <= q * (K + Q) * (q * c)) by (repeat apply Rmult_le_pos; lra).
    assert (G3 : hill_size n (v6_minus (run L n' u' s l) (motion n s (elapsed l))) <= 1.1e-10 * q ^ 2 * (K + Q) * c).
    { eapply Rle_trans; [exact G2|]. replace (q ^ 2) with (q * q) by ring. clear - qq. lra. }
    split; [|exact G3].
    assert (T := size_tri2 n (run L n' u' s l) (motion n s (elapsed l)) ltac:(lra)). assert (Sp := spread n s (elapsed l) ltac:(lra)). fold Z in Sp.
    assert (E1 : Rabs (n * elapsed l) <= Q). { rewrite Rabs_mult, Rabs_pos_eq by lra. assert (n * Rabs (elapsed l) <= n * covered l) by (apply Rmult_le_compat_l; [lra|apply elapsed_covered]). lra. }
    assert (Sp2 : hill_size n (motion n s (elapsed l)) <= 28 * q * c).
    { eapply Rle_trans; [exact Sp|]. apply Rmult_le_compat; try lra; [assert (X := Rabs_pos (n * elapsed l)); lra|unfold q; lra|unfold c; lra]. }
    assert (G4 : 1.1e-10 * q ^ 2 * (K + Q) * c <= 11 * (q * c)).
    { replace (1.1e-10 * q ^ 2 * (K + Q) * c) with (1.1e-10 * ((K + Q) * q) * (q * c)) by (replace (q ^ 2) with (q * q) by ring; lra).
      apply Rmult_le_compat_r; [apply Rmult_le_pos; lra|]. lra. }
    clear - T Sp2 G3 G4 qc c0. lra. }
  assert (All : forall l, Forall (fun t => Rabs (n * t) <= 7.9) l -> n * covered l <= Q -> INR (length l) <= K ->
    forall l1 l2, l = l1 ++ l2 -> hill_size n (run L n' u' s l1) <= 56 * (1 + Q) * (Z + 1e-30)).
  { intros l. induction l as [|t l IH] using rev_ind; intros A W Len l1 l2 E.
    - symmetry in E. apply app_eq_nil in E as (E & _). subst l1. apply (Step []); auto. intros [|a l1] t l3 E; discriminate.
    - assert (A' := A). apply Forall_app in A' as (Al & At). assert (W1 := W). rewrite covered_app in W1. assert (Wt := covered_pos [t]).
      assert (Nt : 0 <= n * covered [t]) by (apply Rmult_le_pos; lra). assert (Len1 := Len). rewrite app_length, plus_INR in Len1. cbn [length INR] in Len1.
      assert (W' : n * covered l <= Q) by lra. assert (L' : INR (length l) <= K) by lra. specialize (IH Al W' L').
      destruct l2 as [|b l2] using rev_ind.
      + rewrite app_nil_r in E. subst l1. apply Step; auto. intros l1 t1 l2 E. destruct l2 as [|b l2 _] using rev_ind.
        * apply app_inj_tail in E as (E & _). subst l1. apply (IH l []). rewrite app_nil_r. auto.
        * rewrite app_comm_cons, app_assoc in E. apply app_inj_tail in E as (E & _). apply (IH l1 (t1 :: l2)); auto.
      + clear IHl2. rewrite app_assoc in E. apply app_inj_tail in E as (E & _). apply (IH l1 l2); auto. }
  intros l A W Len. apply Step; auto. intros l1 t l2 E. apply (All l A W Len l1 (t :: l2)). auto.
Qed.

(** * The propagator *)
Lemma rate s a : 1 <= a <= 1e9 -> exists h, Hill_b64 s a = Ok h /\ rel 4e-16 (hl_n h) (sqrt (mu_earth / (a * a * a))) /\ hl_state h = s /\ hl_sma h = a /\ hl_step_size h = 600.
Proof.
  intros Ha. assert (M : near 1.13 MU_b64 Earth_MU) by (apply b64_near; unfold Earth_MU; rewrite Rabs_pos_eq; lra).
  assert (A2 : 1 <= a * a <= 1e18) by (split; [replace 1 with (1 * 1) by ring|replace 1e18 with (1e9 * 1e9) by lra]; apply Rmult_le_compat; lra).
  assert (A3 : 1 <= a * a * a <= 1e27) by (split; [replace 1 with (1 * 1) by ring|replace 1e27 with (1e18 * 1e9) by lra]; apply Rmult_le_compat; lra).
  assert (N1 : near 1.13 (b64 (a * a)) (a * a)) by (apply b64_near; rewrite Rabs_pos_eq; lra).
  assert (N2 : near 1.14 (b64 (a * a) * a) (a * a * a)).
  { replace 1.14 with (1.13 + 0 + 0.01) by lra. apply near_mul; try lra; auto. apply near_refl. }
  assert (N3 : near 2.28 (b64 (b64 (a * a) * a)) (a * a * a)).
  { replace 2.28 with (1.14 + 1.14) by lra. apply near_round; auto; [lra|]. rewrite Rabs_pos_eq; lra. }
  assert (P3 : b64 (b64 (a * a) * a) <> 0).
  { assert (X := near_lower 2.28 _ _ ltac:(lra) N3). intros E. rewrite E, Rabs_R0, Rabs_pos_eq in X by lra. lra. }
  set (q := a * a * a) in *. assert (Q0 : 1e-25 <= mu_earth / q). { apply le_div; [lra|]. unfold mu_earth. lra. }
  assert (N4 : near 3.43 (MU_b64 / b64 (b64 (a * a) * a)) (mu_earth / q)).
  { replace 3.43 with (1.13 + 2.28 + 0.02) by lra. apply near_div; try lra; auto. }
  assert (N5 : near 4.57 (b64 (MU_b64 / b64 (b64 (a * a) * a))) (mu_earth / q)).
  { replace 4.57 with (3.43 + 1.14) by lra. apply near_round; auto; [lra|]. rewrite Rabs_pos_eq; lra. }
  assert (P5 : 0 <= b64 (MU_b64 / b64 (b64 (a * a) * a))).
  { unfold near in N5. rewrite (Rabs_pos_eq (mu_earth / q)) in N5 by lra. apply Rabs_le_inv in N5. lra. }
  assert (N6 : near 2.3 (sqrt (b64 (MU_b64 / b64 (b64 (a * a) * a)))) (sqrt (mu_earth / q))).
  { apply near_weaken with (4.57 / 2 + 0.01); [|lra]. apply near_sqrt; auto; lra. }
  assert (SQ : 1e-13 <= sqrt (mu_earth / q)). { rewrite <- (sqrt_square 1e-13) by lra. apply sqrt_le_1_alt. lra. }
  unfold Hill_b64, pdiv_b64, psqrt_b64. rewrite pdiv_ok by auto. cbn [bind]. rewrite psqrt_ok by auto. cbn [bind].
  eexists. split; [reflexivity|]. cbn [hl_n hl_state hl_sma hl_step_size]. split; [|split; [destruct s; reflexivity|split; reflexivity]].
  replace 4e-16 with (4 * 1e-16) by lra. apply near_rel. apply near_weaken with (2.3 + 1.14); [|lra]. apply near_round; auto; [lra|]. rewrite Rabs_pos_eq; lra.
Qed.

Lemma rate_unique n a : 0 < n -> 0 < a -> n ^ 2 * a ^ 3 = mu_earth -> n = sqrt (mu_earth / (a * a * a)).
Proof.
  intros Hn Ha E. rewrite <- E. replace (n ^ 2 * a ^ 3 / (a * a * a)) with (n * n) by (field; lra). rewrite sqrt_square; lra.
Qed.
Lemma rate_range a : 1 <= a <= 1e9 -> 1e-12 <= sqrt (mu_earth / (a * a * a)) <= 1e3.
Proof.
  intros Ha.
  assert (A2 : 1 <= a * a <= 1e18) by (split; [replace 1 with (1 * 1) by ring|replace 1e18 with (1e9 * 1e9) by lra]; apply Rmult_le_compat; lra).
  assert (A3 : 1 <= a * a * a <= 1e27) by (split; [replace 1 with (1 * 1) by ring|replace 1e27 with (1e18 * 1e9) by lra]; apply Rmult_le_compat; lra).
  set (q := a * a * a) in *. split.
  - rewrite <- (sqrt_square 1e-12) by lra. apply sqrt_le_1_alt. apply le_div; [lra|]. unfold mu_earth. lra.
  - rewrite <- (sqrt_square 1e3) by lra. apply sqrt_le_1_alt. apply div_le; [lra|]. unfold mu_earth. lra.
Qed.

Lemma steps_run L n' : forall l h, hl_n h = n' -> n' <> 0 -> exists h', hill_steps_b64 L l h = Ok h' /\ state_vector (hl_state h') = run L n' (b64 (1 / n')) (state_vector (hl_state h)) l /\
  hl_n h' = n' /\ hl_sma h' = hl_sma h /\ hl_step_size h' = hl_step_size h.
Proof.
  intros l. induction l as [|t l IH]; intros h Hn N0.
  - exists h. repeat split; auto.
  - cbn [hill_steps_b64]. rewrite step_run by congruence. cbn [bind].
    destruct (IH (set_hl_state h (HCW_from_state_vector (rstep L (hl_n h) (b64 (1 / hl_n h)) (state_vector (hl_state h)) t)))) as (h' & E & V & R1 & R2 & R3); auto.
    exists h'. split; auto. split; [|repeat split; auto]. rewrite V. cbn [set_hl_state hl_state]. rewrite hcw_vector, Hn. reflexivity.
Qed.

Lemma flies_rate L a n' : accurate_trig L -> 1 <= a <= 1e9 -> rel 4e-16 n' (sqrt (mu_earth / (a * a * a))) ->
  flies L (sqrt (mu_earth / (a * a * a))) n' (b64 (1 / n')) /\ n' <> 0.
Proof.
  intros HL Ha Hn. assert (R := rate_range a Ha). set (n := sqrt _) in *. split.
  - split; [auto|]. split; [auto|]. split; [|auto]. apply rel_round with (1.00001 * 4e-16); [apply rel_inv; try lra; auto|lra| |lra].
    assert (0 < 1 / n) by (apply Rdiv_lt_0_compat; lra). rewrite Rabs_pos_eq by lra. apply Rle_trans with (1 / 1e3); [lra|].
    unfold Rdiv. apply Rmult_le_compat_l; [lra|]. apply Rinv_le_contravar; lra.
  - assert (X := rel_lower _ _ _ Hn). intros E. rewrite E, Rabs_R0, (Rabs_pos_eq n) in X by lra. lra.
Qed.

Theorem hill_rounded L s a n l : accurate_trig L -> 1 <= a <= 1e9 -> 0 < n -> n ^ 2 * a ^ 3 = mu_earth ->
  Forall (fun t => Rabs (n * t) <= 7.9) l -> (INR (length l) + n * covered l) * (1 + n * covered l) <= 1e11 ->
  exists h h', Hill_b64 s a = Ok h /\ hl_state h = s /\ Rabs (hl_n h - n) <= 4e-16 * n /\
    hill_steps_b64 L l h = Ok h' /\ hl_n h' = hl_n h /\ hl_sma h' = a /\ hl_step_size h' = 600 /\
    forall c, clohessy_wiltshire n c -> c 0 = state_vector s ->
      hill_size n (v6_minus (state_vector (hl_state h')) (c (elapsed l))) <=
        1.1e-10 * (1 + n * covered l) ^ 2 * (INR (length l) + n * covered l) * (hill_size n (state_vector s) + 1e-30).
Proof.
  intros HL Ha Hn E A Small. assert (En := rate_unique n a Hn ltac:(lra) E). destruct (rate s a Ha) as (h & Eh & Rh & Sh & Ah & Zh).
  destruct (flies_rate L a (hl_n h) HL Ha Rh) as (F & N0). rewrite <- En in *.
  destruct (steps_run L (hl_n h) l h eq_refl N0) as (h' & E' & V & R1 & R2 & R3).
  exists h, h'. split; auto. split; auto. split; [unfold rel in Rh; rewrite (Rabs_pos_eq n) in Rh by lra; exact Rh|]. split; auto. split; auto. split; [congruence|]. split; [congruence|].
  intros c Hc C0. rewrite V, Sh. rewrite (cw_unique n c (motion n (state_vector s)) ltac:(lra) Hc (motion_cw n _ ltac:(lra))) by (rewrite motion_zero by lra; auto).
  assert (Q0 : 0 <= n * covered l) by (apply Rmult_le_pos; [lra|apply covered_pos]).
  apply (many_steps L n (hl_n h) _ (state_vector s) (n * covered l) (INR (length l)) F Q0 (pos_INR _) Small l A); lra.
Qed.

Theorem hill_rounded_once L s a n t : accurate_trig L -> 1 <= a <= 1e9 -> 0 < n -> n ^ 2 * a ^ 3 = mu_earth -> Rabs (n * t) <= 7.9 ->
  exists h h', Hill_b64 s a = Ok h /\ hill_step_by_seconds_b64 L h t = Ok h' /\
    forall c, clohessy_wiltshire n c -> c 0 = state_vector s ->
      hill_size n (v6_minus (state_vector (hl_state h')) (c t)) <= 6.5e-14 * (1 + Rabs (n * t)) * (hill_size n (state_vector s) + 1e-30).
Proof.
  intros HL Ha Hn E Ht. assert (En := rate_unique n a Hn ltac:(lra) E). destruct (rate s a Ha) as (h & Eh & Rh & Sh & Ah & Zh).
  destruct (flies_rate L a (hl_n h) HL Ha Rh) as (F & N0). rewrite <- En in *.
  exists h. eexists. split; auto. split; [apply step_run; auto|]. cbn [set_hl_state hl_state]. rewrite hcw_vector, Sh.
  intros c Hc C0. rewrite (cw_unique n c (motion n (state_vector s)) ltac:(lra) Hc (motion_cw n _ ltac:(lra))) by (rewrite motion_zero by lra; auto).
  apply step_bound; auto.
Qed.
