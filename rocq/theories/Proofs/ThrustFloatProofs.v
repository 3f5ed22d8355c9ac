(** Rounding of thrust accelerations. *)
From Coq Require Import Reals ZArith Lra Lia Psatz.
From Flocq Require Import Core.
From Verif.Model Require Import Num Constants Linalg Inertial TimeFloat ElementsFloat GroundFloat ThrustFloat.
From Verif.Spec Require Import Geometry Propagation ThrustFloat.
From Verif.Proofs Require Import NumLemmas LinalgProofs TimeFloatProofs InertialProofs StateFloatProofs FrameFloatBasics ConvergenceProofs BurnFloatProofs.
From Verif.Proofs Require ClockProofs ElementsFloatProofs ForceFloatProofs StepFloatParts.
Local Open Scope R_scope.
Local Existing Instance StepFloatParts.prec53.

Lemma pred_one : pred radix2 (FLT_exp (-1074) 53) 1 = 1 - / 9007199254740992.
Proof. change 1 with (bpow radix2 0) at 1. rewrite pred_bpow. simpl. lra. Qed.
Lemma format_one : generic_format radix2 (FLT_exp (-1074) 53) 1.
Proof. apply StepFloatParts.format_of, (b64_IZR 1). lia. Qed.
Lemma below_one q : 5.59e-17 <= q <= 0.95 -> 0.04 <= b64 (1 - q) <= 1 - 1.1e-16.
Proof.
  intros Q. split.
  - assert (F := ElementsFloatProofs.b64_fine (1 - q)). rewrite (Rabs_pos_eq (1 - q)) in F by lra. apply Rabs_le_inv in F. lra.
  - assert (M : b64 (1 - q) <= pred radix2 (FLT_exp (-1074) 53) 1).
    { unfold b64. apply round_N_le_midp; [typeclasses eauto|apply generic_format_pred; [typeclasses eauto|apply format_one]|].
      rewrite succ_pred by (try typeclasses eauto; apply format_one). rewrite pred_one. lra. }
    rewrite pred_one in M. lra.
Qed.
Lemma rounds_to_one q : 0 <= q <= 5.55e-17 -> b64 (1 - q) = 1.
Proof.
  intros Q. apply Rle_antisym.
  - assert (M : b64 (1 - q) <= b64 1) by (apply b64_mono; lra). rewrite (b64_IZR 1) in M by lia. exact M.
  - unfold b64. apply round_N_ge_midp; [typeclasses eauto|apply format_one|]. rewrite pred_one. lra.
Qed.
Lemma log_range logf y : decent_log logf -> 0.04 <= y <= 1 - 1.1e-16 -> 1e-17 <= - logf y <= 30.
Proof.
  intros (_ & H) Y. specialize (H y ltac:(lra)). set (u := ln y) in *. assert (U : exp u = y) by (apply exp_ln; lra).
  assert (A := exp_ineq1_le u). assert (B := exp_ineq1_le (- u)). rewrite exp_Ropp, U in B. rewrite U in A.
  assert (I : / y <= 25) by (apply Rmult_le_reg_r with y; [lra|]; rewrite Rinv_l by lra; lra).
  rewrite (Rabs_left u) in H by lra. apply Rabs_le_inv in H. lra.
Qed.

Lemma rel_scale d k' k u' u e : 0 <= d -> rel d k' k -> verr e u' u -> norm u = 1 -> 0 <= e ->
  verr (Rabs k * (d + (1 + d) * e)) (scale k' u') (scale k u).
Proof.
  intros D K U N E. unfold verr in *. replace (sub (scale k' u') (scale k u)) with (add (scale (k' - k) u) (scale k' (sub u' u))) by (unfold add, sub, scale; cbn [x3 y3 z3]; f_equal; ring).
  eapply Rle_trans; [apply norm_triangle|]. rewrite !norm_scale, N, Rmult_1_r. assert (Z := rel_upper _ _ _ K). unfold rel in K. assert (P := Rabs_pos k').
  assert (Rabs k' * norm (sub u' u) <= (1 + d) * Rabs k * e) by (apply Rmult_le_compat; auto using norm_nonneg). lra.
Qed.
Lemma scaled_close u k : 1e-30 <= Rabs k -> 0.9 <= norm u <= 1.1 -> verr (1.24e-16 * Rabs k) (v3_scaled_b64 u k) (scale k u).
Proof.
  intros K U. rewrite ForceFloatProofs.scaled_rnd. assert (V := ForceFloatProofs.vround (scale k u)). rewrite norm_scale in V. unfold verr in *. eapply Rle_trans; [exact V|].
  assert (Rabs k * norm u <= Rabs k * 1.1) by (apply Rmult_le_compat_l; lra). lra.
Qed.

Lemma thrust_close logf d md m isp t : decent_log logf -> thruster d md m isp -> t = 0 \/ (5.6e-17 <= md * t / m /\ md * t / m <= 0.9) ->
  exists a, thrust_vector_b64 logf d md m isp t = Ok a /\ norm (sub a (rocket md m isp d t)) <= 3.5e-15 * norm (rocket md m isp d t).
Proof.
  intros DL (MD & M & I & N) HT. destruct (unit_round d ltac:(lra) ltac:(lra)) as (dir & ED & VD). set (u := scale (/ norm d) d) in *.
  assert (NU : norm u = 1) by (unfold u; rewrite norm_scale, Rabs_pos_eq by (left; apply Rinv_0_lt_compat; lra); field; lra).
  assert (ND : 0.9 <= norm dir <= 1.1). { assert (Z1 := sub_triangle dir u zero3). assert (Z2 := sub_triangle u dir zero3). rewrite !sub_zero in Z1, Z2. unfold verr in VD. rewrite sub_sym in Z2. rewrite NU in *. lra. }
  assert (mi : 1e-6 <= md * isp) by (apply Rle_trans with (1e-6 * 1); [lra|apply Rmult_le_compat; lra]).
  assert (R1 : rel 1.121e-16 (b64 (md * isp)) (md * isp)) by (apply (rel_round 0); [apply rel_self|lra|rewrite Rabs_pos_eq; lra|lra]).
  assert (R2 : rel 1.121e-16 (b64 SEA_LEVEL_G) 0.00981) by (change SEA_LEVEL_G with 0.00981; apply (rel_round 0); [apply rel_self|lra|rewrite Rabs_pos_eq; lra|lra]).
  set (f := md * isp * 0.00981) in *. assert (fp : 9e-9 <= f) by (unfold f; lra).
  assert (R3 : rel 3.4e-16 (b64 (b64 (md * isp) * b64 SEA_LEVEL_G)) f).
  { apply (rel_round 2.2421e-16); [apply (rel_mul 1.121e-16 1.121e-16); [lra|exact R1|exact R2|lra|lra]|lra|rewrite Rabs_pos_eq; lra|lra]. }
  set (f' := b64 (b64 (md * isp) * b64 SEA_LEVEL_G)) in *.
  assert (md0 : neq md 0 = false) by (apply neq_false; lra).
  assert (RK : forall w, rocket md m isp d t = scale w u -> norm (rocket md m isp d t) = Rabs w) by (intros w E; rewrite E, norm_scale, NU, Rmult_1_r; reflexivity).
  unfold thrust_vector_b64. rewrite md0. destruct (Req_dec t 0) as [T0|T0].
  - rewrite (neq_true t 0 T0). subst t. rewrite ED. cbn [bind]. fold f'. rewrite pdiv_some by lra. cbn [bind]. eexists. split; [reflexivity|].
    set (K := f / m). assert (KP : 9e-18 <= K) by (unfold K; apply Rmult_le_reg_r with m; [lra|]; replace (f / m * m) with f by (field; lra); apply Rle_trans with (9e-18 * 1e9); [apply Rmult_le_compat_l; lra|lra]).
    assert (ER : rocket md m isp d 0 = scale K u). { unfold rocket, u. unfold scale. cbn [x3 y3 z3]. fold f. rewrite Rmult_0_r, Rminus_0_r. fold K. f_equal; unfold Rdiv; ring. }
    rewrite (RK K ER), ER. assert (KA : Rabs K = K) by (apply Rabs_pos_eq; lra).
    assert (R4 : rel 4.6e-16 (b64 (f' / m)) K).
    { apply (rel_round 3.41e-16); [|lra|lra|lra]. unfold K, Rdiv. apply (rel_mul 3.4e-16 0); [lra|exact R3|apply rel_self|lra|lra]. }
    set (k' := b64 (f' / m)) in *. assert (U4 := rel_upper _ _ _ R4). assert (L4 := rel_lower _ _ _ R4). rewrite KA in *.
    assert (S := scaled_close dir k' ltac:(lra) ND). assert (S2 := rel_scale 4.6e-16 k' K dir u 6.2e-16 ltac:(lra) R4 VD NU ltac:(lra)). rewrite KA in S2. unfold verr in *.
    assert (Z := sub_triangle (v3_scaled_b64 dir k') (scale k' dir) (scale K u)). clearbody K k'. lra.
  - destruct HT as [|(Q1 & Q2)]; [contradiction|]. rewrite (neq_false t 0 T0).
    set (c := md * t) in *. assert (cm : c / m * m = c) by (field; lra). assert (CP : 5.6e-20 <= c /\ c <= 0.9 * m).
    { split; [|rewrite <- cm; apply Rmult_le_compat_r; lra]. rewrite <- cm. apply Rle_trans with (5.6e-17 * 1e-3); [lra|apply Rmult_le_compat; lra]. }
    assert (R4 : rel 1.121e-16 (b64 c) c) by (apply (rel_round 0); [apply rel_self|lra|rewrite Rabs_pos_eq; lra|lra]). set (c' := b64 c) in *.
    assert (R5 : rel 2.3e-16 (b64 (c' / m)) (c / m)).
    { apply (rel_round 1.122e-16); [|lra|rewrite Rabs_pos_eq; lra|lra]. unfold Rdiv. apply (rel_mul 1.121e-16 0); [lra|exact R4|apply rel_self|lra|lra]. }
    rewrite (pdiv_some c' m) by lra. cbn [bind]. set (q := b64 (c' / m)) in *.
    assert (QB : 5.59e-17 <= q <= 0.91). { unfold rel in R5. rewrite (Rabs_pos_eq (c / m)) in R5 by lra. apply Rabs_le_inv in R5. lra. }
    assert (YB := below_one q ltac:(lra)).
    set (y := b64 (1 - q)) in *. assert (LR := log_range logf y DL YB). set (l := logf y) in *.
    assert (PL : plog_b64 logf y = Ok l) by (unfold plog_b64; rewrite nle_false by lra; reflexivity). rewrite PL. cbn [bind]. rewrite ED. cbn [bind].
    assert (la : Rabs l = - l) by (apply Rabs_left; lra).
    (* the factor of the first scaling *)
    assert (iG : isp * 0.00981 = f / md) by (unfold f; field; lra).
    assert (R6 : rel 4.55e-16 (b64 (- f' / md)) (- (f / md))).
    { apply (rel_round 3.41e-16); [|lra|rewrite Rabs_Ropp, <- iG, Rabs_pos_eq; lra|lra]. replace (- f' / md) with (- (f' / md)) by (field; lra). apply rel_opp. unfold Rdiv. apply (rel_mul 3.4e-16 0); [lra|exact R3|apply rel_self|lra|lra]. }
    cbv zeta. fold f'. rewrite (pdiv_some (- f') md) by lra. cbn [bind]. set (fm := b64 (- f' / md)) in *.
    set (k1 := f / md * - l). assert (k1p : 9e-20 <= k1) by (unfold k1; rewrite <- iG; apply Rle_trans with (1 * 0.00981 * 1e-17); [lra|apply Rmult_le_compat; lra]).
    assert (R7 : rel 5.7e-16 (b64 (fm * l)) k1).
    { apply (rel_round 4.56e-16); [|lra|rewrite Rabs_pos_eq; lra|lra]. replace k1 with (- (f / md) * l) by (unfold k1; ring). apply (rel_mul 4.55e-16 0); [lra|exact R6|apply rel_self|lra|lra]. }
    set (s1 := b64 (fm * l)) in *.
    (* the factor of the second *)
    set (mt := m - c) in *. assert (mtp : 0.1 * m <= mt) by (unfold mt; lra).
    assert (R8 : rel 1.2e-15 (b64 (m - c')) mt).
    { apply (rel_round 1.02e-15); [|lra|rewrite Rabs_pos_eq; lra|lra]. unfold rel in *. rewrite (Rabs_pos_eq mt) by lra. rewrite (Rabs_pos_eq c) in R4 by lra. replace (m - c' - mt) with (- (c' - c)) by (unfold mt; ring). rewrite Rabs_Ropp. lra. }
    set (mt' := b64 (m - c')) in *. assert (mt0 : mt' <> 0) by (apply (rel_nonzero _ _ _ R8); lra).
    rewrite (pdiv_some md mt') by exact mt0. cbn [bind].
    assert (R9 : rel 1.201e-15 (1 / mt') (1 / mt)) by (apply (rel_weaken (1.00001 * 1.2e-15)); [apply (rel_inv _ _ _ R8); lra|lra]).
    assert (rp : 1e-15 <= md * (1 / mt)). { apply Rmult_le_reg_r with mt; [lra|]. replace (md * (1 / mt) * mt) with md by (field; lra). apply Rle_trans with (1e-15 * 1e9); [apply Rmult_le_compat_l; unfold mt; lra|lra]. }
    assert (R10 : rel 1.32e-15 (b64 (md / mt')) (md * (1 / mt))).
    { apply (rel_round 1.2011e-15); [|lra|rewrite Rabs_pos_eq; lra|lra]. replace (md / mt') with (md * (1 / mt')) by (field; exact mt0). apply (rel_mul 0 1.201e-15); [lra|apply rel_self|exact R9|lra|lra]. }
    set (ra := b64 (md / mt')) in *. rewrite (pdiv_some 1 (- l)) by lra. cbn [bind].
    assert (lp : 0.03 <= 1 / - l) by (apply Rmult_le_reg_r with (- l); [lra|]; replace (1 / - l * - l) with 1 by (field; lra); lra).
    assert (R11 : rel 1.121e-16 (b64 (1 / - l)) (1 / - l)) by (apply (rel_round 0); [apply rel_self|lra|rewrite Rabs_pos_eq; lra|lra]). set (rc := b64 (1 / - l)) in *.
    set (k2 := md * (1 / mt) * (1 / - l)). assert (k2p : 3e-17 <= k2) by (unfold k2; apply Rle_trans with (1e-15 * 0.03); [lra|apply Rmult_le_compat; lra]).
    assert (R12 : rel 1.55e-15 (b64 (ra * rc)) k2).
    { apply (rel_round 1.4322e-15); [|lra|rewrite Rabs_pos_eq; lra|lra]. apply (rel_mul 1.32e-15 1.121e-16); [lra|exact R10|exact R11|lra|lra]. }
    set (s2 := b64 (ra * rc)) in *. eexists. split; [reflexivity|].
    set (K := f / mt). assert (KK : k1 * k2 = K) by (unfold k1, k2, K; field; repeat split; lra).
    assert (KP : 0 < K) by (unfold K; apply Rmult_lt_0_compat; [lra|apply Rinv_0_lt_compat; lra]).
    assert (ER : rocket md m isp d t = scale K u). { unfold rocket, u. unfold scale. cbn [x3 y3 z3]. fold f c mt. fold K. f_equal; unfold Rdiv; ring. }
    rewrite (RK K ER), ER. assert (KA : Rabs K = K) by (apply Rabs_pos_eq; lra). assert (K1A : Rabs k1 = k1) by (apply Rabs_pos_eq; lra). assert (K2A : Rabs k2 = k2) by (apply Rabs_pos_eq; lra). rewrite KA.
    assert (U7 := rel_upper _ _ _ R7). assert (L7 := rel_lower _ _ _ R7). assert (U12 := rel_upper _ _ _ R12). assert (L12 := rel_lower _ _ _ R12). rewrite K1A in U7, L7. rewrite K2A in U12, L12.
    (* dv / k1 is nearly the unit vector *)
    assert (S := scaled_close dir s1 ltac:(lra) ND). assert (S2 := rel_scale 5.7e-16 s1 k1 dir u 6.2e-16 ltac:(lra) R7 VD NU ltac:(lra)). rewrite K1A in S2. unfold verr in S, S2.
    set (dv := v3_scaled_b64 dir s1) in *. assert (W1 : norm (sub dv (scale k1 u)) <= k1 * 1.32e-15) by (assert (Z := sub_triangle dv (scale s1 dir) (scale k1 u)); lra).
    assert (N1 : norm dv <= k1 * 1.1) by (assert (Z := sub_triangle dv (scale k1 u) zero3); rewrite !sub_zero, norm_scale, K1A, NU in Z; lra).
    assert (V := ForceFloatProofs.vround (scale s2 dv)). rewrite <- ForceFloatProofs.scaled_rnd, norm_scale in V. unfold verr in V.
    assert (B2 : Rabs s2 * norm dv <= (1 + 1.55e-15) * k2 * (k1 * 1.1)) by (apply Rmult_le_compat; auto using Rabs_pos, norm_nonneg).
    assert (kk : forall z, (1 + z) * k2 * (k1 * 1.1) = (1 + z) * 1.1 * K) by (intros z; rewrite <- KK; generalize 1.1; intros; ring). rewrite kk in B2.
    assert (KL : 2.7e-36 <= K). { rewrite <- KK. apply Rle_trans with (9e-20 * 3e-17); [lra|apply Rmult_le_compat; lra]. }
    assert (D2 : norm (sub (scale s2 dv) (scale K u)) <= K * (1.55e-15 + 1.33e-15)).
    { replace (sub (scale s2 dv) (scale K u)) with (add (scale s2 (sub dv (scale k1 u))) (scale (k1 * (s2 - k2)) u)) by (rewrite <- KK; unfold add, sub, scale; cbn [x3 y3 z3]; f_equal; ring).
      eapply Rle_trans; [apply norm_triangle|]. rewrite !norm_scale, NU, Rmult_1_r, Rabs_mult, K1A. unfold rel in R12. rewrite K2A in R12.
      assert (A1 : Rabs s2 * norm (sub dv (scale k1 u)) <= (1.001 * k2) * (k1 * 1.32e-15)) by (apply Rmult_le_compat; auto using Rabs_pos, norm_nonneg; lra).
      assert (A2 : k1 * Rabs (s2 - k2) <= k1 * (1.55e-15 * k2)) by (apply Rmult_le_compat_l; lra).
      assert (E1 : forall a b, (a * k2) * (k1 * b) = a * b * K) by (intros; rewrite <- KK; ring). assert (E2 : forall a, k1 * (a * k2) = a * K) by (intros; rewrite <- KK; ring). rewrite E1 in A1. rewrite E2 in A2. lra. }
    assert (Z := sub_triangle (v3_scaled_b64 dv s2) (scale s2 dv) (scale K u)). lra.
Qed.

Lemma thrust_raises logf d md m isp t : decent_log logf -> thruster d md m isp -> 0 < t -> md * t / m <= 5.5e-17 ->
  thrust_vector_b64 logf d md m isp t = Err ZeroDivisionError.
Proof.
  intros (L1 & _) (MD & M & I & N) T Q. destruct (unit_round d ltac:(lra) ltac:(lra)) as (dir & ED & _).
  unfold thrust_vector_b64. rewrite !neq_false by lra. set (c := md * t) in *. assert (cm : c / m * m = c) by (field; lra).
  assert (cp : 0 < c) by (unfold c; apply Rmult_lt_0_compat; lra).
  assert (q0 : 0 <= b64 (b64 c / m) <= 5.55e-17).
  { assert (F := ElementsFloatProofs.b64_fine c). rewrite (Rabs_pos_eq c) in F by lra. apply Rabs_le_inv in F.
    assert (c0 : 0 <= b64 c) by (rewrite <- (b64_IZR 0) by lia; apply b64_mono; lra).
    assert (D0 : 0 <= b64 c / m) by (apply Rmult_le_pos; [exact c0|apply Rlt_le, Rinv_0_lt_compat; lra]).
    assert (D1 : b64 c / m <= 5.52e-17).
    { apply Rmult_le_reg_r with m; [lra|]. replace (b64 c / m * m) with (b64 c) by (field; lra). assert (c <= 5.5e-17 * m) by (rewrite <- cm; apply Rmult_le_compat_r; lra). lra. }
    assert (F2 := ElementsFloatProofs.b64_fine (b64 c / m)). rewrite (Rabs_pos_eq (b64 c / m)) in F2 by lra. apply Rabs_le_inv in F2.
    split; [rewrite <- (b64_IZR 0) by lia; apply b64_mono; exact D0|lra]. }
  rewrite (pdiv_some (b64 c) m) by lra. cbn [bind]. rewrite (rounds_to_one _ q0). assert (PL : plog_b64 logf 1 = Ok 0) by (unfold plog_b64; rewrite nle_false, L1 by lra; reflexivity).
  rewrite PL. cbn [bind]. rewrite ED. cbn [bind]. rewrite pdiv_some by lra. cbn [bind].
  assert (mt0 : b64 (m - b64 c) <> 0).
  { assert (F := ElementsFloatProofs.b64_fine c). rewrite (Rabs_pos_eq c) in F by lra. apply Rabs_le_inv in F. assert (c <= 5.5e-17 * m) by (rewrite <- cm; apply Rmult_le_compat_r; lra).
    assert (F2 := ElementsFloatProofs.b64_fine (m - b64 c)). rewrite (Rabs_pos_eq (m - b64 c)) in F2 by lra. apply Rabs_le_inv in F2. lra. }
  rewrite (pdiv_some md) by exact mt0. cbn [bind]. rewrite Ropp_0. unfold pdiv_b64. rewrite pdiv_zero. reflexivity.
Qed.
