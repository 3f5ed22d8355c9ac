(** Rounding of burn durations. *)
From Coq Require Import Reals ZArith Lra Lia Psatz.
From Flocq Require Import Core.
From Verif.Model Require Import Num Constants Linalg Inertial TimeFloat ElementsFloat.
From Verif.Model Require Import BurnFloat.
From Verif.Spec Require Import Geometry BurnFloat.
From Verif.Proofs Require Import NumLemmas LinalgProofs TimeFloatProofs InertialProofs StateFloatProofs.
From Verif.Proofs Require ElementsFloatProofs.
Local Open Scope R_scope.

Lemma rel_self x : rel 0 x x.
Proof. unfold rel. rewrite Rminus_eq_0, Rabs_R0. lra. Qed.
Lemma rel_nonzero d x' x : rel d x' x -> d <= 1e-6 -> x <> 0 -> x' <> 0.
Proof. intros H D NZ E. assert (L := rel_lower _ _ _ H). rewrite E, Rabs_R0 in L. assert (P := Rabs_pos_lt x NZ). nra. Qed.
Lemma rel_weaken d d' x' x : rel d x' x -> d <= d' -> rel d' x' x.
Proof. unfold rel. intros H D. eapply Rle_trans; [exact H|]. apply Rmult_le_compat_r; [apply Rabs_pos|exact D]. Qed.
Lemma rel_opp d x' x : rel d x' x -> rel d (- x') (- x).
Proof. unfold rel. intros H. replace (- x' - - x) with (- (x' - x)) by ring. rewrite !Rabs_Ropp. exact H. Qed.
Lemma pdiv_some x y : y <> 0 -> pdiv_b64 x y = Ok (b64 (x / y)).
Proof. intros H. unfold pdiv_b64. rewrite pdiv_ok by exact H. reflexivity. Qed.

Lemma exp_close u : Rabs u <= 0.1 -> Rabs (exp u - 1) <= 1.2 * Rabs u.
Proof.
  intros U. assert (A := exp_ineq1_le u). assert (B := exp_ineq1_le (- u)). rewrite exp_Ropp in B. assert (P := exp_pos u). apply Rabs_le_inv in U.
  assert (C : exp u * (1 - u) <= 1). { apply Rmult_le_reg_r with (/ exp u); [apply Rinv_0_lt_compat; exact P|]. replace (exp u * (1 - u) * / exp u) with (1 - u) by (field; lra). lra. }
  unfold Rabs at 2. destruct (Rcase_abs u) as [N|N].
  - apply Rabs_le. split; [lra|]. assert (exp u <= 1); [|lra]. rewrite <- exp_0. apply Rlt_le, exp_increasing. exact N.
  - apply Rabs_le. split; [lra|]. nra.
Qed.

Lemma e_rounded : 2 <= b64 (exp 1) <= 3 /\ Rabs (ln (b64 (exp 1)) - 1) <= 1.2e-16.
Proof.
  assert (A := exp_ineq1_le 1). assert (B := exp_le_3). assert (R : 2 <= b64 (exp 1) <= 3).
  { rewrite <- (b64_IZR 2), <- (b64_IZR 3) at 1 by lia. split; apply b64_mono; lra. }
  split; [exact R|]. assert (F := ElementsFloatProofs.b64_fine (exp 1)). rewrite (Rabs_pos_eq (exp 1)) in F by lra. set (b := b64 (exp 1)) in *. set (c := exp 1) in *.
  assert (Ec : ln c = 1) by apply ln_exp. set (u := ln b - 1).
  assert (U : exp u = b / c). { unfold u, Rminus. rewrite exp_plus, exp_Ropp, exp_ln by lra. reflexivity. }
  assert (U' : exp (- u) = c / b). { rewrite exp_Ropp, U. field. split; lra. }
  assert (A1 := exp_ineq1_le u). assert (A2 := exp_ineq1_le (- u)). rewrite U in A1. rewrite U' in A2. apply Rabs_le_inv in F.
  assert (Q1 : b / c <= 1 + 1.2e-16) by (apply Rmult_le_reg_r with c; [lra|]; replace (b / c * c) with b by (field; lra); lra).
  assert (Q2 : c / b <= 1 + 1.2e-16) by (apply Rmult_le_reg_r with b; [lra|]; replace (c / b * b) with c by (field; lra); lra).
  apply Rabs_le. lra.
Qed.

Lemma power_close L ex x : accurate_exponential L -> 0 <= x <= 10 -> rel 1.2e-15 ex (- x) ->
  Rabs (powf L (b64 (exp 1)) ex - exp (- x)) <= 2.4e-15.
Proof.
  intros AE X RE. destruct e_rounded as (B & LB). set (b := b64 (exp 1)) in *.
  assert (RX : Rabs (ex - - x) <= 1.2e-15 * x) by (unfold rel in RE; rewrite Rabs_Ropp, (Rabs_pos_eq x) in RE by lra; exact RE).
  assert (EX : -11 <= ex) by (apply Rabs_le_inv in RX; lra). assert (EX0 : ex <= 0) by (apply Rabs_le_inv in RX; lra).
  assert (P := AE b ex B (conj EX EX0)). unfold Rpower in P. set (y := ex * ln b) in *.
  set (u := y - - x). assert (UB : Rabs u <= 1.35e-15 * x).
  { replace u with (ex * (ln b - 1) + (ex - - x)) by (unfold u, y; ring). eapply Rle_trans; [apply Rabs_triang|]. rewrite Rabs_mult.
    assert (Z : Rabs ex <= 1.0001 * x). { assert (U := rel_upper _ _ _ RE). rewrite Rabs_Ropp, (Rabs_pos_eq x) in U by lra. lra. }
    assert (Rabs ex * Rabs (ln b - 1) <= 1.0001 * x * 1.2e-16) by (apply Rmult_le_compat; auto using Rabs_pos). lra. }
  assert (YE : exp y = exp (- x) * exp u) by (rewrite <- exp_plus; f_equal; unfold u; ring).
  assert (EU := exp_close u ltac:(lra)). assert (XP := exp_pos (- x)).
  assert (XE : x * exp (- x) <= 1). { assert (A := exp_ineq1_le x). rewrite exp_Ropp. assert (E0 := exp_pos x). apply Rmult_le_reg_r with (exp x); [exact E0|]. rewrite Rmult_assoc, Rinv_l by lra. lra. }
  assert (X1 : exp (- x) <= 1). { rewrite <- exp_0. destruct (Req_dec x 0) as [->|]; [rewrite Ropp_0; lra|]. apply Rlt_le, exp_increasing. lra. }
  assert (D1 : Rabs (exp y - exp (- x)) <= 1.63e-15).
  { rewrite YE. replace (exp (- x) * exp u - exp (- x)) with (exp (- x) * (exp u - 1)) by ring. rewrite Rabs_mult, (Rabs_pos_eq (exp (- x))) by lra.
    apply Rle_trans with (exp (- x) * (1.62e-15 * x)); [apply Rmult_le_compat_l; lra|]. replace (exp (- x) * (1.62e-15 * x)) with (1.62e-15 * (x * exp (- x))) by (generalize 1.62e-15; intros; ring). lra. }
  assert (Y1 : exp y <= 1.1) by (apply Rabs_le_inv in D1; lra).
  replace (powf L b ex - exp (- x)) with ((powf L b ex - exp y) + (exp y - exp (- x))) by ring. eapply Rle_trans; [apply Rabs_triang|]. lra.
Qed.

Lemma burn_close L d md m isp : accurate_exponential L -> burnable d md m isp ->
  exists T T', burn_duration (norm d) md m isp = Ok T /\ burn_duration_b64 L d md m isp = Ok T' /\ Rabs (T' - T) <= 3.2e-15 * (m / md).
Proof.
  intros AE (MD & M & I & N). set (s := md / m).
  assert (S : 1e-15 <= s <= 1e9).
  { unfold s. split; apply Rmult_le_reg_r with m; try lra; replace (md / m * m) with md by (field; lra); [apply Rle_trans with (1e-15 * 1e9)|apply Rle_trans with (1e9 * 1e-3)]; try lra; apply Rmult_le_compat_l; lra. }
  assert (IS : 1 / s = m / md) by (unfold s; field; lra). assert (Sa : Rabs s = s) by (apply Rabs_pos_eq; lra).
  assert (R1 : rel 1.121e-16 (b64 s) s) by (apply (rel_round 0); [apply rel_self|lra|lra|lra]). set (ms := b64 s) in *.
  assert (ms0 : ms <> 0) by (apply (rel_nonzero _ _ _ R1); lra).
  assert (R2 : rel 1.1211e-16 (1 / ms) (1 / s)) by (apply (rel_weaken (1.00001 * 1.121e-16)); [apply (rel_inv _ _ _ R1); lra|lra]).
  assert (IP : 1e-9 <= 1 / s). { apply Rmult_le_reg_r with s; [lra|]. replace (1 / s * s) with 1 by (field; lra). apply Rle_trans with (1e-9 * 1e9); [apply Rmult_le_compat_l; lra|lra]. }
  assert (R3 : rel 2.25e-16 (b64 (1 / ms)) (1 / s)) by (apply (rel_round 1.1211e-16); [exact R2|lra|rewrite Rabs_pos_eq; lra|lra]). set (rc := b64 (1 / ms)) in *.
  assert (R4 : rel 2.9e-16 (v3_magnitude_b64 d) (norm d)). { assert (Z := ElementsFloatProofs.mag_near d ltac:(lra)). unfold ElementsFloatProofs.near in Z. unfold rel. lra. }
  assert (sN : 1e-24 <= s * norm d) by (apply Rle_trans with (1e-15 * 1e-9); [lra|apply Rmult_le_compat; lra]).
  assert (R5 : rel 5.2e-16 (b64 (ms * v3_magnitude_b64 d)) (s * norm d)).
  { apply (rel_round 4.03e-16); [apply (rel_mul 1.121e-16 2.9e-16); [lra|exact R1|exact R4|lra|lra]|lra|rewrite Rabs_pos_eq; lra|lra]. }
  assert (iS : 1e-15 <= isp * s) by (apply Rle_trans with (1 * 1e-15); [lra|apply Rmult_le_compat; lra]).
  assert (R6 : rel 2.3e-16 (b64 (- isp * ms)) (- isp * s)).
  { apply (rel_round 1.122e-16); [apply (rel_mul 0 1.121e-16); [lra|apply rel_self|exact R1|lra|lra]|lra|replace (- isp * s) with (- (isp * s)) by ring; rewrite Rabs_Ropp, Rabs_pos_eq; lra|lra]. }
  assert (R7 : rel 1.121e-16 (b64 SEA_LEVEL_G) 0.00981) by (change SEA_LEVEL_G with 0.00981; apply (rel_round 0); [apply rel_self|lra|rewrite Rabs_pos_eq; lra|lra]).
  assert (GA : Rabs (- isp * s * 0.00981) = isp * s * 0.00981) by (replace (- isp * s * 0.00981) with (- (isp * s * 0.00981)) by ring; rewrite Rabs_Ropp; apply Rabs_pos_eq; lra).
  assert (R8 : rel 4.6e-16 (b64 (b64 (- isp * ms) * b64 SEA_LEVEL_G)) (- isp * s * 0.00981)).
  { apply (rel_round 3.43e-16); [apply (rel_mul 2.3e-16 1.121e-16); [lra|exact R6|exact R7|lra|lra]|lra|rewrite GA; lra|lra]. }
  set (dn := b64 (b64 (- isp * ms) * b64 SEA_LEVEL_G)) in *. set (nm := b64 (ms * v3_magnitude_b64 d)) in *.
  assert (G0 : - isp * s * 0.00981 <> 0) by (intros Z; rewrite Z, Rabs_R0 in GA; lra).
  assert (dn0 : dn <> 0) by (apply (rel_nonzero _ _ _ R8); [lra|exact G0]).
  assert (R9 : rel 4.61e-16 (1 / dn) (1 / (- isp * s * 0.00981))) by (apply (rel_weaken (1.00001 * 4.6e-16)); [apply (rel_inv _ _ _ R8); [lra|exact G0]|lra]).
  set (x := norm d / (isp * 0.00981)).
  assert (xe : s * norm d * (1 / (- isp * s * 0.00981)) = - x) by (unfold x; generalize dependent 0.00981; intros g; intros; field; repeat split; try lra; intros Z; subst; lra).
  assert (XB : 1e-14 <= x <= 10).
  { unfold x. assert (Q : norm d / (isp * 0.00981) * (isp * 0.00981) = norm d) by (field; lra). split; apply Rmult_le_reg_r with (isp * 0.00981); try lra. }
  assert (R10 : rel 1.2e-15 (b64 (nm / dn)) (- x)).
  { rewrite <- xe. apply (rel_round 9.82e-16); [replace (nm / dn) with (nm * (1 / dn)) by (field; exact dn0); apply (rel_mul 5.2e-16 4.61e-16); [lra|exact R5|exact R9|lra|lra]|lra|rewrite xe, Rabs_Ropp, Rabs_pos_eq; lra|lra]. }
  assert (PC := power_close L _ x AE ltac:(lra) R10). set (ex := b64 (nm / dn)) in *. set (p := powf L (b64 (exp 1)) ex) in *. set (q := exp (- x)) in *.
  assert (q1 : 0 <= q <= 1). { split; [apply Rlt_le, exp_pos|]. unfold q. rewrite <- exp_0. apply Rlt_le, exp_increasing. lra. }
  assert (Q1 : Rabs (b64 (1 - p) - (1 - q)) <= 2.6e-15).
  { assert (F := ElementsFloatProofs.b64_fine (1 - p)). assert (Z : Rabs (1 - p) <= 1.001) by (apply Rabs_le_inv in PC; apply Rabs_le; lra). apply Rabs_le_inv in F, PC. apply Rabs_le. lra. }
  set (w := b64 (1 - p)) in *.
  assert (R11 : Rabs (rc * w - 1 / s * (1 - q)) <= 2.9e-15 * (1 / s)).
  { unfold rel in R3. rewrite (Rabs_pos_eq (1 / s)) in R3 by lra. replace (rc * w - 1 / s * (1 - q)) with ((rc - 1 / s) * w + 1 / s * (w - (1 - q))) by ring. eapply Rle_trans; [apply Rabs_triang|]. rewrite !Rabs_mult, (Rabs_pos_eq (1 / s)) by lra.
    assert (wB : Rabs w <= 1.01) by (apply Rabs_le_inv in Q1; apply Rabs_le; lra).
    assert (Rabs (rc - 1 / s) * Rabs w <= 2.25e-16 * (1 / s) * 1.01) by (apply Rmult_le_compat; auto using Rabs_pos).
    assert (1 / s * Rabs (w - (1 - q)) <= 1 / s * 2.6e-15) by (apply Rmult_le_compat_l; lra). set (k := 1 / s) in *. clearbody k. lra. }
  exists (m / md * (1 - exp (- norm d / (isp * 0.00981)))), (b64 (rc * w)).
  split; [apply burn_ok; lra|]. split.
  - unfold burn_duration_b64. rewrite pdiv_some by lra. cbn [bind]. change (b64 (md / m)) with ms. rewrite pdiv_some by exact ms0. cbn [bind]. change (b64 (1 / ms)) with rc. rewrite pdiv_some by exact dn0. reflexivity.
  - replace (- norm d / (isp * 0.00981)) with (- x) by (unfold x; field; lra). fold q. rewrite <- IS.
    assert (F := ElementsFloatProofs.b64_fine (rc * w)). set (k := 1 / s) in *. set (a := k * (1 - q)) in *.
    assert (A : Rabs a <= k) by (unfold a; rewrite Rabs_mult, (Rabs_pos_eq k), (Rabs_pos_eq (1 - q)) by lra; rewrite <- (Rmult_1_r k) at 2; apply Rmult_le_compat_l; lra).
    assert (Z1 := Rabs_triang (rc * w - a) a). replace (rc * w - a + a) with (rc * w) in Z1 by ring.
    assert (Z2 := Rabs_triang (b64 (rc * w) - rc * w) (rc * w - a)). replace (b64 (rc * w) - rc * w + (rc * w - a)) with (b64 (rc * w) - a) in Z2 by ring. clearbody a k. lra.
Qed.

Lemma ln_small y : Rabs y <= 1e-3 -> Rabs (ln (1 - y)) <= 1.01 * Rabs y.
Proof.
  intros Y. assert (B := Y). apply Rabs_le_inv in B. set (u := ln (1 - y)). assert (U : exp u = 1 - y) by (apply exp_ln; lra).
  assert (A1 := exp_ineq1_le u). assert (A2 := exp_ineq1_le (- u)). rewrite exp_Ropp, U in A2. rewrite U in A1.
  assert (Q : / (1 - y) <= 1 + y + 0.0011 * Rabs y).
  { apply Rmult_le_reg_r with (1 - y); [lra|]. rewrite Rinv_l by lra. assert (P := Rabs_pos y). assert (S : y * y <= 1e-3 * Rabs y). { assert (Z : y * y = Rabs y * Rabs y) by (rewrite <- Rabs_mult, Rabs_pos_eq; [reflexivity|apply Rle_0_sqr]). rewrite Z. apply Rmult_le_compat_r; lra. }
    assert (S2 : Rabs y * y <= 1e-3 * Rabs y) by (rewrite (Rmult_comm 1e-3); apply Rmult_le_compat_l; lra). lra. }
  assert (P := Rabs_pos y). assert (Y1 := Rle_abs y). assert (Y2 := Rle_abs (- y)). rewrite Rabs_Ropp in Y2. apply Rabs_le. lra.
Qed.
Lemma exp_ten x : 0 <= x <= 10 -> 1 <= exp x <= 60000.
Proof.
  intros X. assert (A := exp_ineq1_le x). split; [lra|]. apply Rle_trans with (exp 10).
  - destruct (Req_dec x 10) as [->|]; [lra|]. apply Rlt_le, exp_increasing. lra.
  - assert (B := exp_le_3). assert (E : exp 10 = exp 1 ^ 10). { rewrite <- Rpower_pow by apply exp_pos. unfold Rpower. rewrite ln_exp, Rmult_1_r. f_equal. simpl. lra. }
    rewrite E. apply Rle_trans with (3 ^ 10); [apply pow_incr; split; [apply Rlt_le, exp_pos|exact B]|simpl; lra].
Qed.
Lemma burn_delivers L d md m isp : accurate_exponential L -> burnable d md m isp ->
  exists T', burn_duration_b64 L d md m isp = Ok T' /\ 0 < m - md * T' /\
    Rabs (isp * 0.00981 * ln (m / (m - md * T')) - norm d) <= isp * 0.00981 * (3.3e-15 * exp (norm d / (isp * 0.00981))).
Proof.
  intros AE HB. destruct (burn_close L d md m isp AE HB) as (T & T' & ET & ET' & C). destruct HB as (MD & M & I & N). exists T'. split; [exact ET'|].
  rewrite burn_ok in ET by lra. injection ET as ET. set (g := isp * 0.00981) in *. assert (G : 0 < g) by (unfold g; lra). clearbody g.
  set (x := norm d / g). assert (xg : x * g = norm d) by (unfold x; field; lra). assert (X : 0 <= x <= 10) by (split; apply Rmult_le_reg_r with g; lra).
  replace (- norm d / g) with (- x) in ET by (unfold x; field; lra). destruct (exp_ten x X) as (E1 & E2). rewrite exp_Ropp in ET. set (w := exp x) in *.
  assert (MT : md * T = m - m * / w) by (rewrite <- ET; field; split; lra).
  set (y := md * (T' - T) / m * w).
  assert (YB : Rabs y <= 3.2e-15 * w).
  { unfold y. rewrite Rabs_mult, (Rabs_pos_eq w) by lra. apply Rmult_le_compat_r; [lra|]. unfold Rdiv. rewrite !Rabs_mult, (Rabs_pos_eq md), Rabs_inv, (Rabs_pos_eq m) by lra.
    apply Rle_trans with (md * (3.2e-15 * (m / md)) * / m).
    - apply Rmult_le_compat_r; [apply Rlt_le, Rinv_0_lt_compat; lra|]. apply Rmult_le_compat_l; lra.
    - right. change (md * (3.2e-15 * (m / md)) * / m = 3.2e-15). generalize 3.2e-15. intros. field. split; lra. }
  assert (YS : Rabs y <= 1e-3) by lra. assert (Y2 := YS). apply Rabs_le_inv in Y2.
  assert (REM : m - md * T' = m * / w * (1 - y)). { unfold y. replace (md * T') with (md * T + md * (T' - T)) by ring. rewrite MT. field. split; lra. }
  assert (mw : 0 < m * / w) by (apply Rmult_lt_0_compat; [lra|apply Rinv_0_lt_compat; lra]).
  split; [rewrite REM; apply Rmult_lt_0_compat; lra|].
  assert (RAT : m / (m - md * T') = w * / (1 - y)) by (rewrite REM; field; repeat split; lra).
  rewrite RAT, ln_mult, ln_Rinv by (try apply Rinv_0_lt_compat; lra). unfold w at 1. rewrite ln_exp. rewrite <- xg at 1.
  replace (g * (x + - ln (1 - y)) - x * g) with (g * - ln (1 - y)) by ring. rewrite Rabs_mult, Rabs_Ropp, (Rabs_pos_eq g) by lra. apply Rmult_le_compat_l; [lra|].
  assert (LS := ln_small y YS). change (exp x) with w. lra.
Qed.
