From Coq Require Import Reals ZArith List Lra Lia Psatz.
From Flocq Require Import Core.
From Verif.Model Require Import Num Constants Linalg Functions Time Celestial Positions States TimeFloat AngleFloat ElementsFloat FrameFloat GroundFloat EarthFloat BodyFloat ForceFloat GravityFloat.
From Verif.Spec Require Import Geometry LibmAccuracy FrameFloat SiderealFloat EarthFloat GroundFloat.
From Verif.Proofs Require Import NumLemmas LinalgProofs TimeFloatProofs AngleFloatProofs ElementsFloatProofs StateFloatProofs ClockProofs PiDigits Analysis FrameFloatBasics OrbitFloatAngles.
Local Notation near := ElementsFloatProofs.near.
Local Open Scope R_scope.

(** * Sizes and errors in units

    [gb w s X d q' q]: the exact value [q] is at most [X * s] in size and the
    computed [q'] is within [d * w * s] of it; [s] is a scale and [w] the
    relative error of the inputs. *)
Definition unit_range (w : R) : Prop := 8e-11 <= w <= 2.8e-8.
Definition gb (w s X d q' q : R) : Prop := Rabs q <= X * s /\ Rabs (q' - q) <= d * (w * s).

Lemma gb_weaken w s X d Y e q' q : unit_range w -> 0 < s -> gb w s X d q' q -> X <= Y -> d <= e -> gb w s Y e q' q.
Proof.
  intros W S [A B] XY DE. assert (0 < w * s) by (unfold unit_range in W; nra). split; [eapply Rle_trans; [exact A|]|eapply Rle_trans; [exact B|]]; apply Rmult_le_compat_r; lra.
Qed.
Lemma gb_scale w s s' X d q' q : gb w s X d q' q -> s = s' -> gb w s' X d q' q.
Proof. now intros H <-. Qed.
Lemma gb_tight w s X Y d q' q : gb w s X d q' q -> Rabs q <= Y * s -> gb w s Y d q' q.
Proof. intros [_ B] A. now split. Qed.
Lemma gb_pos w s X d q' q : unit_range w -> 0 < s -> gb w s X d q' q -> 0 <= X /\ 0 <= d.
Proof.
  intros W S [A B]. assert (P : 0 < w * s) by (unfold unit_range in W; nra). assert (A' := Rabs_pos q). assert (B' := Rabs_pos (q' - q)).
  split; apply Rnot_lt_le; intros Z; [assert (X * s < 0) by nra|assert (d * (w * s) < 0) by nra]; lra.
Qed.
Lemma gb_exact w s X c : unit_range w -> 0 < s -> Rabs c <= X * s -> gb w s X 0 c c.
Proof. intros W S H. split; [exact H|]. replace (c - c) with 0 by ring. rewrite Rabs_R0. lra. Qed.

Lemma round_unit w s X y : unit_range w -> 1e-30 <= s -> 1e-12 <= X -> Rabs y <= 1.001 * (X * s) -> Rabs (b64 y - y) <= 1.6e-6 * X * (w * s).
Proof.
  intros W S XL Y. unfold unit_range in W. assert (F := b64_fine y). eapply Rle_trans; [exact F|].
  assert (P : 1e-42 <= X * s). { apply Rle_trans with (1e-12 * 1e-30); [lra|]. apply Rmult_le_compat; lra. }
  apply Rle_trans with (1.6e-6 * (X * s) * 8e-11); [lra|]. apply Rle_trans with (1.6e-6 * (X * s) * w); [apply Rmult_le_compat_l; lra|]. right. ring.
Qed.
Lemma gb_round w s X d d' q' q : unit_range w -> 1e-30 <= s -> 1e-12 <= X -> gb w s X d q' q -> d <= 3e4 * X -> d + 1.6e-6 * X <= d' -> gb w s X d' (b64 q') q.
Proof.
  intros W S XL [A B] DX D. split; [exact A|]. assert (WS : 0 < w * s) by (unfold unit_range in W; nra).
  assert (Q : Rabs q' <= 1.001 * (X * s)).
  { replace q' with (q + (q' - q)) by ring. eapply Rle_trans; [apply Rabs_triang|].
    assert (d * (w * s) <= 3e4 * X * (w * s)) by (apply Rmult_le_compat_r; lra).
    assert (3e4 * X * (w * s) <= 0.001 * (X * s)); [|lra]. unfold unit_range in W. replace (3e4 * X * (w * s)) with (3e4 * w * (X * s)) by ring. apply Rmult_le_compat_r; [apply Rmult_le_pos; lra|lra]. }
  assert (F := round_unit w s X q' W S XL Q). replace (b64 q' - q) with ((b64 q' - q') + (q' - q)) by ring. eapply Rle_trans; [apply Rabs_triang|].
  apply Rle_trans with ((1.6e-6 * X + d) * (w * s)); [lra|]. apply Rmult_le_compat_r; lra.
Qed.

Lemma gb_mul_exact w s1 s2 X1 d1 X2 d2 a' a b' b : unit_range w -> 0 < s1 -> 0 < s2 -> gb w s1 X1 d1 a' a -> gb w s2 X2 d2 b' b ->
  gb w (s1 * s2) (X1 * X2) (X1 * d2 + X2 * d1 + 2.8e-8 * (d1 * d2)) (a' * b') (a * b).
Proof.
  intros W S1 S2 A B. destruct (gb_pos _ _ _ _ _ _ W S1 A) as [P1 Q1]. destruct (gb_pos _ _ _ _ _ _ W S2 B) as [P2 Q2].
  destruct A as [A DA]. destruct B as [B DB]. unfold unit_range in W. split.
  - rewrite Rabs_mult. replace (X1 * X2 * (s1 * s2)) with ((X1 * s1) * (X2 * s2)) by ring. apply Rmult_le_compat; auto using Rabs_pos.
  - replace (a' * b' - a * b) with (a * (b' - b) + b * (a' - a) + (a' - a) * (b' - b)) by ring.
    eapply Rle_trans; [apply Rabs_triang|]. eapply Rle_trans; [apply Rplus_le_compat_r, Rabs_triang|]. rewrite !Rabs_mult.
    assert (T1 : Rabs a * Rabs (b' - b) <= (X1 * s1) * (d2 * (w * s2))) by (apply Rmult_le_compat; auto using Rabs_pos).
    assert (T2 : Rabs b * Rabs (a' - a) <= (X2 * s2) * (d1 * (w * s1))) by (apply Rmult_le_compat; auto using Rabs_pos).
    assert (T3 : Rabs (a' - a) * Rabs (b' - b) <= (d1 * (w * s1)) * (d2 * (w * s2))) by (apply Rmult_le_compat; auto using Rabs_pos).
    assert (T4 : (d1 * (w * s1)) * (d2 * (w * s2)) <= 2.8e-8 * (d1 * d2) * (w * (s1 * s2))).
    { replace ((d1 * (w * s1)) * (d2 * (w * s2))) with (w * ((d1 * d2) * (w * (s1 * s2)))) by ring. replace (2.8e-8 * (d1 * d2) * (w * (s1 * s2))) with (2.8e-8 * ((d1 * d2) * (w * (s1 * s2)))) by ring. apply Rmult_le_compat_r; [|lra]. repeat apply Rmult_le_pos; lra. }
    replace ((X1 * d2 + X2 * d1 + 2.8e-8 * (d1 * d2)) * (w * (s1 * s2))) with ((X1 * s1) * (d2 * (w * s2)) + (X2 * s2) * (d1 * (w * s1)) + 2.8e-8 * (d1 * d2) * (w * (s1 * s2))) by ring. lra.
Qed.

(** The numeric side conditions are left to the caller. *)
Lemma gmul w s1 s2 X1 d1 X2 d2 a' a b' b : unit_range w -> 0 < s1 -> 0 < s2 -> 1e-30 <= s1 * s2 -> gb w s1 X1 d1 a' a -> gb w s2 X2 d2 b' b ->
  forall X d, 1e-12 <= X -> X1 * X2 <= X -> d <= 3e4 * X -> X1 * d2 + X2 * d1 + 2.8e-8 * (d1 * d2) + 1.6e-6 * X <= d -> gb w (s1 * s2) X d (b64 (a' * b')) (a * b).
Proof.
  intros W S1 S2 S A B X d XL XX DX D. assert (M := gb_mul_exact _ _ _ _ _ _ _ _ _ _ _ W S1 S2 A B).
  apply (gb_round w (s1 * s2) X (d - 1.6e-6 * X)); try lra; auto. eapply gb_weaken; [exact W|lra|exact M|lra|lra].
Qed.
Lemma gadd w s X1 d1 X2 d2 a' a b' b : unit_range w -> 1e-30 <= s -> gb w s X1 d1 a' a -> gb w s X2 d2 b' b ->
  forall X d, 1e-12 <= X -> X1 + X2 <= X -> d <= 3e4 * X -> d1 + d2 + 1.6e-6 * X <= d -> gb w s X d (b64 (a' + b')) (a + b).
Proof.
  intros W S [A DA] [B DB] X d XL XX DX D. apply (gb_round w s X (d - 1.6e-6 * X)); try lra; auto. assert (WS : 0 < w * s) by (unfold unit_range in W; nra). split.
  - eapply Rle_trans; [apply Rabs_triang|]. apply Rle_trans with ((X1 + X2) * s); [lra|]. apply Rmult_le_compat_r; lra.
  - replace (a' + b' - (a + b)) with ((a' - a) + (b' - b)) by ring. eapply Rle_trans; [apply Rabs_triang|]. apply Rle_trans with ((d1 + d2) * (w * s)); [lra|]. apply Rmult_le_compat_r; lra.
Qed.
Lemma gopp w s X d a' a : gb w s X d a' a -> gb w s X d (- a') (- a).
Proof. intros [A B]. split; [rewrite Rabs_Ropp; exact A|]. replace (- a' - - a) with (- (a' - a)) by ring. rewrite Rabs_Ropp. exact B. Qed.
Lemma gsub w s X1 d1 X2 d2 a' a b' b : unit_range w -> 1e-30 <= s -> gb w s X1 d1 a' a -> gb w s X2 d2 b' b ->
  forall X d, 1e-12 <= X -> X1 + X2 <= X -> d <= 3e4 * X -> d1 + d2 + 1.6e-6 * X <= d -> gb w s X d (b64 (a' - b')) (a - b).
Proof. intros W S A B X d XL XX DX D. exact (gadd w s X1 d1 X2 d2 a' a _ _ W S A (gopp _ _ _ _ _ _ B) X d XL XX DX D). Qed.

(** A number computed to ten roundings. *)
Lemma gb_near w s X k q' q : unit_range w -> 0 < s -> 0 <= k <= 10 -> near k q' q -> Rabs q <= X * s -> gb w s X (1.3e-5 * X) q' q.
Proof.
  intros W S K N Q. split; [exact Q|]. unfold near in N. unfold unit_range in W. eapply Rle_trans; [exact N|].
  assert (P := Rabs_pos q). assert (Z : 0 <= X * s) by lra. apply Rle_trans with (10 * 1e-16 * (X * s)); [apply Rmult_le_compat; [lra|lra|lra|exact Q]|].
  replace (1.3e-5 * X * (w * s)) with (1.3e-5 * w * (X * s)) by ring. apply Rmult_le_compat_r; lra.
Qed.

Lemma one_ok : 1e-30 <= 1. Proof. lra. Qed.
Lemma gmul_l w s X1 d1 X2 d2 a' a b' b : unit_range w -> 1e-30 <= s -> gb w s X1 d1 a' a -> gb w 1 X2 d2 b' b ->
  forall X d, 1e-12 <= X -> X1 * X2 <= X -> d <= 3e4 * X -> X1 * d2 + X2 * d1 + 2.8e-8 * (d1 * d2) + 1.6e-6 * X <= d -> gb w s X d (b64 (a' * b')) (a * b).
Proof.
  intros W S A B X d H1 H2 H3 H4. apply (gb_scale w (s * 1)); [|ring]. eapply (gmul w s 1); [exact W|lra|lra|lra|exact A|exact B|exact H1|exact H2|exact H3|exact H4].
Qed.
Lemma gmul_1 w X1 d1 X2 d2 a' a b' b : unit_range w -> gb w 1 X1 d1 a' a -> gb w 1 X2 d2 b' b ->
  forall X d, 1e-12 <= X -> X1 * X2 <= X -> d <= 3e4 * X -> X1 * d2 + X2 * d1 + 2.8e-8 * (d1 * d2) + 1.6e-6 * X <= d -> gb w 1 X d (b64 (a' * b')) (a * b).
Proof. intros W A B. exact (gmul_l w 1 X1 d1 X2 d2 a' a b' b W one_ok A B). Qed.
Lemma glit w c : unit_range w -> 0 <= c -> gb w 1 c 0 c c.
Proof. intros W C. apply gb_exact; [exact W|lra|]. rewrite Rabs_pos_eq; lra. Qed.
Lemma near_self x : near 1.13 x x.
Proof. apply near_weaken with 0; [apply near_refl|lra]. Qed.
Lemma b64_near_pos x : 1e-40 <= x -> near 1.13 (b64 x) x.
Proof. intros H. apply b64_near. rewrite Rabs_pos_eq; lra. Qed.

Lemma coef_gb w c q q' y X : unit_range w -> near 1.13 q' q -> 0.01 <= y -> y * y <= q -> q <= 1e4 -> 1e-20 <= Rabs c -> Rabs c <= X * y -> 1e-20 <= X -> gb w 1 X (1.3e-5 * X) (coefficient_b64 c q') (c / sqrt q).
Proof.
  intros W NQ Y YQ QU CL CU XL. assert (Q0 : 0 < q) by nra.
  assert (SY : y <= sqrt q) by (rewrite <- (sqrt_square y) by lra; apply sqrt_le_1_alt; exact YQ).
  assert (SU : sqrt q <= 100) by (rewrite <- (sqrt_square 100) by lra; apply sqrt_le_1_alt; lra).
  assert (S0 : 0 < sqrt q) by lra.
  assert (SN : near 1.73 (b64 (sqrt q')) (sqrt q)). { eapply near_weaken; [apply near_round; [|apply (near_sqrt 1.13); [lra|exact Q0|exact NQ]|rewrite Rabs_pos_eq; lra]; lra|lra]. }
  assert (CQ : Rabs (c / sqrt q) = Rabs c / sqrt q) by (unfold Rdiv; rewrite Rabs_mult, (Rabs_pos_eq (/ sqrt q)) by (left; apply Rinv_0_lt_compat; lra); reflexivity).
  assert (LO : 1e-22 <= Rabs (c / sqrt q)). { rewrite CQ. apply Rmult_le_reg_r with (sqrt q); [lra|]. rewrite div_mul by lra. lra. }
  apply (gb_near w 1 X 5); [exact W|lra|lra| |].
  - eapply near_weaken; [apply near_round; [|apply (near_div 1.13 1.73); [lra|lra|lra|apply b64_near; lra|exact SN]|lra]; lra|lra].
  - rewrite CQ, Rmult_1_r. apply Rmult_le_reg_r with (sqrt q); [lra|]. rewrite div_mul by lra. apply Rle_trans with (X * y); [exact CU|]. apply Rmult_le_compat_l; lra.
Qed.
Ltac abs_lit := first [rewrite Rabs_pos_eq by lra; lra | rewrite Rabs_left by lra; lra].
Lemma coef_gb_d w c q q' y X d : unit_range w -> near 1.13 q' q -> 0.01 <= y -> y * y <= q -> q <= 1e4 -> 1e-20 <= Rabs c -> Rabs c <= X * y -> 1e-20 <= X -> 1.3e-5 * X <= d -> gb w 1 X d (coefficient_b64 c q') (c / sqrt q).
Proof. intros W H1 H2 H3 H4 H5 H6 H7 H8. eapply gb_weaken; [exact W|lra|apply (coef_gb w c q q' y X); assumption|lra|exact H8]. Qed.
