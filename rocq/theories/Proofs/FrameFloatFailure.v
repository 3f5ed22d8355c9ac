From Coq Require Import Reals ZArith Lra Lia Bool Psatz.
From Flocq Require Import Core.
From Verif.Model Require Import Num Constants Linalg Time States TimeFloat ElementsFloat PositionsFloat.
From Verif.Spec Require Import Geometry LibmAccuracy.
From Verif.Proofs Require Import NumLemmas LinalgProofs CelestialProofs StatesProofs TimeFloatProofs ElementsFloatProofs FloatEval FloatFailures ClockProofs.
From Verif.Model Require Import FrameFloat.
From Verif.Spec Require Import FrameFloat.
From Verif.Proofs Require Import FrameFloatBasics FrameFloatProofs FrameFloatBack.
Local Open Scope R_scope.

Definition side_origin (t : epoch) : gcrf := GCRF t (V3 9000 (-5000) 9000) (V3 (-5) (-5) (-3)).
Definition side_state (t : epoch) (v : vec3) : gcrf := GCRF t (V3 (60000 + 1 / 1024) (-18000) (-70000)) v.

Lemma side_x : 60000 + 1 / 1024 = exact (FDiv (FZ 61440001) (FZ 1024)).
Proof.
  change (exact (FDiv (FZ 61440001) (FZ 1024))) with (b64 (exact (FZ 61440001) / exact (FZ 1024))). rewrite !exact_Z by lia.
  replace (60000 + 1 / 1024) with (61440001 / 1024) by lra. symmetry.
  apply round_generic; [apply valid_rnd_N|]. replace (61440001 / 1024) with (IZR 61440001 * bpow radix2 (-10)) by (unfold Rdiv; change (bpow radix2 (-10)) with (/ 1024); reflexivity).
  apply generic_format_FLT. exists (Float radix2 61440001 (-10)); [reflexivity| |]; cbn [Fnum Fexp]; cbn; lia.
Qed.


Definition enorm (a : evec) : evec := let k := FDiv (FZ 1) (emag a) in EV (FMul (ex a) k) (FMul (ey a) k) (FMul (ez a) k).

Lemma enorm_ok a : sgn (emag a) = Some Gt -> v3_normalized_b64 (ev a) = Ok (ev (enorm a)).
Proof.
  intros H. unfold v3_normalized_b64. rewrite emag_ok, <- (exact_Z 1) by lia. rewrite div_exact by auto. reflexivity.
Qed.

Lemma above_raises L t r v p u : 
  sgn (emag r) = Some Gt -> sgn (emag (ecross r v)) = Some Gt -> sgn (emag p) = Some Gt ->
  sgn (FSub (FDiv (edot (enorm (ecross r v)) p) (emag p)) (FZ 1)) = Some Gt ->
  gcrf_to_hcw_b64 L (GCRF t (ev r) (ev v)) (GCRF t (ev p) u) = Err ValueError.
Proof.
  intros A B C D. unfold gcrf_to_hcw_b64, HCW_frame_matrix_b64. cbn [g_position g_velocity GCRF].
  rewrite ecross_ok, !enorm_ok by auto. cbn [bind m3_multiply_vector_b64 m3_row1 m3_row2 m3_row3 x3 y3 z3]. rewrite emag_ok.
  change (v3_dot_b64 (ev (enorm (ecross r v))) (ev p)) with (exact (edot (enorm (ecross r v)) p)). rewrite emag_ok, div_exact by auto. cbn [bind].
  apply above_exact in D. unfold pasin_b64, nlt. destruct (Rlt_dec 1 _); [|contradiction]. rewrite orb_true_r. reflexivity.
Qed.

Lemma side_raises L t u : gcrf_to_hcw_b64 L (side_origin t) (side_state t u) = Err ValueError.
Proof.
  unfold side_origin, side_state. rewrite side_x.
  change (-5000) with (IZR (-5000)). change (-5) with (IZR (-5)). change (-3) with (IZR (-3)). change (-18000) with (IZR (-18000)). change (-70000) with (IZR (-70000)).
  rewrite <- !exact_Z by lia.
  apply (above_raises L t (EV (FZ 9000) (FZ (-5000)) (FZ 9000)) (EV (FZ (-5)) (FZ (-5)) (FZ (-3))) (EV (FDiv (FZ 61440001) (FZ 1024)) (FZ (-18000)) (FZ (-70000)))); vm_compute; reflexivity.
Qed.

Lemma sqrt_lower a x : 0 <= a -> a * a <= x -> a <= sqrt x.
Proof. intros A H. rewrite <- (sqrt_square a) by auto. apply sqrt_le_1_alt; auto. Qed.
Lemma sqrt_upper a x : 0 <= a -> x <= a * a -> sqrt x <= a.
Proof. intros A H. rewrite <- (sqrt_square a) by auto. apply sqrt_le_1_alt; auto. Qed.

Lemma side_ordinary t : ordinary_origin (side_origin t).
Proof.
  unfold ordinary_origin, side_origin. cbn [g_position g_velocity GCRF].
  assert (A : 13674 <= norm (V3 9000 (-5000) 9000) <= 13675) by (unfold norm, dot; cbn [x3 y3 z3]; split; [apply sqrt_lower|apply sqrt_upper]; lra).
  assert (B : 7.6 <= norm (V3 (-5) (-5) (-3)) <= 7.7) by (unfold norm, dot; cbn [x3 y3 z3]; split; [apply sqrt_lower|apply sqrt_upper]; lra).
  assert (C : 93936 <= norm (cross (V3 9000 (-5000) 9000) (V3 (-5) (-5) (-3)))) by (unfold norm, dot, cross; cbn [x3 y3 z3]; apply sqrt_lower; lra).
  repeat split; try lra. nra.
Qed.

Lemma side_exact t u : exists h, gcrf_to_hcw (side_origin t) (side_state t u) = Ok h.
Proof.
  destruct (gcrf_hcw_gcrf (side_origin t) (side_state t u)) as (h & E & _).
  - apply origin_nonradial, side_ordinary.
  - unfold side_origin, side_state. cbn [g_position g_velocity GCRF]. unfold cross, zero3. cbn [x3 y3 z3]. intros E. injection E as E1 E2 E3. lra.
  - eauto.
Qed.
