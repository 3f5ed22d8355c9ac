(** C102: Hill propagation in floating point. *)
From Coq Require Import Reals ZArith Lra List.
From Verif.Model Require Import Num Linalg Time States Relative TimeFloat AngleFloat ElementsFloat RelativeFloat.
From Verif.Spec Require Import Geometry Gravity Hill LibmAccuracy HillFloat.
From Verif.Proofs Require Import NumLemmas RelativeProofs KeplerFloatProofs StateFloatProofs HillFloatProofs.
Import ListNotations.
Local Open Scope R_scope.

(** The rounded propagator never raises, its rate is right to 4e-16, and one
    step of at most five quarters of a revolution ends within 6.5e-14 (1 + n|t|)
    of the exact Clohessy-Wiltshire motion, relative to the size of the state. *)
Theorem C102_one_step : forall L s a n t, accurate_trig L -> 1 <= a <= 1e9 -> 0 < n -> n ^ 2 * a ^ 3 = mu_earth -> Rabs (n * t) <= 7.9 ->
  exists h h', Hill_b64 s a = Ok h /\ hill_step_by_seconds_b64 L h t = Ok h' /\
    forall c, clohessy_wiltshire n c -> c 0 = state_vector s ->
      hill_size n (v6_minus (state_vector (hl_state h')) (c t)) <= 6.5e-14 * (1 + Rabs (n * t)) * (hill_size n (state_vector s) + 1e-30).
Proof. exact hill_rounded_once. Qed.
Print Assumptions C102_one_step.

(** After any number of steps of any lengths, forwards or backwards, the error
    has grown no faster than the number of steps and radians, times the square
    of the radians covered: rounding never makes the motion run away. *)
Theorem C102_steps : forall L s a n l, accurate_trig L -> 1 <= a <= 1e9 -> 0 < n -> n ^ 2 * a ^ 3 = mu_earth ->
  Forall (fun t => Rabs (n * t) <= 7.9) l -> (INR (length l) + n * covered l) * (1 + n * covered l) <= 1e11 ->
  exists h h', Hill_b64 s a = Ok h /\ hl_state h = s /\ Rabs (hl_n h - n) <= 4e-16 * n /\
    hill_steps_b64 L l h = Ok h' /\ hl_n h' = hl_n h /\ hl_sma h' = a /\ hl_step_size h' = 600 /\
    forall c, clohessy_wiltshire n c -> c 0 = state_vector s ->
      hill_size n (v6_minus (state_vector (hl_state h')) (c (elapsed l))) <=
        1.1e-10 * (1 + n * covered l) ^ 2 * (INR (length l) + n * covered l) * (hill_size n (state_vector s) + 1e-30).
Proof. exact hill_rounded. Qed.
Print Assumptions C102_steps.

(** A spacecraft some ten kilometres behind a geostationary one, a day in
    default steps of ten minutes: less than ten centimetres in all. *)
Example C102_example : exists L n h h' c, accurate_trig L /\ 0 < n /\ n ^ 2 * 42164 ^ 3 = mu_earth /\
  let s := State (Epoch 51544.5) (V3 1 (-10) 0.5) (V3 0.001 0 (-0.002)) in
  Hill_b64 s 42164 = Ok h /\ hill_steps_b64 L (repeat 600 144) h = Ok h' /\
  clohessy_wiltshire n c /\ c 0 = state_vector s /\ hill_size n (v6_minus (state_vector (hl_state h')) (c 86400)) <= 1e-4.
Proof.
  set (n := sqrt (mu_earth / (42164 * 42164 * 42164))). set (L := Libm (fun x => b64 (sin x)) (fun x => b64 (cos x)) asin (fun x _ => x) Rpower).
  assert (A : accurate_trig L) by (apply rounded_trig; reflexivity).
  assert (Q : 5.3e-9 <= mu_earth / (42164 * 42164 * 42164) <= 5.33e-9) by (split; [apply le_div|apply div_le]; unfold mu_earth; lra).
  assert (N : 7.2e-5 <= n <= 7.31e-5).
  { unfold n. split; [rewrite <- (sqrt_square 7.2e-5) by lra|rewrite <- (sqrt_square 7.31e-5) by lra]; apply sqrt_le_1_alt; lra. }
  assert (E : n ^ 2 * 42164 ^ 3 = mu_earth).
  { replace (n ^ 2) with (n * n) by ring. unfold n. rewrite sqrt_sqrt by lra. field. }
  set (s := State (Epoch 51544.5) (V3 1 (-10) 0.5) (V3 0.001 0 (-0.002))).
  assert (Cv : covered (repeat 600 144) = 86400).
  { assert (G : forall k, covered (repeat 600 k) = INR k * 600).
    { induction k as [|k IH]; [cbn; ring|]. cbn [repeat covered fold_right]. fold (covered (repeat 600 k)). rewrite IH, S_INR, Rabs_pos_eq by lra. ring. }
    rewrite G. change 144%nat with (Z.to_nat 144). rewrite INR_IZR_INZ, Znat.Z2Nat.id by discriminate. lra. }
  assert (Le : INR (length (repeat 600 144)) = 144).
  { rewrite repeat_length. change 144%nat with (Z.to_nat 144). rewrite INR_IZR_INZ, Znat.Z2Nat.id by discriminate. lra. }
  assert (El : elapsed (repeat 600 144) = 86400).
  { rewrite elapsed_repeat. change 144%nat with (Z.to_nat 144). rewrite INR_IZR_INZ, Znat.Z2Nat.id by discriminate. lra. }
  destruct (C102_steps L s 42164 n (repeat 600 144) A ltac:(lra) ltac:(lra) E) as (h & h' & H1 & _ & _ & H2 & _ & _ & _ & H3).
  - apply Forall_forall. intros t Ht. apply repeat_spec in Ht. subst t. apply Rabs_le. lra.
  - rewrite Cv, Le. apply Rle_trans with (151 * 8); [apply Rmult_le_compat; lra|lra].
  - exists L, n, h, h', (motion n (state_vector s)). split; [exact A|]. split; [lra|]. split; [exact E|]. cbv zeta. split; [exact H1|]. split; [exact H2|].
    assert (M := motion_cw n (state_vector s) ltac:(lra)). assert (M0 := motion_zero n (state_vector s) ltac:(lra)).
    split; [exact M|]. split; [exact M0|]. specialize (H3 _ M M0). rewrite Cv, Le, El in H3. eapply Rle_trans; [exact H3|].
    assert (Z : hill_size n (state_vector s) <= 60).
    { unfold hill_size, s, state_vector, v6_from_position_and_velocity. cbn [s_position s_velocity x3 y3 z3 x6 y6 z6 vx6 vy6 vz6].
      rewrite Rabs_R0, (Rabs_pos_eq 1), (Rabs_left (-10)), (Rabs_pos_eq 0.5), (Rabs_pos_eq 0.001), (Rabs_left (-0.002)) by lra.
      assert ((0.001 + 0 + - -0.002) / n <= 42) by (apply div_le; lra). lra. }
    assert (P : 0 <= hill_size n (state_vector s)) by (apply size_pos; lra).
    assert (B : (1 + n * 86400) ^ 2 <= 7.32 ^ 2) by (apply pow_incr; lra). assert (B0 : 0 <= (1 + n * 86400) ^ 2) by (apply pow_le; lra).
    apply Rle_trans with (1.1e-10 * 7.32 ^ 2 * 151 * 61); [|lra].
    apply Rmult_le_compat; [apply Rmult_le_pos; [lra|lra]|lra| |lra]. apply Rmult_le_compat; lra.
Qed.
Print Assumptions C102_example.
