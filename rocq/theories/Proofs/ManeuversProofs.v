(** Proofs about planning/maneuvers.py. *)
From Coq Require Import Reals Lra Psatz.
From Verif.Model Require Import Num Constants Linalg Functions Time Celestial Maneuvers.
From Verif.Spec Require Import Gravity.
From Verif.Proofs Require Import NumLemmas FunctionsProofs.
Local Open Scope R_scope.

Lemma mu_gt : 0 < mu_earth. Proof. unfold mu_earth; lra. Qed.
Lemma circular_ok r : 0 < r -> circular_velocity r = Ok (sqrt (mu_earth / r)).
Proof.
  intros H. unfold circular_velocity. rewrite pdiv_ok by lra. cbn [bind]. apply psqrt_ok.
  left; apply Rdiv_pos; auto. exact mu_gt.
Qed.
Lemma eccentric_ok r1 r2 : 0 < r1 -> 0 < r2 ->
  eccentric_velocity r1 ((r1 + r2) / 2) = Ok (sqrt (2 * mu_earth * r2 / (r1 * (r1 + r2)))) /\
  0 < 2 * mu_earth * r2 / (r1 * (r1 + r2)).
Proof.
  intros H1 H2. assert (M := mu_gt).
  assert (P : 0 < 2 * mu_earth * r2 / (r1 * (r1 + r2))) by (apply Rdiv_pos; nra).
  split; auto. unfold eccentric_velocity. rewrite !pdiv_ok by lra. cbn [bind].
  change Earth_MU with mu_earth.
  replace (mu_earth * (2 / r1 - 1 / ((r1 + r2) / 2))) with (2 * mu_earth * r2 / (r1 * (r1 + r2))) by (field; lra).
  apply psqrt_ok. lra.
Qed.
Definition transfer (r1 r2 : R) : hohmann :=
  let iv := sqrt (mu_earth / r1) in let fv := sqrt (mu_earth / r2) in
  let t1 := sqrt (2 * mu_earth * r2 / (r1 * (r1 + r2))) in
  let t2 := sqrt (2 * mu_earth * r1 / (r2 * (r2 + r1))) in
  mkHohmann iv t1 t2 fv (t1 - iv) (fv - t2).
Lemma Hohmann_ok r1 r2 : 0 < r1 -> 0 < r2 -> Hohmann r1 r2 = Ok (transfer r1 r2).
Proof.
  intros H1 H2. unfold Hohmann. rewrite !circular_ok by auto. cbv zeta. cbn [bind].
  rewrite (proj1 (eccentric_ok r1 r2 H1 H2)). cbn [bind].
  replace ((r1 + r2) / 2) with ((r2 + r1) / 2) by lra.
  rewrite (proj1 (eccentric_ok r2 r1 H2 H1)). reflexivity.
Qed.

Lemma Hohmann_spec r1 r2 : 0 < r1 -> 0 < r2 -> exists m, Hohmann r1 r2 = Ok m /\
  0 < initial_velocity m /\ initial_velocity m ^ 2 = mu_earth / r1 /\
  0 < final_velocity m /\ final_velocity m ^ 2 = mu_earth / r2 /\
  0 < transfer_velocity_1 m /\ 0 < transfer_velocity_2 m /\
  transfer_velocity_1 m ^ 2 / 2 - mu_earth / r1 = - mu_earth / (r1 + r2) /\
  transfer_velocity_2 m ^ 2 / 2 - mu_earth / r2 = - mu_earth / (r1 + r2) /\
  r1 * transfer_velocity_1 m = r2 * transfer_velocity_2 m /\
  initial_velocity m + delta_v_1 m = transfer_velocity_1 m /\
  transfer_velocity_2 m + delta_v_2 m = final_velocity m.
Proof.
  intros H1 H2. exists (transfer r1 r2). split; [apply Hohmann_ok; auto|].
  assert (M := mu_gt). destruct (eccentric_ok r1 r2 H1 H2) as [_ P1]. destruct (eccentric_ok r2 r1 H2 H1) as [_ P2].
  assert (Q1 : 0 < mu_earth / r1) by (apply Rdiv_pos; auto). assert (Q2 : 0 < mu_earth / r2) by (apply Rdiv_pos; auto).
  cbn [transfer initial_velocity transfer_velocity_1 transfer_velocity_2 final_velocity delta_v_1 delta_v_2].
  rewrite !pow2_sqrt by lra.
  split; [apply sqrt_lt_R0; auto|]. split; [reflexivity|].
  split; [apply sqrt_lt_R0; auto|]. split; [reflexivity|].
  split; [apply sqrt_lt_R0; auto|]. split; [apply sqrt_lt_R0; auto|].
  split; [field; lra|]. split; [field; lra|].
  split; [|split; ring].
  rewrite <- (sqrt_square r1) at 1 by lra. rewrite <- (sqrt_square r2) at 3 by lra.
  rewrite <- !sqrt_mult by nra. f_equal. field. lra.
Qed.
Lemma Hohmann_signs r1 r2 m : 0 < r1 -> 0 < r2 -> Hohmann r1 r2 = Ok m ->
  (r1 < r2 -> 0 < delta_v_1 m /\ 0 < delta_v_2 m) /\
  (r1 = r2 -> delta_v_1 m = 0 /\ delta_v_2 m = 0) /\
  (r2 < r1 -> delta_v_1 m < 0 /\ delta_v_2 m < 0).
Proof.
  intros H1 H2 H. rewrite Hohmann_ok in H by auto. inversion H. subst m. clear H.
  assert (M := mu_gt). destruct (eccentric_ok r1 r2 H1 H2) as [_ P1]. destruct (eccentric_ok r2 r1 H2 H1) as [_ P2].
  assert (Q1 : 0 < mu_earth / r1) by (apply Rdiv_pos; auto). assert (Q2 : 0 < mu_earth / r2) by (apply Rdiv_pos; auto).
  assert (D1 : 2 * mu_earth * r2 / (r1 * (r1 + r2)) - mu_earth / r1 = mu_earth / r1 / (r1 + r2) * (r2 - r1)) by (field; lra).
  assert (D2 : mu_earth / r2 - 2 * mu_earth * r1 / (r2 * (r2 + r1)) = mu_earth / r2 / (r1 + r2) * (r2 - r1)) by (field; lra).
  assert (S1 : 0 < mu_earth / r1 / (r1 + r2)) by (apply Rdiv_pos; lra).
  assert (S2 : 0 < mu_earth / r2 / (r1 + r2)) by (apply Rdiv_pos; lra).
  cbn [transfer delta_v_1 delta_v_2].
  split; [|split]; intros L.
  - split; apply Rlt_Rminus, sqrt_lt_1; nra.
  - subst r2. assert (E : 2 * mu_earth * r1 / (r1 * (r1 + r1)) = mu_earth / r1) by (field; lra). rewrite E. lra.
  - split; apply Rlt_minus, sqrt_lt_1; nra.
Qed.
Lemma Hohmann_reverse r1 r2 m m' : 0 < r1 -> 0 < r2 -> Hohmann r1 r2 = Ok m -> Hohmann r2 r1 = Ok m' ->
  delta_v_1 m' = - delta_v_2 m /\ delta_v_2 m' = - delta_v_1 m.
Proof.
  intros H1 H2 H H'. rewrite Hohmann_ok in H, H' by auto. inversion H. inversion H'.
  cbn [transfer delta_v_1 delta_v_2]. split; ring.
Qed.
Lemma Hohmann_err r1 r2 : r1 <= 0 -> Hohmann r1 r2 = Err (if Req_EM_T r1 0 then ZeroDivisionError else ValueError).
Proof.
  intros H. assert (M := mu_gt). unfold Hohmann, circular_velocity. cbv zeta. destruct Req_EM_T as [E|E].
  - rewrite E, pdiv_zero. reflexivity.
  - rewrite pdiv_ok by lra. cbn [bind]. rewrite psqrt_neg; [reflexivity|].
    assert (/ r1 < 0) by (apply Rinv_lt_0_compat; lra). change Earth_MU with mu_earth. unfold Rdiv. nra.
Qed.
