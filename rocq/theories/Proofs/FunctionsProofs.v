(** Conic-section scalar functions. *)
From Coq Require Import Reals Lra Psatz Bool Lia.
From Verif.Model Require Import Num Constants Linalg Functions.
From Verif.Spec Require Import Geometry.
From Verif.Proofs Require Import NumLemmas LinalgProofs.
Local Open Scope R_scope.

Lemma Rpower_cube_root x : 0 < x -> Rpower (x * x * x) (1 / 3) = x.
Proof.
  intros H. replace (x * x * x) with (x ^ 3) by ring.
  rewrite <- Rpower_pow by auto. rewrite Rpower_mult.
  replace (INR 3 * (1 / 3)) with 1 by (simpl; field). apply Rpower_1; auto.
Qed.
Lemma Rinv_pos x : 0 < x -> 0 < / x.
Proof. apply Rinv_0_lt_compat. Qed.
Lemma Rdiv_pos x y : 0 < x -> 0 < y -> 0 < x / y.
Proof. intros. unfold Rdiv. apply Rmult_lt_0_compat; auto. apply Rinv_pos; auto. Qed.
Lemma Rdiv_nonneg x y : 0 <= x -> 0 < y -> 0 <= x / y.
Proof. intros. unfold Rdiv. apply Rmult_le_pos; auto. left; apply Rinv_pos; auto. Qed.
Lemma cube_pos x : 0 < x -> 0 < x * x * x.
Proof. intros. repeat apply Rmult_lt_0_compat; auto. Qed.

(** ** C08 *)
Lemma N_ok a mu : 0 < a -> 0 < mu -> N_from_a_mu a mu = Ok (sqrt (mu / (a * a * a))).
Proof.
  intros Ha Hm. unfold N_from_a_mu. assert (P := cube_pos a Ha).
  rewrite pdiv_ok by lra. simpl. apply psqrt_ok. left; apply Rdiv_pos; auto.
Qed.
Lemma mean_motion_round_trip a mu : 0 < a -> 0 < mu -> exists n,
  N_from_a_mu a mu = Ok n /\ 0 < n /\ n * n * (a * a * a) = mu /\ A_from_mu_n mu n = Ok a.
Proof.
  intros Ha Hm. assert (P := cube_pos a Ha). assert (Q := Rdiv_pos _ _ Hm P).
  exists (sqrt (mu / (a * a * a))). split; [apply N_ok; auto|].
  split; [apply sqrt_lt_R0; auto|].
  rewrite sqrt_sqrt by lra. split; [field; lra|].
  unfold A_from_mu_n. rewrite sqrt_sqrt by lra. rewrite pdiv_ok by lra. simpl.
  replace (mu / (mu / (a * a * a))) with (a * a * a) by (field; lra).
  rewrite ppow_pos by auto. rewrite Rpower_cube_root; auto.
Qed.
Lemma TAU_ok a mu : 0 < a -> 0 < mu -> TAU_from_a_mu a mu = Ok (2 * PI * sqrt (a * a * a / mu)).
Proof.
  intros Ha Hm. unfold TAU_from_a_mu. assert (P := cube_pos a Ha).
  rewrite pdiv_ok by lra. simpl. rewrite psqrt_ok; [reflexivity|]. left; apply Rdiv_pos; auto.
Qed.
Lemma period_round_trip a mu : 0 < a -> 0 < mu -> exists tau,
  TAU_from_a_mu a mu = Ok tau /\ 0 < tau /\ tau * tau * mu = 4 * PI * PI * (a * a * a) /\
  A_from_mu_tau mu tau = Ok a /\ N_from_tau tau = N_from_a_mu a mu.
Proof.
  intros Ha Hm. assert (P := cube_pos a Ha). assert (Q := Rdiv_pos _ _ P Hm). assert (HP := PI_pos).
  set (s := sqrt (a * a * a / mu)). assert (Hs : 0 < s) by (apply sqrt_lt_R0; auto).
  assert (Ss : s * s = a * a * a / mu) by (apply sqrt_sqrt; lra).
  exists (2 * PI * s). split; [apply TAU_ok; auto|].
  split; [apply Rmult_lt_0_compat; lra|].
  split. { replace (2 * PI * s * (2 * PI * s) * mu) with (4 * PI * PI * (s * s * mu)) by ring. rewrite Ss. field. lra. }
  split.
  - unfold A_from_mu_tau. replace (2 * PI * s / (2 * PI)) with s by (field; lra).
    replace (mu * s * s) with (a * a * a) by (replace (mu * s * s) with (mu * (s * s)) by ring; rewrite Ss; field; lra).
    rewrite ppow_pos by auto. rewrite Rpower_cube_root; auto.
  - rewrite N_ok by auto. unfold N_from_tau.
    assert (0 < 2 * PI * s) by (apply Rmult_lt_0_compat; lra).
    rewrite pdiv_ok by lra. apply f_equal. symmetry. apply sqrt_eq.
    + apply Rdiv_nonneg; lra.
    + replace (2 * PI / (2 * PI * s)) with (/ s) by (field; lra).
      replace (/ s * / s) with (/ (s * s)) by (field; lra). rewrite Ss. field. lra.
Qed.
Lemma V_ok a mu r : 0 < a -> 0 < mu -> 0 < r -> r <= 2 * a ->
  V_from_a_mu_r a mu r = Ok (sqrt (mu * (2 / r - 1 / a))) /\ 0 <= mu * (2 / r - 1 / a).
Proof.
  intros Ha Hm Hr Hra.
  assert (0 <= mu * (2 / r - 1 / a)).
  { apply Rmult_le_pos; [lra|]. replace (2 / r - 1 / a) with ((2 * a - r) / (r * a)) by (field; lra).
    apply Rdiv_nonneg; [lra|]. apply Rmult_lt_0_compat; auto. }
  split; auto. unfold V_from_a_mu_r. rewrite !pdiv_ok by lra. simpl. apply psqrt_ok; auto.
Qed.
Lemma vis_viva_round_trip a mu r : 0 < a -> 0 < mu -> 0 < r < 2 * a -> exists v,
  V_from_a_mu_r a mu r = Ok v /\ 0 < v /\ A_from_mu_r_v mu r v = Ok a.
Proof.
  intros Ha Hm [Hr Hra]. destruct (V_ok a mu r) as [E H]; try lra.
  assert (H' : 0 < mu * (2 / r - 1 / a)).
  { apply Rmult_lt_0_compat; [lra|]. replace (2 / r - 1 / a) with ((2 * a - r) / (r * a)) by (field; lra).
    apply Rdiv_pos; [lra|]. apply Rmult_lt_0_compat; auto. }
  eexists; split; [exact E|]. split; [apply sqrt_lt_R0; auto|].
  unfold A_from_mu_r_v. rewrite sqrt_sqrt by lra. rewrite pdiv_ok by lra. simpl.
  rewrite pdiv_ok by lra. simpl.
  replace (2 / r - mu * (2 / r - 1 / a) / mu) with (1 / a) by (field; lra).
  assert (0 < 1 / a) by (apply Rdiv_pos; lra). rewrite pdiv_ok by lra. apply f_equal. field; lra.
Qed.

(** ** C09 *)
Lemma one_minus_sq e : 0 <= e < 1 -> 0 < 1 - e * e.
Proof. intros; nra. Qed.
Lemma ellipse_shape a e : 0 < a -> 0 <= e < 1 -> exists b f,
  B_from_a_e a e = Ok b /\ 0 < b <= a /\ b * b = a * a - (a * e) * (a * e) /\
  E_from_a_b a b = Ok e /\ E_from_a_c a (a * e) = Ok e /\
  E_from_a_p a (P_from_a_e a e) = Ok e /\ P_from_a_b a b = Ok (P_from_a_e a e) /\
  P_from_a_e a e = a * (1 - e ^ 2) /\
  F_from_a_b a b = Ok f /\ 0 <= f < 1 /\ b = a * (1 - f).
Proof.
  intros Ha He. assert (Q := one_minus_sq e He).
  set (s := sqrt (1 - e * e)). assert (Hs : 0 < s) by (apply sqrt_lt_R0; auto).
  assert (Ss : s * s = 1 - e * e) by (apply sqrt_sqrt; lra).
  assert (Hs1 : s <= 1) by nra.
  exists (a * s), (1 - s).
  split. { unfold B_from_a_e. rewrite psqrt_ok by lra. reflexivity. }
  assert (B : 0 < a * s) by (apply Rmult_lt_0_compat; auto).
  split; [split; nra|].
  assert (BB : a * s * (a * s) = a * a - a * e * (a * e)).
  { replace (a * s * (a * s)) with (a * a * (s * s)) by ring. rewrite Ss; ring. }
  split; auto.
  split. { unfold E_from_a_b. rewrite BB. replace (a * a - (a * a - a * e * (a * e))) with ((a * e) * (a * e)) by ring.
    rewrite psqrt_ok by nra. rewrite sqrt_square by nra. simpl. rewrite pdiv_ok by lra. apply f_equal; field; lra. }
  split. { unfold E_from_a_c. rewrite pdiv_ok by lra. apply f_equal; field; lra. }
  split. { unfold E_from_a_p, P_from_a_e. rewrite pdiv_ok by lra. simpl.
    replace (1 - a * (1 - e * e) / a) with (e * e) by (field; lra).
    rewrite psqrt_ok by nra. rewrite sqrt_square by lra. reflexivity. }
  split. { unfold P_from_a_b, P_from_a_e. rewrite pdiv_ok by lra. apply f_equal. rewrite BB. field. lra. }
  split. { unfold P_from_a_e; ring. }
  split. { unfold F_from_a_b. rewrite pdiv_ok by lra. apply f_equal; field; lra. }
  split; lra.
Qed.
Lemma momentum_round_trip mu p : 0 < mu -> 0 <= p -> exists h,
  H_from_mu_p mu p = Ok h /\ 0 <= h /\ h * h = mu * p /\ P_from_mu_h mu h = Ok p.
Proof.
  intros Hm Hp. assert (0 <= mu * p) by nra. exists (sqrt (mu * p)).
  unfold H_from_mu_p. rewrite psqrt_ok by auto. split; auto. split; [apply sqrt_pos|].
  rewrite sqrt_sqrt by auto. split; auto. unfold P_from_mu_h. rewrite sqrt_sqrt by auto.
  rewrite pdiv_ok by lra. apply f_equal; field; lra.
Qed.
Lemma momentum_round_trip' mu h : 0 < mu -> 0 <= h -> exists p,
  P_from_mu_h mu h = Ok p /\ 0 <= p /\ H_from_mu_p mu p = Ok h.
Proof.
  intros Hm Hh. exists (h * h / mu). unfold P_from_mu_h. rewrite pdiv_ok by lra.
  split; auto. split; [apply Rdiv_nonneg; nra|]. unfold H_from_mu_p.
  replace (mu * (h * h / mu)) with (h * h) by (field; lra).
  rewrite psqrt_ok by nra. rewrite sqrt_square by auto. reflexivity.
Qed.
Lemma psqrt_value_iff x e : psqrt x = Err e <-> x < 0 /\ e = ValueError.
Proof.
  unfold psqrt. destruct (nlt_spec x 0).
  - split; [intros H; inversion H; auto|intros [_ ->]; auto].
  - split; [discriminate|lra].
Qed.
Lemma pdiv_err_iff x y e : pdiv x y = Err e <-> y = 0 /\ e = ZeroDivisionError.
Proof.
  unfold pdiv. destruct (neq_spec y 0).
  - split; [intros H; inversion H; auto|intros [_ ->]; auto].
  - split; [discriminate|tauto].
Qed.
Lemma B_raises a e x : B_from_a_e a e = Err x <-> 1 < Rabs e /\ x = ValueError.
Proof.
  unfold B_from_a_e.
  assert (K : 1 < Rabs e <-> 1 - e * e < 0).
  { unfold Rabs. destruct (Rcase_abs e); split; intros; nra. }
  rewrite K. destruct (Rlt_dec (1 - e * e) 0).
  - rewrite psqrt_neg by auto. simpl. split; [intros H; inversion H; auto|intros [_ ->]; auto].
  - rewrite psqrt_ok by lra. simpl. split; [discriminate|lra].
Qed.
Lemma E_from_a_b_raises a b x : 0 < a ->
  (E_from_a_b a b = Err x <-> a < Rabs b /\ x = ValueError).
Proof.
  intros Ha. unfold E_from_a_b.
  assert (K : a < Rabs b <-> a * a - b * b < 0).
  { unfold Rabs. destruct (Rcase_abs b); split; intros; nra. }
  rewrite K. destruct (Rlt_dec (a * a - b * b) 0).
  - rewrite psqrt_neg by auto. simpl. split; [intros H; inversion H; auto|intros [_ ->]; auto].
  - rewrite psqrt_ok by lra. simpl. rewrite pdiv_ok by lra. split; [discriminate|lra].
Qed.
Lemma E_from_a_p_raises a p x : 0 < a ->
  (E_from_a_p a p = Err x <-> a < p /\ x = ValueError).
Proof.
  intros Ha. unfold E_from_a_p. rewrite pdiv_ok by lra. simpl. rewrite psqrt_value_iff.
  assert (K : 1 - p / a < 0 <-> a < p).
  { replace (1 - p / a) with ((a - p) / a) by (field; lra). split; intros.
    - destruct (Rlt_dec a p); auto. assert (0 <= (a - p) / a) by (apply Rdiv_nonneg; lra). lra.
    - assert (0 < (p - a) / a) by (apply Rdiv_pos; lra).
      replace ((a - p) / a) with (- ((p - a) / a)) by (field; lra). lra. }
  rewrite K. tauto.
Qed.
Lemma H_from_mu_p_raises mu p x : 0 < mu -> (H_from_mu_p mu p = Err x <-> p < 0 /\ x = ValueError).
Proof.
  intros Hm. unfold H_from_mu_p. rewrite psqrt_value_iff.
  assert (K : mu * p < 0 <-> p < 0) by (split; intros; nra). rewrite K; tauto.
Qed.

(** ** C10 *)
Lemma energy_speed_inverse mu r v : 0 < r -> 0 <= v -> exists xi,
  XI_from_mu_r_v mu r v = Ok xi /\ xi = v ^ 2 / 2 - mu / r /\ V_from_mu_r_xi mu r xi = Ok v.
Proof.
  intros Hr Hv. exists (v * v * 0.5 - mu / r). unfold XI_from_mu_r_v. rewrite pdiv_ok by lra. simpl bind.
  split; auto. split; [qfield; lra|].
  unfold V_from_mu_r_xi. rewrite pdiv_ok by lra. simpl bind.
  replace (2 * (mu / r + (v * v * 0.5 - mu / r))) with (v * v) by (qfield; lra).
  rewrite psqrt_ok by nra. rewrite sqrt_square by auto. reflexivity.
Qed.
Lemma energy_of_axis a mu r : 0 < a -> 0 < mu -> 0 < r <= 2 * a -> exists v xi,
  V_from_a_mu_r a mu r = Ok v /\ XI_from_mu_a mu a = Ok xi /\ xi = - (mu / (2 * a)) /\
  XI_from_mu_r_v mu r v = Ok xi.
Proof.
  intros Ha Hm [Hr Hra]. destruct (V_ok a mu r) as [E H]; try lra.
  exists (sqrt (mu * (2 / r - 1 / a))), (-0.5 * mu / a). split; auto.
  split. { unfold XI_from_mu_a. rewrite pdiv_ok by lra. reflexivity. }
  split; [qfield; lra|].
  unfold XI_from_mu_r_v. rewrite sqrt_sqrt by auto. rewrite pdiv_ok by lra. simpl bind.
  apply f_equal. qfield. lra.
Qed.
Lemma conic_denominator e nu : 0 <= e < 1 -> 0 < 1 + e * cos nu.
Proof. intros. generalize (COS_bound nu). nra. Qed.
Lemma conic_speed a mu e nu : 0 < a -> 0 < mu -> 0 <= e < 1 -> exists r v,
  Radius_from_p_e_nu (a * (1 - e ^ 2)) e nu = Ok r /\ 0 < r /\
  a * (1 - e) <= r <= a * (1 + e) /\
  V_from_mu_r_e_nu mu r e nu = Ok v /\ V_from_a_mu_r a mu r = Ok v /\ 0 < v.
Proof.
  intros Ha Hm He. assert (D := conic_denominator e nu He). assert (Q := one_minus_sq e He).
  assert (C := COS_bound nu).
  set (d := 1 + e * cos nu) in *.
  assert (Hr : 0 < a * (1 - e * e) / d) by (apply Rdiv_pos; auto; nra).
  exists (a * (1 - e * e) / d).
  assert (Hd1 : d <= 1 + e) by (unfold d; nra). assert (Hd2 : 1 - e <= d) by (unfold d; nra).
  assert (B1 : a * (1 - e) <= a * (1 - e * e) / d).
  { apply le_div; auto. assert (0 <= a * (1 - e) * (1 + e - d)) by (repeat apply Rmult_le_pos; lra). lra. }
  assert (B2 : a * (1 - e * e) / d <= a * (1 + e)).
  { apply div_le; auto. assert (0 <= a * (1 + e) * (d - (1 - e))) by (repeat apply Rmult_le_pos; lra). lra. }
  destruct (V_ok a mu (a * (1 - e * e) / d)) as [E H]; auto; [nra|].
  exists (sqrt (mu * (2 / (a * (1 - e * e) / d) - 1 / a))).
  split. { unfold Radius_from_p_e_nu. fold d. rewrite pdiv_ok by lra. apply f_equal. field. lra. }
  split; auto. split; auto.
  split.
  - unfold V_from_mu_r_e_nu. fold d. rewrite pdiv_ok by lra. simpl bind. rewrite pdiv_ok by lra. simpl bind.
    replace (mu / (a * (1 - e * e) / d) * (2 - (1 - e * e) / d)) with (mu * (2 / (a * (1 - e * e) / d) - 1 / a)).
    + apply psqrt_ok; auto.
    + field. repeat split; lra.
  - split; auto. apply sqrt_lt_R0.
    apply Rmult_lt_0_compat; auto. set (r := a * (1 - e * e) / d) in *.
    replace (2 / r - 1 / a) with ((2 * a - r) / (r * a)) by (field; lra).
    apply Rdiv_pos; [nra|]. apply Rmult_lt_0_compat; auto.
Qed.

(** ** C14 *)
Lemma NU_raises e ea x : NU_from_e_ea e ea = Err x <-> 1 < Rabs e /\ x = ValueError.
Proof.
  unfold NU_from_e_ea.
  assert (K : 1 < Rabs e <-> 1 - e * e < 0).
  { unfold Rabs. destruct (Rcase_abs e); split; intros; nra. }
  rewrite K. destruct (Rlt_dec (1 - e * e) 0).
  - rewrite psqrt_neg by auto. simpl. split; [intros H; inversion H; auto|intros [_ ->]; auto].
  - rewrite psqrt_ok by lra. simpl. split; [discriminate|lra].
Qed.
Definition nu_of (e ea : R) : R := wrap (atan2 (sqrt (1 - e * e) * sin ea) (cos ea - e)).
Lemma NU_ok e ea : 0 <= e < 1 -> NU_from_e_ea e ea = Ok (nu_of e ea).
Proof.
  intros He. assert (Q := one_minus_sq e He). unfold NU_from_e_ea. rewrite psqrt_ok by lra. reflexivity.
Qed.
Lemma one_minus_e_cos e x : 0 <= e < 1 -> 0 < 1 - e * cos x.
Proof. intros. generalize (COS_bound x). nra. Qed.
Lemma nu_of_spec e ea : 0 <= e < 1 ->
  (1 - e * cos ea) * cos (nu_of e ea) = cos ea - e /\
  (1 - e * cos ea) * sin (nu_of e ea) = sqrt (1 - e * e) * sin ea.
Proof.
  intros He. assert (Q := one_minus_sq e He). assert (D := one_minus_e_cos e ea He).
  unfold nu_of. rewrite cos_wrap, sin_wrap.
  set (s := sqrt (1 - e * e)). assert (Ss : s * s = 1 - e * e) by (apply sqrt_sqrt; lra).
  destruct (atan2_polar (s * sin ea) (cos ea - e)) as [H1 H2].
  assert (N : sqrt ((cos ea - e) * (cos ea - e) + s * sin ea * (s * sin ea)) = 1 - e * cos ea).
  { apply sqrt_eq; [lra|]. replace (s * sin ea * (s * sin ea)) with (s * s * (sin ea * sin ea)) by ring.
    rewrite Ss. assert (T := sin2_cos2' ea). replace (sin ea * sin ea) with (1 - cos ea * cos ea) by lra. ring. }
  rewrite N in H1, H2. split; symmetry; auto.
Qed.
Lemma true_anomaly_spec e ea : 0 <= e < 1 -> exists nu,
  NU_from_e_ea e ea = Ok nu /\ 0 <= nu < 2 * PI /\
  forall a, let r := a * (1 - e * cos ea) in
    r * cos nu = a * (cos ea - e) /\
    r * sin nu = a * sqrt (1 - e ^ 2) * sin ea /\
    r = a * (1 - e ^ 2) / (1 + e * cos nu).
Proof.
  intros He. exists (nu_of e ea). split; [apply NU_ok; auto|].
  split; [apply wrap_range, atan2_range|].
  intros a r. destruct (nu_of_spec e ea He) as [H1 H2]. unfold r.
  replace (1 - e ^ 2) with (1 - e * e) by ring.
  split; [rewrite Rmult_assoc, H1; ring|].
  split; [rewrite Rmult_assoc, H2; ring|].
  assert (D := one_minus_e_cos e ea He). assert (D2 := conic_denominator e (nu_of e ea) He).
  apply Rmult_eq_reg_r with (1 + e * cos (nu_of e ea)); [|lra].
  unfold Rdiv. rewrite (Rmult_assoc (a * (1 - e * e))), Rinv_l by lra.
  replace (a * (1 - e * cos ea) * (1 + e * cos (nu_of e ea)))
    with (a * (1 - e * cos ea) + a * e * ((1 - e * cos ea) * cos (nu_of e ea))) by ring.
  rewrite H1. ring.
Qed.

(** ** C15 *)
Lemma RAAN_range w : 0 <= RAAN_from_w w < 2 * PI.
Proof. apply (wrap_range (atan2 (x3 w) (- y3 w))), atan2_range. Qed.
Lemma U_range r w : 0 <= U_from_r_w r w < 2 * PI.
Proof. apply (wrap_range (atan2 (z3 r) (- x3 r * y3 w + y3 r * x3 w))), atan2_range. Qed.
Lemma NU_range e ea nu : NU_from_e_ea e ea = Ok nu -> 0 <= nu < 2 * PI.
Proof.
  unfold NU_from_e_ea. intros H. apply bind_ok in H. destruct H as [s [_ H]]. inversion H.
  apply (wrap_range (atan2 (s * sin ea) (cos ea - e))), atan2_range.
Qed.
Lemma EA_rdv_range rdv r a n ea : EA_from_rdv_r_a_n rdv r a n = Ok ea -> 0 <= ea < 2 * PI.
Proof.
  unfold EA_from_rdv_r_a_n. intros H. apply bind_ok in H. destruct H as [q1 [_ H]].
  apply bind_ok in H. destruct H as [q2 [_ H]]. inversion H.
  apply (wrap_range (atan2 q1 (1 - q2))), atan2_range.
Qed.
Lemma W_range u nu : 0 <= u < 2 * PI -> 0 <= nu < 2 * PI -> 0 <= W_from_u_nu u nu < 2 * PI.
Proof. intros. apply (wrap_range2 (u - nu)). lra. Qed.
Lemma sin_lt_x x : 0 < x -> sin x < x.
Proof. exact (sin_lt_x x). Qed.
Lemma e_sin_bound e x : 0 <= e < 1 -> 0 <= x -> e * sin x <= x.
Proof.
  intros He Hx. destruct (Req_dec x 0) as [->|]. rewrite sin_0; lra.
  assert (sin x < x) by (apply sin_lt_x; lra).
  destruct (Rle_dec 0 (sin x)); nra.
Qed.
Lemma MA_range ea e : 0 <= e < 1 -> 0 <= ea < 2 * PI -> 0 <= MA_from_ea_e ea e < 2 * PI.
Proof.
  intros He Hx. unfold MA_from_ea_e. assert (B := e_sin_bound e ea He ltac:(lra)).
  rewrite nlt_false by lra. split; [lra|].
  assert (B' := e_sin_bound e (2 * PI - ea) He ltac:(lra)).
  replace (2 * PI - ea) with (- ea + 2 * PI) in B' by ring.
  rewrite sin_2PI_aux in B' || rewrite (sin_plus (- ea)), sin_2PI, cos_2PI, sin_neg in B'.
  destruct (Req_dec (- e * sin ea) (2 * PI - ea)) as [E|E]; [|lra].
  exfalso. assert (S1 : sin (2 * PI - ea) < 2 * PI - ea) by (apply sin_lt_x; lra).
  replace (2 * PI - ea) with (- ea + 2 * PI) in S1 by ring.
  rewrite (sin_plus (- ea)), sin_2PI, cos_2PI, sin_neg in S1.
  destruct (Rle_dec 0 (- sin ea)); nra.
Qed.
Lemma I_range w : 0 <= I_from_w w <= PI.
Proof.
  unfold I_from_w. set (s := sqrt (x3 w * x3 w + y3 w * y3 w)).
  assert (Hs : 0 <= s) by apply sqrt_pos.
  assert (R := atan2_range s (z3 w)). split; [|lra].
  destruct (atan2_polar s (z3 w)) as [_ H].
  destruct (Rle_dec 0 (atan2 s (z3 w))); auto.
  assert (sin (atan2 s (z3 w)) < 0) by (apply sin_lt_0_var; lra).
  assert (P := sqrt_pos (z3 w * z3 w + s * s)).
  assert (E0 : sqrt (z3 w * z3 w + s * s) = 0) by nra.
  assert (Es : s = 0) by (rewrite E0 in H; lra).
  destruct (atan2_polar s (z3 w)) as [H' _]. rewrite E0 in H'.
  exfalso. apply n. rewrite Es. rewrite Rmult_0_l in H'. rewrite H'. unfold atan2.
  rewrite !nlt_false by lra. lra.
Qed.
Lemma I_pi_iff w : I_from_w w = PI <-> x3 w = 0 /\ y3 w = 0 /\ z3 w < 0.
Proof.
  unfold I_from_w. set (s := sqrt (x3 w * x3 w + y3 w * y3 w)).
  assert (Hs : 0 <= s) by apply sqrt_pos.
  assert (Ss : s * s = x3 w * x3 w + y3 w * y3 w) by (apply sqrt_sqrt; nra).
  destruct (atan2_polar s (z3 w)) as [H1 H2]. split.
  - intros E. rewrite E, sin_PI in H2. rewrite E, cos_PI in H1.
    assert (s = 0) by lra. assert (x3 w * x3 w + y3 w * y3 w = 0) by nra.
    split; [nra|]. split; [nra|].
    assert (P := sqrt_pos (z3 w * z3 w + s * s)).
    destruct (Req_dec (z3 w) 0) as [Z|Z]; [|lra].
    rewrite Z, H in E. unfold atan2 in E. rewrite !nlt_false in E by lra. generalize PI_pos; lra.
  - intros (Hx & Hy & Hz). assert (E : s = 0) by nra. rewrite E. unfold atan2.
    rewrite nlt_false, nlt_true by lra. rewrite nle_true by lra.
    unfold Rdiv; rewrite Rmult_0_l, atan_0. ring.
Qed.
