(** Properties C08-C16: scalar orbit functions. *)
From Coq Require Import Reals Lra Lia List.
From Verif.Model Require Import Num Constants Linalg Functions.
From Verif.Spec Require Import Geometry Legendre.
From Verif.Proofs Require Import NumLemmas LinalgProofs FunctionsProofs KeplerProofs LegendreProofs.
Import ListNotations.
Local Open Scope R_scope.

(** * C08 Semi-major axis, mean motion and period are mutually inverse *)

Theorem C08_mean_motion : forall a mu, 0 < a -> 0 < mu -> exists n,
  N_from_a_mu a mu = Ok n /\ 0 < n /\ n * n * (a * a * a) = mu /\ A_from_mu_n mu n = Ok a.
Proof. exact mean_motion_round_trip. Qed.
Print Assumptions C08_mean_motion.

Theorem C08_period : forall a mu, 0 < a -> 0 < mu -> exists tau,
  TAU_from_a_mu a mu = Ok tau /\ 0 < tau /\ tau * tau * mu = 4 * PI * PI * (a * a * a) /\
  A_from_mu_tau mu tau = Ok a /\ N_from_tau tau = N_from_a_mu a mu.
Proof. exact period_round_trip. Qed.
Print Assumptions C08_period.

Theorem C08_vis_viva : forall a mu r, 0 < a -> 0 < mu -> 0 < r < 2 * a -> exists v,
  V_from_a_mu_r a mu r = Ok v /\ 0 < v /\ A_from_mu_r_v mu r v = Ok a.
Proof. exact vis_viva_round_trip. Qed.
Print Assumptions C08_vis_viva.
Example C08_ex : 0 < 42164 /\ 0 < 398600.4418 /\ 0 < 41000 < 2 * 42164.
Proof. lra. Qed.

(** * C09 Ellipse shape conversions agree with each other *)

Theorem C09_ellipse : forall a e, 0 < a -> 0 <= e < 1 -> exists b f,
  B_from_a_e a e = Ok b /\ 0 < b <= a /\ b * b = a * a - (a * e) * (a * e) /\
  E_from_a_b a b = Ok e /\ E_from_a_c a (a * e) = Ok e /\
  E_from_a_p a (P_from_a_e a e) = Ok e /\ P_from_a_b a b = Ok (P_from_a_e a e) /\
  P_from_a_e a e = a * (1 - e ^ 2) /\
  F_from_a_b a b = Ok f /\ 0 <= f < 1 /\ b = a * (1 - f).
Proof. exact ellipse_shape. Qed.
Print Assumptions C09_ellipse.
Example C09_ellipse_ex : 0 < 7000 /\ 0 <= 0.3 < 1.
Proof. lra. Qed.

Theorem C09_momentum_of_parameter : forall mu p, 0 < mu -> 0 <= p -> exists h,
  H_from_mu_p mu p = Ok h /\ 0 <= h /\ h * h = mu * p /\ P_from_mu_h mu h = Ok p.
Proof. exact momentum_round_trip. Qed.
Print Assumptions C09_momentum_of_parameter.

Theorem C09_parameter_of_momentum : forall mu h, 0 < mu -> 0 <= h -> exists p,
  P_from_mu_h mu h = Ok p /\ 0 <= p /\ H_from_mu_p mu p = Ok h.
Proof. exact momentum_round_trip'. Qed.
Print Assumptions C09_parameter_of_momentum.

Theorem C09_B_raises : forall a e x, B_from_a_e a e = Err x <-> 1 < Rabs e /\ x = ValueError.
Proof. exact B_raises. Qed.
Print Assumptions C09_B_raises.
Theorem C09_E_from_a_b_raises : forall a b x, 0 < a ->
  (E_from_a_b a b = Err x <-> a < Rabs b /\ x = ValueError).
Proof. exact E_from_a_b_raises. Qed.
Print Assumptions C09_E_from_a_b_raises.
Theorem C09_E_from_a_p_raises : forall a p x, 0 < a ->
  (E_from_a_p a p = Err x <-> a < p /\ x = ValueError).
Proof. exact E_from_a_p_raises. Qed.
Print Assumptions C09_E_from_a_p_raises.
Theorem C09_H_raises : forall mu p x, 0 < mu -> (H_from_mu_p mu p = Err x <-> p < 0 /\ x = ValueError).
Proof. exact H_from_mu_p_raises. Qed.
Print Assumptions C09_H_raises.

(** * C10 Vis-viva speeds and energies agree *)

Theorem C10_energy_speed : forall mu r v, 0 < r -> 0 <= v -> exists xi,
  XI_from_mu_r_v mu r v = Ok xi /\ xi = v ^ 2 / 2 - mu / r /\ V_from_mu_r_xi mu r xi = Ok v.
Proof. exact energy_speed_inverse. Qed.
Print Assumptions C10_energy_speed.

Theorem C10_energy_axis : forall a mu r, 0 < a -> 0 < mu -> 0 < r <= 2 * a -> exists v xi,
  V_from_a_mu_r a mu r = Ok v /\ XI_from_mu_a mu a = Ok xi /\ xi = - (mu / (2 * a)) /\
  XI_from_mu_r_v mu r v = Ok xi.
Proof. exact energy_of_axis. Qed.
Print Assumptions C10_energy_axis.

Theorem C10_conic_speed : forall a mu e nu, 0 < a -> 0 < mu -> 0 <= e < 1 -> exists r v,
  Radius_from_p_e_nu (a * (1 - e ^ 2)) e nu = Ok r /\ 0 < r /\
  a * (1 - e) <= r <= a * (1 + e) /\
  V_from_mu_r_e_nu mu r e nu = Ok v /\ V_from_a_mu_r a mu r = Ok v /\ 0 < v.
Proof. exact conic_speed. Qed.
Print Assumptions C10_conic_speed.

(** * C11 A value returned by the Kepler solver satisfies Kepler's equation *)

Theorem C11_kepler_residual : forall fuel ma e x, 0 <= e <= 1 -> EA_from_ma_e fuel ma e = Ok x ->
  exists k : Z, (k = 0 \/ k = 1)%Z /\ Rabs (x - e * sin x - (ma + 2 * PI * IZR k)) < 5e-25.
Proof. exact EA_residual. Qed.
Print Assumptions C11_kepler_residual.

Theorem C11_kepler_error : forall fuel ma e x, 0 <= e < 1 -> EA_from_ma_e fuel ma e = Ok x ->
  exists exact (k : Z), (k = 0 \/ k = 1)%Z /\ exact - e * sin exact = ma /\
    Rabs (x - (exact + 2 * PI * IZR k)) < 5e-25 / (1 - e).
Proof. exact EA_error. Qed.
Print Assumptions C11_kepler_error.

Theorem C11_kepler_nonnegative : forall fuel ma e x, 0 <= e <= 1 -> - PI < ma ->
  EA_from_ma_e fuel ma e = Ok x -> 0 <= x.
Proof. exact EA_nonneg. Qed.
Print Assumptions C11_kepler_nonnegative.

(** * C12 The Kepler solver terminates *)

Theorem C12_kepler_terminates : forall e ma, 0 <= e < 1 -> - PI < ma <= 2 * PI ->
  exists n x, forall fuel, (n <= fuel)%nat -> EA_from_ma_e fuel ma e = Ok x.
Proof. exact EA_terminates. Qed.
Print Assumptions C12_kepler_terminates.
Example C12_ex : 0 <= 0.999 < 1 /\ - PI < 3.1 <= 2 * PI.
Proof. generalize PI2_1; lra. Qed.
(** ... and so the hypothesis "the solver returned" of C11 is met. *)
Example C11_ex : exists fuel x, EA_from_ma_e fuel 3.1 0.999 = Ok x.
Proof.
  destruct (C12_kepler_terminates 0.999 3.1) as [n [x H]]; try apply C12_ex.
  exists n, x. apply H. lia.
Qed.

(** * C13 Mean and eccentric anomaly conversions are inverse *)

Theorem C13_MA_of_EA : forall fuel ma e x, 0 <= e < 1 -> 5e-25 <= ma < 2 * PI ->
  EA_from_ma_e fuel ma e = Ok x -> Rabs (MA_from_ea_e x e - ma) < 5e-25.
Proof. exact MA_EA. Qed.
Print Assumptions C13_MA_of_EA.

Theorem C13_EA_of_MA : forall fuel x e x', 0 <= e < 1 -> 0 <= x < 2 * PI ->
  EA_from_ma_e fuel (MA_from_ea_e x e) e = Ok x' ->
  exists k : Z, (k = 0 \/ k = 1)%Z /\ Rabs (x' - (x + 2 * PI * IZR k)) < 5e-25 / (1 - e).
Proof. exact EA_MA. Qed.
Print Assumptions C13_EA_of_MA.

Theorem C13_kepler_unique : forall e m, 0 <= e < 1 -> exists! x, x - e * sin x = m.
Proof. exact kepler_unique. Qed.
Print Assumptions C13_kepler_unique.

(** * C14 True anomaly matches the eccentric anomaly *)

Theorem C14_true_anomaly : forall e ea, 0 <= e < 1 -> exists nu,
  NU_from_e_ea e ea = Ok nu /\ 0 <= nu < 2 * PI /\
  forall a, let r := a * (1 - e * cos ea) in
    r * cos nu = a * (cos ea - e) /\
    r * sin nu = a * sqrt (1 - e ^ 2) * sin ea /\
    r = a * (1 - e ^ 2) / (1 + e * cos nu).
Proof. exact true_anomaly_spec. Qed.
Print Assumptions C14_true_anomaly.

Theorem C14_true_anomaly_raises : forall e ea x,
  NU_from_e_ea e ea = Err x <-> 1 < Rabs e /\ x = ValueError.
Proof. exact NU_raises. Qed.
Print Assumptions C14_true_anomaly_raises.

(** * C15 Angle-valued element functions stay in their documented range *)

Theorem C15_RAAN_range : forall w, 0 <= RAAN_from_w w < 2 * PI.
Proof. exact RAAN_range. Qed.
Print Assumptions C15_RAAN_range.
Theorem C15_U_range : forall r w, 0 <= U_from_r_w r w < 2 * PI.
Proof. exact U_range. Qed.
Print Assumptions C15_U_range.
Theorem C15_NU_range : forall e ea nu, NU_from_e_ea e ea = Ok nu -> 0 <= nu < 2 * PI.
Proof. exact NU_range. Qed.
Print Assumptions C15_NU_range.
Theorem C15_EA_range : forall rdv r a n ea,
  EA_from_rdv_r_a_n rdv r a n = Ok ea -> 0 <= ea < 2 * PI.
Proof. exact EA_rdv_range. Qed.
Print Assumptions C15_EA_range.
Theorem C15_W_range : forall u nu,
  0 <= u < 2 * PI -> 0 <= nu < 2 * PI -> 0 <= W_from_u_nu u nu < 2 * PI.
Proof. exact W_range. Qed.
Print Assumptions C15_W_range.
Theorem C15_MA_range : forall ea e, 0 <= e < 1 -> 0 <= ea < 2 * PI -> 0 <= MA_from_ea_e ea e < 2 * PI.
Proof. exact MA_range. Qed.
Print Assumptions C15_MA_range.
Theorem C15_I_range : forall w, 0 <= I_from_w w <= PI.
Proof. exact I_range. Qed.
Print Assumptions C15_I_range.
Theorem C15_I_reaches_pi : forall w, I_from_w w = PI <-> x3 w = 0 /\ y3 w = 0 /\ z3 w < 0.
Proof. exact I_pi_iff. Qed.
Print Assumptions C15_I_reaches_pi.

(** * C16 The stored Legendre table is the associated Legendre table.
    The two lemmas tie the specification's polynomials to real functions. *)

Theorem C16_legendre_table : forall phi n m,
  - (PI / 2) <= phi <= PI / 2 -> (n <= 4)%nat -> (m <= n)%nat ->
  nth m (nth n (LegendrePolynomial phi) []) 0 = legendre n m (sin phi).
Proof. exact legendre_table. Qed.
Print Assumptions C16_legendre_table.
Theorem C16_spec_power : forall p n x, peval (ppower p n) x = peval p x ^ n.
Proof. exact peval_ppower. Qed.
Print Assumptions C16_spec_power.
Theorem C16_spec_derivative : forall p x, derivable_pt_lim (peval p) x (peval (pderiv p) x).
Proof. exact pderiv_correct. Qed.
Print Assumptions C16_spec_derivative.
Theorem C16_sentinel : forall phi n, (n <= 4)%nat ->
  length (nth n (LegendrePolynomial phi) []) = (n + 2)%nat /\
  nth (S n) (nth n (LegendrePolynomial phi) []) 0 = 0.
Proof. exact legendre_sentinel. Qed.
Print Assumptions C16_sentinel.
Theorem C16_derivative : forall phi n m, cos phi <> 0 -> (n <= 4)%nat -> (m <= n)%nat ->
  derivable_pt_lim (fun x => nth m (nth n (LegendrePolynomial x) []) 0) phi
    (nth (S m) (nth n (LegendrePolynomial phi) []) 0
     - INR m * tan phi * nth m (nth n (LegendrePolynomial phi) []) 0).
Proof. exact legendre_derivative. Qed.
Print Assumptions C16_derivative.
Example C16_ex : - (PI / 2) <= 0.5 <= PI / 2 /\ cos 0.5 <> 0.
Proof.
  assert (H := PI2_1). split; [lra|]. apply Rgt_not_eq. apply cos_gt_0; lra.
Qed.
