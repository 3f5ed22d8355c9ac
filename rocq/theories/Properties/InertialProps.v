(** Properties of propagators/inertial.py (C41-C47, C73, C74). *)
From Coq Require Import Reals Lra Psatz Lia ZArith List.
From Verif.Model Require Import Num Constants Linalg Functions Time Celestial Positions States Inertial.
From Verif.Spec Require Import Geometry Gravity Forces RungeKutta Propagation.
From Verif.Proofs Require Import NumLemmas LinalgProofs FunctionsProofs StatesProofs InertialProofs AccelerationProofs SafeStep BurnProofs.
Local Open Scope R_scope.

(** * C41 Landing on the epoch *)
Theorem C41_step_to_epoch_lands : forall p e q, rk4_step_to_epoch p e = (q, Ok tt) -> g_epoch (rk_state q) = e.
Proof. intros p e q H. apply (proj1 (step_to_epoch_lands p e q H)). Qed.
Print Assumptions C41_step_to_epoch_lands.

Theorem C41_step_advances : forall p q, rk4_step p = (q, Ok tt) ->
  value (g_epoch (rk_state q)) = value (g_epoch (rk_state p)) + step_size p / 86400.
Proof. intros p q H. apply (proj1 (proj2 (step_inv p q H))). Qed.
Print Assumptions C41_step_advances.

(** Any history of n steps: the clock shows the sum of the step durations. *)
Theorem C41_steps_advance : forall n p q, stepped n p q ->
  value (g_epoch (rk_state q)) = value (g_epoch (rk_state p)) + INR n * (step_size p / 86400).
Proof. intros n p q H. apply (proj2 (stepped_inv n p q H)). Qed.
Print Assumptions C41_steps_advance.

(** a geostationary state propagated 10 minutes forward, and backward *)
Example C41_example : (exists q, rk4_step_to_epoch geo (Epoch (51544.5 + 600 / 86400)) = (q, Ok tt)) /\
  (exists q, rk4_step_to_epoch geo (Epoch (51544.5 - 600 / 86400)) = (q, Ok tt)) /\
  (exists q, rk4_step leo = (q, Ok tt)).
Proof.
  split; [|split].
  - destruct (safe_step_to_epoch geo (Epoch (51544.5 + 600 / 86400)) 0) as (q & Q & _).
    + apply off_bounded; reflexivity.
    + cbn. rewrite Rabs_R0. lra.
    + apply geo_clear; [|lra]. cbn. apply Rabs_le. lra.
    + exists q; auto.
  - destruct (safe_step_to_epoch geo (Epoch (51544.5 - 600 / 86400)) 0) as (q & Q & _).
    + apply off_bounded; reflexivity.
    + cbn. rewrite Rabs_R0. lra.
    + apply geo_clear; [|lra]. cbn. apply Rabs_le. lra.
    + exists q; auto.
  - destruct (safe_step leo 0) as (q & Q & _).
    + intros t _. exists zero3. split; [apply thrust_off; reflexivity|]. right. apply norm_zero; auto.
    + cbn. rewrite Rabs_R0. lra.
    + intros t r It Hr. apply (leo_clear 60); [rewrite Rabs_pos_eq; lra| |exact Hr].
      replace 60 with (INR 1 * step_size leo) by (cbn; lra). apply during_instant; auto.
    + exists q; auto.
Qed.

(** * C42 Sub-steps *)

(** The propagation is a chain of [n] steps of equal length, [n] the least
    number for which none exceeds 300 s; nothing happens when [n] is 0. *)
Theorem C42_fewest_substeps : forall p e q, rk4_step_to_epoch p e = (q, Ok tt) ->
  exists n, fewest_parts ((value e - value (g_epoch (rk_state p))) * 86400) 300 n /\
  (n = 0%nat -> q = p) /\
  (n <> 0%nat -> exists r, stepped n (set_step_size p ((value e - value (g_epoch (rk_state p))) * 86400 / INR n)) r /\
     q = set_step_size r (step_size p)).
Proof. exact step_to_epoch_ok. Qed.
Print Assumptions C42_fewest_substeps.

Theorem C42_settings_restored : forall p e q, rk4_step_to_epoch p e = (q, Ok tt) -> same_settings p q.
Proof. intros p e q H. apply (proj2 (step_to_epoch_lands p e q H)). Qed.
Print Assumptions C42_settings_restored.

Theorem C42_already_there : forall p, rk4_step_to_epoch p (g_epoch (rk_state p)) = (p, Ok tt).
Proof. exact step_to_epoch_here. Qed.
Print Assumptions C42_already_there.

(** no sub-step exceeds the limit and one part fewer would *)
Theorem C42_substep_bound : forall dt n, fewest_parts dt 300 n -> n <> 0%nat ->
  Rabs (dt / INR n) <= 300 /\ (n <> 1%nat -> 300 < Rabs dt / INR (n - 1)).
Proof. exact fewest_bound. Qed.
Print Assumptions C42_substep_bound.

Example C42_example : fewest_parts 600 300 2 /\ fewest_parts (-601) 300 3 /\ fewest_parts 0 300 0.
Proof.
  split; [|split]; split; try (intros m H); rewrite ?Rabs_R0 in *;
    try (rewrite (Rabs_pos_eq 600) in * by lra); try (rewrite (Rabs_left (-601)) in * by lra); simpl; try lra; try lia.
  - destruct m as [|[|m]]; [simpl in H; lra|simpl in H; lra|lia].
  - destruct m as [|[|[|m]]]; [simpl in H; lra|simpl in H; lra|simpl in H; lra|lia].
Qed.

(** * C43 Exceptions leave settings behind (defect) *)

Theorem C43_step_size_left : forall p e q x, rk4_step_to_epoch p e = (q, Err x) ->
  exists n k r, fewest_parts ((value e - value (g_epoch (rk_state p))) * 86400) 300 n /\ (k < n)%nat /\
  let h := (value e - value (g_epoch (rk_state p))) * 86400 / INR n in
  stepped k (set_step_size p h) r /\ rk4_step r = (q, Err x) /\
  step_size q = h /\ m_dot q = m_dot p /\ m0 q = m0 p /\ thrust_direction q = thrust_direction p /\ isp q = isp p /\
  value (g_epoch (rk_state q)) = value (g_epoch (rk_state p)) + INR k * (h / 86400).
Proof. exact step_to_epoch_err. Qed.
Print Assumptions C43_step_size_left.

(** A failing maneuver either failed before touching anything or leaves the
    thruster burning with the sub-step size in force. *)
Theorem C43_thruster_left_on : forall p d md m i q x, rk4_maneuver p d md m i = (q, Err x) ->
  (burn_duration (norm d) md m i = Err x /\ q = p) \/
  (exists T n, burn_duration (norm d) md m i = Ok T /\ fewest_parts T 300 n /\ n <> 0%nat /\
   m_dot q = md /\ m0 q = m /\ isp q = i /\ thrust_direction q = d /\ step_size q = T / INR n).
Proof. exact maneuver_err. Qed.
Print Assumptions C43_thruster_left_on.

(** A step that raises changes neither position, velocity, epoch nor settings. *)
Theorem C43_failed_step : forall p q x, rk4_step p = (q, Err x) -> same_settings p q /\
  g_epoch (rk_state q) = g_epoch (rk_state p) /\
  g_position (rk_state q) = g_position (rk_state p) /\ g_velocity (rk_state q) = g_velocity (rk_state p).
Proof. exact step_err. Qed.
Print Assumptions C43_failed_step.

(** a reachable failure: a propagator at the centre of the Earth *)
Definition at_centre : rk4 := RK4 (GCRF (Epoch 0) zero3 zero3).
Example C43_example : (exists q, rk4_step_to_epoch at_centre (Epoch (100 / 86400)) = (q, Err ZeroDivisionError) /\
    step_size at_centre = 300 /\ step_size q = 100) /\
  (exists q, rk4_maneuver at_centre (V3 0 0.1 0) 0.1 1000 300 = (q, Err ZeroDivisionError) /\
    m_dot at_centre = 0 /\ m_dot q = 0.1).
Proof.
  assert (S : forall p, rk4_step_to_epoch at_centre p = rk4_step_to_epoch at_centre p) by reflexivity.
  assert (F : forall p, g_position (rk_state p) = zero3 -> (exists T, thrust_vector p 0 = Ok T) ->
    exists q, rk4_step p = (q, Err ZeroDivisionError)).
  { intros p H [T E]. unfold rk4_step. rewrite E. unfold step_result.
    rewrite derivative_centre by (cbn; auto). eexists. reflexivity. }
  assert (G : forall p e, g_position (rk_state p) = zero3 -> (exists T, thrust_vector p 0 = Ok T) -> e <> g_epoch (rk_state p) ->
    exists q, rk4_step_to_epoch p e = (q, Err ZeroDivisionError)).
  { intros p e H HT He. assert (Fo := step_to_epoch_form p e). cbv zeta in Fo. rewrite Fo. assert (Pf := parts_fewest p e).
    destruct (parts p e) as [|n].
    - apply fewest_zero in Pf; [|lra]. exfalso. apply He. destruct e as [w], (g_epoch (rk_state p)) as [v]. cbn [value] in Pf. f_equal. lra.
    - cbn [Nat.ltb Nat.leb rk4_steps]. destruct (F (set_step_size p (substep p e))) as [q Q]; [exact H|exact HT|].
      rewrite Q. eexists. reflexivity. }
  split.
  - destruct (G at_centre (Epoch (100 / 86400))) as [q Q]; [reflexivity|eexists; apply thrust_off; reflexivity| |].
    { cbn. intros E. inversion E. lra. }
    exists q. split; auto. split; [reflexivity|].
    destruct (step_to_epoch_err _ _ _ _ Q) as (n & k & r & Fp & L & St). cbv zeta in St. destruct St as (_ & _ & Hs & _). rewrite Hs.
    cbn [at_centre RK4 gcrf_copy GCRF rk_state g_epoch value] in *.
    assert (N := fewest_one _ _ Fp ltac:(lra)). subst n. simpl. lra.
  - assert (Hd : V3 0 0.1 0 <> zero3) by (intros E; inversion E; lra).
    assert (Nd : norm (V3 0 0.1 0) = 0.1) by (apply norm_y; lra).
    unfold rk4_maneuver. change (v3_magnitude (V3 0 0.1 0)) with (norm (V3 0 0.1 0)). rewrite Nd.
    destruct (burn_rocket 0.1 0.1 1000 300) as (T & ET & (B0 & _) & BZ & _); try lra. rewrite ET.
    assert (T0 : 0 < T). { destruct B0 as [|E]; auto. symmetry in E. apply BZ in E. lra. }
    set (p1 := set_thruster at_centre (v3_copy (V3 0 0.1 0)) 1000 0.1 300).
    destruct (G p1 (plus_days (g_epoch (rk_state p1)) (T / SECONDS_IN_DAY))) as [q Q]; [reflexivity| | |].
    + eexists. apply thrust_rocket; cbn; auto; lra.
    + cbn. unfold plus_days, SECONDS_IN_DAY. cbn. intros E. inversion E. lra.
    + rewrite Q. exists q. split; [reflexivity|]. split; [reflexivity|].
      destruct (step_to_epoch_err _ _ _ _ Q) as (n & k & r & _ & _ & St). cbv zeta in St. destruct St as (_ & _ & _ & Hm & _). exact Hm.
Qed.

(** * C44 Thrust law *)
Theorem C44_rocket_law : forall p t, m_dot p <> 0 -> m0 p <> 0 -> thrust_direction p <> zero3 ->
  0 < 1 - m_dot p * t / m0 p ->
  thrust_vector p t = Ok (rocket (m_dot p) (m0 p) (isp p) (thrust_direction p) t).
Proof. exact thrust_rocket. Qed.
Print Assumptions C44_rocket_law.

Theorem C44_magnitude : forall mdot m i d t, d <> zero3 -> 0 <= mdot * i / (m - mdot * t) ->
  norm (rocket mdot m i d t) = mdot * i * 0.00981 / (m - mdot * t).
Proof. exact rocket_norm. Qed.
Print Assumptions C44_magnitude.

Theorem C44_off : forall p t, m_dot p = 0 -> thrust_vector p t = Ok zero3.
Proof. exact thrust_off. Qed.
Print Assumptions C44_off.

Theorem C44_off_after_maneuver : forall p d md m i q, rk4_maneuver p d md m i = (q, Ok tt) ->
  forall t, thrust_vector q t = Ok zero3.
Proof. intros p d md m i q H. destruct (maneuver_ok p d md m i q H) as (T & _ & _ & _ & _ & O). exact O. Qed.
Print Assumptions C44_off_after_maneuver.

(** out of propellant, or no direction: an exception, not a wrong vector *)
Theorem C44_exhausted : forall p t, m_dot p <> 0 -> 0 < m0 p -> m0 p <= m_dot p * t -> t <> 0 ->
  thrust_vector p t = Err ValueError.
Proof. exact thrust_err. Qed.
Print Assumptions C44_exhausted.

Theorem C44_no_direction : forall p t, m_dot p <> 0 -> thrust_direction p = zero3 -> m0 p <> 0 ->
  (t = 0 \/ 0 < 1 - m_dot p * t / m0 p) -> thrust_vector p t = Err ZeroDivisionError.
Proof. exact thrust_zero_direction. Qed.
Print Assumptions C44_no_direction.

Example C44_example : let p := set_thruster geo (V3 0 0.1 0) 1000 0.1 300 in
  m_dot p <> 0 /\ m0 p <> 0 /\ thrust_direction p <> zero3 /\ 0 < 1 - m_dot p * 60 / m0 p /\
  norm (rocket (m_dot p) (m0 p) (isp p) (thrust_direction p) 60) = 0.1 * 300 * 0.00981 / 994.
Proof.
  cbn [set_thruster m_dot m0 thrust_direction isp]. assert (Hd : V3 0 0.1 0 <> zero3) by (intros E; inversion E; lra).
  repeat split; auto; try lra. rewrite rocket_norm; auto; lra.
Qed.

(** * C45 Burn duration *)
Theorem C45_rocket_equation : forall dv md m i, 0 <= dv -> 0 < md -> 0 < m -> 0 < i -> exists T,
  burn_duration dv md m i = Ok T /\ 0 <= T < m / md /\ (T = 0 <-> dv = 0) /\
  i * 0.00981 * ln (m / (m - md * T)) = dv.
Proof. exact burn_rocket. Qed.
Print Assumptions C45_rocket_equation.

Theorem C45_increasing : forall dv1 dv2 md m i T1 T2, 0 < md -> 0 < m -> 0 < i -> dv1 < dv2 ->
  burn_duration dv1 md m i = Ok T1 -> burn_duration dv2 md m i = Ok T2 -> T1 < T2.
Proof. exact burn_increasing. Qed.
Print Assumptions C45_increasing.

(** the maneuver lasts that long and restores the step size *)
Theorem C45_maneuver_duration : forall p d md m i q, rk4_maneuver p d md m i = (q, Ok tt) ->
  exists T, burn_duration (norm d) md m i = Ok T /\
  value (g_epoch (rk_state q)) = value (g_epoch (rk_state p)) + T / 86400 /\
  step_size q = step_size p /\ m_dot q = 0 /\ forall t, thrust_vector q t = Ok zero3.
Proof. exact maneuver_ok. Qed.
Print Assumptions C45_maneuver_duration.

Theorem C45_zero_parameter : forall dv md m i, md = 0 \/ m = 0 \/ i = 0 -> burn_duration dv md m i = Err ZeroDivisionError.
Proof. exact burn_err. Qed.
Print Assumptions C45_zero_parameter.

Example C45_example : exists T, burn_duration (norm (V3 0 0.1 0)) 0.1 1000 300 = Ok T /\ 300 < T < 350 /\
  exists q, rk4_maneuver geo (V3 0 0.1 0) 0.1 1000 300 = (q, Ok tt).
Proof. exact long_burn. Qed.

(** * C46 The classical Runge-Kutta step *)
Theorem C46_classical_step : forall p q, rk4_step p = (q, Ok tt) -> let s := rk_state p in
  runge_kutta (dynamics p (g_epoch s) (g_srp_scalar s) (g_use_perturbations s))
    (dynamics p (g_epoch s) 0 true) (step_size p)
    (g_position s, g_velocity s) (g_position (rk_state q), g_velocity (rk_state q)).
Proof. intros p q H. destruct (step_inv p q H) as (_ & _ & _ & _ & _ & R). exact R. Qed.
Print Assumptions C46_classical_step.

(** The step succeeds whenever the four stages are defined, with their result. *)
Theorem C46_defined : forall p y', let s := rk_state p in
  runge_kutta (dynamics p (g_epoch s) (g_srp_scalar s) (g_use_perturbations s))
    (dynamics p (g_epoch s) 0 true) (step_size p) (g_position s, g_velocity s) y' ->
  exists q, rk4_step p = (q, Ok tt) /\ (g_position (rk_state q), g_velocity (rk_state q)) = y'.
Proof. exact step_complete. Qed.
Print Assumptions C46_defined.

(** Sanity of the scheme used in the statement: exact for accelerations
    quadratic in time, fourth-order Taylor polynomial for linear systems. *)
Theorem C46_scheme_exact : forall a b c h r v y', runge_kutta (driven a b c) (driven a b c) h (r, v) y' ->
  y' = (add r (add (scale h v) (add (scale (h ^ 2 / 2) a) (add (scale (h ^ 3 / 6) b) (scale (h ^ 4 / 12) c)))),
        add v (add (scale h a) (add (scale (h ^ 2 / 2) b) (scale (h ^ 3 / 3) c)))).
Proof. exact rk_driven. Qed.
Print Assumptions C46_scheme_exact.

Theorem C46_scheme_linear : forall c h r v y', runge_kutta (linear c) (linear c) h (r, v) y' ->
  y' = (add (scale (1 + c * h ^ 2 / 2 + c ^ 2 * h ^ 4 / 24) r) (scale (h + c * h ^ 3 / 6) v),
        add (scale (c * h + c ^ 2 * h ^ 3 / 6) r) (scale (1 + c * h ^ 2 / 2 + c ^ 2 * h ^ 4 / 24) v)).
Proof. exact rk_linear. Qed.
Print Assumptions C46_scheme_linear.

Example C46_example : exists q, rk4_step leo = (q, Ok tt).
Proof. apply C41_example. Qed.

(** * C47 The perturbation switch does not survive (defect) *)
Theorem C47_constructor_resets : forall s, let p := RK4 s in
  g_use_perturbations (rk_state p) = true /\ g_srp_scalar (rk_state p) = 0 /\ g_thrust (rk_state p) = zero3 /\
  g_epoch (rk_state p) = g_epoch s /\ g_position (rk_state p) = g_position s /\ g_velocity (rk_state p) = g_velocity s /\
  step_size p = 300 /\ m_dot p = 0.
Proof. exact constructor_flag. Qed.
Print Assumptions C47_constructor_resets.

Theorem C47_step_resets : forall p q, rk4_step p = (q, Ok tt) ->
  g_use_perturbations (rk_state q) = true /\ g_srp_scalar (rk_state q) = 0 /\ g_thrust (rk_state q) = zero3.
Proof. intros p q H. destruct (step_inv p q H) as (_ & _ & A & B & C & _). auto. Qed.
Print Assumptions C47_step_resets.

Theorem C47_any_history_resets : forall n p q, stepped (S n) p q ->
  g_use_perturbations (rk_state q) = true /\ g_srp_scalar (rk_state q) = 0.
Proof. exact stepped_flag. Qed.
Print Assumptions C47_any_history_resets.

(** With the switch off, only the first stage is two-body: the others use the
    full model, whatever the flag of the starting state. *)
Theorem C47_later_stages_perturbed : forall p q, g_use_perturbations (rk_state p) = false -> rk4_step p = (q, Ok tt) ->
  let s := rk_state p in
  runge_kutta (dynamics p (g_epoch s) (g_srp_scalar s) false) (dynamics p (g_epoch s) 0 true) (step_size p)
    (g_position s, g_velocity s) (g_position (rk_state q), g_velocity (rk_state q)).
Proof. intros p q H S. destruct (step_inv p q S) as (_ & _ & _ & _ & _ & R). cbv zeta in R. rewrite H in R. exact R. Qed.
Print Assumptions C47_later_stages_perturbed.

Example C47_example : exists q, rk4_step (set_rk_state leo (set_use_perturbations (rk_state leo) false)) = (q, Ok tt).
Proof.
  destruct (safe_step (set_rk_state leo (set_use_perturbations (rk_state leo) false)) 0) as (q & Q & _).
  - intros t _. exists zero3. split; [apply thrust_off; reflexivity|]. right. apply norm_zero; auto.
  - cbn. rewrite Rabs_R0. lra.
  - intros t r It Hr. apply (leo_clear 60); [rewrite Rabs_pos_eq; lra| |exact Hr].
    replace 60 with (INR 1 * step_size leo) by (cbn; lra). apply during_instant; auto.
  - exists q; auto.
Qed.

(** * C73 A finite burn never delivers the commanded velocity change (defect) *)

(** The velocity change of a completed maneuver is [c] times the commanded
    vector plus the effect of the natural forces, with [c] < 1 for a burn
    longer than one maximum step and [c] > 1 for a shorter one. *)
Theorem C73_delivered_fraction : forall p d md m i q T, 0 < md -> 0 < m -> 0 < i -> d <> zero3 ->
  burn_duration (norm d) md m i = Ok T -> rk4_maneuver p d md m i = (q, Ok tt) ->
  exists n c gs, fewest_parts T 300 n /\ length gs = n /\ Forall (natural_part (T / INR n)) gs /\
    sub (g_velocity (rk_state q)) (g_velocity (rk_state p)) = add (scale c d) (total gs) /\
    0 < c /\ (300 < T -> c < 1) /\ (T <= 300 -> 1 < c).
Proof. exact maneuver_delivers. Qed.
Print Assumptions C73_delivered_fraction.

(** The cause: every sub-step starts again from the initial mass. *)
Theorem C73_mass_restarts : forall n p q t, stepped n p q -> thrust_vector q t = thrust_vector p t.
Proof. exact thrust_restarts. Qed.
Print Assumptions C73_mass_restarts.

Example C73_example : exists T, burn_duration (norm (V3 0 0.1 0)) 0.1 1000 300 = Ok T /\ 300 < T < 350 /\
  exists q, rk4_maneuver geo (V3 0 0.1 0) 0.1 1000 300 = (q, Ok tt).
Proof. exact long_burn. Qed.

(** * C74 Propagation cannot fail where the forces are defined *)
Theorem C74_derivative_defined : forall s, flyable (g_epoch s) (g_position s) -> Rabs (g_srp_scalar s) <= 1000 ->
  exists a, derivative s = Ok (g_velocity s, add (g_thrust s) a) /\ norm a <= 0.05.
Proof. exact fly_derivative. Qed.
Print Assumptions C74_derivative_defined.

Theorem C74_step_to_epoch_succeeds : forall p e A, let s := rk_state p in
  let dt := (value e - value (g_epoch s)) * 86400 in let D := reach (norm (g_velocity s)) (0.05 + A) dt in
  thrust_bounded p dt A -> Rabs (g_srp_scalar s) <= 1000 -> clear_around s dt D ->
  exists q, rk4_step_to_epoch p e = (q, Ok tt) /\
    norm (sub (g_position (rk_state q)) (g_position s)) <= D /\
    norm (sub (g_velocity (rk_state q)) (g_velocity s)) <= (0.05 + A) * Rabs dt.
Proof. exact safe_step_to_epoch. Qed.
Print Assumptions C74_step_to_epoch_succeeds.

Theorem C74_maneuver_succeeds : forall p d md m i T, 0 < md -> 0 < m -> 0 < i -> d <> zero3 ->
  burn_duration (norm d) md m i = Ok T ->
  let s := rk_state p in let A := md * i * 0.00981 / (m - md * T) in
  Rabs (g_srp_scalar s) <= 1000 -> clear_around s T (reach (norm (g_velocity s)) (0.05 + A) T) ->
  exists q, rk4_maneuver p d md m i = (q, Ok tt).
Proof. exact safe_maneuver. Qed.
Print Assumptions C74_maneuver_succeeds.

(** the hypothesis on the neighbourhood, from three inequalities *)
Theorem C74_clear_region : forall s dt D, Rabs (value (g_epoch s) - 51544.5) + Rabs dt / 86400 <= 36525 ->
  6500 + D <= norm (g_position s) -> norm (g_position s) + D <= 300000 ->
  norm (g_position s) + D <= 5 * (sqrt (x3 (g_position s) * x3 (g_position s) + y3 (g_position s) * y3 (g_position s)) - D) ->
  clear_around s dt D.
Proof. exact clear_check. Qed.
Print Assumptions C74_clear_region.

Example C74_example : thrust_bounded geo 600 0 /\ clear_around (rk_state geo) 600 (reach (norm (g_velocity (rk_state geo))) (0.05 + 0) 600).
Proof. split; [apply off_bounded; reflexivity|apply geo_clear; [rewrite Rabs_pos_eq; lra|lra]]. Qed.
