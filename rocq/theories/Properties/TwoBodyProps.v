(** Properties C77-C81: orientation angles, and what the elements do along the
    motion that derivative() describes when perturbations and thrust are off. *)
From Coq Require Import Reals Lra.
From Verif.Model Require Import Num Linalg Functions Time States Elements.
From Verif.Spec Require Import Geometry Gravity Orbit Gauss TwoBody.
From Verif.Proofs Require Import NumLemmas Analysis LinalgProofs StatesProofs ElementsProofs IodProofs TwoBodyProofs.
Local Open Scope R_scope.

(** An inclined eccentric orbit, used as witness below. *)
Definition eccentric_state : state := State (Epoch 51544.5) (V3 7000 0 0) (V3 0 0 8).
Lemma eccentric_facts : bound_orbit (s_position eccentric_state) (s_velocity eccentric_state) /\
  ~ equatorial (s_position eccentric_state) (s_velocity eccentric_state) /\
  exists el, elements_from_ijk eccentric_state = Ok el /\ 0 < eccentricity el < 1.
Proof.
  assert (N1 : norm (V3 7000 0 0) = 7000) by (unfold norm, dot; cbn; apply sqrt_eq; lra).
  assert (N2 : norm (V3 0 0 8) = 8) by (unfold norm, dot; cbn; apply sqrt_eq; lra).
  assert (Mo : momentum (V3 7000 0 0) (V3 0 0 8) = V3 0 (- 56000) 0).
  { unfold momentum. apply vec3_eq; cbn; ring. }
  assert (N3 : norm (V3 0 (- 56000) 0) = 56000) by (unfold norm, dot; cbn; apply sqrt_eq; lra).
  assert (B : bound_orbit (V3 7000 0 0) (V3 0 0 8)).
  { split. unfold orbital_energy. rewrite N1, N2. unfold mu_earth. lra.
    rewrite Mo. intros E. inversion E. lra. }
  split; [exact B|]. split.
  { cbn [eccentric_state s_position s_velocity]. unfold equatorial. rewrite Mo. cbn [x3 y3]. lra. }
  destruct (from_ijk_spec eccentric_state B) as (el & x & E & _ & Ha & He & En & Hp & _).
  exists el. split; [exact E|]. cbn [eccentric_state s_position s_velocity] in En, Hp.
  rewrite Mo, N3 in Hp. unfold orbital_energy in En. rewrite N1, N2 in En.
  destruct (Rle_lt_dec (eccentricity el) 0) as [L|L]; [|lra]. exfalso.
  replace (eccentricity el) with 0 in Hp by lra.
  set (a := semimajor_axis el) in *. clearbody a. unfold mu_earth in *.
  assert (A : a = 56000 ^ 2 / 398600.4418) by lra. rewrite A in En.
  assert (I : 398600.4418 / (2 * (56000 ^ 2 / 398600.4418)) = 398600.4418 * 398600.4418 / (2 * 56000 ^ 2)) by (field; lra).
  assert (J : - (398600.4418) / (2 * (56000 ^ 2 / 398600.4418)) = - (398600.4418 / (2 * (56000 ^ 2 / 398600.4418)))) by (field; lra).
  rewrite J, I in En. lra.
Qed.

(** * C77 The orientation angles are those of the plane and of the position in it *)

(** Node and inclination give back the direction of any vector. *)
Theorem C77_normal : forall w, w = scale (norm w) (orbit_normal (RAAN_from_w w) (I_from_w w)).
Proof. exact normal_any. Qed.
Print Assumptions C77_normal.

(** The argument of latitude places every position of the plane. *)
Theorem C77_latitude : forall r w, norm w = 1 -> dot r w = 0 -> ~ (x3 w = 0 /\ y3 w = 0) ->
  r = scale (norm r) (plane_direction (RAAN_from_w w) (I_from_w w) (U_from_r_w r w)).
Proof. exact latitude_any. Qed.
Print Assumptions C77_latitude.

(** Perigee, true anomaly and argument of latitude add up modulo a turn. *)
Theorem C77_perigee : forall u nu, exists k : Z, W_from_u_nu u nu + nu = u + 2 * PI * IZR k.
Proof. exact perigee_sum. Qed.
Print Assumptions C77_perigee.
Example C77_example : norm (V3 0 (- 1) 0) = 1 /\ dot (V3 7000 0 5) (V3 0 (- 1) 0) = 0 /\
  ~ (x3 (V3 0 (- 1) 0) = 0 /\ y3 (V3 0 (- 1) 0) = 0).
Proof.
  split; [|split].
  - unfold norm, dot; cbn. apply sqrt_eq; lra.
  - unfold dot; cbn. ring.
  - cbn. lra.
Qed.

(** The elements of a state name its exact position and velocity. *)
Theorem C77_state_on_orbit : forall s, let r := s_position s in let v := s_velocity s in
  bound_orbit r v -> ~ equatorial r v -> exists el x, elements_from_ijk s = Ok el /\
  mean_anomaly el = x - eccentricity el * sin x /\ orbit_point el x = r /\ orbit_velocity el x = v.
Proof. exact from_ijk_exact. Qed.
Print Assumptions C77_state_on_orbit.

(** * C78 Unperturbed motion conserves energy, momentum and the apse line *)
Theorem C78_energy : forall r v, unperturbed_motion r v ->
  forall t, orbital_energy (r t) (v t) = orbital_energy (r 0) (v 0).
Proof. exact energy_kept. Qed.
Print Assumptions C78_energy.
Theorem C78_momentum : forall r v, unperturbed_motion r v ->
  forall t, momentum (r t) (v t) = momentum (r 0) (v 0).
Proof. exact momentum_kept. Qed.
Print Assumptions C78_momentum.
Theorem C78_apse_line : forall r v, unperturbed_motion r v -> forall t,
  sub (cross (v t) (momentum (r t) (v t))) (scale (mu_earth / norm (r t)) (r t)) =
  sub (cross (v 0) (momentum (r 0) (v 0))) (scale (mu_earth / norm (r 0)) (r 0)).
Proof. exact laplace_kept. Qed.
Print Assumptions C78_apse_line.

(** Such motions exist, from every bound state off the equatorial plane. *)
Theorem C78_motion_exists : forall s, bound_orbit (s_position s) (s_velocity s) ->
  ~ equatorial (s_position s) (s_velocity s) ->
  exists r v, unperturbed_motion r v /\ r 0 = s_position s /\ v 0 = s_velocity s.
Proof. exact motion_exists. Qed.
Print Assumptions C78_motion_exists.
Example C78_example : exists r v, unperturbed_motion r v /\ r 0 = V3 7000 0 0 /\ v 0 = V3 0 0 8.
Proof. destruct eccentric_facts as (B & N & _). exact (motion_exists eccentric_state B N). Qed.

(** * C79 Elements along unperturbed motion *)

(** Five elements stay the same and the mean anomaly grows at the mean motion. *)
Theorem C79_elements : forall r v, unperturbed_motion r v ->
  bound_orbit (r 0) (v 0) -> ~ equatorial (r 0) (v 0) ->
  forall e0 el0, elements_from_ijk (State e0 (r 0) (v 0)) = Ok el0 -> 0 < eccentricity el0 ->
  forall t e, exists el (k : Z), elements_from_ijk (State e (r t) (v t)) = Ok el /\ el_epoch el = e /\
    semimajor_axis el = semimajor_axis el0 /\ eccentricity el = eccentricity el0 /\
    inclination el = inclination el0 /\ raan el = raan el0 /\
    argument_of_perigee el = argument_of_perigee el0 /\
    mean_anomaly el = mean_anomaly el0 + sqrt (mu_earth / semimajor_axis el0 ^ 3) * t + 2 * PI * IZR k.
Proof. exact elements_advance. Qed.
Print Assumptions C79_elements.

(** On a circle the perigee is arbitrary: its sum with the mean anomaly grows. *)
Theorem C79_circular : forall r v, unperturbed_motion r v ->
  bound_orbit (r 0) (v 0) -> ~ equatorial (r 0) (v 0) ->
  forall e0 el0, elements_from_ijk (State e0 (r 0) (v 0)) = Ok el0 -> eccentricity el0 = 0 ->
  forall t e, exists el (k : Z), elements_from_ijk (State e (r t) (v t)) = Ok el /\
    semimajor_axis el = semimajor_axis el0 /\ eccentricity el = 0 /\
    inclination el = inclination el0 /\ raan el = raan el0 /\
    argument_of_perigee el + mean_anomaly el = argument_of_perigee el0 + mean_anomaly el0
      + sqrt (mu_earth / semimajor_axis el0 ^ 3) * t + 2 * PI * IZR k.
Proof. exact circular_advance. Qed.
Print Assumptions C79_circular.
Example C79_example : exists r v el, unperturbed_motion r v /\
  bound_orbit (r 0) (v 0) /\ ~ equatorial (r 0) (v 0) /\
  elements_from_ijk (State (Epoch 51544.5) (r 0) (v 0)) = Ok el /\ 0 < eccentricity el.
Proof.
  destruct eccentric_facts as (B & N & el & E & He). destruct (motion_exists eccentric_state B N) as (r & v & M & R0 & V0).
  exists r, v, el. rewrite R0, V0. split; [exact M|]. split; [exact B|]. split; [exact N|]. split; [exact E|lra].
Qed.

(** * C80 Advancing the mean anomaly predicts the motion *)
Theorem C80_predict : forall r v, unperturbed_motion r v ->
  bound_orbit (r 0) (v 0) -> ~ equatorial (r 0) (v 0) ->
  forall e0 el0, elements_from_ijk (State e0 (r 0) (v 0)) = Ok el0 -> 0 < eccentricity el0 ->
  forall t e m (k : Z), 0 <= m < 2 * PI ->
    m = mean_anomaly el0 + sqrt (mu_earth / semimajor_axis el0 ^ 3) * t + 2 * PI * IZR k ->
  exists n s, (forall fuel, (n <= fuel)%nat ->
      elements_to_ijk fuel (Elements e (semimajor_axis el0) (eccentricity el0) (inclination el0)
        (raan el0) (argument_of_perigee el0) m) = Ok s) /\
    s_epoch s = e /\
    norm (sub (s_position s) (r t)) <= 1e-24 * semimajor_axis el0 / (1 - eccentricity el0) /\
    norm (sub (s_velocity s) (v t)) <= 1e-24 * sqrt (mu_earth / semimajor_axis el0) / (1 - eccentricity el0) ^ 2.
Proof. exact advance_predicts. Qed.
Print Assumptions C80_predict.
Example C80_example : exists r v el, unperturbed_motion r v /\
  bound_orbit (r 0) (v 0) /\ ~ equatorial (r 0) (v 0) /\
  elements_from_ijk (State (Epoch 51544.5) (r 0) (v 0)) = Ok el /\ 0 < eccentricity el /\
  exists m (k : Z), 0 <= m < 2 * PI /\
    m = mean_anomaly el + sqrt (mu_earth / semimajor_axis el ^ 3) * 3600 + 2 * PI * IZR k.
Proof.
  destruct C79_example as (r & v & el & M & B & N & E & He). exists r, v, el.
  split; [exact M|]. split; [exact B|]. split; [exact N|]. split; [exact E|]. split; [exact He|].
  set (x := mean_anomaly el + _). destruct (nmod_eq x (2 * PI)) as [k K]. exists (nmod x (2 * PI)), (- k)%Z.
  split; [apply nmod_range; assert (P := PI_pos); lra|]. rewrite K, opp_IZR. ring.
Qed.

(** * C81 Elements to state and back to elements *)
Theorem C81_elements_round_trip : forall fuel el s, 0 < semimajor_axis el -> 0 < eccentricity el < 1 ->
  0 < inclination el < PI -> 0 <= raan el < 2 * PI -> 0 <= argument_of_perigee el < 2 * PI ->
  elements_to_ijk fuel el = Ok s ->
  exists el' (k : Z), elements_from_ijk s = Ok el' /\ el_epoch el' = el_epoch el /\
    semimajor_axis el' = semimajor_axis el /\ eccentricity el' = eccentricity el /\
    inclination el' = inclination el /\ raan el' = raan el /\
    argument_of_perigee el' = argument_of_perigee el /\
    Rabs (mean_anomaly el' - (mean_anomaly el + 2 * PI * IZR k)) < 5e-25.
Proof. exact elements_round_trip. Qed.
Print Assumptions C81_elements_round_trip.
Example C81_example : let el := Elements (Epoch 51544.5) 26560 0.7 1.1 4 5 3 in
  (0 < inclination el < PI /\ 0 <= raan el < 2 * PI /\ 0 <= argument_of_perigee el < 2 * PI) /\
  exists fuel s, elements_to_ijk fuel el = Ok s.
Proof.
  intros el. assert (P := PI_bounds). split; [cbn; lra|].
  destruct (to_ijk_total el) as (n & s & T); [cbn; lra|cbn; lra|cbn; lra|].
  exists n, s. apply T. constructor.
Qed.
