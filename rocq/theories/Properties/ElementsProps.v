(** Properties C36-C40: classical elements and the Hohmann transfer. *)
From Coq Require Import Reals Lra.
From Verif.Model Require Import Num Linalg Time States Elements Maneuvers.
From Verif.Spec Require Import Geometry Gravity Orbit.
From Verif.Proofs Require Import NumLemmas LinalgProofs ElementsProofs ManeuversProofs.
Local Open Scope R_scope.

(** An inclined circular orbit, used as witness below. *)
Definition inclined_state : state :=
  State (Epoch 51544.5) (V3 7000 0 0) (V3 0 0 (sqrt (398600.4418 / 7000))).
(** An eccentric equatorial one. *)
Definition equatorial_state : state :=
  State (Epoch 51544.5) (V3 0 7000 0) (V3 (- 8) 0 0).

(** * C36 State to elements *)

(** [x] is the eccentric anomaly: it fixes the radius, the radial motion and, by
    Kepler's equation, the mean anomaly. *)
Theorem C36_from_ijk : forall s, bound_orbit (s_position s) (s_velocity s) ->
  let r := s_position s in let v := s_velocity s in
  exists el x, elements_from_ijk s = Ok el /\ el_epoch el = s_epoch s /\
    0 < semimajor_axis el /\ 0 <= eccentricity el < 1 /\
    orbital_energy r v = - mu_earth / (2 * semimajor_axis el) /\
    semimajor_axis el * (1 - eccentricity el ^ 2) = norm (momentum r v) ^ 2 / mu_earth /\
    momentum r v = scale (norm (momentum r v)) (orbit_normal (raan el) (inclination el)) /\
    0 <= inclination el <= PI /\ 0 <= raan el < 2 * PI /\
    0 <= argument_of_perigee el < 2 * PI /\ 0 <= mean_anomaly el < 2 * PI /\
    mean_anomaly el = x - eccentricity el * sin x /\
    norm r = semimajor_axis el * (1 - eccentricity el * cos x) /\
    dot r v = sqrt (mu_earth * semimajor_axis el) * (eccentricity el * sin x).
Proof. exact (fun s B => from_ijk_spec s B). Qed.
Print Assumptions C36_from_ijk.

(** Everything else is rejected. *)
Theorem C36_rectilinear : forall s, momentum (s_position s) (s_velocity s) = zero3 ->
  elements_from_ijk s = Err ZeroDivisionError.
Proof. exact from_ijk_rectilinear. Qed.
Print Assumptions C36_rectilinear.

Theorem C36_unbound : forall s, let r := s_position s in let v := s_velocity s in
  momentum r v <> zero3 -> 0 <= orbital_energy r v ->
  elements_from_ijk s = Err (if Req_EM_T (orbital_energy r v) 0 then ZeroDivisionError else ValueError).
Proof. exact from_ijk_unbound. Qed.
Print Assumptions C36_unbound.

Lemma inclined_bound : bound_orbit (s_position inclined_state) (s_velocity inclined_state) /\
  ~ equatorial (s_position inclined_state) (s_velocity inclined_state).
Proof.
  cbn [inclined_state s_position s_velocity].
  assert (K : 0 < sqrt (398600.4418 / 7000)) by (apply sqrt_lt_R0; lra).
  assert (KK : sqrt (398600.4418 / 7000) * sqrt (398600.4418 / 7000) = 398600.4418 / 7000) by (apply sqrt_sqrt; lra).
  set (k := sqrt _) in *. clearbody k.
  assert (N1 : norm (V3 7000 0 0) = 7000) by (unfold norm, dot; cbn; apply sqrt_eq; lra).
  assert (N2 : norm (V3 0 0 k) = k) by (unfold norm, dot; cbn; apply sqrt_eq; lra).
  split; [split|].
  - unfold orbital_energy. rewrite N1, N2, KK. unfold mu_earth. lra.
  - unfold momentum, cross; cbn [x3 y3 z3]. intros E. inversion E. lra.
  - unfold equatorial, momentum, cross; cbn [x3 y3 z3]. intros [_ E]. lra.
Qed.
Lemma equatorial_bound : bound_orbit (s_position equatorial_state) (s_velocity equatorial_state) /\
  equatorial (s_position equatorial_state) (s_velocity equatorial_state).
Proof.
  cbn [equatorial_state s_position s_velocity].
  assert (N1 : norm (V3 0 7000 0) = 7000) by (unfold norm, dot; cbn; apply sqrt_eq; lra).
  assert (N2 : norm (V3 (-8) 0 0) = 8) by (unfold norm, dot; cbn; apply sqrt_eq; lra).
  split; [split|].
  - unfold orbital_energy. rewrite N1, N2. unfold mu_earth. lra.
  - unfold momentum, cross; cbn [x3 y3 z3]. intros E. inversion E. lra.
  - unfold equatorial, momentum, cross; cbn [x3 y3 z3]. split; lra.
Qed.
Example C36_example : bound_orbit (s_position inclined_state) (s_velocity inclined_state).
Proof. exact (proj1 inclined_bound). Qed.

(** * C37 Elements to state *)

Theorem C37_to_ijk : forall fuel el s, 0 < semimajor_axis el -> 0 <= eccentricity el < 1 ->
  elements_to_ijk fuel el = Ok s ->
  s_epoch s = el_epoch el /\
  orbital_energy (s_position s) (s_velocity s) = - mu_earth / (2 * semimajor_axis el) /\
  momentum (s_position s) (s_velocity s) =
    scale (sqrt (mu_earth * semimajor_axis el * (1 - eccentricity el ^ 2))) (orbit_normal (raan el) (inclination el)) /\
  semimajor_axis el * (1 - eccentricity el) <= norm (s_position s) <= semimajor_axis el * (1 + eccentricity el).
Proof. exact to_ijk_spec. Qed.
Print Assumptions C37_to_ijk.

(** The conversion terminates for every mean anomaly the constructor functions produce. *)
Theorem C37_terminates : forall el,
  0 < semimajor_axis el -> 0 <= eccentricity el < 1 -> - PI < mean_anomaly el <= 2 * PI ->
  exists n s, forall fuel, (n <= fuel)%nat -> elements_to_ijk fuel el = Ok s.
Proof. exact to_ijk_total. Qed.
Print Assumptions C37_terminates.

Example C37_example : exists n s, elements_to_ijk n (Elements (Epoch 51544.5) 26560 0.7 1.1 2 4.7 3) = Ok s.
Proof.
  destruct (to_ijk_total (Elements (Epoch 51544.5) 26560 0.7 1.1 2 4.7 3)) as (n & s & H); cbn; try lra.
  - generalize Analysis.PI_bounds. lra.
  - exists n, s. auto.
Qed.

(** * C38 State to elements to state *)

Theorem C38_round_trip : forall s, let r := s_position s in let v := s_velocity s in
  bound_orbit r v -> ~ equatorial r v ->
  exists el n s', elements_from_ijk s = Ok el /\
    (forall fuel, (n <= fuel)%nat -> elements_to_ijk fuel el = Ok s') /\
    s_epoch s' = s_epoch s /\
    norm (sub (s_position s') r) <= 1e-24 * semimajor_axis el / (1 - eccentricity el) /\
    norm (sub (s_velocity s') v) <= 1e-24 * sqrt (mu_earth / semimajor_axis el) / (1 - eccentricity el) ^ 2.
Proof. exact round_trip. Qed.
Print Assumptions C38_round_trip.

Example C38_example : bound_orbit (s_position inclined_state) (s_velocity inclined_state) /\
  ~ equatorial (s_position inclined_state) (s_velocity inclined_state).
Proof. exact inclined_bound. Qed.

(** * C39 Equatorial orbits *)

(** Turning an equatorial orbit about the polar axis by any angle does not change its elements. *)
Theorem C39_orientation_lost : forall s t,
  momentum (s_position s) (s_velocity s) <> zero3 -> equatorial (s_position s) (s_velocity s) ->
  elements_from_ijk (State (s_epoch s) (rodrigues (V3 0 0 1) (s_position s) t) (rodrigues (V3 0 0 1) (s_velocity s) t))
  = elements_from_ijk s.
Proof. exact equatorial_turned. Qed.
Print Assumptions C39_orientation_lost.

(** Converting back always gives a position on the positive x axis. *)
Theorem C39_position_lost : forall s, let r := s_position s in let v := s_velocity s in
  bound_orbit r v -> equatorial r v -> exists el n s', elements_from_ijk s = Ok el /\
    (forall fuel, (n <= fuel)%nat -> elements_to_ijk fuel el = Ok s') /\
    raan el = 0 /\
    norm (sub (s_position s') (V3 (norm r) 0 0)) <= 1e-24 * semimajor_axis el / (1 - eccentricity el).
Proof. exact equatorial_position. Qed.
Print Assumptions C39_position_lost.

(** So the round trip of C38 fails for equatorial orbits. *)
Theorem C39_round_trip_refuted : exists s, bound_orbit (s_position s) (s_velocity s) /\
  exists el n s', elements_from_ijk s = Ok el /\
  (forall fuel, (n <= fuel)%nat -> elements_to_ijk fuel el = Ok s') /\
  1e-24 * semimajor_axis el / (1 - eccentricity el) < norm (sub (s_position s') (s_position s)).
Proof.
  exists equatorial_state. destruct equatorial_bound as [B E]. split; auto.
  destruct (from_ijk_spec _ B) as (el' & x & E' & _ & Ha & He & En & Hp & _).
  destruct (equatorial_position _ B E) as (el & n & s' & H1 & H2 & _ & H3).
  rewrite E' in H1. inversion H1. subst el'. clear H1.
  exists el, n, s'. split; [auto|]. split; [auto|].
  cbn [equatorial_state s_position s_velocity] in *.
  assert (N1 : norm (V3 0 7000 0) = 7000) by (unfold norm, dot; cbn; apply sqrt_eq; lra).
  assert (N2 : norm (V3 (-8) 0 0) = 8) by (unfold norm, dot; cbn; apply sqrt_eq; lra).
  unfold orbital_energy in En. rewrite N1, N2 in En.
  assert (Am : semimajor_axis el < 10000).
  { destruct (Rlt_dec (semimajor_axis el) 10000); auto. exfalso.
    assert (mu_earth / (2 * semimajor_axis el) <= mu_earth / 20000).
    { unfold Rdiv. apply Rmult_le_compat_l; [unfold mu_earth; lra|]. apply Rinv_le_contravar; lra. }
    replace (- mu_earth / (2 * semimajor_axis el)) with (- (mu_earth / (2 * semimajor_axis el))) in En by (field; lra).
    unfold mu_earth in *. lra. }
  assert (Em : eccentricity el < 0.9).
  { destruct (Rlt_dec (eccentricity el) 0.9); auto. exfalso.
    replace (norm (momentum (V3 0 7000 0) (V3 (-8) 0 0))) with 56000 in Hp.
    2:{ symmetry. unfold norm, dot, momentum, cross; cbn. apply sqrt_eq; lra. }
    assert (1 - eccentricity el ^ 2 <= 0.19) by nra.
    assert (semimajor_axis el * (1 - eccentricity el ^ 2) <= 10000 * 0.19) by (apply Rmult_le_compat; nra).
    unfold mu_earth in Hp. lra. }
  rewrite N1 in H3.
  assert (T : 1e-24 * semimajor_axis el / (1 - eccentricity el) < 1).
  { apply Rmult_lt_reg_r with (1 - eccentricity el); [lra|]. unfold Rdiv. rewrite Rmult_assoc, Rinv_l by lra. lra. }
  assert (D : norm (sub (V3 7000 0 0) (V3 0 7000 0)) >= 7000).
  { apply Rle_ge. unfold norm, dot, sub; cbn. rewrite <- (sqrt_square 7000) at 1 by lra. apply sqrt_le_1_alt. lra. }
  assert (Tr := norm_triangle (sub (V3 7000 0 0) (s_position s')) (sub (s_position s') (V3 0 7000 0))).
  replace (add (sub (V3 7000 0 0) (s_position s')) (sub (s_position s') (V3 0 7000 0)))
    with (sub (V3 7000 0 0) (V3 0 7000 0)) in Tr by (veq; ring).
  rewrite (norm_sub_sym (V3 7000 0 0) (s_position s')) in Tr. lra.
Qed.
Print Assumptions C39_round_trip_refuted.

Example C39_example : bound_orbit (s_position equatorial_state) (s_velocity equatorial_state) /\
  equatorial (s_position equatorial_state) (s_velocity equatorial_state).
Proof. exact equatorial_bound. Qed.

(** * C40 Hohmann transfer *)

(** Circular speeds at both ends; both transfer speeds belong to one orbit of
    energy -mu/(r1+r2) and, the velocities being tangential, of one momentum. *)
Theorem C40_consistent : forall r1 r2, 0 < r1 -> 0 < r2 -> exists m, Hohmann r1 r2 = Ok m /\
  0 < initial_velocity m /\ initial_velocity m ^ 2 = mu_earth / r1 /\
  0 < final_velocity m /\ final_velocity m ^ 2 = mu_earth / r2 /\
  0 < transfer_velocity_1 m /\ 0 < transfer_velocity_2 m /\
  transfer_velocity_1 m ^ 2 / 2 - mu_earth / r1 = - mu_earth / (r1 + r2) /\
  transfer_velocity_2 m ^ 2 / 2 - mu_earth / r2 = - mu_earth / (r1 + r2) /\
  r1 * transfer_velocity_1 m = r2 * transfer_velocity_2 m /\
  initial_velocity m + delta_v_1 m = transfer_velocity_1 m /\
  transfer_velocity_2 m + delta_v_2 m = final_velocity m.
Proof. exact Hohmann_spec. Qed.
Print Assumptions C40_consistent.

Theorem C40_signs : forall r1 r2 m, 0 < r1 -> 0 < r2 -> Hohmann r1 r2 = Ok m ->
  (r1 < r2 -> 0 < delta_v_1 m /\ 0 < delta_v_2 m) /\
  (r1 = r2 -> delta_v_1 m = 0 /\ delta_v_2 m = 0) /\
  (r2 < r1 -> delta_v_1 m < 0 /\ delta_v_2 m < 0).
Proof. exact Hohmann_signs. Qed.
Print Assumptions C40_signs.

Theorem C40_reverse : forall r1 r2 m m', 0 < r1 -> 0 < r2 -> Hohmann r1 r2 = Ok m -> Hohmann r2 r1 = Ok m' ->
  delta_v_1 m' = - delta_v_2 m /\ delta_v_2 m' = - delta_v_1 m.
Proof. exact Hohmann_reverse. Qed.
Print Assumptions C40_reverse.

Theorem C40_bad_radius : forall r1 r2, r1 <= 0 ->
  Hohmann r1 r2 = Err (if Req_EM_T r1 0 then ZeroDivisionError else ValueError).
Proof. exact Hohmann_err. Qed.
Print Assumptions C40_bad_radius.

Example C40_example : 0 < 6678 /\ 0 < 42164 /\ exists m, Hohmann 6678 42164 = Ok m.
Proof. split; [lra|]. split; [lra|]. eexists. apply Hohmann_ok; lra. Qed.
