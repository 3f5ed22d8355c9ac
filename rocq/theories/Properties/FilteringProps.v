(** Properties of estimation/filtering.py (C51-C55). *)
From Coq Require Import Reals Lra Lia List.
From Verif.Model Require Import Num Constants Linalg Functions Time Celestial Positions States Relative Obs Filtering.
From Verif.Spec Require Import Geometry Hill Covariance.
From Verif.Proofs Require Import NumLemmas LinalgProofs MatrixProofs StatesProofs PositionsProofs RelativeProofs FilteringProofs.
Local Open Scope R_scope.

(** * A concrete filter and a concrete observation, used in the examples *)
Definition chief : state := State (Epoch 51544.5) (V3 1 (-10) 0.5) (V3 0.001 0 (-0.002)).
Definition watcher : gcrf := GCRF (Epoch 51544.75) (V3 42164 0 0) (V3 0 3 0).
Definition sighting (range_error : R) : space_obs := SpaceObservation watcher (V3 0 300 400) range_error 0.
(** The point (0, 0, 500) lies on the axis of the watcher's orbit. *)
Definition blind : space_obs := SpaceObservation watcher (V3 (-42164) 0 500) 0 0.

Lemma filter_exists : exists h k, Hill chief 42164 = Ok h /\ RelativeKalman (Epoch 51544.5) h = Ok k.
Proof.
  destruct (Hill_ok chief 42164 ltac:(lra)) as (h & E & N & _). destruct (start_ok (Epoch 51544.5) h) as (k & K); [lra|]. eauto.
Qed.
Lemma watcher_moves dir re ae : momentum (SpaceObservation watcher dir re ae) <> zero3.
Proof. intros E. unfold momentum, cross in E. cbn in E. inversion E. lra. Qed.
Lemma sighting_displaced re : displaced (sighting re) = V3 42164 (300 * re / 500) (400 * re / 500).
Proof.
  unfold displaced. cbv zeta. assert (C := cart_sph_cart (V3 0 300 400)). destruct (sph_ranges (V3 0 300 400)) as (D & _).
  unfold sighting, SpaceObservation, watcher. cbv zeta. cbn [so_range so_range_error so_right_ascension so_declination so_angular_error so_observer_state so_observed_direction gcrf_copy g_position GCRF v3_copy].
  set (s := spherical_from_cartesian (V3 0 300 400)) in *. unfold spherical_to_cartesian, v3_scaled in C. cbn [x3 y3 z3] in C.
  assert (N : norm (V3 0 300 400) = 500) by (unfold norm, dot; cbn [x3 y3 z3]; apply sqrt_eq; lra).
  rewrite N in D. cbv zeta in D. fold s in D. clearbody s. rewrite D in C |- *. rewrite !Rplus_0_r. unfold v3_copy, add, sub; cbn [x3 y3 z3].
  injection C as C1 C2 C3.
 assert (C1' : cos (declination s) * cos (right_ascension s) = 0) by lra.
  assert (C2' : cos (declination s) * sin (right_ascension s) = 0.6) by lra.
  assert (C3' : sin (declination s) = 0.8) by lra.
  rewrite C1', C2', C3'. f_equal; lra.
Qed.
Lemma sighting_observable re : observable (sighting re).
Proof.
  split; [apply watcher_moves|]. unfold off_axis. rewrite sighting_displaced.
  split; intros E; apply (f_equal y3) in E; unfold seen, momentum, sighting, add, cross in E; cbn in E; lra.
Qed.
Lemma blind_unobservable : ~ observable blind.
Proof.
  intros (_ & A & _). apply A. unfold seen, momentum, blind, add, cross, zero3. cbn. f_equal; ring.
Qed.

(** * C51 The covariance stays symmetric and positive semi-definite *)
Theorem C51_symmetric : forall e h k l, RelativeKalman e h = Ok k -> symmetric 6 (ent66 (k_p00 (observe_all l k))).
Proof. intros e h k l E. apply (reachable_good e h k l E). Qed.
Print Assumptions C51_symmetric.

Theorem C51_semidefinite : forall e h k l, RelativeKalman e h = Ok k -> semidefinite 6 (ent66 (k_p00 (observe_all l k))).
Proof. intros e h k l E. apply (reachable_good e h k l E). Qed.
Print Assumptions C51_semidefinite.

(** The variances on the diagonal are never negative. *)
Theorem C51_variances : forall e h k l i, RelativeKalman e h = Ok k -> (i < 6)%nat -> 0 <= ent66 (k_p00 (observe_all l k)) i i.
Proof.
  intros e h k l i E Hi. assert (S := C51_semidefinite e h k l E (fun j => delta i j)). unfold quad in S.
  rewrite (sum_ext 6 _ (fun a => delta i a * ent66 (k_p00 (observe_all l k)) a i)) in S.
  - rewrite sum_delta in S by auto. exact S.
  - intros a Ha. rewrite <- (sum_delta 6 i (fun j => delta i a * ent66 (k_p00 (observe_all l k)) a j)) by auto. apply sum_ext; intros. ring.
Qed.
Print Assumptions C51_variances.

(** A history that mixes accepted observations, one of them free of noise, and
    a rejected one. *)
Example C51_example : exists h k k1 k2 k3, Hill chief 42164 = Ok h /\ RelativeKalman (Epoch 51544.5) h = Ok k /\
  kalman_process k (sighting 1) = (k1, Ok tt) /\ kalman_process k1 blind = (k2, Err ZeroDivisionError) /\
  kalman_process k2 (sighting 0) = (k3, Ok tt).
Proof.
  destruct filter_exists as (h & k & H & K). assert (G := proj1 (good_start _ _ _ K)).
  destruct (process_cases k (sighting 1) G) as [(_ & k1 & E1 & A1)|(N & _)]; [|exfalso; apply N, sighting_observable].
  assert (G1 := accepted_good _ _ _ G A1).
  destruct (process_cases k1 blind G1) as [(O & _)|(_ & k2 & E2 & _)]; [exfalso; apply blind_unobservable; exact O|].
  assert (G2 := process_good k1 blind G1). rewrite E2 in G2. cbn [fst] in G2.
  destruct (process_cases k2 (sighting 0) G2) as [(_ & k3 & E3 & A3)|(N & _)]; [|exfalso; apply N, sighting_observable].
  exists h, k, k1, k2, k3. auto 6.
Qed.

(** * C52 The innovation covariance is always invertible *)

(** Whatever the measurement noise, H P H^T + R is symmetric positive definite
    for the predicted covariance of every reachable filter, so the inverse
    exists. *)
Theorem C52_positive_definite : forall e h k0 l t f noise, RelativeKalman e h = Ok k0 ->
  let k := observe_all l k0 in system_matrix (k_propagator k) t = Ok f ->
  let p := predicted_covariance f (k_p00 k) (k_q k) in
  definite 3 (innovation p (measurement_noise noise)) /\ symmetric 3 (innovation p (measurement_noise noise)) /\
  exists g, kalman_gain p (measurement_noise noise) = Ok g.
Proof.
  intros e h k0 l t f noise E k F p. assert (G := reachable_good e h k0 l E). destruct (prediction_good k f G) as [PD PS].
  fold p in PD, PS. split; [apply innovation_definite; auto; apply noise_semidefinite|].
  split; [apply symmetric_plus; [intros i j Hi Hj; apply PS; lia|apply noise_symmetric]|].
  destruct (gain_ok p (measurement_noise noise) PD PS (noise_semidefinite _) (noise_symmetric _)) as (g & Gk & _). eauto.
Qed.
Print Assumptions C52_positive_definite.

(** process() therefore fails only on the geometry of the observation. *)
Theorem C52_process_outcome : forall e h k0 l ob, RelativeKalman e h = Ok k0 ->
  let k := observe_all l k0 in
  (observable ob -> snd (kalman_process k ob) = Ok tt) /\
  (~ observable ob -> snd (kalman_process k ob) = Err ZeroDivisionError).
Proof.
  intros e h k0 l ob E k. assert (G := reachable_good e h k0 l E). fold k in G.
  destruct (process_cases k ob G) as [(O & k' & P & _)|(O & k' & P & _)]; rewrite P; split; intros; auto; contradiction.
Qed.
Print Assumptions C52_process_outcome.

(** In particular it never fails on a target that is closer to the observer
    than the Earth's centre is. *)
Theorem C52_near_target : forall e h k0 l ob, RelativeKalman e h = Ok k0 ->
  let r := g_position (so_observer_state ob) in
  cross r (g_velocity (so_observer_state ob)) <> zero3 ->
  norm (so_observed_direction ob) < norm r -> norm (sub (displaced ob) r) < norm r ->
  snd (kalman_process (observe_all l k0) ob) = Ok tt.
Proof.
  intros e h k0 l ob E r M D1 D2. apply (proj1 (C52_process_outcome e h k0 l ob E)).
  split; [exact M|]. split; [|apply near_off_axis; auto]. apply near_off_axis; auto.
  replace (sub (seen ob) _) with (so_observed_direction ob); auto. unfold seen, sub, add. destruct (so_observed_direction ob). cbn. f_equal; ring.
Qed.
Print Assumptions C52_near_target.

Example C52_example : let ob := sighting 1 in let r := g_position (so_observer_state ob) in
  cross r (g_velocity (so_observer_state ob)) <> zero3 /\
  norm (so_observed_direction ob) < norm r /\ norm (sub (displaced ob) r) < norm r.
Proof.
  cbv zeta. split; [apply (watcher_moves (V3 0 300 400) 1 0)|]. rewrite sighting_displaced.
  cbn [sighting SpaceObservation watcher so_observer_state gcrf_copy GCRF g_position so_observed_direction v3_copy x3 y3 z3].
  unfold norm, sub, dot, v3_copy; cbn [x3 y3 z3]. split; apply sqrt_lt_1; lra.
Qed.

(** * C53 The gain is the optimal Kalman gain *)
Theorem C53_gain : forall e h k0 l ob k', RelativeKalman e h = Ok k0 ->
  kalman_process (observe_all l k0) ob = (k', Ok tt) -> exists p r g,
  k_p10 k' = Some p /\ k_r k' = Some r /\ k_k k' = Some g /\
  (** K (H P H^T + R) = P H^T *)
  (forall i j, (i < 6)%nat -> (j < 3)%nat -> sum 3 (fun m => ent63 g i m * innovation p r m j) = ent66 p i j) /\
  (** the new covariance is (I - K H) P *)
  (forall i j, (i < 6)%nat -> (j < 6)%nat ->
     ent66 (k_p00 k') i j = ent66 p i j - sum 3 (fun m => ent63 g i m * ent66 p m j)).
Proof.
  intros e h k0 l ob k' E P. assert (G := reachable_good e h k0 l E). destruct (process_accepted _ _ _ G P) as (_ & A).
  destruct (accepted_optimal _ _ _ G A) as (p & r & g & Ep & Er & Eg & PD & PS & RD & RS & K & U).
  exists p, r, g. split; [auto|]. split; [auto|]. split; [auto|]. split; [auto|]. rewrite U. apply joseph_short; auto.
Qed.
Print Assumptions C53_gain.

(** No gain yields a smaller variance in any direction. *)
Theorem C53_optimal : forall e h k0 l ob k', RelativeKalman e h = Ok k0 ->
  kalman_process (observe_all l k0) ob = (k', Ok tt) -> exists p r g,
  k_p10 k' = Some p /\ k_r k' = Some r /\ k_k k' = Some g /\
  forall v, quad 6 (ent66 (k_p00 k')) v = variance p r g v /\
    forall other, quad 6 (ent66 (k_p00 k')) v <= variance p r other v.
Proof.
  intros e h k0 l ob k' E P. assert (G := reachable_good e h k0 l E). destruct (process_accepted _ _ _ G P) as (_ & A).
  destruct (accepted_optimal _ _ _ G A) as (p & r & g & Ep & Er & Eg & PD & PS & RD & RS & K & U).
  exists p, r, g. split; [auto|]. split; [auto|]. split; [auto|]. intros v. rewrite U, updated_variance. split; [reflexivity|].
  intros other. apply gain_optimal; auto.
Qed.
Print Assumptions C53_optimal.

(** A measurement never increases the uncertainty of the prediction. *)
Theorem C53_measurement_helps : forall e h k0 l ob k', RelativeKalman e h = Ok k0 ->
  kalman_process (observe_all l k0) ob = (k', Ok tt) -> exists p,
  k_p10 k' = Some p /\ forall v, quad 6 (ent66 (k_p00 k')) v <= quad 6 (ent66 p) v.
Proof.
  intros e h k0 l ob k' E P. destruct (C53_optimal e h k0 l ob k' E P) as (p & r & g & Ep & _ & _ & V).
  exists p. split; auto. intros v. rewrite <- (no_gain_variance p r v). apply V.
Qed.
Print Assumptions C53_measurement_helps.

(** * C54 Estimate and propagator stay in step *)
Theorem C54_estimate_is_propagated_state : forall e h k l, RelativeKalman e h = Ok k ->
  k_x00 (observe_all l k) = state_vector (hl_state (k_propagator (observe_all l k))).
Proof. intros e h k l E. apply (reachable_good e h k l E). Qed.
Print Assumptions C54_estimate_is_propagated_state.

(** The clock shows the epoch of the last observation processed. *)
Theorem C54_clock : forall e h k, RelativeKalman e h = Ok k -> k_epoch (observe_all nil k) = e /\
  forall l ob, k_epoch (observe_all (l ++ ob :: nil) k) = so_epoch ob.
Proof.
  intros e h k E. split; [apply (good_start e h k E)|]. intros l ob. unfold observe_all. rewrite fold_left_app. cbn [fold_left].
  apply process_epoch. apply (reachable_good e h k l E).
Qed.
Print Assumptions C54_clock.

(** The prediction carries the estimate along the Clohessy-Wiltshire motion for
    exactly the time between the clock and the observation, and the estimate is
    corrected by the gain times the measurement residual. *)
Theorem C54_prediction : forall e h k0 l ob k', RelativeKalman e h = Ok k0 ->
  let k := observe_all l k0 in kalman_process k ob = (k', Ok tt) ->
  exists c g z, clohessy_wiltshire (hl_n h) c /\ c 0 = k_x00 k /\
  let x := c (seconds_between (k_epoch k) (so_epoch ob)) in
  k_x10 k' = Some x /\ k_k k' = Some g /\ k_z k' = Some z /\
  forall i, (i < 6)%nat -> ent6v (k_x00 k') i = ent6v x i + sum 3 (fun j => ent63 g i j * (ent3v z j - ent6v x j)).
Proof.
  intros e h k0 l ob k' E k P. assert (G := reachable_good e h k0 l E). fold k in G. destruct (process_accepted _ _ _ G P) as (_ & A).
  assert (N : hl_n (k_propagator k) = hl_n h).
  { unfold k. rewrite history_rate by apply (good_start e h k0 E). rewrite (proj2 (proj2 (good_start e h k0 E))). reflexivity. }
  assert (NZ : hl_n (k_propagator k) <> 0) by apply G.
  destruct A as (hz & he & f & g & p & _ & _ & _ & F & _ & _ & ->).
  exists (motion (hl_n h) (k_x00 k)), g, (s_position hz). rewrite <- N. split; [apply motion_cw; auto|]. split; [apply motion_zero; auto|].
  cbv zeta. rewrite <- (matrix_motion _ _ _ NZ F). cbn [k_x10 k_k k_z k_x00]. set (x := m66_multiply_vector f (k_x00 k)).
  split; [reflexivity|]. split; [reflexivity|]. split; [reflexivity|].
  intros i Hi. unfold updated_state. rewrite ent_v6_plus, ent_m63_multiply_vector by auto. f_equal. apply sum_ext; intros j Hj.
  apply Rmult_eq_compat_l. rewrite <- (sum_delta 6 j (fun m => ent6v x m)) by lia. replace (ent3v (v3_minus (s_position hz) (m36_multiply_vector KH x)) j) with (ent3v (s_position hz) j - ent3v (m36_multiply_vector KH x) j) by (destruct j as [|[|[|j]]]; try lia; reflexivity). rewrite ent_m36_multiply_vector by auto. f_equal.
  apply sum_ext; intros; rewrite ent_KH by auto; reflexivity.
Qed.
Print Assumptions C54_prediction.

(** The predicted covariance is that of the propagated error plus the process
    noise 1e-16 in every coordinate. *)
Theorem C54_predicted_covariance : forall e h k0 l ob k', RelativeKalman e h = Ok k0 ->
  let k := observe_all l k0 in kalman_process k ob = (k', Ok tt) ->
  exists f p, k_p10 k' = Some p /\
  (forall c, clohessy_wiltshire (hl_n h) c -> forall i, (i < 6)%nat ->
     ent6v (c (seconds_between (k_epoch k) (so_epoch ob))) i = sum 6 (fun j => ent66 f i j * ent6v (c 0) j)) /\
  forall v, quad 6 (ent66 p) v =
    quad 6 (ent66 (k_p00 k)) (fun j => sum 6 (fun i => ent66 f i j * v i)) + 1e-16 * sum 6 (fun i => v i * v i).
Proof.
  intros e h k0 l ob k' E k P. assert (G := reachable_good e h k0 l E). fold k in G. destruct (process_accepted _ _ _ G P) as (_ & A).
  assert (N : hl_n (k_propagator k) = hl_n h).
  { unfold k. rewrite history_rate by apply (good_start e h k0 E). rewrite (proj2 (proj2 (good_start e h k0 E))). reflexivity. }
  assert (NZ : hl_n (k_propagator k) <> 0) by apply G.
  destruct A as (hz & he & f & g & p & _ & _ & _ & F & Ep & _ & ->).
  exists f, p. split; [reflexivity|]. split.
  - intros c Hc i Hi. rewrite <- ent_m66_multiply_vector by auto. rewrite (matrix_motion _ _ _ NZ F). f_equal.
    apply (cw_unique (hl_n h)); rewrite <- ?N; auto; [rewrite N; auto|apply motion_cw; auto|rewrite motion_zero; auto].
  - intros v. rewrite Ep.
    assert (Q : k_q k = DEFAULT_NOISE) by apply G. rewrite Q.
    rewrite (quad_ext 6 _ (fun i j => sandwich 6 (ent66 f) (ent66 (k_p00 k)) i j + ent66 DEFAULT_NOISE i j) v v)
      by (intros; auto using ent_predicted).
    rewrite quad_plus, quad_sandwich. f_equal.
    rewrite (quad_ext 6 _ _ v v ent_default_noise) by auto. rewrite (quad_diagonal 6 (fun _ => 1e-16)), sum_scal_l. reflexivity.
Qed.
Print Assumptions C54_predicted_covariance.

(** The measurement is the observed point in the observer's Hill frame; its
    noise is diagonal, with the squared coordinates of the displaced point. *)
Theorem C54_measurement : forall e h k0 l ob k', RelativeKalman e h = Ok k0 ->
  kalman_process (observe_all l k0) ob = (k', Ok tt) ->
  let o := so_observer_state ob in
  exists hz he r, k_z k' = Some (s_position hz) /\ k_r k' = Some r /\
  hcw_to_gcrf hz o = Ok (GCRF (so_epoch ob) (seen ob) (g_velocity o)) /\
  gcrf_to_hcw o (GCRF (so_epoch ob) (displaced ob) (g_velocity o)) = Ok he /\
  forall i j, (i < 3)%nat -> (j < 3)%nat -> ent33 r i j = delta i j * ent3v (s_position he) i ^ 2.
Proof.
  intros e h k0 l ob k' E P o. assert (G := reachable_good e h k0 l E). destruct (process_accepted _ _ _ G P) as (_ & A).
  destruct A as (hz & he & f & g & p & Z & ZB & D & F & Ep & _ & ->). exists hz, he, (measurement_noise (s_position he)).
  split; [reflexivity|]. split; [reflexivity|]. split; [exact ZB|]. split; [exact D|].
  intros i j Hi Hj. rewrite ent_noise by auto. ring.
Qed.
Print Assumptions C54_measurement.

(** After an accepted observation [a], the next accepted one [b] is predicted
    over the time between them. *)
Theorem C54_interval : forall e h k0 l a b k1 k2, RelativeKalman e h = Ok k0 ->
  kalman_process (observe_all l k0) a = (k1, Ok tt) -> kalman_process k1 b = (k2, Ok tt) ->
  exists c, clohessy_wiltshire (hl_n h) c /\ c 0 = k_x00 k1 /\
    k_x10 k2 = Some (c (seconds_between (so_epoch a) (so_epoch b))).
Proof.
  intros e h k0 l a b k1 k2 E A B.
  assert (R : k1 = observe_all (l ++ a :: nil) k0) by (unfold observe_all in *; rewrite fold_left_app; cbn [fold_left]; rewrite A; reflexivity).
  rewrite R in B. destruct (C54_prediction e h k0 (l ++ a :: nil) b k2 E B) as (c & g & z & Hc & C0 & X & _).
  rewrite (proj2 (C54_clock e h k0 E)) in X. exists c. rewrite R. auto.
Qed.
Print Assumptions C54_interval.

(** * C55 A rejected observation advances the clock *)
Theorem C55_rejected : forall e h k0 l ob k' x, RelativeKalman e h = Ok k0 ->
  let k := observe_all l k0 in kalman_process k ob = (k', Err x) ->
  x = ZeroDivisionError /\ ~ observable ob /\
  k_epoch k' = so_epoch ob /\ k_x00 k' = k_x00 k /\ k_p00 k' = k_p00 k /\ k_propagator k' = k_propagator k.
Proof.
  intros e h k0 l ob k' x E k P. assert (G := reachable_good e h k0 l E). fold k in G.
  destruct (process_cases k ob G) as [(O & k1 & E1 & _)|(O & k1 & E1 & Ee & Ex & Ep & _ & Eh)]; rewrite E1 in P; inversion P; subst; auto.
  do 5 (split; [auto; fail|]). auto.
Qed.
Print Assumptions C55_rejected.

(** So the observation [b] that follows a rejected observation [a] is predicted
    from the estimate made at the epoch of the filter before [a], but only over
    the time from [a] to [b]. *)
Theorem C55_short_prediction : forall e h k0 l a b k1 k2 x, RelativeKalman e h = Ok k0 ->
  kalman_process (observe_all l k0) a = (k1, Err x) -> kalman_process k1 b = (k2, Ok tt) ->
  exists c, clohessy_wiltshire (hl_n h) c /\ c 0 = k_x00 (observe_all l k0) /\
    k_x10 k2 = Some (c (seconds_between (so_epoch a) (so_epoch b))).
Proof.
  intros e h k0 l a b k1 k2 x E A B.
  assert (R : k1 = observe_all (l ++ a :: nil) k0) by (unfold observe_all in *; rewrite fold_left_app; cbn [fold_left]; rewrite A; reflexivity).
  destruct (C55_rejected e h k0 l a k1 x E A) as (_ & _ & _ & X & _).
  rewrite R in B. destruct (C54_prediction e h k0 (l ++ a :: nil) b k2 E B) as (c & g & z & Hc & C0 & Xx & _).
  rewrite (proj2 (C54_clock e h k0 E)) in Xx. exists c. rewrite <- X, R. auto.
Qed.
Print Assumptions C55_short_prediction.

(** The history of [C51_example] contains such a pair: the sighting after the
    rejected one, at the same epoch, is predicted over no time at all. *)
Example C55_example : exists h k k1 k2, Hill chief 42164 = Ok h /\ RelativeKalman (Epoch 51544.5) h = Ok k /\
  kalman_process k blind = (k1, Err ZeroDivisionError) /\ kalman_process k1 (sighting 0) = (k2, Ok tt) /\
  k_epoch k = Epoch 51544.5 /\ so_epoch (sighting 0) = Epoch 51544.75 /\ k_x10 k2 = Some (k_x00 k).
Proof.
  destruct filter_exists as (h & k & H & K). assert (GS := good_start _ _ _ K). destruct GS as (G & Ee & Eh).
  destruct (process_cases k blind G) as [(O & _)|(_ & k1 & E1 & _)]; [exfalso; apply blind_unobservable; exact O|].
  assert (G1 := process_good k blind G). rewrite E1 in G1. cbn [fst] in G1.
  destruct (process_cases k1 (sighting 0) G1) as [(_ & k2 & E2 & A2)|(N & _)]; [|exfalso; apply N, sighting_observable].
  exists h, k, k1, k2. split; [auto|]. split; [auto|]. split; [auto|]. split; [auto|]. split; [auto|]. split; [reflexivity|].
  destruct (C55_short_prediction _ _ _ nil blind (sighting 0) k1 k2 _ K E1 E2) as (c & _ & C0 & X). change (observe_all nil k) with k in C0. rewrite X, <- C0. apply f_equal.
  unfold seconds_between. cbn. f_equal. lra.
Qed.
