(** Properties of simulated observations and of the filters spacecraft carry
    (C88, C89). *)
From Coq Require Import Reals Lra Lia List.
From Verif.Model Require Import Num Constants Linalg Functions Time Celestial Positions States Inertial Relative Obs Filtering Constraints Payloads Artificial.
From Verif.Spec Require Import Geometry Gravity Covariance Operations Sensing Acquisition.
From Verif.Proofs Require Import NumLemmas LinalgProofs FunctionsProofs StatesProofs RelativeProofs FilteringProofs PayloadsProofs ArtificialProofs TrackingProofs EstimationProofs.
From Verif.Properties Require Import ArtificialProps.
Import ListNotations.
Local Open Scope R_scope.

(** * C88 What a simulated observation contains *)

(** [z1], [z2], [u] are the random draws, [cam] the wide or narrow camera, [d]
    the true vector to the target.  The observed range is off by [z1] range
    errors, the observed direction tilted by [z2] pointing accuracies, and the
    observer's state and both errors are reported. *)
Theorem C88_observation : forall (cam : craft -> camera) px f z1 z2 u c t, 0 < px -> 0 < f < PI / 2 -> Camera px f = Ok (cam c) -> body_radius (sc_params t) <> 0 ->
  let d := sub (place_of t) (place_of c) in let re := sensor_error px f (body_radius (sc_params t)) (norm d) in
  ~ (x3 d = 0 /\ y3 d = 0) -> norm d + z1 * re <> 0 ->
  exists ob, observe cam z1 z2 u c t = Ok ob /\
    g_epoch (so_observer_state ob) = g_epoch (rk_state (propagator c)) /\
    g_position (so_observer_state ob) = place_of c /\ g_velocity (so_observer_state ob) = motion_of c /\
    norm (so_observed_direction ob) = Rabs (norm d + z1 * re) /\
    dot d (so_observed_direction ob) = norm d * (norm d + z1 * re) * cos (z2 * pointing_accuracy (sc_params c)) /\
    so_range ob = Rabs (norm d + z1 * re) /\
    so_range_error ob = re /\ so_angular_error ob = pointing_accuracy (sc_params c).
Proof. exact observe_ok. Qed.
Print Assumptions C88_observation.

(** Without noise it is the true vector. *)
Theorem C88_noise_free : forall (cam : craft -> camera) px f u c t, 0 < px -> 0 < f < PI / 2 -> Camera px f = Ok (cam c) -> body_radius (sc_params t) <> 0 ->
  let d := sub (place_of t) (place_of c) in ~ (x3 d = 0 /\ y3 d = 0) ->
  exists ob, observe cam 0 0 u c t = Ok ob /\ so_observed_direction ob = d /\
    add (g_position (so_observer_state ob)) (so_observed_direction ob) = place_of t.
Proof.
  intros cam px f u c t P F E B d H. eexists. split; [exact (observe_exact cam px f u c t P F E B H)|]. split; [reflexivity|].
  unfold SpaceObservation. cbv zeta. cbn [so_observer_state so_observed_direction]. rewrite v3_copy_id.
  assert (X : g_position (gcrf_copy (current_state c)) = place_of c).
  { rewrite <- (proj1 (proj2 (current_state_is c))). destruct (current_state c). reflexivity. }
  rewrite X. destruct (place_of t), (place_of c). unfold add, sub. cbn. f_equal; ring.
Qed.
Print Assumptions C88_noise_free.

(** It cannot be simulated exactly when the target has no size, stands exactly
    above or below the observer along the Earth's axis, or the draw makes the
    noisy range vanish. *)
Theorem C88_raises : forall (cam : craft -> camera) px f z1 z2 u c t x, 0 < px -> 0 < f < PI / 2 -> Camera px f = Ok (cam c) ->
  let d := sub (place_of t) (place_of c) in
  observe cam z1 z2 u c t = Err x <-> x = ZeroDivisionError /\
    (body_radius (sc_params t) = 0 \/ (x3 d = 0 /\ y3 d = 0) \/
     norm d + z1 * sensor_error px f (body_radius (sc_params t)) (norm d) = 0).
Proof. exact observe_raises. Qed.
Print Assumptions C88_raises.

(** A noise-free observation feeds the filter the target's true position in the
    observer's Hill frame, as [hill_position] reports it. *)
Theorem C88_feeds_truth : forall (cam : craft -> camera) px f u i j w w' c t c' k, reachable w ->
  nth_error w i = Some c -> nth_error w j = Some t -> sc_filter c = Some k ->
  0 < px -> 0 < f < PI / 2 -> Camera px f = Ok (cam c) -> body_radius (sc_params t) <> 0 ->
  let d := sub (place_of t) (place_of c) in ~ (x3 d = 0 /\ y3 d = 0) ->
  process cam 0 0 u i j w = (w', Ok tt) -> nth_error w' i = Some c' ->
  exists k' z, sc_filter c' = Some k' /\ k_z k' = Some z /\ hill_position c t = Ok z.
Proof.
  intros cam px f u i j w w' c t c' k R Ei Ej Ek P F E B d H U N.
  destruct (process_ok cam 0 0 u i j w w' (Ok tt) c t k Ei Ej Ek U) as [(ob & O & W & X)|(e & _ & _ & X)]; [|discriminate].
  destruct (kalman_process k ob) as [k' r'] eqn:K. cbn [fst snd] in *. subst r' w'. rewrite (set_nth_same w i _ c Ei) in N. injection N as <-.
  destruct (reachable_sound w R i c Ei k Ek) as (e & h & k0 & l & A & _ & D).
  destruct (exact_measurement cam px f u c t k k') with (ob := ob) as (z & Z1 & Z2); auto; [rewrite D; eapply reachable_good; eauto|].
  exists k', z. auto.
Qed.
Print Assumptions C88_feeds_truth.

(** An observation of any target much nearer than the Earth's centre is accepted
    by the filter, whatever happened before. *)
Theorem C88_accepted : forall (cam : craft -> camera) px f z1 z2 u i j w c t k, reachable w ->
  nth_error w i = Some c -> nth_error w j = Some t -> sc_filter c = Some k ->
  0 < px -> 0 < f < PI / 2 -> Camera px f = Ok (cam c) -> 0 < body_radius (sc_params t) ->
  let d := sub (place_of t) (place_of c) in let re := sensor_error px f (body_radius (sc_params t)) (norm d) in
  ~ (x3 d = 0 /\ y3 d = 0) -> norm d + z1 * re <> 0 -> cross (place_of c) (motion_of c) <> zero3 ->
  2 * Rabs (norm d + z1 * re) + re < norm (place_of c) ->
  snd (process cam z1 z2 u i j w) = Ok tt.
Proof. exact near_processed. Qed.
Print Assumptions C88_accepted.

(** Two spacecraft ten kilometres apart, created and one acquired by the other:
    all hypotheses above are met. *)
Definition near_state : gcrf := GCRF j2000 (V3 42164 10 0) (V3 0 3.07 0).
Definition main_state : gcrf := GCRF j2000 (V3 42164 0 0) (V3 0 3.07 0).
Lemma created s : exists c, Spacecraft s = Ok c /\ place_of c = g_position s /\ motion_of c = g_velocity s /\
  g_epoch (rk_state (propagator c)) = g_epoch s /\ steering c = Lvlh /\ slewing c = false /\ sc_filter c = None /\
  body_z c = sub zero3 (g_position s) /\ body_radius (sc_params c) = 0.005 /\ Camera 3072 (radians 5) = Ok (wfov c).
Proof.
  destruct (Spacecraft_ok s) as (c & E & P & M & S & _ & _ & B & Q & _). destruct (Spacecraft_inv s c E) as (k & w & n & Cw & Cn & K & D). cbv zeta in D.
  exists c. split; [exact E|]. unfold place_of, motion_of. split; [rewrite P; reflexivity|]. split; [rewrite P; reflexivity|]. split; [rewrite P; reflexivity|].
  split; [exact M|]. split; [exact S|]. split; [rewrite D; reflexivity|]. split; [exact B|]. split; [rewrite Q; reflexivity|]. rewrite D. exact Cw.
Qed.

(** * C89 Acquiring a target, and the life of a filter *)

(** The filter [acquire] installs: its clock is the tracker's, its estimate is
    the seed's position and velocity as they are before any synchronisation,
    its mean motion that of the tracker's orbit.  It is installed even when the
    tracking part of the call raises. *)
Theorem C89_acquired : forall fuel i j w w' r c t, nth_error w i = Some c -> nth_error w j = Some t ->
  cross (place_of c) (motion_of c) <> zero3 -> cross (place_of t) (cross (place_of c) (motion_of c)) <> zero3 -> energy c < 0 ->
  acquire fuel i j w = (w', r) -> exists c' k h, nth_error w' i = Some c' /\ sc_filter c' = Some k /\
    RelativeKalman (g_epoch (rk_state (propagator c))) h = Ok k /\
    hcw_to_gcrf (hl_state h) (current_state c) = Ok (GCRF (g_epoch (rk_state (propagator c))) (place_of t) (motion_of t)) /\
    hl_sma h = - mu_earth / (2 * energy c) /\ 0 < hl_n h /\ hl_n h ^ 2 * hl_sma h ^ 3 = mu_earth.
Proof.
  intros fuel i j w w' r c t Ei Ej N A En U. destruct (make_filter_ok c t N A En) as (k & h & K & R).
  destruct (acquire_ok fuel i j w w' r c t k Ei Ej K U) as (c' & E' & F). exists c', k, h. auto.
Qed.
Print Assumptions C89_acquired.

(** Otherwise nothing changes, and the exception tells an unbound orbit from
    the degenerate geometries. *)
Theorem C89_refused : forall fuel i j w c t, nth_error w i = Some c -> nth_error w j = Some t ->
  let radial := cross (place_of c) (motion_of c) = zero3 in
  let on_axis := cross (place_of t) (cross (place_of c) (motion_of c)) = zero3 in
  (radial \/ on_axis \/ energy c = 0 -> acquire fuel i j w = (w, Err ZeroDivisionError)) /\
  (~ radial -> ~ on_axis -> 0 < energy c -> acquire fuel i j w = (w, Err ValueError)).
Proof.
  intros fuel i j w c t Ei Ej radial on_axis. unfold acquire. rewrite Ei, Ej. split; [intros H|intros H1 H2 H3].
  - rewrite (proj2 (make_filter_err c t ZeroDivisionError) (or_introl (conj eq_refl H))). reflexivity.
  - rewrite (proj2 (make_filter_err c t ValueError) (or_intror (conj eq_refl (conj H1 (conj H2 H3))))). reflexivity.
Qed.
Print Assumptions C89_refused.

(** Acquiring [b] while tracking [a] gives a filter for [b] on a spacecraft that
    goes on pointing at [a]. *)
Theorem C89_wrong_target : forall fuel i a b w w' c t, nth_error w i = Some c -> nth_error w b = Some t ->
  steering c = Target -> tracked_target c = Some a -> acquire fuel i b w = (w', Ok tt) ->
  exists c' k h ta, nth_error w' i = Some c' /\ sc_filter c' = Some k /\ RelativeKalman (g_epoch (rk_state (propagator c))) h = Ok k /\
    hcw_to_gcrf (hl_state h) (current_state c) = Ok (GCRF (g_epoch (rk_state (propagator c))) (place_of t) (motion_of t)) /\
    tracked_target c' = Some a /\ nth_error w' a = Some ta /\ body_z c' = sub (place_of ta) (place_of c').
Proof.
  intros fuel i a b w w' c t Ei Eb S Tr U.
  assert (X : ~ (cross (place_of c) (motion_of c) = zero3 \/ cross (place_of t) (cross (place_of c) (motion_of c)) = zero3 \/ energy c = 0) /\ ~ 0 < energy c).
  { split; intros H.
    - rewrite (proj1 (C89_refused fuel i b w c t Ei Eb) H) in U. discriminate.
    - destruct (vec3_zero_dec (cross (place_of c) (motion_of c))) as [Z|Z]; [rewrite (proj1 (C89_refused fuel i b w c t Ei Eb)) in U; [discriminate|auto]|].
      destruct (vec3_zero_dec (cross (place_of t) (cross (place_of c) (motion_of c)))) as [Y|Y]; [rewrite (proj1 (C89_refused fuel i b w c t Ei Eb)) in U; [discriminate|auto]|].
      rewrite (proj2 (C89_refused fuel i b w c t Ei Eb) Z Y H) in U. discriminate. }
  destruct X as [X1 X2]. assert (En : energy c < 0) by (destruct (Rtotal_order (energy c) 0) as [L|[L|L]]; auto; exfalso; tauto).
  destruct (C89_acquired fuel i b w w' (Ok tt) c t Ei Eb ltac:(tauto) ltac:(tauto) En U) as (c' & k & h & E' & F & R & Hh & _).
  unfold acquire in U. rewrite Ei, Eb in U. destruct (make_filter c t) as [k2|]; [|discriminate].
  assert (Y : exists t2, nth_error (set_nth w i (set_filter c k2)) b = Some t2) by (eapply nth_set_exists; eauto). destruct Y as (t2 & Et2).
  destruct (C64_retarget_ignored fuel i a b _ (set_filter c k2) t2 w' (set_nth_same w i _ c Ei) Et2 S Tr U) as (c2 & ta & A1 & _ & A3 & A4 & A5).
  assert (c2 = c') by congruence. subst. exists c', k, h, ta. auto 10.
Qed.
Print Assumptions C89_wrong_target.

(** No other operation changes a filter: neither steps, manoeuvres and mode
    changes of the spacecraft, nor anything done to others. *)
Theorem C89_untouched : forall fuel o w w' r i c, run_op fuel o w = (w', r) -> ~ estimates i o -> nth_error w i = Some c ->
  exists c', nth_error w' i = Some c' /\ sc_filter c' = sc_filter c.
Proof. exact run_filters. Qed.
Print Assumptions C89_untouched.

(** Processing changes nothing but the observer's filter, and that by exactly
    one observation; it does not move or turn any spacecraft. *)
Theorem C89_process : forall (cam : craft -> camera) z1 z2 u i j w w' r c t k, nth_error w i = Some c -> nth_error w j = Some t -> sc_filter c = Some k ->
  process cam z1 z2 u i j w = (w', r) ->
  (exists ob, observe cam z1 z2 u c t = Ok ob /\ w' = set_nth w i (set_filter c (fst (kalman_process k ob))) /\ r = snd (kalman_process k ob)) \/
  (exists e, observe cam z1 z2 u c t = Err e /\ w' = w /\ r = Err e).
Proof. exact process_ok. Qed.
Print Assumptions C89_process.

(** Without an acquisition it raises and changes nothing. *)
Theorem C89_process_first : forall (cam : craft -> camera) z1 z2 u i j w c t, nth_error w i = Some c -> nth_error w j = Some t -> sc_filter c = None ->
  fst (process cam z1 z2 u i j w) = w /\ snd (process cam z1 z2 u i j w) <> Ok tt.
Proof. exact process_none. Qed.
Print Assumptions C89_process_first.

(** In every history, whatever raised in it, each filter is one that was
    started properly and fed observations, so the properties C51 to C55 and
    C85, C86 hold of it; in particular its covariance is a covariance. *)
Theorem C89_history : forall w i c k, reachable w -> nth_error w i = Some c -> sc_filter c = Some k ->
  (exists e h k0 l, RelativeKalman e h = Ok k0 /\ 0 < hl_n h /\ k = observe_all l k0) /\
  symmetric 6 (ent66 (k_p00 k)) /\ semidefinite 6 (ent66 (k_p00 k)).
Proof.
  intros w i c k R E F. destruct (reachable_sound w R i c E k F) as (e & h & k0 & l & A & N & D).
  split; [exists e, h, k0, l; auto|]. rewrite D. destruct (reachable_good e h k0 l A) as (_ & S & P & _). auto.
Qed.
Print Assumptions C89_history.

Lemma acquisition : exists c t c' k, Spacecraft main_state = Ok c /\ Spacecraft near_state = Ok t /\ reachable [c; t] /\ place_of c = V3 42164 0 0 /\ place_of t = V3 42164 10 0 /\
  cross (place_of c) (motion_of c) <> zero3 /\ cross (place_of t) (cross (place_of c) (motion_of c)) <> zero3 /\ energy c < 0 /\
  acquire 2 0 1 [c; t] = ([c'; t], Ok tt) /\ reachable [c'; t] /\ sc_filter c' = Some k /\ steering c' = Target /\ tracked_target c' = Some 1%nat /\ slew_stop c' <> None /\
  propagator c' = propagator c /\ Camera 3072 (radians 5) = Ok (wfov c') /\ body_radius (sc_params t) = 0.005.
Proof.
  destruct (created main_state) as (c & E & P & M & Ep & S & Sl & F & B & Br & Cw).
  destruct (created near_state) as (t & E' & P' & M' & Ep' & S' & Sl' & F' & B' & Br' & Cw').
  assert (R : reachable [c; t]).
  { eapply (reach_op 1 (New near_state) [c]); [|cbn [run_op]; rewrite E'; reflexivity].
    eapply (reach_op 1 (New main_state) nil); [constructor|cbn [run_op]; rewrite E; reflexivity]. }
  assert (X : cross (place_of c) (motion_of c) = V3 0 0 129443.48) by (rewrite P, M; unfold cross; cbn; f_equal; lra).
  assert (Np : norm (place_of c) = 42164) by (rewrite P; unfold norm, dot; cbn; apply sqrt_eq; lra).
  assert (Nv : norm (motion_of c) = 3.07) by (rewrite M; unfold norm, dot; cbn; apply sqrt_eq; lra).
  assert (N1 : cross (place_of c) (motion_of c) <> zero3) by (rewrite X; unfold zero3; intros Q; injection Q; lra).
  assert (N2 : cross (place_of t) (cross (place_of c) (motion_of c)) <> zero3).
  { rewrite X, P'. unfold cross, zero3. cbn. intros Q. injection Q. intros. lra. }
  assert (En : energy c < 0) by (unfold energy, mu_earth; rewrite Np, Nv; lra).
  destruct (make_filter_ok c t N1 N2 En) as (k & h & K & _).
  assert (A : exists c', acquire 2 0 1 [c; t] = ([c'; t], Ok tt) /\ sc_filter c' = Some k /\ steering c' = Target /\ tracked_target c' = Some 1%nat /\ slew_stop c' <> None /\ propagator c' = propagator c /\ wfov c' = wfov c).
  { unfold acquire. cbn [nth_error]. rewrite K. destruct (track_in_sync 1 0 1 [set_filter c k; t] (set_filter c k) t) as (c' & T & T1 & T2 & _ & T3 & T4 & T5 & T6); auto.
    5:{ exists c'. split; [exact T|]. split; [exact T2|]. split; [exact T4|]. split; [exact T5|]. split; [exact T6|]. split; [exact T1|exact T3]. }
    - change (steering (set_filter c k)) with (steering c). rewrite S. discriminate.
    - change (body_z (set_filter c k)) with (body_z c). rewrite B. unfold main_state, GCRF, sub, zero3. cbn. intros Q. injection Q. intros. lra.
    - change (place_of (set_filter c k)) with (place_of c). rewrite P, P'. cbn. intros Q. injection Q. intros. lra.
    - change (clock (set_filter c k)) with (clock c). unfold clock. rewrite Ep, Ep'. reflexivity. }
  destruct A as (c' & A & Fc & Sc & Tc & Ss & Pc & Wc). exists c, t, c', k. do 2 (split; [assumption|]). split; [exact R|]. split; [exact P|]. split; [exact P'|]. split; [exact N1|]. split; [exact N2|]. split; [exact En|].
  split; [exact A|]. split; [eapply (reach_op 2 (Acquire 0 1) [c; t]); [exact R|exact A]|]. repeat (split; [assumption|]). split; [rewrite Wc; exact Cw|exact Br'].
Qed.

(** All hypotheses of the theorems above hold of these two. *)
Example C88_example : exists c t k w' c', reachable [c; t] /\ sc_filter c = Some k /\ 0 < radians 5 < PI / 2 /\ Camera 3072 (radians 5) = Ok (wfov c) /\
  body_radius (sc_params t) <> 0 /\ sub (place_of t) (place_of c) = V3 0 10 0 /\ norm (V3 0 10 0) + 0 * sensor_error 3072 (radians 5) (body_radius (sc_params t)) (norm (V3 0 10 0)) <> 0 /\
  cross (place_of c) (motion_of c) <> zero3 /\
  2 * Rabs (norm (V3 0 10 0) + 0 * sensor_error 3072 (radians 5) (body_radius (sc_params t)) (norm (V3 0 10 0))) + sensor_error 3072 (radians 5) (body_radius (sc_params t)) (norm (V3 0 10 0)) < norm (place_of c) /\
  process wfov 0 0 0 0 1 [c; t] = (w', Ok tt) /\ nth_error w' 0 = Some c'.
Proof.
  destruct acquisition as (c0 & t & c & k & _ & _ & _ & P0 & P' & N0 & _ & _ & _ & R & F & _ & _ & _ & Pr & W & Br).
  assert (P : place_of c = V3 42164 0 0) by (unfold place_of in *; rewrite Pr; exact P0).
  assert (N : cross (place_of c) (motion_of c) <> zero3) by (unfold place_of, motion_of in *; rewrite Pr; exact N0).
  assert (A : 0 < radians 5 < PI / 2) by (unfold radians; assert (X := PI_RGT_0); lra).
  assert (D : sub (place_of t) (place_of c) = V3 0 10 0) by (rewrite P, P'; unfold sub; cbn; f_equal; ring).
  assert (Nd : norm (V3 0 10 0) = 10) by (unfold norm, dot; cbn; apply sqrt_eq; lra).
  assert (Np : norm (place_of c) = 42164) by (rewrite P; unfold norm, dot; cbn; apply sqrt_eq; lra).
  assert (T : tan (radians 5) < 1).
  { rewrite <- tan_PI4. apply tan_increasing; unfold radians in *; assert (X := PI_RGT_0); lra. }
  assert (T0 := tan_pos (radians 5) A).
  assert (L : 2 * Rabs (norm (V3 0 10 0) + 0 * sensor_error 3072 (radians 5) (body_radius (sc_params t)) (norm (V3 0 10 0))) + sensor_error 3072 (radians 5) (body_radius (sc_params t)) (norm (V3 0 10 0)) < norm (place_of c)).
  { rewrite Rmult_0_l, Rplus_0_r, Nd, Np, Br, Rabs_pos_eq by lra. unfold sensor_error. lra. }
  assert (Z : norm (V3 0 10 0) + 0 * sensor_error 3072 (radians 5) (body_radius (sc_params t)) (norm (V3 0 10 0)) <> 0) by (rewrite Rmult_0_l, Rplus_0_r, Nd; lra).
  assert (B : body_radius (sc_params t) <> 0) by (rewrite Br; lra).
  assert (S := C88_accepted wfov 3072 (radians 5) 0 0 0 0 1 [c; t] c t k R eq_refl eq_refl F ltac:(lra) A W ltac:(rewrite Br; lra)).
  cbv zeta in S. rewrite D in S. specialize (S ltac:(cbn; intros [_ Q]; lra) Z N L).
  destruct (process wfov 0 0 0 0 1 [c; t]) as [w' r] eqn:Pw. cbn in S. subst r.
  destruct (process_ok wfov 0 0 0 0 1 [c; t] w' (Ok tt) c t k eq_refl eq_refl F Pw) as [(ob & _ & W' & _)|(e & _ & _ & X)]; [|discriminate].
  exists c, t, k, w'. eexists. repeat (split; [eassumption|]). rewrite W'. reflexivity.
Qed.

Example C89_example : exists c t w', reachable [c; t] /\
  cross (place_of c) (motion_of c) <> zero3 /\ cross (place_of t) (cross (place_of c) (motion_of c)) <> zero3 /\ energy c < 0 /\
  acquire 2 0 1 [c; t] = (w', Ok tt).
Proof.
  destruct acquisition as (c & t & c' & k & _ & _ & R & _ & _ & N & A & E & Q & _). exists c, t, [c'; t]. auto.
Qed.
(** and of one that tracks spacecraft 1 when it acquires spacecraft 2 *)
Example C89_wrong_target_example : exists c t w', nth_error [c; t; t] 0 = Some c /\ nth_error [c; t; t] 2 = Some t /\
  steering c = Target /\ tracked_target c = Some 1%nat /\ acquire 1 0 2 [c; t; t] = (w', Ok tt).
Proof.
  destruct acquisition as (c0 & t & c & k & E1 & E2 & _ & P0 & P' & N0 & A0 & En0 & _ & R & F & S & Tr & Ss & Pr & W & Br).
  assert (N : cross (place_of c) (motion_of c) <> zero3) by (unfold place_of, motion_of in *; rewrite Pr; exact N0).
  assert (A : cross (place_of t) (cross (place_of c) (motion_of c)) <> zero3) by (unfold place_of, motion_of in *; rewrite Pr; exact A0).
  assert (En : energy c < 0) by (unfold energy, place_of, motion_of in *; rewrite Pr; exact En0).
  destruct (make_filter_ok c t N A En) as (k2 & h & K & _).
  exists c, t. unfold acquire. cbn [nth_error]. rewrite K. cbn [set_nth].
  set (c2 := set_filter c k2). assert (S2 : steering c2 = Target) by exact S.
  rewrite (track_state_target 1 0 2 [c2; t; t] c2 t) by auto. 
  destruct (update_in_sync 0 0 1 [c2; t; t] c2 t) as (w' & U); auto.
  - unfold clock. change (propagator c2) with (propagator c). rewrite Pr.
    destruct (Spacecraft_ok main_state) as (a & A1 & A2 & _). destruct (Spacecraft_ok near_state) as (b & B1 & B2 & _).
    assert (a = c0) by congruence. assert (b = t) by congruence. subst a b. rewrite A2, B2. reflexivity.
  - exists w'. auto.
Qed.
