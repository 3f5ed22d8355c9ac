(** Properties of the relative filter's error and of relative motion (C85-C87),
    and one more of the gain (C53). *)
From Coq Require Import Reals Lra Lia List.
From Verif.Model Require Import Num Constants Linalg Functions Time Celestial Positions States Relative Obs Filtering.
From Verif.Spec Require Import Geometry Hill Covariance Tracking.
From Verif.Proofs Require Import NumLemmas LinalgProofs MatrixProofs StatesProofs RelativeProofs FilteringProofs ConsistencyProofs.
From Verif.Properties Require Import FilteringProps.
Local Open Scope R_scope.

(** * C53 (continued) *)

(** After an accepted observation the reported variance of the relative position
    along any direction is at most that of the observation itself. *)
Theorem C53_below_measurement : forall e h k0 l ob k', RelativeKalman e h = Ok k0 ->
  kalman_process (observe_all l k0) ob = (k', Ok tt) -> exists r, k_r k' = Some r /\
  forall v, v 3%nat = 0 -> v 4%nat = 0 -> v 5%nat = 0 -> quad 6 (ent66 (k_p00 k')) v <= quad 3 (ent33 r) v.
Proof.
  intros e h k0 l ob k' E P. destruct (C53_optimal e h k0 l ob k' E P) as (p & r & g & _ & Er & _ & V).
  exists r. split; auto. intros v V3' V4 V5. rewrite <- (position_gain_variance p r v V3' V4 V5). apply V.
Qed.
Print Assumptions C53_below_measurement.

(** * C85 The error stays within the reported uncertainty *)

(** The target moves by the Clohessy-Wiltshire equations; the estimate starts
    within [m] standard deviations of the filter's initial covariance in every
    coordinate, and every observation is off by at most [s] times the error the
    filter assumes for it.  Then after any history the estimate is within
    sqrt (6 m^2 + 3 s^2 N) reported standard deviations of the truth in every
    direction, N being the number of observations: uncertainty is not
    underestimated by more than that factor, whatever the geometry and timing. *)
Theorem C85_consistent : forall e h k0 c m s l, RelativeKalman e h = Ok k0 -> clohessy_wiltshire (hl_n h) c -> 0 <= s ->
  (forall i, (i < 6)%nat -> (ent6v (state_vector (hl_state h)) i - ent6v (c 0) i) ^ 2 <= m ^ 2 * (if Nat.ltb i 3 then 0.5 else 5e-5)) ->
  (forall ob, In ob l -> sighted s e c ob) ->
  let k := observe_all l k0 in let truth := c (seconds_between e (k_epoch k)) in let f := 6 * m ^ 2 + 3 * s ^ 2 * INR (length l) in
  within f (k_p00 k) (k_x00 k) truth /\
  forall i, (i < 6)%nat -> Rabs (ent6v (k_x00 k) i - ent6v truth i) <= sqrt f * sqrt (ent66 (k_p00 k) i i).
Proof. exact consistent. Qed.
Print Assumptions C85_consistent.

(** The same from an arbitrary point of a history on. *)
Theorem C85_from_here : forall e h k0 l0 c0 c s l, RelativeKalman e h = Ok k0 -> clohessy_wiltshire (hl_n h) c -> 0 <= s -> 0 <= c0 ->
  let k := observe_all l0 k0 in within c0 (k_p00 k) (k_x00 k) (c (seconds_between e (k_epoch k))) ->
  (forall ob, In ob l -> sighted s e c ob) ->
  let k' := observe_all l k in
  within (c0 + 3 * s ^ 2 * INR (length l)) (k_p00 k') (k_x00 k') (c (seconds_between e (k_epoch k'))).
Proof. exact consistent_from. Qed.
Print Assumptions C85_from_here.

(** An exact seed and exact observations keep the estimate exact. *)
Theorem C85_exact : forall e h k0 c l, RelativeKalman e h = Ok k0 -> clohessy_wiltshire (hl_n h) c ->
  c 0 = state_vector (hl_state h) -> (forall ob, In ob l -> sighted 0 e c ob) ->
  let k := observe_all l k0 in k_x00 k = c (seconds_between e (k_epoch k)).
Proof. exact exact_tracking. Qed.
Print Assumptions C85_exact.

Example C85_example : exists h k c m, Hill chief 42164 = Ok h /\ RelativeKalman (Epoch 51544.5) h = Ok k /\
  clohessy_wiltshire (hl_n h) c /\
  (forall i, (i < 6)%nat -> (ent6v (state_vector (hl_state h)) i - ent6v (c 0) i) ^ 2 <= m ^ 2 * (if Nat.ltb i 3 then 0.5 else 5e-5)) /\
  forall ob, In ob (sighting 1 :: nil) -> sighted 0 (Epoch 51544.5) c ob.
Proof.
  destruct (Hill_ok chief 42164 ltac:(lra)) as (h & H & N & _). destruct (start_ok (Epoch 51544.5) h) as (k & K); [lra|].
  assert (G := proj1 (good_start _ _ _ K)).
  destruct (process_cases k (sighting 1) G) as [(O & k1 & _ & hz & he & _ & _ & _ & Z & _ & E & _)|(NO & _)]; [|exfalso; apply NO, sighting_observable].
  set (v := V6 (x3 (s_position hz)) (y3 (s_position hz)) (z3 (s_position hz)) 0 0 0).
  set (T := seconds_between (Epoch 51544.5) (so_epoch (sighting 1))).
  set (c := motion (hl_n h) (motion (hl_n h) v (- T))).
  destruct (some_sigma (state_vector (hl_state h)) (c 0)) as (m & M).
  exists h, k, c, m. split; [auto|]. split; [auto|]. split; [apply motion_cw; lra|]. split; [exact M|].
  intros ob [<-|[]]. split; [exact O|]. exists hz, he. split; [exact Z|]. split; [exact E|].
  fold T. unfold c. rewrite motion_plus by lra. rewrite Rplus_opp_l, motion_zero by lra.
  intros j Hj. destruct j as [|[|[|j]]]; try lia; cbn [ent3v ent6v v x6 y6 z6]; rewrite Rminus_eq_0, Rabs_R0; lra.
Qed.

(** * C86 Looking ahead does not disturb the filter *)

(** Stepping the filter's propagator between observations, any number of times
    and by any durations, changes no later estimate, covariance or clock. *)
Theorem C86_look_ahead : forall l k, let a := used_all l k in let b := observe_all (observations l) k in
  k_x00 a = k_x00 b /\ k_p00 a = k_p00 b /\ k_epoch a = k_epoch b /\
  k_x10 a = k_x10 b /\ k_p10 a = k_p10 b /\ k_k a = k_k b /\ k_z a = k_z b /\ k_r a = k_r b.
Proof. intros l k a b. destruct (look_ahead l k) as (s & E). unfold a. rewrite E. fold b. repeat split. Qed.
Print Assumptions C86_look_ahead.

(** and the next successful observation puts the propagator back on the estimate *)
Theorem C86_restored : forall l k ob, snd (kalman_process (observe_all (observations l) k) ob) = Ok tt ->
  used_all (l ++ Observed ob :: nil) k = observe_all (observations l ++ ob :: nil) k.
Proof. exact look_ahead_reset. Qed.
Print Assumptions C86_restored.

Example C86_example : exists h k, Hill chief 42164 = Ok h /\ RelativeKalman (Epoch 51544.5) h = Ok k /\
  observations (Looked 600 :: Observed (sighting 1) :: Looked (-30) :: nil) = (sighting 1 :: nil) /\
  snd (kalman_process (observe_all (observations (Looked 600 :: nil)) k) (sighting 1)) = Ok tt.
Proof.
  destruct filter_exists as (h & k & H & K). exists h, k. split; [auto|]. split; [auto|]. split; [reflexivity|].
  apply (proj1 (C52_process_outcome _ _ _ nil (sighting 1) K)). apply sighting_observable.
Qed.

(** * C87 Shape of the relative motion *)

(** After [N] revolutions of the chief everything is as before except for a
    shift along the track. *)
Theorem C87_revolutions : forall h h' N, hl_n h <> 0 -> hill_step_by_seconds h (2 * PI * INR N / hl_n h) = Ok h' ->
  let v := state_vector (hl_state h) in let v' := state_vector (hl_state h') in
  x6 v' = x6 v /\ z6 v' = z6 v /\ vx6 v' = vx6 v /\ vy6 v' = vy6 v /\ vz6 v' = vz6 v /\
  y6 v' = y6 v - 6 * PI * INR N * (2 * x6 v + vy6 v / hl_n h).
Proof. exact orbits. Qed.
Print Assumptions C87_revolutions.

(** The distance stays bounded exactly when vy = -2 n x at the start. *)
Theorem C87_bounded : forall h, 0 < hl_n h ->
  ((exists B, forall t h', hill_step_by_seconds h t = Ok h' -> norm (s_position (hl_state h')) <= B) <->
   vy6 (state_vector (hl_state h)) = - 2 * hl_n h * x6 (state_vector (hl_state h))).
Proof. exact bounded_iff. Qed.
Print Assumptions C87_bounded.

(** and the motion then is an ellipse twice as long as it is high *)
Theorem C87_ellipse : forall h t h', hl_n h <> 0 -> hill_step_by_seconds h t = Ok h' ->
  let n := hl_n h in let v := state_vector (hl_state h) in let v' := state_vector (hl_state h') in
  vy6 v = - 2 * n * x6 v -> x6 v' ^ 2 + ((y6 v' - (y6 v - 2 * vx6 v / n)) / 2) ^ 2 = x6 v ^ 2 + (vx6 v / n) ^ 2.
Proof. exact ellipse. Qed.
Print Assumptions C87_ellipse.

(** Four quantities that no step changes: the mean height, the amplitudes of the
    oscillations in and across the orbit plane, and the drifting centre. *)
Theorem C87_conserved : forall h t h', hl_n h <> 0 -> hill_step_by_seconds h t = Ok h' ->
  let n := hl_n h in let v := state_vector (hl_state h) in let v' := state_vector (hl_state h') in
  2 * x6 v' + vy6 v' / n = 2 * x6 v + vy6 v / n /\
  (3 * x6 v' + 2 * vy6 v' / n) ^ 2 + (vx6 v' / n) ^ 2 = (3 * x6 v + 2 * vy6 v / n) ^ 2 + (vx6 v / n) ^ 2 /\
  z6 v' ^ 2 + (vz6 v' / n) ^ 2 = z6 v ^ 2 + (vz6 v / n) ^ 2 /\
  y6 v' - 2 * vx6 v' / n = y6 v - 2 * vx6 v / n - 3 * n * t * (2 * x6 v + vy6 v / n).
Proof. exact invariants. Qed.
Print Assumptions C87_conserved.

(** A state that meets the condition, and one that does not. *)
Example C87_example : exists h g h', Hill (State (Epoch 51544.5) (V3 0 5 0) (V3 0.001 0 0)) 42164 = Ok h /\ 0 < hl_n h /\
  vy6 (state_vector (hl_state h)) = - 2 * hl_n h * x6 (state_vector (hl_state h)) /\
  Hill (State (Epoch 51544.5) (V3 1 0 0) (V3 0 0 0)) 42164 = Ok g /\ 0 < hl_n g /\
  vy6 (state_vector (hl_state g)) <> - 2 * hl_n g * x6 (state_vector (hl_state g)) /\
  hill_step_by_seconds h 600 = Ok h'.
Proof.
  destruct (Hill_ok (State (Epoch 51544.5) (V3 0 5 0) (V3 0.001 0 0)) 42164 ltac:(lra)) as (h & H & N & _ & S & _).
  destruct (Hill_ok (State (Epoch 51544.5) (V3 1 0 0) (V3 0 0 0)) 42164 ltac:(lra)) as (g & G & M & _ & Q & _).
  exists h, g. eexists. split; [exact H|]. split; [lra|]. split; [rewrite S; cbn; lra|]. split; [exact G|]. split; [lra|].
  split; [rewrite Q; cbn; lra|]. apply step_ok; lra.
Qed.
