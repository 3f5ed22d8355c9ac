(** Properties of propagators/relative.py (C48-C50). *)
From Coq Require Import Reals Lra List.
From Coquelicot Require Import Coquelicot.
From Verif.Model Require Import Num Constants Linalg Functions Time Celestial Positions States Relative.
From Verif.Spec Require Import Geometry Gravity Hill.
From Verif.Proofs Require Import NumLemmas LinalgProofs FunctionsProofs StatesProofs RelativeProofs.
Local Open Scope R_scope.

(** * C48 Hill propagation solves the Clohessy-Wiltshire equations *)
Theorem C48_rate : forall s a, 0 < a -> exists h, Hill s a = Ok h /\ 0 < hl_n h /\ hl_n h ^ 2 * a ^ 3 = mu_earth /\
  hl_state h = s /\ hl_sma h = a /\ hl_step_size h = 600.
Proof. exact Hill_ok. Qed.
Print Assumptions C48_rate.

Theorem C48_bad_axis : forall s a, a <= 0 -> Hill s a = Err (if Req_EM_T a 0 then ZeroDivisionError else ValueError).
Proof. exact Hill_err. Qed.
Print Assumptions C48_bad_axis.

(** There is a solution that passes through the initial state at time 0 and on
    which every step lands; the step never fails and keeps the settings. *)
Theorem C48_solves : forall h, hl_n h <> 0 -> exists c,
  clohessy_wiltshire (hl_n h) c /\ c 0 = state_vector (hl_state h) /\
  forall t, exists h', hill_step_by_seconds h t = Ok h' /\ state_vector (hl_state h') = c t /\
    hl_n h' = hl_n h /\ hl_sma h' = hl_sma h /\ hl_step_size h' = hl_step_size h.
Proof.
  intros h Hn. exists (motion (hl_n h) (state_vector (hl_state h))).
  split; [apply motion_cw; auto|]. split; [apply motion_zero; auto|].
  intros t. eexists. split; [apply step_ok; auto|]. cbn [set_hl_state hl_state hl_n hl_sma hl_step_size]. rewrite hcw_vector. auto.
Qed.
Print Assumptions C48_solves.

(** The solution is unique, so the step is the flow of the equations. *)
Theorem C48_only_solution : forall h t h' c, hl_n h <> 0 -> hill_step_by_seconds h t = Ok h' ->
  clohessy_wiltshire (hl_n h) c -> c 0 = state_vector (hl_state h) -> state_vector (hl_state h') = c t.
Proof.
  intros h t h' c Hn E Hc C0. rewrite step_ok in E by auto. inversion E. cbn [set_hl_state hl_state]. rewrite hcw_vector.
  apply (cw_unique (hl_n h)); auto; [apply motion_cw; auto|]. rewrite motion_zero by auto. congruence.
Qed.
Print Assumptions C48_only_solution.

Theorem C48_uniqueness : forall n c d, n <> 0 -> clohessy_wiltshire n c -> clohessy_wiltshire n d -> c 0 = d 0 -> forall t, c t = d t.
Proof. exact cw_unique. Qed.
Print Assumptions C48_uniqueness.

Example C48_example : exists h, Hill (State (Epoch 51544.5) (V3 1 (-10) 0.5) (V3 0.001 0 (-0.002))) 42164 = Ok h /\ hl_n h <> 0.
Proof. destruct (Hill_ok (State (Epoch 51544.5) (V3 1 (-10) 0.5) (V3 0.001 0 (-0.002))) 42164 ltac:(lra)) as (h & E & N & _). exists h. split; auto. lra. Qed.

(** * C49 Steps compose *)

(** Any non-empty sequence of steps equals one step of the total duration. *)
Theorem C49_total_time : forall l h, hl_n h <> 0 -> l <> nil -> hill_steps l h = hill_step_by_seconds h (elapsed l).
Proof. exact steps_total. Qed.
Print Assumptions C49_total_time.

Theorem C49_two_steps : forall h a b, hl_n h <> 0 ->
  (let* h1 := hill_step_by_seconds h a in hill_step_by_seconds h1 b) = hill_step_by_seconds h (a + b).
Proof.
  intros h a b Hn. assert (T := steps_total (cons a (cons b nil)) h Hn ltac:(discriminate)).
  cbn [elapsed fold_right] in T. rewrite Rplus_0_r in T. rewrite <- T. cbn [hill_steps].
  rewrite step_ok by auto. cbn [bind]. rewrite step_ok by auto. reflexivity.
Qed.
Print Assumptions C49_two_steps.

Theorem C49_zero_step : forall h, hl_n h <> 0 -> exists h', hill_step_by_seconds h 0 = Ok h' /\
  state_vector (hl_state h') = state_vector (hl_state h).
Proof. intros h Hn. eexists. split; [apply step_ok; auto|]. cbn [set_hl_state hl_state]. rewrite hcw_vector. apply motion_zero; auto. Qed.
Print Assumptions C49_zero_step.

Theorem C49_backwards : forall h t h1 h2, hl_n h <> 0 -> hill_step_by_seconds h t = Ok h1 -> hill_step_by_seconds h1 (- t) = Ok h2 ->
  state_vector (hl_state h2) = state_vector (hl_state h).
Proof.
  intros h t h1 h2 Hn E1 E2. rewrite step_ok in E1 by auto. inversion E1. subst h1. rewrite step_ok in E2 by auto. inversion E2.
  cbn [set_hl_state hl_state hl_n]. rewrite !hcw_vector, motion_plus, Rplus_opp_r by auto. apply motion_zero; auto.
Qed.
Print Assumptions C49_backwards.

(** [n] default steps are one step of [n] times the step size *)
Theorem C49_default_steps : forall n h, hl_n h <> 0 -> n <> 0%nat -> hill_ticks n h = hill_step_by_seconds h (INR n * hl_step_size h).
Proof. exact ticks_total. Qed.
Print Assumptions C49_default_steps.

Example C49_example : exists h, Hill (State (Epoch 51544.5) (V3 1 (-10) 0.5) (V3 0.001 0 (-0.002))) 42164 = Ok h /\ hl_n h <> 0 /\
  (600 :: -200 :: 50 :: nil)%list <> nil /\ elapsed (600 :: -200 :: 50 :: nil) = 450.
Proof. destruct C48_example as (h & E & N). exists h. repeat split; auto; [discriminate|cbn; ring]. Qed.

(** * C50 The epoch is forgotten (defect) *)
Theorem C50_epoch_lost : forall l h h', hl_n h <> 0 -> l <> nil -> hill_steps l h = Ok h' -> s_epoch (hl_state h') = Epoch 0.
Proof.
  intros l h h' Hn Hl E. destruct (steps_ok l h Hn) as (h2 & E2 & _ & _ & _ & _ & D). rewrite E in E2. inversion E2. auto.
Qed.
Print Assumptions C50_epoch_lost.

(** hence an epoch advanced by the elapsed time is wrong for every state not
    already dated at minus the elapsed time *)
Theorem C50_wrong_unless : forall l h h', hl_n h <> 0 -> l <> nil -> hill_steps l h = Ok h' ->
  (s_epoch (hl_state h') = Epoch (value (s_epoch (hl_state h)) + elapsed l / 86400) <->
   value (s_epoch (hl_state h)) = - (elapsed l / 86400)).
Proof.
  intros l h h' Hn Hl E. rewrite (C50_epoch_lost l h h' Hn Hl E). split; intros K.
  - inversion K. lra.
  - f_equal. lra.
Qed.
Print Assumptions C50_wrong_unless.

Example C50_example : exists h h', Hill (State (Epoch 51544.5) (V3 1 (-10) 0.5) (V3 0.001 0 (-0.002))) 42164 = Ok h /\ hl_n h <> 0 /\
  hill_steps (600 :: nil) h = Ok h' /\ s_epoch (hl_state h) = Epoch 51544.5.
Proof.
  destruct (Hill_ok (State (Epoch 51544.5) (V3 1 (-10) 0.5) (V3 0.001 0 (-0.002))) 42164 ltac:(lra)) as (h & E & N & _ & S & _).
  destruct (steps_ok (600 :: nil) h ltac:(lra)) as (h' & E' & _). exists h, h'. repeat split; auto; [lra|]. rewrite S. reflexivity.
Qed.
