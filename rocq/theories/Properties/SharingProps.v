(** C112: filters that share one propagator. *)
From Coq Require Import List Reals Lra Arith.
From Verif.Model Require Import Num Constants Linalg Functions Time Celestial Positions States Relative Obs Filtering.
From Verif.Spec Require Import Sharing.
From Verif.Proofs Require Import NumLemmas RelativeProofs SharingProofs.
Import ListNotations.
Local Open Scope R_scope.

(** C112: several filters are made from one Hill propagator, in any number
    and at any epochs; then observations go to any of them and the propagator
    is itself moved, in any order. Every observation has the outcome, and
    every filter the epoch, estimate, covariance, gain and noise, it would
    have with a propagator of its own. *)
Theorem C112_estimates : forall h epochs ks es i,
  (forall j, RelativeKalman (epochs j) h = Ok (ks j)) ->
  let '(ks', _, outs) := shared ks h es in
  let '(k', outs') := alone i (ks i) es in
  same_filter (ks' i) k' /\ filter (fun r => Nat.eqb (fst r) i) outs = outs'.
Proof.
  intros h epochs ks es i K.
  assert (k_propagator (ks i) = h) as Hp.
  { specialize (K i). unfold RelativeKalman in K.
    destruct (system_matrix h 0) as [f|]; cbn [bind] in K; [|discriminate].
    assert (forall a b : kalman, Ok a = Ok b -> a = b) as Inj by (intros a b E; congruence).
    apply Inj in K. rewrite <- K. reflexivity. }
  pose proof (shared_alone es ks h i (ks i)) as S.
  destruct (shared ks h es) as [[ks' h'] outs]. destruct (alone i (ks i) es) as [k' outs'].
  destruct S as (A & _ & C); [|now rewrite Hp|auto].
  unfold same_filter. destruct (ks i); reflexivity.
Qed.
Print Assumptions C112_estimates.

(** What sharing does break: the propagator a filter holds need not hold the
    filter's estimate. Moving the propagator that was handed to the
    constructor moves the filter's propagator and leaves its estimate. *)
Theorem C112_propagator_refuted :
  ~ (forall s sma h e k t h', Hill s sma = Ok h -> RelativeKalman e h = Ok k ->
       hill_step_by_seconds h t = Ok h' ->
       state_vector (hl_state (k_propagator (holding k h'))) = k_x00 k).
Proof.
  intros W. set (s := State (Epoch 0) (V3 0 0 1) (V3 0 0 0)).
  destruct (Hill_ok s 7000) as (h & E & N & _ & Es & _); [lra|].
  assert (forall t, exists m, system_matrix h t = Ok m) as M.
  { intros t. unfold system_matrix, pdiv, neq. destruct (Req_EM_T (hl_n h) 0); [lra|]. cbn. eauto. }
  destruct (M 0) as (f & Ef).
  assert (exists k, RelativeKalman (Epoch 0) h = Ok k /\ k_x00 k = state_vector s) as (k & Ek & Ex).
  { unfold RelativeKalman. rewrite Ef. cbn [bind]. eexists. split; [reflexivity|]. cbn [k_x00].
    rewrite Es. reflexivity. }
  assert (exists h', hill_step_by_seconds h (PI / hl_n h) = Ok h' /\
    z6 (state_vector (hl_state h')) = -1) as (h' & Eh & Ez).
  { unfold hill_step_by_seconds, system_matrix, pdiv, neq. destruct (Req_EM_T (hl_n h) 0); [lra|].
    cbn [bind]. eexists. split; [reflexivity|]. rewrite Es.
    replace (hl_n h * (PI / hl_n h)) with PI by (field; lra). rewrite cos_PI, sin_PI.
    cbn. unfold v6_dot, state_vector, s. cbn. field. lra. }
  pose proof (W s 7000 h (Epoch 0) k _ h' E Ek Eh) as Q. rewrite Ex in Q.
  apply (f_equal z6) in Q. change (k_propagator (holding k h')) with h' in Q. rewrite Ez in Q. cbn in Q. lra.
Qed.
Print Assumptions C112_propagator_refuted.

(** Two filters on one propagator: an observation to each, the propagator
    moved in between. *)
Example C112_example : exists h ks, Hill (State (Epoch 0) (V3 1 2 3) (V3 0 0 0)) 42164 = Ok h /\
  (forall j, RelativeKalman (Epoch (INR j)) h = Ok (ks j)) /\
  forall ob1 ob2, length (snd (shared ks h [Observe 0 ob1; Move 600; Observe 1 ob2; Observe 0 ob2])) = 3%nat.
Proof.
  destruct (Hill_ok (State (Epoch 0) (V3 1 2 3) (V3 0 0 0)) 42164) as (h & E & N & _); [lra|].
  assert (forall t, exists m, system_matrix h t = Ok m) as M.
  { intros t. unfold system_matrix, pdiv, neq. destruct (Req_EM_T (hl_n h) 0); [lra|]. cbn. eauto. }
  destruct (M 0) as (f & Ef). exists h.
  exists (fun j => mkKalman (epoch_copy (Epoch (INR j))) h (v6_copy (state_vector (hl_state h))) None
    DEFAULT_COVARIANCE None DEFAULT_NOISE f None None 0 0 None).
  split; [exact E|]. split; [intros j; unfold RelativeKalman; now rewrite Ef|].
  intros ob1 ob2. cbn [shared].
  destruct (kalman_process _ ob1) as [k1 r1].
  destruct (hill_step_by_seconds _ 600) as [h1|];
    destruct (kalman_process _ ob2) as [k2 r2]; destruct (kalman_process _ ob2) as [k3 r3]; reflexivity.
Qed.
