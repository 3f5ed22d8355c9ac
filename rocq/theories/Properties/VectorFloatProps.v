From Coq Require Import Reals Lra.
From Flocq Require Import Core.
From Verif.Model Require Import Num Linalg TimeFloat ElementsFloat.
From Verif.Spec Require Import Geometry.
From Verif.Proofs Require Import LinalgProofs.
From Verif.Model Require Import VectorFloat.
From Verif.Spec Require Import VectorFloat.
From Verif.Proofs Require Import VectorFloatProofs.
Local Open Scope R_scope.

(** * C104 The rounded angle between two vectors *)

(** Never raises, is within 6e-8 rad of the geometric angle [t] for every pair
    of vectors, and far closer unless they are almost parallel or opposed. *)
Theorem C104_accuracy : forall acosf a b t, accurate_acos acosf -> ordinary a -> ordinary b ->
  0 <= t <= PI -> norm a * norm b * cos t = dot a b ->
  exists t', v3_angle_b64 acosf a b = Ok t' /\ Rabs (t' - t) <= 6e-8 /\
    (1e-6 <= sin t -> Rabs (t' - t) <= 2e-15 / sin t).
Proof. exact angle_round. Qed.
Print Assumptions C104_accuracy.

(** A body axis set to the rounded unit vector of a target direction is found
    within 1e-7 rad of that direction. *)
Theorem C104_pointed : forall acosf v, accurate_acos acosf -> ordinary v -> exists u t,
  v3_normalized_b64 v = Ok u /\ v3_angle_b64 acosf u v = Ok t /\ t <= 1e-7.
Proof. exact pointed_angle. Qed.
Print Assumptions C104_pointed.

(** The bound 6e-8 cannot be replaced by one near the float precision: a vector
    is found 2e-8 rad or more away from itself, *)
Theorem C104_self_refuted : exists a, ordinary a /\ forall acosf, accurate_acos acosf ->
  exists t, v3_angle_b64 acosf a a = Ok t /\ 2e-8 <= t.
Proof.
  exists (V3 1 2 0). split; [|exact self_angle].
  unfold ordinary, norm, dot. cbn [x3 y3 z3]. replace (1 * 1 + 2 * 2 + 0 * 0) with 5 by ring.
  assert (H := sqrt_sqrt 5 ltac:(lra)). assert (P := sqrt_pos 5). split; nra.
Qed.
Print Assumptions C104_self_refuted.

(** and directions 9e-10 rad apart are found equal. *)
Theorem C104_apart_refuted : exists a b, ordinary a /\ ordinary b /\
  (forall t, 0 <= t <= PI -> norm a * norm b * cos t = dot a b -> 9e-10 <= t) /\
  forall acosf, accurate_acos acosf -> exists t, v3_angle_b64 acosf a b = Ok t /\ t <= 1e-15.
Proof.
  exists (V3 1 0 0), (V3 1073741824 1 0). split; [|split; [|split; [exact lost_true|exact lost_angle]]].
  - unfold ordinary, norm, dot. cbn [x3 y3 z3]. replace (1 * 1 + 0 * 0 + 0 * 0) with 1 by ring. rewrite sqrt_1. lra.
  - unfold ordinary, norm, dot. cbn [x3 y3 z3]. set (q := 1073741824 * 1073741824 + 1 * 1 + 0 * 0).
    assert (1 <= q <= 1e20) by (unfold q; lra). clearbody q. assert (E := sqrt_sqrt q ltac:(lra)). assert (P := sqrt_pos q). split; nra.
Qed.
Print Assumptions C104_apart_refuted.

(** Some arccosine is accurate, and there is a pair of ordinary vectors with a
    known angle between them. *)
Example C104_example : accurate_acos acos /\ ordinary (V3 0 3 4) /\ ordinary (V3 5 0 0) /\
  0 <= PI / 2 <= PI /\ norm (V3 0 3 4) * norm (V3 5 0 0) * cos (PI / 2) = dot (V3 0 3 4) (V3 5 0 0) /\ 1e-6 <= sin (PI / 2).
Proof.
  assert (P := PI_RGT_0). assert (S := sqrt_square 5 ltac:(lra)).
  assert (A : norm (V3 0 3 4) = 5) by (unfold norm, dot; cbn [x3 y3 z3]; replace (0 * 0 + 3 * 3 + 4 * 4) with (5 * 5) by ring; auto).
  assert (B : norm (V3 5 0 0) = 5) by (unfold norm, dot; cbn [x3 y3 z3]; replace (5 * 5 + 0 * 0 + 0 * 0) with (5 * 5) by ring; auto).
  unfold ordinary. rewrite A, B, cos_PI2, sin_PI2. repeat split; try lra.
  - intros x _. rewrite Rminus_eq_0, Rabs_R0. lra.
  - unfold dot. cbn [x3 y3 z3]. ring.
Qed.
