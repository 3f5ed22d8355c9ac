From Coq Require Import Reals Lra Rpower.
From Flocq Require Import Core.
From Verif.Model Require Import Num Linalg Time States TimeFloat ElementsFloat FrameFloat.
From Verif.Spec Require Import Geometry LibmAccuracy FrameFloat.
From Verif.Proofs Require Import NumLemmas LinalgProofs StatesProofs StateFloatProofs FrameFloatBasics FrameFloatProofs FrameFloatBack FrameFloatTrip FrameFloatFailure.
Local Open Scope R_scope.

(** * C107 The rounded conversion to the Hill frame *)

(** For every pair of states seen within sixty degrees of each other from the
    centre, the conversion succeeds and agrees with exact arithmetic to
    3e-14 of the orbit's radius and 4e-13 of the speeds. *)
Theorem C107_to_hill : forall L o s, accurate_angles L -> ordinary_origin o -> same_side o s ->
  exists h' h, gcrf_to_hcw_b64 L o s = Ok h' /\ gcrf_to_hcw o s = Ok h /\ to_hcw_close o s h' h.
Proof. exact to_hcw_round. Qed.
Print Assumptions C107_to_hill.

(** Without the restriction it is false: about a metre off the orbit normal the
    conversion is defined, but the sine of the elevation rounds above one and
    the code raises, whatever the C library. *)
Theorem C107_everywhere_refuted : exists o s, ordinary_origin o /\
  1 <= norm (g_position s) <= 1e9 /\ 1e-6 <= norm (g_velocity s) <= 1e6 /\
  (exists h, gcrf_to_hcw o s = Ok h) /\ forall L, gcrf_to_hcw_b64 L o s = Err ValueError.
Proof.
  exists (side_origin (Epoch 0)), (side_state (Epoch 0) (V3 1 2 3)). split; [apply side_ordinary|].
  unfold side_state. cbn [g_position g_velocity GCRF]. unfold norm, dot. cbn [x3 y3 z3].
  split; [split; [apply sqrt_lower|apply sqrt_upper]; lra|]. split; [split; [apply sqrt_lower|apply sqrt_upper]; lra|].
  split; [apply (side_exact (Epoch 0))|]. intros L. apply (side_raises L (Epoch 0)).
Qed.
Print Assumptions C107_everywhere_refuted.

(** * C108 The rounded conversion from the Hill frame *)

Theorem C108_to_inertial : forall L o h U, accurate_angles L -> ordinary_origin o ->
  around (norm (g_position o)) (s_position h) -> inside U (s_velocity h) -> 1e-6 <= U <= 1e6 ->
  exists g' g, hcw_to_gcrf_b64 L h o = Ok g' /\ hcw_to_gcrf h o = Ok g /\ back_close o U g' g.
Proof. exact to_gcrf_round. Qed.
Print Assumptions C108_to_inertial.

(** There and back in doubles returns the state, to 3e-13 of the radius and
    1.1e-11 of the speeds. *)
Theorem C108_round_trip : forall L o s, accurate_angles L -> ordinary_origin o -> same_side o s ->
  0.5 * norm (g_position o) <= norm (g_position s) <= 1.9 * norm (g_position o) ->
  norm (g_velocity o) <= 1e5 -> norm (g_velocity s) <= 1e5 ->
  exists h g, gcrf_to_hcw_b64 L o s = Ok h /\ hcw_to_gcrf_b64 L h o = Ok g /\ g_epoch g = g_epoch o /\
    within3 (3e-13 * norm (g_position o)) (g_position g) (g_position s) /\
    within3 (1.1e-11 * (norm (g_velocity o) + norm (g_velocity s))) (g_velocity g) (g_velocity s).
Proof. exact trip_round. Qed.
Print Assumptions C108_round_trip.

(** A chaser ten kilometres above a target in low orbit meets the hypotheses,
    with a correctly computed C library. *)
Example C107_example : let L := Libm sin cos asin atan2 Rpower in
  let o := GCRF (Epoch 60000) (V3 7000 0 0) (V3 0 7.5 0) in
  let s := GCRF (Epoch 60000) (V3 7010 5 3) (V3 0.01 7.4 0.02) in
  accurate_angles L /\ ordinary_origin o /\ same_side o s /\
  0.5 * norm (g_position o) <= norm (g_position s) <= 1.9 * norm (g_position o) /\
  norm (g_velocity o) <= 1e5 /\ norm (g_velocity s) <= 1e5.
Proof.
  cbv zeta. unfold accurate_angles, accurate_trig, ordinary_origin, same_side. cbn [sinf cosf asinf atan2f g_position g_velocity GCRF].
  assert (Z : forall x : R, Rabs (x - x) <= 2.3e-16) by (intros; rewrite Rminus_eq_0, Rabs_R0; lra).
  assert (Z' : forall x : R, Rabs (x - x) <= 1.2e-16) by (intros; rewrite Rminus_eq_0, Rabs_R0; lra).
  assert (A : 7000 <= norm (V3 7000 0 0) <= 7000) by (unfold norm, dot; cbn [x3 y3 z3]; split; [apply sqrt_lower|apply sqrt_upper]; lra).
  assert (B : 7.5 <= norm (V3 0 7.5 0) <= 7.5) by (unfold norm, dot; cbn [x3 y3 z3]; split; [apply sqrt_lower|apply sqrt_upper]; lra).
  assert (C : 7010 <= norm (V3 7010 5 3) <= 7011) by (unfold norm, dot; cbn [x3 y3 z3]; split; [apply sqrt_lower|apply sqrt_upper]; lra).
  assert (D : 7 <= norm (V3 0.01 7.4 0.02) <= 8) by (unfold norm, dot; cbn [x3 y3 z3]; split; [apply sqrt_lower|apply sqrt_upper]; lra).
  assert (E : 52500 <= norm (cross (V3 7000 0 0) (V3 0 7.5 0))) by (unfold norm, dot, cross; cbn [x3 y3 z3]; apply sqrt_lower; lra).
  assert (F : dot (V3 7000 0 0) (V3 7010 5 3) = 7000 * 7010) by (unfold dot; cbn [x3 y3 z3]; lra).
  repeat split; auto; try lra; try (apply Rle_trans with (0.1 * (7000 * 7.5)); [nra|lra]); rewrite F; nra.
Qed.
