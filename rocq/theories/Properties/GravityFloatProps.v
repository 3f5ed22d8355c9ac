(** Non-spherical gravity and the equations of motion in binary64. *)
From Coq Require Import Reals ZArith Lra Lia Psatz.
From Flocq Require Import Core.
From Verif.Model Require Import Num Constants Linalg Functions Time Celestial Positions States TimeFloat AngleFloat ElementsFloat EarthFloat BodyFloat ForceFloat GravityFloat.
From Verif.Spec Require Import Geometry Gravity Forces FrameFloat LibmAccuracy GroundFloat EarthFloat BodyFloat GravityFloat.
From Verif.Proofs Require Import NumLemmas LinalgProofs PositionsProofs CelestialProofs StatesProofs TimeFloatProofs AngleFloatProofs ElementsFloatProofs GroundFloatProofs PiDigits Analysis KeplerFloatProofs FrameFloatFailure FrameFloatBasics SiderealFloatProofs FrameFloatTrip EarthFloatProofs.
From Verif.Proofs Require Import GravityFloatBasics GravityFloatAngles GravityFloatBack GravityFloatDerivative.
Local Open Scope R_scope.

(** * C120 Non-spherical gravity and the equations of motion in binary64

    [_b64] functions are those of the library run in binary64; the functions
    without the suffix are the same ones in exact arithmetic. *)

(** The non-spherical part of gravity is defined in both arithmetics, and
    they differ by less than 8.5e-8 of the scale [(Re/r)^2 mu/r^2] at any
    epoch within a century of J2000; a microsecond or more from midnight UTC,
    by less than 2.6e-10 of it. *)
Theorem C120_gravity : forall L tanf s, let r := norm (g_position s) in
  accurate_circular L -> accurate_polar L -> accurate_tangent tanf -> accurate_power L ->
  Rabs (value (g_epoch s) - 51544.5) <= 36525 -> 6378.137 <= r <= 1e6 -> below_84_degrees (g_position s) (g_epoch s) ->
  exists a' a, acceleration_from_gravity_b64 L tanf s = Ok a' /\ acceleration_from_gravity s = Ok a /\
  let S := (6378.137 / r) ^ 2 * (398600.4418 / (r * r)) in
  norm (sub a' a) <= 8.5e-8 * S /\ norm a <= 0.074 * S /\
  (off_midnight (value (g_epoch s)) -> norm (sub a' a) <= 2.6e-10 * S).
Proof.
  intros L tanf s r AC AP AT AW SV RB B84. unfold below_84_degrees in B84. destruct B84 as (q & Q & HQ). destruct (g_epoch s) as [v] eqn:EP. cbn [value] in SV. change (value (Epoch v)) with v.
  assert (HE : forall z, gcrf_to_itrf (g_position s) (Epoch v) = Ok z -> 0.1 * norm (g_position s) <= hyp z) by (intros z Z; assert (z = q) by congruence; subst z; exact HQ).
  destruct (gravity_close 2.7e-8 L tanf s v EP AC AP AT AW SV (gha_round_any v SV) ltac:(clear; lra) RB HE) as (a' & a & E' & E & H). cbv zeta in H. fold r in H.
  exists a', a. split; [exact E'|]. split; [exact E|]. intros S.
  assert (SE : (Earth_RADIUS / r) ^ 2 * (Earth_MU / r) / r = S).
  { unfold S, Earth_RADIUS, Earth_MU. generalize 6378.137 398600.4418. intros x y. field. lra. }
  rewrite SE in H. destruct H as (H & N & P). split; [|split; [exact N|]].
  - eapply Rle_trans; [exact H|]. clear - P. lra.
  - intros O. destruct (gravity_close 8e-11 L tanf s v EP AC AP AT AW SV (gha_round v SV O) ltac:(clear; lra) RB HE) as (b' & b & F' & F & K). cbv zeta in K. fold r in K. rewrite SE in K.
    assert (b' = a') by congruence. assert (b = a) by congruence. subst b' b. eapply Rle_trans; [apply K|]. clear - P. lra.
Qed.
Print Assumptions C120_gravity.

(** The equations of motion with every force: the velocity is passed on
    unchanged and the net acceleration is in error by the above and 2.2e-15
    of the central attraction and the thrust, 1.3e-15 km/s^2 from the Sun and
    the Moon and 3e-11 of the solar pressure. *)
Theorem C120_derivative : forall L tanf s, let r := norm (g_position s) in
  accurate_circular L -> accurate_far L -> accurate_polar L -> accurate_tangent tanf -> accurate_power L ->
  Rabs (value (g_epoch s) - 51544.5) <= 36525 -> 6378.137 <= r <= 100000 -> below_84_degrees (g_position s) (g_epoch s) ->
  g_use_perturbations s = true ->
  exists a' a, derivative_b64 L tanf s = Ok (g_velocity s, a') /\ derivative s = Ok (g_velocity s, a) /\
  let G := 398600.4418 / (r * r) in
  let rest := 2.2e-15 * (G + norm (g_thrust s)) + 1.3e-15 + 1.3e-19 * Rabs (g_srp_scalar s) in
  norm (sub a' a) <= 8.5e-8 * ((6378.137 / r) ^ 2 * G) + rest /\
  (off_midnight (value (g_epoch s)) -> norm (sub a' a) <= 2.6e-10 * ((6378.137 / r) ^ 2 * G) + rest).
Proof.
  intros L tanf s r AC AF AP AT AW SV RB B84 U. destruct B84 as (q & Q & HQ). destruct (g_epoch s) as [v] eqn:EP. cbn [value] in SV. change (value (Epoch v)) with v.
  assert (HE : forall z, gcrf_to_itrf (g_position s) (Epoch v) = Ok z -> 0.1 * norm (g_position s) <= hyp z) by (intros z Z; assert (z = q) by congruence; subst z; exact HQ).
  destruct (full_close 2.7e-8 L tanf s v EP U AC AF AP AT AW SV (gha_round_any v SV) ltac:(clear; lra) RB HE) as ([x a'] & [y a] & E' & E & X & Y & H). cbv zeta in H. cbn [fst snd] in X, Y, H. subst x y. fold r in H.
  exists a', a. split; [exact E'|]. split; [exact E|]. intros G rest. change Earth_MU with 398600.4418 in H. change Earth_RADIUS with 6378.137 in H. fold G in H.
  assert (P : 0 <= (6378.137 / r) ^ 2 * G).
  { apply Rmult_le_pos; [apply pow2_ge_0|]. unfold G. apply Rlt_le, Rdiv_lt_0_compat; [clear; lra|]. apply Rmult_lt_0_compat; lra. }
  split; [eapply Rle_trans; [exact H|]; unfold rest; set (S := (6378.137 / r) ^ 2 * G) in *; clearbody S; clear - P; lra|].
  intros O. destruct (full_close 8e-11 L tanf s v EP U AC AF AP AT AW SV (gha_round v SV O) ltac:(clear; lra) RB HE) as ([x b'] & [y b] & F' & F & X & Y & K). cbv zeta in K. cbn [fst snd] in X, Y, K. fold r in K.
  change Earth_MU with 398600.4418 in K. change Earth_RADIUS with 6378.137 in K. fold G in K. assert (b' = a') by congruence. assert (b = a) by congruence. subst b' b.
  eapply Rle_trans; [exact K|]; unfold rest; set (S := (6378.137 / r) ^ 2 * G) in *; clearbody S; clear - P; lra.
Qed.
Print Assumptions C120_derivative.

(** With perturbations switched off only the central attraction and the
    thrust remain, at any distance from a kilometre on and at any epoch. *)
Theorem C120_two_body : forall L tanf s, let x := g_position s in 1 <= norm x <= 1e12 -> g_use_perturbations s = false ->
  exists a, derivative_b64 L tanf s = Ok (g_velocity s, a) /\
  let G := 398600.4418 / (norm x * norm x) in
  norm (sub a (add (g_thrust s) (attraction 398600.4418 (sub zero3 x)))) <= 1.62e-15 * G + 1.13e-16 * norm (g_thrust s) + 2e-60.
Proof.
  intros L tanf s x B U. destruct (two_body_close L tanf s B U) as ([y a'] & [z a] & E' & E & X & Y & H). cbn [fst snd] in X, Y, H. subst y z.
  exists a'. split; [exact E'|]. intros G. fold x in H. change Earth_MU with 398600.4418 in H. fold G in H.
  assert (N : x <> zero3) by (intros Z; rewrite Z in B; assert (T := proj2 (norm_zero zero3) eq_refl); lra).
  replace (add (g_thrust s) (attraction 398600.4418 (sub zero3 x))) with a; [exact H|].
  unfold derivative in E. rewrite (earth_ok s N), U in E. cbn [bind] in E. unfold mu_earth in E. injection E. intros A _. rewrite <- A.
  unfold acceleration_from_thrust, v3_copy. destruct (g_thrust s). reflexivity.
Qed.
Print Assumptions C120_two_body.

(** A position 8000 km along the first axis of the Earth-fixed frame. *)
Example C120_example : exists L tanf p, accurate_circular L /\ accurate_far L /\ accurate_polar L /\ accurate_tangent tanf /\ accurate_power L /\
  Rabs (58000.26 - 51544.5) <= 36525 /\ off_midnight 58000.26 /\ 6378.137 <= norm p <= 100000 /\ below_84_degrees p (Epoch 58000.26).
Proof.
  destruct (itrf_round_trip (V3 8000 0 0) (Epoch 58000.26)) as (p & q & _ & Q & D). destruct (gcrf_round_trip p (Epoch 58000.26)) as (q1 & _ & Q1 & _ & _ & N). assert (q1 = q) by congruence. subst q1.
  assert (N8 : norm (V3 8000 0 0) = 8000). { unfold norm, dot. cbn [x3 y3 z3]. replace (8000 * 8000 + 0 * 0 + 0 * 0) with (8000 * 8000) by ring. apply sqrt_square. lra. } rewrite N8 in D.
  assert (X := proj1 (norm_ge_xyz (sub q (V3 8000 0 0)))). unfold sub in X at 1. cbn [x3 y3 z3] in X.
  assert (X' : Rabs (x3 q - 8000) <= 1e-4) by lra. apply Rabs_le_inv in X'.
  assert (T := norm_sub_ge (V3 8000 0 0) q). assert (T2 : norm q <= norm (V3 8000 0 0) + norm (sub q (V3 8000 0 0))).
  { replace q with (add (V3 8000 0 0) (sub q (V3 8000 0 0))) at 1 by (unfold add, sub; destruct q; cbn; f_equal; ring). apply norm_triangle. }
  assert (X2 : x3 q <= norm q) by (eapply Rle_trans; [apply Rle_abs|apply norm_ge_xyz]).
  exists (Libm (fun x => b64 (sin x)) (fun x => b64 (cos x)) asin (fun y x => b64 (atan2 y x)) Rpower), (fun x => b64 (tan x)), p.
  assert (TR : forall x, Rabs (b64 (sin x) - sin x) <= 2.3e-16 /\ Rabs (b64 (cos x) - cos x) <= 2.3e-16).
  { intros x. assert (F := b64_fine (sin x)). assert (G := b64_fine (cos x)).
    assert (Rabs (sin x) <= 1) by (apply Rabs_le; apply SIN_bound). assert (Rabs (cos x) <= 1) by (apply Rabs_le; apply COS_bound). split; lra. }
  split; [intros x _; apply TR|]. split; [intros x _; apply TR|]. split.
  { split; [apply rounded_trig; reflexivity|]. intros y x. cbn [atan2f]. assert (F := b64_fine (atan2 y x)).
    assert (R := atan2_range y x). assert (P := PI_digits). assert (Rabs (atan2 y x) <= 3.15) by (apply Rabs_le; lra). lra. }
  split. { intros x. assert (F := b64_fine (tan x)). assert (A := Rabs_pos (tan x)). lra. }
  split. { intros x n B _. cbn [powf]. rewrite Rpower_pow, Rminus_diag_eq, Rabs_R0 by (try reflexivity; lra). apply Rmult_le_pos; [lra|apply pow_le; lra]. }
  split; [apply Rabs_le; lra|]. split; [exists 58000%Z; lra|]. split; [lra|].
  exists q. split; [exact Q|]. apply sqrt_lower; [assert (P := norm_nonneg p); lra|].
  assert (Y := Rle_0_sqr (y3 q)). unfold Rsqr in Y. assert (Z : 800 * 1.1 * (800 * 1.1) <= x3 q * x3 q) by (apply Rmult_le_compat; lra).
  assert (P := norm_nonneg p). assert (W : (0.1 * norm p) * (0.1 * norm p) <= 880 * 880) by (apply Rmult_le_compat; lra). lra.
Qed.
