(** Orbital elements and geodetic coordinates in binary64 arithmetic. *)
From Coq Require Import Reals ZArith Lra Lia.
From Verif.Model Require Import Num Constants Linalg Functions Time Celestial Positions States Elements TimeFloat ElementsFloat PositionsFloat.
From Verif.Spec Require Import Geometry Gravity Orbit.
From Verif.Proofs Require Import NumLemmas LinalgProofs CelestialProofs TimeFloatProofs AngleFloatProofs ClockProofs ElementsFloatProofs FloatFailures GeodeticFloatProofs GeodeticProofs.
From Verif.Properties Require Import ElementsProps PositionsProps.
Local Open Scope R_scope.

(** * C92 Classical elements in binary64 *)

(** Whatever the C library's sine, cosine and arctangent return, the rounded
    computation either agrees with the exact one or raises, and it raises only
    on nearly circular orbits. *)
Theorem C92_accuracy : forall L t r v el,
  elements_from_ijk (State t r v) = Ok el -> bound_orbit r v ->
  1000 <= norm r -> 1e-3 <= norm v -> 1e-9 * (norm r * norm v) <= norm (momentum r v) -> semimajor_axis el <= 1e7 ->
  (exists el', elements_from_ijk_b64 L (State t r v) = Ok el' /\ el_epoch el' = t /\
     Rabs (semimajor_axis el' - semimajor_axis el) <= 1e-14 * (semimajor_axis el * semimajor_axis el / norm r) /\
     0 <= eccentricity el' <= 1 /\ Rabs (eccentricity el' ^ 2 - eccentricity el ^ 2) <= 1e-14) \/
  (elements_from_ijk_b64 L (State t r v) = Err ValueError /\ eccentricity el ^ 2 < 1e-14).
Proof. exact rounded_elements. Qed.
Print Assumptions C92_accuracy.

Lemma norm_x x : 0 <= x -> norm (V3 x 0 0) = x.
Proof. intros H. unfold norm, dot. cbn. replace (x * x + 0 * 0 + 0 * 0) with (x * x) by ring. now apply sqrt_square. Qed.
Lemma norm_y y : 0 <= y -> norm (V3 0 y 0) = y.
Proof. intros H. unfold norm, dot. cbn. replace (0 * 0 + y * y + 0 * 0) with (y * y) by ring. now apply sqrt_square. Qed.

Lemma circular_bound : bound_orbit (V3 7000 0 0) (V3 0 (b64 (sqrt (b64 (b64 mu_earth / 7000)))) 0).
Proof.
  change (b64 mu_earth) with MU_b64. assert (M := b64_pos Earth_MU ltac:(unfold Earth_MU; lra)). fold MU_b64 in M. unfold Earth_MU in M.
  assert (Q := b64_pos (MU_b64 / 7000) ltac:(lra)). set (q := b64 (MU_b64 / 7000)) in *.
  assert (S1 : 1 <= sqrt q) by (rewrite <- sqrt_1; apply sqrt_le_1_alt; lra). assert (S2 := sqrt_sqrt q ltac:(lra)).
  assert (B := b64_pos (sqrt q) ltac:(lra)). set (w := b64 (sqrt q)) in *.
  assert (W : w * w <= 1.01 * 1.01 * q) by (rewrite <- S2; nra).
  split.
  - unfold orbital_energy. rewrite norm_x, norm_y by lra. unfold mu_earth. lra.
  - unfold momentum, cross, zero3. cbn. intros H. injection H. intros. lra.
Qed.

(** The library's own circular speed [sqrt (MU / r)] at 7000 km: the exact
    function has a value and the rounded one raises. *)
Theorem C92_circular_refuted : exists r v,
  b64 (x3 r) = x3 r /\ b64 (y3 v) = y3 v /\ norm r = 7000 /\ norm v = b64 (sqrt (b64 (b64 mu_earth / norm r))) /\
  dot r v = 0 /\ bound_orbit r v /\ (forall t, exists el, elements_from_ijk (State t r v) = Ok el) /\
  (forall L t, elements_from_ijk_b64 L (State t r v) = Err ValueError).
Proof.
  exists (V3 7000 0 0), (V3 0 (b64 (sqrt (b64 (b64 mu_earth / 7000)))) 0). cbn [x3 y3].
  rewrite norm_x by lra. rewrite norm_y by (apply b64_nonneg, sqrt_pos).
  split; [apply (b64_IZR 7000); lia|]. split; [apply b64_idem|]. split; [reflexivity|]. split; [reflexivity|].
  split; [unfold dot; cbn; ring|]. split; [exact circular_bound|]. split.
  - intros t. destruct (C36_from_ijk (State t _ _) circular_bound) as (el & x & E & _). exists el. exact E.
  - exact circular_7000.
Qed.
Print Assumptions C92_circular_refuted.

(** The same at the geostationary radius. *)
Theorem C92_geostationary_refuted : forall L t,
  elements_from_ijk_b64 L (State t (V3 42164 0 0) (V3 0 (b64 (sqrt (b64 (b64 mu_earth / 42164)))) 0)) = Err ValueError.
Proof. exact circular_42164. Qed.
Print Assumptions C92_geostationary_refuted.

Example C92_example : let r := V3 7000 0 0 in let v := V3 0 6 4.5 in
  bound_orbit r v /\ norm r = 7000 /\ norm v = 7.5 /\ 1e-9 * (norm r * norm v) <= norm (momentum r v) /\
  forall t, exists el, elements_from_ijk (State t r v) = Ok el /\ semimajor_axis el <= 1e7.
Proof.
  intros r v. assert (NR : norm r = 7000) by (apply norm_x; lra).
  assert (NV : norm v = 7.5). { unfold norm, dot, v. cbn. replace (0 * 0 + 6 * 6 + 4.5 * 4.5) with (7.5 * 7.5) by lra. apply sqrt_square. lra. }
  assert (NH : norm (momentum r v) = 52500).
  { unfold norm, dot, momentum, cross, r, v. cbn. match goal with |- sqrt ?x = _ => replace x with (52500 * 52500) by lra end. apply sqrt_square. lra. }
  assert (B : bound_orbit r v).
  { split; [unfold orbital_energy; rewrite NR, NV; unfold mu_earth; lra|]. intros H. assert (Z := proj2 (norm_zero _) H). lra. }
  repeat split; try apply B; auto; [rewrite NR, NV, NH; lra|].
  intros t. destruct (C36_from_ijk (State t r v) B) as (el & x & E & _ & A & _ & En & _). exists el. split; auto. cbn [s_position s_velocity] in En.
  unfold orbital_energy in En. rewrite NR, NV in En. set (a := semimajor_axis el) in *.
  assert (H : - mu_earth / (2 * a) * (2 * a) = - mu_earth) by (apply div_mul; lra). rewrite <- En in H. unfold mu_earth in H. lra.
Qed.

(** * C93 Geodetic coordinates in binary64 *)

(** On the polar axis the rounded computation can raise, although the exact
    one has a value (C27): the argument of [asin] rounds to more than 1. *)
Theorem C93_pole_refuted : forall L, (forall y, powf L 1 y = 1) ->
  itrf_to_lla_b64 L (V3 0 0 7000) = Err ValueError /\ itrf_to_lla_b64 L (V3 0 0 42000) = Err ValueError /\
  exists l, itrf_to_lla (V3 0 0 7000) = Ok l.
Proof.
  intros L H. split; [|split].
  - apply pole_7000. apply H.
  - apply pole_42000. apply H.
  - destruct (C27_itrf_lla_itrf (V3 0 0 7000)) as (l & E & _); [apply sq_norm_gt; lra|]. exists l. exact E.
Qed.
Print Assumptions C93_pole_refuted.

(** On the equator it always succeeds, with latitude zero and an altitude that
    is the distance above the equatorial radius up to rounding. *)
Theorem C93_equator : forall L x y, (forall e, powf L 1 e = 1) -> asinf L 0 = 0 -> cosf L 0 = 1 -> sinf L 0 = 0 ->
  1000 <= norm (V3 x y 0) ->
  exists l, itrf_to_lla_b64 L (V3 x y 0) = Ok l /\ latitude l = 0 /\
    Rabs (altitude l - (norm (V3 x y 0) - 6378.137)) <= 1e-15 * (norm (V3 x y 0) + 6378.137).
Proof. intros L x y H. exact (equator L x y (H _)). Qed.
Print Assumptions C93_equator.

(** The hypotheses on the C library hold for the exact functions. *)
Example C93_example : exists L, (forall y, powf L 1 y = 1) /\ asinf L 0 = 0 /\ cosf L 0 = 1 /\ sinf L 0 = 0 /\ 1000 <= norm (V3 42164 0 0).
Proof.
  exists (Libm sin cos asin atan2 Rpower). cbn [powf asinf cosf sinf]. split; [intros y; unfold Rpower; rewrite ln_1, Rmult_0_r; apply exp_0|].
  split; [apply asin_0|]. split; [apply cos_0|]. split; [apply sin_0|]. rewrite norm_x; lra.
Qed.
