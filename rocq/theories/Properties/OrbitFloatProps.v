(** Classical elements computed in binary64. *)
From Coq Require Import Reals ZArith Lra Lia Psatz.
From Flocq Require Import Core.
From Verif.Model Require Import Num Constants Linalg Functions Time Celestial States Elements TimeFloat AngleFloat ElementsFloat.
From Verif.Spec Require Import Geometry Gravity Orbit SiderealFloat FrameFloat GroundFloat LibmAccuracy.
From Verif.Proofs Require Import NumLemmas LinalgProofs ElementsProofs ElementsFloatProofs FrameFloatTrip OrbitFloatAngles OrbitFloatProofs.
From Verif.Properties Require Import ElementsProps.
Local Open Scope R_scope.

(** * C117 All six elements of a state in binary64

    Node, perigee and mean anomaly are angles of directions that fade as the
    inclination or the eccentricity goes to zero, so their error grows with the
    inverse of these; angles are compared up to whole turns, as one just below
    [2 pi] may come out as one just above 0. *)
Theorem C117_elements : forall L t r v el, accurate_polar L ->
  elements_from_ijk (State t r v) = Ok el -> bound_orbit r v -> 1000 <= norm r ->
  semimajor_axis el <= 1e7 -> 1e-5 <= eccentricity el <= 0.9 -> 1e-6 <= sin (inclination el) ->
  exists el', elements_from_ijk_b64 L (State t r v) = Ok el' /\ el_epoch el' = t /\
    Rabs (semimajor_axis el' - semimajor_axis el) <= 1e-14 * (semimajor_axis el * semimajor_axis el / norm r) /\
    Rabs (eccentricity el' - eccentricity el) <= 1e-14 / eccentricity el /\
    Rabs (inclination el' - inclination el) <= 5e-15 /\
    close_angle (6e-15 / sin (inclination el)) (raan el') (raan el) /\
    close_angle (1.4e-14 / sin (inclination el) + 2.3e-12 / eccentricity el) (argument_of_perigee el') (argument_of_perigee el) /\
    close_angle (2.5e-13 / eccentricity el) (mean_anomaly el') (mean_anomaly el).
Proof. exact elements_close. Qed.
Print Assumptions C117_elements.

(** The plane described by node and inclination is that of the state, however small the inclination. *)
Theorem C117_plane : forall L t r v el, accurate_polar L ->
  elements_from_ijk (State t r v) = Ok el -> bound_orbit r v -> 1000 <= norm r ->
  semimajor_axis el <= 1e7 -> 1e-5 <= eccentricity el <= 0.9 -> 1e-6 <= sin (inclination el) ->
  exists el', elements_from_ijk_b64 L (State t r v) = Ok el' /\
    norm (sub (orbit_normal (raan el') (inclination el')) (scale (/ norm (momentum r v)) (momentum r v))) <= 1.1e-14.
Proof.
  intros L t r v el A E B R S C I. destruct (elements_close L t r v el A E B R S C I) as (el' & E' & _ & _ & _ & DI & DO & _). exists el'. split; [exact E'|].
  destruct (C36_from_ijk (State t r v) B) as (el0 & x & E0 & _ & _ & _ & _ & _ & M & _). rewrite E in E0. apply ok_inj in E0. subst el0. cbn [s_position s_velocity] in M.
  assert (H : norm (momentum r v) <> 0) by (intros Z; apply (proj2 B); apply norm_zero; exact Z).
  replace (scale (/ norm (momentum r v)) (momentum r v)) with (orbit_normal (raan el) (inclination el)).
  2:{ rewrite M at 2. set (n := norm (momentum r v)) in *. generalize (orbit_normal (raan el) (inclination el)). intros [x1 y1 z1]. unfold scale. cbn [x3 y3 z3]. f_equal; field; exact H. }
  eapply Rle_trans; [apply (normal_moved _ _ _ _ _ _ DI DO); lra|]. set (s := sin (inclination el)) in *.
  replace (s * (6e-15 / s)) with 6e-15 by (symmetry; rewrite Rmult_comm; apply div_mul; lra). lra.
Qed.
Print Assumptions C117_plane.

Example C117_example : let r := V3 7000 0 0 in let v := V3 0 6 6 in
  bound_orbit r v /\ norm r = 7000 /\
  forall t, exists el, elements_from_ijk (State t r v) = Ok el /\ semimajor_axis el <= 1e7 /\ 1e-5 <= eccentricity el <= 0.9 /\ 1e-6 <= sin (inclination el).
Proof.
  intros r v. assert (NR : norm r = 7000) by (unfold norm, dot, r; cbn; replace (7000 * 7000 + 0 * 0 + 0 * 0) with (7000 * 7000) by ring; apply sqrt_square; lra).
  assert (NV : norm v * norm v = 72) by (rewrite norm_sq3; unfold v; cbn; lra).
  assert (NH : norm (momentum r v) ^ 2 = 3528000000) by (replace (norm (momentum r v) ^ 2) with (norm (momentum r v) * norm (momentum r v)) by ring; rewrite norm_sq3; unfold r, v, momentum, cross; cbn; lra).
  assert (B : bound_orbit r v).
  { split; [unfold orbital_energy; rewrite NR, NV; unfold mu_earth; lra|]. intros H. assert (Z := proj2 (norm_zero _) H). rewrite Z in NH. lra. }
  split; [exact B|]. split; [exact NR|]. intros t.
  destruct (C36_from_ijk (State t r v) B) as (el & x & E & _ & A & Ec & En & Pm & M & I & _). exists el. split; [exact E|]. cbn [s_position s_velocity] in *.
  unfold orbital_energy in En. rewrite NR, NV in En. rewrite NH in Pm. set (a := semimajor_axis el) in *. set (e := eccentricity el) in *.
  assert (H : - mu_earth / (2 * a) * (2 * a) = - mu_earth) by (apply div_mul; lra). rewrite <- En in H. unfold mu_earth in H, Pm.
  assert (AB : 9515 <= a <= 9525) by lra.
  assert (P2 : 8850 <= a * (1 - e ^ 2) <= 8852) by (rewrite Pm; lra).
  split; [lra|]. assert (E2 : 0.06 <= e * e <= 0.08) by nra. split; [nra|].
  assert (HP : 0 < norm (momentum r v)) by (assert (N := norm_nonneg (momentum r v)); assert (norm (momentum r v) <> 0) by (intros Z; rewrite Z in NH; lra); lra).
  assert (Y : y3 (momentum r v) = -42000) by (unfold momentum, cross, r, v; cbn; lra).
  rewrite M in Y. unfold scale, orbit_normal in Y. cbn [y3] in Y. set (n := norm (momentum r v)) in *. assert (C := COS_bound (raan el)).
  assert (S0 : 0 <= sin (inclination el)) by (apply sin_ge_0; lra). set (s := sin (inclination el)) in *. set (c := cos (raan el)) in *.
  assert (NB : n <= 59400) by nra. assert (c * s <= s) by nra. nra.
Qed.
