(** C115-C116 The Earth's orientation as the floats compute it. *)
From Coq Require Import Reals ZArith Lra.
From Flocq Require Import Core.
From Verif.Model Require Import Num Linalg Time Celestial Positions States Inertial Artificial Obs Terrestrial TimeFloat AngleFloat ElementsFloat SiderealFloat GroundFloat EarthFloat.
From Verif.Spec Require Import Geometry Operations LibmAccuracy FrameFloat GroundFloat EarthFloat.
From Verif.Properties Require Import EstimationProps.
From Verif.Proofs Require Import NumLemmas TimeFloatProofs ElementsFloatProofs CelestialProofs PiDigits KeplerFloatProofs LinalgProofs PositionsProofs GroundSiteProofs FrameFloatFailure FrameFloatTrip SiderealFloatProofs SightingProofs GeodeticProofs EarthFloatChain.
Local Open Scope R_scope.

(** * C115 Conversions between GCRF and ITRF *)

(** [v] is the modified Julian date stored in the epoch, within a century of
    J2000. The computed Earth-fixed position is within 2.71e-8 of the distance
    from the exact one, and within 8.1e-11 away from UTC midnight. *)
Theorem C115_to_itrf : forall L v p, accurate_circular L -> Rabs (v - 51544.5) <= 36525 -> 2e-9 <= norm p <= 1e30 ->
  exists q' q, gcrf_to_itrf_b64 L p v = Ok q' /\ gcrf_to_itrf p (Epoch v) = Ok q /\
    norm (sub q' q) <= 2.71e-8 * norm p /\ (off_midnight v -> norm (sub q' q) <= 8.1e-11 * norm p).
Proof.
  intros L v p A H N. destruct (to_itrf_close _ L v p A H (gha_round_any v H) (proj1 N)) as (q' & q & E' & E & B). exists q', q. split; [exact E'|]. split; [exact E|]. split; [lra|].
  intros O. destruct (to_itrf_close _ L v p A H (gha_round v H O) (proj1 N)) as (r' & r & F' & F & C). rewrite E' in F'. rewrite E in F. replace r' with q' in C by congruence. replace r with q in C by congruence. lra.
Qed.
Print Assumptions C115_to_itrf.

(** The same for the way back. *)
Theorem C115_to_gcrf : forall L v q, accurate_circular L -> Rabs (v - 51544.5) <= 36525 -> 2e-9 <= norm q <= 1e30 ->
  exists p' p, itrf_to_gcrf_b64 L q v = Ok p' /\ itrf_to_gcrf q (Epoch v) = Ok p /\
    norm (sub p' p) <= 2.71e-8 * norm q /\ (off_midnight v -> norm (sub p' p) <= 8.1e-11 * norm q).
Proof.
  intros L v p A H N. destruct (to_gcrf_close _ L v p A H (gha_round_any v H) (proj1 N)) as (q' & q & E' & E & B). exists q', q. split; [exact E'|]. split; [exact E|]. split; [lra|].
  intros O. destruct (to_gcrf_close _ L v p A H (gha_round v H O) (proj1 N)) as (r' & r & F' & F & C). rewrite E' in F'. rewrite E in F. replace r' with q' in C by congruence. replace r with q in C by congruence. lra.
Qed.
Print Assumptions C115_to_gcrf.

(** There and back at one epoch the error of the rotation angle cancels: the
    rounding is at most 2.4e-14 of the distance, and what is returned differs
    from [p] by the 1.1e-8 the nutation matrix loses in exact arithmetic too. *)
Theorem C115_round_trip : forall L v p, accurate_circular L -> Rabs (v - 51544.5) <= 36525 -> 2e-9 <= norm p <= 1e30 ->
  exists q' p' q r, gcrf_to_itrf_b64 L p v = Ok q' /\ itrf_to_gcrf_b64 L q' v = Ok p' /\
    gcrf_to_itrf p (Epoch v) = Ok q /\ itrf_to_gcrf q (Epoch v) = Ok r /\
    norm (sub p' r) <= 2.4e-14 * norm p /\ norm (sub p' p) <= 1.11e-8 * norm p.
Proof.
  intros L v p A H N. destruct (trip_close L v p A H (proj1 N)) as (q' & p' & q & r & E1 & E2 & E3 & E4 & B). exists q', p', q, r. do 4 (split; [assumption|]). split; [exact B|].
  destruct (gcrf_round_trip p (Epoch v)) as (q0 & r0 & F1 & F2 & C & _). rewrite E3 in F1. replace q0 with q in * by congruence. rewrite E4 in F2. replace r0 with r in * by congruence.
  assert (T := norm_triangle (sub p' r) (sub r p)). replace (add (sub p' r) (sub r p)) with (sub p' p) in T by (unfold add, sub; cbn; f_equal; ring). lra.
Qed.
Print Assumptions C115_round_trip.

(** * C116 A ground site's view of a target *)

(** The computed observation has the target's epoch, its range is that of the
    exact observation, and the point its range, azimuth and elevation describe
    is the exact one, up to rounding [w], the error of the sidereal time at the
    target's distance [P] from the centre and a multiple of the site's distance
    [S] and of the range [D]. *)
Theorem C116_angles_and_range : forall L l t v, accurate_circular L -> accurate_polar L ->
  Rabs (latitude l) <= 8 -> Rabs (longitude l) <= 8 -> Rabs (altitude l) <= 1e9 ->
  Rabs (v - 51544.5) <= 36525 -> current_epoch t = Epoch v -> 2e-9 <= norm (sc_position t) <= 1e7 ->
  exists s' s ob' ob, GroundSite_b64 L l = Ok s' /\ GroundSite l = Ok s /\
    angles_and_range_b64 L s' (sc_position t) v = Ok ob' /\ angles_and_range s t = Ok ob /\ go_epoch ob' = go_epoch ob /\
    let S := 6400 + Rabs (altitude l) in let D := go_range ob in let P := norm (sc_position t) in
    let close w := Rabs (go_range ob' - D) <= 4e-15 * S + 3.3e-15 * D + w * P /\
      within3 (2.4e-15 * S + 4.7e-15 * D + w * P)
        (scale (go_range ob') (sighting (go_azimuth ob') (go_elevation ob'))) (go_observed_direction ob) in
    (1 <= D -> close 2.71e-8 /\ (off_midnight v -> close 8.1e-11)).
Proof.
  intros L l t v AC AP HA HO HL H ET N.
  destruct (sight_close _ L l t v AC AP HA HO HL H ET (gha_round_any v H) ltac:(lra) N) as (s' & s & ob' & ob & E1 & E2 & E3 & E4 & E5 & K).
  exists s', s, ob', ob. do 5 (split; [assumption|]). cbv zeta in *. intros D.
  assert (W : forall a b, a <= b -> a * norm (sc_position t) <= b * norm (sc_position t)) by (intros a b AB; apply Rmult_le_compat_r; lra).
  assert (Y : forall d w S1 S2, (1.00002 * d + 1.4e-14) <= w ->
    Rabs (go_range ob' - go_range ob) <= S1 + (1.00002 * d + 1.4e-14) * norm (sc_position t) /\ within3 (S2 + (1.00002 * d + 1.4e-14) * norm (sc_position t)) (scale (go_range ob') (sighting (go_azimuth ob') (go_elevation ob'))) (go_observed_direction ob) ->
    Rabs (go_range ob' - go_range ob) <= S1 + w * norm (sc_position t) /\ within3 (S2 + w * norm (sc_position t)) (scale (go_range ob') (sighting (go_azimuth ob') (go_elevation ob'))) (go_observed_direction ob)).
  { intros d w S1 S2 DW [A B]. specialize (W _ _ DW). split; [lra|]. destruct B as (B1 & B2 & B3). unfold within3. repeat split; lra. }
  split; [apply (Y 2.7e-8); [lra|exact (K D)]|]. intros O. apply (Y 8e-11); [lra|].
  destruct (sight_close _ L l t v AC AP HA HO HL H ET (gha_round v H O) ltac:(lra) N) as (u' & u & oc' & oc & F1 & F2 & F3 & F4 & F5 & M).
  rewrite E1 in F1. replace u' with s' in * by congruence. rewrite E2 in F2. replace u with s in * by congruence. rewrite E3 in F3. replace oc' with ob' in * by congruence. rewrite E4 in F4. replace oc with ob in * by congruence.
  exact (M D).
Qed.
Print Assumptions C116_angles_and_range.

(** A correctly rounding C library meets the hypotheses, in the
    morning and at noon of a day in 2017. *)
Example C115_example : exists L, accurate_circular L /\ accurate_polar L /\
  Rabs (58000.26 - 51544.5) <= 36525 /\ off_midnight 58000.26 /\ off_midnight 58000.5 /\ 2e-9 <= norm (V3 7000 100 (-200)) <= 1e7.
Proof.
  exists (Libm (fun x => b64 (sin x)) (fun x => b64 (cos x)) asin (fun y x => b64 (atan2 y x)) Rpower). split; [|split].
  - intros x _. cbn [sinf cosf]. assert (F := b64_fine (sin x)). assert (G := b64_fine (cos x)).
    assert (Rabs (sin x) <= 1) by (apply Rabs_le; apply SIN_bound). assert (Rabs (cos x) <= 1) by (apply Rabs_le; apply COS_bound). split; lra.
  - split; [apply rounded_trig; reflexivity|]. intros y x. cbn [atan2f]. assert (F := b64_fine (atan2 y x)).
    assert (R := atan2_range y x). assert (P := PI_digits). assert (Rabs (atan2 y x) <= 3.15) by (apply Rabs_le; lra). lra.
  - split; [apply Rabs_le; lra|]. split; [exists 58000%Z; lra|]. split; [exists 58000%Z; lra|].
    split; [assert (7000 <= norm (V3 7000 100 (-200))) by (apply sqrt_lower; [lra|unfold dot; cbn; lra]); lra|].
    assert (norm (V3 7000 100 (-200)) <= 8000) by (apply sqrt_upper; [lra|unfold dot; cbn; lra]). lra.
Qed.

(** A spacecraft in geostationary distance and a site at 40 degrees north. *)
Example C116_example : exists l t v s ob, Rabs (latitude l) <= 8 /\ Rabs (longitude l) <= 8 /\ Rabs (altitude l) <= 1e9 /\
  Rabs (v - 51544.5) <= 36525 /\ off_midnight v /\ current_epoch t = Epoch v /\ 2e-9 <= norm (sc_position t) <= 1e7 /\
  GroundSite l = Ok s /\ angles_and_range s t = Ok ob /\ 1 <= go_range ob.
Proof.
  destruct (created (GCRF (Epoch 58000.26) (V3 42000 0 100) (V3 0 3 0))) as (t & _ & L1 & _ & T1 & _).
  assert (E : current_epoch t = Epoch 58000.26) by (rewrite cur_epoch, T1; reflexivity).
  assert (P : sc_position t = V3 42000 0 100) by (change (v3_copy (place_of t) = V3 42000 0 100); rewrite L1; reflexivity).
  destruct (lla_to_itrf (LLA 0.7 (-1.3) 1.6)) as [p|] eqn:Q; [|rewrite lla_to_itrf_ok in Q; discriminate].
  assert (G : GroundSite (LLA 0.7 (-1.3) 1.6) = Ok (mkSite p 0.7 (-1.3) (ENZ_matrix (-1.3) 0.7))) by (unfold GroundSite; rewrite Q; reflexivity).
  set (s := mkSite p 0.7 (-1.3) (ENZ_matrix (-1.3) 0.7)) in *.
  assert (O : exists ob, angles_and_range s t = Ok ob) by (unfold angles_and_range; rewrite gcrf_to_itrf_ok; eexists; reflexivity). destruct O as [ob O].
  exists (LLA 0.7 (-1.3) 1.6), t, 58000.26, s, ob. cbn [latitude longitude altitude].
  split; [apply Rabs_le; lra|]. split; [apply Rabs_le; lra|]. split; [apply Rabs_le; lra|]. split; [apply Rabs_le; lra|]. split; [exists 58000%Z; lra|]. split; [exact E|].
  assert (N1 : 42000 <= norm (V3 42000 0 100)) by (apply sqrt_lower; [lra|unfold dot; cbn; lra]). assert (N2 : norm (V3 42000 0 100) <= 43000) by (apply sqrt_upper; [lra|unfold dot; cbn; lra]).
  rewrite P. split; [lra|]. split; [exact G|]. split; [exact O|].
  destruct (seen_range s _ _ ob (ex_intro _ _ G) t P E O) as (q & F & R & _). rewrite R. rewrite gcrf_to_itrf_ok in F. apply ok_inj in F.
  assert (NS := nutation_stretch (Epoch 58000.26) (apply3 (Earth_precession (Epoch 58000.26)) (V3 42000 0 100))).
  rewrite (rotation_norm _ _ (precession_rotation _)) in NS.
  assert (NQ := rotation_norm _ (apply3 (Earth_nutation (Epoch 58000.26)) (apply3 (Earth_precession (Epoch 58000.26)) (V3 42000 0 100))) (rotz_rotation (- gast (Epoch 58000.26)))). rewrite F in NQ.
  assert (B := site_norm _ _ Q). cbn [altitude] in B. rewrite (Rabs_pos_eq 1.6) in B by lra. assert (Z := norm_sub_ge q p). change (itrf_position s) with p. lra.
Qed.
