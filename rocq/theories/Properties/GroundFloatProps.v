(** C113-C114 Directions and ground observations as the floats compute them. *)
From Coq Require Import Reals ZArith Lra.
From Flocq Require Import Core.
From Verif.Model Require Import Num Linalg Time Celestial Positions States Obs Terrestrial TimeFloat AngleFloat ElementsFloat GroundFloat.
From Verif.Spec Require Import Geometry LibmAccuracy FrameFloat GroundFloat.
From Verif.Proofs Require Import NumLemmas TimeFloatProofs ElementsFloatProofs PiDigits KeplerFloatProofs LinalgProofs FrameFloatFailure FrameFloatTrip GroundFloatProofs GroundSiteProofs.
Local Open Scope R_scope.

(** * C113 Spherical coordinates *)

(** For every vector down to a millimetre the rounded range, right ascension
    and declination describe it: the range to 3e-16, the direction to 2.6e-15,
    also at the poles and where the right ascension starts over. *)
Theorem C113_from_cartesian : forall L v, accurate_polar L -> 1e-6 <= norm v <= 1e30 ->
  let s := spherical_from_cartesian_b64 L v in
  Rabs (radius s - norm v) <= 2.9e-16 * norm v /\
  0 <= right_ascension s <= 2 * math_pi /\ Rabs (declination s) <= 1.6 /\
  within3 2.6e-15 (pointing (right_ascension s) (declination s)) (scale (/ norm v) v).
Proof. intros L v A [N _]. exact (from_cartesian_close L v A N). Qed.
Print Assumptions C113_from_cartesian.

(** Back again, for all angles up to 8 radians. *)
Theorem C113_to_cartesian : forall L s, accurate_polar L -> Rabs (right_ascension s) <= 8 -> Rabs (declination s) <= 8 ->
  0 <= radius s <= 1e30 ->
  within3 (7.1e-16 * radius s + 2e-60) (spherical_to_cartesian_b64 L s)
    (scale (radius s) (pointing (right_ascension s) (declination s))).
Proof. intros L s A R D [P _]. exact (to_cartesian_close L s A R D P). Qed.
Print Assumptions C113_to_cartesian.

(** There and back loses at most 4e-15 of the length. *)
Theorem C113_round_trip : forall L v, accurate_polar L -> 1e-6 <= norm v <= 1e30 ->
  within3 (4e-15 * norm v) (spherical_to_cartesian_b64 L (spherical_from_cartesian_b64 L v)) v.
Proof. intros L v A [N _]. exact (spherical_trip L v A N). Qed.
Print Assumptions C113_round_trip.

(** An observation built from azimuth, elevation and range reports them back. *)
Theorem C113_angles : forall L o az el r e a, accurate_polar L -> Rabs az <= 8 -> Rabs el <= 8 -> 1e-3 <= r <= 1e30 ->
  let ob := from_angles_and_range_b64 L o az el r e a in
  within3 (7.2e-16 * r) (go_observed_direction ob) (scale r (sighting az el)) /\
  Rabs (go_range ob - r) <= 1.6e-15 * r /\
  within3 5.2e-15 (sighting (go_azimuth ob) (go_elevation ob)) (sighting az el).
Proof. intros L o az el r e a A HA HE [HR _]. exact (angles_trip L o az el r e a A HA HE HR). Qed.
Print Assumptions C113_angles.

(** * C114 Ground sites *)

(** The rounded position of a site is within 1.3e-15 of its distance from the
    centre: less than ten nanometres on the ground. *)
Theorem C114_site : forall L l, accurate_trig L -> Rabs (latitude l) <= 8 -> Rabs (longitude l) <= 8 ->
  Rabs (altitude l) <= 1e9 ->
  exists p' p, lla_to_itrf_b64 L l = Ok p' /\ lla_to_itrf l = Ok p /\
    within3 (1.3e-15 * (6400 + Rabs (altitude l))) p' p.
Proof. intros L l A HA HO _. exact (site_close L l A HA HO). Qed.
Print Assumptions C114_site.

(** A site's east, north, zenith coordinates of an object, its range and the
    direction its azimuth and elevation describe agree with exact arithmetic;
    [S] bounds the site's distance from the centre, [D] is the range. *)
Theorem C114_observation : forall L l q o e a, accurate_polar L -> Rabs (latitude l) <= 8 -> Rabs (longitude l) <= 8 ->
  Rabs (altitude l) <= 1e9 ->
  exists s' s, GroundSite_b64 L l = Ok s' /\ GroundSite l = Ok s /\
    let S := 6400 + Rabs (altitude l) in let D := norm (sub q (itrf_position s)) in
    let ob := GroundObservation_b64 L o (enz_position_b64 s' q) e a in
    within3 (2.3e-15 * S + 1.7e-15 * D) (enz_position_b64 s' q) (enz_position s q) /\
    (1e-3 <= D <= 1e30 ->
     Rabs (go_range ob - D) <= 4e-15 * S + 3.3e-15 * D /\
     within3 (2.4e-15 * S + 4.7e-15 * D)
       (scale (go_range ob) (sighting (go_azimuth ob) (go_elevation ob))) (enz_position s q)).
Proof.
  intros L l q o e a A HA HO HL. destruct (enz_close L l q (proj1 A) HA HO) as (s' & s & E' & E & W).
  destruct (site_observation L l q o e a A HA HO HL) as (t' & t & F' & F & T).
  rewrite E' in F'. rewrite E in F. apply ok_inj in F'. apply ok_inj in F. subst t' t.
  exists s', s. split; [exact E'|]. split; [exact E|]. cbv zeta in *. split; [exact W|]. intros [HD _]. exact (T HD).
Qed.
Print Assumptions C114_observation.

(** Turning an east, north, zenith vector back to the Earth's axes. *)
Theorem C114_back : forall L l v, accurate_trig L -> Rabs (latitude l) <= 8 -> Rabs (longitude l) <= 8 ->
  norm v <= 1e30 ->
  within3 (1.4e-15 * norm v + 6e-60) (enz_to_itrf_b64 L l v) (enz_to_itrf l v).
Proof. intros L l v A HA HO _. exact (enz_back_close L l v A HA HO). Qed.
Print Assumptions C114_back.

(** A C library that rounds the true values correctly satisfies the hypotheses;
    a site at 40 degrees north and a satellite overhead. *)
Example C114_example : exists L, accurate_polar L /\
  (exists l q s, l = LLA 0.7 (-1.3) 1.6 /\ Rabs (latitude l) <= 8 /\ Rabs (longitude l) <= 8 /\ Rabs (altitude l) <= 1e9 /\
     q = V3 10000 20000 30000 /\ GroundSite l = Ok s /\ 1e-3 <= norm (sub q (itrf_position s)) <= 1e30).
Proof.
  exists (Libm (fun x => b64 (sin x)) (fun x => b64 (cos x)) asin (fun y x => b64 (atan2 y x)) Rpower). split.
  - split; [apply rounded_trig; reflexivity|]. intros y x. cbn [atan2f]. assert (F := b64_fine (atan2 y x)).
    assert (R := atan2_range y x). assert (P := PI_digits). assert (Rabs (atan2 y x) <= 3.15) by (apply Rabs_le; lra). lra.
  - destruct (site_close (Libm (fun x => b64 (sin x)) (fun x => b64 (cos x)) asin (fun y x => b64 (atan2 y x)) Rpower) (LLA 0.7 (-1.3) 1.6)) as (_ & p & _ & E & _);
      [apply rounded_trig; reflexivity|cbn; apply Rabs_le; lra|cbn; apply Rabs_le; lra|].
    exists (LLA 0.7 (-1.3) 1.6), (V3 10000 20000 30000), (mkSite p 0.7 (-1.3) (ENZ_matrix (-1.3) 0.7)). split; [reflexivity|]. cbn [latitude longitude altitude].
    split; [apply Rabs_le; lra|]. split; [apply Rabs_le; lra|]. split; [apply Rabs_le; lra|]. split; [reflexivity|].
    split; [unfold GroundSite; rewrite E; reflexivity|]. cbn [itrf_position].
    assert (B := site_norm _ _ E). cbn [altitude] in B. rewrite (Rabs_pos_eq 1.6) in B by lra. split.
    + assert (Z := norm_sub_ge (V3 10000 20000 30000) p). assert (37000 <= norm (V3 10000 20000 30000)) by (apply sqrt_lower; [lra|unfold dot; cbn; lra]). lra.
    + assert (Z := norm_triangle (V3 10000 20000 30000) (scale (-1) p)). 
      replace (add (V3 10000 20000 30000) (scale (-1) p)) with (sub (V3 10000 20000 30000) p) in Z by (unfold add, sub, scale; cbn; f_equal; ring).
      replace (norm (scale (-1) p)) with (norm p) in Z by (rewrite norm_scale, Rabs_left by lra; ring). assert (norm (V3 10000 20000 30000) <= 40000) by (apply sqrt_upper; [lra|unfold dot; cbn; lra]). lra.
Qed.
