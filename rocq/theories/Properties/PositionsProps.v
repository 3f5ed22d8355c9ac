(** Properties C25-C28: spherical, geodetic and local positions. *)
From Coq Require Import Reals Lra.
From Verif.Model Require Import Num Linalg Positions.
From Verif.Spec Require Import Geometry Axes.
From Verif.Proofs Require Import NumLemmas LinalgProofs TimeProofs CelestialProofs GeodeticProofs PositionsProofs Analysis.
Local Open Scope R_scope.

(** * C25 Spherical and Cartesian positions are inverse *)

Theorem C25_cartesian_spherical_cartesian : forall p,
  spherical_to_cartesian (spherical_from_cartesian p) = p.
Proof. exact cart_sph_cart. Qed.
Print Assumptions C25_cartesian_spherical_cartesian.

Theorem C25_ranges : forall p, let s := spherical_from_cartesian p in
  radius s = norm p /\ 0 <= right_ascension s < 2 * PI /\ - (PI / 2) <= declination s <= PI / 2.
Proof. exact sph_ranges. Qed.
Print Assumptions C25_ranges.

Theorem C25_spherical_cartesian_spherical : forall s,
  0 < radius s -> 0 <= right_ascension s < 2 * PI -> - (PI / 2) < declination s < PI / 2 ->
  spherical_from_cartesian (spherical_to_cartesian s) = s.
Proof. exact sph_cart_sph. Qed.
Print Assumptions C25_spherical_cartesian_spherical.

Example C25_example : let s := Spherical 7000 4 (-1) in
  0 < radius s /\ 0 <= right_ascension s < 2 * PI /\ - (PI / 2) < declination s < PI / 2.
Proof. cbn. generalize PI_bounds; intros; lra. Qed.

(** * C26 Geodetic to ITRF and back *)

Theorem C26_lla_itrf_lla : forall lat lon alt,
  - (PI / 2) < lat < PI / 2 -> 0 <= lon < 2 * PI -> -6000 <= alt ->
  exists p, lla_to_itrf (LLA lat lon alt) = Ok p /\ itrf_to_lla p = Ok (LLA lat lon alt).
Proof. exact lla_itrf_lla. Qed.
Print Assumptions C26_lla_itrf_lla.

Example C26_example : - (PI / 2) < -1 < PI / 2 /\ 0 <= 6 < 2 * PI /\ -6000 <= 0.4.
Proof. generalize PI_bounds; intros; lra. Qed.

(** * C27 ITRF to geodetic and back *)

Theorem C27_itrf_lla_itrf : forall p, 43 < norm p -> exists l,
  itrf_to_lla p = Ok l /\ lla_to_itrf l = Ok p /\
  - (PI / 2) <= latitude l <= PI / 2 /\ 0 <= longitude l < 2 * PI.
Proof. exact itrf_lla_itrf. Qed.
Print Assumptions C27_itrf_lla_itrf.

(** The hypothesis covers the polar axis. *)
Example C27_example : 43 < norm (V3 0 0 (-6356)).
Proof. apply sq_norm_gt; lra. Qed.

(** * C28 ENZ axes *)

Theorem C28_axes : forall lat lon alt, - (PI / 2) < lat < PI / 2 -> -6000 <= alt ->
  exists pos, (forall l, lla_to_itrf l = Ok (pos l)) /\
  is_rotation (ENZ_matrix lon lat) /\
  moves_along (fun t => pos (LLA lat t alt)) lon (m3_row1 (ENZ_matrix lon lat)) /\
  moves_along (fun t => pos (LLA t lon alt)) lat (m3_row2 (ENZ_matrix lon lat)) /\
  moves_along (fun t => pos (LLA lat lon t)) alt (m3_row3 (ENZ_matrix lon lat)).
Proof. exact enz_axes. Qed.
Print Assumptions C28_axes.

Theorem C28_to_itrf : forall l v, let m := ENZ_matrix (longitude l) (latitude l) in
  enz_to_itrf l v = add (add (scale (x3 v) (m3_row1 m)) (scale (y3 v) (m3_row2 m))) (scale (z3 v) (m3_row3 m)) /\
  norm (enz_to_itrf l v) = norm v /\ apply3 m (enz_to_itrf l v) = v.
Proof. exact enz_itrf. Qed.
Print Assumptions C28_to_itrf.

Example C28_example : - (PI / 2) < -1.5 < PI / 2 /\ -6000 <= -5.
Proof. generalize PI_bounds; intros; lra. Qed.
