(** Properties C21-C23: Earth orientation, Sun and Moon. *)
From Coq Require Import Reals Lra Lia.
From Verif.Model Require Import Num Linalg Time Celestial Positions.
From Verif.Spec Require Import Geometry Earth.
From Verif.Proofs Require Import LinalgProofs CelestialProofs.
Local Open Scope R_scope.

(** * C21 Precession and Earth rotation are proper rotations; nutation is not *)

Theorem C21_precession : forall e, is_rotation (Earth_precession e).
Proof. exact precession_rotation. Qed.
Print Assumptions C21_precession.

Theorem C21_rotation : forall e, exists m, Earth_rotation e = Ok m /\ is_rotation m.
Proof. exact Earth_rotation_rotation. Qed.
Print Assumptions C21_rotation.

(** The rotation turns the axes by the apparent sidereal angle about the pole. *)
Theorem C21_rotation_angle : forall e v, exists m, Earth_rotation e = Ok m /\
  let g := nutation_longitude e * cos (obliquity_of_ecliptic_at_epoch e) + greenwich_hour_angle e in
  apply3 m v = V3 (cos g * x3 v + sin g * y3 v) (cos g * y3 v - sin g * x3 v) (z3 v).
Proof. exact Earth_rotation_angle. Qed.
Print Assumptions C21_rotation_angle.

Theorem C21_nutation_stretch : forall e x,
  norm x <= norm (apply3 (Earth_nutation e) x) <= (1 + 5.5e-9) * norm x.
Proof. exact nutation_stretch. Qed.
Print Assumptions C21_nutation_stretch.

Theorem C21_nutation_isometry_iff : forall e,
  (forall x, norm (apply3 (Earth_nutation e) x) = norm x) <->
  nutation_longitude e = 0 /\ nutation_obliquity e = 0.
Proof. exact nutation_isometry_iff. Qed.
Print Assumptions C21_nutation_isometry_iff.

Theorem C21_nutation_rotation_refuted : exists e, ~ is_rotation (Earth_nutation e).
Proof. exact nutation_not_rotation. Qed.
Print Assumptions C21_nutation_rotation_refuted.

(** * C22 Round trip between GCRF and ITRF *)

Theorem C22_gcrf_itrf_gcrf : forall p e, exists q p',
  gcrf_to_itrf p e = Ok q /\ itrf_to_gcrf q e = Ok p' /\
  norm (sub p' p) <= 1.1e-8 * norm p /\ norm p <= norm q <= (1 + 5.5e-9) * norm p.
Proof. exact gcrf_round_trip. Qed.
Print Assumptions C22_gcrf_itrf_gcrf.

Theorem C22_itrf_gcrf_itrf : forall p e, exists q p',
  itrf_to_gcrf p e = Ok q /\ gcrf_to_itrf q e = Ok p' /\
  norm (sub p' p) <= 1.1e-8 * norm p.
Proof. exact itrf_round_trip. Qed.
Print Assumptions C22_itrf_gcrf_itrf.

Theorem C22_exact_round_trip_refuted : exists e p q p',
  gcrf_to_itrf p e = Ok q /\ itrf_to_gcrf q e = Ok p' /\ p' <> p.
Proof. exact gcrf_round_trip_inexact. Qed.
Print Assumptions C22_exact_round_trip_refuted.

(** * C23 Sun and Moon distances *)

Theorem C23_sun_distance : forall e, 147.099e6 <= norm (Sun_get_position e) <= 152.097e6.
Proof. exact Sun_norm. Qed.
Print Assumptions C23_sun_distance.

Theorem C23_moon_distance : forall e, exists p,
  Moon_get_position e = Ok p /\ 356096 <= norm p <= 413904.
Proof. exact Moon_norm. Qed.
Print Assumptions C23_moon_distance.

(** The Sun stays in the plane of the ecliptic. *)
Theorem C23_sun_in_ecliptic : forall e,
  dot (Sun_get_position e) (V3 0 (- sin Earth_OBLIQUITY_OF_ECLIPTIC) (cos Earth_OBLIQUITY_OF_ECLIPTIC)) = 0.
Proof. exact Sun_ecliptic. Qed.
Print Assumptions C23_sun_in_ecliptic.
