From Coq Require Import Reals Lra.
From Flocq Require Import Core.
From Verif.Model Require Import Num Linalg Time Celestial.
From Verif.Spec Require Import Geometry Ecliptic.
From Verif.Proofs Require Import LinalgProofs EclipticProofs EclipticMotion.
Local Open Scope R_scope.

(** * C109 The Sun and the Moon move steadily eastwards *)

(** The Sun: latitude zero, between 0.951 and 1.02 degrees a day at all times. *)
Theorem C109_sun : exists lon r, advances 0.951 1.02 lon /\ forall t,
  147.099e6 <= r t <= 152.097e6 /\ Sun_get_position (Epoch t) = ecliptic (r t) (lon t) 0.
Proof. exact sun_track. Qed.
Print Assumptions C109_sun.

(** The same place again after every number of years of 365.2596 days. *)
Theorem C109_year : forall t k,
  Sun_get_position (Epoch (t + IZR k * (360 * 36525 / 35999.049))) = Sun_get_position (Epoch t).
Proof. exact sun_year. Qed.
Print Assumptions C109_year.

(** The Moon: within 5.34 degrees of the ecliptic, 10.9 to 15.4 degrees a day. *)
Theorem C109_moon : exists lon lat r, advances 10.9 15.4 lon /\ forall t,
  Rabs (lat t) <= 5.34 * degree /\ 356096 <= r t <= 413904 /\
  Moon_get_position (Epoch t) = Ok (ecliptic (r t) (lon t) (lat t)).
Proof. exact moon_track. Qed.
Print Assumptions C109_moon.

(** So two positions, up to 176 or 11.6 days apart, are always in the order of
    the orbital motion about the pole of the ecliptic. *)
Theorem C109_sun_eastward : forall t d, 0 < d <= 176 ->
  0 < dot (V3 0 (- sin tilt) (cos tilt)) (cross (Sun_get_position (Epoch t)) (Sun_get_position (Epoch (t + d)))).
Proof. exact sun_east. Qed.
Print Assumptions C109_sun_eastward.
Theorem C109_moon_eastward : forall t d p p', 0 < d <= 11.6 ->
  Moon_get_position (Epoch t) = Ok p -> Moon_get_position (Epoch (t + d)) = Ok p' ->
  0 < dot (V3 0 (- sin tilt) (cos tilt)) (cross p p').
Proof. exact moon_east. Qed.
Print Assumptions C109_moon_eastward.

(** Every phase [a] of the Moon, new ([a = 0]) and full ([a = PI]) among them,
    occurs within 37 days of every date. *)
Theorem C109_phases : forall t a, exists d, 0 <= d <= 37 /\ exists lon lat r r',
  Rabs lat <= 5.34 * degree /\
  Sun_get_position (Epoch (t + d)) = ecliptic r lon 0 /\
  Moon_get_position (Epoch (t + d)) = Ok (ecliptic r' (lon + a) lat).
Proof. exact phase. Qed.
Print Assumptions C109_phases.

Example C109_example : exists p p', 0 < 7.5 <= 11.6 /\
  Moon_get_position (Epoch 60000) = Ok p /\ Moon_get_position (Epoch (60000 + 7.5)) = Ok p' /\ p <> zero3.
Proof.
  eexists. eexists. split; [lra|]. split; [apply moon_ecliptic|]. split; [apply moon_ecliptic|].
  intros E. assert (H := moon_range_bounds 60000).
  assert (N := moon_nonzero 60000). contradiction.
Qed.

(** * C110 Precession and obliquity follow the standard angles *)

(** The precession matrix is the product of the three classical turns, whose
    angles follow the IAU 1976 rates (arc seconds and Julian centuries). *)
Theorem C110_precession : forall e, exists zeta theta z,
  about_rate 2306.2181 0.30188 0.018 (centuries e) zeta /\
  about_rate 2004.3109 (-0.42665) 0.0419 (centuries e) theta /\
  about_rate 2306.2181 1.09468 0.0183 (centuries e) z /\
  forall v, apply3 (Earth_precession e) v = turn_z z (turn_y (- theta) (turn_z zeta v)).
Proof. exact precession_turns. Qed.
Print Assumptions C110_precession.

Theorem C110_obliquity : forall e,
  about_rate (-46.815) (-0.00059) 0.00182 (centuries e) (obliquity_of_ecliptic_at_epoch e - 23.43929111 * degree).
Proof. exact obliquity_rate. Qed.
Print Assumptions C110_obliquity.

(** One year after J2000 the obliquity has fallen by half an arc second. *)
Example C110_example :
  Rabs (obliquity_of_ecliptic_at_epoch (Epoch (51544.5 + 365.25)) - 23.43929111 * degree + 0.46815 * arcsec) <= 1e-4 * arcsec.
Proof.
  assert (H := C110_obliquity (Epoch (51544.5 + 365.25))). unfold about_rate in H.
  replace (centuries (Epoch (51544.5 + 365.25))) with 0.01 in H by (unfold centuries; cbn [value]; lra).
  assert (A := degree_pos). assert (0 < arcsec) by (unfold arcsec; lra).
  rewrite (Rabs_pos_eq (0.01 * 0.01 * 0.01)) in H by lra. apply Rabs_le_inv in H. apply Rabs_le. lra.
Qed.
