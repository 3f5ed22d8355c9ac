(** Directions given by two angles, and how accurate the C library is taken to be. *)
From Coq Require Import Reals.
From Verif.Model Require Import Num Linalg ElementsFloat.
From Verif.Spec Require Import LibmAccuracy.
Local Open Scope R_scope.

(** [math.atan2] is within about one unit in the last place of a number near
    pi of the polar angle, in the whole plane; [math.sin] and [math.cos] as before. *)
Definition accurate_polar (L : libm) : Prop := accurate_trig L /\
  forall y x, Rabs (atan2f L y x - atan2 y x) <= 4.5e-16.

(** The unit vector with right ascension [ra] and declination [dec]. *)
Definition pointing (ra dec : R) : vec3 := V3 (cos dec * cos ra) (cos dec * sin ra) (sin dec).

(** The same in east, north, zenith axes, the azimuth counted from north to east. *)
Definition sighting (az el : R) : vec3 := V3 (cos el * sin az) (cos el * cos az) (sin el).
