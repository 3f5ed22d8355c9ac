From Coq Require Import Reals.
From Verif.Model Require Import Num Linalg Time.
From Verif.Spec Require Import Geometry.
Local Open Scope R_scope.

Definition degree : R := PI / 180.

(** The tilt of the equator to the ecliptic at J2000. *)
Definition tilt : R := 23.43929111 * degree.

(** The point at distance [r], ecliptic longitude [lon] and latitude [lat], in
    equatorial axes: the ecliptic is the equator turned by the tilt about the
    axis to the vernal equinox. *)
Definition ecliptic (r lon lat : R) : vec3 :=
  let x := r * (cos lat * cos lon) in let y := r * (cos lat * sin lon) in let z := r * sin lat in
  V3 x (cos tilt * y - sin tilt * z) (sin tilt * y + cos tilt * z).

(** A longitude, as a function of days, that grows by [lo] to [hi] degrees a
    day over every interval. *)
Definition advances (lo hi : R) (lon : R -> R) : Prop :=
  forall t d, 0 <= d -> lo * d * degree <= lon (t + d) - lon t <= hi * d * degree.

Definition arcsec : R := degree / 3600.

(** Turning a vector about the third and the second axis. *)
Definition turn_z (a : R) (v : vec3) : vec3 :=
  V3 (cos a * x3 v - sin a * y3 v) (sin a * x3 v + cos a * y3 v) (z3 v).
Definition turn_y (a : R) (v : vec3) : vec3 :=
  V3 (cos a * x3 v + sin a * z3 v) (y3 v) (cos a * z3 v - sin a * x3 v).

(** Julian centuries of 36525 days from J2000, modified Julian date 51544.5. *)
Definition centuries (e : epoch) : R := (value e - 51544.5) / 36525.

(** [a] is [p] arc seconds per century and [q] per century squared, up to [c]
    per century cubed. *)
Definition about_rate (p q c : R) (t a : R) : Prop :=
  Rabs (a - (p * t + q * (t * t)) * arcsec) <= c * Rabs (t * t * t) * arcsec.
