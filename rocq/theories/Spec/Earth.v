(** Textbook quantities of the low-precision Earth orientation model. *)
From Coq Require Import Reals.
From Verif.Model Require Import Time.
Local Open Scope R_scope.

(** days since J2000 *)
Definition days_j2000 (e : epoch) : R := value e + 2400000.5 - 2451545.
Definition deg (x : R) : R := x * (PI / 180).
(** nutation in longitude and in obliquity, radians *)
Definition nutation_longitude (e : epoch) : R :=
  deg (-0.0048) * sin (deg (125 - 0.05295 * days_j2000 e))
  - deg 0.0004 * sin (deg (200.9 + 1.97129 * days_j2000 e)).
Definition nutation_obliquity (e : epoch) : R :=
  deg 0.0026 * cos (deg (125 - 0.05295 * days_j2000 e))
  + deg 0.0002 * cos (deg (200.9 + 1.97129 * days_j2000 e)).
