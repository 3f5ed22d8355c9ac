(** The classical fourth-order Runge-Kutta step, carried out inexactly. *)
From Coq Require Import Reals ZArith.
From Verif.Model Require Import Num Linalg Time States.
From Verif.Spec Require Import Geometry Propagation.
Local Open Scope R_scope.

(** [g] is the acceleration of the force model in exact arithmetic. *)
Definition pull (t : R) (r g : vec3) : Prop := forall v, derivative (GCRF (Epoch t) r v) = Ok (v, g).

Definition close3 (d : R) (a b : vec3) : Prop := norm (sub a b) <= d.

(** From [(t, r, v)] a step of [h] seconds leads to [(t', r', v')] by the
    classical Runge-Kutta formulas, up to errors of [dt] days in the epochs,
    [dr] km in the positions, [dv] km/s in the velocities and [da] km/s^2 in
    the accelerations. *)
Definition runge_kutta_within (dt dr dv da h : R) (t : R) (r v : vec3) (t' : R) (r' v' : vec3) : Prop :=
  exists t1 r2 r3 r4 v2 v3 v4 a1 a2 a3 a4 g1 g2 g3 g4,
    Rabs (t1 - (t + h / 2 / 86400)) <= dt /\ Rabs (t' - (t + h / 86400)) <= dt /\
    (pull t r g1 /\ close3 da a1 g1) /\
    (close3 dr r2 (add r (scale (h / 2) v)) /\ close3 dv v2 (add v (scale (h / 2) a1)) /\ pull t1 r2 g2 /\ close3 da a2 g2) /\
    (close3 dr r3 (add r (scale (h / 2) v2)) /\ close3 dv v3 (add v (scale (h / 2) a2)) /\ pull t1 r3 g3 /\ close3 da a3 g3) /\
    (close3 dr r4 (add r (scale h v3)) /\ close3 dv v4 (add v (scale h a3)) /\ pull t' r4 g4 /\ close3 da a4 g4) /\
    close3 dr r' (add r (scale (h / 6) (add v (add (scale 2 v2) (add (scale 2 v3) v4))))) /\
    close3 dv v' (add v (scale (h / 6) (add a1 (add (scale 2 a2) (add (scale 2 a3) a4))))).

(** The UTC time of the epoch [t] is at least nine microseconds from midnight. *)
Definition clear_of_midnight (t : R) : Prop := exists D : Z, IZR D + 1e-10 <= t - 69.184 / 86400 <= IZR D + 1 - 1e-10.

(** Whatever a coasting spacecraft may reach within a step of [h] seconds, and
    one km around, lies where the forces are defined, up to 100000 km from
    the centre of the Earth. *)
Definition roomy (t : R) (r v : vec3) (h : R) : Prop :=
  forall x, norm (sub x r) <= reach (norm v) 0.05 h + 1 -> flyable (Epoch t) x /\ norm x <= 100000.

(** The same for every spacecraft within one km and one km/s of the position
    [q] at a speed below 20 km/s. *)
Definition ample (t : R) (q : vec3) (h : R) : Prop := forall x, norm (sub x q) <= reach 20 0.05 h + 2 -> flyable (Epoch t) x /\ norm x <= 100000.

(** The UTC time of the epoch [t] is at least [m] days from midnight. *)
Definition away_from_midnight (m t : R) : Prop := exists D : Z, IZR D + m <= t - 69.184 / 86400 <= IZR D + 1 - m.
