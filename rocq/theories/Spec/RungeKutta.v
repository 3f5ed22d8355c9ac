(** The classical fourth-order Runge-Kutta step for a pair (position, velocity). *)
From Coq Require Import Reals.
From Verif.Model Require Import Linalg.
From Verif.Spec Require Import Geometry.
Local Open Scope R_scope.

Definition pair := (vec3 * vec3)%type.
Definition padd (a b : pair) : pair := (add (fst a) (fst b), add (snd a) (snd b)).
Definition pscale (k : R) (a : pair) : pair := (scale k (fst a), scale k (snd a)).

(** [slope t y k]: at time [t] after the start of the step, the system in state
    [y] has the rate of change [k]. The first stage may use another system. *)
Definition runge_kutta (first slope : R -> pair -> pair -> Prop) (h : R) (y y' : pair) : Prop :=
  exists k1 k2 k3 k4,
    first 0 y k1 /\
    slope (h / 2) (padd y (pscale (h / 2) k1)) k2 /\
    slope (h / 2) (padd y (pscale (h / 2) k2)) k3 /\
    slope h (padd y (pscale h k3)) k4 /\
    y' = padd y (pscale (h / 6) (padd k1 (padd (pscale 2 k2) (padd (pscale 2 k3) k4)))).

(** Sanity of the definition: motion under an acceleration that is a
    quadratic polynomial of time is integrated exactly, and a linear system
    [r'' = c r] gives the Taylor polynomial of degree four. *)
Definition driven (a b c : vec3) (t : R) (y k : pair) : Prop :=
  k = (snd y, add a (add (scale t b) (scale (t * t) c))).
Definition linear (c : R) (t : R) (y k : pair) : Prop := k = (snd y, scale c (fst y)).
