(** Gauss's two-position method: the equation it solves, the secant rule, and
    points of an elliptic orbit. *)
From Coq Require Import Reals.
From Verif.Model Require Import Num Linalg Elements.
From Verif.Spec Require Import Geometry Gravity.
Local Open Scope R_scope.

(** W(w) = (2 g - sin 2 g) / sin^3 g with w = sin^2 (g / 2). *)
Definition W (w : R) : R :=
  let g := 2 * asin (sqrt w) in (2 * g - sin (2 * g)) / sin g ^ 3.

(** The equation for the ratio [n] of sector to triangle is F m l n = 0. *)
Definition F (m l n : R) : R := 1 - n + m / n ^ 2 * W (m / n ^ 2 - l).
Definition in_domain (m l n : R) : Prop := n <> 0 /\ 0 < m / n ^ 2 - l < 1.

(** Next point of the secant rule for [f] through [a] and [b]. *)
Definition secant (f : R -> R) (a b : R) : R := b - f b * (b - a) / (f b - f a).

(** [secant_run f dom tol k a b n]: starting from [a], [b], after [k] corrections
    of at least [tol] the next one is smaller and arrives at [n]; the function
    was inside its domain and the chord never level. *)
Inductive secant_run (f : R -> R) (dom : R -> Prop) (tol : R) : nat -> R -> R -> R -> Prop :=
| run_stop : forall a b, dom a -> dom b -> f b <> f a ->
    Rabs (secant f a b - b) < tol -> secant_run f dom tol 0 a b (secant f a b)
| run_more : forall k a b n, dom a -> dom b -> f b <> f a ->
    tol <= Rabs (secant f a b - b) -> secant_run f dom tol k b (secant f a b) n ->
    secant_run f dom tol (S k) a b n.

(** The point of the orbit [el] at eccentric anomaly [x]. *)
Definition orbit_point (el : elements) (x : R) : vec3 :=
  let o := raan el in let i := inclination el in let w := argument_of_perigee el in
  let a := semimajor_axis el in let e := eccentricity el in
  let toward_node := V3 (cos o) (sin o) 0 in
  let quarter_on := V3 (- sin o * cos i) (cos o * cos i) (sin i) in
  let perigee := add (scale (cos w) toward_node) (scale (sin w) quarter_on) in
  let side := add (scale (- sin w) toward_node) (scale (cos w) quarter_on) in
  add (scale (a * (cos x - e)) perigee) (scale (a * sqrt (1 - e ^ 2) * sin x) side).

(** Gauss's two numbers for a pair of positions seen [days] apart: the squared
    time and the shape of the triangle, and Hansen's starting guess. *)
Definition gauss_chord (ra rb : vec3) : R := sqrt (2 * (norm ra * norm rb + dot ra rb)).
Definition gauss_m (ra rb : vec3) (days : R) : R :=
  mu_earth * (days * 86400) ^ 2 / gauss_chord ra rb ^ 3.
Definition gauss_l (ra rb : vec3) : R :=
  (norm ra + norm rb) / (2 * gauss_chord ra rb) - 1 / 2.
Definition hansen (m l : R) : R := 12 / 22 + 10 / 22 * sqrt (1 + 44 / 9 * (m / (l + 5 / 6))).

(** Kepler's time from eccentric anomaly [x] to [y] on the orbit [el], in seconds. *)
Definition flight_time (el : elements) (x y : R) : R :=
  sqrt (semimajor_axis el ^ 3 / mu_earth) *
  ((y - eccentricity el * sin y) - (x - eccentricity el * sin x)).
