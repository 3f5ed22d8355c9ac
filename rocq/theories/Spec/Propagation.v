(** Vocabulary for statements about the inertial propagator. *)
From Coq Require Import Reals ZArith.
From Verif.Model Require Import Num Linalg Time States Inertial.
From Verif.Spec Require Import Geometry RungeKutta.
Local Open Scope R_scope.

(** [p'] is reached from [p] by [n] successive calls of step() that raise nothing. *)
Inductive stepped : nat -> rk4 -> rk4 -> Prop :=
| stepped_none p : stepped 0 p p
| stepped_more n p q r : rk4_step p = (q, Ok tt) -> stepped n q r -> stepped (S n) p r.

(** The same propagator apart from its state (everything a step may change). *)
Definition same_settings (p q : rk4) : Prop :=
  step_size p = step_size q /\ m_dot p = m_dot q /\ m0 p = m0 q /\
  thrust_direction p = thrust_direction q /\ isp p = isp q.

(** [n] is the least number of equal parts of [dt] of magnitude at most [limit]. *)
Definition fewest_parts (dt limit : R) (n : nat) : Prop :=
  Rabs dt <= limit * INR n /\ forall m, Rabs dt <= limit * INR m -> (n <= m)%nat.

(** Thrust acceleration of a rocket of initial mass [m], mass flow [mdot] and
    specific impulse [i] after [t] seconds, along [d]; g0 in km/s^2. *)
Definition rocket (mdot m i : R) (d : vec3) (t : R) : vec3 :=
  scale (mdot * i * 0.00981 / (m - mdot * t) / norm d) d.

(** The right-hand side integrated by the propagator: the derivative of a state
    [t] seconds after [e0], under the thrust of [p] and the given extra settings. *)
Definition dynamics (p : rk4) (e0 : epoch) (srp : R) (perturbed : bool) (t : R) (y k : pair) : Prop :=
  exists T, thrust_vector p t = Ok T /\
  derivative (Gcrf (Epoch (value e0 + t / 86400)) (fst y) (snd y) T srp perturbed) = Ok k.

(** A region of time and space where every modelled force is defined: within a
    century of J2000, between 6500 and 300000 km from the centre of the Earth and
    no closer to the polar axis than a fifth of that distance. *)
Definition flyable (e : epoch) (r : vec3) : Prop :=
  Rabs (value e - 51544.5) <= 36525 /\ 6500 <= norm r <= 300000 /\
  norm r <= 5 * sqrt (x3 r * x3 r + y3 r * y3 r).

(** [t] lies between 0 and [dt], whichever the sign of [dt]. *)
Definition during (dt t : R) : Prop := exists x, 0 <= x <= 1 /\ t = x * dt.

(** Throughout a propagation by [dt] seconds the thruster gives at most [A] km/s^2. *)
Definition thrust_bounded (p : rk4) (dt A : R) : Prop :=
  forall t, during dt t -> exists T, thrust_vector p t = Ok T /\ norm T <= A.

(** Every place within [D] km of the present position is flyable for [dt] seconds. *)
Definition clear_around (s : gcrf) (dt D : R) : Prop :=
  forall t r, during dt t -> norm (sub r (g_position s)) <= D ->
  flyable (Epoch (value (g_epoch s) + t / 86400)) r.

(** How far a body starting at speed [v] can go in [t] seconds when its
    acceleration stays below [b]; the propagator's own bound, not the sharpest. *)
Definition reach (v b t : R) : R := Rabs t * (v + b * Rabs t).

(** The same propagator with its thruster shut. *)
Definition unpowered (p : rk4) : rk4 := set_thruster p (thrust_direction p) (m0 p) 0 (isp p).

(** Velocity that the thruster alone contributes to one step of the scheme. *)
Definition thrust_part (p : rk4) (h : R) (w : vec3) : Prop :=
  exists a b c, thrust_vector p 0 = Ok a /\ thrust_vector p (h / 2) = Ok b /\ thrust_vector p h = Ok c /\
  w = scale (h / 6) (add a (add (scale 4 b) c)).

(** Velocity contributed to one step of the scheme by forces other than thrust. *)
Definition natural_part (h : R) (w : vec3) : Prop :=
  exists b1 b2 b3 b4, w = scale (h / 6) (add b1 (add (scale 2 b2) (add (scale 2 b3) b4))) /\
  forall b, List.In b (cons b1 (cons b2 (cons b3 (cons b4 nil)))) ->
    exists s, g_thrust s = zero3 /\ derivative s = Ok (g_velocity s, b).
Definition total (l : list vec3) : vec3 := List.fold_right add zero3 l.
