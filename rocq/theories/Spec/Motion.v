(** Motion of an unpowered spacecraft under the forces the propagator models. *)
From Coq Require Import Reals List.
From Coquelicot Require Import Coquelicot.
From Verif.Model Require Import Num Linalg Time States Inertial.
From Verif.Spec Require Import Geometry Propagation.
Local Open Scope R_scope.

(** [w] is the integral of the vector function [f] from 0 to [t]. *)
Definition integral_of (f : R -> vec3) (t : R) (w : vec3) : Prop :=
  is_RInt (fun s => x3 (f s)) 0 t (x3 w) /\ is_RInt (fun s => y3 (f s)) 0 t (y3 w) /\
  is_RInt (fun s => z3 (f s)) 0 t (z3 w).

(** The epoch [t] seconds after [e]. *)
Definition later (e : epoch) (t : R) : epoch := Epoch (value e + t / 86400).

(** From [e] until [T] seconds later (earlier, if [T] is negative) the position [r]
    and the velocity [v] accumulate at every time the rates that derivative()
    returns there.  The modelled forces jump at UTC midnights, where the velocity
    has no derivative, so the motion is described by integrals. *)
Definition natural_motion (e : epoch) (T : R) (r v : R -> vec3) : Prop :=
  exists a, forall t, during T t ->
    derivative (GCRF (later e t) (r t) (v t)) = Ok (v t, a t) /\
    integral_of v t (sub (r t) (r 0)) /\ integral_of a t (sub (v t) (v 0)).

(** Every place within [D] km of the motion is flyable at that time. *)
Definition clear_along (e : epoch) (T : R) (r : R -> vec3) (D : R) : Prop :=
  forall t x, during T t -> norm (sub x (r t)) <= D -> flyable (later e t) x.

(** Distance between two states: kilometres plus kilometres per second. *)
Definition separation (r v r' v' : vec3) : R := norm (sub r r') + norm (sub v v').

(** Propagating to each epoch of a list in turn. *)
Inductive visited : rk4 -> list epoch -> rk4 -> Prop :=
| visited_none p : visited p nil p
| visited_next p e p' es q : rk4_step_to_epoch p e = (p', Ok tt) -> visited p' es q -> visited p (e :: es) q.

(** The [n] equally spaced epochs from [e] (excluded) to [T] seconds later. *)
Definition way_points (e : epoch) (T : R) (n : nat) : list epoch :=
  map (fun i => later e (INR i * (T / INR n))) (seq 1 n).

(** From [e] until [T] seconds later no UTC midnight passes. *)
Definition one_utc_day (e : epoch) (T : R) : Prop :=
  exists k, forall t, during T t -> IZR k <= value (later e t) - 69.184 / 86400 < IZR (k + 1).
