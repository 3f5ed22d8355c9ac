(** Direction in which a curve moves: [moves_along f t u] says that at the
    parameter [t] the curve [f] has a non-zero velocity in the direction of the
    vector [u]. *)
From Coq Require Import Reals.
From Verif.Model Require Import Linalg.
From Verif.Spec Require Import Geometry.
Local Open Scope R_scope.

Definition velocity_of (f : R -> vec3) (t : R) (v : vec3) : Prop :=
  derivable_pt_lim (fun s => x3 (f s)) t (x3 v) /\
  derivable_pt_lim (fun s => y3 (f s)) t (y3 v) /\
  derivable_pt_lim (fun s => z3 (f s)) t (z3 v).
Definition moves_along (f : R -> vec3) (t : R) (u : vec3) : Prop :=
  exists speed, 0 < speed /\ velocity_of f t (scale speed u).
