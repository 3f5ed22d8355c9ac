(** How accurate the C library's sine and cosine are taken to be. *)
From Coq Require Import Reals.
From Verif.Model Require Import ElementsFloat.
Local Open Scope R_scope.

(** [math.sin] and [math.cos] are within 2.3e-16 of the true values, about two
    units in the last place of a number near one, for arguments up to 8 radians *)
Definition accurate_trig (L : libm) : Prop :=
  forall x, Rabs x <= 8 -> Rabs (sinf L x - sin x) <= 2.3e-16 /\ Rabs (cosf L x - cos x) <= 2.3e-16.
