(** How accurate the C library's sine and cosine are taken to be for the
    arguments that the lunar series needs. *)
From Coq Require Import Reals.
From Verif.Model Require Import ElementsFloat.
Local Open Scope R_scope.

(** within 2.3e-16 for arguments up to fifty thousand radians *)
Definition accurate_far (L : libm) : Prop :=
  forall x, Rabs x <= 50000 -> Rabs (sinf L x - sin x) <= 2.3e-16 /\ Rabs (cosf L x - cos x) <= 2.3e-16.
