(** How accurate the C library's sine and cosine are taken to be for the
    arguments that the Earth's orientation needs. *)
From Coq Require Import Reals ZArith.
From Verif.Model Require Import ElementsFloat.
Local Open Scope R_scope.

(** within 2.3e-16 for arguments up to ten thousand radians *)
Definition accurate_circular (L : libm) : Prop :=
  forall x, Rabs x <= 10000 -> Rabs (sinf L x - sin x) <= 2.3e-16 /\ Rabs (cosf L x - cos x) <= 2.3e-16.

(** The UTC time of the epoch with modified Julian date [v] (on the library's
    scale) is at least a microsecond from midnight. *)
Definition off_midnight (v : R) : Prop := exists D : Z, IZR D + 1e-11 <= v - 69.184 / 86400 < IZR D + 1 - 1e-11.
