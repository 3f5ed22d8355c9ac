From Coq Require Import Reals ZArith.
Local Open Scope R_scope.

(** Two angles agree up to [eps], after whole turns. *)
Definition close_angle (eps a b : R) : Prop := exists k : Z, Rabs (a - b - 2 * PI * IZR k) <= eps.
