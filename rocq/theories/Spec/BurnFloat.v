(** How accurate the C library's exponentials are taken to be, and the burns
    considered. *)
From Coq Require Import Reals.
From Verif.Model Require Import Linalg ElementsFloat.
From Verif.Spec Require Import Geometry.
Local Open Scope R_scope.

(** powers of numbers between 2 and 3 have relative error at most 2.3e-16 *)
Definition accurate_exponential (L : libm) : Prop :=
  forall b x, 2 <= b <= 3 -> -11 <= x <= 0 -> Rabs (powf L b x - Rpower b x) <= 2.3e-16 * Rpower b x.

(** Flow of a milligram to a thousand tonnes per second, a gram to a million
    tonnes of mass, specific impulse from one to a million seconds, and a burn
    from a micrometre per second to ten exhaust speeds. *)
Definition burnable (d : vec3) (md m isp : R) : Prop :=
  1e-6 <= md <= 1e6 /\ 1e-3 <= m <= 1e9 /\ 1 <= isp <= 1e6 /\ 1e-9 <= norm d <= 10 * (isp * 0.00981).
