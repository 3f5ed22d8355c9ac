(** Associated Legendre functions by Rodrigues' formula, without the
    Condon-Shortley phase.  Polynomials are lists of coefficients, constant
    term first. *)
From Coq Require Import Reals List.
Import ListNotations.
Local Open Scope R_scope.

Definition poly := list R.
Fixpoint peval (p : poly) (x : R) : R :=
  match p with [] => 0 | a :: p => a + x * peval p x end.
Fixpoint padd (p q : poly) : poly :=
  match p, q with
  | [], _ => q
  | _, [] => p
  | a :: p, b :: q => (a + b) :: padd p q
  end.
Definition pscale (k : R) (p : poly) : poly := map (Rmult k) p.
Fixpoint pmul (p q : poly) : poly :=
  match p with [] => [] | a :: p => padd (pscale a q) (0 :: pmul p q) end.
Fixpoint ppower (p : poly) (n : nat) : poly :=
  match n with O => [1] | S n => pmul p (ppower p n) end.
(** the derivative of [a0 + a1 x + a2 x^2 + ...] is [1 a1 + 2 a2 x + ...] *)
Fixpoint pderiv_from (k : nat) (p : poly) : poly :=
  match p with [] => [] | a :: p => (INR k * a) :: pderiv_from (S k) p end.
Definition pderiv (p : poly) : poly := pderiv_from 1 (tl p).
Fixpoint iter_deriv (n : nat) (p : poly) : poly :=
  match n with O => p | S n => pderiv (iter_deriv n p) end.

(** P_nm(x) = (1 - x^2)^(m/2) / (2^n n!) d^(n+m)/dx^(n+m) (x^2 - 1)^n *)
Definition legendre (n m : nat) (x : R) : R :=
  sqrt (1 - x * x) ^ m * (/ (2 ^ n * INR (fact n)) *
    peval (iter_deriv (n + m) (ppower [-1; 0; 1] n)) x).
