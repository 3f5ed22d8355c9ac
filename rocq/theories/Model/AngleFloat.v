(** Angle reductions with IEEE-754 binary64 rounding. *)
From Coq Require Import Reals ZArith.
From Flocq Require Import Core.
From Verif.Model Require Import Num TimeFloat.
Local Open Scope R_scope.

(** [math.pi], the binary64 number 0x1.921fb54442d18p+1 *)
Definition math_pi : R := 884279719003555 / 281474976710656.

(** functions.py:440-442 (the same three lines at 737-739, 761-763, 790-792,
    819-821, 848-850, 877-879 and in positions.py:39-41, 261-263):
    [if x < 0: x += 2 * pi]; the product [2 * pi] is exact *)
Definition wrap_b64 (x : R) : R := if nlt x 0 then b64 (x + 2 * math_pi) else x.

(** functions.py:818-822 ArgumentOfPerigee.from_u_nu with both operations rounded *)
Definition W_from_u_nu_b64 (u nu : R) : R := wrap_b64 (b64 (u - nu)).

(** Python's [x % y] on floats for [y > 0] (time.py:103, 113): the C function
    [fmod], which is exact and has the sign of [x], corrected by one rounded
    addition when that is negative *)
Definition fmod (x y : R) : R := x - y * IZR (Ztrunc (x / y)).
Definition pymod_b64 (x y : R) : R :=
  let m := fmod x y in if nlt m 0 then b64 (m + y) else m.
