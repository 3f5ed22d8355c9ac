(** Numbers, exceptions and partial operations used by the model.

    Python floats are idealised to real numbers; what CPython's [math] module
    and operators raise is modelled by the [res] monad. *)
From Coq Require Export Reals List ZArith.
Export ListNotations.
Local Open Scope R_scope.

Notation num := R (only parsing).

(** Outcomes other than a normal return.
    [ComplexResult]: a negative float to a fractional power (CPython returns a
    complex number, every later use in this code base raises TypeError).
    [OutOfFuel]: the loop/recursion did not finish within the given fuel. *)
Inductive exn :=
| ZeroDivisionError
| ValueError
| AttributeError
| ComplexResult
| OutOfFuel.

Inductive res (A : Type) :=
| Ok (a : A)
| Err (e : exn).
Arguments Ok {A} a.
Arguments Err {A} e.

Definition bind {A B} (m : res A) (k : A -> res B) : res B :=
  match m with Ok a => k a | Err e => Err e end.

Notation "'let*' x ':=' m 'in' k" := (bind m (fun x => k))
  (at level 200, x pattern, m at level 100, k at level 200, right associativity).

(** Comparison operators of Python on floats. *)
Definition nlt (x y : num) : bool := if Rlt_dec x y then true else false.
Definition nle (x y : num) : bool := if Rle_dec x y then true else false.
Definition neq (x y : num) : bool := if Req_EM_T x y then true else false.

Definition nabs (x : num) : num := Rabs x.
Definition nneg (x : num) : num := - x.

(** [x / y] *)
Definition pdiv (x y : num) : res num :=
  if neq y 0 then Err ZeroDivisionError else Ok (x / y).

(** [math.sqrt(x)] *)
Definition psqrt (x : num) : res num :=
  if nlt x 0 then Err ValueError else Ok (sqrt x).

(** [math.asin(x)], [math.acos(x)] *)
Definition pasin (x : num) : res num :=
  if orb (nlt x (-1)) (nlt 1 x) then Err ValueError else Ok (asin x).
Definition pacos (x : num) : res num :=
  if orb (nlt x (-1)) (nlt 1 x) then Err ValueError else Ok (acos x).

(** [math.log(x)], [math.log10(x)] *)
Definition plog (x : num) : res num :=
  if nle x 0 then Err ValueError else Ok (ln x).
Definition plog10 (x : num) : res num :=
  if nle x 0 then Err ValueError else Ok (ln x / ln 10).

(** [x ** y] for a non-integer constant exponent [y]. *)
Definition ppow (x y : num) : res num :=
  if nlt 0 x then Ok (Rpower x y)
  else if neq x 0 then (if nlt y 0 then Err ZeroDivisionError else Ok 0)
  else Err ComplexResult.

(** [math.atan2(y, x)] (with [atan2(0, 0) = 0]; signed zeros not modelled). *)
Definition atan2 (y x : num) : num :=
  if nlt 0 x then atan (y / x)
  else if nlt x 0 then
    (if nle 0 y then atan (y / x) + PI else atan (y / x) - PI)
  else if nlt 0 y then PI / 2
  else if nlt y 0 then - (PI / 2)
  else 0.

(** [math.floor], [math.ceil] and the [%] operator with a non-zero constant
    modulus. *)
Definition nfloor (x : num) : Z := Int_part x.
Definition nceil (x : num) : Z := (- Int_part (- x))%Z.
Definition of_Z (z : Z) : num := IZR z.
Definition nmod (x y : num) : num := x - y * IZR (Int_part (x / y)).

(** [x ** n] for a non-negative integer [n]; integer loop counters used as
    floats; [math.radians(x)]; [math.e ** x]; [math.e]. *)
Definition npow (x : num) (n : nat) : num := x ^ n.
Definition of_nat (n : nat) : num := INR n.
Definition radians (x : num) : num := x * (PI / 180).
Definition nexp (x : num) : num := exp x.
