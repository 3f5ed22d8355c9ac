(** Angles between vectors as the floats compute them. *)
From Coq Require Import Reals.
From Verif.Model Require Import Num Linalg TimeFloat ElementsFloat.
Local Open Scope R_scope.

(** linalg.py:265-278, with [acosf] for [math.acos]; exponents are unbounded
    above, so overflow is not modelled *)
Definition v3_angle_b64 (acosf : R -> R) (a b : vec3) : res R :=
  let* arg := pdiv_b64 (v3_dot_b64 a b) (b64 (v3_magnitude_b64 a * v3_magnitude_b64 b)) in
  let arg := if nlt 1 arg then 1 else if nlt arg (-1) then -1 else arg in
  if orb (nlt arg (-1)) (nlt 1 arg) then Err ValueError else Ok (acosf arg).
