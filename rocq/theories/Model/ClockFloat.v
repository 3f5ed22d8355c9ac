(** Model of the epoch arithmetic of src/openspace/propagators/inertial.py and
    of the epoch comparison in src/openspace/bodies/artificial.py, with the
    rounding of every floating-point operation as a parameter [rnd].  With
    [rnd := b64] it is what Python computes; with the identity it is the epoch of
    Inertial.v.  Positions and velocities never influence the epoch, so they are
    left out here. *)
From Coq Require Import Reals ZArith List.
From Verif.Model Require Import Num Constants Inertial TimeFloat.
Local Open Scope R_scope.

(** inertial.py:41-43, 50-52, 61, 70-71 together with time.py:85-93: the epoch
    value that [step] leaves behind *)
Definition clock_step (rnd : R -> R) (h v : R) : R :=
  let dsecs := rnd (h / 2) in
  let ddays := rnd (dsecs / SECONDS_IN_DAY) in
  let epoch_1 := rnd (v + ddays) in
  rnd (epoch_1 + ddays).

(** inertial.py:121-124 *)
Fixpoint clock_steps (rnd : R -> R) (n : nat) (h v : R) : R :=
  match n with O => v | S n => clock_steps rnd n h (clock_step rnd h v) end.

(** inertial.py:107-124: the epoch value after [step_to_epoch] a state at [v] to [e];
    [ceil] and the conversion of [num_steps] to a float are exact, and the step
    size is not used when there is no step *)
Definition clock_to (rnd : R -> R) (e v : R) : R :=
  let dt := rnd (rnd (e - v) * SECONDS_IN_DAY) in
  let num_steps := nceil (nabs (rnd (dt / MAX_STEP))) in
  clock_steps rnd (Z.to_nat num_steps) (rnd (dt / of_Z num_steps)) v.

(** artificial.py:259-263 and 419-426 for spacecraft in target mode: the clocks
    after [update_attitude] of spacecraft [i].  [target i] is the tracked
    spacecraft of [i] ([None] in the other modes); the nested call is that of the
    target's own [step_to_epoch].  [None] means that the recursion is not over
    after [fuel] nested calls. *)
Fixpoint sync_clocks (rnd : R -> R) (target : nat -> option nat) (fuel : nat)
    (i : nat) (c : nat -> R) : option (nat -> R) :=
  match fuel with
  | O => None
  | S fuel =>
      match target i with
      | None => Some c
      | Some j =>
          if Req_EM_T (c j) (c i) then Some c
          else sync_clocks rnd target fuel j
                 (fun k => if Nat.eqb k j then clock_to rnd (c i) (c j) else c k)
      end
  end.
