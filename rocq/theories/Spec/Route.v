(** Routes through time: a list of times in seconds after a starting epoch. *)
From Coq Require Import Reals List.
From Verif.Model Require Import Num Time.
From Verif.Spec Require Import Motion.
Local Open Scope R_scope.

(** Seconds travelled along a route, forwards and backwards legs alike. *)
Fixpoint route_length (from : R) (l : list R) : R :=
  match l with nil => 0 | cons t l => Rabs (t - from) + route_length t l end.

(** No leg is longer than [h] seconds. *)
Fixpoint legs_within (h from : R) (l : list R) : Prop :=
  match l with nil => True | cons t l => Rabs (t - from) <= h /\ legs_within h t l end.

(** [midnight_time e from l c]: of the legs along [l], seconds after the epoch [e],
    those during which no UTC midnight passes are free, and the others are [c]
    seconds long in all.  (Counting a leg that need not be counted is allowed.) *)
Inductive midnight_time (e : epoch) : R -> list R -> R -> Prop :=
| mt_none t : midnight_time e t nil 0
| mt_same t u l c : one_utc_day (later e t) (u - t) -> midnight_time e u l c -> midnight_time e t (u :: l) c
| mt_over t u l c : midnight_time e u l c -> midnight_time e t (u :: l) (Rabs (u - t) + c).
