(** Clohessy-Wiltshire motion: x radial, y along track, z cross track. *)
From Coq Require Import Reals List.
From Coquelicot Require Import Coquelicot.
From Verif.Model Require Import Num Linalg Relative.
Local Open Scope R_scope.

(** A trajectory of six coordinates obeys the linearised equations of relative
    motion about a circular orbit of rate [n]. *)
Definition clohessy_wiltshire (n : R) (c : R -> vec6) : Prop := forall t,
  is_derive (fun t => x6 (c t)) t (vx6 (c t)) /\
  is_derive (fun t => y6 (c t)) t (vy6 (c t)) /\
  is_derive (fun t => z6 (c t)) t (vz6 (c t)) /\
  is_derive (fun t => vx6 (c t)) t (3 * n ^ 2 * x6 (c t) + 2 * n * vy6 (c t)) /\
  is_derive (fun t => vy6 (c t)) t (- 2 * n * vx6 (c t)) /\
  is_derive (fun t => vz6 (c t)) t (- n ^ 2 * z6 (c t)).

(** Sum of a list of durations. *)
Definition elapsed (l : list R) : R := fold_right Rplus 0 l.

(** A history: one call of step_by_seconds for each duration of the list. *)
Fixpoint hill_steps (l : list R) (h : hill) : res hill :=
  match l with
  | nil => Ok h
  | cons t l => let* h := hill_step_by_seconds h t in hill_steps l h
  end.

(** [n] calls of step. *)
Fixpoint hill_ticks (n : nat) (h : hill) : res hill :=
  match n with
  | O => Ok h
  | S n => let* h := hill_step h in hill_ticks n h
  end.
