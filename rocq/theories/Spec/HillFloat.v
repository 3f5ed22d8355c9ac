(** Size of a relative state and histories of rounded Hill steps. *)
From Coq Require Import Reals List.
From Verif.Model Require Import Num Linalg Relative ElementsFloat RelativeFloat.
Local Open Scope R_scope.

(** Kilometres: the coordinates, and the velocities times the time [1 / n] in
    which the origin moves one radian along its orbit. *)
Definition hill_size (n : R) (v : vec6) : R :=
  Rabs (x6 v) + Rabs (y6 v) + Rabs (z6 v) + (Rabs (vx6 v) + Rabs (vy6 v) + Rabs (vz6 v)) / n.

(** Time covered by a list of steps, forwards and backwards steps alike. *)
Definition covered (l : list R) : R := fold_right (fun t a => Rabs t + a) 0 l.

(** A history: one rounded call of step_by_seconds for each duration of the list. *)
Fixpoint hill_steps_b64 (L : libm) (l : list R) (h : hill) : res hill :=
  match l with
  | nil => Ok h
  | cons t l => let* h := hill_step_by_seconds_b64 L h t in hill_steps_b64 L l h
  end.
