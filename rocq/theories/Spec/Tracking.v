(** How far a filter's estimate is from the truth, and histories that mix
    observations with look-ahead. *)
From Coq Require Import Reals List.
From Verif.Model Require Import Num Linalg Time States Relative Obs Filtering.
From Verif.Spec Require Import Geometry Covariance Hill.
Local Open Scope R_scope.

(** The difference of [x] and [y] along every direction [w] is at most [sqrt c]
    standard deviations of the covariance [p]. *)
Definition within (c : R) (p : mat66) (x y : vec6) : Prop :=
  forall w, (sum 6 (fun i => w i * (ent6v x i - ent6v y i))) ^ 2 <= c * quad 6 (ent66 p) w.

(** The observation [ob] can be processed, and each coordinate of the relative
    position seen in it differs from that of the trajectory [c] (counted from
    the epoch [e]) by at most [s] times the error the filter assumes for that
    coordinate. *)
Definition sighted (s : R) (e : epoch) (c : R -> vec6) (ob : space_obs) : Prop :=
  let o := so_observer_state ob in
  observable ob /\ exists hz he,
    gcrf_to_hcw o (GCRF (so_epoch ob) (seen ob) (g_velocity o)) = Ok hz /\
    gcrf_to_hcw o (GCRF (so_epoch ob) (displaced ob) (g_velocity o)) = Ok he /\
    forall j, (j < 3)%nat ->
      Rabs (ent3v (s_position hz) j - ent6v (c (seconds_between e (so_epoch ob))) j) <= s * Rabs (ent3v (s_position he) j).

(** What a user can do with a filter: process an observation, or step the
    filter's own propagator to see where the target will be. *)
Inductive use := Observed (ob : space_obs) | Looked (seconds : R).
Definition used (k : kalman) (u : use) : kalman :=
  match u with
  | Observed ob => fst (kalman_process k ob)
  | Looked t =>
      match hill_step_by_seconds (k_propagator k) t with
      | Ok h => mkKalman (k_epoch k) h (k_x00 k) (k_x10 k) (k_p00 k) (k_p10 k) (k_q k) (k_f k)
                  (k_k k) (k_z k) (k_range_error k) (k_angular_error k) (k_r k)
      | Err _ => k
      end
  end.
Definition used_all (l : list use) (k : kalman) : kalman := fold_left used l k.
Fixpoint observations (l : list use) : list space_obs :=
  match l with nil => nil | Observed ob :: l => ob :: observations l | Looked _ :: l => observations l end.
