(** Observations that place their target exactly. *)
From Verif.Model Require Import Num Linalg Time Positions Obs Iod Artificial.
From Verif.Spec Require Import Operations.

(** The observation is dated with the target's epoch and its inertial position
    is the target's true position in that frame at that epoch. *)
Definition exact_observation (ob : observation) (t : craft) : Prop :=
  observation_epoch ob = current_epoch t /\
  exists q, observation_ijk ob = Ok q /\ gcrf_to_ijk (place_of t) (current_epoch t) = Ok q.
