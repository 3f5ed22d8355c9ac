(** Covariance matrices and histories of the relative Kalman filter. *)
From Coq Require Import Reals List.
From Verif.Model Require Import Num Linalg Time States Relative Obs Filtering.
From Verif.Spec Require Import Geometry.
Local Open Scope R_scope.

(** The quadratic form of the n by n matrix [m] at [v]. *)
Definition quad (n : nat) (m : nat -> nat -> R) (v : nat -> R) : R :=
  sum n (fun i => sum n (fun j => v i * m i j * v j)).

Definition symmetric (n : nat) (m : nat -> nat -> R) : Prop :=
  forall i j, (i < n)%nat -> (j < n)%nat -> m i j = m j i.
Definition semidefinite (n : nat) (m : nat -> nat -> R) : Prop := forall v, 0 <= quad n m v.
Definition definite (n : nat) (m : nat -> nat -> R) : Prop :=
  forall v, (exists i, (i < n)%nat /\ v i <> 0) -> 0 < quad n m v.

(** A history: one call of process() for each observation, whatever its
    outcome. *)
Definition observe_all (l : list space_obs) (k : kalman) : kalman :=
  fold_left (fun k ob => fst (kalman_process k ob)) l k.

(** Covariance of the innovation: the filter observes the first three of the
    six coordinates, [p] is the covariance of the prediction and [r] that of
    the measurement. *)
Definition innovation (p : mat66) (r : mat3) (i j : nat) : R := ent66 p i j + ent33 r i j.

(** The error of the estimate obtained with the gain [g] is
    (I - g H) (error of the prediction) + g (error of the measurement); this is
    its variance along [v]. *)
Definition variance (p : mat66) (r : mat3) (g : mat63) (v : nat -> R) : R :=
  quad 6 (ent66 p) (fun i => v i - (if Nat.ltb i 3 then sum 6 (fun k => ent63 g k i * v k) else 0)) +
  quad 3 (ent33 r) (fun j => sum 6 (fun k => ent63 g k j * v k)).

(** The point an observation sees, and the offset by which its errors displace
    that point, both from the Earth's centre: the filter evaluates its
    measurement noise at the second. *)
Definition seen (ob : space_obs) : vec3 := add (g_position (so_observer_state ob)) (so_observed_direction ob).
Definition displaced (ob : space_obs) : vec3 :=
  let rho := so_range ob + so_range_error ob in
  let ra := so_right_ascension ob + so_angular_error ob in
  let dec := so_declination ob + so_angular_error ob in
  add (g_position (so_observer_state ob))
      (sub (V3 (rho * (cos dec * cos ra)) (rho * (cos dec * sin ra)) (rho * sin dec)) (so_observed_direction ob)).

(** The observer's angular momentum, and the condition that a point lies off
    the axis along it through the Earth's centre. *)
Definition momentum (ob : space_obs) : vec3 :=
  cross (g_position (so_observer_state ob)) (g_velocity (so_observer_state ob)).
Definition off_axis (ob : space_obs) (p : vec3) : Prop := cross p (momentum ob) <> zero3.

(** Seconds from the epoch [a] to the epoch [b]. *)
Definition seconds_between (a b : epoch) : R := (value b - value a) * 86400.

(** The observer does not move radially and neither point lies on the axis. *)
Definition observable (ob : space_obs) : Prop :=
  momentum ob <> zero3 /\ off_axis ob (seen ob) /\ off_axis ob (displaced ob).
