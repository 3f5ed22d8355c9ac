(** Model of src/openspace/planning/maneuvers.py. *)
From Verif.Model Require Import Num Constants Linalg Functions Time Celestial.
Local Open Scope R_scope.

(** maneuvers.py:13-22 *)
Definition circular_velocity (r : num) : res num :=
  let* q := pdiv Earth_MU r in
  psqrt q.

(** maneuvers.py:24-35 *)
Definition eccentric_velocity (r a : num) : res num :=
  let* q1 := pdiv 2 r in
  let* q2 := pdiv 1 a in
  psqrt (Earth_MU * (q1 - q2)).

(** maneuvers.py:38-64 class Hohmann *)
Record hohmann := mkHohmann {
  initial_velocity : num; transfer_velocity_1 : num; transfer_velocity_2 : num;
  final_velocity : num; delta_v_1 : num; delta_v_2 : num }.

(** maneuvers.py:39-64 Hohmann.__init__ *)
Definition Hohmann (r1 r2 : num) : res hohmann :=
  let sma := (r1 + r2) / 2 in
  let* iv := circular_velocity r1 in
  let* t1 := eccentric_velocity r1 sma in
  let* t2 := eccentric_velocity r2 sma in
  let* fv := circular_velocity r2 in
  Ok (mkHohmann iv t1 t2 fv (t1 - iv) (fv - t2)).
