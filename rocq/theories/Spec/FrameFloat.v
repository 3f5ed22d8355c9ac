From Coq Require Import Reals.
From Verif.Model Require Import Num Linalg Time States ElementsFloat.
From Verif.Spec Require Import Geometry LibmAccuracy.
Local Open Scope R_scope.

(** The C library's functions are accurate to about one unit in the last place
    of a number near one; [atan2] in the half plane [0 < x]. *)
Definition accurate_angles (L : libm) : Prop := accurate_trig L /\
  (forall x, Rabs x <= 1 -> Rabs (asinf L x - asin x) <= 2.3e-16) /\
  (forall y x, 0 < x -> Rabs (atan2f L y x - atan2 y x) <= 2.3e-16).

(** A state with sizes and speeds that occur, and whose velocity is at least
    six degrees off the line to the centre. *)
Definition ordinary_origin (o : gcrf) : Prop :=
  1 <= norm (g_position o) <= 1e9 /\ 1e-6 <= norm (g_velocity o) <= 1e6 /\
  0.1 * (norm (g_position o) * norm (g_velocity o)) <= norm (cross (g_position o) (g_velocity o)).

(** A second state, seen from the centre within sixty degrees of the first. *)
Definition same_side (o s : gcrf) : Prop :=
  1 <= norm (g_position s) <= 1e9 /\ 1e-6 <= norm (g_velocity s) <= 1e6 /\
  0.5 * (norm (g_position o) * norm (g_position s)) <= dot (g_position o) (g_position s).

(** Each component within [d]. *)
Definition within3 (d : R) (u v : vec3) : Prop :=
  Rabs (x3 u - x3 v) <= d /\ Rabs (y3 u - y3 v) <= d /\ Rabs (z3 u - z3 v) <= d.

(** Two relative states agree to rounding; [o] and [s] give the sizes. *)
Definition to_hcw_close (o s : gcrf) (h' h : state) : Prop :=
  let R := norm (g_position o) in let P := norm (g_position s) in let V := norm (g_velocity o) in let W := norm (g_velocity s) in
  s_epoch h' = s_epoch h /\
  Rabs (x3 (s_position h') - x3 (s_position h)) <= 5e-16 * (R + P) /\
  Rabs (y3 (s_position h') - y3 (s_position h)) <= 3e-14 * R /\
  Rabs (z3 (s_position h') - z3 (s_position h)) <= 3e-14 * R /\
  Rabs (x3 (s_velocity h') - x3 (s_velocity h)) <= 2e-13 * (V + W) /\
  Rabs (y3 (s_velocity h') - y3 (s_velocity h)) <= 4e-13 * (V + W * (R / P)) /\
  Rabs (z3 (s_velocity h') - z3 (s_velocity h)) <= 2e-13 * (W * (R / P)).

(** A relative position no farther below or above the origin's than that is
    from the centre, and at most about 115 degrees away in the other two
    directions; a relative velocity with no component above [k]. *)
Definition around (k : R) (v : vec3) : Prop := Rabs (x3 v) <= k /\ Rabs (y3 v) <= 2 * k /\ Rabs (z3 v) <= 2 * k.
Definition inside (k : R) (v : vec3) : Prop := Rabs (x3 v) <= k /\ Rabs (y3 v) <= k /\ Rabs (z3 v) <= k.

(** Two inertial states agree to rounding. *)
Definition back_close (o : gcrf) (U : R) (g' g : gcrf) : Prop :=
  let R := norm (g_position o) in let V := norm (g_velocity o) in
  g_epoch g' = g_epoch g /\ within3 (7e-14 * R) (g_position g') (g_position g) /\ within3 (2e-13 * (U + V)) (g_velocity g') (g_velocity g).
