(** Textbook vector and matrix notions, written independently of the model's
    functions.  Only the data types [vec3], [mat3], ... are shared. *)
From Coq Require Import Reals.
From Verif.Model Require Import Linalg.
Local Open Scope R_scope.

Definition zero3 : vec3 := V3 0 0 0.
Definition add (a b : vec3) : vec3 := V3 (x3 a + x3 b) (y3 a + y3 b) (z3 a + z3 b).
Definition sub (a b : vec3) : vec3 := V3 (x3 a - x3 b) (y3 a - y3 b) (z3 a - z3 b).
Definition scale (k : R) (a : vec3) : vec3 := V3 (k * x3 a) (k * y3 a) (k * z3 a).
Definition dot (a b : vec3) : R := x3 a * x3 b + y3 a * y3 b + z3 a * z3 b.
Definition cross (a b : vec3) : vec3 :=
  V3 (y3 a * z3 b - z3 a * y3 b)
     (z3 a * x3 b - x3 a * z3 b)
     (x3 a * y3 b - y3 a * x3 b).
(** Euclidean length. *)
Definition norm (a : vec3) : R := sqrt (dot a a).
(** Signed volume of the parallelepiped spanned by three vectors. *)
Definition triple (a b c : vec3) : R := dot a (cross b c).

(** Rodrigues' formula: [v] turned by the angle [t] about the unit vector [u]
    by the right-hand rule. *)
Definition rodrigues (u v : vec3) (t : R) : vec3 :=
  add (add (scale (cos t) v) (scale (sin t) (cross u v)))
      (scale (dot u v * (1 - cos t)) u).

(** Entries of vectors and matrices, rows and columns counted from 0. *)
Definition ent3v (v : vec3) (i : nat) : R :=
  match i with O => x3 v | 1%nat => y3 v | 2%nat => z3 v | _ => 0 end.
Definition ent6v (v : vec6) (i : nat) : R :=
  match i with
  | O => x6 v | 1%nat => y6 v | 2%nat => z6 v
  | 3%nat => vx6 v | 4%nat => vy6 v | 5%nat => vz6 v | _ => 0 end.
Definition ent33 (m : mat3) (i j : nat) : R :=
  match i with
  | O => ent3v (m3_row1 m) j | 1%nat => ent3v (m3_row2 m) j
  | 2%nat => ent3v (m3_row3 m) j | _ => 0 end.
Definition ent36 (m : mat36) (i j : nat) : R :=
  match i with
  | O => ent6v (m36_row1 m) j | 1%nat => ent6v (m36_row2 m) j
  | 2%nat => ent6v (m36_row3 m) j | _ => 0 end.
Definition ent63 (m : mat63) (i j : nat) : R :=
  match i with
  | O => ent3v (m63_row1 m) j | 1%nat => ent3v (m63_row2 m) j
  | 2%nat => ent3v (m63_row3 m) j | 3%nat => ent3v (m63_row4 m) j
  | 4%nat => ent3v (m63_row5 m) j | 5%nat => ent3v (m63_row6 m) j | _ => 0 end.
Definition ent66 (m : mat66) (i j : nat) : R :=
  match i with
  | O => ent6v (m66_row1 m) j | 1%nat => ent6v (m66_row2 m) j
  | 2%nat => ent6v (m66_row3 m) j | 3%nat => ent6v (m66_row4 m) j
  | 4%nat => ent6v (m66_row5 m) j | 5%nat => ent6v (m66_row6 m) j | _ => 0 end.

(** [sum n f = f 0 + ... + f (n-1)] *)
Fixpoint sum (n : nat) (f : nat -> R) : R :=
  match n with O => 0 | S n => sum n f + f n end.

Definition delta (i j : nat) : R := if Nat.eqb i j then 1 else 0.

(** A matrix maps a vector to the combination of its rows. *)
Definition apply3 (m : mat3) (v : vec3) : vec3 :=
  V3 (dot (m3_row1 m) v) (dot (m3_row2 m) v) (dot (m3_row3 m) v).
Definition det3 (m : mat3) : R := triple (m3_row1 m) (m3_row2 m) (m3_row3 m).
Definition transposed (m : mat3) : mat3 :=
  M3 (V3 (x3 (m3_row1 m)) (x3 (m3_row2 m)) (x3 (m3_row3 m)))
     (V3 (y3 (m3_row1 m)) (y3 (m3_row2 m)) (y3 (m3_row3 m)))
     (V3 (z3 (m3_row1 m)) (z3 (m3_row2 m)) (z3 (m3_row3 m))).

(** A proper rotation matrix: orthonormal rows, determinant 1. *)
Definition is_rotation (m : mat3) : Prop :=
  dot (m3_row1 m) (m3_row1 m) = 1 /\ dot (m3_row2 m) (m3_row2 m) = 1 /\
  dot (m3_row3 m) (m3_row3 m) = 1 /\
  dot (m3_row1 m) (m3_row2 m) = 0 /\ dot (m3_row1 m) (m3_row3 m) = 0 /\
  dot (m3_row2 m) (m3_row3 m) = 0 /\ det3 m = 1.
