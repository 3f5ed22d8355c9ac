(** Model of src/openspace/math/linalg.py. *)
From Verif.Model Require Import Num.
Local Open Scope R_scope.

(** linalg.py:121-139 class Vector3D *)
Record vec3 := V3 { x3 : num; y3 : num; z3 : num }.

(** linalg.py:5-38 class Vector6D *)
Record vec6 := V6 { x6 : num; y6 : num; z6 : num; vx6 : num; vy6 : num; vz6 : num }.

(** ** Vector6D *)

(** linalg.py:40-51 *)
Definition v6_from_position_and_velocity (r v : vec3) : vec6 :=
  V6 (x3 r) (y3 r) (z3 r) (x3 v) (y3 v) (z3 v).

(** linalg.py:61-76 *)
Definition v6_dot (a b : vec6) : num :=
  x6 a * x6 b + y6 a * y6 b + z6 a * z6 b
  + vx6 a * vx6 b + vy6 a * vy6 b + vz6 a * vz6 b.

(** linalg.py:78-84 *)
Definition v6_copy (a : vec6) : vec6 := V6 (x6 a) (y6 a) (z6 a) (vx6 a) (vy6 a) (vz6 a).

(** linalg.py:86-101 *)
Definition v6_plus (a b : vec6) : vec6 :=
  V6 (x6 a + x6 b) (y6 a + y6 b) (z6 a + z6 b)
     (vx6 a + vx6 b) (vy6 a + vy6 b) (vz6 a + vz6 b).

(** linalg.py:103-118 *)
Definition v6_minus (a b : vec6) : vec6 :=
  V6 (x6 a - x6 b) (y6 a - y6 b) (z6 a - z6 b)
     (vx6 a - vx6 b) (vy6 a - vy6 b) (vz6 a - vz6 b).

(** ** Vector3D (without rotations, which need Matrix3D) *)

(** linalg.py:183-189 *)
Definition v3_copy (a : vec3) : vec3 := V3 (x3 a) (y3 a) (z3 a).

(** linalg.py:191-199 *)
Definition v3_plus (a b : vec3) : vec3 := V3 (x3 a + x3 b) (y3 a + y3 b) (z3 a + z3 b).

(** linalg.py:201-213 *)
Definition v3_minus (a b : vec3) : vec3 := V3 (x3 a - x3 b) (y3 a - y3 b) (z3 a - z3 b).

(** linalg.py:215-223 *)
Definition v3_dot (a b : vec3) : num := x3 a * x3 b + y3 a * y3 b + z3 a * z3 b.

(** linalg.py:225-237 *)
Definition v3_cross (a b : vec3) : vec3 :=
  V3 (y3 a * z3 b - z3 a * y3 b)
     (z3 a * x3 b - x3 a * z3 b)
     (x3 a * y3 b - y3 a * x3 b).

(** linalg.py:239-245; the argument of [math.sqrt] is a sum of squares, so the
    ValueError branch is left out. *)
Definition v3_magnitude (a : vec3) : num :=
  sqrt (x3 a * x3 a + y3 a * y3 a + z3 a * z3 a).

(** linalg.py:247-255 *)
Definition v3_scaled (a : vec3) (s : num) : vec3 := V3 (x3 a * s) (y3 a * s) (z3 a * s).

(** linalg.py:257-263 *)
Definition v3_normalized (a : vec3) : res vec3 :=
  let* k := pdiv 1 (v3_magnitude a) in
  Ok (v3_scaled a k).

(** linalg.py:265-278 *)
Definition v3_angle (a b : vec3) : res num :=
  let* arg := pdiv (v3_dot a b) (v3_magnitude a * v3_magnitude b) in
  let arg := if nlt 1 arg then 1 else if nlt arg (-1) then -1 else arg in
  pacos arg.

(** ** Matrix3D *)

(** linalg.py:328-346 *)
Record mat3 := M3 { m3_row1 : vec3; m3_row2 : vec3; m3_row3 : vec3 }.

(** linalg.py:348-354 *)
Definition m3_diagonal (m : mat3) : vec3 := V3 (x3 (m3_row1 m)) (y3 (m3_row2 m)) (z3 (m3_row3 m)).

(** linalg.py:356-378 *)
Definition m3_column_1 (m : mat3) : vec3 := V3 (x3 (m3_row1 m)) (x3 (m3_row2 m)) (x3 (m3_row3 m)).
Definition m3_column_2 (m : mat3) : vec3 := V3 (y3 (m3_row1 m)) (y3 (m3_row2 m)) (y3 (m3_row3 m)).
Definition m3_column_3 (m : mat3) : vec3 := V3 (z3 (m3_row1 m)) (z3 (m3_row2 m)) (z3 (m3_row3 m)).

(** linalg.py:380-388 *)
Definition m3_multiply_vector (m : mat3) (v : vec3) : vec3 :=
  V3 (v3_dot (m3_row1 m) v) (v3_dot (m3_row2 m) v) (v3_dot (m3_row3 m) v).

(** linalg.py:390-398 *)
Definition m3_scaled (m : mat3) (s : num) : mat3 :=
  M3 (v3_scaled (m3_row1 m) s) (v3_scaled (m3_row2 m) s) (v3_scaled (m3_row3 m) s).

(** linalg.py:400-410 *)
Definition m3_transpose (m : mat3) : mat3 :=
  M3 (V3 (x3 (m3_row1 m)) (x3 (m3_row2 m)) (x3 (m3_row3 m)))
     (V3 (y3 (m3_row1 m)) (y3 (m3_row2 m)) (y3 (m3_row3 m)))
     (V3 (z3 (m3_row1 m)) (z3 (m3_row2 m)) (z3 (m3_row3 m))).

(** linalg.py:412-420 *)
Definition m3_plus (a b : mat3) : mat3 :=
  M3 (v3_plus (m3_row1 a) (m3_row1 b)) (v3_plus (m3_row2 a) (m3_row2 b))
     (v3_plus (m3_row3 a) (m3_row3 b)).

(** linalg.py:422-435 *)
Definition m3_determinant (m : mat3) : num :=
  let r1 := m3_row1 m in let r2 := m3_row2 m in let r3 := m3_row3 m in
  x3 r1 * y3 r2 * z3 r3
  + y3 r1 * z3 r2 * x3 r3
  + z3 r1 * x3 r2 * y3 r3
  - z3 r1 * y3 r2 * x3 r3
  - y3 r1 * x3 r2 * z3 r3
  - x3 r1 * z3 r2 * y3 r3.

(** linalg.py:437-459 *)
Definition m3_cofactor (m : mat3) : mat3 :=
  let r1 := m3_row1 m in let r2 := m3_row2 m in let r3 := m3_row3 m in
  M3 (V3 (y3 r2 * z3 r3 - z3 r2 * y3 r3)
         (- (x3 r2 * z3 r3 - x3 r3 * z3 r2))
         (x3 r2 * y3 r3 - x3 r3 * y3 r2))
     (V3 (- (y3 r1 * z3 r3 - y3 r3 * z3 r1))
         (x3 r1 * z3 r3 - z3 r1 * x3 r3)
         (- (x3 r1 * y3 r3 - y3 r1 * x3 r3)))
     (V3 (y3 r1 * z3 r2 - z3 r1 * y3 r2)
         (- (x3 r1 * z3 r2 - x3 r2 * z3 r1))
         (x3 r1 * y3 r2 - y3 r1 * x3 r2)).

(** linalg.py:461-467 *)
Definition m3_adjugate (m : mat3) : mat3 := m3_transpose (m3_cofactor m).

(** linalg.py:469-475 *)
Definition m3_inverse (m : mat3) : res mat3 :=
  let* k := pdiv 1 (m3_determinant m) in
  Ok (m3_scaled (m3_adjugate m) k).

(** ** Rotations of Vector3D *)

(** linalg.py:280-313 *)
Definition v3_rotation_matrix (axis : vec3) (theta : num) : res mat3 :=
  let* unit_ax := v3_normalized axis in
  let ux := x3 unit_ax in
  let uy := y3 unit_ax in
  let uz := z3 unit_ax in
  let c := cos theta in
  let s := sin theta in
  let cdiff := 1 - c in
  let x1 := c + ux * ux * cdiff in
  let y1 := ux * uy * cdiff - uz * s in
  let z1 := ux * uz * cdiff + uy * s in
  let x2 := uy * ux * cdiff + uz * s in
  let y2 := c + uy * uy * cdiff in
  let z2 := uy * uz * cdiff - ux * s in
  let x3 := uz * ux * cdiff - uy * s in
  let y3 := uz * uy * cdiff + ux * s in
  let z3 := c + uz * uz * cdiff in
  Ok (M3 (V3 x1 y1 z1) (V3 x2 y2 z2) (V3 x3 y3 z3)).

(** linalg.py:315-325 *)
Definition v3_rotation_about_axis (v axis : vec3) (theta : num) : res vec3 :=
  let* m := v3_rotation_matrix axis theta in
  Ok (m3_multiply_vector m (v3_copy v)).

(** [random.gauss(mu, sigma)] where [z] is the standard normal draw:
    CPython computes [mu + z * sigma]. *)
Definition gauss (z mu sigma : num) : num := mu + z * sigma.

(** [random.uniform(a, b)] where [u] is the draw of [random()]:
    CPython computes [a + (b - a) * u]. *)
Definition uniform (u a b : num) : num := a + (b - a) * u.

(** linalg.py:153-161; [z] is the gaussian draw *)
Definition v3_with_magnitude_noise (z : num) (v : vec3) (range_err : num) : res vec3 :=
  let* n := v3_normalized v in
  Ok (v3_scaled n (gauss z (v3_magnitude v) range_err)).

(** linalg.py:163-173; [z] is the gaussian draw, [u] the uniform one *)
Definition v3_with_angular_noise (z u : num) (v : vec3) (ang_err : num) : res vec3 :=
  let* w := v3_rotation_about_axis v (v3_cross v (V3 0 0 1)) (gauss z 0 ang_err) in
  v3_rotation_about_axis w v (uniform u 0 (2 * PI)).

(** linalg.py:141-151; [z1] the draw for the magnitude, [z2], [u] for the angle *)
Definition v3_with_noise (z1 z2 u : num) (v : vec3) (range_err ang_err : num) : res vec3 :=
  let* w := v3_with_magnitude_noise z1 v range_err in
  v3_with_angular_noise z2 u w ang_err.

(** ** The 3x6, 6x3 and 6x6 shapes *)

(** linalg.py:513-526 *)
Record mat36 := M36 { m36_row1 : vec6; m36_row2 : vec6; m36_row3 : vec6 }.

(** linalg.py:628-669 *)
Record mat63 := M63 { m63_row1 : vec3; m63_row2 : vec3; m63_row3 : vec3;
                      m63_row4 : vec3; m63_row5 : vec3; m63_row6 : vec3 }.

(** linalg.py:821-862 *)
Record mat66 := M66 { m66_row1 : vec6; m66_row2 : vec6; m66_row3 : vec6;
                      m66_row4 : vec6; m66_row5 : vec6; m66_row6 : vec6 }.

(** linalg.py:528-574 column_1 .. column_6 *)
Definition m36_column_1 (m : mat36) : vec3 :=
  V3 (x6 (m36_row1 m)) (x6 (m36_row2 m)) (x6 (m36_row3 m)).
Definition m36_column_2 (m : mat36) : vec3 :=
  V3 (y6 (m36_row1 m)) (y6 (m36_row2 m)) (y6 (m36_row3 m)).
Definition m36_column_3 (m : mat36) : vec3 :=
  V3 (z6 (m36_row1 m)) (z6 (m36_row2 m)) (z6 (m36_row3 m)).
Definition m36_column_4 (m : mat36) : vec3 :=
  V3 (vx6 (m36_row1 m)) (vx6 (m36_row2 m)) (vx6 (m36_row3 m)).
Definition m36_column_5 (m : mat36) : vec3 :=
  V3 (vy6 (m36_row1 m)) (vy6 (m36_row2 m)) (vy6 (m36_row3 m)).
Definition m36_column_6 (m : mat36) : vec3 :=
  V3 (vz6 (m36_row1 m)) (vz6 (m36_row2 m)) (vz6 (m36_row3 m)).

(** linalg.py:576-584 *)
Definition m36_multiply_vector (m : mat36) (v : vec6) : vec3 :=
  V3 (v6_dot (m36_row1 m) v) (v6_dot (m36_row2 m) v) (v6_dot (m36_row3 m) v).

(** linalg.py:586-599 *)
Definition m36_transpose (m : mat36) : mat63 :=
  M63 (m36_column_1 m) (m36_column_2 m) (m36_column_3 m)
      (m36_column_4 m) (m36_column_5 m) (m36_column_6 m).

(** linalg.py:671-693 column_1 .. column_3 *)
Definition m63_column_1 (m : mat63) : vec6 :=
  V6 (x3 (m63_row1 m)) (x3 (m63_row2 m)) (x3 (m63_row3 m)) (x3 (m63_row4 m)) (x3 (m63_row5 m)) (x3 (m63_row6 m)).
Definition m63_column_2 (m : mat63) : vec6 :=
  V6 (y3 (m63_row1 m)) (y3 (m63_row2 m)) (y3 (m63_row3 m)) (y3 (m63_row4 m)) (y3 (m63_row5 m)) (y3 (m63_row6 m)).
Definition m63_column_3 (m : mat63) : vec6 :=
  V6 (z3 (m63_row1 m)) (z3 (m63_row2 m)) (z3 (m63_row3 m)) (z3 (m63_row4 m)) (z3 (m63_row5 m)) (z3 (m63_row6 m)).

(** linalg.py:601-625 *)
Definition m36_multiply_matrix_6by3 (a : mat36) (b : mat63) : mat3 :=
  M3
    (V3 (v6_dot (m36_row1 a) (m63_column_1 b))
        (v6_dot (m36_row1 a) (m63_column_2 b))
        (v6_dot (m36_row1 a) (m63_column_3 b)))
    (V3 (v6_dot (m36_row2 a) (m63_column_1 b))
        (v6_dot (m36_row2 a) (m63_column_2 b))
        (v6_dot (m36_row2 a) (m63_column_3 b)))
    (V3 (v6_dot (m36_row3 a) (m63_column_1 b))
        (v6_dot (m36_row3 a) (m63_column_2 b))
        (v6_dot (m36_row3 a) (m63_column_3 b))).

(** linalg.py:477-510 *)
Definition m3_multiply_matrix3by6 (a : mat3) (b : mat36) : mat36 :=
  M36
    (V6 (v3_dot (m3_row1 a) (m36_column_1 b))
        (v3_dot (m3_row1 a) (m36_column_2 b))
        (v3_dot (m3_row1 a) (m36_column_3 b))
        (v3_dot (m3_row1 a) (m36_column_4 b))
        (v3_dot (m3_row1 a) (m36_column_5 b))
        (v3_dot (m3_row1 a) (m36_column_6 b)))
    (V6 (v3_dot (m3_row2 a) (m36_column_1 b))
        (v3_dot (m3_row2 a) (m36_column_2 b))
        (v3_dot (m3_row2 a) (m36_column_3 b))
        (v3_dot (m3_row2 a) (m36_column_4 b))
        (v3_dot (m3_row2 a) (m36_column_5 b))
        (v3_dot (m3_row2 a) (m36_column_6 b)))
    (V6 (v3_dot (m3_row3 a) (m36_column_1 b))
        (v3_dot (m3_row3 a) (m36_column_2 b))
        (v3_dot (m3_row3 a) (m36_column_3 b))
        (v3_dot (m3_row3 a) (m36_column_4 b))
        (v3_dot (m3_row3 a) (m36_column_5 b))
        (v3_dot (m3_row3 a) (m36_column_6 b))).

(** linalg.py:695-701 *)
Definition m63_transpose (m : mat63) : mat36 :=
  M36 (m63_column_1 m) (m63_column_2 m) (m63_column_3 m).

(** linalg.py:703-742 *)
Definition m63_multiply (a : mat63) (b : mat3) : mat63 :=
  M63
    (V3 (v3_dot (m63_row1 a) (m3_column_1 b))
        (v3_dot (m63_row1 a) (m3_column_2 b))
        (v3_dot (m63_row1 a) (m3_column_3 b)))
    (V3 (v3_dot (m63_row2 a) (m3_column_1 b))
        (v3_dot (m63_row2 a) (m3_column_2 b))
        (v3_dot (m63_row2 a) (m3_column_3 b)))
    (V3 (v3_dot (m63_row3 a) (m3_column_1 b))
        (v3_dot (m63_row3 a) (m3_column_2 b))
        (v3_dot (m63_row3 a) (m3_column_3 b)))
    (V3 (v3_dot (m63_row4 a) (m3_column_1 b))
        (v3_dot (m63_row4 a) (m3_column_2 b))
        (v3_dot (m63_row4 a) (m3_column_3 b)))
    (V3 (v3_dot (m63_row5 a) (m3_column_1 b))
        (v3_dot (m63_row5 a) (m3_column_2 b))
        (v3_dot (m63_row5 a) (m3_column_3 b)))
    (V3 (v3_dot (m63_row6 a) (m3_column_1 b))
        (v3_dot (m63_row6 a) (m3_column_2 b))
        (v3_dot (m63_row6 a) (m3_column_3 b))).

(** linalg.py:744-759 *)
Definition m63_multiply_vector (m : mat63) (v : vec3) : vec6 :=
  V6 (v3_dot (m63_row1 m) v) (v3_dot (m63_row2 m) v) (v3_dot (m63_row3 m) v)
     (v3_dot (m63_row4 m) v) (v3_dot (m63_row5 m) v) (v3_dot (m63_row6 m) v).

(** linalg.py:761-818 *)
Definition m63_multiply_matrix3by6 (a : mat63) (b : mat36) : mat66 :=
  M66
    (V6 (v3_dot (m63_row1 a) (m36_column_1 b))
        (v3_dot (m63_row1 a) (m36_column_2 b))
        (v3_dot (m63_row1 a) (m36_column_3 b))
        (v3_dot (m63_row1 a) (m36_column_4 b))
        (v3_dot (m63_row1 a) (m36_column_5 b))
        (v3_dot (m63_row1 a) (m36_column_6 b)))
    (V6 (v3_dot (m63_row2 a) (m36_column_1 b))
        (v3_dot (m63_row2 a) (m36_column_2 b))
        (v3_dot (m63_row2 a) (m36_column_3 b))
        (v3_dot (m63_row2 a) (m36_column_4 b))
        (v3_dot (m63_row2 a) (m36_column_5 b))
        (v3_dot (m63_row2 a) (m36_column_6 b)))
    (V6 (v3_dot (m63_row3 a) (m36_column_1 b))
        (v3_dot (m63_row3 a) (m36_column_2 b))
        (v3_dot (m63_row3 a) (m36_column_3 b))
        (v3_dot (m63_row3 a) (m36_column_4 b))
        (v3_dot (m63_row3 a) (m36_column_5 b))
        (v3_dot (m63_row3 a) (m36_column_6 b)))
    (V6 (v3_dot (m63_row4 a) (m36_column_1 b))
        (v3_dot (m63_row4 a) (m36_column_2 b))
        (v3_dot (m63_row4 a) (m36_column_3 b))
        (v3_dot (m63_row4 a) (m36_column_4 b))
        (v3_dot (m63_row4 a) (m36_column_5 b))
        (v3_dot (m63_row4 a) (m36_column_6 b)))
    (V6 (v3_dot (m63_row5 a) (m36_column_1 b))
        (v3_dot (m63_row5 a) (m36_column_2 b))
        (v3_dot (m63_row5 a) (m36_column_3 b))
        (v3_dot (m63_row5 a) (m36_column_4 b))
        (v3_dot (m63_row5 a) (m36_column_5 b))
        (v3_dot (m63_row5 a) (m36_column_6 b)))
    (V6 (v3_dot (m63_row6 a) (m36_column_1 b))
        (v3_dot (m63_row6 a) (m36_column_2 b))
        (v3_dot (m63_row6 a) (m36_column_3 b))
        (v3_dot (m63_row6 a) (m36_column_4 b))
        (v3_dot (m63_row6 a) (m36_column_5 b))
        (v3_dot (m63_row6 a) (m36_column_6 b))).

(** linalg.py:864-878 *)
Definition m66_identity : mat66 :=
  M66 (V6 1 0 0 0 0 0)
      (V6 0 1 0 0 0 0)
      (V6 0 0 1 0 0 0)
      (V6 0 0 0 1 0 0)
      (V6 0 0 0 0 1 0)
      (V6 0 0 0 0 0 1).

(** linalg.py:880-893 *)
Definition m66_diagonal (m : mat66) : vec6 :=
  V6 (x6 (m66_row1 m)) (y6 (m66_row2 m)) (z6 (m66_row3 m))
     (vx6 (m66_row4 m)) (vy6 (m66_row5 m)) (vz6 (m66_row6 m)).

(** linalg.py:895-910 *)
Definition m66_multiply_vector (m : mat66) (v : vec6) : vec6 :=
  V6 (v6_dot (m66_row1 m) v) (v6_dot (m66_row2 m) v) (v6_dot (m66_row3 m) v)
     (v6_dot (m66_row4 m) v) (v6_dot (m66_row5 m) v) (v6_dot (m66_row6 m) v).

(** linalg.py:912-979 column_1 .. column_6 *)
Definition m66_column_1 (m : mat66) : vec6 :=
  V6 (x6 (m66_row1 m)) (x6 (m66_row2 m)) (x6 (m66_row3 m)) (x6 (m66_row4 m)) (x6 (m66_row5 m)) (x6 (m66_row6 m)).
Definition m66_column_2 (m : mat66) : vec6 :=
  V6 (y6 (m66_row1 m)) (y6 (m66_row2 m)) (y6 (m66_row3 m)) (y6 (m66_row4 m)) (y6 (m66_row5 m)) (y6 (m66_row6 m)).
Definition m66_column_3 (m : mat66) : vec6 :=
  V6 (z6 (m66_row1 m)) (z6 (m66_row2 m)) (z6 (m66_row3 m)) (z6 (m66_row4 m)) (z6 (m66_row5 m)) (z6 (m66_row6 m)).
Definition m66_column_4 (m : mat66) : vec6 :=
  V6 (vx6 (m66_row1 m)) (vx6 (m66_row2 m)) (vx6 (m66_row3 m)) (vx6 (m66_row4 m)) (vx6 (m66_row5 m)) (vx6 (m66_row6 m)).
Definition m66_column_5 (m : mat66) : vec6 :=
  V6 (vy6 (m66_row1 m)) (vy6 (m66_row2 m)) (vy6 (m66_row3 m)) (vy6 (m66_row4 m)) (vy6 (m66_row5 m)) (vy6 (m66_row6 m)).
Definition m66_column_6 (m : mat66) : vec6 :=
  V6 (vz6 (m66_row1 m)) (vz6 (m66_row2 m)) (vz6 (m66_row3 m)) (vz6 (m66_row4 m)) (vz6 (m66_row5 m)) (vz6 (m66_row6 m)).

(** linalg.py:981-994 *)
Definition m66_transpose (m : mat66) : mat66 :=
  M66 (m66_column_1 m) (m66_column_2 m) (m66_column_3 m)
      (m66_column_4 m) (m66_column_5 m) (m66_column_6 m).

(** linalg.py:996-1035 *)
Definition m66_multiply_matrix_6by3 (a : mat66) (b : mat63) : mat63 :=
  M63
    (V3 (v6_dot (m66_row1 a) (m63_column_1 b))
        (v6_dot (m66_row1 a) (m63_column_2 b))
        (v6_dot (m66_row1 a) (m63_column_3 b)))
    (V3 (v6_dot (m66_row2 a) (m63_column_1 b))
        (v6_dot (m66_row2 a) (m63_column_2 b))
        (v6_dot (m66_row2 a) (m63_column_3 b)))
    (V3 (v6_dot (m66_row3 a) (m63_column_1 b))
        (v6_dot (m66_row3 a) (m63_column_2 b))
        (v6_dot (m66_row3 a) (m63_column_3 b)))
    (V3 (v6_dot (m66_row4 a) (m63_column_1 b))
        (v6_dot (m66_row4 a) (m63_column_2 b))
        (v6_dot (m66_row4 a) (m63_column_3 b)))
    (V3 (v6_dot (m66_row5 a) (m63_column_1 b))
        (v6_dot (m66_row5 a) (m63_column_2 b))
        (v6_dot (m66_row5 a) (m63_column_3 b)))
    (V3 (v6_dot (m66_row6 a) (m63_column_1 b))
        (v6_dot (m66_row6 a) (m63_column_2 b))
        (v6_dot (m66_row6 a) (m63_column_3 b))).

(** linalg.py:1037-1094 *)
Definition m66_multiply_matrix (a : mat66) (b : mat66) : mat66 :=
  M66
    (V6 (v6_dot (m66_row1 a) (m66_column_1 b))
        (v6_dot (m66_row1 a) (m66_column_2 b))
        (v6_dot (m66_row1 a) (m66_column_3 b))
        (v6_dot (m66_row1 a) (m66_column_4 b))
        (v6_dot (m66_row1 a) (m66_column_5 b))
        (v6_dot (m66_row1 a) (m66_column_6 b)))
    (V6 (v6_dot (m66_row2 a) (m66_column_1 b))
        (v6_dot (m66_row2 a) (m66_column_2 b))
        (v6_dot (m66_row2 a) (m66_column_3 b))
        (v6_dot (m66_row2 a) (m66_column_4 b))
        (v6_dot (m66_row2 a) (m66_column_5 b))
        (v6_dot (m66_row2 a) (m66_column_6 b)))
    (V6 (v6_dot (m66_row3 a) (m66_column_1 b))
        (v6_dot (m66_row3 a) (m66_column_2 b))
        (v6_dot (m66_row3 a) (m66_column_3 b))
        (v6_dot (m66_row3 a) (m66_column_4 b))
        (v6_dot (m66_row3 a) (m66_column_5 b))
        (v6_dot (m66_row3 a) (m66_column_6 b)))
    (V6 (v6_dot (m66_row4 a) (m66_column_1 b))
        (v6_dot (m66_row4 a) (m66_column_2 b))
        (v6_dot (m66_row4 a) (m66_column_3 b))
        (v6_dot (m66_row4 a) (m66_column_4 b))
        (v6_dot (m66_row4 a) (m66_column_5 b))
        (v6_dot (m66_row4 a) (m66_column_6 b)))
    (V6 (v6_dot (m66_row5 a) (m66_column_1 b))
        (v6_dot (m66_row5 a) (m66_column_2 b))
        (v6_dot (m66_row5 a) (m66_column_3 b))
        (v6_dot (m66_row5 a) (m66_column_4 b))
        (v6_dot (m66_row5 a) (m66_column_5 b))
        (v6_dot (m66_row5 a) (m66_column_6 b)))
    (V6 (v6_dot (m66_row6 a) (m66_column_1 b))
        (v6_dot (m66_row6 a) (m66_column_2 b))
        (v6_dot (m66_row6 a) (m66_column_3 b))
        (v6_dot (m66_row6 a) (m66_column_4 b))
        (v6_dot (m66_row6 a) (m66_column_5 b))
        (v6_dot (m66_row6 a) (m66_column_6 b))).

(** linalg.py:1096-1111 *)
Definition m66_plus (a b : mat66) : mat66 :=
  M66 (v6_plus (m66_row1 a) (m66_row1 b))
      (v6_plus (m66_row2 a) (m66_row2 b))
      (v6_plus (m66_row3 a) (m66_row3 b))
      (v6_plus (m66_row4 a) (m66_row4 b))
      (v6_plus (m66_row5 a) (m66_row5 b))
      (v6_plus (m66_row6 a) (m66_row6 b)).

(** linalg.py:1113-1128 *)
Definition m66_minus (a b : mat66) : mat66 :=
  M66 (v6_minus (m66_row1 a) (m66_row1 b))
      (v6_minus (m66_row2 a) (m66_row2 b))
      (v6_minus (m66_row3 a) (m66_row3 b))
      (v6_minus (m66_row4 a) (m66_row4 b))
      (v6_minus (m66_row5 a) (m66_row5 b))
      (v6_minus (m66_row6 a) (m66_row6 b)).
