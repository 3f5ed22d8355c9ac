(** Properties C01-C07: vectors and matrices. *)
From Coq Require Import Reals Lra Lia.
From Verif.Model Require Import Num Linalg.
From Verif.Spec Require Import Geometry.
From Verif.Proofs Require Import NumLemmas LinalgProofs MatrixProofs.
Local Open Scope R_scope.

(** * C01 Rotation about an axis is a rigid right-handed rotation *)

Theorem C01_rotation_is_rodrigues : forall v axis t, axis <> zero3 ->
  exists u, dot u u = 1 /\ axis = scale (norm axis) u /\ 0 < norm axis /\
    v3_rotation_about_axis v axis t = Ok (rodrigues u v t).
Proof. exact rotation_spec. Qed.
Print Assumptions C01_rotation_is_rodrigues.
Example C01_rotation_is_rodrigues_ex : V3 0 3 4 <> zero3.
Proof. unfold zero3. intros H. injection H. lra. Qed.

Theorem C01_rotation_rigid : forall a b axis t a' b',
  v3_rotation_about_axis a axis t = Ok a' -> v3_rotation_about_axis b axis t = Ok b' ->
  norm a' = norm a /\ dot a' b' = dot a b /\
  v3_rotation_about_axis (cross a b) axis t = Ok (cross a' b').
Proof. exact rotation_rigid. Qed.
Print Assumptions C01_rotation_rigid.
Example C01_rotation_rigid_ex : exists a' b',
  v3_rotation_about_axis (V3 1 2 3) (V3 0 3 4) 1 = Ok a' /\
  v3_rotation_about_axis (V3 4 5 6) (V3 0 3 4) 1 = Ok b'.
Proof.
  destruct (C01_rotation_is_rodrigues (V3 1 2 3) _ 1 C01_rotation_is_rodrigues_ex) as (u & _ & _ & _ & E).
  destruct (C01_rotation_is_rodrigues (V3 4 5 6) _ 1 C01_rotation_is_rodrigues_ex) as (u' & _ & _ & _ & E').
  eauto.
Qed.

Theorem C01_rotation_fixes_axis : forall axis k t, axis <> zero3 ->
  v3_rotation_about_axis (scale k axis) axis t = Ok (scale k axis).
Proof. exact rotation_fixes_axis. Qed.
Print Assumptions C01_rotation_fixes_axis.

Theorem C01_rotation_composes : forall v axis s t v',
  v3_rotation_about_axis v axis s = Ok v' ->
  v3_rotation_about_axis v' axis t = v3_rotation_about_axis v axis (s + t).
Proof. exact rotation_composes. Qed.
Print Assumptions C01_rotation_composes.

Theorem C01_rotation_undone : forall v axis t v',
  v3_rotation_about_axis v axis t = Ok v' -> v3_rotation_about_axis v' axis (- t) = Ok v.
Proof. exact rotation_undone. Qed.
Print Assumptions C01_rotation_undone.

Theorem C01_rotation_raises : forall v axis t e,
  v3_rotation_about_axis v axis t = Err e <-> axis = zero3 /\ e = ZeroDivisionError.
Proof. exact rotation_error_iff. Qed.
Print Assumptions C01_rotation_raises.

(** * C02 Angle between vectors is the geometric angle *)

Theorem C02_angle_is_geometric : forall a b, a <> zero3 -> b <> zero3 -> exists t,
  v3_angle a b = Ok t /\ 0 <= t <= PI /\ norm a * norm b * cos t = dot a b /\
  forall t', 0 <= t' <= PI -> norm a * norm b * cos t' = dot a b -> t' = t.
Proof. exact angle_spec. Qed.
Print Assumptions C02_angle_is_geometric.
Example C02_angle_is_geometric_ex : V3 0 3 4 <> zero3 /\ V3 1 0 1 <> zero3.
Proof. unfold zero3. split; intros H; injection H; lra. Qed.

Theorem C02_angle_symmetric : forall a b, v3_angle a b = v3_angle b a.
Proof. exact angle_sym. Qed.
Print Assumptions C02_angle_symmetric.

Theorem C02_angle_scale_free : forall a b k l, 0 < k -> 0 < l ->
  v3_angle (scale k a) (scale l b) = v3_angle a b.
Proof. exact angle_scale. Qed.
Print Assumptions C02_angle_scale_free.

Theorem C02_angle_raises : forall a b e,
  v3_angle a b = Err e <-> (a = zero3 \/ b = zero3) /\ e = ZeroDivisionError.
Proof. exact angle_error_iff. Qed.
Print Assumptions C02_angle_raises.

(** * C03 Normalising yields the unit vector or raises *)

Theorem C03_normalized_unit : forall a, a <> zero3 -> exists u,
  v3_normalized a = Ok u /\ norm u = 1 /\ exists k, 0 < k /\ u = scale k a.
Proof. exact normalized_spec. Qed.
Print Assumptions C03_normalized_unit.

Theorem C03_normalized_raises : forall a e,
  v3_normalized a = Err e <-> a = zero3 /\ e = ZeroDivisionError.
Proof. exact normalized_error_iff. Qed.
Print Assumptions C03_normalized_raises.

(** * C04 Matrix inverse is a two-sided inverse or raises *)

Theorem C04_inverse_two_sided : forall m, m3_determinant m <> 0 -> exists w, m3_inverse m = Ok w /\
  forall i j, (i < 3)%nat -> (j < 3)%nat ->
    sum 3 (fun k => ent33 m i k * ent33 w k j) = delta i j /\
    sum 3 (fun k => ent33 w i k * ent33 m k j) = delta i j.
Proof. exact inverse_spec. Qed.
Print Assumptions C04_inverse_two_sided.
Example C04_inverse_two_sided_ex : m3_determinant (M3 (V3 1 2 3) (V3 0 1 4) (V3 5 6 0)) <> 0.
Proof. unfold m3_determinant; simpl; lra. Qed.

Theorem C04_inverse_raises : forall m e,
  m3_inverse m = Err e <-> m3_determinant m = 0 /\ e = ZeroDivisionError.
Proof. exact inverse_error_iff. Qed.
Print Assumptions C04_inverse_raises.

Theorem C04_determinant_is_volume : forall m,
  m3_determinant m = triple (m3_row1 m) (m3_row2 m) (m3_row3 m).
Proof. exact determinant_det. Qed.
Print Assumptions C04_determinant_is_volume.

(** * C05 Every matrix product and transpose is the textbook one *)

Theorem C05_mat3_times_vector : forall m v i, (i < 3)%nat ->
  ent3v (m3_multiply_vector m v) i = sum 3 (fun k => ent33 m i k * ent3v v k).
Proof. exact ent_m3_multiply_vector. Qed.
Print Assumptions C05_mat3_times_vector.
Theorem C05_mat3_scaled : forall m s i j, (i < 3)%nat -> (j < 3)%nat ->
  ent33 (m3_scaled m s) i j = s * ent33 m i j.
Proof. exact ent_m3_scaled. Qed.
Print Assumptions C05_mat3_scaled.
Theorem C05_mat3_transpose : forall m i j, (i < 3)%nat -> (j < 3)%nat ->
  ent33 (m3_transpose m) i j = ent33 m j i.
Proof. exact ent_m3_transpose. Qed.
Print Assumptions C05_mat3_transpose.
Theorem C05_mat3_plus : forall a b i j, (i < 3)%nat -> (j < 3)%nat ->
  ent33 (m3_plus a b) i j = ent33 a i j + ent33 b i j.
Proof. exact ent_m3_plus. Qed.
Print Assumptions C05_mat3_plus.
Theorem C05_mat3_diagonal : forall m i, (i < 3)%nat -> ent3v (m3_diagonal m) i = ent33 m i i.
Proof. exact ent_m3_diagonal. Qed.
Print Assumptions C05_mat3_diagonal.
Theorem C05_mat3_columns : forall m i, (i < 3)%nat ->
  ent3v (m3_column_1 m) i = ent33 m i 0 /\ ent3v (m3_column_2 m) i = ent33 m i 1 /\
  ent3v (m3_column_3 m) i = ent33 m i 2.
Proof. exact ent_m3_columns. Qed.
Print Assumptions C05_mat3_columns.
Theorem C05_mat3_times_mat36 : forall a b i j, (i < 3)%nat -> (j < 6)%nat ->
  ent36 (m3_multiply_matrix3by6 a b) i j = sum 3 (fun k => ent33 a i k * ent36 b k j).
Proof. exact ent_m3_multiply_matrix3by6. Qed.
Print Assumptions C05_mat3_times_mat36.
Theorem C05_mat36_columns : forall m i, (i < 3)%nat ->
  ent3v (m36_column_1 m) i = ent36 m i 0 /\ ent3v (m36_column_2 m) i = ent36 m i 1 /\
  ent3v (m36_column_3 m) i = ent36 m i 2 /\ ent3v (m36_column_4 m) i = ent36 m i 3 /\
  ent3v (m36_column_5 m) i = ent36 m i 4 /\ ent3v (m36_column_6 m) i = ent36 m i 5.
Proof. exact ent_m36_columns. Qed.
Print Assumptions C05_mat36_columns.
Theorem C05_mat36_times_vector : forall m v i, (i < 3)%nat ->
  ent3v (m36_multiply_vector m v) i = sum 6 (fun k => ent36 m i k * ent6v v k).
Proof. exact ent_m36_multiply_vector. Qed.
Print Assumptions C05_mat36_times_vector.
Theorem C05_mat36_transpose : forall m i j, (i < 6)%nat -> (j < 3)%nat ->
  ent63 (m36_transpose m) i j = ent36 m j i.
Proof. exact ent_m36_transpose. Qed.
Print Assumptions C05_mat36_transpose.
Theorem C05_mat36_times_mat63 : forall a b i j, (i < 3)%nat -> (j < 3)%nat ->
  ent33 (m36_multiply_matrix_6by3 a b) i j = sum 6 (fun k => ent36 a i k * ent63 b k j).
Proof. exact ent_m36_multiply_matrix_6by3. Qed.
Print Assumptions C05_mat36_times_mat63.
Theorem C05_mat63_columns : forall m i, (i < 6)%nat ->
  ent6v (m63_column_1 m) i = ent63 m i 0 /\ ent6v (m63_column_2 m) i = ent63 m i 1 /\
  ent6v (m63_column_3 m) i = ent63 m i 2.
Proof. exact ent_m63_columns. Qed.
Print Assumptions C05_mat63_columns.
Theorem C05_mat63_transpose : forall m i j, (i < 3)%nat -> (j < 6)%nat ->
  ent36 (m63_transpose m) i j = ent63 m j i.
Proof. exact ent_m63_transpose. Qed.
Print Assumptions C05_mat63_transpose.
Theorem C05_mat63_times_mat3 : forall a b i j, (i < 6)%nat -> (j < 3)%nat ->
  ent63 (m63_multiply a b) i j = sum 3 (fun k => ent63 a i k * ent33 b k j).
Proof. exact ent_m63_multiply. Qed.
Print Assumptions C05_mat63_times_mat3.
Theorem C05_mat63_times_vector : forall m v i, (i < 6)%nat ->
  ent6v (m63_multiply_vector m v) i = sum 3 (fun k => ent63 m i k * ent3v v k).
Proof. exact ent_m63_multiply_vector. Qed.
Print Assumptions C05_mat63_times_vector.
Theorem C05_mat63_times_mat36 : forall a b i j, (i < 6)%nat -> (j < 6)%nat ->
  ent66 (m63_multiply_matrix3by6 a b) i j = sum 3 (fun k => ent63 a i k * ent36 b k j).
Proof. exact ent_m63_multiply_matrix3by6. Qed.
Print Assumptions C05_mat63_times_mat36.
Theorem C05_mat66_identity : forall i j, (i < 6)%nat -> (j < 6)%nat ->
  ent66 m66_identity i j = delta i j.
Proof. exact ent_m66_identity. Qed.
Print Assumptions C05_mat66_identity.
Theorem C05_mat66_diagonal : forall m i, (i < 6)%nat -> ent6v (m66_diagonal m) i = ent66 m i i.
Proof. exact ent_m66_diagonal. Qed.
Print Assumptions C05_mat66_diagonal.
Theorem C05_mat66_columns : forall m i, (i < 6)%nat ->
  ent6v (m66_column_1 m) i = ent66 m i 0 /\ ent6v (m66_column_2 m) i = ent66 m i 1 /\
  ent6v (m66_column_3 m) i = ent66 m i 2 /\ ent6v (m66_column_4 m) i = ent66 m i 3 /\
  ent6v (m66_column_5 m) i = ent66 m i 4 /\ ent6v (m66_column_6 m) i = ent66 m i 5.
Proof. exact ent_m66_columns. Qed.
Print Assumptions C05_mat66_columns.
Theorem C05_mat66_times_vector : forall m v i, (i < 6)%nat ->
  ent6v (m66_multiply_vector m v) i = sum 6 (fun k => ent66 m i k * ent6v v k).
Proof. exact ent_m66_multiply_vector. Qed.
Print Assumptions C05_mat66_times_vector.
Theorem C05_mat66_transpose : forall m i j, (i < 6)%nat -> (j < 6)%nat ->
  ent66 (m66_transpose m) i j = ent66 m j i.
Proof. exact ent_m66_transpose. Qed.
Print Assumptions C05_mat66_transpose.
Theorem C05_mat66_times_mat63 : forall a b i j, (i < 6)%nat -> (j < 3)%nat ->
  ent63 (m66_multiply_matrix_6by3 a b) i j = sum 6 (fun k => ent66 a i k * ent63 b k j).
Proof. exact ent_m66_multiply_matrix_6by3. Qed.
Print Assumptions C05_mat66_times_mat63.
Theorem C05_mat66_times_mat66 : forall a b i j, (i < 6)%nat -> (j < 6)%nat ->
  ent66 (m66_multiply_matrix a b) i j = sum 6 (fun k => ent66 a i k * ent66 b k j).
Proof. exact ent_m66_multiply_matrix. Qed.
Theorem C05_mat66_plus : forall a b i j, (i < 6)%nat -> (j < 6)%nat ->
  ent66 (m66_plus a b) i j = ent66 a i j + ent66 b i j.
Proof. exact ent_m66_plus. Qed.
Print Assumptions C05_mat66_plus.
Theorem C05_mat66_minus : forall a b i j, (i < 6)%nat -> (j < 6)%nat ->
  ent66 (m66_minus a b) i j = ent66 a i j - ent66 b i j.
Proof. exact ent_m66_minus. Qed.
Print Assumptions C05_mat66_minus.
Theorem C05_vec6_plus : forall a b i, (i < 6)%nat -> ent6v (v6_plus a b) i = ent6v a i + ent6v b i.
Proof. exact ent_v6_plus. Qed.
Print Assumptions C05_vec6_plus.
Theorem C05_vec6_minus : forall a b i, (i < 6)%nat -> ent6v (v6_minus a b) i = ent6v a i - ent6v b i.
Proof. exact ent_v6_minus. Qed.
Print Assumptions C05_vec6_minus.
Theorem C05_vec6_dot : forall a b, v6_dot a b = sum 6 (fun k => ent6v a k * ent6v b k).
Proof. exact ent_v6_dot. Qed.
Print Assumptions C05_vec6_dot.
Print Assumptions C05_mat66_times_mat66.

Theorem C05_product_associative : forall a b c,
  m66_multiply_matrix (m66_multiply_matrix a b) c = m66_multiply_matrix a (m66_multiply_matrix b c).
Proof. exact m66_assoc. Qed.
Theorem C05_product_acts : forall a b v,
  m66_multiply_vector (m66_multiply_matrix a b) v = m66_multiply_vector a (m66_multiply_vector b v).
Proof. exact m66_vector_assoc. Qed.
Print Assumptions C05_product_acts.
Theorem C05_transpose_of_product : forall a b,
  m66_transpose (m66_multiply_matrix a b) = m66_multiply_matrix (m66_transpose b) (m66_transpose a).
Proof. exact m66_transpose_mult. Qed.
Theorem C05_identity_left : forall a, m66_multiply_matrix m66_identity a = a.
Proof. exact m66_identity_l. Qed.
Print Assumptions C05_identity_left.
Theorem C05_identity_right : forall a, m66_multiply_matrix a m66_identity = a.
Proof. exact m66_identity_r. Qed.
Print Assumptions C05_identity_right.
Print Assumptions C05_product_associative.
Print Assumptions C05_transpose_of_product.

(** * C06 Angular noise keeps length and tilts by exactly the drawn angle.
    [gauss z mu s] is the outcome of [random.gauss(mu, s)] for the standard
    normal draw [z], and [u] is the draw of [random.random()]. *)

Theorem C06_angular_noise : forall z u v e, ~ (x3 v = 0 /\ y3 v = 0) -> exists w,
  v3_with_angular_noise z u v e = Ok w /\ norm w = norm v /\
  dot v w = norm v * norm w * cos (gauss z 0 e) /\
  (Rabs (gauss z 0 e) <= PI -> v3_angle v w = Ok (Rabs (gauss z 0 e))).
Proof. exact angular_noise_spec. Qed.
Print Assumptions C06_angular_noise.
Example C06_angular_noise_ex : ~ (x3 (V3 0 3 4) = 0 /\ y3 (V3 0 3 4) = 0) /\ Rabs (gauss 2 0 (1/2)) <= PI.
Proof.
  simpl; split; [lra|]. unfold gauss. rewrite Rabs_right by lra. generalize PI2_1; lra.
Qed.

Theorem C06_angular_noise_raises : forall z u v e x,
  v3_with_angular_noise z u v e = Err x <-> (x3 v = 0 /\ y3 v = 0) /\ x = ZeroDivisionError.
Proof. exact angular_noise_error_iff. Qed.
Print Assumptions C06_angular_noise_raises.

Theorem C06_magnitude_noise : forall z v e, v <> zero3 -> exists w,
  v3_with_magnitude_noise z v e = Ok w /\
  exists n, norm n = 1 /\ v = scale (norm v) n /\ w = scale (gauss z (norm v) e) n.
Proof. exact magnitude_noise_spec. Qed.
Print Assumptions C06_magnitude_noise.

Theorem C06_with_noise : forall z1 z2 u v re ae,
  ~ (x3 v = 0 /\ y3 v = 0) -> gauss z1 (norm v) re <> 0 -> exists w,
  v3_with_noise z1 z2 u v re ae = Ok w /\ norm w = Rabs (gauss z1 (norm v) re) /\
  norm v * gauss z1 (norm v) re * cos (gauss z2 0 ae) = dot v w.
Proof. exact with_noise_spec. Qed.
Print Assumptions C06_with_noise.
Example C06_with_noise_ex : ~ (x3 (V3 0 3 4) = 0 /\ y3 (V3 0 3 4) = 0) /\ gauss 1 (norm (V3 0 3 4)) 2 <> 0.
Proof.
  simpl; split; [lra|]. unfold gauss. assert (H := norm_nonneg (V3 0 3 4)).
  apply Rgt_not_eq. lra.
Qed.

(** * C07 Cross product is the right-handed orthogonal product *)

Theorem C07_cross_product : forall a b,
  dot a (v3_cross a b) = 0 /\ dot b (v3_cross a b) = 0 /\
  v3_cross b a = scale (-1) (v3_cross a b) /\
  norm (v3_cross a b) ^ 2 + dot a b ^ 2 = norm a ^ 2 * norm b ^ 2 /\
  triple a b (v3_cross a b) = norm (v3_cross a b) ^ 2 /\
  (norm (v3_cross a b) = 0 <-> v3_cross a b = zero3) /\
  v3_cross (V3 1 0 0) (V3 0 1 0) = V3 0 0 1.
Proof. exact v3_cross_spec. Qed.
Print Assumptions C07_cross_product.
