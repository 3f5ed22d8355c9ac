From Coq Require Import Reals Lra Psatz Bool Lia Nsatz.
From Verif.Model Require Import Num Linalg.
From Verif.Spec Require Import Geometry.
From Verif.Proofs Require Import NumLemmas.
Local Open Scope R_scope.

Ltac vunf :=
  unfold m3_multiply_vector, m3_transpose, m3_scaled, m3_plus, m3_determinant,
    apply3, transposed, det3, triple, norm, rodrigues in *;
  unfold v3_dot, v3_cross, v3_plus, v3_minus, v3_scaled, v3_copy, v3_magnitude,
    add, sub, scale, dot, cross, zero3 in *; simpl in *.

Lemma vec3_eq (a b : vec3) : x3 a = x3 b -> y3 a = y3 b -> z3 a = z3 b -> a = b.
Proof. destruct a, b; simpl; intros; subst; auto. Qed.
Lemma vec6_eq (a b : vec6) : x6 a = x6 b -> y6 a = y6 b -> z6 a = z6 b ->
  vx6 a = vx6 b -> vy6 a = vy6 b -> vz6 a = vz6 b -> a = b.
Proof. destruct a, b; simpl; intros; subst; auto. Qed.

Ltac veq := apply vec3_eq; vunf.

(** ** Model operations are the textbook ones *)
Lemma v3_dot_dot a b : v3_dot a b = dot a b. Proof. reflexivity. Qed.
Lemma v3_cross_cross a b : v3_cross a b = cross a b. Proof. reflexivity. Qed.
Lemma v3_plus_add a b : v3_plus a b = add a b. Proof. reflexivity. Qed.
Lemma v3_minus_sub a b : v3_minus a b = sub a b. Proof. reflexivity. Qed.
Lemma v3_magnitude_norm a : v3_magnitude a = norm a. Proof. reflexivity. Qed.
Lemma v3_scaled_scale a k : v3_scaled a k = scale k a.
Proof. veq; ring. Qed.
Lemma v3_copy_id a : v3_copy a = a. Proof. destruct a; reflexivity. Qed.
Lemma m3_multiply_vector_apply m v : m3_multiply_vector m v = apply3 m v. Proof. reflexivity. Qed.
Lemma m3_transpose_transposed m : m3_transpose m = transposed m. Proof. reflexivity. Qed.

Ltac spec_ops :=
  change v3_dot with dot in *; change v3_cross with cross in *;
  change v3_plus with add in *; change v3_minus with sub in *;
  change v3_magnitude with norm in *; change m3_multiply_vector with apply3 in *;
  change m3_transpose with transposed in *.

(** ** Norms *)
Lemma dot_self_nonneg a : 0 <= dot a a.
Proof. vunf; nra. Qed.
Lemma dot_self_zero a : dot a a = 0 <-> a = zero3.
Proof.
  split; intros H.
  - vunf. apply vec3_eq; simpl; nra.
  - subst; vunf; ring.
Qed.
Lemma norm_nonneg a : 0 <= norm a.
Proof. unfold norm; apply sqrt_pos. Qed.
Lemma norm_sq a : norm a * norm a = dot a a.
Proof. unfold norm; apply sqrt_sqrt, dot_self_nonneg. Qed.
Lemma norm_zero a : norm a = 0 <-> a = zero3.
Proof.
  unfold norm. rewrite sqrt_eq_0_iff by apply dot_self_nonneg. apply dot_self_zero.
Qed.
Lemma norm_pos a : a <> zero3 -> 0 < norm a.
Proof.
  intros H. generalize (norm_nonneg a). destruct (Req_dec (norm a) 0) as [E|E].
  apply norm_zero in E; contradiction. lra.
Qed.
Lemma norm_scale k a : norm (scale k a) = Rabs k * norm a.
Proof.
  unfold norm. replace (dot (scale k a) (scale k a)) with ((k * k) * dot a a) by (vunf; ring).
  rewrite sqrt_mult; [|nra|apply dot_self_nonneg]. f_equal.
  rewrite <- sqrt_Rsqr_abs. reflexivity.
Qed.
Lemma cauchy_schwarz a b : dot a b * dot a b <= dot a a * dot b b.
Proof.
  assert (0 <= dot (cross a b) (cross a b)) by apply dot_self_nonneg.
  assert (dot (cross a b) (cross a b) = dot a a * dot b b - dot a b * dot a b) by (vunf; ring).
  lra.
Qed.
Lemma cauchy_schwarz_norm a b : - (norm a * norm b) <= dot a b <= norm a * norm b.
Proof.
  assert (H := cauchy_schwarz a b). rewrite <- !norm_sq in H.
  assert (Ha := norm_nonneg a). assert (Hb := norm_nonneg b).
  assert (0 <= norm a * norm b) by nra.
  assert (dot a b * dot a b <= (norm a * norm b) * (norm a * norm b)) by nra.
  split; nra.
Qed.
Lemma norm_triangle a b : norm (add a b) <= norm a + norm b.
Proof.
  assert (Ha := norm_nonneg a). assert (Hb := norm_nonneg b). assert (Hc := norm_nonneg (add a b)).
  assert (E : norm (add a b) * norm (add a b) = norm a * norm a + norm b * norm b + 2 * dot a b)
    by (rewrite !norm_sq; vunf; ring).
  assert (C := cauchy_schwarz_norm a b). nra.
Qed.
Lemma norm_opp a : norm (scale (-1) a) = norm a.
Proof. rewrite norm_scale, Rabs_left; lra. Qed.
Lemma norm_sub_sym a b : norm (sub a b) = norm (sub b a).
Proof. rewrite <- norm_opp. f_equal. veq; ring. Qed.
Lemma norm_sub_ge a b : norm a - norm b <= norm (sub a b).
Proof.
  assert (H := norm_triangle (sub a b) b).
  replace (add (sub a b) b) with a in H by (veq; ring). lra.
Qed.

(** ** normalized *)
Lemma normalized_ok a : a <> zero3 -> v3_normalized a = Ok (scale (/ norm a) a).
Proof.
  intros H. apply norm_pos in H. unfold v3_normalized. rewrite v3_magnitude_norm, pdiv_ok by lra.
  simpl. rewrite v3_scaled_scale. f_equal. f_equal. field. lra.
Qed.
Lemma normalized_zero : v3_normalized zero3 = Err ZeroDivisionError.
Proof.
  unfold v3_normalized. rewrite v3_magnitude_norm.
  replace (norm zero3) with 0 by (symmetry; apply norm_zero; auto).
  rewrite pdiv_zero. reflexivity.
Qed.
Lemma vec3_zero_dec (a : vec3) : {a = zero3} + {a <> zero3}.
Proof.
  destruct (Req_EM_T (norm a) 0) as [E|E].
  - left; apply norm_zero; auto.
  - right; intros H; apply norm_zero in H; auto.
Qed.
Lemma normalized_inv a u : v3_normalized a = Ok u -> a <> zero3 /\ u = scale (/ norm a) a.
Proof.
  intros H. destruct (vec3_zero_dec a) as [E|E].
  - subst; rewrite normalized_zero in H; discriminate.
  - rewrite normalized_ok in H by auto. inversion H; auto.
Qed.
Lemma unit_norm a : a <> zero3 -> norm (scale (/ norm a) a) = 1.
Proof.
  intros H. apply norm_pos in H. rewrite norm_scale, Rabs_right.
  field; lra. apply Rle_ge; left; apply Rinv_0_lt_compat; auto.
Qed.
Lemma unit_dot a : a <> zero3 -> dot (scale (/ norm a) a) (scale (/ norm a) a) = 1.
Proof. intros H. rewrite <- norm_sq, unit_norm by auto. ring. Qed.
Lemma unit_scale_back a : a <> zero3 -> scale (norm a) (scale (/ norm a) a) = a.
Proof. intros H. apply norm_pos in H. revert H. generalize (norm a). intros n H. veq; field; lra. Qed.
Lemma scale_unit u k : 0 < k -> dot u u = 1 -> norm (scale k u) = k.
Proof.
  intros Hk Hu. rewrite norm_scale, Rabs_right by lra. unfold norm; rewrite Hu, sqrt_1; ring.
Qed.

(** ** angle *)
Definition cos_arg (a b : vec3) : R := dot a b / (norm a * norm b).
Lemma cos_arg_range a b : a <> zero3 -> b <> zero3 -> -1 <= cos_arg a b <= 1.
Proof.
  intros Ha Hb. apply norm_pos in Ha; apply norm_pos in Hb.
  assert (H := cauchy_schwarz_norm a b). unfold cos_arg.
  assert (0 < norm a * norm b) by nra.
  split; apply Rmult_le_reg_r with (norm a * norm b); auto; unfold Rdiv;
    rewrite Rmult_assoc, Rinv_l by lra; lra.
Qed.
Lemma angle_ok a b : a <> zero3 -> b <> zero3 -> v3_angle a b = Ok (acos (cos_arg a b)).
Proof.
  intros Ha Hb. assert (H := cos_arg_range a b Ha Hb).
  apply norm_pos in Ha; apply norm_pos in Hb.
  unfold v3_angle. spec_ops.
  assert (P : 0 < norm a * norm b) by (apply Rmult_lt_0_compat; auto).
  rewrite pdiv_ok by lra. simpl. fold (cos_arg a b).
  rewrite nlt_false by lra. rewrite nlt_false by lra. apply pacos_ok; auto.
Qed.
Lemma angle_err a b : a = zero3 \/ b = zero3 -> v3_angle a b = Err ZeroDivisionError.
Proof.
  intros H. unfold v3_angle. spec_ops.
  replace (norm a * norm b) with 0. { rewrite pdiv_zero; auto. }
  destruct H; subst.
  - replace (norm zero3) with 0 by (symmetry; apply norm_zero; auto). ring.
  - replace (norm zero3) with 0 by (symmetry; apply norm_zero; auto). ring.
Qed.
Lemma angle_inv a b t : v3_angle a b = Ok t -> a <> zero3 /\ b <> zero3 /\ t = acos (cos_arg a b).
Proof.
  intros H. destruct (vec3_zero_dec a). { rewrite angle_err in H by auto; discriminate. }
  destruct (vec3_zero_dec b). { rewrite angle_err in H by auto; discriminate. }
  rewrite angle_ok in H by auto. inversion H; auto.
Qed.
Lemma cos_angle a b t : v3_angle a b = Ok t -> norm a * norm b * cos t = dot a b.
Proof.
  intros H. apply angle_inv in H. destruct H as [Ha [Hb E]]. subst.
  rewrite cos_acos by (apply cos_arg_range; auto). unfold cos_arg.
  apply norm_pos in Ha; apply norm_pos in Hb. field; lra.
Qed.
Lemma angle_range a b t : v3_angle a b = Ok t -> 0 <= t <= PI.
Proof. intros H. apply angle_inv in H. destruct H as [_ [_ E]]; subst. apply acos_bound. Qed.
Lemma angle_unique a b t : a <> zero3 -> b <> zero3 -> 0 <= t <= PI ->
  norm a * norm b * cos t = dot a b -> v3_angle a b = Ok t.
Proof.
  intros Ha Hb Ht E. rewrite angle_ok by auto. f_equal.
  unfold cos_arg. rewrite <- E. apply norm_pos in Ha; apply norm_pos in Hb.
  replace (norm a * norm b * cos t / (norm a * norm b)) with (cos t) by (field; lra).
  apply acos_cos; auto.
Qed.

(** ** Rotations *)
Lemma rotation_ok v axis t : axis <> zero3 ->
  v3_rotation_about_axis v axis t = Ok (rodrigues (scale (/ norm axis) axis) v t).
Proof.
  intros H. unfold v3_rotation_about_axis, v3_rotation_matrix.
  rewrite normalized_ok by auto. generalize (scale (/ norm axis) axis). intros u.
  rewrite v3_copy_id. simpl. apply f_equal. veq; ring.
Qed.
Lemma rotation_zero v t : v3_rotation_about_axis v zero3 t = Err ZeroDivisionError.
Proof.
  unfold v3_rotation_about_axis, v3_rotation_matrix. rewrite normalized_zero. reflexivity.
Qed.
Lemma rodrigues_matrix u t : dot u u = 1 ->
  exists m, is_rotation m /\ forall v, rodrigues u v t = apply3 m v.
Proof.
  intros H.
  exists (M3 (V3 (cos t + x3 u * x3 u * (1 - cos t)) (x3 u * y3 u * (1 - cos t) - z3 u * sin t)
              (x3 u * z3 u * (1 - cos t) + y3 u * sin t))
         (V3 (y3 u * x3 u * (1 - cos t) + z3 u * sin t) (cos t + y3 u * y3 u * (1 - cos t))
             (y3 u * z3 u * (1 - cos t) - x3 u * sin t))
         (V3 (z3 u * x3 u * (1 - cos t) - y3 u * sin t) (z3 u * y3 u * (1 - cos t) + x3 u * sin t)
             (cos t + z3 u * z3 u * (1 - cos t)))).
  split.
  - assert (HS := sin2_cos2' t). unfold is_rotation. vunf.
    set (x := x3 u) in *; set (y := y3 u) in *; set (z := z3 u) in *;
      set (c := cos t) in *; set (s := sin t) in *.
    assert (Hs : s * s = 1 - c * c) by lra.
    assert (Hz : z * z = 1 - x * x - y * y) by lra.
    clearbody x y z c s. clear HS H. clear t u.
    repeat split; nsatz.
  - intros v; veq; ring.
Qed.

(** ** Proper rotations *)
Lemma transposed_inverse m v : is_rotation m -> apply3 (transposed m) (apply3 m v) = v.
Proof.
  unfold is_rotation. destruct m as [[a b c] [d e f] [g h i]], v as [x y z]. vunf.
  intros (H1 & H2 & H3 & H4 & H5 & H6 & H7).
  apply vec3_eq; simpl; nsatz.
Qed.
Lemma transposed_involutive m : transposed (transposed m) = m.
Proof. destruct m as [[? ? ?] [? ? ?] [? ? ?]]. reflexivity. Qed.
Lemma transposed_rotation m : is_rotation m -> is_rotation (transposed m).
Proof.
  unfold is_rotation. destruct m as [[a b c] [d e f] [g h i]]. vunf.
  intros (H1 & H2 & H3 & H4 & H5 & H6 & H7).
  repeat split; nsatz.
Qed.
Lemma transposed_inverse' m v : is_rotation m -> apply3 m (apply3 (transposed m) v) = v.
Proof.
  intros H. apply transposed_rotation in H. apply transposed_inverse with (v := v) in H.
  rewrite transposed_involutive in H. exact H.
Qed.
Lemma dot_transposed m a b : dot (apply3 m a) b = dot a (apply3 (transposed m) b).
Proof. vunf; ring. Qed.
Lemma rotation_dot m a b : is_rotation m -> dot (apply3 m a) (apply3 m b) = dot a b.
Proof. intros H. rewrite dot_transposed, transposed_inverse by auto. reflexivity. Qed.
Lemma rotation_norm m a : is_rotation m -> norm (apply3 m a) = norm a.
Proof. intros H. unfold norm. rewrite rotation_dot by auto. reflexivity. Qed.
Lemma rotation_cross m a b : is_rotation m -> apply3 m (cross a b) = cross (apply3 m a) (apply3 m b).
Proof.
  unfold is_rotation. destruct m as [[m11 m12 m13] [m21 m22 m23] [m31 m32 m33]], a as [a1 a2 a3], b as [b1 b2 b3]. vunf.
  intros (H1 & H2 & H3 & H4 & H5 & H6 & H7).
  (* rows are the cross products of each other *)
  assert (C1 : m11 = m22 * m33 - m23 * m32) by nsatz.
  assert (C2 : m12 = m23 * m31 - m21 * m33) by nsatz.
  assert (C3 : m13 = m21 * m32 - m22 * m31) by nsatz.
  assert (C4 : m21 = m32 * m13 - m33 * m12) by nsatz.
  assert (C5 : m22 = m33 * m11 - m31 * m13) by nsatz.
  assert (C6 : m23 = m31 * m12 - m32 * m11) by nsatz.
  assert (C7 : m31 = m12 * m23 - m13 * m22) by nsatz.
  assert (C8 : m32 = m13 * m21 - m11 * m23) by nsatz.
  assert (C9 : m33 = m11 * m22 - m12 * m21) by nsatz.
  apply vec3_eq; simpl; nsatz.
Qed.
Lemma apply3_add m a b : apply3 m (add a b) = add (apply3 m a) (apply3 m b).
Proof. veq; ring. Qed.
Lemma apply3_sub m a b : apply3 m (sub a b) = sub (apply3 m a) (apply3 m b).
Proof. veq; ring. Qed.
Lemma apply3_scale m k a : apply3 m (scale k a) = scale k (apply3 m a).
Proof. veq; ring. Qed.
Lemma apply3_zero m : apply3 m zero3 = zero3.
Proof. veq; ring. Qed.

Lemma rodrigues_dot u a b t : dot u u = 1 -> dot (rodrigues u a t) (rodrigues u b t) = dot a b.
Proof.
  intros H. destruct (rodrigues_matrix u t H) as [m [Hm E]]. rewrite !E. apply rotation_dot; auto.
Qed.
Lemma rodrigues_cross u a b t : dot u u = 1 ->
  rodrigues u (cross a b) t = cross (rodrigues u a t) (rodrigues u b t).
Proof.
  intros H. destruct (rodrigues_matrix u t H) as [m [Hm E]]. rewrite !E. apply rotation_cross; auto.
Qed.
Lemma rodrigues_axis u k t : dot u u = 1 -> rodrigues u (scale k u) t = scale k u.
Proof.
  intros H. destruct u as [x y z]. vunf. apply vec3_eq; simpl; nsatz.
Qed.
Lemma rodrigues_compose u v s t : dot u u = 1 ->
  rodrigues u (rodrigues u v s) t = rodrigues u v (s + t).
Proof.
  intros H. destruct u as [x y z], v as [a b c]. vunf. rewrite cos_plus, sin_plus.
  apply vec3_eq; simpl; nsatz.
Qed.
Lemma rodrigues_zero u v : rodrigues u v 0 = v.
Proof. veq; rewrite cos_0, sin_0; ring. Qed.

(** ** Noise *)
Lemma magnitude_noise_ok z v e : v <> zero3 ->
  v3_with_magnitude_noise z v e = Ok (scale ((norm v + z * e) / norm v) v).
Proof.
  intros H. unfold v3_with_magnitude_noise. rewrite normalized_ok by auto. simpl. spec_ops.
  rewrite v3_scaled_scale. apply norm_pos in H. apply f_equal.
  unfold gauss. revert H. generalize (norm v). intros n H. veq; field; lra.
Qed.
Lemma magnitude_noise_zero z e : v3_with_magnitude_noise z zero3 e = Err ZeroDivisionError.
Proof. unfold v3_with_magnitude_noise. rewrite normalized_zero. reflexivity. Qed.

Lemma cross_z_zero v : cross v (V3 0 0 1) = zero3 <-> x3 v = 0 /\ y3 v = 0.
Proof.
  split.
  - intros H. unfold cross, zero3 in H. simpl in H. injection H; intros. lra.
  - intros [H1 H2]. veq; rewrite ?H1, ?H2; ring.
Qed.
Lemma angular_noise_err z u v e : x3 v = 0 /\ y3 v = 0 ->
  v3_with_angular_noise z u v e = Err ZeroDivisionError.
Proof.
  intros H. unfold v3_with_angular_noise. spec_ops. apply cross_z_zero in H. rewrite H.
  rewrite rotation_zero. reflexivity.
Qed.
Lemma angular_noise_ok z u v e : ~ (x3 v = 0 /\ y3 v = 0) ->
  exists w, v3_with_angular_noise z u v e = Ok w /\ norm w = norm v /\
            dot v w = norm v * norm v * cos (z * e).
Proof.
  intros H. assert (Hc : cross v (V3 0 0 1) <> zero3) by (rewrite cross_z_zero; auto).
  assert (Hv : v <> zero3) by (intros E; subst; apply H; simpl; auto).
  unfold v3_with_angular_noise. spec_ops. rewrite rotation_ok by auto. simpl.
  rewrite rotation_ok by auto. eexists; split; [reflexivity|].
  assert (Hcu := unit_dot _ Hc). assert (Hvu := unit_dot _ Hv).
  set (cu := scale (/ norm (cross v (V3 0 0 1))) (cross v (V3 0 0 1))) in *.
  set (vu := scale (/ norm v) v) in *.
  set (w := rodrigues cu v (gauss z 0 e)).
  split.
  - unfold norm. rewrite rodrigues_dot by auto. unfold w. rewrite rodrigues_dot by auto. reflexivity.
  - assert (Ev : rodrigues vu v (uniform u 0 (2 * PI)) = v).
    { assert (E := unit_scale_back v Hv). fold vu in E. rewrite <- E at 1 2.
      apply rodrigues_axis; auto. }
    rewrite <- Ev at 1. rewrite rodrigues_dot by auto.
    assert (O : dot cu v = 0) by (unfold cu; vunf; ring).
    assert (O2 : dot v (cross cu v) = 0) by (vunf; ring).
    rewrite norm_sq. unfold w, gauss.
    replace (0 + z * e) with (z * e) by ring.
    unfold rodrigues. rewrite O.
    replace (dot v (add (add (scale (cos (z * e)) v) (scale (sin (z * e)) (cross cu v)))
                       (scale (0 * (1 - cos (z * e))) cu)))
      with (cos (z * e) * dot v v + sin (z * e) * dot v (cross cu v)) by (vunf; ring).
    rewrite O2; ring.
Qed.

(** ** Inverse *)
Lemma determinant_det m : m3_determinant m = det3 m.
Proof. vunf; ring. Qed.
Lemma inverse_err m : det3 m = 0 -> m3_inverse m = Err ZeroDivisionError.
Proof. intros H. unfold m3_inverse. rewrite determinant_det, H, pdiv_zero. reflexivity. Qed.

Ltac cases_lt i n :=
  match n with
  | O => exfalso; lia
  | S ?k => destruct i as [|i]; [|cases_lt i k]
  end.

Lemma inverse_ok m : det3 m <> 0 -> exists w, m3_inverse m = Ok w /\
  forall i j, (i < 3)%nat -> (j < 3)%nat ->
    sum 3 (fun k => ent33 m i k * ent33 w k j) = delta i j /\
    sum 3 (fun k => ent33 w i k * ent33 m k j) = delta i j.
Proof.
  intros H. unfold m3_inverse. rewrite determinant_det. rewrite pdiv_ok by auto. simpl.
  eexists; split; [reflexivity|]. intros i j Hi Hj.
  destruct m as [[a b c] [d e f] [g h k]].
  unfold m3_adjugate, m3_cofactor. vunf.
  cases_lt i 3%nat; cases_lt j 3%nat; unfold delta; simpl; split; field; auto.
Qed.

(** ** Statements used by the property file *)
Lemma rotation_spec v axis t : axis <> zero3 ->
  exists u, dot u u = 1 /\ axis = scale (norm axis) u /\ 0 < norm axis /\
    v3_rotation_about_axis v axis t = Ok (rodrigues u v t).
Proof.
  intros H. exists (scale (/ norm axis) axis). repeat split.
  - apply unit_dot; auto.
  - symmetry; apply unit_scale_back; auto.
  - apply norm_pos; auto.
  - apply rotation_ok; auto.
Qed.
Lemma rotation_error_iff v axis t e :
  v3_rotation_about_axis v axis t = Err e <-> axis = zero3 /\ e = ZeroDivisionError.
Proof.
  destruct (vec3_zero_dec axis) as [E|E].
  - subst. rewrite rotation_zero. split; [intros H; inversion H; auto|intros [_ H]; subst; auto].
  - rewrite rotation_ok by auto. split; [discriminate|intros [H _]; contradiction].
Qed.
Lemma rotation_rigid a b axis t a' b' :
  v3_rotation_about_axis a axis t = Ok a' -> v3_rotation_about_axis b axis t = Ok b' ->
  norm a' = norm a /\ dot a' b' = dot a b /\
  v3_rotation_about_axis (cross a b) axis t = Ok (cross a' b').
Proof.
  intros Ha Hb. destruct (vec3_zero_dec axis) as [E|E].
  { subst; rewrite rotation_zero in Ha; discriminate. }
  rewrite rotation_ok in * by auto. inversion Ha; inversion Hb.
  assert (U := unit_dot _ E).
  split; [|split].
  - unfold norm at 1 3. rewrite rodrigues_dot by auto. reflexivity.
  - apply rodrigues_dot; auto.
  - rewrite rodrigues_cross by auto. reflexivity.
Qed.
Lemma rotation_fixes_axis axis k t : axis <> zero3 ->
  v3_rotation_about_axis (scale k axis) axis t = Ok (scale k axis).
Proof.
  intros H. rewrite rotation_ok by auto. apply f_equal.
  assert (E := unit_scale_back _ H).
  assert (E2 : scale k axis = scale (k * norm axis) (scale (/ norm axis) axis)).
  { apply norm_pos in H. revert H. generalize (norm axis); intros n H. veq; field; lra. }
  rewrite E2. apply rodrigues_axis, unit_dot; auto.
Qed.
Lemma rotation_composes v axis s t v' : v3_rotation_about_axis v axis s = Ok v' ->
  v3_rotation_about_axis v' axis t = v3_rotation_about_axis v axis (s + t).
Proof.
  intros H. destruct (vec3_zero_dec axis) as [E|E].
  { subst; rewrite rotation_zero in H; discriminate. }
  rewrite rotation_ok in H by auto. inversion H. rewrite !rotation_ok by auto.
  rewrite rodrigues_compose by (apply unit_dot; auto). reflexivity.
Qed.
Lemma rotation_undone v axis t v' : v3_rotation_about_axis v axis t = Ok v' ->
  v3_rotation_about_axis v' axis (- t) = Ok v.
Proof.
  intros H. rewrite (rotation_composes _ _ _ _ _ H).
  destruct (vec3_zero_dec axis) as [E|E].
  { subst; rewrite rotation_zero in H; discriminate. }
  rewrite rotation_ok by auto. replace (t + - t) with 0 by ring.
  rewrite rodrigues_zero. reflexivity.
Qed.
Lemma angle_spec a b : a <> zero3 -> b <> zero3 -> exists t,
  v3_angle a b = Ok t /\ 0 <= t <= PI /\ norm a * norm b * cos t = dot a b /\
  forall t', 0 <= t' <= PI -> norm a * norm b * cos t' = dot a b -> t' = t.
Proof.
  intros Ha Hb. exists (acos (cos_arg a b)). split; [apply angle_ok; auto|].
  split; [apply acos_bound|]. split; [apply (cos_angle a b), angle_ok; auto|].
  intros t' H1 H2. assert (E := angle_unique a b t' Ha Hb H1 H2). rewrite angle_ok in E by auto.
  inversion E; auto.
Qed.
Lemma angle_error_iff a b e : v3_angle a b = Err e <-> (a = zero3 \/ b = zero3) /\ e = ZeroDivisionError.
Proof.
  destruct (vec3_zero_dec a) as [E|E]; [|destruct (vec3_zero_dec b) as [E2|E2]].
  - rewrite angle_err by auto. split; [intros H; inversion H; auto|intros [_ H]; subst; auto].
  - rewrite angle_err by auto. split; [intros H; inversion H; auto|intros [_ H]; subst; auto].
  - rewrite angle_ok by auto. split; [discriminate|tauto].
Qed.
Lemma angle_sym a b : v3_angle a b = v3_angle b a.
Proof.
  unfold v3_angle. spec_ops. rewrite (Rmult_comm (norm a)). replace (dot a b) with (dot b a) by (vunf; ring).
  reflexivity.
Qed.
Lemma scale_nonzero k a : k <> 0 -> a <> zero3 -> scale k a <> zero3.
Proof.
  intros Hk Ha E. apply Ha. vunf. injection E; intros.
  apply vec3_eq; simpl; apply Rmult_eq_reg_l with k; auto; lra.
Qed.
Lemma angle_scale a b k l : 0 < k -> 0 < l -> v3_angle (scale k a) (scale l b) = v3_angle a b.
Proof.
  intros Hk Hl.
  destruct (vec3_zero_dec a) as [E|E].
  { rewrite !angle_err; auto. left. subst; veq; ring. }
  destruct (vec3_zero_dec b) as [E2|E2].
  { rewrite !angle_err; auto. right. subst; veq; ring. }
  rewrite !angle_ok; auto; try (apply scale_nonzero; auto; lra).
  do 2 apply f_equal. unfold cos_arg. rewrite !norm_scale, !Rabs_right by lra.
  apply norm_pos in E. apply norm_pos in E2.
  replace (dot (scale k a) (scale l b)) with (k * l * dot a b) by (vunf; ring).
  field. lra.
Qed.
Lemma normalized_spec a : a <> zero3 -> exists u,
  v3_normalized a = Ok u /\ norm u = 1 /\ exists k, 0 < k /\ u = scale k a.
Proof.
  intros H. exists (scale (/ norm a) a). split; [apply normalized_ok; auto|].
  split; [apply unit_norm; auto|]. exists (/ norm a). split; auto.
  apply Rinv_0_lt_compat, norm_pos; auto.
Qed.
Lemma normalized_error_iff a e : v3_normalized a = Err e <-> a = zero3 /\ e = ZeroDivisionError.
Proof.
  destruct (vec3_zero_dec a) as [E|E].
  - subst. rewrite normalized_zero. split; [intros H; inversion H; auto|intros [_ H]; subst; auto].
  - rewrite normalized_ok by auto. split; [discriminate|tauto].
Qed.
Lemma inverse_error_iff m e : m3_inverse m = Err e <-> m3_determinant m = 0 /\ e = ZeroDivisionError.
Proof.
  rewrite determinant_det.
  destruct (Req_EM_T (det3 m) 0) as [E|E].
  - rewrite inverse_err by auto. split; [intros H; inversion H; auto|intros [_ H]; subst; auto].
  - destruct (inverse_ok m E) as [w [Hw _]]. rewrite Hw. split; [discriminate|tauto].
Qed.
Lemma inverse_spec m : m3_determinant m <> 0 -> exists w, m3_inverse m = Ok w /\
  forall i j, (i < 3)%nat -> (j < 3)%nat ->
    sum 3 (fun k => ent33 m i k * ent33 w k j) = delta i j /\
    sum 3 (fun k => ent33 w i k * ent33 m k j) = delta i j.
Proof. rewrite determinant_det. apply inverse_ok. Qed.

Lemma angular_noise_spec z u v e : ~ (x3 v = 0 /\ y3 v = 0) -> exists w,
  v3_with_angular_noise z u v e = Ok w /\ norm w = norm v /\
  dot v w = norm v * norm w * cos (gauss z 0 e) /\
  (Rabs (gauss z 0 e) <= PI -> v3_angle v w = Ok (Rabs (gauss z 0 e))).
Proof.
  intros H. destruct (angular_noise_ok z u v e H) as [w [Hw [Hn Hd]]].
  exists w. split; auto. split; auto. unfold gauss. rewrite Rplus_0_l, Hn.
  split; auto. intros Hr.
  assert (Hv : v <> zero3) by (intros E; subst; apply H; simpl; auto).
  assert (Hw0 : w <> zero3).
  { intros E. apply norm_zero in E. apply norm_pos in Hv. lra. }
  apply angle_unique; auto.
  - split; auto. apply Rabs_pos.
  - rewrite Hn, Hd. f_equal. unfold Rabs. destruct (Rcase_abs (z * e)); auto. apply cos_neg.
Qed.
Lemma angular_noise_error_iff z u v e x :
  v3_with_angular_noise z u v e = Err x <-> (x3 v = 0 /\ y3 v = 0) /\ x = ZeroDivisionError.
Proof.
  destruct (Req_EM_T (x3 v) 0) as [E1|E1]; [destruct (Req_EM_T (y3 v) 0) as [E2|E2]|].
  - rewrite angular_noise_err by auto. split; [intros H; inversion H; auto|intros [_ H]; subst; auto].
  - destruct (angular_noise_ok z u v e) as [w [Hw _]]; [tauto|]. rewrite Hw. split; [discriminate|tauto].
  - destruct (angular_noise_ok z u v e) as [w [Hw _]]; [tauto|]. rewrite Hw. split; [discriminate|tauto].
Qed.
Lemma magnitude_noise_spec z v e : v <> zero3 -> exists w,
  v3_with_magnitude_noise z v e = Ok w /\
  exists n, norm n = 1 /\ v = scale (norm v) n /\ w = scale (gauss z (norm v) e) n.
Proof.
  intros H. eexists. split; [apply magnitude_noise_ok; auto|].
  exists (scale (/ norm v) v). split; [apply unit_norm; auto|].
  split; [symmetry; apply unit_scale_back; auto|].
  unfold gauss. apply norm_pos in H. revert H. generalize (norm v); intros n H. veq; field; lra.
Qed.
Lemma with_noise_compose z1 z2 u v re ae w : v3_with_magnitude_noise z1 v re = Ok w ->
  v3_with_noise z1 z2 u v re ae = v3_with_angular_noise z2 u w ae.
Proof. intros H. unfold v3_with_noise. rewrite H. reflexivity. Qed.

(** length and tilt of the combined noise *)
Lemma with_noise_spec z1 z2 u v re ae :
  ~ (x3 v = 0 /\ y3 v = 0) -> gauss z1 (norm v) re <> 0 -> exists w,
  v3_with_noise z1 z2 u v re ae = Ok w /\ norm w = Rabs (gauss z1 (norm v) re) /\
  norm v * gauss z1 (norm v) re * cos (gauss z2 0 ae) = dot v w.
Proof.
  intros H Hg.
  assert (Hv : v <> zero3) by (intros E; subst; apply H; simpl; auto).
  unfold v3_with_noise. rewrite magnitude_noise_ok by auto.
  change (norm v + z1 * re) with (gauss z1 (norm v) re).
  set (g := gauss z1 (norm v) re) in *. assert (P := norm_pos v Hv).
  set (k := g / norm v). assert (Hk : k <> 0).
  { unfold k, Rdiv. apply Rmult_integral_contrapositive_currified; auto. apply Rinv_neq_0_compat; lra. }
  simpl bind.
  destruct (angular_noise_ok z2 u (scale k v) ae) as [w [Hw [Hn Hd]]].
  { intros [H1 H2]. apply H. simpl in H1, H2.
    split; apply Rmult_eq_reg_l with k; auto; lra. }
  exists w. split; auto.
  assert (En : norm (scale k v) = Rabs g).
  { rewrite norm_scale. unfold k, Rdiv. rewrite Rabs_mult, Rabs_inv, (Rabs_right (norm v)) by lra.
    field. lra. }
  split; [rewrite Hn; auto|].
  unfold gauss at 1. rewrite Rplus_0_l.
  assert (E : k * dot v w = g * g * cos (z2 * ae)).
  { replace (k * dot v w) with (dot (scale k v) w) by (vunf; ring). rewrite Hd, En.
    rewrite <- Rabs_mult, Rabs_right by nra. reflexivity. }
  apply Rmult_eq_reg_l with k; auto. rewrite E. unfold k. field. lra.
Qed.
Lemma cross_spec a b :
  dot a (cross a b) = 0 /\ dot b (cross a b) = 0 /\
  dot (cross a b) (cross a b) + dot a b * dot a b = dot a a * dot b b.
Proof. repeat split; vunf; ring. Qed.
Lemma v3_cross_spec a b :
  dot a (v3_cross a b) = 0 /\ dot b (v3_cross a b) = 0 /\
  v3_cross b a = scale (-1) (v3_cross a b) /\
  norm (v3_cross a b) ^ 2 + dot a b ^ 2 = norm a ^ 2 * norm b ^ 2 /\
  triple a b (v3_cross a b) = norm (v3_cross a b) ^ 2 /\
  (norm (v3_cross a b) = 0 <-> v3_cross a b = zero3) /\
  v3_cross (V3 1 0 0) (V3 0 1 0) = V3 0 0 1.
Proof.
  change v3_cross with cross.
  assert (N : forall x, norm x ^ 2 = dot x x) by (intros; rewrite <- norm_sq; ring).
  rewrite !N. repeat split; try (vunf; ring); try apply norm_zero.
  - veq; ring.
  - veq; ring.
Qed.
