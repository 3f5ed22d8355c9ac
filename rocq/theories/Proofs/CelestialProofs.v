From Coq Require Import Reals Lra Lia Nsatz Psatz.
From Verif.Model Require Import Num Constants Linalg Functions Time Celestial Positions.
From Verif.Spec Require Import Geometry Earth.
From Verif.Proofs Require Import NumLemmas LinalgProofs Analysis TimeProofs.
Local Open Scope R_scope.

Lemma rot3_product x y z :
  is_rotation (M3 (V3 (- sin z * sin x + cos z * cos y * cos x) (- sin z * cos x - cos z * cos y * sin x) (- cos z * sin y))
     (V3 (cos z * sin x + sin z * cos y * cos x) (cos z * cos x - sin z * cos y * sin x) (- sin z * sin y))
     (V3 (sin y * cos x) (- sin y * sin x) (cos y))).
Proof.
  assert (Hx := sin2_cos2' x). assert (Hy := sin2_cos2' y). assert (Hz := sin2_cos2' z).
  generalize dependent (sin x). generalize dependent (cos x). generalize dependent (sin y). generalize dependent (cos y).
  generalize dependent (sin z). generalize dependent (cos z). intros.
  unfold is_rotation, det3, triple, dot, cross; cbn. repeat split; nsatz.
Qed.
Lemma precession_rotation e : is_rotation (Earth_precession e).
Proof. unfold Earth_precession. apply rot3_product. Qed.

Lemma unit_z : V3 0 0 1 <> zero3.
Proof. intros H. injection H. lra. Qed.
Lemma unit_x : V3 1 0 0 <> zero3.
Proof. intros H. injection H. lra. Qed.
Definition rotz (t : R) : mat3 := M3 (V3 (cos t) (- sin t) 0) (V3 (sin t) (cos t) 0) (V3 0 0 1).
Lemma rotation_matrix_z t : v3_rotation_matrix (V3 0 0 1) t = Ok (rotz t).
Proof.
  unfold v3_rotation_matrix. rewrite normalized_ok by apply unit_z.
  replace (norm (V3 0 0 1)) with 1.
  - cbn [bind]. apply f_equal. unfold rotz, scale; cbn. f_equal; f_equal; field.
  - unfold norm, dot; cbn. symmetry. apply sqrt_eq; [lra|ring].
Qed.
Lemma rotz_rotation t : is_rotation (rotz t).
Proof.
  assert (H := sin2_cos2' t). unfold rotz, is_rotation, det3, triple, dot, cross; cbn.
  repeat split; try ring; nsatz.
Qed.
Lemma rotation_x t v : v3_rotation_about_axis v (V3 1 0 0) t
  = Ok (V3 (x3 v) (cos t * y3 v - sin t * z3 v) (sin t * y3 v + cos t * z3 v)).
Proof.
  rewrite rotation_ok by apply unit_x. apply f_equal.
  replace (norm (V3 1 0 0)) with 1.
  - unfold rodrigues. veq; field.
  - unfold norm, dot; cbn. symmetry. apply sqrt_eq; [lra|ring].
Qed.
Lemma rotation_z t v : v3_rotation_about_axis v (V3 0 0 1) t = Ok (apply3 (rotz t) v).
Proof.
  unfold v3_rotation_about_axis. rewrite rotation_matrix_z. cbn [bind]. rewrite v3_copy_id. reflexivity.
Qed.
(** the apparent sidereal angle of Earth_rotation *)
Definition gast (e : epoch) : R :=
  nutation_longitude e * cos (obliquity_of_ecliptic_at_epoch e) + greenwich_hour_angle e.
Lemma dpsi_eq e :
  (let d := julian_value e - J2000_JULIAN_DATE in
  let arg1 := radians (125.0 - 0.05295 * d) in
  let arg2 := radians (200.9 + 1.97129 * d) in
  let a := radians (-0.0048) in
  let b := radians 0.0004 in
  a * sin arg1 - b * sin arg2) = nutation_longitude e.
Proof.
  cbv zeta. unfold nutation_longitude, days_j2000, deg, radians, julian_value, J2000_JULIAN_DATE, MJD_ZERO.
  replace 125.0 with 125 by lra. reflexivity.
Qed.
Lemma deps_eq e :
  (let d := julian_value e - J2000_JULIAN_DATE in
  let arg1 := radians (125.0 - 0.05295 * d) in
  let arg2 := radians (200.9 + 1.97129 * d) in
  let a := radians 0.0026 in
  let b := radians 0.0002 in
  a * cos arg1 + b * cos arg2) = nutation_obliquity e.
Proof.
  cbv zeta. unfold nutation_obliquity, days_j2000, deg, radians, julian_value, J2000_JULIAN_DATE, MJD_ZERO.
  replace 125.0 with 125 by lra. reflexivity.
Qed.
Lemma Earth_rotation_ok e : Earth_rotation e = Ok (rotz (- gast e)).
Proof.
  unfold Earth_rotation, gast. cbv zeta. rewrite <- (dpsi_eq e). cbv zeta. apply rotation_matrix_z.
Qed.
Lemma Earth_rotation_rotation e : exists m, Earth_rotation e = Ok m /\ is_rotation m.
Proof. rewrite Earth_rotation_ok. eexists; split; [reflexivity|apply rotz_rotation]. Qed.

(** nutation: identity plus a cross product *)
Definition nut_vector (e : epoch) : vec3 :=
  let eps := obliquity_of_ecliptic_at_epoch e in
  V3 (nutation_obliquity e) (- (nutation_longitude e * sin eps)) (nutation_longitude e * cos eps).
Lemma nutation_apply e x : apply3 (Earth_nutation e) x = add x (cross (nut_vector e) x).
Proof.
  unfold Earth_nutation, nut_vector. rewrite <- (dpsi_eq e), <- (deps_eq e). cbv zeta.
  unfold apply3, add, cross, dot; cbn. apply vec3_eq; cbn; lra.
Qed.
Lemma nutation_transposed e x : apply3 (transposed (Earth_nutation e)) x = sub x (cross (nut_vector e) x).
Proof.
  unfold Earth_nutation, nut_vector. rewrite <- (dpsi_eq e), <- (deps_eq e). cbv zeta.
  unfold apply3, transposed, sub, cross, dot; cbn. apply vec3_eq; cbn; lra.
Qed.
Lemma nut_vector_sq e : dot (nut_vector e) (nut_vector e)
  = nutation_longitude e * nutation_longitude e + nutation_obliquity e * nutation_obliquity e.
Proof.
  unfold nut_vector, dot; cbn. assert (H := sin2_cos2' (obliquity_of_ecliptic_at_epoch e)). nsatz.
Qed.
Lemma abs_bound a b x y A B : Rabs a <= A -> Rabs b <= B -> Rabs x <= 1 -> Rabs y <= 1 ->
  Rabs (a * x + b * y) <= A + B.
Proof.
  intros. eapply Rle_trans; [apply Rabs_triang|]. rewrite !Rabs_mult.
  assert (0 <= Rabs a) by apply Rabs_pos. assert (0 <= Rabs b) by apply Rabs_pos.
  assert (Rabs a * Rabs x <= A * 1) by (apply Rmult_le_compat; auto; apply Rabs_pos).
  assert (Rabs b * Rabs y <= B * 1) by (apply Rmult_le_compat; auto; apply Rabs_pos). lra.
Qed.
Lemma sin_abs x : Rabs (sin x) <= 1.
Proof. apply Rabs_le. apply SIN_bound. Qed.
Lemma cos_abs x : Rabs (cos x) <= 1.
Proof. apply Rabs_le. apply COS_bound. Qed.
Lemma deg_bounds x : 0 <= x -> 0.01745329 * x <= deg x <= 0.01745330 * x.
Proof.
  intros H. unfold deg. assert (P := PI_bounds).
  assert (0.01745329 <= PI / 180 <= 0.01745330) by lra. split; rewrite (Rmult_comm x); apply Rmult_le_compat_r; lra.
Qed.
Lemma deg_opp x : deg (- x) = - deg x.
Proof. unfold deg; ring. Qed.
Lemma deg_abs x : Rabs (deg x) <= 0.01745330 * Rabs x.
Proof.
  unfold deg. rewrite Rabs_mult, Rmult_comm. apply Rmult_le_compat_r; [apply Rabs_pos|].
  assert (P := PI_bounds). rewrite Rabs_pos_eq; lra.
Qed.
Lemma dpsi_bound e : Rabs (nutation_longitude e) <= 9.0760e-5.
Proof.
  unfold nutation_longitude.
  replace (deg (-0.0048) * sin (deg (125 - 0.05295 * days_j2000 e)) - deg 0.0004 * sin (deg (200.9 + 1.97129 * days_j2000 e)))
   with (deg (-0.0048) * sin (deg (125 - 0.05295 * days_j2000 e)) + deg (-0.0004) * sin (deg (200.9 + 1.97129 * days_j2000 e))) by (unfold deg; lra).
  eapply Rle_trans; [apply abs_bound; [apply deg_abs|apply deg_abs|apply sin_abs|apply sin_abs]|].
  rewrite !Rabs_left by lra. lra.
Qed.
Lemma deps_bound e : Rabs (nutation_obliquity e) <= 4.8871e-5.
Proof.
  unfold nutation_obliquity.
  eapply Rle_trans; [apply abs_bound; [apply deg_abs|apply deg_abs|apply cos_abs|apply cos_abs]|].
  rewrite !Rabs_pos_eq by lra. lra.
Qed.
Lemma sq_bound x b : Rabs x <= b -> x * x <= b * b.
Proof.
  intros H. assert (0 <= Rabs x) by apply Rabs_pos.
  replace (x * x) with (Rabs x * Rabs x) by (rewrite <- Rabs_mult; apply Rabs_pos_eq; nra).
  apply Rmult_le_compat; auto.
Qed.
Lemma nut_vector_bound e : dot (nut_vector e) (nut_vector e) <= 1.0626e-8.
Proof.
  rewrite nut_vector_sq. assert (A := sq_bound _ _ (dpsi_bound e)). assert (B := sq_bound _ _ (deps_bound e)).
  lra.
Qed.
Lemma lagrange a b : dot (cross a b) (cross a b) = dot a a * dot b b - dot a b * dot a b.
Proof. vunf. ring. Qed.
Lemma nutation_norm_sq e x :
  dot (apply3 (Earth_nutation e) x) (apply3 (Earth_nutation e) x)
  = dot x x + dot (cross (nut_vector e) x) (cross (nut_vector e) x).
Proof. rewrite nutation_apply. vunf. ring. Qed.
Lemma nutation_stretch e x :
  norm x <= norm (apply3 (Earth_nutation e) x) <= (1 + 5.5e-9) * norm x.
Proof.
  assert (N := nutation_norm_sq e x). assert (B := nut_vector_bound e).
  assert (P := dot_self_nonneg (cross (nut_vector e) x)). assert (Q := dot_self_nonneg x).
  assert (W := dot_self_nonneg (nut_vector e)).
  split.
  - apply sqrt_le_1_alt. lra.
  - rewrite <- (sqrt_square ((1 + 5.5e-9) * norm x)).
    2:{ apply Rmult_le_pos; [lra|apply norm_nonneg]. }
    apply sqrt_le_1_alt.
    replace ((1 + 5.5e-9) * norm x * ((1 + 5.5e-9) * norm x)) with ((1 + 5.5e-9) * (1 + 5.5e-9) * dot x x) by (rewrite <- norm_sq; ring).
    rewrite N. rewrite lagrange.
    assert (dot (nut_vector e) (nut_vector e) * dot x x <= 1.0626e-8 * dot x x) by (apply Rmult_le_compat_r; auto).
    assert (0 <= dot (nut_vector e) x * dot (nut_vector e) x) by nra. lra.
Qed.
Lemma nutation_isometry_iff e :
  (forall x, norm (apply3 (Earth_nutation e) x) = norm x) <->
  nutation_longitude e = 0 /\ nutation_obliquity e = 0.
Proof.
  split.
  - intros H.
    assert (Z : forall x, dot (cross (nut_vector e) x) (cross (nut_vector e) x) = 0).
    { intros x. assert (N := nutation_norm_sq e x). rewrite <- !norm_sq in N. rewrite H in N.
      rewrite <- norm_sq. lra. }
    assert (A1 := Z (V3 1 0 0)). assert (A2 := Z (V3 0 1 0)). rewrite lagrange in A1, A2.
    assert (S := nut_vector_sq e).
    set (w := nut_vector e) in *. clearbody w. unfold dot in A1, A2, S. destruct w as [a b c]. cbn in *. clear H Z.
    assert (0 <= a * a) by apply Rle_0_sqr. assert (0 <= b * b) by apply Rle_0_sqr. assert (0 <= c * c) by apply Rle_0_sqr.
    set (p := nutation_longitude e) in *. set (q := nutation_obliquity e) in *.
    assert (0 <= p * p) by apply Rle_0_sqr. assert (0 <= q * q) by apply Rle_0_sqr.
    split; apply Rsqr_0_uniq; unfold Rsqr; lra.
  - intros [H1 H2] x. unfold norm. f_equal. rewrite nutation_norm_sq.
    replace (nut_vector e) with zero3; [vunf; ring|].
    unfold nut_vector. rewrite H1, H2. veq; ring.
Qed.
(** an epoch with a quarter turn of the lunar node: the nutation is not zero *)
Definition nutation_witness : epoch := Epoch (35 / 0.05295 + 51544.5).
Lemma nutation_witness_nonzero : nutation_longitude nutation_witness < 0.
Proof.
  unfold nutation_longitude, nutation_witness, days_j2000. cbn [value].
  replace (125 - 0.05295 * (35 / 0.05295 + 51544.5 + 2400000.5 - 2451545)) with 90 by lra.
  replace (sin (deg 90)) with 1 by (unfold deg; replace (90 * (PI / 180)) with (PI / 2) by field; symmetry; apply sin_PI2).
  set (s := sin _). assert (B : -1 <= s <= 1) by apply SIN_bound. unfold deg.
  assert (P := PI_bounds). assert (0 < PI / 180) by lra.
  replace (-0.0048 * (PI / 180) * 1 - 0.0004 * (PI / 180) * s) with ((-0.0048 - 0.0004 * s) * (PI / 180)) by ring.
  assert ((0.0048 + 0.0004 * s) * (PI / 180) > 0) by (apply Rmult_lt_0_compat; lra). lra.
Qed.
Lemma rotation_isometry m : is_rotation m -> forall x, norm (apply3 m x) = norm x.
Proof. intros H x. apply rotation_norm; auto. Qed.
Lemma nutation_not_rotation : exists e, ~ is_rotation (Earth_nutation e).
Proof.
  exists nutation_witness. intros H. assert (I := rotation_isometry _ H).
  apply nutation_isometry_iff in I. generalize nutation_witness_nonzero. lra.
Qed.
(** frame chain *)
Lemma gcrf_to_itrf_ok p e :
  gcrf_to_itrf p e = Ok (apply3 (rotz (- gast e)) (apply3 (Earth_nutation e) (apply3 (Earth_precession e) p))).
Proof. unfold gcrf_to_itrf. rewrite Earth_rotation_ok. reflexivity. Qed.
Lemma itrf_to_gcrf_ok p e :
  itrf_to_gcrf p e = Ok (apply3 (transposed (Earth_precession e)) (apply3 (transposed (Earth_nutation e))
    (apply3 (transposed (rotz (- gast e))) p))).
Proof. unfold itrf_to_gcrf, itrf_to_mod, itrf_to_tod. rewrite Earth_rotation_ok. reflexivity. Qed.
Lemma double_nutation e x :
  sub (apply3 (transposed (Earth_nutation e)) (apply3 (Earth_nutation e) x)) x
  = scale (-1) (cross (nut_vector e) (cross (nut_vector e) x)).
Proof. rewrite nutation_transposed, nutation_apply. veq; ring. Qed.
Lemma double_nutation' e x :
  sub (apply3 (Earth_nutation e) (apply3 (transposed (Earth_nutation e)) x)) x
  = scale (-1) (cross (nut_vector e) (cross (nut_vector e) x)).
Proof. rewrite nutation_transposed, nutation_apply. veq; ring. Qed.
Lemma cross_norm_le a b : norm (cross a b) <= norm a * norm b.
Proof.
  rewrite <- (sqrt_square (norm a * norm b)) by (apply Rmult_le_pos; apply norm_nonneg).
  apply sqrt_le_1_alt. rewrite lagrange.
  replace (norm a * norm b * (norm a * norm b)) with ((norm a * norm a) * (norm b * norm b)) by ring.
  rewrite !norm_sq. nra.
Qed.
Lemma double_cross_bound e x :
  norm (scale (-1) (cross (nut_vector e) (cross (nut_vector e) x))) <= 1.0626e-8 * norm x.
Proof.
  rewrite norm_opp. eapply Rle_trans; [apply cross_norm_le|].
  apply Rle_trans with (norm (nut_vector e) * (norm (nut_vector e) * norm x)).
  - apply Rmult_le_compat_l; [apply norm_nonneg|apply cross_norm_le].
  - rewrite <- Rmult_assoc, norm_sq. apply Rmult_le_compat_r; [apply norm_nonneg|apply nut_vector_bound].
Qed.
Lemma gcrf_round_trip p e : exists q p', gcrf_to_itrf p e = Ok q /\ itrf_to_gcrf q e = Ok p' /\
  norm (sub p' p) <= 1.1e-8 * norm p /\ norm p <= norm q <= (1 + 5.5e-9) * norm p.
Proof.
  rewrite gcrf_to_itrf_ok. eexists _, _. split; [reflexivity|]. rewrite itrf_to_gcrf_ok. split; [reflexivity|].
  rewrite transposed_inverse by apply rotz_rotation.
  set (P := Earth_precession e). assert (RP : is_rotation P) by apply precession_rotation.
  split.
  - rewrite <- (transposed_inverse P p RP) at 2. rewrite <- apply3_sub.
    rewrite rotation_norm by (apply transposed_rotation; auto).
    rewrite double_nutation. eapply Rle_trans; [apply double_cross_bound|].
    rewrite rotation_norm by auto. generalize (norm_nonneg p); lra.
  - rewrite (rotation_norm (rotz _)) by apply rotz_rotation.
    rewrite <- (rotation_norm P p RP). apply nutation_stretch.
Qed.
Lemma itrf_round_trip p e : exists q p', itrf_to_gcrf p e = Ok q /\ gcrf_to_itrf q e = Ok p' /\
  norm (sub p' p) <= 1.1e-8 * norm p.
Proof.
  rewrite itrf_to_gcrf_ok. eexists _, _. split; [reflexivity|]. rewrite gcrf_to_itrf_ok. split; [reflexivity|].
  set (P := Earth_precession e). assert (RP : is_rotation P) by apply precession_rotation.
  rewrite transposed_inverse' by auto.
  set (T := rotz _). assert (RT : is_rotation T) by apply rotz_rotation.
  rewrite <- (transposed_inverse' T p RT) at 2. rewrite <- apply3_sub.
  rewrite rotation_norm by auto. rewrite double_nutation'.
  eapply Rle_trans; [apply double_cross_bound|].
  rewrite rotation_norm by (apply transposed_rotation; auto). generalize (norm_nonneg p); lra.
Qed.
Lemma double_cross_nonzero w : dot w w > 0 -> exists x, cross w (cross w x) <> zero3.
Proof.
  destruct w as [a b c]. unfold dot; cbn. intros Hw.
  assert (0 <= a * a) by apply Rle_0_sqr. assert (0 <= b * b) by apply Rle_0_sqr. assert (0 <= c * c) by apply Rle_0_sqr.
  destruct (Req_dec (b * b + c * c) 0) as [Z|Z].
  - exists (V3 0 1 0). intros E. apply (f_equal y3) in E. cbn in E. lra.
  - exists (V3 1 0 0). intros E. apply (f_equal x3) in E. cbn in E. lra.
Qed.
Lemma gcrf_round_trip_inexact : exists e p q p', gcrf_to_itrf p e = Ok q /\ itrf_to_gcrf q e = Ok p' /\ p' <> p.
Proof.
  set (e := nutation_witness). set (P := Earth_precession e). assert (RP : is_rotation P) by apply precession_rotation.
  set (w := nut_vector e).
  assert (Hw : dot w w > 0).
  { unfold w. rewrite nut_vector_sq. assert (L := nutation_witness_nonzero). fold e in L.
    generalize dependent (nutation_longitude e). generalize (nutation_obliquity e). intros q p L.
    assert (0 <= q * q) by apply Rle_0_sqr. assert (0 < p * p) by nra. lra. }
  destruct (double_cross_nonzero w Hw) as [x Hx].
  exists e, (apply3 (transposed P) x). rewrite gcrf_to_itrf_ok. fold P. eexists _, _. split; [reflexivity|].
  rewrite itrf_to_gcrf_ok. fold P. split; [reflexivity|].
  rewrite transposed_inverse by apply rotz_rotation. rewrite (transposed_inverse' P) by auto.
  intros E. apply (f_equal (apply3 P)) in E. rewrite !(transposed_inverse' P) in E by auto.
  apply Hx. assert (D := double_nutation e x). rewrite E in D. fold w in D.
  replace (sub x x) with zero3 in D by (veq; ring).
  assert (D' : scale (-1) zero3 = scale (-1) (scale (-1) (cross w (cross w x)))) by (rewrite <- D; reflexivity).
  replace (scale (-1) (scale (-1) (cross w (cross w x)))) with (cross w (cross w x)) in D' by (veq; ring).
  rewrite <- D'. veq; ring.
Qed.
(** Sun and Moon *)
Lemma Sun_norm e : 147.099e6 <= norm (Sun_get_position e) <= 152.097e6.
Proof.
  unfold Sun_get_position. cbv zeta.
  set (ma := radians _). rewrite cos_2a_cos. assert (C := COS_bound ma). set (c := cos ma) in *.
  set (lam := _ + _). set (r := (149.619 - 2.499 * c - 0.021 * (2 * c * c - 1)) * 1e6).
  assert (R : 147.099e6 <= r <= 152.097e6).
  { unfold r. assert (0 <= (1 - c) * (2.541 + 0.042 * c)) by (apply Rmult_le_pos; lra).
    assert (0 <= (1 + c) * (2.457 + 0.042 * c)) by (apply Rmult_le_pos; lra). split; lra. }
  replace (norm _) with r; auto.
  unfold norm, dot; cbn. symmetry. apply sqrt_eq; [lra|].
  unfold Sun_COS_OBLIQUITY, Sun_SIN_OBLIQUITY.
  assert (H1 := sin2_cos2' lam). assert (H2 := sin2_cos2' Earth_OBLIQUITY_OF_ECLIPTIC). clearbody r. nsatz.
Qed.
Lemma Moon_norm e : exists p, Moon_get_position e = Ok p /\ 356096 <= norm p <= 413904.
Proof.
  unfold Moon_get_position. cbv zeta.
  match goal with |- context [V3 (?r * cos ?l * cos ?b) _ _] => set (rr := r); set (lam := l) end.
  match goal with |- context [V3 (?r * cos ?l * cos ?b) _ _] => set (beta := b) end.
  rewrite rotation_x. eexists; split; [reflexivity|].
  assert (R : 356096 <= rr <= 413904).
  { unfold rr.
    repeat match goal with |- context [cos ?t] => let c := fresh "c" in let H := fresh "H" in
      assert (H := COS_bound t); set (c := cos t) in *; clearbody c end. lra. }
  replace (norm _) with rr; auto.
  unfold norm, dot; cbn [x3 y3 z3]. symmetry. apply sqrt_eq; [lra|].
  clearbody rr lam beta. set (eps := Earth_OBLIQUITY_OF_ECLIPTIC).
  assert (H1 := sin2_cos2' lam). assert (H2 := sin2_cos2' eps). assert (H3 := sin2_cos2' beta).
  transitivity ((rr * cos lam * cos beta) * (rr * cos lam * cos beta)
    + (sin eps * sin eps + cos eps * cos eps) * ((rr * sin lam * cos beta) * (rr * sin lam * cos beta) + (rr * sin beta) * (rr * sin beta))); [|ring].
  rewrite H2.
  transitivity (rr * rr * ((sin lam * sin lam + cos lam * cos lam) * (cos beta * cos beta) + sin beta * sin beta)); [|ring].
  rewrite H1. transitivity (rr * rr * (sin beta * sin beta + cos beta * cos beta)); [|ring]. rewrite H3. ring.
Qed.
Lemma Earth_rotation_angle e v : exists m, Earth_rotation e = Ok m /\
  let g := nutation_longitude e * cos (obliquity_of_ecliptic_at_epoch e) + greenwich_hour_angle e in
  apply3 m v = V3 (cos g * x3 v + sin g * y3 v) (cos g * y3 v - sin g * x3 v) (z3 v).
Proof.
  exists (rotz (- gast e)). split; [apply Earth_rotation_ok|]. cbv zeta. fold (gast e).
  unfold rotz. rewrite cos_neg, sin_neg. veq; ring.
Qed.
Lemma Sun_ecliptic e :
  dot (Sun_get_position e) (V3 0 (- sin Earth_OBLIQUITY_OF_ECLIPTIC) (cos Earth_OBLIQUITY_OF_ECLIPTIC)) = 0.
Proof. unfold Sun_get_position, Sun_COS_OBLIQUITY, Sun_SIN_OBLIQUITY, dot; cbn [x3 y3 z3]. ring. Qed.
