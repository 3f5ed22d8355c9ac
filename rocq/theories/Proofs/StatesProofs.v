(** Proofs about coordinates/states.py: point masses, frames, derivative. *)
From Coq Require Import Reals Lra Psatz Nsatz.
From Verif.Model Require Import Num Constants Linalg Functions Time Celestial Positions States.
From Verif.Spec Require Import Geometry Gravity Forces.
From Verif.Proofs Require Import NumLemmas LinalgProofs MatrixProofs Analysis FunctionsProofs CelestialProofs PositionsProofs GravityProofs.
Local Open Scope R_scope.

(** * Point masses *)
Lemma cube_pos r : 0 < r -> 0 < r * r * r.
Proof. intros; repeat apply Rmult_lt_0_compat; auto. Qed.
Lemma earth_ok s : g_position s <> zero3 ->
  acceleration_from_earth s = Ok (attraction mu_earth (sub zero3 (g_position s))).
Proof.
  intros H. apply norm_pos in H. unfold acceleration_from_earth. spec_ops.
  rewrite pdiv_ok by (generalize (cube_pos _ H); lra). cbn [bind]. apply f_equal.
  unfold attraction. replace (norm (sub zero3 (g_position s))) with (norm (g_position s)).
  2:{ rewrite norm_sub_sym. f_equal. veq; ring. }
  rewrite v3_scaled_scale. change mu_earth with Earth_MU. generalize Earth_MU; intros mu.
  set (r := norm (g_position s)) in *. clearbody r. veq; field; lra.
Qed.
Lemma earth_zero s : g_position s = zero3 -> acceleration_from_earth s = Err ZeroDivisionError.
Proof.
  intros H. unfold acceleration_from_earth. spec_ops. rewrite H.
  replace (norm zero3) with 0 by (symmetry; apply norm_zero; auto). rewrite !Rmult_0_r. rewrite pdiv_zero. reflexivity.
Qed.
Lemma third_body_ok mu s p : s <> zero3 -> sub s p <> zero3 ->
  third_body mu s p = Ok (sub (attraction mu (sub s p)) (attraction mu s)).
Proof.
  intros H1 H2. unfold third_body. spec_ops. cbv zeta. apply norm_pos in H1. apply norm_pos in H2.
  rewrite pdiv_ok by (generalize (cube_pos _ H2); lra). cbn [bind].
  rewrite pdiv_ok by (generalize (cube_pos _ H1); lra). cbn [bind]. apply f_equal. unfold attraction.
  rewrite !v3_scaled_scale.
  set (r := norm (sub s p)) in *. set (q := norm s) in *. clearbody r q. veq; field; lra.
Qed.
Lemma apart d s p : d <= norm s -> norm p < d -> s <> zero3 /\ sub s p <> zero3.
Proof.
  intros H1 H2. assert (0 <= norm p) by apply norm_nonneg. split; intros E.
  - rewrite E in H1. replace (norm zero3) with 0 in H1 by (symmetry; apply norm_zero; auto). lra.
  - assert (norm (sub s p) = 0) by (rewrite E; apply norm_zero; auto). generalize (norm_sub_ge s p). lra.
Qed.
Lemma moon_ok s : norm (g_position s) < 356096 -> exists m, Moon_get_position (g_epoch s) = Ok m /\
  acceleration_from_moon s = Ok (sub (attraction Moon_MU (sub m (g_position s))) (attraction Moon_MU m)).
Proof.
  intros H. destruct (Moon_norm (g_epoch s)) as (m & E & B & _). exists m. split; auto.
  unfold acceleration_from_moon. rewrite E. cbn [bind]. destruct (apart _ _ _ B H). apply third_body_ok; auto.
Qed.
Lemma sun_ok s : norm (g_position s) < 147.099e6 ->
  let S := Sun_get_position (g_epoch s) in
  acceleration_from_sun s = Ok (sub (attraction Sun_MU (sub S (g_position s))) (attraction Sun_MU S)).
Proof.
  intros H. destruct (Sun_norm (g_epoch s)) as [B _]. destruct (apart _ _ _ B H).
  apply third_body_ok; auto.
Qed.
Lemma tidal_centre mu s : sub (attraction mu (sub s zero3)) (attraction mu s) = zero3.
Proof. replace (sub s zero3) with s by (veq; ring). veq; ring. Qed.
Lemma tides_centre s : g_position s = zero3 -> acceleration_from_moon s = Ok zero3 /\ acceleration_from_sun s = Ok zero3.
Proof.
  intros E. assert (N : norm (g_position s) = 0) by (apply norm_zero; auto). split.
  - destruct (moon_ok s ltac:(lra)) as (m & _ & ->). rewrite E, tidal_centre. reflexivity.
  - rewrite sun_ok by lra. rewrite E, tidal_centre. reflexivity.
Qed.
Lemma attraction_norm mu d : d <> zero3 -> 0 <= mu -> norm (attraction mu d) = mu / (norm d * norm d).
Proof.
  intros H Hm. apply norm_pos in H. unfold attraction. rewrite norm_scale. rewrite Rabs_pos_eq.
  - set (r := norm d) in *. clearbody r. field. lra.
  - apply Rdiv_nonneg; auto. apply cube_pos; auto.
Qed.
Lemma srp_ok s : norm (g_position s) < 147.099e6 ->
  let d := sub (Sun_get_position (g_epoch s)) (g_position s) in
  acceleration_from_srp s = Ok (scale (- (Sun_P * g_srp_scalar s / 1000) / norm d) d).
Proof.
  intros H. destruct (Sun_norm (g_epoch s)) as [B _]. destruct (apart _ _ _ B H) as [_ N]. cbv zeta.
  unfold acceleration_from_srp, gcrf_sun_vector. spec_ops. set (d := sub _ _) in *.
  rewrite normalized_ok by auto. cbn [bind]. rewrite unit_norm by auto.
  unfold BASE_IN_KILO. rewrite pdiv_ok by lra. cbn [bind]. apply f_equal. rewrite v3_scaled_scale.
  apply norm_pos in N. set (r := norm d) in *. clearbody r. generalize Sun_P; intros P. veq; qlit; field; lra.
Qed.

(** * Hill frame *)
Definition radial_orbit (o : gcrf) : Prop := cross (g_position o) (g_velocity o) = zero3.
Definition frame (o : gcrf) : mat3 :=
  let r := scale (/ norm (g_position o)) (g_position o) in
  let h := cross (g_position o) (g_velocity o) in
  let c := scale (/ norm h) h in
  M3 r (cross c r) c.
Lemma nonradial_pos o : ~ radial_orbit o -> g_position o <> zero3.
Proof. intros H E. apply H. unfold radial_orbit. rewrite E. veq; ring. Qed.
Lemma frame_ok o : ~ radial_orbit o -> HCW_frame_matrix o = Ok (frame o).
Proof.
  intros H. unfold HCW_frame_matrix. rewrite normalized_ok by (apply nonradial_pos; auto). cbn [bind]. spec_ops.
  rewrite normalized_ok by auto. reflexivity.
Qed.
Lemma frame_err o : radial_orbit o -> HCW_frame_matrix o = Err ZeroDivisionError.
Proof.
  intros H. unfold HCW_frame_matrix. destruct (vec3_zero_dec (g_position o)) as [E|E].
  - rewrite E, normalized_zero. reflexivity.
  - rewrite normalized_ok by auto. cbn [bind]. spec_ops. rewrite H, normalized_zero. reflexivity.
Qed.
Lemma cross_unit_rotation r c : dot r r = 1 -> dot c c = 1 -> dot r c = 0 -> is_rotation (M3 r (cross c r) c).
Proof.
  destruct r as [a b d], c as [e f g]. unfold is_rotation, det3, triple, dot, cross. cbn [x3 y3 z3 m3_row1 m3_row2 m3_row3].
  intros H1 H2 H3. repeat split; try nsatz.
Qed.
Lemma frame_rotation o : ~ radial_orbit o -> is_rotation (frame o).
Proof.
  intros H. apply cross_unit_rotation.
  - apply unit_dot. apply nonradial_pos; auto.
  - apply unit_dot; auto.
  - unfold dot, scale, cross; cbn [x3 y3 z3]. ring.
Qed.
Lemma frame_position o : ~ radial_orbit o -> apply3 (frame o) (g_position o) = V3 (norm (g_position o)) 0 0.
Proof.
  intros H. assert (N := norm_pos _ (nonradial_pos _ H)). unfold apply3, frame. cbn [m3_row1 m3_row2 m3_row3].
  f_equal.
  - transitivity (/ norm (g_position o) * dot (g_position o) (g_position o)).
    + unfold dot, scale; cbn [x3 y3 z3]; ring.
    + rewrite <- norm_sq. field. lra.
  - unfold dot, scale, cross; cbn [x3 y3 z3]. ring.
  - unfold dot, scale, cross; cbn [x3 y3 z3]. ring.
Qed.
Lemma frame_velocity o : ~ radial_orbit o -> apply3 (frame o) (g_velocity o) =
  V3 (dot (g_position o) (g_velocity o) / norm (g_position o))
     (norm (cross (g_position o) (g_velocity o)) / norm (g_position o)) 0.
Proof.
  intros H. assert (N := norm_pos _ (nonradial_pos _ H)). assert (M := norm_pos _ H).
  unfold apply3, frame. cbn [m3_row1 m3_row2 m3_row3]. f_equal.
  - unfold dot, scale; cbn [x3 y3 z3]. field. lra.
  - set (r := g_position o) in *. set (v := g_velocity o) in *.
    transitivity (/ norm (cross r v) * / norm r * dot (cross r v) (cross r v)).
    + unfold dot, scale, cross; cbn [x3 y3 z3]; ring.
    + rewrite <- norm_sq. field. lra.
  - unfold dot, scale, cross; cbn [x3 y3 z3]. ring.
Qed.

(** * Conversion to and from the Hill frame *)
Lemma sez_rotation f l : is_rotation (rsw_sez_matrix (sin f) (cos f) (sin l) (cos l)).
Proof.
  generalize (sin2_cos2' f) (sin2_cos2' l); intros A B.
  unfold rsw_sez_matrix, is_rotation, det3, triple, dot, cross. cbn [x3 y3 z3 m3_row1 m3_row2 m3_row3].
  set (s := sin f) in *. set (c := cos f) in *. set (S := sin l) in *. set (C := cos l) in *.
  clearbody s c S C. repeat split; try nsatz; try ring.
Qed.
Lemma hcw_to_gcrf_ok h o : ~ radial_orbit o ->
  let R := norm (g_position o) in let M := frame o in
  let ri := R + x3 (s_position h) in
  let l := y3 (s_position h) / R in let f := z3 (s_position h) / R in
  let ut := apply3 M (g_velocity o) in
  let S := rsw_sez_matrix (sin f) (cos f) (sin l) (cos l) in
  let sv := V3 (- ri * (z3 (s_velocity h) / R)) (ri * (y3 (s_velocity h) / R + y3 ut / R) * cos f) (x3 (s_velocity h) + x3 ut) in
  hcw_to_gcrf h o = Ok (GCRF (g_epoch o)
    (apply3 (transposed M) (V3 (cos f * ri * cos l) (cos f * ri * sin l) (sin f * ri)))
    (apply3 (transposed M) (apply3 (transposed S) sv))).
Proof.
  intros H. assert (N := norm_pos _ (nonradial_pos _ H)). cbv zeta. unfold hcw_to_gcrf. rewrite frame_ok by auto. cbn [bind].
  spec_ops. cbv zeta. rewrite pdiv_ok by lra. cbn [bind]. rewrite pdiv_ok by lra. cbn [bind].
  rewrite pdiv_ok by lra. cbn [bind]. rewrite pdiv_ok by lra. cbn [bind]. rewrite pdiv_ok by lra. cbn [bind]. reflexivity.
Qed.
Lemma asin_div z r : 0 < r -> z * z <= r * r -> -1 <= z / r <= 1.
Proof.
  intros H Hz. split; apply Rmult_le_reg_r with r; auto; replace (z / r * r) with z by (field; lra); nra.
Qed.
(** latitude, longitude and radius of a point off the z axis *)
Lemma lat_lon w : x3 w <> 0 \/ y3 w <> 0 ->
  let r := norm w in let f := asin (z3 w / r) in let l := atan2 (y3 w) (x3 w) in
  0 < r /\ -1 <= z3 w / r <= 1 /\ sin f = z3 w / r /\ 0 < cos f /\
  w = V3 (cos f * r * cos l) (cos f * r * sin l) (sin f * r).
Proof.
  intros H. cbv zeta. assert (O : 0 < x3 w * x3 w + y3 w * y3 w) by (destruct H; nra).
  assert (N : 0 < norm w) by (apply norm_pos; intros E; rewrite E in H; cbn in H; lra).
  assert (S := norm_sq w). unfold dot in S.
  assert (B : -1 <= z3 w / norm w <= 1) by (apply asin_div; auto; lra).
  assert (Sf : sin (asin (z3 w / norm w)) = z3 w / norm w) by (apply sin_asin; auto).
  set (f := asin (z3 w / norm w)) in *. set (r := norm w) in *.
  assert (C0 : 0 <= cos f) by (apply cos_ge_0; unfold f; generalize (asin_bound (z3 w / r)); lra).
  assert (T := sin2_cos2' f). rewrite Sf in T.
  assert (K : cos f * r = sqrt (x3 w * x3 w + y3 w * y3 w)).
  { symmetry. apply sqrt_eq; [apply Rmult_le_pos; lra|].
    replace (cos f * r * (cos f * r)) with (cos f * cos f * (r * r)) by ring.
    replace (cos f * cos f) with (1 - z3 w / r * (z3 w / r)) by lra.
    replace ((1 - z3 w / r * (z3 w / r)) * (r * r)) with (r * r - z3 w * z3 w) by (field; lra). lra. }
  assert (P : 0 < cos f * r) by (rewrite K; apply sqrt_lt_R0; auto).
  assert (C1 : 0 < cos f) by nra.
  repeat split; auto; try apply B.
  destruct (atan2_polar (y3 w) (x3 w)) as [Px Py]. rewrite K, <- Px, <- Py, Sf.
  replace (z3 w / r * r) with (z3 w) by (field; lra). destruct w; reflexivity.
Qed.
Lemma gcrf_to_hcw_ok o s : ~ radial_orbit o ->
  let R := norm (g_position o) in let M := frame o in
  let w := apply3 M (g_position s) in
  let ut := apply3 M (g_velocity o) in
  let r := norm (g_position s) in
  let f := asin (z3 w / r) in let l := atan2 (y3 w) (x3 w) in
  let sv := apply3 (rsw_sez_matrix (sin f) (cos f) (sin l) (cos l)) (apply3 M (g_velocity s)) in
  x3 w <> 0 \/ y3 w <> 0 ->
  gcrf_to_hcw o s = Ok (State (g_epoch o) (V3 (r - R) (l * R) (f * R))
    (V3 (z3 sv - x3 ut) (R * (y3 sv / (r * cos f) - y3 ut / R)) (R * (- x3 sv / r)))).
Proof.
  intros H. assert (N := norm_pos _ (nonradial_pos _ H)). cbv zeta. intros O.
  unfold gcrf_to_hcw. rewrite frame_ok by auto. cbn [bind]. spec_ops.
  set (w := apply3 (frame o) (g_position s)) in *.
  assert (E : norm (g_position s) = norm w) by (symmetry; apply rotation_norm, frame_rotation; auto).
  rewrite E. destruct (lat_lon w O) as (L1 & L2 & L3 & L4 & L5).
  rewrite pdiv_ok by lra. cbn [bind]. rewrite pasin_ok by auto. cbn [bind]. rewrite pdiv_ok by lra. cbn [bind].
  cbv zeta. rewrite pdiv_ok by lra. cbn [bind]. rewrite pdiv_ok by (assert (0 < norm w * cos (asin (z3 w / norm w))) by (apply Rmult_lt_0_compat; auto); lra).
  cbn [bind]. rewrite L3. reflexivity.
Qed.
Lemma gcrf_to_hcw_axis o s : ~ radial_orbit o ->
  let w := apply3 (frame o) (g_position s) in x3 w = 0 -> y3 w = 0 ->
  gcrf_to_hcw o s = Err ZeroDivisionError.
Proof.
  intros H w E1 E2. assert (N := norm_pos _ (nonradial_pos _ H)). unfold gcrf_to_hcw. rewrite frame_ok by auto. cbn [bind]. spec_ops.
  fold w. assert (E : norm (g_position s) = norm w) by (symmetry; apply rotation_norm, frame_rotation; auto).
  rewrite E. assert (Z : norm w * norm w = z3 w * z3 w) by (rewrite norm_sq; unfold dot; rewrite E1, E2; ring).
  destruct (Req_dec (norm w) 0) as [E0|E0]; [rewrite E0, pdiv_zero; reflexivity|].
  assert (N0 : 0 < norm w) by (generalize (norm_nonneg w); lra).
  rewrite pdiv_ok by auto. cbn [bind]. rewrite pasin_ok by (apply asin_div; auto; lra). cbn [bind].
  rewrite pdiv_ok by lra. cbn [bind]. cbv zeta. rewrite pdiv_ok by auto. cbn [bind].
  assert (C : cos (asin (z3 w / norm w)) = 0).
  { assert (T := sin2_cos2' (asin (z3 w / norm w))). rewrite sin_asin in T by (apply asin_div; auto; lra).
    replace (z3 w / norm w * (z3 w / norm w)) with (z3 w * z3 w / (norm w * norm w)) in T by (field; auto).
    rewrite <- Z in T. replace (norm w * norm w / (norm w * norm w)) with 1 in T by (field; auto).
    assert (Q : cos (asin (z3 w / norm w)) * cos (asin (z3 w / norm w)) = 0) by lra.
    apply Rmult_integral in Q. destruct Q; auto. }
  rewrite C, Rmult_0_r, pdiv_zero. reflexivity.
Qed.
Lemma hcw_gcrf_hcw h o : ~ radial_orbit o ->
  0 < norm (g_position o) + x3 (s_position h) ->
  - PI < y3 (s_position h) / norm (g_position o) <= PI ->
  - (PI / 2) < z3 (s_position h) / norm (g_position o) < PI / 2 ->
  exists g, hcw_to_gcrf h o = Ok g /\
  gcrf_to_hcw o g = Ok (State (g_epoch o) (s_position h) (s_velocity h)).
Proof.
  intros H H1 H2 H3. assert (N := norm_pos _ (nonradial_pos _ H)). assert (FR := frame_rotation o H).
  rewrite hcw_to_gcrf_ok by auto. cbv zeta. eexists; split; [reflexivity|].
  set (M := frame o) in *. set (R := norm (g_position o)) in *.
  set (ri := R + x3 (s_position h)) in *. set (l := y3 (s_position h) / R) in *. set (f := z3 (s_position h) / R) in *.
  set (S := rsw_sez_matrix (sin f) (cos f) (sin l) (cos l)).
  set (ut := apply3 M (g_velocity o)).
  set (sv := V3 (- ri * (z3 (s_velocity h) / R)) (ri * (y3 (s_velocity h) / R + y3 ut / R) * cos f) (x3 (s_velocity h) + x3 ut)).
  set (w := V3 (cos f * ri * cos l) (cos f * ri * sin l) (sin f * ri)).
  assert (C0 : 0 < cos f) by (apply cos_gt_0; lra).
  assert (K : 0 < cos f * ri) by (apply Rmult_lt_0_compat; auto).
  assert (W : apply3 M (apply3 (transposed M) w) = w) by (apply transposed_inverse'; auto).
  assert (Nw : norm w = ri).
  { unfold norm, w, dot. cbn [x3 y3 z3]. apply sqrt_eq; [lra|].
    generalize (sin2_cos2' f) (sin2_cos2' l); intros A B.
    transitivity (ri * ri * (cos f * cos f * (sin l * sin l + cos l * cos l) + sin f * sin f)); [|ring].
    rewrite B. replace (cos f * cos f * 1 + sin f * sin f) with 1 by lra. ring. }
  assert (Nw' : norm (apply3 (transposed M) w) = ri).
  { rewrite rotation_norm by (apply transposed_rotation; auto). auto. }
  assert (A := gcrf_to_hcw_ok o (GCRF (g_epoch o) (apply3 (transposed M) w) (apply3 (transposed M) (apply3 (transposed S) sv))) H).
  cbv zeta in A. cbn [g_position g_velocity GCRF] in A. fold M R ut in A. rewrite W, Nw' in A.
  assert (Fe : asin (z3 w / ri) = f).
  { unfold w; cbn [z3]. replace (sin f * ri / ri) with (sin f) by (field; lra). apply asin_sin. lra. }
  assert (Le : atan2 (y3 w) (x3 w) = l) by (apply atan2_unique; auto).
  rewrite Fe, Le in A. fold S in A.
  rewrite (transposed_inverse' M) in A by auto.
  rewrite (transposed_inverse' S) in A by apply sez_rotation.
  rewrite A.
  - apply f_equal. unfold sv. cbn [x3 y3 z3]. clear A W Nw Nw' K Le Fe. clearbody ut M R.
    set (cf := cos f) in *. clearbody cf. unfold l, f. unfold ri in *. clear S sv w ri l f H2 H3.
    destruct h as [e [a b c] [d g i]]. cbn [s_position s_velocity x3 y3 z3] in *.
    f_equal; f_equal; field; repeat split; lra.
  - destruct (Req_dec (x3 w) 0) as [E|E]; [|auto]. destruct (Req_dec (y3 w) 0) as [E'|E']; [|auto]. exfalso.
    unfold w in E, E'. cbn [x3 y3] in E, E'. apply Rmult_integral in E. apply Rmult_integral in E'.
    generalize (sin2_cos2' l). destruct E as [E|E]; [lra|]. destruct E' as [E'|E']; [lra|]. rewrite E, E'. lra.
Qed.
Lemma gcrf_hcw_gcrf o s : ~ radial_orbit o ->
  cross (g_position s) (cross (g_position o) (g_velocity o)) <> zero3 ->
  exists h, gcrf_to_hcw o s = Ok h /\
  hcw_to_gcrf h o = Ok (GCRF (g_epoch o) (g_position s) (g_velocity s)).
Proof.
  intros H X. assert (N := norm_pos _ (nonradial_pos _ H)). assert (FR := frame_rotation o H).
  assert (O : x3 (apply3 (frame o) (g_position s)) <> 0 \/ y3 (apply3 (frame o) (g_position s)) <> 0).
  { destruct (Req_dec (x3 (apply3 (frame o) (g_position s))) 0) as [E|E]; [|auto].
    destruct (Req_dec (y3 (apply3 (frame o) (g_position s))) 0) as [E'|E']; [|auto]. exfalso. apply X.
    assert (NH := norm_pos _ H).
    set (hh := cross (g_position o) (g_velocity o)) in *.
    assert (P : g_position s = scale (z3 (apply3 (frame o) (g_position s))) (scale (/ norm hh) hh)).
    { rewrite <- (transposed_inverse (frame o) (g_position s) FR) at 1.
      set (w := apply3 (frame o) (g_position s)) in *.
      unfold apply3 at 1, transposed. unfold frame. fold hh. cbn [m3_row1 m3_row2 m3_row3]. unfold dot. cbn [x3 y3 z3]. rewrite E, E'.
      veq; ring. }
    rewrite P. veq; ring. }
  rewrite gcrf_to_hcw_ok by auto. cbv zeta. eexists; split; [reflexivity|].
  rewrite hcw_to_gcrf_ok by auto. cbv zeta. cbn [s_position s_velocity x3 y3 z3].
  set (M := frame o) in *. set (R := norm (g_position o)) in *. set (w := apply3 M (g_position s)) in *.
  assert (E : norm (g_position s) = norm w) by (symmetry; apply rotation_norm; auto).
  rewrite E. destruct (lat_lon w O) as (L1 & L2 & L3 & L4 & L5).
  set (r := norm w) in *. set (f := asin (z3 w / r)) in *. set (l := atan2 (y3 w) (x3 w)) in *.
  replace (l * R / R) with l by (field; lra). replace (f * R / R) with f by (field; lra).
  replace (R + (r - R)) with r by ring. rewrite <- L5. unfold w. rewrite transposed_inverse by auto.
  set (S := rsw_sez_matrix (sin f) (cos f) (sin l) (cos l)).
  set (sv := apply3 S (apply3 M (g_velocity s))). set (ut := apply3 M (g_velocity o)).
  apply f_equal. f_equal.
  replace (V3 (- r * (R * (- x3 sv / r) / R)) (r * (R * (y3 sv / (r * cos f) - y3 ut / R) / R + y3 ut / R) * cos f) (z3 sv - x3 ut + x3 ut)) with sv.
  - unfold sv. rewrite (transposed_inverse S) by apply sez_rotation. apply transposed_inverse; auto.
  - destruct sv as [a b c]. cbn [x3 y3 z3]. f_equal; field; lra.
Qed.
Lemma hcw_of_origin o s : ~ radial_orbit o -> g_position s = g_position o -> g_velocity s = g_velocity o ->
  gcrf_to_hcw o s = Ok (State (g_epoch o) zero3 zero3).
Proof.
  intros H Ep Ev. assert (N := norm_pos _ (nonradial_pos _ H)).
  assert (A := gcrf_to_hcw_ok o s H). cbv zeta in A. rewrite Ep, Ev in A. rewrite frame_position in A by auto. cbn [x3 y3 z3] in A.
  rewrite A by (left; lra). apply f_equal.
  replace (0 / norm (g_position o)) with 0 by (field; lra). rewrite asin_0.
  replace (atan2 0 (norm (g_position o))) with 0.
  2:{ unfold atan2. rewrite nlt_true by auto. replace (0 / norm (g_position o)) with 0 by (field; lra). rewrite atan_0. auto. }
  rewrite frame_velocity by auto. rewrite sin_0, cos_0.
  set (R := norm (g_position o)) in *. clearbody R. unfold rsw_sez_matrix, apply3, dot, zero3; cbn [x3 y3 z3 m3_row1 m3_row2 m3_row3].
  f_equal; f_equal; field; lra.
Qed.

(** * Copy *)
Lemma copy_drops s : gcrf_copy s = Gcrf (g_epoch s) (g_position s) (g_velocity s) zero3 0 true /\
  (gcrf_copy s = s <-> g_thrust s = zero3 /\ g_srp_scalar s = 0 /\ g_use_perturbations s = true).
Proof.
  split; [reflexivity|]. destruct s as [e r v t k u]. unfold gcrf_copy, GCRF. cbn. split.
  - intros E. inversion E; auto.
  - intros (-> & -> & ->). reflexivity.
Qed.

(** * Derivative *)
Lemma derivative_two_body s : g_use_perturbations s = false -> g_position s <> zero3 ->
  derivative s = Ok (g_velocity s, add (g_thrust s) (attraction mu_earth (sub zero3 (g_position s)))).
Proof.
  intros Hu Hp. unfold derivative. rewrite earth_ok by auto. cbn [bind]. rewrite Hu. cbn [bind].
  unfold acceleration_from_thrust. rewrite !v3_copy_id. reflexivity.
Qed.
Lemma derivative_centre s : g_position s = zero3 -> derivative s = Err ZeroDivisionError.
Proof. intros H. unfold derivative. rewrite earth_zero by auto. reflexivity. Qed.
Lemma derivative_perturbed s : g_use_perturbations s = true ->
  norm (g_position s) < 356096 ->
  (exists p, gcrf_to_itrf (g_position s) (g_epoch s) = Ok p /\ (x3 p <> 0 \/ y3 p <> 0)) ->
  exists am asn ap ag,
    acceleration_from_moon s = Ok am /\ acceleration_from_sun s = Ok asn /\
    acceleration_from_srp s = Ok ap /\ acceleration_from_gravity s = Ok ag /\
    derivative s = Ok (g_velocity s,
      add (add (add (add (add (g_thrust s) (attraction mu_earth (sub zero3 (g_position s)))) am) asn) ap) ag).
Proof.
  intros Hu Hn (p & Ep & Op).
  assert (Hp : g_position s <> zero3).
  { intros E. rewrite E, gcrf_to_itrf_ok, !apply3_zero in Ep. inversion Ep; subst p. cbn in Op. lra. }
  destruct (moon_ok s Hn) as (m & Em & Am).
  assert (As := sun_ok s ltac:(lra)). assert (Ap := srp_ok s ltac:(lra)). cbv zeta in As, Ap.
  destruct (gravity_gcrf s) as (p' & Ep' & _ & G). rewrite Ep in Ep'. inversion Ep'; subst p'; clear Ep'.
  destruct (G Op) as (a & _ & _ & _ & Eg & _). rewrite itrf_to_gcrf_ok in Eg.
  rewrite Am, As, Ap, Eg. do 4 eexists. repeat (split; [reflexivity|]).
  unfold derivative. rewrite earth_ok, Hu by auto. cbn [bind]. rewrite Am. cbn [bind]. rewrite As. cbn [bind]. rewrite Ap. cbn [bind].
  rewrite Eg. cbn [bind]. unfold acceleration_from_thrust. rewrite !v3_copy_id. reflexivity.
Qed.
Lemma derivative_axis s : g_use_perturbations s = true -> norm (g_position s) < 356096 ->
  (exists p, gcrf_to_itrf (g_position s) (g_epoch s) = Ok p /\ x3 p = 0 /\ y3 p = 0) ->
  derivative s = Err ZeroDivisionError.
Proof.
  intros Hu Hn (p & Ep & Ox & Oy). unfold derivative.
  destruct (vec3_zero_dec (g_position s)) as [E|E]; [rewrite earth_zero; auto|].
  rewrite earth_ok, Hu by auto. cbn [bind]. destruct (moon_ok s Hn) as (m & Em & Am). rewrite Am. cbn [bind].
  assert (As := sun_ok s ltac:(lra)). assert (Ap := srp_ok s ltac:(lra)). cbv zeta in As, Ap. rewrite As. cbn [bind]. rewrite Ap. cbn [bind].
  destruct (gravity_gcrf s) as (p' & Ep' & G & _). rewrite Ep in Ep'. inversion Ep'; subst p'. rewrite G by auto. reflexivity.
Qed.

(** * A concrete non-trivial state *)
Definition j2000 : epoch := Epoch 51544.5.
Lemma precession_j2000 v : apply3 (Earth_precession j2000) v = v.
Proof.
  unfold Earth_precession. assert (T : julian_centuries_past_j2000 j2000 = 0).
  { unfold julian_centuries_past_j2000, julian_value, j2000, J2000_JULIAN_DATE, JULIAN_CENTURY, MJD_ZERO. cbn [value]. lra. }
  rewrite T. cbv zeta. 
  match goal with |- context [sin ?z] => replace z with 0 by ring end. 
  repeat match goal with |- context [sin ?z] => progress (replace z with 0 by ring) end.
  repeat match goal with |- context [cos ?z] => progress (replace z with 0 by ring) end.
  rewrite sin_0, cos_0. veq; ring.
Qed.
Lemma off_axis_j2000 x z : 0 < x -> Rabs z <= x ->
  exists p, gcrf_to_itrf (V3 x 0 z) j2000 = Ok p /\ (x3 p <> 0 \/ y3 p <> 0).
Proof.
  intros Hx Hz. rewrite gcrf_to_itrf_ok, precession_j2000. eexists; split; [reflexivity|].
  set (t := - gast j2000). clearbody t.
  assert (Q : x3 (apply3 (Earth_nutation j2000) (V3 x 0 z)) <> 0).
  { rewrite nutation_apply. unfold add, cross. cbn [x3 y3 z3].
    assert (B := nut_vector_bound j2000). set (w := nut_vector j2000) in *. clearbody w. unfold dot in B.
    assert (A1 : y3 w * y3 w <= 1.0626e-8) by nra.
    assert (A2 : Rabs (y3 w) <= 0.001) by (apply Rabs_le; split; nra).
    assert (A3 : Rabs (y3 w * z) <= 0.001 * x).
    { rewrite Rabs_mult. apply Rmult_le_compat; auto using Rabs_pos. }
    generalize (Rle_abs (- (y3 w * z))). rewrite Rabs_Ropp. lra. }
  set (q := apply3 (Earth_nutation j2000) (V3 x 0 z)) in *. clearbody q. destruct q as [a b c].
  unfold apply3, rotz, dot in *. cbn [x3 y3 z3 m3_row1 m3_row2 m3_row3] in *.
  destruct (Req_dec (cos t * a + - sin t * b + 0 * c) 0) as [E|E]; [right|left; auto].
  intros E'. assert (T := sin2_cos2' t). apply Q.
  assert (a = cos t * (cos t * a + - sin t * b + 0 * c) + sin t * (sin t * a + cos t * b + 0 * c)).
  { transitivity (a * (sin t * sin t + cos t * cos t)); [rewrite T; ring|ring]. }
  rewrite E, E' in H. lra.
Qed.
