(** Proofs about coordinates/positions.py: spherical positions and ENZ axes. *)
From Coq Require Import Reals Lra Psatz Nsatz.
From Coquelicot Require Import Coquelicot.
From Verif.Model Require Import Num Constants Linalg Functions Time Celestial Positions.
From Verif.Spec Require Import Geometry Axes.
From Verif.Proofs Require Import NumLemmas LinalgProofs MatrixProofs Analysis CelestialProofs GeodeticProofs.
Local Open Scope R_scope.

(** * Spherical positions *)
Lemma sph_from_cart p : spherical_from_cartesian p =
  Spherical (norm p) (wrap (atan2 (y3 p) (x3 p))) (atan2 (z3 p) (sqrt (x3 p * x3 p + y3 p * y3 p))).
Proof. reflexivity. Qed.
Lemma atan2_right y x : 0 <= x -> - (PI / 2) <= atan2 y x <= PI / 2.
Proof.
  intros H. generalize PI_pos; intros. unfold atan2. destruct (nlt_spec 0 x).
  - generalize (atan_bound (y / x)); lra.
  - rewrite nlt_false by lra. destruct (nlt_spec 0 y); [lra|]. destruct (nlt_spec y 0); lra.
Qed.
Lemma cart_sph_cart p : spherical_to_cartesian (spherical_from_cartesian p) = p.
Proof.
  rewrite sph_from_cart. destruct p as [x y z]. unfold spherical_to_cartesian. cbn [radius right_ascension declination x3 y3 z3].
  rewrite cos_wrap, sin_wrap. set (rho := sqrt (x * x + y * y)).
  assert (R0 : 0 <= rho) by apply sqrt_pos.
  assert (Rr : rho * rho = x * x + y * y) by (apply sqrt_sqrt; nra).
  destruct (atan2_polar y x) as [Px Py]. fold rho in Px, Py.
  destruct (atan2_polar z rho) as [Pr Pz].
  replace (rho * rho + z * z) with (dot (V3 x y z) (V3 x y z)) in Pr, Pz by (unfold dot; cbn [x3 y3 z3]; lra).
  fold (norm (V3 x y z)) in Pr, Pz. set (r := norm (V3 x y z)) in *. clearbody r rho.
  unfold v3_scaled. cbn [x3 y3 z3]. f_equal.
  - transitivity (r * cos (atan2 z rho) * cos (atan2 y x)); [ring|]. rewrite <- Pr. auto.
  - transitivity (r * cos (atan2 z rho) * sin (atan2 y x)); [ring|]. rewrite <- Pr. auto.
  - rewrite Rmult_comm. auto.
Qed.
Lemma sph_ranges p : let s := spherical_from_cartesian p in
  radius s = norm p /\ 0 <= right_ascension s < 2 * PI /\ - (PI / 2) <= declination s <= PI / 2.
Proof.
  cbv zeta. rewrite sph_from_cart. cbn [radius right_ascension declination]. repeat split.
  - apply wrap_range, atan2_range.
  - apply wrap_range, atan2_range.
  - apply atan2_right, sqrt_pos.
  - apply atan2_right, sqrt_pos.
Qed.
Lemma sph_norm s : 0 <= radius s -> norm (spherical_to_cartesian s) = radius s.
Proof.
  destruct s as [r ra dec]. unfold spherical_to_cartesian. cbn [radius right_ascension declination]. intros H.
  unfold norm. apply sqrt_eq; auto. unfold dot, v3_scaled; cbn [x3 y3 z3].
  generalize (sin2_cos2' ra) (sin2_cos2' dec); intros A B.
  transitivity (r * r * (cos dec * cos dec * (sin ra * sin ra + cos ra * cos ra) + sin dec * sin dec)); [|ring].
  rewrite A. replace (cos dec * cos dec * 1 + sin dec * sin dec) with 1 by lra. ring.
Qed.
Lemma sph_cart_sph s : 0 < radius s -> 0 <= right_ascension s < 2 * PI -> - (PI / 2) < declination s < PI / 2 ->
  spherical_from_cartesian (spherical_to_cartesian s) = s.
Proof.
  intros Hr Ha Hd. rewrite sph_from_cart, sph_norm by lra.
  destruct s as [r ra dec]. unfold spherical_to_cartesian, v3_scaled. cbn [radius right_ascension declination x3 y3 z3] in *.
  assert (C0 : 0 < cos dec) by (apply cos_gt_0; lra). generalize PI_pos; intros.
  replace (cos dec * cos ra * r) with ((r * cos dec) * cos ra) by ring.
  replace (cos dec * sin ra * r) with ((r * cos dec) * sin ra) by ring.
  assert (K : 0 < r * cos dec) by (apply Rmult_lt_0_compat; auto).
  f_equal.
  - apply wrap_atan2_unique; auto.
  - rewrite polar_norm by lra. rewrite (Rmult_comm (sin dec)). apply atan2_unique; lra.
Qed.

(** * ENZ axes *)
Lemma ENZ_rotation lamb psi : is_rotation (ENZ_matrix lamb psi).
Proof.
  generalize (sin2_cos2' lamb) (sin2_cos2' psi); intros A B.
  unfold ENZ_matrix, is_rotation, det3, triple, dot, cross. cbn [x3 y3 z3 m3_row1 m3_row2 m3_row3].
  set (s := sin lamb) in *. set (c := cos lamb) in *. set (S := sin psi) in *. set (C := cos psi) in *.
  clearbody s c S C. replace 0.0 with 0 by lra. repeat split; try nsatz; try ring.
Qed.
Definition geo_pos (lat lon alt : R) : vec3 :=
  let n := Ea / sqrt (1 - e2 * sin lat * sin lat) in
  V3 ((n + alt) * cos lat * cos lon) ((n + alt) * cos lat * sin lon) ((n * (1 - e2) + alt) * sin lat).
Lemma lla_to_itrf_geo lat lon alt : lla_to_itrf (LLA lat lon alt) = Ok (geo_pos lat lon alt).
Proof. apply lla_to_itrf_ok. Qed.
Lemma lat_root lat : 0 < 1 - e2 * sin lat * sin lat.
Proof.
  assert (He := e2_range). generalize (sin2_cos2' lat); intros. assert (0 <= cos lat * cos lat) by apply Rle_0_sqr.
  assert (0 <= sin lat * sin lat) by apply Rle_0_sqr. nra.
Qed.
Lemma enz_east lat lon alt : - (PI / 2) < lat < PI / 2 -> -6000 <= alt ->
  moves_along (fun t => geo_pos lat t alt) lon (m3_row1 (ENZ_matrix lon lat)).
Proof.
  intros Hl Ha. destruct (lla_bounds lat alt Ha) as (B1 & B2 & B3). assert (0 < cos lat) by (apply cos_gt_0; lra).
  unfold moves_along, velocity_of, geo_pos, ENZ_matrix, scale. cbn [x3 y3 z3 m3_row1].
  set (n := Ea / sqrt (1 - e2 * sin lat * sin lat)) in *. clearbody n.
  exists ((n + alt) * cos lat). split; [apply Rmult_lt_0_compat; lra|].
  repeat split; apply is_derive_Reals; auto_derive; auto; try ring. lra.
Qed.
Lemma enz_up lat lon alt :
  velocity_of (fun t => geo_pos lat lon t) alt (m3_row3 (ENZ_matrix lon lat)).
Proof.
  unfold velocity_of, geo_pos, ENZ_matrix. cbn [x3 y3 z3 m3_row3].
  set (n := Ea / sqrt (1 - e2 * sin lat * sin lat)) in *. clearbody n.
  repeat split; apply is_derive_Reals; auto_derive; auto; ring.
Qed.
Lemma enz_north lat lon alt : -6000 <= alt ->
  moves_along (fun t => geo_pos t lon alt) lat (m3_row2 (ENZ_matrix lon lat)).
Proof.
  intros Ha. assert (He := e2_range). assert (HE := Eab).
  assert (X0 := lat_root lat). assert (S0 : 0 < sqrt (1 - e2 * sin lat * sin lat)) by (apply sqrt_lt_R0; auto).
  assert (SS : sqrt (1 - e2 * sin lat * sin lat) * sqrt (1 - e2 * sin lat * sin lat) = 1 - e2 * sin lat * sin lat) by (apply sqrt_sqrt; lra).
  set (W := sqrt (1 - e2 * sin lat * sin lat)) in *.
  assert (W1 : W <= 1).
  { assert (0 <= sin lat * sin lat) by apply Rle_0_sqr. assert (W * W <= 1) by nra. nra. }
  assert (E1 : 6335 < Ea * (1 - e2)) by (unfold e2, Ea, Eb, Earth_FLATTENING, Earth_RADIUS; lra).
  exists (Ea * (1 - e2) / (W * W * W) + alt). split.
  { assert (0 < W * W * W <= 1).
    { assert (0 < W * W) by nra. assert (W * W <= 1) by nra. split; [apply Rmult_lt_0_compat; auto|]. nra. }
    assert (Ea * (1 - e2) <= Ea * (1 - e2) / (W * W * W)); [|lra].
    apply Rmult_le_reg_r with (W * W * W); [lra|]. replace (Ea * (1 - e2) / (W * W * W) * (W * W * W)) with (Ea * (1 - e2)) by (field; lra). nra. }
  unfold velocity_of, geo_pos, ENZ_matrix, scale. cbn [x3 y3 z3 m3_row2].
  generalize (sin2_cos2' lat); intros SC.
  repeat split; apply is_derive_Reals; auto_derive; auto;
  replace (1 + - (e2 * sin lat * sin lat)) with (1 - e2 * sin lat * sin lat) by ring; fold W.
  all: try (split; auto; split; auto; lra).
  all: try (repeat split; auto; lra).
  all: assert (CC : cos lat * cos lat = 1 - sin lat * sin lat) by lra.
  all: apply Rmult_eq_reg_r with (W * W * W); [|assert (0 < W * W * W) by (repeat apply Rmult_lt_0_compat; auto); lra].
  - replace ((Ea * (1 - e2) / (W * W * W) + alt) * (- sin lat * cos lon) * (W * W * W)) with
      ((Ea * (1 - e2) + alt * (W * (W * W))) * (- sin lat * cos lon)) by (field; lra).
    match goal with |- ?l * _ = _ => transitivity (cos lon * sin lat * (Ea * e2 * (cos lat * cos lat) - (Ea * (W * W) + alt * (W * (W * W))))) ; [field; lra|] end.
    rewrite CC, SS. ring.
  - replace ((Ea * (1 - e2) / (W * W * W) + alt) * (- sin lat * sin lon) * (W * W * W)) with
      ((Ea * (1 - e2) + alt * (W * (W * W))) * (- sin lat * sin lon)) by (field; lra).
    match goal with |- ?l * _ = _ => transitivity (sin lon * sin lat * (Ea * e2 * (cos lat * cos lat) - (Ea * (W * W) + alt * (W * (W * W))))) ; [field; lra|] end.
    rewrite CC, SS. ring.
  - replace ((Ea * (1 - e2) / (W * W * W) + alt) * cos lat * (W * W * W)) with
      ((Ea * (1 - e2) + alt * (W * (W * W))) * cos lat) by (field; lra).
    match goal with |- ?l * _ = _ => transitivity (cos lat * ((1 - e2) * Ea * e2 * (sin lat * sin lat) + (1 - e2) * Ea * (W * W) + alt * (W * (W * W)))) ; [field; lra|] end.
    rewrite SS. ring.
Qed.
Lemma enz_axes lat lon alt : - (PI / 2) < lat < PI / 2 -> -6000 <= alt ->
  exists pos, (forall l, lla_to_itrf l = Ok (pos l)) /\
  is_rotation (ENZ_matrix lon lat) /\
  moves_along (fun t => pos (LLA lat t alt)) lon (m3_row1 (ENZ_matrix lon lat)) /\
  moves_along (fun t => pos (LLA t lon alt)) lat (m3_row2 (ENZ_matrix lon lat)) /\
  moves_along (fun t => pos (LLA lat lon t)) alt (m3_row3 (ENZ_matrix lon lat)).
Proof.
  intros Hl Ha. exists (fun l => geo_pos (latitude l) (longitude l) (altitude l)). split.
  - intros [a b c]. apply lla_to_itrf_geo.
  - split; [apply ENZ_rotation|]. split; [exact (enz_east lat lon alt Hl Ha)|]. split; [exact (enz_north lat lon alt Ha)|].
    exists 1. split; [lra|]. cbn [latitude longitude altitude].
    replace (scale 1 (m3_row3 (ENZ_matrix lon lat))) with (m3_row3 (ENZ_matrix lon lat)). apply enz_up.
    destruct (m3_row3 (ENZ_matrix lon lat)); unfold scale; cbn; f_equal; ring.
Qed.
Lemma enz_itrf l v : let m := ENZ_matrix (longitude l) (latitude l) in
  enz_to_itrf l v = add (add (scale (x3 v) (m3_row1 m)) (scale (y3 v) (m3_row2 m))) (scale (z3 v) (m3_row3 m)) /\
  norm (enz_to_itrf l v) = norm v /\ apply3 m (enz_to_itrf l v) = v.
Proof.
  cbv zeta. assert (R := ENZ_rotation (longitude l) (latitude l)). unfold enz_to_itrf. set (m := ENZ_matrix _ _) in *. clearbody m.
  destruct m as [[a b c] [d e f] [g h i]]. destruct v as [x y z].
  unfold is_rotation in R. unfold dot, det3, triple, cross in R. cbn [x3 y3 z3 m3_row1 m3_row2 m3_row3] in R.
  destruct R as (R1 & R2 & R3 & R4 & R5 & R6 & _).
  unfold m3_multiply_vector, m3_transpose, apply3, norm, dot, add, scale, v3_dot; cbn.
  split; [f_equal; ring|]. split.
  - f_equal. nsatz.
  - f_equal; nsatz.
Qed.
