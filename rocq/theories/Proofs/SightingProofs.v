(** Lemmas for C94. *)
From Coq Require Import Reals Lra Lia List.
From Verif.Model Require Import Num Constants Linalg Functions Time Celestial Positions States Inertial Elements Relative Obs Filtering Iod Constraints Payloads Artificial Terrestrial.
From Verif.Spec Require Import Geometry Gravity Operations Sensing Acquisition Axes Earth Sightings.
From Verif.Proofs Require Import NumLemmas LinalgProofs FunctionsProofs CelestialProofs PositionsProofs StatesProofs ObsProofs GeodeticProofs PayloadsProofs ArtificialProofs EstimationProofs.
From Verif.Properties Require Import CelestialProps ObsProps EstimationProps.
Local Open Scope R_scope.
Lemma ijk_formula p e : let w := apply3 (Earth_nutation e) (apply3 (Earth_precession e) p) in
  let g := nutation_longitude e * cos (obliquity_of_ecliptic_at_epoch e) in
  gcrf_to_ijk p e = Ok (V3 (cos g * x3 w + sin g * y3 w) (cos g * y3 w - sin g * x3 w) (z3 w)).
Proof.
  intros w g. destruct (C21_rotation_angle e w) as (m & Em & A). cbv zeta in A. fold g in A.
  unfold gcrf_to_ijk, gcrf_to_itrf. rewrite Em. cbn [bind]. change (m3_multiply_vector m (gcrf_to_tod p e)) with (apply3 m w). rewrite A.
  unfold itrf_to_ijk. rewrite rotation_ok by (intros X; inversion X; lra). apply f_equal.
  assert (N1 : scale (/ norm (V3 0 0 1)) (V3 0 0 1) = V3 0 0 1).
  { replace (norm (V3 0 0 1)) with 1. rewrite Rinv_1. unfold scale. cbn. f_equal; ring. unfold norm, dot. cbn. replace (0 * 0 + 0 * 0 + 1 * 1) with 1 by ring. now rewrite sqrt_1. }
  rewrite N1. set (h := greenwich_hour_angle e). rewrite (cos_plus g h), (sin_plus g h).
  assert (T := sin2_cos2 h). unfold Rsqr in T. unfold rodrigues. destruct w as [x y z]. cbn. 
  unfold add, scale, cross, dot. cbn. f_equal; try ring.
  - transitivity ((cos g * x + sin g * y) * (sin h * sin h + cos h * cos h)); [ring|rewrite T; ring].
  - transitivity ((cos g * y - sin g * x) * (sin h * sin h + cos h * cos h)); [ring|rewrite T; ring].
Qed.

Lemma turn_norm a b x y z : a * a + b * b = 1 -> norm (V3 (a * x + b * y) (a * y - b * x) z) = norm (V3 x y z).
Proof.
  intros H. unfold norm, dot. cbn. f_equal. transitivity ((a * a + b * b) * (x * x + y * y) + z * z); [ring|rewrite H; ring].
Qed.

Lemma precession_norm e p : norm (apply3 (Earth_precession e) p) = norm p.
Proof. apply rotation_norm. apply precession_rotation. Qed.

Lemma ijk_errors p p' e : exists q q', gcrf_to_ijk p e = Ok q /\ gcrf_to_ijk p' e = Ok q' /\
  norm (sub p' p) <= norm (sub q' q) <= (1 + 5.5e-9) * norm (sub p' p).
Proof.
  rewrite !ijk_formula. do 2 eexists. do 2 (split; [reflexivity|]). set (g := nutation_longitude e * cos (obliquity_of_ecliptic_at_epoch e)).
  set (w := apply3 _ (apply3 _ p)). set (w' := apply3 _ (apply3 _ p')).
  assert (E : sub w' w = apply3 (Earth_nutation e) (apply3 (Earth_precession e) (sub p' p))).
  { unfold w, w'. destruct (Earth_nutation e) as [[? ? ?] [? ? ?] [? ? ?]], (Earth_precession e) as [[? ? ?] [? ? ?] [? ? ?]], p, p'. unfold apply3, sub, dot. cbn. f_equal; ring. }
  match goal with |- context [norm (sub ?a ?b)] => match a with V3 _ _ _ => replace (norm (sub a b)) with (norm (sub w' w)) end end.
  - rewrite E. rewrite <- (precession_norm e (sub p' p)). apply nutation_stretch.
  - destruct w as [x y z], w' as [x' y' z']. unfold sub. cbn. assert (T := sin2_cos2 g). unfold Rsqr in T.
    rewrite <- (turn_norm (cos g) (sin g) (x' - x) (y' - y) (z' - z)) by lra. f_equal. f_equal; ring.
Qed.

Lemma sc_place t : sc_position t = place_of t.
Proof. unfold sc_position. rewrite v3_copy_id. apply current_state_is. Qed.
Lemma cur_epoch t : current_epoch t = g_epoch (rk_state (propagator t)).
Proof. unfold current_epoch. rewrite <- (proj1 (current_state_is t)). destruct (g_epoch (current_state t)). reflexivity. Qed.

Lemma ground_exact lat lon alt t : - (PI / 2) < lat < PI / 2 -> -6000 <= alt ->
  exists s ob, GroundSite (LLA lat lon alt) = Ok s /\ angles_and_range s t = Ok ob /\ exact_observation (Ground ob) t.
Proof.
  intros H1 H2. destruct (C57_points_back lat lon alt t H1 H2) as (s & ob & ijk & _ & S & A & E & I & _).
  destruct (C57_angles_and_range lat lon alt t H1 H2) as (s' & _ & _ & ob' & _ & S' & _ & A' & Ep & _).
  rewrite S in S'. injection S' as <-. rewrite A in A'. injection A' as <-.
  exists s, ob. split; auto. split; auto. split; [exact Ep|]. exists ijk. rewrite <- sc_place. auto.
Qed.

Lemma space_ijk o : so_ijk_position o = gcrf_to_ijk (add (g_position (so_observer_state o)) (so_observed_direction o)) (so_epoch o).
Proof. reflexivity. Qed.

Lemma observed_epoch cam z1 z2 u c t ob : observe cam z1 z2 u c t = Ok ob -> so_epoch ob = current_epoch c /\ g_position (so_observer_state ob) = place_of c.
Proof.
  unfold observe. cbv zeta. destruct (range_error _ _ _) as [re|]; [|discriminate]. cbn [bind]. destruct (v3_with_noise _ _ _ _ _ _) as [d|]; [|discriminate]. cbn [bind].
  intros X. injection X as <-. unfold SpaceObservation, so_epoch. cbv zeta. cbn [so_observer_state].
  destruct (current_state_is c) as (E & P & _). rewrite cur_epoch, <- E, <- P. destruct (current_state c) as [[?] ? ? ? ? ?]. split; [reflexivity|]. reflexivity.
Qed.

Lemma space_error cam z1 z2 u c t ob : observe cam z1 z2 u c t = Ok ob -> current_epoch c = current_epoch t ->
  exists q q', gcrf_to_ijk (place_of t) (current_epoch t) = Ok q /\ observation_ijk (Space ob) = Ok q' /\ observation_epoch (Space ob) = current_epoch t /\
    let d := sub (so_observed_direction ob) (sub (place_of t) (place_of c)) in
    norm d <= norm (sub q' q) <= (1 + 5.5e-9) * norm d.
Proof.
  intros O E. destruct (observed_epoch _ _ _ _ _ _ _ O) as [T P].
  destruct (ijk_errors (place_of t) (add (place_of c) (so_observed_direction ob)) (current_epoch t)) as (q & q' & Q & Q' & B).
  exists q, q'. split; auto. cbn [observation_ijk observation_epoch]. rewrite space_ijk, P, T, E. split; auto. split; auto.
  replace (sub (so_observed_direction ob) (sub (place_of t) (place_of c))) with (sub (add (place_of c) (so_observed_direction ob)) (place_of t)); auto.
  destruct (place_of c), (place_of t), (so_observed_direction ob). unfold sub, add. cbn. f_equal; ring.
Qed.

Lemma space_exact cam px f u c t : 0 < px -> 0 < f < PI / 2 -> Camera px f = Ok (cam c) -> body_radius (sc_params t) <> 0 ->
  let d := sub (place_of t) (place_of c) in ~ (x3 d = 0 /\ y3 d = 0) -> current_epoch c = current_epoch t ->
  exists ob, observe cam 0 0 u c t = Ok ob /\ exact_observation (Space ob) t.
Proof.
  intros P F E B d H T. destruct (C88_noise_free cam px f u c t P F E B H) as (ob & O & D & _). exists ob. split; auto.
  destruct (space_error _ _ _ _ _ _ _ O T) as (q & q' & Q & Q' & Ep & N). cbv zeta in N. rewrite D in N. fold d in N.
  assert (Z : norm (sub d d) = 0). { apply norm_zero. destruct d. unfold sub, zero3. cbn. f_equal; ring. }
  rewrite Z in N. assert (Z' : sub q' q = zero3) by (apply norm_zero; lra).
  split; [exact Ep|]. exists q'. split; auto. rewrite Q. f_equal. destruct q, q'. unfold sub, zero3 in Z'. cbn in Z'. injection Z' as ? ? ?. f_equal; lra.
Qed.

Lemma same_orbit fuel a a' b b' t1 t2 : exact_observation a t1 -> exact_observation a' t1 -> exact_observation b t2 -> exact_observation b' t2 ->
  coes_from_observations fuel a b = coes_from_observations fuel a' b'.
Proof.
  intros (A1 & q1 & A2 & A3) (A1' & q1' & A2' & A3') (B1 & q2 & B2 & B3) (B1' & q2' & B2' & B3'). unfold coes_from_observations.
  rewrite A1, A1', B1, B1', A2, A2', B2, B2'. rewrite A3 in A3'. injection A3' as <-. rewrite B3 in B3'. injection B3' as <-. reflexivity.
Qed.

Lemma noisy_position (cam : craft -> camera) px f z1 z2 u c t : 0 < px -> 0 < f < PI / 2 -> Camera px f = Ok (cam c) -> body_radius (sc_params t) <> 0 ->
  let d := sub (place_of t) (place_of c) in let re := sensor_error px f (body_radius (sc_params t)) (norm d) in
  ~ (x3 d = 0 /\ y3 d = 0) -> norm d + z1 * re <> 0 -> current_epoch c = current_epoch t ->
  exists ob q q', observe cam z1 z2 u c t = Ok ob /\ gcrf_to_ijk (place_of t) (current_epoch t) = Ok q /\
    observation_ijk (Space ob) = Ok q' /\ observation_epoch (Space ob) = current_epoch t /\
    let x := sqrt ((z1 * re) ^ 2 + 2 * norm d * (norm d + z1 * re) * (1 - cos (z2 * pointing_accuracy (sc_params c)))) in
    x <= norm (sub q' q) <= (1 + 5.5e-9) * x.
Proof.
  intros P F E B d re H N T. destruct (C88_observation cam px f z1 z2 u c t P F E B H N) as (ob & O & _ & _ & _ & A & D & _).
  fold d in A, D. fold re in A, D. destruct (space_error _ _ _ _ _ _ _ O T) as (q & q' & Q & Q' & Ep & X). cbv zeta in X. fold d in X.
  exists ob, q, q'. do 4 (split; auto). cbv zeta. replace (sqrt _) with (norm (sub (so_observed_direction ob) d)); auto.
  unfold norm at 1. f_equal. set (o := so_observed_direction ob) in *. set (r := norm d) in *. set (k := cos _) in *.
  assert (A2 : dot o o = (r + z1 * re) ^ 2). { rewrite <- norm_sq, A. rewrite <- Rabs_mult, Rabs_pos_eq; [ring|]. apply Rle_0_sqr. }
  assert (D2 : dot d d = r * r) by (unfold r; rewrite norm_sq; reflexivity).
  transitivity (dot o o - 2 * dot d o + dot d d); [unfold dot, sub; cbn; ring|]. rewrite A2, D, D2. ring.
Qed.

(** every position of the inertial frame is taken *)
Lemma nutation_onto e y : exists x, apply3 (Earth_nutation e) x = y.
Proof.
  set (w := nut_vector e). set (k := 1 + dot w w). assert (K : 0 < k). { unfold k, dot. assert (A := Rle_0_sqr (x3 w)). assert (B := Rle_0_sqr (y3 w)). assert (C := Rle_0_sqr (z3 w)). unfold Rsqr in *. lra. }
  exists (scale (/ k) (add (sub y (cross w y)) (scale (dot w y) w))). rewrite nutation_apply. fold w.
  assert (E : forall a b : R, a = k * b -> / k * a = b) by (intros a b ->; field; lra).
  unfold k in *. destruct w as [a b c], y as [x y z]. unfold add, sub, cross, scale, dot in *. cbn in *. f_equal; field; lra.
Qed.
Lemma ijk_onto e q : exists p, gcrf_to_ijk p e = Ok q.
Proof.
  set (g := nutation_longitude e * cos (obliquity_of_ecliptic_at_epoch e)).
  destruct (nutation_onto e (V3 (cos g * x3 q - sin g * y3 q) (cos g * y3 q + sin g * x3 q) (z3 q))) as (x & X).
  exists (apply3 (transposed (Earth_precession e)) x). rewrite ijk_formula. fold g. rewrite (transposed_inverse' (Earth_precession e)) by apply precession_rotation. rewrite X. cbn [x3 y3 z3].
  assert (T := sin2_cos2 g). unfold Rsqr in T. destruct q as [a b c]. cbn. f_equal. f_equal.
  - transitivity ((sin g * sin g + cos g * cos g) * a); [ring|rewrite T; ring].
  - transitivity ((sin g * sin g + cos g * cos g) * b); [ring|rewrite T; ring].
Qed.
