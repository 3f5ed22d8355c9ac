From Coq Require Import Reals ZArith Lra Lia Bool Psatz.
From Flocq Require Import Core.
From Verif.Model Require Import Num Constants Linalg Functions Time Celestial Positions TimeFloat AngleFloat ElementsFloat FrameFloat SiderealFloat EarthFloat.
From Verif.Spec Require Import Geometry Earth LibmAccuracy FrameFloat SiderealFloat EarthFloat.
From Verif.Proofs Require Import NumLemmas LinalgProofs CelestialProofs TimeFloatProofs AngleFloatProofs ElementsFloatProofs StateFloatProofs VectorFloatProofs ClockProofs PiDigits Analysis FrameFloatBasics SiderealFloatProofs GroundFloatProofs GroundSiteProofs.
Local Open Scope R_scope.

(** * Quantities with a size and an error *)
Definition bnd (X d q' q : R) : Prop := Rabs q <= X /\ err d q' q.

Lemma bnd_weaken X d Y e q' q : bnd X d q' q -> X <= Y -> d <= e -> bnd Y e q' q.
Proof. unfold bnd, err. intros [A B]. lra. Qed.
Lemma bnd_mul X dx x' x Y dy y' y : bnd X dx x' x -> bnd Y dy y' y ->
  bnd (X * Y) ((dx * Y + (X + dx) * dy) * 1.01 + 1.12e-16 * (X * Y) + 1e-60) (b64 (x' * y')) (x * y).
Proof. intros [A B] [C D]. split; [apply abs_mul_le; auto|]. eapply err_mulr; eauto. lra. Qed.
Lemma bnd_add X dx x' x Y dy y' y : bnd X dx x' x -> bnd Y dy y' y ->
  bnd (X + Y) ((dx + dy) * 1.01 + 1.12e-16 * (X + Y) + 1e-60) (b64 (x' + y')) (x + y).
Proof.
  intros [A B] [C D]. assert (T : Rabs (x + y) <= X + Y) by (eapply Rle_trans; [apply Rabs_triang|lra]). split; auto. eapply err_addr; eauto. lra.
Qed.
Lemma bnd_opp X d q' q : bnd X d q' q -> bnd X d (- q') (- q).
Proof. intros [A B]. split; [rewrite Rabs_Ropp; auto|apply err_opp; auto]. Qed.
Lemma bnd_sub X dx x' x Y dy y' y : bnd X dx x' x -> bnd Y dy y' y ->
  bnd (X + Y) ((dx + dy) * 1.01 + 1.12e-16 * (X + Y) + 1e-60) (b64 (x' - y')) (x - y).
Proof. intros A B. apply bnd_opp in B. exact (bnd_add _ _ _ _ _ _ _ _ A B). Qed.
Lemma bnd_div X d q' q k : 0 < k -> bnd X d q' q -> bnd (X * / k) (d * / k * 1.01 + 1.12e-16 * (X * / k) + 1e-60) (b64 (q' / k)) (q / k).
Proof.
  intros K [A B]. assert (I : 0 < / k) by (apply Rinv_0_lt_compat; auto).
  assert (U : Rabs (q / k) <= X * / k) by (unfold Rdiv; rewrite Rabs_mult, (Rabs_pos_eq (/ k)) by lra; apply Rmult_le_compat_r; lra).
  split; auto. assert (E : err (d * / k) (q' / k) (q / k)).
  { unfold err in *. replace (q' / k - q / k) with ((q' - q) * / k) by (unfold Rdiv; ring). rewrite Rabs_mult, (Rabs_pos_eq (/ k)) by lra. apply Rmult_le_compat_r; lra. }
  apply (err_round _ _ _ _ _ E U). assert (0 <= d * / k) by (eapply Rle_trans; [apply Rabs_pos|exact E]). lra.
Qed.
Lemma bnd_const c X : Rabs c <= X -> bnd X (1.12e-16 * X + 1e-60) (b64 c) c.
Proof. intros H. split; auto. unfold err. assert (F := b64_fine c). lra. Qed.
Lemma bnd_pos c : 0 <= c -> bnd c (1.12e-16 * c + 1e-60) (b64 c) c.
Proof. intros H. apply bnd_const. rewrite Rabs_pos_eq; lra. Qed.
Lemma bnd_same c X : Rabs c <= X -> bnd X 0 c c.
Proof. intros H. split; auto. apply err_same. Qed.

Lemma bnd_degree : bnd 0.0174533 4e-18 (b64 (math_pi / 180)) (PI / 180).
Proof.
  assert (P := math_pi_close). assert (PD := PI_digits). assert (A := b64_fine (math_pi / 180)). rewrite (Rabs_pos_eq (math_pi / 180)) in A by lra. apply Rabs_le_inv in A.
  split; [rewrite Rabs_pos_eq; lra|]. unfold err. apply Rabs_le. lra.
Qed.
Lemma bnd_rad X d q' q : bnd X d q' q -> bnd (X * 0.0174533) ((d * 0.0174533 + (X + d) * 4e-18) * 1.01 + 1.12e-16 * (X * 0.0174533) + 1e-60) (radians_b64 q') (radians q).
Proof. intros H. unfold radians_b64, radians. apply bnd_mul; auto. apply bnd_degree. Qed.

Lemma circular_trig L : accurate_circular L -> accurate_trig L.
Proof. intros A x H. apply A. lra. Qed.
Lemma bnd_sincos L X d q' q : accurate_circular L -> bnd X d q' q -> X + d <= 10000 ->
  bnd 1 (2.3e-16 + d) (sinf L q') (sin q) /\ bnd 1 (2.3e-16 + d) (cosf L q') (cos q).
Proof.
  intros A [B E] H. assert (U := err_upper _ _ _ _ E B). destruct (A q') as [S C]; [lra|]. unfold err in E. destruct (trig_close _ _ _ E) as [TC TS].
  split; (split; [auto using abs_sin, abs_cos|]); unfold err; apply Rabs_le_inv in TC; apply Rabs_le_inv in TS; apply Rabs_le_inv in S; apply Rabs_le_inv in C; apply Rabs_le; lra.
Qed.

Lemma bsincosw L X d q' q : accurate_circular L -> bnd X d q' q -> X + d <= 10000 -> forall e, 2.3e-16 + d <= e -> bnd 1 e (sinf L q') (sin q) /\ bnd 1 e (cosf L q') (cos q).
Proof. intros A B H e E. destruct (bnd_sincos L X d q' q A B H) as [S C]. split; (eapply bnd_weaken; [eassumption|lra|lra]). Qed.

Lemma bnd_seconds s : 0 <= s <= 30000 -> bnd (4.84814e-6 * s) (3.6e-21 * s + 1e-50) (seconds_to_radians_b64 s) (dms_to_radians 0 0 s).
Proof.
  intros H. unfold seconds_to_radians_b64, dms_to_radians, MINUTES_IN_HOUR, SECONDS_IN_HOUR.
  replace (0 + 0 / 60 + s / 3600) with (0 + s / 3600) by lra.
  eapply bnd_weaken; [apply bnd_rad; apply bnd_add; [apply (bnd_same 0 0); rewrite Rabs_R0; lra|apply bnd_div; [lra|apply bnd_pos; lra]]| |]; lra.
Qed.

(** * Operations with bounds stated by the caller *)
Lemma bmw X dx x' x Y dy y' y : bnd X dx x' x -> bnd Y dy y' y -> forall Z e, 1e-40 <= Z -> X * Y <= Z -> (dx * Y + (X + dx) * dy) * 1.01 + 1.13e-16 * Z <= e ->
  bnd Z e (b64 (x' * y')) (x * y).
Proof. intros A B Z e K H E. eapply bnd_weaken; [apply bnd_mul; eauto| |]; lra. Qed.
Lemma baw X dx x' x Y dy y' y : bnd X dx x' x -> bnd Y dy y' y -> forall Z e, 1e-40 <= Z -> X + Y <= Z -> (dx + dy) * 1.01 + 1.13e-16 * Z <= e ->
  bnd Z e (b64 (x' + y')) (x + y).
Proof. intros A B Z e K H E. eapply bnd_weaken; [apply bnd_add; eauto| |]; lra. Qed.
Lemma bsw X dx x' x Y dy y' y : bnd X dx x' x -> bnd Y dy y' y -> forall Z e, 1e-40 <= Z -> X + Y <= Z -> (dx + dy) * 1.01 + 1.13e-16 * Z <= e ->
  bnd Z e (b64 (x' - y')) (x - y).
Proof. intros A B Z e K H E. eapply bnd_weaken; [apply bnd_sub; eauto| |]; lra. Qed.
Lemma barc s : 1e-6 <= s <= 30000 -> forall X e, 4.84814e-6 * s <= X -> 3.7e-21 * s <= e -> bnd X e (seconds_to_radians_b64 s) (dms_to_radians 0 0 s).
Proof. intros H X e K E. eapply bnd_weaken; [apply bnd_seconds; lra| |]; lra. Qed.
Lemma bcw c : 1e-40 <= c -> forall e, 1.13e-16 * c <= e -> bnd c e (b64 c) c.
Proof. intros H e E. eapply bnd_weaken; [apply bnd_pos; lra| |]; lra. Qed.
Lemma bradw X d q' q : bnd X d q' q -> forall Z e, 1e-40 <= Z -> X * 0.0174533 <= Z -> (d * 0.0174533 + (X + d) * 4e-18) * 1.01 + 1.13e-16 * Z <= e -> bnd Z e (radians_b64 q') (radians q).
Proof. intros A Z e K H E. eapply bnd_weaken; [apply bnd_rad; eauto| |]; lra. Qed.

Lemma bnd_lit c : 0 <= c -> bnd c 0 c c.
Proof. intros H. apply bnd_same. rewrite Rabs_pos_eq; lra. Qed.

(** * Time *)
Definition span (v : R) : Prop := Rabs (v - 51544.5) <= 36525.

Lemma bnd_days v : span v -> bnd 36525 2.9e-10 (b64 (julian_value_b64 v - J2000_JULIAN_DATE)) (julian_value (Epoch v) - J2000_JULIAN_DATE).
Proof.
  unfold span. intros H. apply Rabs_le_inv in H. unfold julian_value_b64, julian_value, J2000_JULIAN_DATE, MJD_ZERO. cbn [value].
  assert (B : Rabs (v + 2400000.5 - 2451545) <= 36525) by (apply Rabs_le; lra). split; auto.
  assert (E : err 2.8e-10 (b64 (v + 2400000.5)) (v + 2400000.5)) by (unfold err; assert (F := b64_fine (v + 2400000.5)); rewrite (Rabs_pos_eq (v + 2400000.5)) in F by lra; lra).
  apply (err_subr _ _ _ _ _ _ _ _ E (err_same 2451545) B). lra.
Qed.
Lemma bnd_centuries v : span v -> bnd 1 8.3e-15 (julian_centuries_b64 v) (julian_centuries_past_j2000 (Epoch v)).
Proof.
  intros H. unfold julian_centuries_b64, julian_centuries_past_j2000, JULIAN_CENTURY. assert (B := bnd_days v H).
  eapply bnd_weaken; [apply bnd_div; [lra|exact B]| |]; lra.
Qed.

Lemma bnd_obliquity v : span v -> bnd 0.5 3.6e-16 (obliquity_b64 v) (obliquity_of_ecliptic_at_epoch (Epoch v)).
Proof.
  intros H. assert (T := bnd_centuries v H). unfold obliquity_b64, obliquity_of_ecliptic_at_epoch. cbv zeta.
  assert (O : bnd 0.409093 1.95e-16 OBLIQUITY_b64 Earth_OBLIQUITY_OF_ECLIPTIC).
  { unfold OBLIQUITY_b64, Earth_OBLIQUITY_OF_ECLIPTIC. eapply bnd_weaken; [apply bnd_rad, bnd_pos; lra| |]; lra. }
  assert (z5 := barc 46.815 ltac:(clear; lra) 2.269657e-4 1.732155e-19 ltac:(clear; lra) ltac:(clear; lra)).
  assert (z4 := bmw _ _ _ _ _ _ _ _ z5 T 2.269657e-4 2.103251e-18 ltac:(clear; lra) ltac:(clear; lra) ltac:(clear; lra)).
  assert (z3 := bsw _ _ _ _ _ _ _ _ O z4 4.093200e-1 2.453277e-16 ltac:(clear; lra) ltac:(clear; lra) ltac:(clear; lra)).
  assert (z8 := barc 0.00059 ltac:(clear; lra) 2.860403e-9 2.183000e-24 ltac:(clear; lra) ltac:(clear; lra)).
  assert (z7 := bmw _ _ _ _ _ _ _ _ z8 T 2.860403e-9 2.650685e-23 ltac:(clear; lra) ltac:(clear; lra) ltac:(clear; lra)).
  assert (z6 := bmw _ _ _ _ _ _ _ _ z7 T 2.860403e-9 5.107396e-23 ltac:(clear; lra) ltac:(clear; lra) ltac:(clear; lra)).
  assert (z2 := bsw _ _ _ _ _ _ _ _ z3 z6 4.093201e-1 2.940345e-16 ltac:(clear; lra) ltac:(clear; lra) ltac:(clear; lra)).
  assert (z12 := barc 0.001813 ltac:(clear; lra) 8.789678e-9 6.708100e-24 ltac:(clear; lra) ltac:(clear; lra)).
  assert (z11 := bmw _ _ _ _ _ _ _ _ z12 T 8.789678e-9 8.145237e-23 ltac:(clear; lra) ltac:(clear; lra) ltac:(clear; lra)).
  assert (z10 := bmw _ _ _ _ _ _ _ _ z11 T 8.789678e-9 1.569442e-22 ltac:(clear; lra) ltac:(clear; lra) ltac:(clear; lra)).
  assert (z9 := bmw _ _ _ _ _ _ _ _ z10 T 8.789678e-9 2.331910e-22 ltac:(clear; lra) ltac:(clear; lra) ltac:(clear; lra)).
  assert (z1 := baw _ _ _ _ _ _ _ _ z2 z9 4.093202e-1 3.432287e-16 ltac:(clear; lra) ltac:(clear; lra) ltac:(clear; lra)).
  eapply bnd_weaken; [exact z1| |]; clear; lra.
Qed.

Lemma bnd_prec_x v (t := julian_centuries_past_j2000 (Epoch v)) : span v -> bnd 0.0112 1.2e-16 (precession_x_b64 v)
  (dms_to_radians 0 0 2306.2181 * t + dms_to_radians 0 0 0.30188 * t * t + dms_to_radians 0 0 0.017998 * t * t * t).
Proof. intros H. assert (T := bnd_centuries v H). fold t in T. unfold precession_x_b64. cbv zeta.
  assert (z4 := barc 2306.2181 ltac:(clear; lra) 1.118087e-2 8.533007e-18 ltac:(clear; lra) ltac:(clear; lra)).
  assert (z3 := bmw _ _ _ _ _ _ _ _ z4 T 1.118087e-2 1.036112e-16 ltac:(clear; lra) ltac:(clear; lra) ltac:(clear; lra)).
  assert (z7 := barc 0.30188 ltac:(clear; lra) 1.463557e-6 1.116956e-21 ltac:(clear; lra) ltac:(clear; lra)).
  assert (z6 := bmw _ _ _ _ _ _ _ _ z7 T 1.463557e-6 1.356252e-20 ltac:(clear; lra) ltac:(clear; lra) ltac:(clear; lra)).
  assert (z5 := bmw _ _ _ _ _ _ _ _ z6 T 1.463557e-6 2.613256e-20 ltac:(clear; lra) ltac:(clear; lra) ltac:(clear; lra)).
  assert (z2 := baw _ _ _ _ _ _ _ _ z3 z5 1.118234e-2 1.059375e-16 ltac:(clear; lra) ltac:(clear; lra) ltac:(clear; lra)).
  assert (z11 := barc 0.017998 ltac:(clear; lra) 8.725683e-8 6.659260e-23 ltac:(clear; lra) ltac:(clear; lra)).
  assert (z10 := bmw _ _ _ _ _ _ _ _ z11 T 8.725683e-8 8.085934e-22 ltac:(clear; lra) ltac:(clear; lra) ltac:(clear; lra)).
  assert (z9 := bmw _ _ _ _ _ _ _ _ z10 T 8.725683e-8 1.558015e-21 ltac:(clear; lra) ltac:(clear; lra) ltac:(clear; lra)).
  assert (z8 := bmw _ _ _ _ _ _ _ _ z9 T 8.725683e-8 2.314932e-21 ltac:(clear; lra) ltac:(clear; lra) ltac:(clear; lra)).
  assert (z1 := baw _ _ _ _ _ _ _ _ z2 z8 1.118243e-2 1.082630e-16 ltac:(clear; lra) ltac:(clear; lra) ltac:(clear; lra)).
  eapply bnd_weaken; [exact z1| |]; clear; lra.
Qed.
Lemma bnd_prec_y v (t := julian_centuries_past_j2000 (Epoch v)) : span v -> bnd 0.0112 1.2e-16 (precession_y_b64 v)
  (dms_to_radians 0 0 2004.3109 * t - dms_to_radians 0 0 0.42665 * t * t - dms_to_radians 0 0 0.041833 * t * t * t).
Proof. intros H. assert (T := bnd_centuries v H). fold t in T. unfold precession_y_b64. cbv zeta.
  assert (z4 := barc 2004.3109 ltac:(clear; lra) 9.717180e-3 7.415951e-18 ltac:(clear; lra) ltac:(clear; lra)).
  assert (z3 := bmw _ _ _ _ _ _ _ _ z4 T 9.717180e-3 9.004737e-17 ltac:(clear; lra) ltac:(clear; lra) ltac:(clear; lra)).
  assert (z7 := barc 0.42665 ltac:(clear; lra) 2.068459e-6 1.578605e-21 ltac:(clear; lra) ltac:(clear; lra)).
  assert (z6 := bmw _ _ _ _ _ _ _ _ z7 T 2.068459e-6 1.916804e-20 ltac:(clear; lra) ltac:(clear; lra) ltac:(clear; lra)).
  assert (z5 := bmw _ _ _ _ _ _ _ _ z6 T 2.068459e-6 3.693339e-20 ltac:(clear; lra) ltac:(clear; lra) ltac:(clear; lra)).
  assert (z2 := bsw _ _ _ _ _ _ _ _ z3 z5 9.719249e-3 9.208352e-17 ltac:(clear; lra) ltac:(clear; lra) ltac:(clear; lra)).
  assert (z11 := barc 0.041833 ltac:(clear; lra) 2.028123e-7 1.547821e-22 ltac:(clear; lra) ltac:(clear; lra)).
  assert (z10 := bmw _ _ _ _ _ _ _ _ z11 T 2.028123e-7 1.879426e-21 ltac:(clear; lra) ltac:(clear; lra) ltac:(clear; lra)).
  assert (z9 := bmw _ _ _ _ _ _ _ _ z10 T 2.028123e-7 3.621318e-21 ltac:(clear; lra) ltac:(clear; lra) ltac:(clear; lra)).
  assert (z8 := bmw _ _ _ _ _ _ _ _ z9 T 2.028123e-7 5.380630e-21 ltac:(clear; lra) ltac:(clear; lra) ltac:(clear; lra)).
  assert (z1 := bsw _ _ _ _ _ _ _ _ z2 z8 9.719452e-3 9.410819e-17 ltac:(clear; lra) ltac:(clear; lra) ltac:(clear; lra)).
  eapply bnd_weaken; [exact z1| |]; clear; lra.
Qed.
Lemma bnd_prec_z v (t := julian_centuries_past_j2000 (Epoch v)) : span v -> bnd 0.012 1.4e-16 (precession_z_b64 v)
  (dms_to_radians 0 0 2306.2181 * t + dms_to_radians 0 0 0.30188 * t * t + dms_to_radians 0 0 0.017998 * t * t * t
   + dms_to_radians 0 0 0.7928 * t * t + dms_to_radians 0 0 0.000205 * t * t * t).
Proof.
  intros H. assert (T := bnd_centuries v H). fold t in T. assert (X := bnd_prec_x v H). fold t in X. unfold precession_z_b64. cbv zeta.
  assert (z5 := barc 0.7928 ltac:(clear; lra) 3.843606e-6 2.933360e-21 ltac:(clear; lra) ltac:(clear; lra)).
  assert (z4 := bmw _ _ _ _ _ _ _ _ z5 T 3.843606e-6 3.561801e-20 ltac:(clear; lra) ltac:(clear; lra) ltac:(clear; lra)).
  assert (z3 := bmw _ _ _ _ _ _ _ _ z4 T 3.843606e-6 6.862954e-20 ltac:(clear; lra) ltac:(clear; lra) ltac:(clear; lra)).
  assert (z2 := baw _ _ _ _ _ _ _ _ X z3 1.120385e-2 1.225355e-16 ltac:(clear; lra) ltac:(clear; lra) ltac:(clear; lra)).
  assert (z9 := barc 0.000205 ltac:(clear; lra) 9.938687e-10 7.585000e-25 ltac:(clear; lra) ltac:(clear; lra)).
  assert (z8 := bmw _ _ _ _ _ _ _ _ z9 T 9.938687e-10 9.210003e-24 ltac:(clear; lra) ltac:(clear; lra) ltac:(clear; lra)).
  assert (z7 := bmw _ _ _ _ _ _ _ _ z8 T 9.938687e-10 1.774603e-23 ltac:(clear; lra) ltac:(clear; lra) ltac:(clear; lra)).
  assert (z6 := bmw _ _ _ _ _ _ _ _ z7 T 9.938687e-10 2.636743e-23 ltac:(clear; lra) ltac:(clear; lra) ltac:(clear; lra)).
  assert (z1 := baw _ _ _ _ _ _ _ _ z2 z6 1.120386e-2 1.250271e-16 ltac:(clear; lra) ltac:(clear; lra) ltac:(clear; lra)).
  eapply bnd_weaken; [exact z1| |]; clear; lra.
Qed.

Lemma precession_rows L v : accurate_circular L -> span v ->
  let m' := Earth_precession_b64 L v in let m := Earth_precession (Epoch v) in
  within3 2.5e-15 (m3_row1 m') (m3_row1 m) /\ within3 2.5e-15 (m3_row2 m') (m3_row2 m) /\ within3 2.5e-15 (m3_row3 m') (m3_row3 m).
Proof.
  intros A H. cbn zeta. unfold Earth_precession_b64, Earth_precession. cbv zeta. cbn [m3_row1 m3_row2 m3_row3].
  destruct (bsincosw L _ _ _ _ A (bnd_prec_x v H) ltac:(clear; lra) 3.5e-16 ltac:(clear; lra)) as [SX CX]. destruct (bsincosw L _ _ _ _ A (bnd_prec_y v H) ltac:(clear; lra) 3.5e-16 ltac:(clear; lra)) as [SY CY].
  destruct (bsincosw L _ _ _ _ A (bnd_prec_z v H) ltac:(clear; lra) 3.7e-16 ltac:(clear; lra)) as [SZ CZ].
  set (sx' := sinf L (precession_x_b64 v)) in *. set (cx' := cosf L (precession_x_b64 v)) in *.
  set (sy' := sinf L (precession_y_b64 v)) in *. set (cy' := cosf L (precession_y_b64 v)) in *.
  set (sz' := sinf L (precession_z_b64 v)) in *. set (cz' := cosf L (precession_z_b64 v)) in *.
  match type of SX with bnd _ _ _ ?s => set (sx := s) in * end. match type of CX with bnd _ _ _ ?s => set (cx := s) in * end.
  match type of SY with bnd _ _ _ ?s => set (sy := s) in * end. match type of CY with bnd _ _ _ ?s => set (cy := s) in * end.
  match type of SZ with bnd _ _ _ ?s => set (sz := s) in * end. match type of CZ with bnd _ _ _ ?s => set (cz := s) in * end.
  clearbody sx' cx' sy' cy' sz' cz' sx cx sy cy sz cz.
  assert (NZ := bnd_opp _ _ _ _ SZ). assert (NC := bnd_opp _ _ _ _ CZ). assert (NY := bnd_opp _ _ _ _ SY).
  assert (W : forall X d q' q, bnd X d q' q -> d <= 2.5e-15 -> Rabs (q' - q) <= 2.5e-15) by (intros X d q' q [_ E] K; unfold err in E; lra).
  unfold within3. cbn [x3 y3 z3].
  split; [|split]; (split; [|split]).
  - assert (z2 := bmw _ _ _ _ _ _ _ _ NZ SX 1.000000e0 8.402009e-16 ltac:(clear; lra) ltac:(clear; lra) ltac:(clear; lra)).
    assert (z4 := bmw _ _ _ _ _ _ _ _ CZ CY 1.000000e0 8.402009e-16 ltac:(clear; lra) ltac:(clear; lra) ltac:(clear; lra)).
    assert (z3 := bmw _ _ _ _ _ _ _ _ z4 CX 1.000000e0 1.315105e-15 ltac:(clear; lra) ltac:(clear; lra) ltac:(clear; lra)).
    assert (z1 := baw _ _ _ _ _ _ _ _ z2 z3 2.000000e0 2.402862e-15 ltac:(clear; lra) ltac:(clear; lra) ltac:(clear; lra)).
    exact (W _ _ _ _ z1 ltac:(clear; lra)).
  - assert (z2 := bmw _ _ _ _ _ _ _ _ NZ CX 1.000000e0 8.402009e-16 ltac:(clear; lra) ltac:(clear; lra) ltac:(clear; lra)).
    assert (z4 := bmw _ _ _ _ _ _ _ _ CZ CY 1.000000e0 8.402009e-16 ltac:(clear; lra) ltac:(clear; lra) ltac:(clear; lra)).
    assert (z3 := bmw _ _ _ _ _ _ _ _ z4 SX 1.000000e0 1.315105e-15 ltac:(clear; lra) ltac:(clear; lra) ltac:(clear; lra)).
    assert (z1 := bsw _ _ _ _ _ _ _ _ z2 z3 2.000000e0 2.402862e-15 ltac:(clear; lra) ltac:(clear; lra) ltac:(clear; lra)).
    exact (W _ _ _ _ z1 ltac:(clear; lra)).
  - assert (z1 := bmw _ _ _ _ _ _ _ _ NC SY 1.000000e0 8.402009e-16 ltac:(clear; lra) ltac:(clear; lra) ltac:(clear; lra)).
    exact (W _ _ _ _ z1 ltac:(clear; lra)).
  - assert (z2 := bmw _ _ _ _ _ _ _ _ CZ SX 1.000000e0 8.402009e-16 ltac:(clear; lra) ltac:(clear; lra) ltac:(clear; lra)).
    assert (z4 := bmw _ _ _ _ _ _ _ _ SZ CY 1.000000e0 8.402009e-16 ltac:(clear; lra) ltac:(clear; lra) ltac:(clear; lra)).
    assert (z3 := bmw _ _ _ _ _ _ _ _ z4 CX 1.000000e0 1.315105e-15 ltac:(clear; lra) ltac:(clear; lra) ltac:(clear; lra)).
    assert (z1 := baw _ _ _ _ _ _ _ _ z2 z3 2.000000e0 2.402862e-15 ltac:(clear; lra) ltac:(clear; lra) ltac:(clear; lra)).
    exact (W _ _ _ _ z1 ltac:(clear; lra)).
  - assert (z2 := bmw _ _ _ _ _ _ _ _ CZ CX 1.000000e0 8.402009e-16 ltac:(clear; lra) ltac:(clear; lra) ltac:(clear; lra)).
    assert (z4 := bmw _ _ _ _ _ _ _ _ SZ CY 1.000000e0 8.402009e-16 ltac:(clear; lra) ltac:(clear; lra) ltac:(clear; lra)).
    assert (z3 := bmw _ _ _ _ _ _ _ _ z4 SX 1.000000e0 1.315105e-15 ltac:(clear; lra) ltac:(clear; lra) ltac:(clear; lra)).
    assert (z1 := bsw _ _ _ _ _ _ _ _ z2 z3 2.000000e0 2.402862e-15 ltac:(clear; lra) ltac:(clear; lra) ltac:(clear; lra)).
    exact (W _ _ _ _ z1 ltac:(clear; lra)).
  - assert (z1 := bmw _ _ _ _ _ _ _ _ NZ SY 1.000000e0 8.402009e-16 ltac:(clear; lra) ltac:(clear; lra) ltac:(clear; lra)).
    exact (W _ _ _ _ z1 ltac:(clear; lra)).
  - assert (z1 := bmw _ _ _ _ _ _ _ _ SY CX 1.000000e0 8.200009e-16 ltac:(clear; lra) ltac:(clear; lra) ltac:(clear; lra)).
    exact (W _ _ _ _ z1 ltac:(clear; lra)).
  - assert (z1 := bmw _ _ _ _ _ _ _ _ NY SX 1.000000e0 8.200009e-16 ltac:(clear; lra) ltac:(clear; lra) ltac:(clear; lra)).
    exact (W _ _ _ _ z1 ltac:(clear; lra)).
  - exact (W _ _ _ _ CY ltac:(clear; lra)).
Qed.
