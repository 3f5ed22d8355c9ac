From Coq Require Import Reals Lra Lia Psatz ZArith Nsatz.
From Flocq Require Import Core.
From Verif.Model Require Import Num Constants Linalg Time Functions Celestial.
From Verif.Spec Require Import Geometry.
From Verif.Proofs Require Import NumLemmas LinalgProofs CelestialProofs Analysis PiDigits.
From Verif.Spec Require Import Ecliptic.
From Verif.Proofs Require Import EclipticProofs.
Local Open Scope R_scope.

Lemma sun_track : exists lon r, advances 0.951 1.02 lon /\ forall t,
  147.099e6 <= r t <= 152.097e6 /\ Sun_get_position (Epoch t) = ecliptic (r t) (lon t) 0.
Proof.
  exists sun_lon, sun_range. split; [exact sun_advances|]. intros t. split; [|apply sun_ecliptic].
  unfold sun_range. cbv zeta. set (ma := sun_anomaly t). rewrite cos_2a_cos. assert (C := COS_bound ma). set (c := cos ma) in *.
  assert (0 <= (1 - c) * (2.541 + 0.042 * c)) by (apply Rmult_le_pos; lra).
  assert (0 <= (1 + c) * (2.457 + 0.042 * c)) by (apply Rmult_le_pos; lra). split; lra.
Qed.

Lemma sun_year t k : Sun_get_position (Epoch (t + IZR k * (360 * 36525 / 35999.049))) = Sun_get_position (Epoch t).
Proof.
  rewrite !sun_ecliptic. set (t' := t + _).
  assert (E : sun_anomaly t' = sun_anomaly t + 2 * PI * IZR k).
  { assert (A := anomaly_step t (IZR k * (360 * 36525 / 35999.049))). fold t' in A. unfold degree in A.
    replace (35999.049 * (IZR k * (360 * 36525 / 35999.049) / 36525 * (PI / 180))) with (2 * PI * IZR k) in A by lra. lra. }
  assert (R : sun_range t' = sun_range t).
  { unfold sun_range. cbv zeta. rewrite E. replace (2 * (sun_anomaly t + 2 * PI * IZR k)) with (2 * sun_anomaly t + 2 * PI * IZR (2 * k)) by (rewrite mult_IZR; ring). rewrite !cos_shift_Z. reflexivity. }
  assert (L : sun_lon t' = sun_lon t + 2 * PI * IZR k).
  { unfold sun_lon. cbv zeta. rewrite E, sin_shift_Z, cos_shift_Z. ring. }
  rewrite R, L. unfold ecliptic. cbv zeta. rewrite sin_shift_Z, cos_shift_Z. reflexivity.
Qed.

Lemma moon_track : exists lon lat r, advances 10.9 15.4 lon /\ forall t,
  Rabs (lat t) <= 5.34 * degree /\ 356096 <= r t <= 413904 /\
  Moon_get_position (Epoch t) = Ok (ecliptic (r t) (lon t) (lat t)).
Proof.
  exists moon_lon, moon_lat, moon_range. split; [exact moon_advances|]. intros t.
  split; [apply moon_lat_bounds|]. split; [apply moon_range_bounds|]. apply moon_ecliptic.
Qed.

Lemma ecliptic_turn r lon lat r' lon' lat' :
  dot (V3 0 (- sin tilt) (cos tilt)) (cross (ecliptic r lon lat) (ecliptic r' lon' lat')) = r * r' * cos lat * cos lat' * sin (lon' - lon).
Proof.
  rewrite sin_minus. assert (H := sin2_cos2' tilt). unfold ecliptic, dot, cross. cbv zeta. cbn [x3 y3 z3].
  set (s := sin tilt) in *. set (c := cos tilt) in *. clearbody s c. nsatz.
Qed.

Lemma moon_east t d p p' : 0 < d <= 11.6 -> Moon_get_position (Epoch t) = Ok p -> Moon_get_position (Epoch (t + d)) = Ok p' ->
  0 < dot (V3 0 (- sin tilt) (cos tilt)) (cross p p').
Proof.
  rewrite !moon_ecliptic. intros D E E'. injection E as E. injection E' as E'. 
  assert (E1 : p = ecliptic (moon_range t) (moon_lon t) (moon_lat t)) by congruence.
  assert (E2 : p' = ecliptic (moon_range (t + d)) (moon_lon (t + d)) (moon_lat (t + d))) by congruence.
  rewrite E1, E2, ecliptic_turn. clear E E' E1 E2. assert (G := degree_pos). assert (P := PI_digits).
  assert (C : forall t, 0 < cos (moon_lat t)). { intros u. assert (B := Rabs_le_inv _ _ (moon_lat_bounds u)). apply cos_gt_0; lra. }
  assert (A := moon_advances t d ltac:(lra)). assert (R1 := moon_range_bounds t). assert (R2 := moon_range_bounds (t + d)).
  assert (0 < 10.9 * d * degree) by (apply Rmult_lt_0_compat; [apply Rmult_lt_0_compat|]; lra).
  assert (15.4 * d * degree < PI). { replace PI with (180 * degree) by (unfold degree; lra). apply Rmult_lt_compat_r; lra. }
  repeat apply Rmult_lt_0_compat; auto; try lra. apply sin_gt_0; lra.
Qed.

Lemma sun_east t d : 0 < d <= 176 ->
  0 < dot (V3 0 (- sin tilt) (cos tilt)) (cross (Sun_get_position (Epoch t)) (Sun_get_position (Epoch (t + d)))).
Proof.
  destruct sun_track as (lon & r & A & T). destruct (T t) as [R1 E1]. destruct (T (t + d)) as [R2 E2]. intros D. rewrite E1, E2, ecliptic_turn, cos_0.
  assert (G := degree_pos). specialize (A t d ltac:(lra)).
  assert (0 < 0.951 * d * degree) by (apply Rmult_lt_0_compat; [apply Rmult_lt_0_compat|]; lra).
  assert (1.02 * d * degree < PI). { replace PI with (180 * degree) by (unfold degree; lra). apply Rmult_lt_compat_r; lra. }
  repeat apply Rmult_lt_0_compat; auto; try lra. apply sin_gt_0; lra.
Qed.

(** ** Phases of the Moon *)
Lemma advances_cont lo hi lon : 0 <= lo -> advances lo hi lon -> 0 <= hi -> continuity lon.
Proof.
  intros L A H x. assert (G := degree_pos).
  assert (Lip : forall u v, Rabs (lon u - lon v) <= (hi * degree + 1) * Rabs (u - v)).
  { assert (W : forall u v, v <= u -> Rabs (lon u - lon v) <= (hi * degree + 1) * (u - v)).
    { intros u v UV. specialize (A v (u - v) ltac:(lra)). replace (v + (u - v)) with u in A by ring.
      assert (0 <= lo * (u - v) * degree) by (apply Rmult_le_pos; [apply Rmult_le_pos|]; lra). rewrite Rabs_pos_eq by lra. lra. }
    intros u v. destruct (Rle_dec v u).
    - rewrite (Rabs_pos_eq (u - v)) by lra. auto.
    - rewrite (Rabs_minus_sym (lon u)), (Rabs_minus_sym u), (Rabs_pos_eq (v - u)) by lra. apply W; lra. }
  assert (K : 0 < hi * degree + 1) by (assert (0 <= hi * degree) by (apply Rmult_le_pos; lra); lra).
  intros eps E. exists (eps / (hi * degree + 1)). split; [apply Rdiv_lt_0_compat; auto|].
  intros y [_ Y]. cbn in *. unfold R_dist in *. eapply Rle_lt_trans; [apply Lip|].
  apply Rmult_lt_reg_r with (/ (hi * degree + 1)); [apply Rinv_0_lt_compat; auto|]. 
  replace ((hi * degree + 1) * Rabs (y - x) * / (hi * degree + 1)) with (Rabs (y - x)) by (field; lra). exact Y.
Qed.

Lemma reach lo f t0 a : 0 < lo -> continuity f -> (forall d, 0 <= d -> lo * d <= f (t0 + d) - f t0) ->
  exists d k, 0 <= d <= 2 * PI / lo /\ f (t0 + d) = a + 2 * PI * IZR k.
Proof.
  intros L C A. assert (P := PI_RGT_0). set (D := 2 * PI / lo).
  assert (D0 : 0 < D) by (unfold D; apply Rdiv_lt_0_compat; lra).
  assert (LD : lo * D = 2 * PI) by (unfold D; field; lra).
  set (k := up ((f t0 - a) / (2 * PI))). assert (U := archimed ((f t0 - a) / (2 * PI))). fold k in U.
  assert (EQ : (f t0 - a) / (2 * PI) * (2 * PI) = f t0 - a) by (field; lra).
  assert (B : f t0 <= a + 2 * PI * IZR k <= f t0 + 2 * PI) by (split; nra).
  destruct (IVT_weak (fun x => f x - (a + 2 * PI * IZR k)) t0 (t0 + D)) as [c [Hc E]].
  - apply continuity_minus; auto. apply continuity_const. intros x y; reflexivity.
  - lra.
  - specialize (A D ltac:(lra)). split; lra.
  - exists (c - t0), k. split; [lra|]. replace (t0 + (c - t0)) with c by ring. lra.
Qed.

Lemma phase t a : exists d, 0 <= d <= 37 /\ exists lon lat r r',
  Rabs lat <= 5.34 * degree /\
  Sun_get_position (Epoch (t + d)) = ecliptic r lon 0 /\
  Moon_get_position (Epoch (t + d)) = Ok (ecliptic r' (lon + a) lat).
Proof.
  assert (G := degree_pos). assert (P := PI_digits).
  destruct (reach (9.8 * degree) (fun x => moon_lon x - sun_lon x) t a) as (d & k & D & E).
  - lra.
  - apply continuity_minus; [apply (advances_cont 10.9 15.4 _ ltac:(lra) moon_advances ltac:(lra))|apply (advances_cont 0.951 1.02 _ ltac:(lra) sun_advances ltac:(lra))].
  - intros d D. assert (A := moon_advances t d D). assert (B := sun_advances t d D). assert (0 <= d * degree) by (apply Rmult_le_pos; lra). lra.
  - exists d. assert (2 * PI / (9.8 * degree) <= 37). { unfold degree. apply Rmult_le_reg_r with (9.8 * (PI / 180)); [lra|]. unfold Rdiv at 1. rewrite Rmult_assoc, Rinv_l by lra. lra. }
    split; [lra|]. exists (sun_lon (t + d)), (moon_lat (t + d)), (sun_range (t + d)), (moon_range (t + d)).
    split; [apply moon_lat_bounds|]. split; [apply sun_ecliptic|]. rewrite moon_ecliptic. apply f_equal.
    replace (moon_lon (t + d)) with (sun_lon (t + d) + a + 2 * PI * IZR k) by lra. unfold ecliptic. cbv zeta. rewrite cos_shift_Z, sin_shift_Z. reflexivity.
Qed.

(** ** Precession and obliquity *)
Lemma centuries_is e : julian_centuries_past_j2000 e = centuries e.
Proof. unfold centuries, julian_centuries_past_j2000, julian_value, J2000_JULIAN_DATE, JULIAN_CENTURY, MJD_ZERO. lra. Qed.
Lemma dms_arcsec x : dms_to_radians 0 0 x = x * arcsec.
Proof. unfold dms_to_radians, radians, arcsec, degree, MINUTES_IN_HOUR, SECONDS_IN_HOUR. lra. Qed.

Lemma rate_of p q c c' t a : Rabs c' <= c -> a = (p * t + q * (t * t) + c' * (t * t * t)) * arcsec -> about_rate p q c t a.
Proof.
  intros C ->. unfold about_rate. assert (G := degree_pos). assert (A : 0 < arcsec) by (unfold arcsec; lra).
  replace ((p * t + q * (t * t) + c' * (t * t * t)) * arcsec - (p * t + q * (t * t)) * arcsec) with (c' * (t * t * t) * arcsec) by ring.
  rewrite !Rabs_mult, (Rabs_pos_eq arcsec) by lra. apply Rmult_le_compat_r; [lra|]. apply Rmult_le_compat_r; [|auto]. repeat apply Rmult_le_pos; apply Rabs_pos.
Qed.

Lemma precession_turns e : exists zeta theta z,
  about_rate 2306.2181 0.30188 0.018 (centuries e) zeta /\ about_rate 2004.3109 (-0.42665) 0.0419 (centuries e) theta /\
  about_rate 2306.2181 1.09468 0.0183 (centuries e) z /\
  forall v, apply3 (Earth_precession e) v = turn_z z (turn_y (- theta) (turn_z zeta v)).
Proof.
  unfold Earth_precession. cbv zeta. rewrite centuries_is, !dms_arcsec. set (t := centuries e).
  match goal with |- context [- sin ?z * sin ?x + cos ?z * cos ?y * cos ?x] => set (zz := z); set (xx := x); set (yy := y) end.
  exists xx, yy, zz. repeat split.
  - apply rate_of with 0.017998; [rewrite Rabs_pos_eq; lra|]. unfold xx. lra.
  - apply rate_of with (-0.041833); [rewrite Rabs_left; lra|]. unfold yy. lra.
  - apply rate_of with 0.018203; [rewrite Rabs_pos_eq; lra|]. unfold zz, xx. lra.
  - intros v. unfold apply3, turn_z, turn_y, dot. cbn [x3 y3 z3 m3_row1 m3_row2 m3_row3]. rewrite cos_neg, sin_neg. f_equal; ring.
Qed.

Lemma obliquity_rate e : about_rate (-46.815) (-0.00059) 0.00182 (centuries e) (obliquity_of_ecliptic_at_epoch e - 23.43929111 * degree).
Proof.
  unfold obliquity_of_ecliptic_at_epoch. cbv zeta. rewrite centuries_is, !dms_arcsec. set (t := centuries e). rewrite tilt_is. unfold tilt.
  apply rate_of with 0.001813; [rewrite Rabs_pos_eq; lra|]. lra.
Qed.

Lemma moon_nonzero t : ecliptic (moon_range t) (moon_lon t) (moon_lat t) <> zero3.
Proof.
  intros E. destruct (Moon_norm (Epoch t)) as (p & A & B & _). rewrite moon_ecliptic, E in A. injection A as <-.
  unfold norm, dot, zero3 in B. cbn [x3 y3 z3] in B. replace (0 * 0 + 0 * 0 + 0 * 0) with 0 in B by ring. rewrite sqrt_0 in B. lra.
Qed.
