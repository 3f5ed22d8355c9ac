From Coq Require Import Reals Lra Lia Psatz.
From Flocq Require Import Core.
From Verif.Model Require Import Num Constants Linalg Time Functions Celestial.
From Verif.Spec Require Import Geometry.
From Verif.Proofs Require Import NumLemmas LinalgProofs CelestialProofs Analysis PiDigits.
From Verif.Spec Require Import Ecliptic.
Local Open Scope R_scope.

Lemma degree_pos : 0.01745329 < degree < 0.0174532926.
Proof. assert (P := PI_digits). unfold degree. split; lra. Qed.

(** centuries past J2000 at a day number *)
Definition cent (t : R) : R := julian_centuries_past_j2000 (Epoch t).
Lemma cent_step t d : cent (t + d) = cent t + d / 36525.
Proof. unfold cent, julian_centuries_past_j2000, julian_value, JULIAN_CENTURY, J2000_JULIAN_DATE, MJD_ZERO. cbn [value]. lra. Qed.

Lemma second_small x : 0 <= x -> 0 <= dms_to_radians 0 0 x <= 4.84814e-6 * x.
Proof. intros X. assert (D := degree_pos). unfold dms_to_radians, radians, MINUTES_IN_HOUR, SECONDS_IN_HOUR. fold degree. replace ((0 + 0 / 60 + x / 3600) * degree) with (x * (degree / 3600)) by lra.
  assert (0 <= degree / 3600 <= 4.84814e-6) by (split; lra). split; [apply Rmult_le_pos; lra|]. rewrite Rmult_comm. apply Rmult_le_compat_r; lra. Qed.

(** a term of a series changes by at most amplitude times the angle's change *)
Lemma term_step a A k K u v s : 0 <= a <= A -> u - v = k * s -> Rabs k <= K -> 0 <= s -> Rabs (a * sin u - a * sin v) <= A * K * s.
Proof.
  intros HA E HK S. replace (a * sin u - a * sin v) with (a * (sin u - sin v)) by ring. rewrite Rabs_mult, (Rabs_pos_eq a) by lra.
  assert (L := sin_lip u v). rewrite E, Rabs_mult, (Rabs_pos_eq s) in L by auto. rewrite Rmult_assoc. apply Rmult_le_compat; try lra. apply Rabs_pos.
  eapply Rle_trans; [exact L|]. apply Rmult_le_compat_r; auto.
Qed.

(** ** Sun *)
Definition sun_anomaly (t : R) : R := radians (357.5256 + 35999.049 * cent t).
Definition sun_lon (t : R) : R := let ma := sun_anomaly t in
  Sun_W_PLUS_W + ma + dms_to_radians 0 0 6892 * sin ma + dms_to_radians 0 0 72 * 2 * sin ma * cos ma.
Definition sun_range (t : R) : R := let ma := sun_anomaly t in (149.619 - 2.499 * cos ma - 0.021 * cos (2 * ma)) * 1e6.

Lemma tilt_is : Earth_OBLIQUITY_OF_ECLIPTIC = tilt.
Proof. reflexivity. Qed.

Lemma sun_ecliptic t : Sun_get_position (Epoch t) = ecliptic (sun_range t) (sun_lon t) 0.
Proof.
  unfold Sun_get_position. fold (cent t). cbv zeta. fold (sun_anomaly t). unfold ecliptic, sun_range, sun_lon, Sun_COS_OBLIQUITY, Sun_SIN_OBLIQUITY. rewrite tilt_is. cbv zeta.
  rewrite sin_0, cos_0. f_equal; ring.
Qed.

Lemma anomaly_step t d : sun_anomaly (t + d) - sun_anomaly t = 35999.049 * (d / 36525 * degree).
Proof. unfold sun_anomaly, radians. rewrite cent_step. fold degree. lra. Qed.

Lemma sun_advances : advances 0.951 1.02 sun_lon.
Proof.
  intros t d D. assert (G := degree_pos). set (s := d / 36525 * degree). assert (E := anomaly_step t d). fold s in E.
  assert (S : 0 <= s) by (unfold s; apply Rmult_le_pos; lra).
  assert (DS : d * degree = 36525 * s) by (unfold s; lra).
  replace (0.951 * d * degree) with (0.951 * (d * degree)) by ring. replace (1.02 * d * degree) with (1.02 * (d * degree)) by ring. rewrite DS.
  unfold sun_lon. set (u := sun_anomaly (t + d)) in *. set (v := sun_anomaly t) in *. cbv zeta.
  assert (A := term_step _ _ 35999.049 35999.049 u v s (second_small 6892 ltac:(lra)) E ltac:(rewrite Rabs_pos_eq; lra) S).
  assert (B := term_step _ _ (2 * 35999.049) 72000 (2 * u) (2 * v) s (second_small 72 ltac:(lra)) ltac:(lra) ltac:(rewrite Rabs_pos_eq; lra) S).
  rewrite !sin_2a in B. apply Rabs_le_inv in A, B. split; lra.
Qed.

(** ** Moon *)
Definition m_l0 t := radians (218.31617 + 481267.88088 * cent t - 1.3972 * cent t).
Definition m_l t := radians (134.96292 + 477198.86753 * cent t).
Definition m_lp t := radians (357.52543 + 35999.04944 * cent t).
Definition m_f t := radians (93.27283 + 483202.01873 * cent t).
Definition m_d t := radians (297.85027 + 445267.11135 * cent t).
Definition sec (x : R) := dms_to_radians 0 0 x.
Definition moon_lon t := let l := m_l t in let lp := m_lp t in let f := m_f t in let d := m_d t in
  m_l0 t + sec 22640.0 * sin l + sec 769.0 * sin (2 * l) - sec 4586.0 * sin (l - 2.0 * d) + sec 2370.0 * sin (2.0 * d) - sec 668.0 * sin lp
  - sec 412.0 * sin (2.0 * f) - sec 212.0 * sin (2.0 * l - 2.0 * d) - sec 206.0 * sin (l + lp - 2.0 * d) + sec 192.0 * sin (l + 2.0 * d)
  - sec 165.0 * sin (lp - 2.0 * d) + sec 148.0 * sin (l - lp) - sec 125.0 * sin d - sec 110.0 * sin (l + lp) - sec 55.0 * sin (2.0 * f - 2.0 * d).
Definition moon_lat t := let l := m_l t in let lp := m_lp t in let f := m_f t in let d := m_d t in
    sec 18520.0 * sin (f + moon_lon t - m_l0 t + sec 412.0 * sin (2.0 * f + sec 541.0 * sin lp))
    - sec 526.0 * sin (f - 2.0 * d) + sec 44.0 * sin (l + f - 2.0 * d) - sec 31.0 * sin (- l + f - 2.0 * d) - sec 25.0 * sin (-2.0 * l + f)
    - sec 23.0 * sin (lp + f - 2.0 * d) + sec 21.0 * sin (- l + f) + sec 11.0 * sin (- lp + f - 2.0 * d).
Definition moon_range t := let l := m_l t in let lp := m_lp t in let d := m_d t in
    385000.0 - 20905.0 * cos l - 3699.0 * cos (2.0 * d - l) - 2956.0 * cos (2.0 * d) - 570.0 * cos (2.0 * l)
    + 246.0 * cos (2.0 * l - 2.0 * d) - 205.0 * cos (lp - 2.0 * d) - 171.0 * cos (l + 2.0 * d) - 152.0 * cos (l + lp - 2.0 * d).

Lemma moon_ecliptic t : Moon_get_position (Epoch t) = Ok (ecliptic (moon_range t) (moon_lon t) (moon_lat t)).
Proof.
  transitivity (v3_rotation_about_axis (V3 (moon_range t * cos (moon_lon t) * cos (moon_lat t)) (moon_range t * sin (moon_lon t) * cos (moon_lat t)) (moon_range t * sin (moon_lat t))) (V3 1 0 0) tilt); [reflexivity|].
  rewrite rotation_x. cbn [x3 y3 z3]. unfold ecliptic. cbv zeta. apply f_equal. f_equal; ring.
Qed.

Lemma moon_range_bounds t : 356096 <= moon_range t <= 413904.
Proof.
  unfold moon_range. cbv zeta.
    repeat match goal with |- context [cos ?t] => let c := fresh "c" in let H := fresh "H" in
      assert (H := COS_bound t); set (c := cos t) in *; clearbody c end. lra.
Qed.

Lemma term_le a A u : 0 <= a <= A -> Rabs (a * sin u) <= A.
Proof. intros H. rewrite Rabs_mult, (Rabs_pos_eq a) by lra. rewrite <- (Rmult_1_r A). apply Rmult_le_compat; try lra; [apply Rabs_pos|]. assert (S := SIN_bound u). apply Rabs_le; lra. Qed.

Lemma moon_lat_bounds t : Rabs (moon_lat t) <= 5.34 * degree.
Proof.
  assert (G := degree_pos). unfold moon_lat. cbv zeta.
  repeat match goal with |- context [sec ?x * sin ?u] => 
    let H := fresh "H" in assert (H := term_le _ _ u (second_small x ltac:(lra))); fold (sec x) in H;
    let w := fresh "w" in set (w := sec x * sin u) in *; clearbody w; apply Rabs_le_inv in H end.
  apply Rabs_le. split; lra.
Qed.

Lemma moon_advances : advances 10.9 15.4 moon_lon.
Proof.
  intros t d D. assert (G := degree_pos). set (s := d / 36525 * degree).
  assert (S : 0 <= s) by (unfold s; apply Rmult_le_pos; lra).
  assert (DS : d * degree = 36525 * s) by (unfold s; lra).
  replace (10.9 * d * degree) with (10.9 * (d * degree)) by ring. replace (15.4 * d * degree) with (15.4 * (d * degree)) by ring. rewrite DS.
  assert (E0 : m_l0 (t + d) - m_l0 t = 481266.48368 * s) by (unfold m_l0, radians, s; rewrite cent_step; fold degree; lra).
  assert (E1 : m_l (t + d) - m_l t = 477198.86753 * s) by (unfold m_l, radians, s; rewrite cent_step; fold degree; lra).
  assert (E2 : m_lp (t + d) - m_lp t = 35999.04944 * s) by (unfold m_lp, radians, s; rewrite cent_step; fold degree; lra).
  assert (E3 : m_f (t + d) - m_f t = 483202.01873 * s) by (unfold m_f, radians, s; rewrite cent_step; fold degree; lra).
  assert (E4 : m_d (t + d) - m_d t = 445267.11135 * s) by (unfold m_d, radians, s; rewrite cent_step; fold degree; lra).
  unfold moon_lon. cbv zeta.
  set (l' := m_l (t + d)) in *. set (lp' := m_lp (t + d)) in *. set (f' := m_f (t + d)) in *. set (d' := m_d (t + d)) in *. set (l0' := m_l0 (t + d)) in *.
  set (l := m_l t) in *. set (lp := m_lp t) in *. set (f := m_f t) in *. set (dd := m_d t) in *. set (l0 := m_l0 t) in *.
  clearbody l' lp' f' d' l0' l lp f dd l0. clear G D DS. 
  assert (T1 := term_step _ _ 477198.86753 477199 l' l s (second_small 22640 ltac:(lra)) ltac:(lra) ltac:(apply Rabs_le; lra) S).
  assert (T2 := term_step _ _ 954397.73506 954398 (2 * l') (2 * l) s (second_small 769 ltac:(lra)) ltac:(lra) ltac:(apply Rabs_le; lra) S).
  assert (T3 := term_step _ _ (-413335.35517) 413336 (l' - 2 * d') (l - 2 * dd) s (second_small 4586 ltac:(lra)) ltac:(lra) ltac:(apply Rabs_le; lra) S).
  assert (T4 := term_step _ _ 890534.2227 890535 (2 * d') (2 * dd) s (second_small 2370 ltac:(lra)) ltac:(lra) ltac:(apply Rabs_le; lra) S).
  assert (T5 := term_step _ _ 35999.04944 36000 lp' lp s (second_small 668 ltac:(lra)) ltac:(lra) ltac:(apply Rabs_le; lra) S).
  assert (T6 := term_step _ _ 966404.03746 966405 (2 * f') (2 * f) s (second_small 412 ltac:(lra)) ltac:(lra) ltac:(apply Rabs_le; lra) S).
  assert (T7 := term_step _ _ 63863.51236 63864 (2 * l' - 2 * d') (2 * l - 2 * dd) s (second_small 212 ltac:(lra)) ltac:(lra) ltac:(apply Rabs_le; lra) S).
  assert (T8 := term_step _ _ (-377336.30573) 377337 (l' + lp' - 2 * d') (l + lp - 2 * dd) s (second_small 206 ltac:(lra)) ltac:(lra) ltac:(apply Rabs_le; lra) S).
  assert (T9 := term_step _ _ 1367733.09023 1367734 (l' + 2 * d') (l + 2 * dd) s (second_small 192 ltac:(lra)) ltac:(lra) ltac:(apply Rabs_le; lra) S).
  assert (T10 := term_step _ _ (-854535.17326) 854536 (lp' - 2 * d') (lp - 2 * dd) s (second_small 165 ltac:(lra)) ltac:(lra) ltac:(apply Rabs_le; lra) S).
  assert (T11 := term_step _ _ 441199.81809 441200 (l' - lp') (l - lp) s (second_small 148 ltac:(lra)) ltac:(lra) ltac:(apply Rabs_le; lra) S).
  assert (T12 := term_step _ _ 445267.11135 445268 d' dd s (second_small 125 ltac:(lra)) ltac:(lra) ltac:(apply Rabs_le; lra) S).
  assert (T13 := term_step _ _ 513197.91697 513198 (l' + lp') (l + lp) s (second_small 110 ltac:(lra)) ltac:(lra) ltac:(apply Rabs_le; lra) S).
  assert (T14 := term_step _ _ 75869.81476 75870 (2 * f' - 2 * d') (2 * f - 2 * dd) s (second_small 55 ltac:(lra)) ltac:(lra) ltac:(apply Rabs_le; lra) S).
  replace 2.0 with 2 by lra. unfold sec.
  replace 22640.0 with 22640 by lra. replace 769.0 with 769 by lra. replace 4586.0 with 4586 by lra. replace 2370.0 with 2370 by lra. replace 668.0 with 668 by lra.
  replace 412.0 with 412 by lra. replace 212.0 with 212 by lra. replace 206.0 with 206 by lra. replace 192.0 with 192 by lra. replace 165.0 with 165 by lra. replace 148.0 with 148 by lra.
  replace 125.0 with 125 by lra. replace 110.0 with 110 by lra. replace 55.0 with 55 by lra.
  apply Rabs_le_inv in T1, T2, T3, T4, T5, T6, T7, T8, T9, T10, T11, T12, T13, T14.
  repeat match goal with H : context [dms_to_radians 0 0 ?x * sin ?u] |- _ => let w := fresh "w" in set (w := dms_to_radians 0 0 x * sin u) in *; clearbody w end.
  clear - S E0 T1 T2 T3 T4 T5 T6 T7 T8 T9 T10 T11 T12 T13 T14. split; lra.
Qed.
