From Coq Require Import Reals ZArith Lra Lia Psatz.
From Flocq Require Import Core.
From Verif.Model Require Import Num Constants Linalg Functions Time Celestial TimeFloat AngleFloat ElementsFloat FrameFloat SiderealFloat EarthFloat BodyFloat.
From Verif.Spec Require Import Geometry Ecliptic LibmAccuracy FrameFloat SiderealFloat EarthFloat BodyFloat.
From Verif.Proofs Require Import NumLemmas LinalgProofs CelestialProofs TimeFloatProofs AngleFloatProofs ElementsFloatProofs StateFloatProofs ClockProofs PiDigits Analysis FrameFloatBasics GroundFloatProofs EarthFloatProofs EarthFloatChain EclipticProofs.
Local Open Scope R_scope.

Lemma far_circular L : accurate_far L -> accurate_circular L.
Proof. intros A x H. apply A. lra. Qed.

Lemma bnd_sin L X d q' q : accurate_far L -> bnd X d q' q -> X + d <= 50000 -> bnd 1 (2.3e-16 + d) (sinf L q') (sin q).
Proof.
  intros A [B E] H. assert (U := err_upper _ _ _ _ E B). destruct (A q') as [S C]; [lra|]. unfold err in E. destruct (trig_close _ _ _ E) as [TC TS].
  split; [apply abs_sin|]. unfold err. replace (sinf L q' - sin q) with ((sinf L q' - sin q') + (sin q' - sin q)) by ring. eapply Rle_trans; [apply Rabs_triang|]. lra.
Qed.
Lemma bnd_cos L X d q' q : accurate_far L -> bnd X d q' q -> X + d <= 50000 -> bnd 1 (2.3e-16 + d) (cosf L q') (cos q).
Proof.
  intros A [B E] H. assert (U := err_upper _ _ _ _ E B). destruct (A q') as [S C]; [lra|]. unfold err in E. destruct (trig_close _ _ _ E) as [TC TS].
  split; [apply abs_cos|]. unfold err. replace (cosf L q' - cos q) with ((cosf L q' - cos q') + (cos q' - cos q)) by ring. eapply Rle_trans; [apply Rabs_triang|]. lra.
Qed.

Lemma bnd_obl : bnd 0.409093 1.95e-16 OBLIQUITY_b64 Earth_OBLIQUITY_OF_ECLIPTIC.
Proof. unfold OBLIQUITY_b64, Earth_OBLIQUITY_OF_ECLIPTIC. assert (C := bnd_pos 23.43929111 ltac:(lra)). eapply bnd_weaken; [apply bnd_rad; exact C| |]; lra. Qed.

Lemma bsinw L X d q' q : accurate_far L -> bnd X d q' q -> X + d <= 50000 -> forall e, 2.3e-16 + d <= e -> bnd 1 e (sinf L q') (sin q).
Proof. intros A B H e E. eapply bnd_weaken; [apply (bnd_sin L X d); auto| |]; lra. Qed.
Lemma bcosw L X d q' q : accurate_far L -> bnd X d q' q -> X + d <= 50000 -> forall e, 2.3e-16 + d <= e -> bnd 1 e (cosf L q') (cos q).
Proof. intros A B H e E. eapply bnd_weaken; [apply (bnd_cos L X d); auto| |]; lra. Qed.

(** an angle linear in the centuries *)
Lemma bnd_linear a b v : 0 <= a -> 0 <= b -> span v ->
  bnd ((a + b) * 0.0174533) (1.63e-16 * b + 1.1e-17 * a + 1e-50) (radians_b64 (b64 (b64 a + b64 (b64 b * julian_centuries_b64 v)))) (radians (a + b * cent v)).
Proof.
  intros A B H. assert (T := bnd_centuries v H). fold (cent v) in T. assert (CA := bnd_pos a A). assert (CB := bnd_pos b B).
  eapply bnd_weaken; [apply bnd_rad; apply bnd_add; [exact CA|apply bnd_mul; [exact CB|exact T]]| |]; lra.
Qed.

(** * The Sun *)
Lemma sun_close L v : accurate_far L -> span v -> within3 1.05e-3 (Sun_get_position_b64 L v) (Sun_get_position (Epoch v)).
Proof.
  intros A H. rewrite sun_ecliptic. unfold Sun_get_position_b64, ecliptic. cbv zeta. rewrite sin_0, cos_0.
  assert (M := bnd_linear 357.5256 35999.049 v ltac:(lra) ltac:(lra) H). fold (sun_anomaly v) in M. set (ma' := radians_b64 _) in *. 
  assert (M1 : bnd 635 5.9e-12 ma' (sun_anomaly v)) by (eapply bnd_weaken; [exact M| |]; lra). clear M. clearbody ma'.
  unfold sun_lon, sun_range. set (ma := sun_anomaly v) in *. clearbody ma. cbv zeta.
  assert (W : bnd 4.93825 2.5e-15 Sun_W_PLUS_W_b64 Sun_W_PLUS_W) by (unfold Sun_W_PLUS_W_b64, Sun_W_PLUS_W; assert (C := bnd_pos 282.94 ltac:(lra)); eapply bnd_weaken; [apply bnd_rad; exact C| |]; lra).
  set (lam' := b64 (b64 (b64 (Sun_W_PLUS_W_b64 + ma') + _) + _)).
  set (lam := Sun_W_PLUS_W + ma + dms_to_radians 0 0 6892 * sin ma + dms_to_radians 0 0 72 * 2 * sin ma * cos ma).
  assert (LB : bnd 650 6.6e-12 lam' lam).
  { unfold lam', lam.
    assert (z3 := baw _ _ _ _ _ _ _ _ W M1 6.399383e2 6.033845e-12 ltac:(clear; lra) ltac:(clear; lra) ltac:(clear; lra)).
    assert (z5 := barc 6892 ltac:(clear; lra) 3.341339e-2 2.550040e-17 ltac:(clear; lra) ltac:(clear; lra)).
    assert (z6 := bsinw L _ _ _ _ A M1 ltac:(clear; lra) 5.900236e-12 ltac:(clear; lra)).
    assert (z4 := bmw _ _ _ _ _ _ _ _ z5 z6 3.341339e-2 1.991481e-13 ltac:(clear; lra) ltac:(clear; lra) ltac:(clear; lra)).
    assert (z2 := baw _ _ _ _ _ _ _ _ z3 z4 6.399718e2 6.367647e-12 ltac:(clear; lra) ltac:(clear; lra) ltac:(clear; lra)).
    assert (z10 := barc 72 ltac:(clear; lra) 3.490661e-4 2.664000e-19 ltac:(clear; lra) ltac:(clear; lra)).
    assert (z11 := bnd_lit 2 ltac:(clear; lra)).
    assert (z9 := bmw _ _ _ _ _ _ _ _ z10 z11 6.981322e-4 6.170176e-19 ltac:(clear; lra) ltac:(clear; lra) ltac:(clear; lra)).
    assert (z8 := bmw _ _ _ _ _ _ _ _ z9 z6 6.981322e-4 4.161043e-15 ltac:(clear; lra) ltac:(clear; lra) ltac:(clear; lra)).
    assert (z12 := bcosw L _ _ _ _ A M1 ltac:(clear; lra) 5.900236e-12 ltac:(clear; lra)).
    assert (z7 := bmw _ _ _ _ _ _ _ _ z8 z12 6.981322e-4 8.363077e-15 ltac:(clear; lra) ltac:(clear; lra) ltac:(clear; lra)).
    assert (z1 := baw _ _ _ _ _ _ _ _ z2 z7 6.399725e2 6.512094e-12 ltac:(clear; lra) ltac:(clear; lra) ltac:(clear; lra)).
    eapply bnd_weaken; [exact z1| |]; clear; lra. }
  clearbody lam' lam.
  assert (K1 := bcw 149.619 ltac:(clear; lra) 1.7e-14 ltac:(clear; lra)). assert (K2 := bcw 2.499 ltac:(clear; lra) 2.9e-16 ltac:(clear; lra)). assert (K3 := bcw 0.021 ltac:(clear; lra) 2.4e-18 ltac:(clear; lra)).
  set (r' := b64 (_ * 1e6)). set (r := (149.619 - _ - _) * 1e6).
  assert (RB : bnd 1.52139e8 1.6e-5 r' r).
  { unfold r', r.
    assert (z5 := bcosw L _ _ _ _ A M1 ltac:(clear; lra) 5.900236e-12 ltac:(clear; lra)).
    assert (z4 := bmw _ _ _ _ _ _ _ _ K2 z5 2.499000e0 1.489273e-11 ltac:(clear; lra) ltac:(clear; lra) ltac:(clear; lra)).
    assert (z3 := bsw _ _ _ _ _ _ _ _ K1 z4 1.521180e2 1.507604e-11 ltac:(clear; lra) ltac:(clear; lra) ltac:(clear; lra)).
    assert (z9 := bnd_lit 2 ltac:(clear; lra)).
    assert (z8 := bmw _ _ _ _ _ _ _ _ z9 M1 1.270000e3 1.206153e-11 ltac:(clear; lra) ltac:(clear; lra) ltac:(clear; lra)).
    assert (z7 := bcosw L _ _ _ _ A z8 ltac:(clear; lra) 1.206178e-11 ltac:(clear; lra)).
    assert (z6 := bmw _ _ _ _ _ _ _ _ K3 z7 2.100000e-2 2.558355e-13 ltac:(clear; lra) ltac:(clear; lra) ltac:(clear; lra)).
    assert (z2 := bsw _ _ _ _ _ _ _ _ z3 z6 1.521390e2 1.550241e-11 ltac:(clear; lra) ltac:(clear; lra) ltac:(clear; lra)).
    assert (z10 := bnd_lit 1e6 ltac:(clear; lra)).
    assert (z1 := bmw _ _ _ _ _ _ _ _ z2 z10 1.521390e8 1.567465e-5 ltac:(clear; lra) ltac:(clear; lra) ltac:(clear; lra)).
    eapply bnd_weaken; [exact z1| |]; clear; lra. }
  clearbody r' r.
  assert (SL := bsinw L _ _ _ _ A LB ltac:(clear; lra) 6.6003e-12 ltac:(clear; lra)). assert (CL := bcosw L _ _ _ _ A LB ltac:(clear; lra) 6.6003e-12 ltac:(clear; lra)).
  assert (CO := bcosw L _ _ _ _ A bnd_obl ltac:(clear; lra) 4.3e-16 ltac:(clear; lra)). assert (SO := bsinw L _ _ _ _ A bnd_obl ltac:(clear; lra) 4.3e-16 ltac:(clear; lra)).
  fold (Sun_COS_OBLIQUITY_b64 L) in CO. fold (Sun_SIN_OBLIQUITY_b64 L) in SO. rewrite tilt_is in CO, SO.
  unfold within3. cbn [x3 y3 z3].
  replace (r * (1 * cos lam)) with (r * cos lam) by ring.
  replace (cos tilt * (r * (1 * sin lam)) - sin tilt * (r * 0)) with (r * sin lam * cos tilt) by ring.
  replace (sin tilt * (r * (1 * sin lam)) + cos tilt * (r * 0)) with (r * sin lam * sin tilt) by ring.
  assert (W3 : forall X d q' q, bnd X d q' q -> d <= 1.05e-3 -> Rabs (q' - q) <= 1.05e-3) by (intros X d q' q [_ E] K; unfold err in E; lra).
  split; [|split].
  - assert (z1 := bmw _ _ _ _ _ _ _ _ RB CL 1.521390e8 1.030383e-3 ltac:(clear; lra) ltac:(clear; lra) ltac:(clear; lra)).
    exact (W3 _ _ _ _ z1 ltac:(clear; lra)).
  - assert (z2 := bmw _ _ _ _ _ _ _ _ RB SL 1.521390e8 1.030383e-3 ltac:(clear; lra) ltac:(clear; lra) ltac:(clear; lra)).
    assert (z1 := bmw _ _ _ _ _ _ _ _ z2 CO 1.521390e8 1.040772e-3 ltac:(clear; lra) ltac:(clear; lra) ltac:(clear; lra)).
    exact (W3 _ _ _ _ z1 ltac:(clear; lra)).
  - assert (z2 := bmw _ _ _ _ _ _ _ _ RB SL 1.521390e8 1.030383e-3 ltac:(clear; lra) ltac:(clear; lra) ltac:(clear; lra)).
    assert (z1 := bmw _ _ _ _ _ _ _ _ z2 SO 1.521390e8 1.040772e-3 ltac:(clear; lra) ltac:(clear; lra) ltac:(clear; lra)).
    exact (W3 _ _ _ _ z1 ltac:(clear; lra)).
Qed.

(** * The Moon *)
Lemma bnd_double X d q' q : bnd X d q' q -> bnd (2 * X) (2.03 * d + 2.3e-16 * X + 1e-60) (b64 (2 * q')) (2 * q).
Proof.
  intros H. eapply bnd_weaken; [apply bnd_mul; [apply (bnd_lit 2); lra|exact H]| |]; [lra|]. destruct H as [A B].
  assert (0 <= X) by (eapply Rle_trans; [apply Rabs_pos|exact A]). assert (0 <= d) by (eapply Rle_trans; [apply Rabs_pos|exact B]). lra.
Qed.
Lemma moon_args v : span v -> let t := julian_centuries_b64 v in
  bnd 8405 8.2e-11 (moon_l0_b64 t) (m_l0 v) /\ bnd 8332 7.8e-11 (moon_l_b64 t) (m_l v) /\ bnd 635 5.9e-12 (moon_lp_b64 t) (m_lp v) /\
  bnd 8436 7.9e-11 (moon_f_b64 t) (m_f v) /\ bnd 7778 7.3e-11 (moon_d_b64 t) (m_d v).
Proof.
  intros H t. unfold moon_l0_b64, moon_l_b64, moon_lp_b64, moon_f_b64, moon_d_b64, m_l0, m_l, m_lp, m_f, m_d.
  split; [|split; [|split; [|split]]].
  - assert (T := bnd_centuries v H). fold (cent v) t in T. assert (C1 := bcw 218.31617 ltac:(clear; lra) 2.5e-14 ltac:(clear; lra)). assert (C2 := bcw 481267.88088 ltac:(clear; lra) 5.5e-11 ltac:(clear; lra)). assert (C3 := bcw 1.3972 ltac:(clear; lra) 1.6e-16 ltac:(clear; lra)).
    assert (z3 := bmw _ _ _ _ _ _ _ _ C2 T 4.812679e5 4.144407e-9 ltac:(clear; lra) ltac:(clear; lra) ltac:(clear; lra)).
    assert (z2 := baw _ _ _ _ _ _ _ _ C1 z3 4.814863e5 4.240289e-9 ltac:(clear; lra) ltac:(clear; lra) ltac:(clear; lra)).
    assert (z4 := bmw _ _ _ _ _ _ _ _ C3 T 1.397200e0 1.203223e-14 ltac:(clear; lra) ltac:(clear; lra) ltac:(clear; lra)).
    assert (z1 := bsw _ _ _ _ _ _ _ _ z2 z4 4.814877e5 4.337117e-9 ltac:(clear; lra) ltac:(clear; lra) ltac:(clear; lra)).
    exact (bradw _ _ _ _ z1 8405 8.2e-11 ltac:(clear; lra) ltac:(clear; lra) ltac:(clear; lra)).
  - eapply bnd_weaken; [apply bnd_linear; [lra|lra|exact H]| |]; lra.
  - eapply bnd_weaken; [apply bnd_linear; [lra|lra|exact H]| |]; lra.
  - eapply bnd_weaken; [apply bnd_linear; [lra|lra|exact H]| |]; lra.
  - eapply bnd_weaken; [apply bnd_linear; [lra|lra|exact H]| |]; lra.
Qed.

Lemma moon_lambda_close L v : accurate_far L -> span v -> let t := julian_centuries_b64 v in
  bnd 8406 1.3e-10 (moon_lambda_b64 L (moon_l0_b64 t) (moon_l_b64 t) (moon_lp_b64 t) (moon_f_b64 t) (moon_d_b64 t)) (moon_lon v).
Proof.
  intros A H t. destruct (moon_args v H) as (B0 & BL & BP & BF & BD). fold t in B0, BL, BP, BF, BD.
  unfold moon_lon. set (l0' := moon_l0_b64 t) in *. set (l' := moon_l_b64 t) in *. set (lp' := moon_lp_b64 t) in *. set (f' := moon_f_b64 t) in *. set (d' := moon_d_b64 t) in *.
  set (l0 := m_l0 v) in *. set (l := m_l v) in *. set (lp := m_lp v) in *. set (f := m_f v) in *. set (d := m_d v) in *.
  clearbody l0' l' lp' f' d' l0 l lp f d. unfold moon_lambda_b64, sec. cbv zeta. replace 2.0 with 2 by lra.
  replace 22640.0 with 22640 by lra. replace 769.0 with 769 by lra. replace 4586.0 with 4586 by lra. replace 2370.0 with 2370 by lra. replace 668.0 with 668 by lra. replace 412.0 with 412 by lra. replace 212.0 with 212 by lra. replace 206.0 with 206 by lra. replace 192.0 with 192 by lra. replace 165.0 with 165 by lra. replace 148.0 with 148 by lra. replace 125.0 with 125 by lra. replace 110.0 with 110 by lra. replace 55.0 with 55 by lra.
  assert (z16 := barc 22640 ltac:(clear; lra) 1.097619e-1 8.376800e-17 ltac:(clear; lra) ltac:(clear; lra)).
  assert (z17 := bsinw L _ _ _ _ A BL ltac:(clear; lra) 7.800031e-11 ltac:(clear; lra)).
  assert (z15 := bmw _ _ _ _ _ _ _ _ z16 z17 1.097619e-1 8.647183e-12 ltac:(clear; lra) ltac:(clear; lra) ltac:(clear; lra)).
  assert (z14 := baw _ _ _ _ _ _ _ _ B0 z15 8.405110e3 9.250353e-11 ltac:(clear; lra) ltac:(clear; lra) ltac:(clear; lra)).
  assert (z19 := barc 769 ltac:(clear; lra) 3.728220e-3 2.845300e-18 ltac:(clear; lra) ltac:(clear; lra)).
  assert (z22 := bnd_lit 2 ltac:(clear; lra)).
  assert (z21 := bmw _ _ _ _ _ _ _ _ z22 BL 1.666400e4 1.594432e-10 ltac:(clear; lra) ltac:(clear; lra) ltac:(clear; lra)).
  assert (z20 := bsinw L _ _ _ _ A z21 ltac:(clear; lra) 1.594436e-10 ltac:(clear; lra)).
  assert (z18 := bmw _ _ _ _ _ _ _ _ z19 z20 3.728220e-3 6.003892e-13 ltac:(clear; lra) ltac:(clear; lra) ltac:(clear; lra)).
  assert (z13 := baw _ _ _ _ _ _ _ _ z14 z18 8.405114e3 9.498484e-11 ltac:(clear; lra) ltac:(clear; lra) ltac:(clear; lra)).
  assert (z24 := barc 4586 ltac:(clear; lra) 2.223358e-2 1.696820e-17 ltac:(clear; lra) ltac:(clear; lra)).
  assert (z27 := bmw _ _ _ _ _ _ _ _ z22 BD 1.555600e4 1.492180e-10 ltac:(clear; lra) ltac:(clear; lra) ltac:(clear; lra)).
  assert (z26 := bsw _ _ _ _ _ _ _ _ BL z27 2.388800e4 2.321898e-10 ltac:(clear; lra) ltac:(clear; lra) ltac:(clear; lra)).
  assert (z25 := bsinw L _ _ _ _ A z26 ltac:(clear; lra) 2.321903e-10 ltac:(clear; lra)).
  assert (z23 := bmw _ _ _ _ _ _ _ _ z24 z25 2.223358e-2 5.214071e-12 ltac:(clear; lra) ltac:(clear; lra) ltac:(clear; lra)).
  assert (z12 := bsw _ _ _ _ _ _ _ _ z13 z23 8.405137e3 1.021508e-10 ltac:(clear; lra) ltac:(clear; lra) ltac:(clear; lra)).
  assert (z29 := barc 2370 ltac:(clear; lra) 1.149010e-2 8.769000e-18 ltac:(clear; lra) ltac:(clear; lra)).
  assert (z30 := bsinw L _ _ _ _ A z27 ltac:(clear; lra) 1.492184e-10 ltac:(clear; lra)).
  assert (z28 := bmw _ _ _ _ _ _ _ _ z29 z30 1.149010e-2 1.731692e-12 ltac:(clear; lra) ltac:(clear; lra) ltac:(clear; lra)).
  assert (z11 := baw _ _ _ _ _ _ _ _ z12 z28 8.405149e3 1.058713e-10 ltac:(clear; lra) ltac:(clear; lra) ltac:(clear; lra)).
  assert (z32 := barc 668 ltac:(clear; lra) 3.238558e-3 2.471600e-18 ltac:(clear; lra) ltac:(clear; lra)).
  assert (z33 := bsinw L _ _ _ _ A BP ltac:(clear; lra) 5.900236e-12 ltac:(clear; lra)).
  assert (z31 := bmw _ _ _ _ _ _ _ _ z32 z33 3.238558e-3 1.930223e-14 ltac:(clear; lra) ltac:(clear; lra) ltac:(clear; lra)).
  assert (z10 := bsw _ _ _ _ _ _ _ _ z11 z31 8.405153e3 1.078994e-10 ltac:(clear; lra) ltac:(clear; lra) ltac:(clear; lra)).
  assert (z35 := barc 412 ltac:(clear; lra) 1.997434e-3 1.524400e-18 ltac:(clear; lra) ltac:(clear; lra)).
  assert (z37 := bmw _ _ _ _ _ _ _ _ z22 BF 1.687200e4 1.614867e-10 ltac:(clear; lra) ltac:(clear; lra) ltac:(clear; lra)).
  assert (z36 := bsinw L _ _ _ _ A z37 ltac:(clear; lra) 1.614871e-10 ltac:(clear; lra)).
  assert (z34 := bmw _ _ _ _ _ _ _ _ z35 z36 1.997434e-3 3.257876e-13 ltac:(clear; lra) ltac:(clear; lra) ltac:(clear; lra)).
  assert (z9 := bsw _ _ _ _ _ _ _ _ z10 z34 8.405155e3 1.102574e-10 ltac:(clear; lra) ltac:(clear; lra) ltac:(clear; lra)).
  assert (z39 := barc 212 ltac:(clear; lra) 1.027806e-3 7.844000e-19 ltac:(clear; lra) ltac:(clear; lra)).
  assert (z41 := bsw _ _ _ _ _ _ _ _ z21 z27 3.222000e4 3.153890e-10 ltac:(clear; lra) ltac:(clear; lra) ltac:(clear; lra)).
  assert (z40 := bsinw L _ _ _ _ A z41 ltac:(clear; lra) 3.153896e-10 ltac:(clear; lra)).
  assert (z38 := bmw _ _ _ _ _ _ _ _ z39 z40 1.027806e-3 3.274022e-13 ltac:(clear; lra) ltac:(clear; lra) ltac:(clear; lra)).
  assert (z8 := bsw _ _ _ _ _ _ _ _ z9 z38 8.405157e3 1.126406e-10 ltac:(clear; lra) ltac:(clear; lra) ltac:(clear; lra)).
  assert (z43 := barc 206 ltac:(clear; lra) 9.987169e-4 7.622000e-19 ltac:(clear; lra) ltac:(clear; lra)).
  assert (z46 := baw _ _ _ _ _ _ _ _ BL BP 8.967000e3 8.575236e-11 ltac:(clear; lra) ltac:(clear; lra) ltac:(clear; lra)).
  assert (z45 := bsw _ _ _ _ _ _ _ _ z46 z27 2.452300e4 2.400915e-10 ltac:(clear; lra) ltac:(clear; lra) ltac:(clear; lra)).
  assert (z44 := bsinw L _ _ _ _ A z45 ltac:(clear; lra) 2.400920e-10 ltac:(clear; lra)).
  assert (z42 := bmw _ _ _ _ _ _ _ _ z43 z44 9.987169e-4 2.421830e-13 ltac:(clear; lra) ltac:(clear; lra) ltac:(clear; lra)).
  assert (z7 := bsw _ _ _ _ _ _ _ _ z8 z42 8.405158e3 1.149616e-10 ltac:(clear; lra) ltac:(clear; lra) ltac:(clear; lra)).
  assert (z48 := barc 192 ltac:(clear; lra) 9.308429e-4 7.104000e-19 ltac:(clear; lra) ltac:(clear; lra)).
  assert (z50 := baw _ _ _ _ _ _ _ _ BL z27 2.388800e4 2.321898e-10 ltac:(clear; lra) ltac:(clear; lra) ltac:(clear; lra)).
  assert (z49 := bsinw L _ _ _ _ A z50 ltac:(clear; lra) 2.321903e-10 ltac:(clear; lra)).
  assert (z47 := bmw _ _ _ _ _ _ _ _ z48 z49 9.308429e-4 2.182951e-13 ltac:(clear; lra) ltac:(clear; lra) ltac:(clear; lra)).
  assert (z6 := baw _ _ _ _ _ _ _ _ z7 z47 8.405159e3 1.172816e-10 ltac:(clear; lra) ltac:(clear; lra) ltac:(clear; lra)).
  assert (z52 := barc 165 ltac:(clear; lra) 7.999431e-4 6.105000e-19 ltac:(clear; lra) ltac:(clear; lra)).
  assert (z54 := bsw _ _ _ _ _ _ _ _ BP z27 1.619100e4 1.584990e-10 ltac:(clear; lra) ltac:(clear; lra) ltac:(clear; lra)).
  assert (z53 := bsinw L _ _ _ _ A z54 ltac:(clear; lra) 1.584994e-10 ltac:(clear; lra)).
  assert (z51 := bmw _ _ _ _ _ _ _ _ z52 z53 7.999431e-4 1.280593e-13 ltac:(clear; lra) ltac:(clear; lra) ltac:(clear; lra)).
  assert (z5 := bsw _ _ _ _ _ _ _ _ z6 z51 8.405160e3 1.195337e-10 ltac:(clear; lra) ltac:(clear; lra) ltac:(clear; lra)).
  assert (z56 := barc 148 ltac:(clear; lra) 7.175248e-4 5.476000e-19 ltac:(clear; lra) ltac:(clear; lra)).
  assert (z58 := bsw _ _ _ _ _ _ _ _ BL BP 8.967000e3 8.575236e-11 ltac:(clear; lra) ltac:(clear; lra) ltac:(clear; lra)).
  assert (z57 := bsinw L _ _ _ _ A z58 ltac:(clear; lra) 8.575268e-11 ltac:(clear; lra)).
  assert (z55 := bmw _ _ _ _ _ _ _ _ z56 z57 7.175248e-4 6.214567e-14 ltac:(clear; lra) ltac:(clear; lra) ltac:(clear; lra)).
  assert (z4 := baw _ _ _ _ _ _ _ _ z5 z55 8.405161e3 1.217418e-10 ltac:(clear; lra) ltac:(clear; lra) ltac:(clear; lra)).
  assert (z60 := barc 125 ltac:(clear; lra) 6.060175e-4 4.625000e-19 ltac:(clear; lra) ltac:(clear; lra)).
  assert (z61 := bsinw L _ _ _ _ A BD ltac:(clear; lra) 7.300031e-11 ltac:(clear; lra)).
  assert (z59 := bmw _ _ _ _ _ _ _ _ z60 z61 6.060175e-4 4.468245e-14 ltac:(clear; lra) ltac:(clear; lra) ltac:(clear; lra)).
  assert (z3 := bsw _ _ _ _ _ _ _ _ z4 z59 8.405162e3 1.239543e-10 ltac:(clear; lra) ltac:(clear; lra) ltac:(clear; lra)).
  assert (z63 := barc 110 ltac:(clear; lra) 5.332954e-4 4.070000e-19 ltac:(clear; lra) ltac:(clear; lra)).
  assert (z64 := bsinw L _ _ _ _ A z46 ltac:(clear; lra) 8.575268e-11 ltac:(clear; lra)).
  assert (z62 := bmw _ _ _ _ _ _ _ _ z63 z64 5.332954e-4 4.618935e-14 ltac:(clear; lra) ltac:(clear; lra) ltac:(clear; lra)).
  assert (z2 := bsw _ _ _ _ _ _ _ _ z3 z62 8.405163e3 1.261905e-10 ltac:(clear; lra) ltac:(clear; lra) ltac:(clear; lra)).
  assert (z66 := barc 55 ltac:(clear; lra) 2.666477e-4 2.035000e-19 ltac:(clear; lra) ltac:(clear; lra)).
  assert (z68 := bsw _ _ _ _ _ _ _ _ z37 z27 3.242800e4 3.174765e-10 ltac:(clear; lra) ltac:(clear; lra) ltac:(clear; lra)).
  assert (z67 := bsinw L _ _ _ _ A z68 ltac:(clear; lra) 3.174771e-10 ltac:(clear; lra)).
  assert (z65 := bmw _ _ _ _ _ _ _ _ z66 z67 2.666477e-4 8.550141e-14 ltac:(clear; lra) ltac:(clear; lra) ltac:(clear; lra)).
  assert (z1 := bsw _ _ _ _ _ _ _ _ z2 z65 8.405164e3 1.284887e-10 ltac:(clear; lra) ltac:(clear; lra) ltac:(clear; lra)).
  eapply bnd_weaken; [exact z1| |]; clear; lra.
Qed.

Lemma moon_beta_close L v : accurate_far L -> span v -> let t := julian_centuries_b64 v in
  let lam := moon_lambda_b64 L (moon_l0_b64 t) (moon_l_b64 t) (moon_lp_b64 t) (moon_f_b64 t) (moon_d_b64 t) in
  bnd 0.1 3.2e-11 (moon_beta_b64 L (moon_l0_b64 t) (moon_l_b64 t) (moon_lp_b64 t) (moon_f_b64 t) (moon_d_b64 t) lam) (moon_lat v).
Proof.
  intros A H t lam. destruct (moon_args v H) as (B0 & BL & BP & BF & BD). fold t in B0, BL, BP, BF, BD.
  assert (LC := moon_lambda_close L v A H). cbv zeta in LC. fold t in LC. fold lam in LC. clearbody lam. unfold moon_lat. set (lon := moon_lon v) in *. clearbody lon.
  set (l0' := moon_l0_b64 t) in *. set (l' := moon_l_b64 t) in *. set (lp' := moon_lp_b64 t) in *. set (f' := moon_f_b64 t) in *. set (d' := moon_d_b64 t) in *.
  set (l0 := m_l0 v) in *. set (l := m_l v) in *. set (lp := m_lp v) in *. set (f := m_f v) in *. set (d := m_d v) in *.
  clearbody l0' l' lp' f' d' l0 l lp f d. unfold moon_beta_b64, sec. cbv zeta. replace 2.0 with 2 by lra. replace (-2.0) with (-2) by lra.
  replace 18520.0 with 18520 by lra. replace 412.0 with 412 by lra. replace 541.0 with 541 by lra. replace 526.0 with 526 by lra. replace 44.0 with 44 by lra.
  replace 31.0 with 31 by lra. replace 25.0 with 25 by lra. replace 23.0 with 23 by lra. replace 21.0 with 21 by lra. replace 11.0 with 11 by lra.
  assert (z9 := barc 18520 ltac:(clear; lra) 8.978756e-2 6.852400e-17 ltac:(clear; lra) ltac:(clear; lra)).
  assert (z13 := baw _ _ _ _ _ _ _ _ BF LC 1.684200e4 2.129934e-10 ltac:(clear; lra) ltac:(clear; lra) ltac:(clear; lra)).
  assert (z12 := bsw _ _ _ _ _ _ _ _ z13 B0 2.524700e4 3.007966e-10 ltac:(clear; lra) ltac:(clear; lra) ltac:(clear; lra)).
  assert (z15 := barc 412 ltac:(clear; lra) 1.997434e-3 1.524400e-18 ltac:(clear; lra) ltac:(clear; lra)).
  assert (z19 := bnd_lit 2 ltac:(clear; lra)).
  assert (z18 := bmw _ _ _ _ _ _ _ _ z19 BF 1.687200e4 1.614867e-10 ltac:(clear; lra) ltac:(clear; lra) ltac:(clear; lra)).
  assert (z21 := barc 541 ltac:(clear; lra) 2.622844e-3 2.001700e-18 ltac:(clear; lra) ltac:(clear; lra)).
  assert (z22 := bsinw L _ _ _ _ A BP ltac:(clear; lra) 5.900236e-12 ltac:(clear; lra)).
  assert (z20 := bmw _ _ _ _ _ _ _ _ z21 z22 2.622844e-3 1.563249e-14 ltac:(clear; lra) ltac:(clear; lra) ltac:(clear; lra)).
  assert (z17 := baw _ _ _ _ _ _ _ _ z18 z20 1.687201e4 1.650241e-10 ltac:(clear; lra) ltac:(clear; lra) ltac:(clear; lra)).
  assert (z16 := bsinw L _ _ _ _ A z17 ltac:(clear; lra) 1.650245e-10 ltac:(clear; lra)).
  assert (z14 := bmw _ _ _ _ _ _ _ _ z15 z16 1.997434e-3 3.329240e-13 ltac:(clear; lra) ltac:(clear; lra) ltac:(clear; lra)).
  assert (z11 := baw _ _ _ _ _ _ _ _ z12 z14 2.524701e4 3.069941e-10 ltac:(clear; lra) ltac:(clear; lra) ltac:(clear; lra)).
  assert (z10 := bsinw L _ _ _ _ A z11 ltac:(clear; lra) 3.069947e-10 ltac:(clear; lra)).
  assert (z8 := bmw _ _ _ _ _ _ _ _ z9 z10 8.978756e-2 2.784006e-11 ltac:(clear; lra) ltac:(clear; lra) ltac:(clear; lra)).
  assert (z24 := barc 526 ltac:(clear; lra) 2.550122e-3 1.946200e-18 ltac:(clear; lra) ltac:(clear; lra)).
  assert (z27 := bmw _ _ _ _ _ _ _ _ z19 BD 1.555600e4 1.492180e-10 ltac:(clear; lra) ltac:(clear; lra) ltac:(clear; lra)).
  assert (z26 := bsw _ _ _ _ _ _ _ _ BF z27 2.399200e4 2.332116e-10 ltac:(clear; lra) ltac:(clear; lra) ltac:(clear; lra)).
  assert (z25 := bsinw L _ _ _ _ A z26 ltac:(clear; lra) 2.332121e-10 ltac:(clear; lra)).
  assert (z23 := bmw _ _ _ _ _ _ _ _ z24 z25 2.550122e-3 6.006694e-13 ltac:(clear; lra) ltac:(clear; lra) ltac:(clear; lra)).
  assert (z7 := bsw _ _ _ _ _ _ _ _ z8 z23 9.233769e-2 2.872518e-11 ltac:(clear; lra) ltac:(clear; lra) ltac:(clear; lra)).
  assert (z29 := barc 44 ltac:(clear; lra) 2.133182e-4 1.628000e-19 ltac:(clear; lra) ltac:(clear; lra)).
  assert (z32 := baw _ _ _ _ _ _ _ _ BL BF 1.676800e4 1.604650e-10 ltac:(clear; lra) ltac:(clear; lra) ltac:(clear; lra)).
  assert (z31 := bsw _ _ _ _ _ _ _ _ z32 z27 3.232400e4 3.164328e-10 ltac:(clear; lra) ltac:(clear; lra) ltac:(clear; lra)).
  assert (z30 := bsinw L _ _ _ _ A z31 ltac:(clear; lra) 3.164334e-10 ltac:(clear; lra)).
  assert (z28 := bmw _ _ _ _ _ _ _ _ z29 z30 2.133182e-4 6.817628e-14 ltac:(clear; lra) ltac:(clear; lra) ltac:(clear; lra)).
  assert (z6 := baw _ _ _ _ _ _ _ _ z7 z28 9.255101e-2 2.908133e-11 ltac:(clear; lra) ltac:(clear; lra) ltac:(clear; lra)).
  assert (z34 := barc 31 ltac:(clear; lra) 1.502924e-4 1.147000e-19 ltac:(clear; lra) ltac:(clear; lra)).
  assert (z38 := bnd_opp _ _ _ _ BL).
  assert (z37 := baw _ _ _ _ _ _ _ _ z38 BF 1.676800e4 1.604650e-10 ltac:(clear; lra) ltac:(clear; lra) ltac:(clear; lra)).
  assert (z36 := bsw _ _ _ _ _ _ _ _ z37 z27 3.232400e4 3.164328e-10 ltac:(clear; lra) ltac:(clear; lra) ltac:(clear; lra)).
  assert (z35 := bsinw L _ _ _ _ A z36 ltac:(clear; lra) 3.164334e-10 ltac:(clear; lra)).
  assert (z33 := bmw _ _ _ _ _ _ _ _ z34 z35 1.502924e-4 4.803330e-14 ltac:(clear; lra) ltac:(clear; lra) ltac:(clear; lra)).
  assert (z5 := bsw _ _ _ _ _ _ _ _ z6 z33 9.270131e-2 2.942070e-11 ltac:(clear; lra) ltac:(clear; lra) ltac:(clear; lra)).
  assert (z40 := barc 25 ltac:(clear; lra) 1.212035e-4 9.250000e-20 ltac:(clear; lra) ltac:(clear; lra)).
  assert (z44 : bnd 2 0 (-2) (-2)) by (apply bnd_same; rewrite Rabs_left; lra).
  assert (z43 := bmw _ _ _ _ _ _ _ _ z44 BL 1.666400e4 1.594432e-10 ltac:(clear; lra) ltac:(clear; lra) ltac:(clear; lra)).
  assert (z42 := baw _ _ _ _ _ _ _ _ z43 BF 2.510000e4 2.436642e-10 ltac:(clear; lra) ltac:(clear; lra) ltac:(clear; lra)).
  assert (z41 := bsinw L _ _ _ _ A z42 ltac:(clear; lra) 2.436647e-10 ltac:(clear; lra)).
  assert (z39 := bmw _ _ _ _ _ _ _ _ z40 z41 1.212035e-4 2.982849e-14 ltac:(clear; lra) ltac:(clear; lra) ltac:(clear; lra)).
  assert (z4 := bsw _ _ _ _ _ _ _ _ z5 z39 9.282252e-2 2.974508e-11 ltac:(clear; lra) ltac:(clear; lra) ltac:(clear; lra)).
  assert (z46 := barc 23 ltac:(clear; lra) 1.115073e-4 8.510000e-20 ltac:(clear; lra) ltac:(clear; lra)).
  assert (z49 := baw _ _ _ _ _ _ _ _ BP BF 9.071000e3 8.677411e-11 ltac:(clear; lra) ltac:(clear; lra) ltac:(clear; lra)).
  assert (z48 := bsw _ _ _ _ _ _ _ _ z49 z27 2.462700e4 2.411352e-10 ltac:(clear; lra) ltac:(clear; lra) ltac:(clear; lra)).
  assert (z47 := bsinw L _ _ _ _ A z48 ltac:(clear; lra) 2.411357e-10 ltac:(clear; lra)).
  assert (z45 := bmw _ _ _ _ _ _ _ _ z46 z47 1.115073e-4 2.715741e-14 ltac:(clear; lra) ltac:(clear; lra) ltac:(clear; lra)).
  assert (z3 := bsw _ _ _ _ _ _ _ _ z4 z45 9.293403e-2 3.007001e-11 ltac:(clear; lra) ltac:(clear; lra) ltac:(clear; lra)).
  assert (z51 := barc 21 ltac:(clear; lra) 1.018110e-4 7.770000e-20 ltac:(clear; lra) ltac:(clear; lra)).
  assert (z52 := bsinw L _ _ _ _ A z37 ltac:(clear; lra) 1.604654e-10 ltac:(clear; lra)).
  assert (z50 := bmw _ _ _ _ _ _ _ _ z51 z52 1.018110e-4 1.650063e-14 ltac:(clear; lra) ltac:(clear; lra) ltac:(clear; lra)).
  assert (z2 := baw _ _ _ _ _ _ _ _ z3 z50 9.303585e-2 3.038742e-11 ltac:(clear; lra) ltac:(clear; lra) ltac:(clear; lra)).
  assert (z54 := barc 11 ltac:(clear; lra) 5.332954e-5 4.070000e-20 ltac:(clear; lra) ltac:(clear; lra)).
  assert (z58 := bnd_opp _ _ _ _ BP).
  assert (z57 := baw _ _ _ _ _ _ _ _ z58 BF 9.071000e3 8.677411e-11 ltac:(clear; lra) ltac:(clear; lra) ltac:(clear; lra)).
  assert (z56 := bsw _ _ _ _ _ _ _ _ z57 z27 2.462700e4 2.411352e-10 ltac:(clear; lra) ltac:(clear; lra) ltac:(clear; lra)).
  assert (z55 := bsinw L _ _ _ _ A z56 ltac:(clear; lra) 2.411357e-10 ltac:(clear; lra)).
  assert (z53 := bmw _ _ _ _ _ _ _ _ z54 z55 5.332954e-5 1.298832e-14 ltac:(clear; lra) ltac:(clear; lra) ltac:(clear; lra)).
  assert (z1 := baw _ _ _ _ _ _ _ _ z2 z53 9.308918e-2 3.070446e-11 ltac:(clear; lra) ltac:(clear; lra) ltac:(clear; lra)).
  eapply bnd_weaken; [exact z1| |]; clear; lra.
Qed.

Lemma moon_distance_close L v : accurate_far L -> span v -> let t := julian_centuries_b64 v in
  bnd 413905 4.5e-6 (moon_distance_b64 L (moon_l_b64 t) (moon_lp_b64 t) (moon_d_b64 t)) (moon_range v).
Proof.
  intros A H t. destruct (moon_args v H) as (_ & BL & BP & _ & BD). fold t in BL, BP, BD.
  assert (RB := moon_range_bounds v). assert (RA : Rabs (moon_range v) <= 413905) by (rewrite Rabs_pos_eq; lra). clear RB.
  unfold moon_range in *. set (l' := moon_l_b64 t) in *. set (lp' := moon_lp_b64 t) in *. set (d' := moon_d_b64 t) in *.
  set (l := m_l v) in *. set (lp := m_lp v) in *. set (d := m_d v) in *.
  clearbody l' lp' d' l lp d. unfold moon_distance_b64. cbv zeta in *.
  revert RA. replace 2.0 with 2 by lra. replace 385000.0 with 385000 by lra. replace 20905.0 with 20905 by lra. replace 3699.0 with 3699 by lra. replace 2956.0 with 2956 by lra. replace 570.0 with 570 by lra.
  replace 246.0 with 246 by lra. replace 205.0 with 205 by lra. replace 171.0 with 171 by lra. replace 152.0 with 152 by lra. intros RA. split; [exact RA|].
  assert (z9 := bnd_lit 385000 ltac:(clear; lra)).
  assert (z11 := bnd_lit 20905 ltac:(clear; lra)).
  assert (z12 := bcosw L _ _ _ _ A BL ltac:(clear; lra) 7.800031e-11 ltac:(clear; lra)).
  assert (z10 := bmw _ _ _ _ _ _ _ _ z11 z12 2.090500e4 1.646907e-6 ltac:(clear; lra) ltac:(clear; lra) ltac:(clear; lra)).
  assert (z8 := bsw _ _ _ _ _ _ _ _ z9 z10 4.059050e5 1.663424e-6 ltac:(clear; lra) ltac:(clear; lra) ltac:(clear; lra)).
  assert (z14 := bnd_lit 3699 ltac:(clear; lra)).
  assert (z18 := bnd_lit 2 ltac:(clear; lra)).
  assert (z17 := bmw _ _ _ _ _ _ _ _ z18 BD 1.555600e4 1.492180e-10 ltac:(clear; lra) ltac:(clear; lra) ltac:(clear; lra)).
  assert (z16 := bsw _ _ _ _ _ _ _ _ z17 BL 2.388800e4 2.321898e-10 ltac:(clear; lra) ltac:(clear; lra) ltac:(clear; lra)).
  assert (z15 := bcosw L _ _ _ _ A z16 ltac:(clear; lra) 2.321903e-10 ltac:(clear; lra)).
  assert (z13 := bmw _ _ _ _ _ _ _ _ z14 z15 3.699000e3 8.674620e-7 ltac:(clear; lra) ltac:(clear; lra) ltac:(clear; lra)).
  assert (z7 := bsw _ _ _ _ _ _ _ _ z8 z13 4.096040e5 2.556244e-6 ltac:(clear; lra) ltac:(clear; lra) ltac:(clear; lra)).
  assert (z20 := bnd_lit 2956 ltac:(clear; lra)).
  assert (z21 := bcosw L _ _ _ _ A z17 ltac:(clear; lra) 1.492184e-10 ltac:(clear; lra)).
  assert (z19 := bmw _ _ _ _ _ _ _ _ z20 z21 2.956000e3 4.455013e-7 ltac:(clear; lra) ltac:(clear; lra) ltac:(clear; lra)).
  assert (z6 := bsw _ _ _ _ _ _ _ _ z7 z19 4.125600e5 3.031813e-6 ltac:(clear; lra) ltac:(clear; lra) ltac:(clear; lra)).
  assert (z23 := bnd_lit 570 ltac:(clear; lra)).
  assert (z25 := bmw _ _ _ _ _ _ _ _ z18 BL 1.666400e4 1.594432e-10 ltac:(clear; lra) ltac:(clear; lra) ltac:(clear; lra)).
  assert (z24 := bcosw L _ _ _ _ A z25 ltac:(clear; lra) 1.594436e-10 ltac:(clear; lra)).
  assert (z22 := bmw _ _ _ _ _ _ _ _ z23 z24 5.700000e2 9.179184e-8 ltac:(clear; lra) ltac:(clear; lra) ltac:(clear; lra)).
  assert (z5 := bsw _ _ _ _ _ _ _ _ z6 z22 4.131300e5 3.154891e-6 ltac:(clear; lra) ltac:(clear; lra) ltac:(clear; lra)).
  assert (z27 := bnd_lit 246 ltac:(clear; lra)).
  assert (z29 := bsw _ _ _ _ _ _ _ _ z25 z17 3.222000e4 3.153890e-10 ltac:(clear; lra) ltac:(clear; lra) ltac:(clear; lra)).
  assert (z28 := bcosw L _ _ _ _ A z29 ltac:(clear; lra) 3.153896e-10 ltac:(clear; lra)).
  assert (z26 := bmw _ _ _ _ _ _ _ _ z27 z28 2.460000e2 7.836181e-8 ltac:(clear; lra) ltac:(clear; lra) ltac:(clear; lra)).
  assert (z4 := baw _ _ _ _ _ _ _ _ z5 z26 4.133760e5 3.265636e-6 ltac:(clear; lra) ltac:(clear; lra) ltac:(clear; lra)).
  assert (z31 := bnd_lit 205 ltac:(clear; lra)).
  assert (z33 := bsw _ _ _ _ _ _ _ _ BP z17 1.619100e4 1.584990e-10 ltac:(clear; lra) ltac:(clear; lra) ltac:(clear; lra)).
  assert (z32 := bcosw L _ _ _ _ A z33 ltac:(clear; lra) 1.584994e-10 ltac:(clear; lra)).
  assert (z30 := bmw _ _ _ _ _ _ _ _ z31 z32 2.050000e2 3.281736e-8 ltac:(clear; lra) ltac:(clear; lra) ltac:(clear; lra)).
  assert (z3 := bsw _ _ _ _ _ _ _ _ z4 z30 4.135810e5 3.331488e-6 ltac:(clear; lra) ltac:(clear; lra) ltac:(clear; lra)).
  assert (z35 := bnd_lit 171 ltac:(clear; lra)).
  assert (z37 := baw _ _ _ _ _ _ _ _ BL z17 2.388800e4 2.321898e-10 ltac:(clear; lra) ltac:(clear; lra) ltac:(clear; lra)).
  assert (z36 := bcosw L _ _ _ _ A z37 ltac:(clear; lra) 2.321903e-10 ltac:(clear; lra)).
  assert (z34 := bmw _ _ _ _ _ _ _ _ z35 z36 1.710000e2 4.010165e-8 ltac:(clear; lra) ltac:(clear; lra) ltac:(clear; lra)).
  assert (z2 := bsw _ _ _ _ _ _ _ _ z3 z34 4.137520e5 3.405356e-6 ltac:(clear; lra) ltac:(clear; lra) ltac:(clear; lra)).
  assert (z39 := bnd_lit 152 ltac:(clear; lra)).
  assert (z42 := baw _ _ _ _ _ _ _ _ BL BP 8.967000e3 8.575236e-11 ltac:(clear; lra) ltac:(clear; lra) ltac:(clear; lra)).
  assert (z41 := bsw _ _ _ _ _ _ _ _ z42 z17 2.452300e4 2.400915e-10 ltac:(clear; lra) ltac:(clear; lra) ltac:(clear; lra)).
  assert (z40 := bcosw L _ _ _ _ A z41 ltac:(clear; lra) 2.400920e-10 ltac:(clear; lra)).
  assert (z38 := bmw _ _ _ _ _ _ _ _ z39 z40 1.520000e2 3.685898e-8 ltac:(clear; lra) ltac:(clear; lra) ltac:(clear; lra)).
  assert (z1 := bsw _ _ _ _ _ _ _ _ z2 z38 4.139040e5 3.476688e-6 ltac:(clear; lra) ltac:(clear; lra) ltac:(clear; lra)).
  eapply (bnd_weaken _ _ 413905); [exact z1| |]; clear; lra.
Qed.

Lemma unit_axis_x : v3_normalized_b64 (V3 1 0 0) = Ok (V3 1 0 0).
Proof.
  unfold v3_normalized_b64, v3_magnitude_b64, v3_dot_b64. cbn [x3 y3 z3].
  repeat first [rewrite Rmult_0_l | rewrite Rmult_0_r | rewrite Rmult_1_l | rewrite Rplus_0_r | rewrite b64_0 | rewrite b64_1 | rewrite sqrt_1].
  rewrite div_ok by lra. cbn [bind]. replace (1 / 1) with 1 by field.
  repeat first [rewrite Rmult_0_l | rewrite Rmult_0_r | rewrite Rmult_1_l | rewrite b64_0 | rewrite b64_1]. reflexivity.
Qed.

Lemma tilt_matrix L : accurate_far L -> exists m, v3_rotation_matrix_b64 L (V3 1 0 0) OBLIQUITY_b64 = Ok m /\
  bnd 1 1e-15 (x3 (m3_row1 m)) 1 /\ y3 (m3_row1 m) = 0 /\ z3 (m3_row1 m) = 0 /\
  x3 (m3_row2 m) = 0 /\ bnd 1 1e-15 (y3 (m3_row2 m)) (cos tilt) /\ bnd 1 1e-15 (z3 (m3_row2 m)) (- sin tilt) /\
  x3 (m3_row3 m) = 0 /\ bnd 1 1e-15 (y3 (m3_row3 m)) (sin tilt) /\ bnd 1 1e-15 (z3 (m3_row3 m)) (cos tilt).
Proof.
  intros A. unfold v3_rotation_matrix_b64. rewrite unit_axis_x. cbn [bind].
  assert (CO := bnd_cos L _ _ _ _ A bnd_obl ltac:(lra)). assert (SO := bnd_sin L _ _ _ _ A bnd_obl ltac:(lra)). rewrite tilt_is in CO, SO.
  set (c := cosf L OBLIQUITY_b64) in *. set (s := sinf L OBLIQUITY_b64) in *. clearbody c s. cbv zeta. cbn [x3 y3 z3]. eexists. split; [reflexivity|]. cbn [m3_row1 m3_row2 m3_row3 x3 y3 z3].
  repeat first [rewrite Rmult_0_l | rewrite Rmult_0_r | rewrite Rmult_1_l | rewrite Rmult_1_r | rewrite Rplus_0_l | rewrite Rplus_0_r | rewrite Rminus_0_r | rewrite Rminus_0_l | rewrite b64_0 | rewrite b64_1 | rewrite b64_idem].
  assert (RC : bnd 1 1e-15 (b64 c) (cos tilt)) by (destruct CO as [C1 C2]; split; [exact C1|]; apply (err_round _ _ _ _ _ C2 C1); lra).
  assert (RS : bnd 1 1e-15 (b64 s) (sin tilt)) by (destruct SO as [C1 C2]; split; [exact C1|]; apply (err_round _ _ _ _ _ C2 C1); lra).
  assert (RN : bnd 1 1e-15 (b64 (- b64 s)) (- sin tilt)).
  { destruct SO as [C1 C2]. assert (E1 : err 5.4e-16 (b64 s) (sin tilt)) by (apply (err_round _ _ _ _ _ C2 C1); lra).
    split; [rewrite Rabs_Ropp; exact C1|]. apply (err_round _ _ _ 1 _ (err_opp _ _ _ E1)); [rewrite Rabs_Ropp; exact C1|lra]. }
  assert (RO : bnd 1 1e-15 (b64 (c + b64 (1 - c))) 1).
  { split; [rewrite Rabs_R1; lra|]. destruct CO as [C1 C2]. unfold err in C2. apply Rabs_le_inv in C1. apply Rabs_le_inv in C2. assert (F := b64_fine (1 - c)).
    assert (Rabs (1 - c) <= 2.001) by (apply Rabs_le; lra). assert (K : err 2.3e-16 (c + b64 (1 - c)) 1) by (unfold err; replace (c + b64 (1 - c) - 1) with (b64 (1 - c) - (1 - c)) by ring; lra).
    apply (err_round _ _ _ 1 _ K); [rewrite Rabs_R1|]; lra. }
  repeat split; try apply RC; try apply RS; try apply RN; try apply RO; reflexivity.
Qed.

Lemma moon_close L v : accurate_far L -> span v -> exists p p', Moon_get_position (Epoch v) = Ok p /\ Moon_get_position_b64 L v = Ok p' /\ within3 1.1e-4 p' p.
Proof.
  intros A H. rewrite moon_ecliptic. unfold Moon_get_position_b64. cbv zeta.
  assert (BL := moon_lambda_close L v A H). assert (BB := moon_beta_close L v A H). assert (BR := moon_distance_close L v A H). cbv zeta in BL, BB, BR.
  destruct (tilt_matrix L A) as (m & -> & M11 & M12 & M13 & M21 & M22 & M23 & M31 & M32 & M33). cbn [bind].
  eexists. eexists. split; [reflexivity|]. split; [reflexivity|].
  set (lam' := moon_lambda_b64 _ _ _ _ _ _) in *. set (beta' := moon_beta_b64 _ _ _ _ _ _ _) in *. set (r' := moon_distance_b64 _ _ _ _) in *.
  set (lam := moon_lon v) in *. set (beta := moon_lat v) in *. set (r := moon_range v) in *. clearbody lam' beta' r' lam beta r.
  assert (CL := bcosw L _ _ _ _ A BL ltac:(clear; lra) 1.3001e-10 ltac:(clear; lra)). assert (SL := bsinw L _ _ _ _ A BL ltac:(clear; lra) 1.3001e-10 ltac:(clear; lra)). assert (CB := bcosw L _ _ _ _ A BB ltac:(clear; lra) 3.2001e-11 ltac:(clear; lra)).
  assert (SB0 := bsinw L _ _ _ _ A BB ltac:(clear; lra) 3.2001e-11 ltac:(clear; lra)).
  assert (SB : bnd 0.1 3.2001e-11 (sinf L beta') (sin beta)).
  { destruct SB0 as [_ E]. split; [|exact E]. eapply Rle_trans; [|apply BB]. assert (T := sin_lip beta 0). rewrite sin_0, !Rminus_0_r in T. exact T. }
  unfold ecliptic, m3_multiply_vector_b64, v3_dot_b64, within3. cbv zeta. cbn [x3 y3 z3]. rewrite M12, M13, M21, M31.
  repeat first [rewrite Rmult_0_l | rewrite Rplus_0_l | rewrite Rplus_0_r | rewrite b64_0 | rewrite b64_idem].
  set (X' := b64 (b64 (r' * cosf L lam') * cosf L beta')). set (Y' := b64 (b64 (r' * sinf L lam') * cosf L beta')). set (Z' := b64 (r' * sinf L beta')).
  assert (BX : bnd 413905 7.6e-5 X' (r * (cos beta * cos lam))).
  { replace (r * (cos beta * cos lam)) with (r * cos lam * cos beta) by ring. assert (z2 := bmw _ _ _ _ _ _ _ _ BR CL 4.139050e5 5.889502e-5 ltac:(clear; lra) ltac:(clear; lra) ltac:(clear; lra)).
    assert (z1 := bmw _ _ _ _ _ _ _ _ z2 CB 4.139050e5 7.286192e-5 ltac:(clear; lra) ltac:(clear; lra) ltac:(clear; lra)).
    eapply bnd_weaken; [exact z1| |]; clear; lra. }
  assert (BY : bnd 413905 7.6e-5 Y' (r * (cos beta * sin lam))).
  { replace (r * (cos beta * sin lam)) with (r * sin lam * cos beta) by ring. assert (z2 := bmw _ _ _ _ _ _ _ _ BR SL 4.139050e5 5.889502e-5 ltac:(clear; lra) ltac:(clear; lra) ltac:(clear; lra)).
    assert (z1 := bmw _ _ _ _ _ _ _ _ z2 CB 4.139050e5 7.286192e-5 ltac:(clear; lra) ltac:(clear; lra) ltac:(clear; lra)).
    eapply bnd_weaken; [exact z1| |]; clear; lra. }
  assert (BZ : bnd 41391 1.5e-5 Z' (r * sin beta)).
  { assert (z1 := bmw _ _ _ _ _ _ _ _ BR SB 4.139050e4 1.383235e-5 ltac:(clear; lra) ltac:(clear; lra) ltac:(clear; lra)).
    eapply bnd_weaken; [exact z1| |]; clear; lra. }
  clearbody X' Y' Z'. set (X := r * (cos beta * cos lam)) in *. set (Y := r * (cos beta * sin lam)) in *. set (Z0 := r * sin beta) in *. clearbody X Y Z0.
  assert (W : forall K e q' q, bnd K e q' q -> e <= 1.1e-4 -> Rabs (q' - q) <= 1.1e-4) by (intros K e q' q [_ E] U; unfold err in *; lra).
  split; [|split].
  - replace X with (1 * X) by ring. assert (z1 := bmw _ _ _ _ _ _ _ _ M11 BX 4.139050e5 7.676055e-5 ltac:(clear; lra) ltac:(clear; lra) ltac:(clear; lra)).
    exact (W _ _ _ _ z1 ltac:(clear; lra)).
  - replace (cos tilt * Y - sin tilt * Z0) with (cos tilt * Y + - sin tilt * Z0) by ring. assert (z2 := bmw _ _ _ _ _ _ _ _ M22 BY 4.139050e5 7.676055e-5 ltac:(clear; lra) ltac:(clear; lra) ltac:(clear; lra)).
    assert (z3 := bmw _ _ _ _ _ _ _ _ M23 BZ 4.139100e4 1.515007e-5 ltac:(clear; lra) ltac:(clear; lra) ltac:(clear; lra)).
    assert (z1 := baw _ _ _ _ _ _ _ _ z2 z3 4.552960e5 9.282988e-5 ltac:(clear; lra) ltac:(clear; lra) ltac:(clear; lra)).
    exact (W _ _ _ _ z1 ltac:(clear; lra)).
  - assert (z2 := bmw _ _ _ _ _ _ _ _ M32 BY 4.139050e5 7.676055e-5 ltac:(clear; lra) ltac:(clear; lra) ltac:(clear; lra)).
    assert (z3 := bmw _ _ _ _ _ _ _ _ M33 BZ 4.139100e4 1.515007e-5 ltac:(clear; lra) ltac:(clear; lra) ltac:(clear; lra)).
    assert (z1 := baw _ _ _ _ _ _ _ _ z2 z3 4.552960e5 9.282988e-5 ltac:(clear; lra) ltac:(clear; lra) ltac:(clear; lra)).
    exact (W _ _ _ _ z1 ltac:(clear; lra)).
Qed.
