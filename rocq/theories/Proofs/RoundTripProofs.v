(** Elements to state to elements, rounded. *)
From Coq Require Import Reals Lra Psatz Lia.
From Flocq Require Import Core.
From Verif.Model Require Import Num Constants Linalg Functions Time Celestial States Elements TimeFloat AngleFloat ElementsFloat KeplerFloat.
From Verif.Spec Require Import Geometry Gravity Orbit LibmAccuracy.
From Verif.Proofs Require Import NumLemmas Analysis LinalgProofs FunctionsProofs CelestialProofs KeplerProofs ElementsProofs ElementsFloatProofs PiDigits KeplerFloatProofs StateFloatProofs.

From Verif.Properties Require Import ElementsProps RoundingProps.
Local Open Scope R_scope.

Lemma norm_of_parts d u' u : 0 <= d -> vec_err d u' u -> norm (sub u' u) <= 1.74 * d.
Proof.
  intros D (A & B & C). unfold err in *. apply Rabs_le_inv in A. apply Rabs_le_inv in B. apply Rabs_le_inv in C.
  unfold norm, dot, sub. cbn [x3 y3 z3]. rewrite <- (sqrt_square (1.74 * d)) by lra. apply sqrt_le_1_alt.
  set (x := x3 u' - x3 u) in *. set (y := y3 u' - y3 u) in *. set (z := z3 u' - z3 u) in *.
  assert (x * x <= d * d) by (clear - A; nra). assert (y * y <= d * d) by (clear - B; nra). assert (z * z <= d * d) by (clear - C; nra). nra.
Qed.

Lemma state_total L el : accurate_trig L -> small_angles el -> 1 <= semimajor_axis el <= 1e9 -> 0 <= eccentricity el <= 0.99 ->
  -3.14 <= mean_anomaly el <= 2 * math_pi ->
  exists n s s', (forall fuel, (n <= fuel)%nat -> elements_to_ijk fuel el = Ok s /\ elements_to_ijk_b64 L fuel el = Ok s') /\
    s_epoch s' = el_epoch el /\
    norm (sub (s_position s') (s_position s)) <= 6e-14 * / (1 - eccentricity el) * semimajor_axis el /\
    norm (sub (s_velocity s') (s_velocity s)) <= 1e-13 * / (1 - eccentricity el) ^ 3 * sqrt (mu_earth / semimajor_axis el).
Proof.
  intros HL HA Ha He Hm. assert (PD := PI_digits). assert (MP := math_pi_close).
  destruct (to_ijk_total el ltac:(lra) ltac:(lra) ltac:(lra)) as (n1 & s & H1).
  destruct (solver_b64 L _ _ HL He Hm) as (n2 & ea & H2 & _).
  destruct (state_b64 L n2 n1 el s HL HA Ha He Hm (H1 n1 (le_n n1)) (ex_intro _ ea (H2 n2 (le_n n2)))) as (s' & S1 & S2 & S3 & S4).
  exists (Nat.max n1 n2), s, s'. split.
  { intros fuel Hf. split; [apply H1; lia|]. rewrite <- S1. unfold elements_to_ijk_b64. rewrite (H2 fuel), (H2 n2) by lia. auto. }
  split; [auto|]. assert (g : 0 < 1 - eccentricity el) by lra. assert (G : 0 < / (1 - eccentricity el)) by now apply Rinv_0_lt_compat.
  assert (G3 : 0 < / (1 - eccentricity el) ^ 3) by (apply Rinv_0_lt_compat, pow_lt; lra).
  assert (V := sqrt_pos (mu_earth / semimajor_axis el)).
  split.
  - assert (0 <= / (1 - eccentricity el) * semimajor_axis el) by (apply Rmult_le_pos; lra).
    eapply Rle_trans; [refine (norm_of_parts _ _ _ _ S3); lra|]. lra.
  - assert (0 <= / (1 - eccentricity el) ^ 3 * sqrt (mu_earth / semimajor_axis el)) by (apply Rmult_le_pos; lra).
    eapply Rle_trans; [refine (norm_of_parts _ _ _ _ S4); lra|]. lra.
Qed.

(** * Scalars in units of the semi-major axis and the circular speed *)
Lemma energy_change h x y x' y' : 1 <= h <= 10 -> 1 <= h * x -> x <= 2 -> 0 <= y -> y * y = 2 / x - 1 ->
  Rabs (x' - x) <= 6e-14 * h -> Rabs (y' - y) <= 1e-13 * (h * h * h) ->
  Rabs (y' * y' / 2 - 1 / x' + 1 / 2) <= 2.2e-13 * (h * h * h * h) /\ y <= 1.4143 * h /\ 0.999 <= h * x' /\ y' <= 1.4144 * h.
Proof.
  intros Hh Hx Hx2 Hy Ey Dx Dy. apply Rabs_le_inv in Dx. apply Rabs_le_inv in Dy.
  assert (X0 : 0.1 <= x) by nra. assert (h2 : h <= h * h <= 100) by nra. assert (h3 : h * h <= h * h * h <= 1000) by nra.
  assert (h4 : h * h * h <= h * h * h * h <= 10000) by nra.
  assert (I0 : 1 / x <= h) by (apply div_le; lra).
  assert (I1 : 2 / x = 2 * (1 / x)) by (field; lra).
  assert (Y1 : y <= 1.4143 * h) by nra.
  assert (HX : 0.999 <= h * x') by (assert (h * (x' - x) >= - 6e-14 * (h * h)) by (clear - Dx Hh; nra); nra).
  assert (X1 : 0.09 <= x') by nra.
  assert (hy : 1e-13 * (h * h * h) <= 1e-10 * h) by nra.
  assert (Y2 : y' <= 1.4144 * h) by nra.
  split; [|auto].
  assert (Ix : x * (1 / x) = 1) by (field; lra). assert (Ix' : x' * (1 / x') = 1) by (field; lra).
  set (i := 1 / x) in *. set (i' := 1 / x') in *.
  assert (i0 : 0 < i) by (clear - Ix X0; nra).
  assert (I0' : 0 < i' <= 1.0011 * h) by (clear - Ix' X1 HX; split; nra).
  assert (DI : i' - i = (x - x') * (i * i')).
  { replace (i' - i) with ((x * i) * i' - (x' * i') * i) by (rewrite Ix, Ix'; ring). ring. }
  assert (II : 0 <= i * i' <= 1.0011 * (h * h)) by (clear - i0 I0 I0'; split; [nra|]; replace (1.0011 * (h * h)) with (h * (1.0011 * h)) by ring; apply Rmult_le_compat; lra).
  set (ii := i * i') in *.
  assert (DI2 : - 6.01e-14 * (h * h * h) <= i' - i <= 6.01e-14 * (h * h * h)).
  { rewrite DI. assert (6e-14 * h * ii <= 6e-14 * h * (1.0011 * (h * h))) by (apply Rmult_le_compat_l; lra).
    assert (h * h * h = h * (h * h)) by ring. clear - Dx II H H0 h3. split; nra. }
  assert (DY : - 1.4145e-13 * (h * h * h * h) <= (y' * y' - y * y) / 2 <= 1.4145e-13 * (h * h * h * h)).
  { replace (y' * y' - y * y) with ((y' - y) * (2 * y + (y' - y))) by ring. set (d := y' - y) in *. set (H := h * h * h) in *.
    assert (B1 : - 1e-13 * H * (2.8288 * h) <= d * (2 * y + d) <= 1e-13 * H * (2.8288 * h)).
    { assert (U : -2.8288 * h <= 2 * y + d <= 2.8288 * h) by lra.
      assert (P1 : d * d <= (1e-13 * H) * (1e-13 * H)) by (clear - Dy; nra).
      assert (P2 : - (1e-13 * H * (2.8286 * h)) <= d * (2 * y) <= 1e-13 * H * (2.8286 * h)).
      { assert (0 <= 2 * y <= 2.8286 * h) by lra. clear - H0 Dy. split; nra. }
      assert (P3 : (1e-13 * H) * (1e-13 * H) <= 1e-13 * H * (1e-10 * h)) by (apply Rmult_le_compat_l; lra).
      assert (P4 : 0 <= d * d) by apply Rle_0_sqr. assert (P5 : 0 <= H * h) by nra. lra. }
    lra. }
  apply Rabs_le. lra.
Qed.

Lemma momentum_change r v r' v' R V dr dv : norm r <= R -> norm v' <= V -> norm (sub r' r) <= dr -> norm (sub v' v) <= dv ->
  Rabs (norm (momentum r' v') - norm (momentum r v)) <= dr * V + R * dv.
Proof.
  intros HR HV Dr Dv.
  assert (E : sub (momentum r' v') (momentum r v) = add (cross (sub r' r) v') (cross r (sub v' v))) by (unfold momentum; veq; ring).
  assert (B : norm (sub (momentum r' v') (momentum r v)) <= dr * V + R * dv).
  { rewrite E. eapply Rle_trans; [apply norm_triangle|]. apply Rplus_le_compat.
    - eapply Rle_trans; [apply cross_norm_le|]. apply Rmult_le_compat; auto using norm_nonneg.
    - eapply Rle_trans; [apply cross_norm_le|]. apply Rmult_le_compat; auto using norm_nonneg. }
  assert (L1 := norm_sub_ge (momentum r' v') (momentum r v)). assert (L2 := norm_sub_ge (momentum r v) (momentum r' v')).
  rewrite norm_sub_sym in L2. apply Rabs_le. lra.
Qed.

Lemma norm_change u u' d : norm (sub u' u) <= d -> Rabs (norm u' - norm u) <= d.
Proof.
  intros H. assert (L1 := norm_sub_ge u' u). assert (L2 := norm_sub_ge u u'). rewrite norm_sub_sym in L2. apply Rabs_le. lra.
Qed.

Lemma scaled_dist c u u' d : 0 < c -> Rabs (c * u' - c * u) <= d * c -> Rabs (u' - u) <= d.
Proof.
  intros C H. replace (c * u' - c * u) with ((u' - u) * c) in H by ring. rewrite Rabs_mult, (Rabs_pos_eq c) in H by lra.
  apply Rmult_le_reg_r with c; auto.
Qed.

(** A state close to the one with elements [a], [e] has nearly those elements. *)
Lemma nearby_elements t a e r v r' v' : 1010 <= a * (1 - e) -> a <= 9e6 -> 0 <= e <= 0.9 ->
  a * (1 - e) <= norm r <= a * (1 + e) -> orbital_energy r v = - mu_earth / (2 * a) ->
  norm (momentum r v) = sqrt (mu_earth * a * (1 - e ^ 2)) ->
  norm (sub r' r) <= 6e-14 * / (1 - e) * a -> norm (sub v' v) <= 1e-13 * / (1 - e) ^ 3 * sqrt (mu_earth / a) ->
  bound_orbit r' v' /\ 1000 <= norm r' /\ 1e-3 <= norm v' /\ 1e-9 * (norm r' * norm v') <= norm (momentum r' v') /\
  a * (1 - e) <= 1.002 * norm r' /\
  exists el, elements_from_ijk (State t r' v') = Ok el /\
    Rabs (semimajor_axis el - a) <= 4.5e-13 / (1 - e) ^ 4 * a /\ Rabs (eccentricity el ^ 2 - e ^ 2) <= 1.1e-12 / (1 - e) ^ 4 /\ 0 < semimajor_axis el <= 1e7.
Proof.
  intros Hp Ha He Hr EN MO Dr Dv.
  assert (A0 : 1000 <= a) by nra.
  assert (H1 : 1 <= / (1 - e) <= 10).
  { split; [rewrite <- Rinv_1 at 1; apply Rinv_le_contravar; lra|]. replace 10 with (/ 0.1) by lra. apply Rinv_le_contravar; lra. }
  assert (Hg : / (1 - e) * (1 - e) = 1) by (field; lra).
  replace (/ (1 - e) ^ 3) with (/ (1 - e) * / (1 - e) * / (1 - e)) in Dv by (field; lra).
  replace (4.5e-13 / (1 - e) ^ 4) with (4.5e-13 * (/ (1 - e) * / (1 - e) * / (1 - e) * / (1 - e))) by (generalize 4.5e-13; intros; field; lra).
  replace (1.1e-12 / (1 - e) ^ 4) with (1.1e-12 * (/ (1 - e) * / (1 - e) * / (1 - e) * / (1 - e))) by (generalize 1.1e-12; intros; field; lra).
  set (h := / (1 - e)) in *. set (V := sqrt (mu_earth / a)) in *.
  assert (MU : 0 < mu_earth) by exact mu_pos.
  assert (V2 : a * (V * V) = mu_earth) by (unfold V; rewrite sqrt_sqrt by (apply Rdiv_nonneg; lra); field; lra).
  assert (V0 : 0.2 <= V).
  { unfold V. rewrite <- (sqrt_square 0.2) by lra. apply sqrt_le_1_alt. apply le_div; [lra|]. unfold mu_earth. lra. }
  set (x := norm r / a). set (x' := norm r' / a). set (y := norm v / V). set (y' := norm v' / V).
  assert (Ex : norm r = a * x) by (unfold x; field; lra). assert (Ex' : norm r' = a * x') by (unfold x'; field; lra).
  assert (Ey : norm v = V * y) by (unfold y; field; lra). assert (Ey' : norm v' = V * y') by (unfold y'; field; lra).
  assert (X1 : 1 - e <= x <= 1 + e) by (rewrite Ex in Hr; clear - Hr A0; split; nra).
  assert (Y0 : 0 <= y) by (unfold y; apply Rdiv_nonneg; [apply norm_nonneg|lra]).
  assert (EE : y * y = 2 / x - 1).
  { unfold orbital_energy in EN. rewrite Ex, Ey, <- V2 in EN.
    assert (E1 : V * V * (y * y - (2 / x - 1)) = 2 * (V * y * (V * y) / 2 - a * (V * V) / (a * x)) + V * V) by (field; lra).
    rewrite EN in E1. replace (2 * (- (a * (V * V)) / (2 * a)) + V * V) with 0 in E1 by (field; lra).
    apply Rmult_integral in E1. destruct E1 as [E1|E1]; [clear - E1 V0; nra|lra]. }
  assert (Dx : Rabs (x' - x) <= 6e-14 * h).
  { apply (scaled_dist a); [lra|]. rewrite <- Ex, <- Ex'. apply norm_change. auto. }
  assert (Dy : Rabs (y' - y) <= 1e-13 * (h * h * h)).
  { apply (scaled_dist V); [lra|]. rewrite <- Ey, <- Ey'. apply norm_change. auto. }
  assert (HX : 1 <= h * x) by (clear - Hg X1 H1; nra).
  destruct (energy_change h x y x' y' H1 HX ltac:(lra) Y0 EE Dx Dy) as (EC & Y1 & HX' & Y1').
  assert (h2 : h <= h * h <= 100) by nra. assert (h3 : h * h <= h * h * h <= 1000) by nra.
  assert (h4 : h * h * h <= h * h * h * h <= 10000) by nra.
  (* momentum *)
  set (z := sqrt (1 - e ^ 2)). assert (E2 : 0.19 <= 1 - e ^ 2 <= 1) by nra.
  assert (Zz : z * z = 1 - e ^ 2) by (apply sqrt_sqrt; lra). assert (Z0 : 0 <= z) by apply sqrt_pos.
  assert (Zr : 0.43 <= z <= 1) by (clear - Zz Z0 E2; split; nra).
  assert (Em : norm (momentum r v) = a * V * z).
  { rewrite MO. unfold z. rewrite <- (sqrt_square (a * V)) by nra. rewrite <- sqrt_mult by nra. f_equal. rewrite <- V2. ring. }
  assert (MC := momentum_change r v r' v' (a * x) (V * y') _ _ ltac:(lra) ltac:(lra) Dr Dv).
  set (z' := norm (momentum r' v') / (a * V)). assert (aV : 0 < a * V) by nra.
  assert (Em' : norm (momentum r' v') = a * V * z') by (unfold z'; field; lra).
  assert (Dz : Rabs (z' - z) <= 2.9e-13 * (h * h * h)).
  { apply (scaled_dist (a * V)); auto. rewrite <- Em, <- Em'. eapply Rle_trans; [exact MC|].
    replace (6e-14 * h * a * (V * y') + a * x * (1e-13 * (h * h * h) * V)) with ((6e-14 * h * y' + 1e-13 * (h * h * h) * x) * (a * V)) by ring.
    apply Rmult_le_compat_r; [lra|].
    assert (h * y' <= 1.4144 * (h * h)) by (clear - Y1' H1; nra). assert (h * h * h * x <= 2 * (h * h * h)) by (clear - X1 He h3 h2 H1; nra). lra. }
  apply Rabs_le_inv in Dz. apply Rabs_le_inv in EC.
  set (q := y' * y' / 2 - 1 / x') in *. set (H := h * h * h) in *.
  assert (Q1 : -0.5001 <= q <= -0.4999) by lra.
  assert (X0' : 0.099 <= x') by (clear - HX' H1; nra).
  assert (EN' : orbital_energy r' v' = V * V * q).
  { unfold orbital_energy. rewrite Ex', Ey', <- V2. unfold q. field. lra. }
  assert (Y2 : 0.22 <= y).
  { assert (2 / x >= 2 / 1.9) by (apply Rle_ge, Rmult_le_compat_l; [lra|apply Rinv_le_contravar; lra]). clear - H0 EE Y0. nra. }
  assert (VV : 0.04 <= V * V) by nra.
  assert (BO : bound_orbit r' v').
  { split; [rewrite EN'; nra|]. intros Z. rewrite Z in Em'. replace (norm zero3) with 0 in Em'.
    - assert (0 < z') by lra. assert (0 < a * V * z') by (apply Rmult_lt_0_compat; lra). lra.
    - unfold norm, dot, zero3. cbn [x3 y3 z3]. replace (0 * 0 + 0 * 0 + 0 * 0) with 0 by ring. symmetry. apply sqrt_0. }
  split; [auto|]. apply Rabs_le_inv in Dy.
  assert (Y0' : 0.21 <= y') by lra.
  split; [rewrite Ex'; clear - Hp HX' Hg H1 A0 He; nra|].
  split; [rewrite Ey'; clear - V0 Y0'; nra|].
  apply Rabs_le_inv in Dx. assert (X2' : x' <= 2) by lra. assert (Y2' : y' <= 15) by lra.
  split.
  { rewrite Ex', Ey', Em'. replace (1e-9 * (a * x' * (V * y'))) with (a * V * (1e-9 * (x' * y'))) by ring. apply Rmult_le_compat_l; [lra|].
    assert (x' * y' <= 2 * 15) by (apply Rmult_le_compat; lra). lra. }
  split. { rewrite Ex'. clear - HX' Hg H1 A0 He. assert (1 - e <= 1.002 * x') by nra. nra. }
  destruct (C36_from_ijk (State t r' v') BO) as (el & u & El & _ & A1 & A2 & A3 & A4 & _). cbn [s_position s_velocity] in *.
  exists el. split; [auto|]. set (b := semimajor_axis el) in *. rewrite EN' in A3.
  assert (Bq : b * (-2 * q) = a).
  { apply Rmult_eq_reg_l with (V * V); [|lra]. replace (V * V * (b * (-2 * q))) with (- 2 * b * (V * V * q)) by ring.
    rewrite A3. replace (V * V * a) with mu_earth by lra. field. lra. }
  rewrite Em' in A4. replace ((a * V * z') ^ 2 / mu_earth) with (a * (z' * z')) in A4 by (rewrite <- V2; field; lra).
  assert (Z2 : 1 - eccentricity el ^ 2 = z' * z' * (-2 * q)).
  { apply Rmult_eq_reg_l with b; [|lra]. rewrite A4, <- Bq. ring. }
  split; [|split].
  - apply Rabs_le. assert (B0 : b <= 1.001 * a) by (clear - Bq Q1 A1; nra).
    replace (b - a) with (b * (2 * (q + 1 / 2))) by (rewrite <- Bq; field). set (w := q + 1 / 2) in *.
    set (K := H * h) in *. assert (K0 : 1 <= K) by lra. assert (PK : 0 <= a * K) by (apply Rmult_le_pos; lra).
    assert (H0 : b * K <= 1.001 * (a * K)) by (rewrite <- Rmult_assoc; apply Rmult_le_compat_r; lra).
    clear - EC H0 A1 PK. split; nra.
  - replace (eccentricity el ^ 2 - e ^ 2) with (z * z - z' * z' * (-2 * q)) by lra.
    set (d := z' - z) in *. replace z' with (z + d) by (unfold d; ring). set (w := q + 1 / 2) in *. replace (-2 * q) with (1 - 2 * w) by (unfold w; field).
    replace (z * z - (z + d) * (z + d) * (1 - 2 * w)) with (- (d * (2 * z + d)) + (z + d) * (z + d) * (2 * w)) by ring.
    assert (S1 : - 5.81e-13 * H <= d * (2 * z + d) <= 5.81e-13 * H) by (clear - Dz Zr h3; split; nra).
    assert (S2 : 0 <= (z + d) * (z + d) <= 1.001) by (clear - Dz Zr h3; split; nra).
    set (zz := (z + d) * (z + d)) in *. apply Rabs_le.
    assert (S3 : - 4.41e-13 * (H * h) <= zz * (2 * w) <= 4.41e-13 * (H * h)) by (clear - S2 EC; split; nra).
    lra.
  - split; auto. clear - Bq Q1 A1 Ha. nra.
Qed.

Lemma orbit_normal_unit o i : norm (orbit_normal o i) = 1.
Proof.
  unfold norm. rewrite <- sqrt_1. f_equal. unfold dot, orbit_normal; cbn [x3 y3 z3].
  assert (A := sin2_cos2 o). assert (B := sin2_cos2 i). unfold Rsqr in *.
  replace (sin o * sin i * (sin o * sin i) + - cos o * sin i * (- cos o * sin i) + cos i * cos i)
    with ((sin o * sin o + cos o * cos o) * (sin i * sin i) + cos i * cos i) by ring. rewrite A. lra.
Qed.

Lemma roundtrip_b64 L el : accurate_trig L -> small_angles el -> 1010 <= semimajor_axis el * (1 - eccentricity el) -> semimajor_axis el <= 9e6 ->
  0 <= eccentricity el <= 0.9 -> -3.14 <= mean_anomaly el <= 2 * math_pi ->
  exists n s, (forall fuel, (n <= fuel)%nat -> elements_to_ijk_b64 L fuel el = Ok s) /\
  ((exists el', elements_from_ijk_b64 L s = Ok el' /\ el_epoch el' = el_epoch el /\
      Rabs (semimajor_axis el' - semimajor_axis el) <= 5e-13 / (1 - eccentricity el) ^ 4 * semimajor_axis el /\
      Rabs (eccentricity el' ^ 2 - eccentricity el ^ 2) <= 1.2e-12 / (1 - eccentricity el) ^ 4) \/
   (elements_from_ijk_b64 L s = Err ValueError /\ eccentricity el ^ 2 <= 1.2e-12 / (1 - eccentricity el) ^ 4)).
Proof.
  intros HL HA Hp Ha He Hm.
  assert (A0 : 1000 <= semimajor_axis el) by nra.
  destruct (state_total L el HL HA ltac:(lra) ltac:(lra) Hm) as (n & s & s' & HS & HT & DP & DV).
  destruct (HS n (le_n n)) as [S1 _]. destruct (C37_to_ijk n el s ltac:(lra) ltac:(lra) S1) as (_ & EN & MO & RR).
  assert (MN : norm (momentum (s_position s) (s_velocity s)) = sqrt (mu_earth * semimajor_axis el * (1 - eccentricity el ^ 2))).
  { rewrite MO, norm_scale, Rabs_pos_eq by apply sqrt_pos. rewrite orbit_normal_unit. ring. }
  exists n, s'. split; [intros fuel Hf; apply HS; auto|].
  destruct s' as [t r' v']. cbn [s_epoch s_position s_velocity] in *. subst t.
  destruct (nearby_elements (el_epoch el) _ _ _ _ r' v' Hp Ha He RR EN MN DP DV) as (BO & N1 & N2 & N3 & N4 & el2 & E2 & A2 & C2 & [A2p A2u]).
  assert (g4 : 0 < (1 - eccentricity el) ^ 4) by (apply pow_lt; lra).
  assert (G4 : (1 - eccentricity el) ^ 4 <= 1 - eccentricity el).
  { replace ((1 - eccentricity el) ^ 4) with ((1 - eccentricity el) * (1 - eccentricity el) ^ 3) by ring. rewrite <- (Rmult_1_r (1 - eccentricity el)) at 3.
    apply Rmult_le_compat_l; [lra|]. rewrite <- (pow1 3). apply pow_incr. lra. }
  unfold Rdiv in *. set (k := / (1 - eccentricity el) ^ 4) in *.
  assert (K1 : 1 <= k * (1 - eccentricity el)).
  { unfold k. apply Rmult_le_reg_l with ((1 - eccentricity el) ^ 4); auto. rewrite <- Rmult_assoc, Rinv_r by lra. lra. }
  assert (K0 : 0 < k) by (apply Rinv_0_lt_compat; auto). assert (K2 : 1 <= k) by nra.
  assert (KU : k <= 10000).
  { unfold k. replace 10000 with (/ (0.1 ^ 4)) by lra. apply Rinv_le_contravar; [lra|]. apply pow_incr. lra. }
  set (a := semimajor_axis el) in *. set (e := eccentricity el) in *.
  destruct (C92_accuracy L _ _ _ el2 E2 BO N1 N2 N3 A2u) as [(el' & F1 & F2 & F3 & F4 & F5)|(F1 & F2)].
  - left. exists el'. split; [auto|]. split; [auto|].
    apply Rabs_le_inv in A2. apply Rabs_le_inv in C2. apply Rabs_le_inv in F3. apply Rabs_le_inv in F5.
    split; [|apply Rabs_le; lra].
    assert (U : semimajor_axis el2 <= 1.001 * a) by (clear - A2 KU A0; nra).
    assert (Q : semimajor_axis el2 * semimajor_axis el2 / norm r' <= 1.01 * (k * a)).
    { apply div_le; [lra|]. assert (semimajor_axis el2 * semimajor_axis el2 <= (1.001 * a) * (1.001 * a)) by (apply Rmult_le_compat; lra).
      assert (a * a <= k * a * (a * (1 - e))).
      { replace (k * a * (a * (1 - e))) with ((k * (1 - e)) * (a * a)) by ring. clear - K1 A0. nra. }
      assert (k * a * (a * (1 - e)) <= k * a * (1.002 * norm r')) by (apply Rmult_le_compat_l; [apply Rmult_le_pos; lra|auto]).
      assert (0 <= k * a * norm r') by (apply Rmult_le_pos; [apply Rmult_le_pos|]; lra). lra. }
    unfold Rdiv in Q. apply Rabs_le. lra.
  - right. split; auto. apply Rabs_le_inv in C2. lra.
Qed.
