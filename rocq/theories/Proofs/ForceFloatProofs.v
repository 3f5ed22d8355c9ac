From Coq Require Import Reals ZArith Lra Lia Psatz.
From Flocq Require Import Core.
From Verif.Model Require Import Num Constants Linalg Functions Time Celestial States TimeFloat AngleFloat ElementsFloat FrameFloat GroundFloat SiderealFloat EarthFloat BodyFloat ForceFloat.
From Verif.Spec Require Import Geometry Forces Ecliptic LibmAccuracy FrameFloat SiderealFloat EarthFloat BodyFloat.
From Verif.Proofs Require Import NumLemmas LinalgProofs CelestialProofs HillTwoBodyProofs TimeFloatProofs AngleFloatProofs ElementsFloatProofs StateFloatProofs ClockProofs PiDigits Analysis FrameFloatBasics FrameFloatTrip GroundFloatProofs EarthFloatProofs EarthFloatChain EclipticProofs BodyFloatProofs.
Local Notation near := ElementsFloatProofs.near.
Local Open Scope R_scope.

(** * Rounding of vectors *)
Definition rnd (w : vec3) : vec3 := V3 (b64 (x3 w)) (b64 (y3 w)) (b64 (z3 w)).

Lemma norm_mono a b : Rabs (x3 a) <= x3 b -> Rabs (y3 a) <= y3 b -> Rabs (z3 a) <= z3 b -> norm a <= norm b.
Proof.
  intros X Y Z. unfold norm, dot. apply sqrt_le_1_alt.
  assert (S : forall p q, Rabs p <= q -> p * p <= q * q) by (intros p q H; apply Rabs_le_inv in H; nra).
  assert (A := S _ _ X). assert (B := S _ _ Y). assert (C := S _ _ Z). lra.
Qed.

Lemma vround w : verr (1.12e-16 * norm w + 1.8e-60) (rnd w) w.
Proof.
  unfold verr. destruct w as [x y z]. unfold rnd, sub. cbn [x3 y3 z3].
  apply Rle_trans with (norm (add (scale 1.12e-16 (V3 (Rabs x) (Rabs y) (Rabs z))) (V3 1e-60 1e-60 1e-60))).
  - apply norm_mono; cbn [x3 y3 z3 add scale]; apply b64_fine.
  - eapply Rle_trans; [apply norm_triangle|]. apply Rplus_le_compat.
    + rewrite norm_scale, (Rabs_pos_eq 1.12e-16) by lra. apply Rmult_le_compat_l; [lra|]. right. unfold norm, dot. cbn [x3 y3 z3]. f_equal. rewrite <- !Rabs_mult, !Rabs_pos_eq by apply Rle_0_sqr. reflexivity.
    + eapply Rle_trans; [apply norm_parts with (m := 1e-60); cbn [x3 y3 z3]; rewrite ?Rabs_pos_eq; lra|lra].
Qed.

Lemma minus_rnd a b : v3_minus_b64 a b = rnd (sub a b).
Proof. reflexivity. Qed.
Lemma plus_rnd a b : v3_plus_b64 a b = rnd (add a b).
Proof. reflexivity. Qed.
Lemma scaled_rnd a k : v3_scaled_b64 a k = rnd (scale k a).
Proof. unfold v3_scaled_b64, rnd, scale. cbn [x3 y3 z3]. f_equal; f_equal; ring. Qed.

(** * The inverse-square field *)
Definition newton (x : vec3) : vec3 := scale (/ (norm x * norm x * norm x)) x.

Lemma newton_norm x : 0 < norm x -> norm (newton x) = / (norm x * norm x).
Proof.
  intros P. unfold newton. rewrite norm_scale, Rabs_pos_eq by (left; apply Rinv_0_lt_compat; repeat apply Rmult_lt_0_compat; auto). field. lra.
Qed.

Lemma newton_lip x y d : 0 < norm y -> d <= 1e-3 * norm y -> norm (sub x y) <= d -> verr (4.03 * d / (norm y * norm y * norm y)) (newton x) (newton y).
Proof.
  intros P D H. assert (N := verr_norm d x y H). set (b := norm y) in *. set (a := norm x) in *.
  assert (D0 : 0 <= d) by (eapply Rle_trans; [apply norm_nonneg|exact H]). assert (A : 0.999 * b <= a) by lra.
  assert (IB : 0 < / b) by (apply Rinv_0_lt_compat; lra). assert (IA : 0 < / a) by (apply Rinv_0_lt_compat; lra).
  set (i := / b) in *. set (j := / a) in *.
  assert (JI : j <= 1.0011 * i). { apply Rmult_le_reg_r with (a * b); [nra|]. unfold i, j. replace (/ a * (a * b)) with b by (field; lra). replace (1.0011 * / b * (a * b)) with (1.0011 * (a * (/ b * b))) by lra. rewrite Rinv_l by lra. lra. }
  unfold verr. replace (sub (newton x) (newton y)) with (add (scale (j * j * j) (sub x y)) (scale (j * j * j - i * i * i) y)).
  2:{ unfold newton. fold a b. unfold i, j. unfold add, sub, scale. cbn [x3 y3 z3]. rewrite !Rinv_mult. f_equal; ring. }
  eapply Rle_trans; [apply norm_triangle|]. rewrite !norm_scale. fold b.
  assert (J3 : 0 < j * j * j) by (repeat apply Rmult_lt_0_compat; auto). rewrite (Rabs_pos_eq (j * j * j)) by lra.
  replace (4.03 * d / (b * b * b)) with (4.03 * (d * (i * i * i))) by (unfold i, Rdiv; rewrite !Rinv_mult; ring).
  assert (JB : forall p q r s, 0 < p <= r -> 0 < q <= s -> 0 < p * q <= r * s) by (intros; split; nra).
  assert (E3 : 0 < j * j * j <= 1.0011 * i * (1.0011 * i) * (1.0011 * i)) by (apply JB; [apply JB|]; lra).
  assert (DIFF : Rabs (j * j * j - i * i * i) * b <= 3.01 * (d * (i * i * i))).
  { replace (j * j * j - i * i * i) with ((j - i) * (j * j + j * i + i * i)) by ring. rewrite Rabs_mult.
    assert (JJ : Rabs (j - i) <= d * (j * i)).
    { replace (j - i) with ((b - a) * (j * i)) by (unfold i, j; field; lra). rewrite Rabs_mult, (Rabs_pos_eq (j * i)) by nra. apply Rmult_le_compat_r; [nra|]. apply Rabs_le. lra. }
    assert (Q : 0 < j * j + j * i + i * i) by nra. rewrite (Rabs_pos_eq (j * j + _ + _)) by lra.
    apply Rle_trans with (d * (j * i) * (j * j + j * i + i * i) * b).
    - apply Rmult_le_compat_r; [lra|]. apply Rmult_le_compat_r; [lra|exact JJ].
    - replace (d * (j * i) * (j * j + j * i + i * i) * b) with (d * (j * (j * j + j * i + i * i)) * (i * b)) by ring.
      replace (i * b) with 1 by (unfold i; field; lra). rewrite Rmult_1_r.
      replace (3.01 * (d * (i * i * i))) with (d * (3.01 * (i * i * i))) by ring. apply Rmult_le_compat_l; [lra|].
      assert (I3 : 0 < i * i * i) by (repeat apply Rmult_lt_0_compat; auto).
      assert (T1 : 0 < j * j <= 1.0011 * i * (1.0011 * i)) by (apply JB; lra).
      assert (T2 : 0 < j * j * i <= 1.0011 * i * (1.0011 * i) * i) by (apply JB; lra).
      assert (T3 : 0 < j * (i * i) <= 1.0011 * i * (i * i)) by (apply JB; nra). nra. }
  assert (FIRST : j * j * j * norm (sub x y) <= 1.0034 * (d * (i * i * i))).
  { apply Rle_trans with (1.0011 * i * (1.0011 * i) * (1.0011 * i) * d); [apply Rmult_le_compat; try lra; apply norm_nonneg|]. assert (0 <= d * (i * i * i)) by (apply Rmult_le_pos; [lra|]; repeat apply Rmult_le_pos; lra). lra. }
  assert (0 <= d * (i * i * i)) by (apply Rmult_le_pos; [lra|]; repeat apply Rmult_le_pos; lra). lra.
Qed.

Lemma cube_near x : 1 <= norm x <= 1e12 -> let m := v3_magnitude_b64 x in near 11.1 (b64 (b64 (m * m) * m)) (norm x * norm x * norm x).
Proof.
  intros B m. assert (M : near 2.9 m (norm x)) by (apply mag_near; lra). set (n := norm x) in *.
  assert (N2 : 1 <= n * n) by nra. assert (N3 : 1 <= n * n * n) by nra.
  assert (S2 : near 7 (b64 (m * m)) (n * n)).
  { eapply near_weaken; [apply near_round; [|apply (near_mul 2.9 2.9); [lra|lra|exact M|exact M]|rewrite Rabs_pos_eq by lra]; lra|lra]. }
  eapply near_weaken; [apply near_round; [|apply (near_mul 7 2.9); [lra|lra|exact S2|exact M]|rewrite Rabs_pos_eq by lra]; lra|lra].
Qed.

Lemma newton_round x : 1 <= norm x <= 1e12 -> let m := v3_magnitude_b64 x in
  exists k, pdiv_b64 1 (b64 (b64 (m * m) * m)) = Ok k /\ verr (1.36e-15 / (norm x * norm x)) (v3_scaled_b64 x k) (newton x).
Proof.
  intros B m. assert (C := cube_near x B). cbv zeta in C. fold m in C. set (n := norm x) in *.
  assert (N2 : 1 <= n * n <= 1e24) by nra. assert (N3 : 1 <= n * n * n <= 1e36) by nra.
  assert (CB := near_abs 11.1 _ (n * n * n) ltac:(lra) C). set (c := b64 (b64 (m * m) * m)) in *.
  rewrite div_ok by lra. eexists. split; [reflexivity|].
  assert (IL : 1e-36 <= 1 / (n * n * n)) by (apply Rmult_le_reg_r with (n * n * n); [lra|]; rewrite div_mul by lra; lra).
  assert (K : near 12.4 (b64 (1 / c)) (1 / (n * n * n))).
  { eapply near_weaken; [apply near_round; [|apply (near_div 0 11.1); [lra|lra|lra| |exact C]|rewrite Rabs_pos_eq by lra]; [lra| |lra]|lra]. unfold near. rewrite Rminus_diag_eq, Rabs_R0 by reflexivity. rewrite Rabs_R1. lra. }
  set (k := b64 (1 / c)) in *. unfold near in K. rewrite (Rabs_pos_eq (1 / (n * n * n))) in K by lra.
  rewrite scaled_rnd. assert (V := vround (scale k x)). rewrite norm_scale in V. fold n in V.
  assert (KN : 1 / (n * n * n) * n = / (n * n)) by (field; lra).
  assert (I2 : 1e-24 <= / (n * n)) by (apply Rmult_le_reg_r with (n * n); [lra|]; rewrite Rinv_l by lra; lra).
  assert (D : verr (12.4e-16 * (/ (n * n))) (scale k x) (newton x)).
  { unfold verr, newton. fold n. replace (sub (scale k x) (scale (/ (n * n * n)) x)) with (scale (k - 1 / (n * n * n)) x) by (unfold sub, scale, Rdiv; cbn [x3 y3 z3]; f_equal; ring).
    rewrite norm_scale. fold n. rewrite <- KN. rewrite <- Rmult_assoc. apply Rmult_le_compat_r; lra. }
  assert (KA : Rabs k * n <= 1.001 * / (n * n)).
  { rewrite <- KN, <- Rmult_assoc. apply Rmult_le_compat_r; [lra|]. apply Rabs_le_inv in K. apply Rabs_le. lra. }
  eapply verr_weaken; [eapply verr_trans; [exact V|exact D]|]. unfold Rdiv. lra.
Qed.

(** * Point mass of the Earth *)
Lemma earth_close s : 1 <= norm (g_position s) <= 1e12 ->
  exists a a', acceleration_from_earth s = Ok a /\ acceleration_from_earth_b64 s = Ok a' /\
  verr (1.5e-15 * norm a) a' a /\ norm a = Earth_MU / (norm (g_position s) * norm (g_position s)).
Proof.
  intros B. set (x := g_position s) in *. assert (C := cube_near x B). cbv zeta in C.
  unfold acceleration_from_earth, acceleration_from_earth_b64. fold x. set (m := v3_magnitude_b64 x) in *.
  rewrite v3_magnitude_norm. set (n := norm x) in *.
  assert (N2 : 1 <= n * n <= 1e24) by nra. assert (N3 : 1 <= n * n * n <= 1e36) by nra.
  assert (CB := near_abs 11.1 _ (n * n * n) ltac:(lra) C). set (c := b64 (b64 (m * m) * m)) in *.
  rewrite pdiv_ok by lra. rewrite div_ok by lra. cbn [bind]. eexists. eexists. split; [reflexivity|]. split; [reflexivity|].
  assert (MN := mu_near). assert (MP : 3.98e5 <= Earth_MU <= 3.99e5) by (unfold Earth_MU; lra).
  assert (Q : 1e-31 <= Earth_MU / (n * n * n)). { apply Rmult_le_reg_r with (n * n * n); [lra|]. rewrite div_mul by lra. lra. }
  assert (K : near 13.5 (b64 (- MU_b64 / c)) (- Earth_MU / (n * n * n))).
  { eapply near_weaken; [apply near_round; [|apply (near_div 1.13 11.1); [lra|lra|lra| |exact C]|]|].
    - lra.
    - unfold near in *. replace (- MU_b64 - - Earth_MU) with (- (MU_b64 - Earth_MU)) by ring. rewrite !Rabs_Ropp. exact MN.
    - replace (- Earth_MU / (n * n * n)) with (- (Earth_MU / (n * n * n))) by (unfold Rdiv; ring). rewrite Rabs_Ropp, Rabs_pos_eq by lra. lra.
    - lra. }
  set (k := b64 (- MU_b64 / c)) in *. set (q := - Earth_MU / (n * n * n)) in *.
  assert (QA : Rabs q = Earth_MU / (n * n * n)). { unfold q. replace (- Earth_MU / (n * n * n)) with (- (Earth_MU / (n * n * n))) by (unfold Rdiv; ring). rewrite Rabs_Ropp, Rabs_pos_eq by lra. reflexivity. }
  assert (NA : norm (v3_scaled x q) = Earth_MU / (n * n)).
  { rewrite v3_scaled_scale, norm_scale. fold n. rewrite QA. field. lra. }
  split; [|exact NA]. rewrite NA. rewrite scaled_rnd, v3_scaled_scale.
  assert (KN : Rabs q * n = Earth_MU / (n * n)) by (rewrite QA; field; lra).
  set (w := Earth_MU / (n * n)) in *. assert (W : 1e-19 <= w). { apply Rmult_le_reg_r with (n * n); [lra|]. unfold w. rewrite div_mul by lra. lra. }
  assert (V := vround (scale k x)). rewrite norm_scale in V. fold n in V.
  assert (D : verr (13.5e-16 * w) (scale k x) (scale q x)).
  { unfold verr. replace (sub (scale k x) (scale q x)) with (scale (k - q) x) by (unfold sub, scale; cbn [x3 y3 z3]; f_equal; ring).
    rewrite norm_scale. fold n. rewrite <- KN, <- Rmult_assoc. apply Rmult_le_compat_r; [lra|]. unfold near in K. lra. }
  assert (KA : Rabs k * n <= 1.001 * w).
  { rewrite <- KN, <- Rmult_assoc. apply Rmult_le_compat_r; [lra|]. unfold near in K. assert (T := Rabs_triang_inv k q). assert (0 <= Rabs q) by apply Rabs_pos. lra. }
  eapply verr_weaken; [eapply verr_trans; [exact V|exact D]|]. lra.
Qed.

(** * Third bodies *)
Lemma verr_sub d e a' a b' b : verr d a' a -> verr e b' b -> verr (d + e) (sub a' b') (sub a b).
Proof.
  unfold verr. intros A B. replace (sub (sub a' b') (sub a b)) with (sub (sub a' a) (sub b' b)) by (unfold sub; cbn [x3 y3 z3]; f_equal; ring).
  eapply Rle_trans; [|apply Rplus_le_compat; [exact A|exact B]]. replace (sub (sub a' a) (sub b' b)) with (add (sub a' a) (scale (-1) (sub b' b))) by (unfold sub, add, scale; cbn [x3 y3 z3]; f_equal; ring).
  eapply Rle_trans; [apply norm_triangle|]. rewrite norm_scale. replace (Rabs (-1)) with 1 by (rewrite Rabs_left; lra). lra.
Qed.

Lemma inv_sq a b : 0 < b -> 0.999 * b <= a -> / (a * a) <= 1.0021 * / (b * b).
Proof.
  intros B A. apply Rmult_le_reg_r with (a * a); [nra|]. rewrite Rinv_l by nra. 
  apply Rmult_le_reg_r with (b * b); [nra|]. replace (1.0021 * / (b * b) * (a * a) * (b * b)) with (1.0021 * (a * a) * (/ (b * b) * (b * b))) by lra. rewrite Rinv_l by nra. nra.
Qed.

Lemma field_close d x' x : 0 <= d -> d <= 9e-4 * norm x -> 2 <= norm x <= 9e11 -> verr d x' x -> let m := v3_magnitude_b64 x' in
  exists k, pdiv_b64 1 (b64 (b64 (m * m) * m)) = Ok k /\
  verr (1.37e-15 * / (norm x * norm x) + 4.03 * d / (norm x * norm x * norm x)) (v3_scaled_b64 x' k) (newton x).
Proof.
  intros D0 D B H m. assert (N := verr_norm _ _ _ H). destruct (newton_round x') as (k & E & K); [lra|]. exists k. split; [exact E|].
  eapply verr_weaken; [eapply verr_trans; [exact K|apply (newton_lip x' x d); [lra|lra|exact H]]|]. apply Rplus_le_compat_r.
  assert (I := inv_sq (norm x') (norm x) ltac:(lra) ltac:(lra)). unfold Rdiv. assert (0 < / (norm x * norm x)) by (apply Rinv_0_lt_compat; nra). lra.
Qed.

Definition third_error (mu d r s : R) : R :=
  mu * (2.3e-15 * (/ (r * r) + / (s * s)) + 4.1 * d * (/ (r * r * r) + / (s * s * s))).

Lemma third_close mu d s' s p : 1 <= mu <= 1e12 -> 1e-6 <= d -> verr d s' s -> 
  2 <= norm s <= 9e11 -> 2 <= norm (sub s p) <= 9e11 -> d <= 5e-4 * norm s -> d <= 5e-4 * norm (sub s p) ->
  exists a a', third_body mu s p = Ok a /\ third_body_b64 mu s' p = Ok a' /\ verr (third_error mu d (norm (sub s p)) (norm s)) a' a.
Proof.
  intros MUB D0 H S R DS DR. unfold third_body, third_body_b64. rewrite minus_rnd, v3_minus_sub.
  assert (RD : verr (1.12e-16 * (norm (sub s p) + d) + 1.8e-60 + d) (rnd (sub s' p)) (sub s p)).
  { assert (X : verr d (sub s' p) (sub s p)) by (unfold verr in *; replace (sub (sub s' p) (sub s p)) with (sub s' s) by (unfold sub; cbn [x3 y3 z3]; f_equal; ring); exact H).
    assert (XN := verr_norm _ _ _ X). eapply verr_trans; [eapply verr_weaken; [apply vround|]|exact X]. lra. }
  rewrite !v3_magnitude_norm. set (r := sub s p) in *. set (r' := rnd (sub s' p)) in *.
  set (e := 1.12e-16 * (norm r + d) + 1.8e-60 + d) in *.
  assert (EE : d <= e <= 1.001 * d + 1.2e-16 * norm r) by (unfold e; lra).
  destruct (field_close e r' r ltac:(lra) ltac:(lra) R RD) as (k1 & E1 & K1).
  destruct (field_close d s' s ltac:(lra) ltac:(lra) S H) as (k2 & E2 & K2).
  cbv zeta. rewrite E1, E2. cbn [bind]. set (nr := norm r) in *. set (ns := norm s) in *.
  assert (R2 : 0 < nr * nr) by nra. assert (R3 : 0 < nr * nr * nr) by nra. assert (S2 : 0 < ns * ns) by nra. assert (S3 : 0 < ns * ns * ns) by nra.
  change (v3_magnitude s) with ns. change (v3_magnitude r) with nr. rewrite (pdiv_ok 1 (nr * nr * nr)) by lra. cbn [bind]. rewrite (pdiv_ok 1 (ns * ns * ns)) by lra. cbn [bind]. eexists. eexists. split; [reflexivity|]. split; [reflexivity|].
  rewrite !v3_scaled_scale, v3_minus_sub. replace (1 / (nr * nr * nr)) with (/ (nr * nr * nr)) by lra. replace (1 / (ns * ns * ns)) with (/ (ns * ns * ns)) by lra.
  fold (newton r). change (scale (/ (ns * ns * ns)) s) with (newton s). rewrite scaled_rnd, minus_rnd.
  assert (NR : norm (newton r) = / (nr * nr)) by (apply newton_norm; fold nr; lra). assert (NS : norm (newton s) = / (ns * ns)) by (apply newton_norm; fold ns; lra).
  set (A := / (nr * nr)) in *. set (A3 := / (nr * nr * nr)). set (C := / (ns * ns)) in *. set (C3 := / (ns * ns * ns)).
  assert (AP : 1e-24 <= A). { apply Rmult_le_reg_r with (nr * nr); [lra|]. unfold A. rewrite Rinv_l by lra. nra. }
  assert (CP : 1e-24 <= C). { apply Rmult_le_reg_r with (ns * ns); [lra|]. unfold C. rewrite Rinv_l by lra. nra. }
  assert (A3P : 0 < A3) by (apply Rinv_0_lt_compat; lra). assert (C3P : 0 < C3) by (apply Rinv_0_lt_compat; lra).
  assert (AA : nr * A3 = A) by (unfold A, A3; field; lra). assert (CC : ns * C3 = C) by (unfold C, C3; field; lra).
  assert (K1' : verr (1.86e-15 * A + 4.0341 * (d * A3)) (v3_scaled_b64 r' k1) (newton r)).
  { eapply verr_weaken; [exact K1|]. fold nr. unfold Rdiv. fold A3. assert (Z : e * A3 <= 1.001 * (d * A3) + 1.2e-16 * A) by (rewrite <- AA; clear - EE A3P; apply proj2 in EE; apply Rle_trans with ((1.001 * d + 1.2e-16 * nr) * A3); [apply Rmult_le_compat_r; lra|lra]). assert (Z2 : 4.03 * e * A3 = 4.03 * (e * A3)) by ring. rewrite Z2. clearbody e. clear - Z AP A3P D0. assert (0 <= d * A3) by (apply Rmult_le_pos; lra). lra. }
  assert (K2' : verr (1.37e-15 * C + 4.0341 * (d * C3)) (v3_scaled_b64 s' k2) (newton s)).
  { eapply verr_weaken; [exact K2|]. fold ns. unfold Rdiv. fold C3. assert (0 <= d * C3) by nra. lra. }
  clear K1 K2. set (v1 := v3_scaled_b64 r' k1) in *. set (v2 := v3_scaled_b64 s' k2) in *.
  assert (SD := verr_sub _ _ _ _ _ _ K1' K2'). set (g := sub (newton r) (newton s)) in *.
  assert (G : norm g <= A + C). { unfold g. rewrite <- NR, <- NS. replace (sub (newton r) (newton s)) with (add (newton r) (scale (-1) (newton s))) by (unfold sub, add, scale; cbn [x3 y3 z3]; f_equal; ring). eapply Rle_trans; [apply norm_triangle|]. rewrite norm_scale. replace (Rabs (-1)) with 1 by (rewrite Rabs_left; lra). lra. }
  assert (DA : 0 <= d * A3 <= 5e-4 * A) by nra. assert (DC : 0 <= d * C3 <= 5e-4 * C) by nra.
  assert (SN := verr_norm _ _ _ SD). assert (V1 := vround (sub v1 v2)). 
  assert (W : verr (1.99e-15 * (A + C) + 4.0341 * (d * A3) + 4.0341 * (d * C3)) (rnd (sub v1 v2)) g).
  { eapply verr_weaken; [eapply verr_trans; [exact V1|exact SD]|]. lra. }
  clear V1. set (u := rnd (sub v1 v2)) in *. assert (UN := verr_norm _ _ _ W).
  assert (MN : near 1.13 (b64 mu) mu) by (apply b64_near; rewrite Rabs_pos_eq; lra). unfold near in MN. rewrite (Rabs_pos_eq mu) in MN by lra.
  assert (MB : 0 < b64 mu <= 1.001 * mu) by (apply Rabs_le_inv in MN; lra).
  assert (V := vround (scale (b64 mu) u)). rewrite norm_scale, (Rabs_pos_eq (b64 mu)) in V by lra.
  assert (UB : 0 <= norm u <= 1.01 * (A + C)) by (split; [apply norm_nonneg|lra]).
  assert (D1 : verr (1.13e-16 * mu * (1.01 * (A + C))) (scale (b64 mu) u) (scale mu u)).
  { unfold verr. replace (sub (scale (b64 mu) u) (scale mu u)) with (scale (b64 mu - mu) u) by (unfold sub, scale; cbn [x3 y3 z3]; f_equal; ring).
    rewrite norm_scale. apply Rmult_le_compat; [apply Rabs_pos|lra|lra|lra]. }
  assert (D2 : verr (mu * (1.99e-15 * (A + C) + 4.0341 * (d * A3) + 4.0341 * (d * C3))) (scale mu u) (scale mu g)).
  { unfold verr. replace (sub (scale mu u) (scale mu g)) with (scale mu (sub u g)) by (unfold sub, scale; cbn [x3 y3 z3]; f_equal; ring).
    rewrite norm_scale, Rabs_pos_eq by lra. apply Rmult_le_compat_l; [lra|exact W]. }
  eapply verr_weaken; [eapply verr_trans; [exact V|eapply verr_trans; [exact D1|exact D2]]|].
  unfold third_error. fold nr ns. fold A A3 C C3.
  assert (P1 : b64 mu * norm u <= 1.001 * mu * (1.01 * (A + C))) by (apply Rmult_le_compat; lra).
  assert (M1 : 2e-24 <= mu * (A + C)) by nra. assert (M2 : 0 <= mu * (d * A3)) by nra. assert (M3 : 0 <= mu * (d * C3)) by nra. clear - P1 M1 M2 M3. lra.
Qed.

(** * The Moon, the Sun and radiation pressure *)
Lemma sun_verr L v : accurate_far L -> span v -> verr 1.82e-3 (Sun_get_position_b64 L v) (Sun_get_position (Epoch v)).
Proof.
  intros A H. destruct (sun_close L v A H) as (X & Y & Z). unfold verr. apply Rle_trans with (1.7321 * 1.05e-3); [|lra]. apply norm_parts; [lra| | |]; unfold sub; cbn [x3 y3 z3]; assumption.
Qed.

Lemma moon_verr L v : accurate_far L -> span v -> exists p p', Moon_get_position (Epoch v) = Ok p /\ Moon_get_position_b64 L v = Ok p' /\ verr 1.91e-4 p' p /\ 356096 <= norm p <= 413904.
Proof.
  intros A H. destruct (moon_close L v A H) as (p & p' & E & E' & X & Y & Z). exists p, p'. split; [exact E|]. split; [exact E'|]. split.
  - unfold verr. apply Rle_trans with (1.7321 * 1.1e-4); [|lra]. apply norm_parts; [lra| | |]; unfold sub; cbn [x3 y3 z3]; assumption.
  - destruct (Moon_norm (Epoch v)) as (q & Q & B). assert (q = p) by congruence. subst q. exact B.
Qed.

Lemma moon_force_close L v s p : accurate_far L -> span v -> g_epoch s = Epoch v -> Moon_get_position (Epoch v) = Ok p -> 1737 <= norm (sub p (g_position s)) <= 1e9 ->
  exists a a', acceleration_from_moon s = Ok a /\ acceleration_from_moon_b64 L s = Ok a' /\
    verr (3.9 * (/ norm (sub p (g_position s)) ^ 3 + / norm p ^ 3)) a' a.
Proof.
  intros A H EP EM R. destruct (moon_verr L v A H) as (q & p' & E & E' & X & N). assert (q = p) by congruence. subst q.
  unfold acceleration_from_moon, acceleration_from_moon_b64. rewrite EP. cbn [value]. rewrite EM, E'. cbn [bind].
  destruct (third_close Moon_MU 1.91e-4 p' p (g_position s)) as (a & a' & EA & EA' & B); try lra; [unfold Moon_MU; lra|exact X|].
  exists a, a'. split; [exact EA|]. split; [exact EA'|]. eapply verr_weaken; [exact B|]. unfold third_error. set (r := norm (sub p (g_position s))) in *. set (n := norm p) in *.
  assert (T : forall z, 1 <= z <= 1e9 -> / (z * z) <= 1e9 * / (z * z * z) /\ 0 < / (z * z * z)).
  { intros z Z. assert (0 < z * z * z) by (repeat apply Rmult_lt_0_compat; lra). assert (0 < / (z * z * z)) by (apply Rinv_0_lt_compat; auto). split; [|auto]. replace (/ (z * z)) with (z * / (z * z * z)) by (field; lra). apply Rmult_le_compat_r; lra. }
  destruct (T r ltac:(lra)) as [T1 T2]. destruct (T n ltac:(lra)) as [T3 T4].
  replace (r ^ 3) with (r * r * r) by ring. replace (n ^ 3) with (n * n * n) by ring. unfold Moon_MU. lra.
Qed.

Lemma sun_range_norm v : 147.099e6 <= norm (Sun_get_position (Epoch v)) <= 152.097e6.
Proof. apply Sun_norm. Qed.

Lemma sun_vec_range v x : norm x <= 1e7 -> 1.37e8 <= norm (sub (Sun_get_position (Epoch v)) x) <= 1.63e8.
Proof.
  intros X. assert (N := sun_range_norm v). set (p := Sun_get_position _) in *. split.
  - assert (T := norm_sub_ge p x). lra.
  - replace (sub p x) with (add p (scale (-1) x)) by (unfold sub, add, scale; cbn [x3 y3 z3]; f_equal; ring). eapply Rle_trans; [apply norm_triangle|]. rewrite norm_scale. replace (Rabs (-1)) with 1 by (rewrite Rabs_left; lra). lra.
Qed.

Lemma sun_force_close L v s : accurate_far L -> span v -> g_epoch s = Epoch v -> norm (g_position s) <= 1e7 ->
  exists a a', acceleration_from_sun s = Ok a /\ acceleration_from_sun_b64 L s = Ok a' /\ verr 8e-16 a' a.
Proof.
  intros A H EP R. unfold acceleration_from_sun, acceleration_from_sun_b64. rewrite EP. cbn [value].
  assert (N := sun_range_norm v). assert (M := sun_vec_range v _ R). assert (X := sun_verr L v A H).
  set (p := Sun_get_position (Epoch v)) in *.
  destruct (third_close Sun_MU 1.82e-3 (Sun_get_position_b64 L v) p (g_position s)) as (a & a' & EA & EA' & B); try lra; [unfold Sun_MU; lra|exact X|].
  exists a, a'. split; [exact EA|]. split; [exact EA'|]. eapply verr_weaken; [exact B|]. unfold third_error. set (r := norm (sub p (g_position s))) in *. set (n := norm p) in *.
  assert (I : forall z, 1.37e8 <= z -> 0 < / z <= 7.3e-9).
  { intros z Z. split; [apply Rinv_0_lt_compat; lra|]. apply Rmult_le_reg_r with z; [lra|]. rewrite Rinv_l by lra. lra. }
  assert (IR := I r ltac:(lra)). assert (IN := I n ltac:(lra)). rewrite !Rinv_mult. set (i := / r) in *. set (j := / n) in *. clearbody i j.
  assert (i * i <= 5.33e-17) by nra. assert (j * j <= 5.33e-17) by nra. assert (0 <= i * i) by nra. assert (0 <= j * j) by nra.
  assert (i * i * i <= 3.9e-25) by nra. assert (j * j * j <= 3.9e-25) by nra. unfold Sun_MU. lra.
Qed.

Lemma srp_close L v s : accurate_far L -> span v -> g_epoch s = Epoch v -> norm (g_position s) <= 1e7 ->
  exists a a', acceleration_from_srp s = Ok a /\ acceleration_from_srp_b64 L s = Ok a' /\ verr (2.8e-11 * norm a + 3e-60) a' a /\
    norm a = 4.56e-9 * Rabs (g_srp_scalar s).
Proof.
  intros A H EP R. unfold acceleration_from_srp, acceleration_from_srp_b64, gcrf_sun_vector, gcrf_sun_vector_b64. rewrite EP. cbn [value].
  assert (N := sun_range_norm v). assert (M := sun_vec_range v _ R). assert (X := sun_verr L v A H).
  rewrite v3_minus_sub, minus_rnd. set (p := Sun_get_position (Epoch v)) in *. set (p' := Sun_get_position_b64 L v) in *. set (x := g_position s) in *.
  assert (Y : verr 1.8201e-3 (rnd (sub p' x)) (sub p x)).
  { assert (Y : verr 1.82e-3 (sub p' x) (sub p x)) by (unfold verr in *; replace (sub (sub p' x) (sub p x)) with (sub p' p) by (unfold sub; cbn [x3 y3 z3]; f_equal; ring); exact X).
    assert (YN := verr_norm _ _ _ Y). eapply verr_weaken; [eapply verr_trans; [apply vround|exact Y]|]. lra. }
  set (w := sub p x) in *. set (w' := rnd (sub p' x)) in *. assert (WN := verr_norm _ _ _ Y).
  destruct (unit_round w') as (u' & E' & U); [lra|lra|]. rewrite E'. cbn [bind].
  rewrite (normalized_ok w) by (intros Z; rewrite Z in M; assert (T := proj2 (norm_zero zero3) eq_refl); lra). cbn [bind]. set (u := scale (/ norm w) w) in *.
  assert (UU : verr 2.67e-11 u' u).
  { eapply verr_weaken; [eapply verr_trans; [exact U|apply unit_close; lra]|]. unfold verr in Y.
    assert (2 * norm (sub w' w) / norm w <= 2.66e-11); [|lra]. apply Rmult_le_reg_r with (norm w); [lra|]. rewrite div_mul by lra. lra. }
  assert (U1 : norm u = 1). { unfold u. rewrite norm_scale, Rabs_pos_eq by (left; apply Rinv_0_lt_compat; lra). apply Rinv_l. lra. }
  rewrite v3_magnitude_norm, U1. rewrite pdiv_ok by (unfold BASE_IN_KILO; lra). cbn [bind].
  assert (VU := verr_norm _ _ _ U). rewrite norm_scale, Rabs_pos_eq in VU by (left; apply Rinv_0_lt_compat; lra). rewrite Rinv_l in VU by lra.
  assert (MG : near 2.9 (v3_magnitude_b64 u') (norm u')) by (apply mag_near; lra).
  apply near_abs in MG; [|lra]. set (m := v3_magnitude_b64 u') in *. assert (MB : 1 - 1e-15 <= m <= 1 + 1e-15) by lra.
  assert (M2 : 1 - 2.2e-15 <= b64 (m * m) <= 1 + 2.2e-15).
  { assert (F := b64_fine (m * m)). assert (Q : 1 - 2e-15 <= m * m <= 1 + 2.01e-15) by (clear - MB; split; nra). rewrite (Rabs_pos_eq (m * m)) in F by lra. apply Rabs_le_inv in F. lra. }
  assert (DB : 1000 - 2.4e-12 <= b64 (b64 (m * m) * BASE_IN_KILO) <= 1000 + 2.4e-12).
  { unfold BASE_IN_KILO. set (y := b64 (m * m)) in *. assert (F := b64_fine (y * 1000)). rewrite (Rabs_pos_eq (y * 1000)) in F by lra. apply Rabs_le_inv in F. lra. }
  set (d' := b64 (b64 (m * m) * BASE_IN_KILO)) in *. rewrite div_ok by lra. cbn [bind].
  set (c := g_srp_scalar s) in *. assert (C0 := Rabs_pos c).
  assert (PN : Rabs (b64 Sun_P - Sun_P) <= 1.13e-16 * Sun_P). { assert (Z : near 1.13 (b64 Sun_P) Sun_P) by (apply b64_near; unfold Sun_P; rewrite Rabs_pos_eq; lra). unfold near in Z. rewrite (Rabs_pos_eq Sun_P) in Z by (unfold Sun_P; lra). lra. }
  set (k := - Sun_P * c / (1 * 1 * BASE_IN_KILO)).
  set (n' := b64 (- b64 Sun_P * c)). set (a0 := Sun_P * Rabs c). assert (A0 : 0 <= a0) by (unfold a0, Sun_P; lra).
  assert (K0 : Rabs (- Sun_P * c) = a0) by (unfold a0; rewrite Rabs_mult, Rabs_Ropp, (Rabs_pos_eq Sun_P) by (unfold Sun_P; lra); reflexivity).
  assert (N1 : Rabs (- b64 Sun_P * c - - Sun_P * c) <= 1.13e-16 * a0).
  { replace (- b64 Sun_P * c - - Sun_P * c) with (- (b64 Sun_P - Sun_P) * c) by ring. rewrite Rabs_mult, Rabs_Ropp. unfold a0. rewrite <- Rmult_assoc. apply Rmult_le_compat_r; [apply Rabs_pos|lra]. }
  assert (N2 : Rabs (n' - - Sun_P * c) <= 2.3e-16 * a0 + 1e-60).
  { assert (F := b64_fine (- b64 Sun_P * c)). fold n' in F. assert (T := Rabs_triang_inv (- b64 Sun_P * c) (- Sun_P * c)). rewrite K0 in T.
    replace (n' - - Sun_P * c) with ((n' - - b64 Sun_P * c) + (- b64 Sun_P * c - - Sun_P * c)) by ring. eapply Rle_trans; [apply Rabs_triang|]. lra. }
  assert (KK : k = - Sun_P * c / 1000) by (unfold k, BASE_IN_KILO; f_equal; ring).
  assert (KA : Rabs k = a0 / 1000) by (rewrite KK; unfold Rdiv; rewrite Rabs_mult, K0, (Rabs_pos_eq (/ 1000)) by lra; reflexivity).
  assert (NB := Rabs_triang_inv n' (- Sun_P * c)). rewrite K0 in NB.
  assert (Q1 : Rabs (n' / d' - k) <= 2.7e-15 * (a0 / 1000) + 1.1e-63).
  { replace (n' / d' - k) with ((n' - - Sun_P * c) / d' + - Sun_P * c * (1000 - d') / (1000 * d')) by (rewrite KK; field; lra).
    eapply Rle_trans; [apply Rabs_triang|].
    assert (I1 : 0 < / d' <= 1.00001e-3). { split; [apply Rinv_0_lt_compat; lra|]. apply Rmult_le_reg_r with d'; [lra|]. rewrite Rinv_l by lra. lra. }
    assert (J1 : Rabs ((n' - - Sun_P * c) / d') = Rabs (n' - - Sun_P * c) * / d') by (unfold Rdiv; rewrite Rabs_mult, (Rabs_pos_eq (/ d')) by lra; reflexivity).
    assert (J2 : Rabs (- Sun_P * c * (1000 - d') / (1000 * d')) = a0 * (Rabs (1000 - d') * (/ 1000 * / d'))).
    { replace (- Sun_P * c * (1000 - d') / (1000 * d')) with (- Sun_P * c * ((1000 - d') * (/ 1000 * / d'))) by (field; lra). rewrite Rabs_mult, K0, Rabs_mult. f_equal. f_equal. apply Rabs_pos_eq. apply Rmult_le_pos; lra. }
    rewrite J1, J2.
    assert (I2 : Rabs (1000 - d') <= 2.4e-12) by (apply Rabs_le; lra).
    assert (T1 : Rabs (n' - - Sun_P * c) * / d' <= (2.3e-16 * a0 + 1e-60) * 1.00001e-3) by (apply Rmult_le_compat; try lra; apply Rabs_pos).
    assert (T2 : Rabs (1000 - d') * (/ 1000 * / d') <= 2.4e-12 * (/ 1000 * 1.00001e-3)) by (apply Rmult_le_compat; [apply Rabs_pos|nra|lra|lra]).
    assert (T3 : a0 * (Rabs (1000 - d') * (/ 1000 * / d')) <= a0 * (2.4e-12 * (/ 1000 * 1.00001e-3))) by (apply Rmult_le_compat_l; [lra|exact T2]).
    lra. }
  set (k' := b64 (n' / d')). 
  assert (Q2 : Rabs (k' - k) <= 2.9e-15 * Rabs k + 1.1e-60).
  { assert (F := b64_fine (n' / d')). fold k' in F. assert (T := Rabs_triang_inv (n' / d') k). rewrite KA in *.
    replace (k' - k) with ((k' - n' / d') + (n' / d' - k)) by ring. eapply Rle_trans; [apply Rabs_triang|]. lra. }
  eexists. eexists. split; [reflexivity|]. split; [reflexivity|].
  rewrite v3_scaled_scale, norm_scale, U1, Rmult_1_r. fold k. split.
  2:{ rewrite KA. unfold a0, Sun_P. lra. }
  rewrite scaled_rnd. assert (V := vround (scale k' u')). rewrite norm_scale in V.
  assert (T := Rabs_triang_inv k' k). assert (P := Rabs_pos k). assert (P' := Rabs_pos k').
  assert (W : Rabs k' * norm u' <= 1.01 * Rabs k + 1.2e-60).
  { apply Rle_trans with (Rabs k' * (1 + 1e-15)); [apply Rmult_le_compat_l; lra|]. lra. }
  assert (D1 : verr ((2.9e-15 * Rabs k + 1.1e-60) * (1 + 1e-15)) (scale k' u') (scale k u')).
  { unfold verr. replace (sub (scale k' u') (scale k u')) with (scale (k' - k) u') by (unfold sub, scale; cbn [x3 y3 z3]; f_equal; ring).
    rewrite norm_scale. apply Rmult_le_compat; [apply Rabs_pos|lra|exact Q2|lra]. }
  assert (D2 : verr (Rabs k * 2.67e-11) (scale k u') (scale k u)).
  { unfold verr. replace (sub (scale k u') (scale k u)) with (scale k (sub u' u)) by (unfold sub, scale; cbn [x3 y3 z3]; f_equal; ring).
    rewrite norm_scale. apply Rmult_le_compat_l; [lra|exact UU]. }
  eapply verr_weaken; [eapply verr_trans; [exact V|eapply verr_trans; [exact D1|exact D2]]|]. clear - W P. lra.
Qed.

Lemma third_exact mu s p : 0 < norm s -> 0 < norm (sub s p) -> third_body mu s p = Ok (sub (attraction mu (sub s p)) (attraction mu s)).
Proof.
  intros S R. unfold third_body. rewrite v3_minus_sub. change (v3_magnitude s) with (norm s). change (v3_magnitude (sub s p)) with (norm (sub s p)). set (r := sub s p) in *.
  cbv zeta. set (n := norm s) in *. set (q := norm r) in *.
  assert (0 < q * q * q) by (repeat apply Rmult_lt_0_compat; auto). assert (0 < n * n * n) by (repeat apply Rmult_lt_0_compat; auto).
  rewrite (pdiv_ok 1 (q * q * q)) by lra. cbn [bind]. rewrite (pdiv_ok 1 (n * n * n)) by lra. cbn [bind]. f_equal. unfold attraction. fold n q.
  rewrite !v3_scaled_scale, v3_minus_sub. unfold scale, sub. cbn [x3 y3 z3]. unfold Rdiv. f_equal; ring.
Qed.
