(** Bounds on the accelerations: away from the polar axis and outside the Earth
    every force is defined and small. *)
From Coq Require Import Reals Lra Psatz Lia.
From Verif.Model Require Import Num Constants Linalg Functions Time Celestial Positions States.
From Verif.Spec Require Import Geometry Gravity Forces Propagation.
From Verif.Proofs Require Import NumLemmas LinalgProofs MatrixProofs Analysis FunctionsProofs LegendreProofs CelestialProofs GravityProofs StatesProofs.
Local Open Scope R_scope.

Lemma ab_mult a b A B : Rabs a <= A -> Rabs b <= B -> Rabs (a * b) <= A * B.
Proof. intros. rewrite Rabs_mult. apply Rmult_le_compat; auto using Rabs_pos. Qed.
Lemma ab_plus a b A B : Rabs a <= A -> Rabs b <= B -> Rabs (a + b) <= A + B.
Proof. intros. eapply Rle_trans; [apply Rabs_triang|]. lra. Qed.
Lemma ab_minus a b A B : Rabs a <= A -> Rabs b <= B -> Rabs (a - b) <= A + B.
Proof. intros. unfold Rminus. apply ab_plus; auto. rewrite Rabs_Ropp; auto. Qed.
Lemma ab_lit c : 0 <= c -> Rabs c <= c.
Proof. intros. rewrite Rabs_pos_eq; lra. Qed.
Ltac bnd := lazymatch goal with
  | |- Rabs (sin _) <= _ => apply sin_abs
  | |- Rabs (cos _) <= _ => apply cos_abs
  | |- Rabs (?a * ?b) <= _ => eapply ab_mult; bnd
  | |- Rabs (?a + ?b) <= _ => eapply ab_plus; bnd
  | |- Rabs (?a - ?b) <= _ => eapply ab_minus; bnd
  | |- Rabs _ <= _ => apply ab_lit; lra
  end.

Definition top (n : nat) : R := match n with 2%nat => 3 | 3%nat => 15 | _ => 105 end.
Definition coef (n : nat) : R := match n with 2%nat => 1.6e-3 | _ => 1.6e-5 end.
Lemma table_bound phi n m : (2 <= n <= 4)%nat -> (m <= n + 1)%nat -> Rabs (table phi n m) <= top n.
Proof.
  intros Hn Hm. unfold table, top.
  destruct n as [|[|[|[|[|n]]]]]; try lia; destruct m as [|[|[|[|[|[|m]]]]]]; try lia;
  cbn [nth LegendrePolynomial]; cbv zeta; (eapply Rle_trans; [bnd|lra]).
Qed.
Lemma norm_fact n m : (2 <= n <= 4)%nat -> (m <= n)%nat -> 0 <= normalisation n m <= (match n with 2%nat => 3.17 | 3%nat => 3.75 | _ => 4.25 end).
Proof.
  intros Hn Hm. split; [apply sqrt_pos|]. unfold normalisation.
  destruct fact_values as (F0 & F1 & F2 & F3 & F4 & F5 & F6 & F7 & F8).
  match goal with |- sqrt ?a <= ?b => rewrite <- (sqrt_square b) by (destruct n as [|[|[|[|[|?]]]]]; try lia; lra) end.
  apply sqrt_le_1_alt.
  destruct n as [|[|[|[|[|n]]]]]; try lia; destruct m as [|[|[|[|[|m]]]]]; try lia;
  cbn [delta Nat.eqb Nat.sub Nat.add]; rewrite ?F0, ?F1, ?F2, ?F3, ?F4, ?F5, ?F6, ?F7, ?F8; simpl; lra.
Qed.
Lemma coef_bound n m t : (2 <= n <= 4)%nat -> (m <= n)%nat ->
  Rabs (c_coefficient n m * cos t + s_coefficient n m * sin t) <= coef n /\
  Rabs (s_coefficient n m * cos t - c_coefficient n m * sin t) <= coef n.
Proof.
  intros Hn Hm.
  assert (C : Rabs (c_coefficient n m) + Rabs (s_coefficient n m) <= coef n).
  { unfold c_coefficient, s_coefficient. rewrite !Rabs_mult. assert (N := norm_fact n m Hn Hm).
    rewrite (Rabs_pos_eq (normalisation n m)) by lra. set (k := normalisation n m) in *. clearbody k. unfold coef.
    destruct n as [|[|[|[|[|n]]]]]; try lia; destruct m as [|[|[|[|[|m]]]]]; try lia; cbn [c_normalised s_normalised];
    unfold Rabs; repeat destruct Rcase_abs; lra. }
  split; eapply Rle_trans; try exact C; rewrite <- (Rmult_1_r (Rabs (c_coefficient n m))), <- (Rmult_1_r (Rabs (s_coefficient n m))).
  - apply ab_plus; apply ab_mult; auto using sin_abs, cos_abs; lra.
  - rewrite Rplus_comm. apply ab_minus; apply ab_mult; auto using sin_abs, cos_abs; lra.
Qed.
Lemma sum_bound k f B : (forall i, (i < k)%nat -> Rabs (f i) <= B) -> Rabs (sum k f) <= INR k * B.
Proof.
  induction k; intros H; cbn [sum].
  - rewrite Rabs_R0. simpl. lra.
  - rewrite S_INR. replace ((INR k + 1) * B) with (INR k * B + B) by ring. apply ab_plus; auto.
Qed.
Lemma top_pos n : 0 < top n. Proof. unfold top. destruct n as [|[|[|[|?]]]]; lra. Qed.
Lemma coef_pos n : 0 < coef n. Proof. unfold coef. destruct n as [|[|[|[|?]]]]; lra. Qed.

Lemma INR_le_n m n : (m <= n)%nat -> Rabs (INR m) <= INR n.
Proof. intros. rewrite Rabs_pos_eq by apply pos_INR. apply le_INR; auto. Qed.
Lemma surf_bounds n phi lam k : (2 <= n <= 4)%nat -> Rabs (tan phi) <= k ->
  Rabs (surf n phi lam) <= INR (n + 1) * (top n * coef n) /\
  Rabs (surf_phi n phi lam) <= INR (n + 1) * ((top n + INR n * k * top n) * coef n) /\
  Rabs (surf_lam n phi lam) <= INR (n + 1) * (INR n * top n * coef n).
Proof.
  intros Hn Hk. assert (P := top_pos n). assert (Q := coef_pos n).
  split; [|split]; apply sum_bound; intros m Hm; destruct (coef_bound n m (INR m * lam) Hn ltac:(lia)) as [C1 C2].
  - apply ab_mult; auto. apply table_bound; lia.
  - apply ab_mult; auto. apply ab_minus; [apply table_bound; lia|].
    apply ab_mult; [|apply table_bound; lia]. apply ab_mult; auto. apply INR_le_n; lia.
  - apply ab_mult; auto. apply ab_mult; [apply INR_le_n; lia|apply table_bound; lia].
Qed.

(** * Gravity *)
(** factor of mu/r^2 for one degree, when the distance from the axis is at least r/10 *)
Definition share (n : nat) : R :=
  INR (n + 1) * (INR (n + 1) * (top n * coef n)) + INR (n + 1) * ((top n + INR n * 10 * top n) * coef n)
  + 10 * (INR (n + 1) * (INR n * top n * coef n)).
Lemma parts_bound x y z n : (2 <= n <= 4)%nat -> let rho := sqrt (x * x + y * y) in let r := norm (V3 x y z) in
  0 < rho -> r <= 10 * rho -> radius_earth <= r ->
  norm (meridional x y z n) + norm (zonal x y z n) <= mu_earth / (r * r) * share n.
Proof.
  intros Hn rho r Hrho Hr HR. assert (R0 : 0 < radius_earth) by (unfold radius_earth; lra).
  assert (Er : r = sqrt (x * x + y * y + z * z)) by reflexivity.
  assert (RR : r * r = x * x + y * y + z * z).
  { unfold r. rewrite norm_sq. unfold dot; cbn. ring. }
  assert (PP : rho * rho = x * x + y * y) by (apply sqrt_sqrt; nra).
  assert (Hz : Rabs z <= r).
  { rewrite <- (Rabs_pos_eq r) by lra. apply Rsqr_le_abs_0. unfold Rsqr. nra. }
  assert (T : Rabs (tan (atan (z / rho))) <= 10).
  { rewrite atan_right_inv. unfold Rdiv. rewrite Rabs_mult, (Rabs_pos_eq (/ rho)) by (left; apply Rinv_0_lt_compat; auto).
    apply Rmult_le_reg_r with rho; auto. rewrite Rmult_assoc, Rinv_l by lra. lra. }
  destruct (surf_bounds n (atan (z / rho)) (atan2 y x) 10 Hn T) as (B1 & B2 & B3).
  assert (M := mu_earth). assert (Mp : 0 < mu_earth) by (unfold mu_earth; lra).
  assert (Rad : 0 <= radial n r <= mu_earth / r).
  { unfold radial. assert (0 < mu_earth / r) by (apply Rdiv_pos; lra).
    assert (0 <= (radius_earth / r) ^ n <= 1).
    { assert (0 <= radius_earth / r) by (apply Rdiv_nonneg; lra).
      assert (radius_earth / r <= 1) by (apply div_le; lra).
      split; [apply pow_le; auto|]. rewrite <- (pow1 n). apply pow_incr. lra. }
    split; nra. }
  unfold meridional, zonal. fold rho. rewrite <- Er.
  set (f := surf n _ _) in *. set (g := surf_phi n _ _) in *. set (l := surf_lam n _ _) in *. set (k := radial n r) in *.
  clearbody f g l k.
  assert (N1 : norm (V3 x y z) = r) by reflexivity.
  assert (N2 : norm (V3 (- (z * x) / rho) (- (z * y) / rho) rho) = r).
  { unfold norm at 1. apply sqrt_eq; [lra|]. unfold dot; cbn [x3 y3 z3].
    replace (- (z * x) / rho * (- (z * x) / rho) + - (z * y) / rho * (- (z * y) / rho) + rho * rho)
      with (z * z * (x * x + y * y) / (rho * rho) + rho * rho) by (field; lra).
    rewrite <- PP. rewrite RR, <- PP. field. lra. }
  assert (N3 : norm (V3 (- y) x 0) = rho).
  { unfold norm. apply sqrt_eq; [lra|]. rewrite PP. unfold dot; cbn [x3 y3 z3]. ring. }
  assert (Ir : 0 < / r) by (apply Rinv_0_lt_compat; lra). assert (Ip : 0 < / rho) by (apply Rinv_0_lt_compat; lra).
  assert (K1 : Rabs (- (INR n + 1) / r * k * f / r) * r <= mu_earth / (r * r) * (INR (n + 1) * (INR (n + 1) * (top n * coef n)))).
  { replace (- (INR n + 1) / r * k * f / r) with (- (((INR n + 1) * f) * k * / r * / r)) by (field; lra).
    rewrite Rabs_Ropp, !Rabs_mult, (Rabs_pos_eq (/ r)), (Rabs_pos_eq k) by lra.
    rewrite (Rabs_pos_eq (INR n + 1)) by (generalize (pos_INR n); lra).
    replace ((INR n + 1) * Rabs f * k * / r * / r * r) with ((INR n + 1) * Rabs f * (k * / r)) by (field; lra).
    replace (mu_earth / (r * r) * (INR (n + 1) * (INR (n + 1) * (top n * coef n)))) with
      ((INR n + 1) * (INR (n + 1) * (top n * coef n)) * (mu_earth / r * / r)) by (rewrite plus_INR; simpl; field; lra).
    assert (0 <= INR n) by apply pos_INR.
    apply Rmult_le_compat.
    - apply Rmult_le_pos; [lra|apply Rabs_pos].
    - apply Rmult_le_pos; lra.
    - apply Rmult_le_compat_l; lra.
    - apply Rmult_le_compat_r; lra. }
  assert (K2 : Rabs (k * g / (r * r)) * r <= mu_earth / (r * r) * (INR (n + 1) * ((top n + INR n * 10 * top n) * coef n))).
  { replace (k * g / (r * r)) with (k * g * / r * / r) by (field; lra).
    rewrite !Rabs_mult, (Rabs_pos_eq (/ r)), (Rabs_pos_eq k) by lra.
    replace (k * Rabs g * / r * / r * r) with (Rabs g * (k * / r)) by (field; lra).
    replace (mu_earth / (r * r) * (INR (n + 1) * ((top n + INR n * 10 * top n) * coef n))) with
      ((INR (n + 1) * ((top n + INR n * 10 * top n) * coef n)) * (mu_earth / r * / r)) by (field; lra).
    apply Rmult_le_compat; auto using Rabs_pos.
    - apply Rmult_le_pos; lra.
    - apply Rmult_le_compat_r; lra. }
  assert (K3 : Rabs (k * l / (rho * rho)) * rho <= mu_earth / (r * r) * (10 * (INR (n + 1) * (INR n * top n * coef n)))).
  { replace (k * l / (rho * rho)) with (k * l * / rho * / rho) by (field; lra).
    rewrite !Rabs_mult, (Rabs_pos_eq (/ rho)), (Rabs_pos_eq k) by lra.
    replace (k * Rabs l * / rho * / rho * rho) with (Rabs l * (k * / rho)) by (field; lra).
    replace (mu_earth / (r * r) * (10 * (INR (n + 1) * (INR n * top n * coef n)))) with
      ((INR (n + 1) * (INR n * top n * coef n)) * (mu_earth / r * (10 * / r))) by (field; lra).
    assert (/ rho <= 10 * / r).
    { replace (10 * / r) with (/ (r / 10)) by (field; lra). apply Rinv_le_contravar; lra. }
    apply Rmult_le_compat; auto using Rabs_pos.
    - apply Rmult_le_pos; lra.
    - apply Rmult_le_compat; lra. }
  assert (Tr := norm_triangle (scale (- (INR n + 1) / r * k * f / r) (V3 x y z)) (scale (k * g / (r * r)) (V3 (- (z * x) / rho) (- (z * y) / rho) rho))).
  rewrite !norm_scale, N1, N2 in Tr. rewrite norm_scale, N3. unfold share. lra.
Qed.
Lemma degree_bound x y z k n : (2 <= n <= 4)%nat -> let rho := sqrt (x * x + y * y) in let r := norm (V3 x y z) in
  0 < rho -> r <= 10 * rho -> radius_earth <= r -> 1 <= k <= 1 + 5.5e-9 ->
  norm (degree_part x y z k n) <= mu_earth / (r * r) * share n * (1 + 4e-8).
Proof.
  intros Hn rho r H1 H2 H3 Hk. unfold degree_part.
  assert (P := parts_bound x y z n Hn H1 H2 H3). fold r in P.
  eapply Rle_trans; [apply norm_triangle|]. rewrite !norm_scale.
  assert (A := pow_close k (n + 3) Hk ltac:(lia)). assert (B := pow_close k (n + 1) Hk ltac:(lia)).
  rewrite !Rabs_pos_eq by lra.
  assert (M := norm_nonneg (meridional x y z n)). assert (Z := norm_nonneg (zonal x y z n)).
  set (m := norm (meridional x y z n)) in *. set (l := norm (zonal x y z n)) in *.
  assert (k ^ (n + 3) * m <= (1 + 4e-8) * m) by (apply Rmult_le_compat_r; lra).
  assert (k ^ (n + 1) * l <= (1 + 4e-8) * l) by (apply Rmult_le_compat_r; lra).
  nra.
Qed.
Lemma gravity_bound s p : gcrf_to_itrf (g_position s) (g_epoch s) = Ok p ->
  let rho := sqrt (x3 p * x3 p + y3 p * y3 p) in
  0 < rho -> norm p <= 10 * rho -> 6500 <= norm (g_position s) ->
  exists a, acceleration_from_gravity s = Ok a /\ norm a <= 0.03.
Proof.
  destruct p as [x y z]. intros E rho H1 H2 H3. cbn [x3 y3] in rho.
  destruct (gcrf_round_trip (g_position s) (g_epoch s)) as (q & p' & E' & _ & _ & S1 & S2).
  rewrite E in E'. inversion E'. subst q. clear E'.
  unfold acceleration_from_gravity. rewrite E. cbn [bind]. rewrite v3_magnitude_norm.
  assert (O : 0 < x * x + y * y).
  { destruct (sum_sq_nonneg2 x y) as [|Z]; auto. unfold rho in H1. rewrite <- Z, sqrt_0 in H1. lra. }
  rewrite gravity_ecef_ok by (auto; lra). cbv zeta. cbn [bind].
  set (k := norm (V3 x y z) / norm (g_position s)).
  assert (K : 1 <= k <= 1 + 5.5e-9).
  { unfold k. split; apply Rmult_le_reg_r with (norm (g_position s)); try lra; unfold Rdiv; rewrite Rmult_assoc, Rinv_l by lra; lra. }
  rewrite itrf_to_gcrf_ok. eexists. split; [reflexivity|].
  rewrite rotation_norm by (apply transposed_rotation, precession_rotation).
  rewrite nutation_transposed.
  set (a := add (add _ _) _). 
  assert (Na : norm a <= 0.029).
  { assert (HR : radius_earth <= norm (V3 x y z)) by (unfold radius_earth; lra).
    assert (D2 := degree_bound x y z k 2 ltac:(lia) H1 H2 HR K).
    assert (D3 := degree_bound x y z k 3 ltac:(lia) H1 H2 HR K).
    assert (D4 := degree_bound x y z k 4 ltac:(lia) H1 H2 HR K).
    unfold a. eapply Rle_trans; [apply norm_triangle|]. 
    assert (T := norm_triangle (degree_part x y z k 2) (degree_part x y z k 3)).
    assert (Q : 0 < mu_earth / (norm (V3 x y z) * norm (V3 x y z)) <= 0.00944).
    { unfold mu_earth. split; [apply Rdiv_pos; nra|]. apply div_le; nra. }
    set (w := mu_earth / _) in *. clearbody w.
    unfold share, top, coef in D2, D3, D4. simpl INR in D2, D3, D4. simpl Nat.add in D2, D3, D4. simpl INR in *. nra. }
  rewrite <- (rotation_norm (transposed (rotz (- gast (g_epoch s)))) a) in Na by (apply transposed_rotation, rotz_rotation).
  set (b := apply3 _ a) in *. clearbody b.
  unfold sub. replace (V3 _ _ _) with (sub b (cross (nut_vector (g_epoch s)) b)) by reflexivity.
  assert (T := norm_triangle b (scale (-1) (cross (nut_vector (g_epoch s)) b))).
  replace (add b (scale (-1) (cross (nut_vector (g_epoch s)) b))) with (sub b (cross (nut_vector (g_epoch s)) b)) in T by (veq; ring).
  rewrite norm_opp in T. assert (C := cross_norm_le (nut_vector (g_epoch s)) b).
  assert (W : norm (nut_vector (g_epoch s)) <= 0.001).
  { assert (B := nut_vector_bound (g_epoch s)). unfold norm. rewrite <- (sqrt_square 0.001) by lra. apply sqrt_le_1_alt. lra. }
  assert (N := norm_nonneg b). assert (N' := norm_nonneg (nut_vector (g_epoch s))). nra.
Qed.

(** * Distance from the axis of the rotating Earth *)
Lemma sin_small x : Rabs (sin x) <= Rabs x.
Proof. generalize (sin_lip x 0). rewrite sin_0, !Rminus_0_r. auto. Qed.
Lemma precession_angle e : Rabs (value e - 51544.5) <= 36525 -> 
  exists sx cx sy cy, sx * sx + cx * cx = 1 /\ Rabs cy <= 1 /\ Rabs sy <= 0.01 /\
  m3_row3 (Earth_precession e) = V3 (sy * cx) (- sy * sx) cy.
Proof.
  intros H. unfold Earth_precession. cbv zeta. cbn [m3_row3]. do 4 eexists. split; [|split; [|split; [|reflexivity]]].
  - apply sin2_cos2'.
  - apply cos_abs.
  - eapply Rle_trans; [apply sin_small|].
    set (t := julian_centuries_past_j2000 e).
    assert (Ht : Rabs t <= 1).
    { unfold t, julian_centuries_past_j2000, julian_value, J2000_JULIAN_DATE, JULIAN_CENTURY, MJD_ZERO.
      replace ((value e + 2400000.5 - 2451545.0) / 36525) with ((value e - 51544.5) / 36525) by lra.
      unfold Rabs in *. repeat destruct Rcase_abs; lra. }
    clearbody t. unfold dms_to_radians, MINUTES_IN_HOUR, SECONDS_IN_HOUR. 
    assert (Hp := PI_bounds). unfold radians. 
    assert (Q : 0 < PI / 180 <= 0.0174534) by lra. 
    set (d := PI / 180) in *. clearbody d. clear Hp.
    assert (D : Rabs d <= 0.0174534) by (rewrite Rabs_pos_eq; lra).
    eapply Rle_trans.
    + eapply ab_minus; [eapply ab_minus|].
      * eapply ab_mult; [eapply ab_mult; [apply ab_lit; lra|exact D]|exact Ht].
      * eapply ab_mult; [eapply ab_mult; [eapply ab_mult; [apply ab_lit; lra|exact D]|exact Ht]|exact Ht].
      * eapply ab_mult; [eapply ab_mult; [eapply ab_mult; [eapply ab_mult; [apply ab_lit; lra|exact D]|exact Ht]|exact Ht]|exact Ht].
    + lra.
Qed.

Lemma abs_of_sq x b : 0 <= b -> x * x <= b * b -> Rabs x <= b.
Proof. intros H H'. rewrite <- (Rabs_pos_eq b) by lra. apply Rsqr_le_abs_0. exact H'. Qed.
Lemma Rabs_sq x : Rabs x * Rabs x = x * x.
Proof. rewrite <- Rabs_mult. apply Rabs_pos_eq. nra. Qed.
Lemma abs_z_norm v : Rabs (z3 v) <= norm v.
Proof. apply abs_of_sq; [apply norm_nonneg|]. rewrite norm_sq. unfold dot. nra. Qed.
Lemma flyable_axis e r : flyable e r -> exists p, gcrf_to_itrf r e = Ok p /\
  let rho := sqrt (x3 p * x3 p + y3 p * y3 p) in 0 < rho /\ norm p <= 10 * rho.
Proof.
  intros (He & Hr & Ha). rewrite gcrf_to_itrf_ok. eexists. split; [reflexivity|]. cbv zeta.
  destruct (precession_angle e He) as (sx & cx & sy & cy & U & Cy & Sy & Row).
  assert (PR := precession_rotation e).
  set (q := apply3 (Earth_precession e) r).
  assert (Nq : norm q = norm r) by (apply rotation_norm; auto).
  assert (Hn : 0 <= norm r) by apply norm_nonneg.
  assert (Zr : Rabs (z3 r) <= 0.98 * norm r).
  { apply abs_of_sq; [lra|]. assert (N := norm_sq r). unfold dot in N.
    assert (S : 0 <= x3 r * x3 r + y3 r * y3 r) by nra. assert (Q := sqrt_sqrt _ S). assert (P := sqrt_pos (x3 r * x3 r + y3 r * y3 r)).
    set (w := sqrt _) in *. clearbody w. set (n := norm r) in *. clearbody n.
    assert (n * n <= 25 * (w * w)) by nra. nra. }
  assert (Zq : Rabs (z3 q) <= 0.99 * norm r).
  { unfold q, apply3. cbn [z3]. rewrite Row. unfold dot. cbn [x3 y3 z3].
    replace (sy * cx * x3 r + - sy * sx * y3 r + cy * z3 r) with (sy * (cx * x3 r - sx * y3 r) + cy * z3 r) by ring.
    assert (K : Rabs (cx * x3 r - sx * y3 r) <= 0.99 * norm r + 0.01 * norm r).
    { apply abs_of_sq; [lra|]. replace (0.99 * norm r + 0.01 * norm r) with (norm r) by lra. rewrite norm_sq. unfold dot.
      assert (0 <= (sx * x3 r + cx * y3 r) * (sx * x3 r + cx * y3 r)) by apply Rle_0_sqr. assert (0 <= z3 r * z3 r) by apply Rle_0_sqr.
      assert ((cx * x3 r - sx * y3 r) * (cx * x3 r - sx * y3 r) + (sx * x3 r + cx * y3 r) * (sx * x3 r + cx * y3 r)
        = (sx * sx + cx * cx) * (x3 r * x3 r + y3 r * y3 r)) by ring. rewrite U in H1. lra. }
    eapply Rle_trans; [apply ab_plus; [apply ab_mult; [exact Sy|exact K]|apply ab_mult; [exact Cy|exact Zr]]|]. lra. }
  set (u := apply3 (Earth_nutation e) q).
  assert (Nu := nutation_stretch e q). fold u in Nu. rewrite Nq in Nu.
  assert (Zu : Rabs (z3 u) <= 0.99 * norm r + 0.0009 * norm r).
  { unfold u. rewrite nutation_apply. unfold add. cbn [z3].
    assert (C := cross_norm_le (nut_vector e) q). rewrite Nq in C.
    assert (W : norm (nut_vector e) <= 0.0009).
    { assert (B := nut_vector_bound e). unfold norm. rewrite <- (sqrt_square 0.0009) by lra. apply sqrt_le_1_alt. lra. }
    assert (Z := abs_z_norm (cross (nut_vector e) q)). assert (N' := norm_nonneg (nut_vector e)).
    eapply Rle_trans; [apply Rabs_triang|]. nra. }
  set (t := - gast e). clearbody t. 
  assert (N0 : norm (apply3 (rotz t) u) = norm u) by (apply rotation_norm, rotz_rotation).
  assert (Z0 : z3 (apply3 (rotz t) u) = z3 u).
  { unfold apply3, rotz, dot. cbn [x3 y3 z3 m3_row1 m3_row2 m3_row3]. ring. }
  set (p := apply3 (rotz t) u) in *. clearbody p. clearbody u q.
  assert (Np := norm_sq p). unfold dot in Np. rewrite N0, Z0 in Np.
  assert (Zs : z3 u * z3 u <= 0.9909 * norm r * (0.9909 * norm r)).
  { rewrite <- (Rabs_sq (z3 u)). apply Rmult_le_compat; auto using Rabs_pos; lra. }
  assert (S : 0 <= x3 p * x3 p + y3 p * y3 p) by nra. assert (Q := sqrt_sqrt _ S). assert (P := sqrt_pos (x3 p * x3 p + y3 p * y3 p)).
  set (w := sqrt (x3 p * x3 p + y3 p * y3 p)) in *. clearbody w. rewrite N0.
  assert (L : 0.018 * (norm r * norm r) <= w * w) by (rewrite Q; nra).
  assert (0.13 * norm r <= w).
  { destruct (Rle_dec (0.13 * norm r) w); auto. exfalso. assert (w < 0.13 * norm r) by lra. nra. }
  split; nra.
Qed.

(** * The whole derivative *)
Lemma far_attraction mu s p d : 0 <= mu -> 0 < d -> d + norm p <= norm s -> norm (attraction mu (sub s p)) <= mu / (d * d).
Proof.
  intros Hm Hd H. assert (T := norm_sub_ge s p). assert (0 < norm (sub s p)) by lra.
  assert (N : sub s p <> zero3). { intros E. rewrite E in H0. replace (norm zero3) with 0 in H0 by (symmetry; apply norm_zero; auto). lra. }
  rewrite attraction_norm by auto. apply Rmult_le_compat_l; auto. apply Rinv_le_contravar; nra.
Qed.
Lemma norm_sub_le a b : norm (sub a b) <= norm a + norm b.
Proof.
  replace (sub a b) with (add a (scale (-1) b)) by (veq; ring). eapply Rle_trans; [apply norm_triangle|]. rewrite norm_opp. lra.
Qed.
Lemma third_bound mu s p d : 0 <= mu -> 0 < d -> d + norm p <= norm s ->
  norm (sub (attraction mu (sub s p)) (attraction mu s)) <= 2 * (mu / (d * d)).
Proof.
  intros Hm Hd H. eapply Rle_trans; [apply norm_sub_le|]. assert (A := far_attraction mu s p d Hm Hd H).
  assert (B : norm (attraction mu (sub s zero3)) <= mu / (d * d)).
  { apply far_attraction; auto. replace (norm zero3) with 0 by (symmetry; apply norm_zero; auto). generalize (norm_nonneg p). lra. }
  replace (sub s zero3) with s in B by (veq; ring). lra.
Qed.
Lemma fly_derivative s : flyable (g_epoch s) (g_position s) -> Rabs (g_srp_scalar s) <= 1000 ->
  exists a, derivative s = Ok (g_velocity s, add (g_thrust s) a) /\ norm a <= 0.05.
Proof.
  intros F Hk. destruct (flyable_axis _ _ F) as (p & Ep & Hp & Hr). destruct F as (He & Hn & Ha).
  assert (Hz : g_position s <> zero3).
  { intros E. rewrite E in Hn. replace (norm zero3) with 0 in Hn by (symmetry; apply norm_zero; auto). lra. }
  assert (E0 : norm (attraction mu_earth (sub zero3 (g_position s))) <= 0.0095).
  { assert (E1 : norm (sub zero3 (g_position s)) = norm (g_position s)).
    { replace (sub zero3 (g_position s)) with (scale (-1) (g_position s)) by (veq; ring). apply norm_opp. }
    rewrite attraction_norm; [|intros E; rewrite E in E1; replace (norm zero3) with 0 in E1 by (symmetry; apply norm_zero; auto); lra|unfold mu_earth; lra].
    rewrite E1. unfold mu_earth. apply div_le; nra. }
  destruct (g_use_perturbations s) eqn:U.
  - destruct (derivative_perturbed s U) as (am & asn & ap & ag & A1 & A2 & A3 & A4 & D); [lra| |].
    { exists p. split; auto. destruct (Req_dec (x3 p) 0) as [X|X]; [|auto]. right. intros Y. rewrite X, Y in Hp.
      replace (0 * 0 + 0 * 0) with 0 in Hp by ring. rewrite sqrt_0 in Hp. lra. }
    exists (add (add (add (add (attraction mu_earth (sub zero3 (g_position s))) am) asn) ap) ag). split.
    { rewrite D. apply f_equal. f_equal. veq; ring. }
    assert (B1 : norm am <= 1e-5).
    { destruct (moon_ok s ltac:(lra)) as (m & Em & Am). rewrite A1 in Am. inversion Am.
      destruct (Moon_norm (g_epoch s)) as (m' & Em' & Bm). rewrite Em in Em'. inversion Em'; subst m'.
      eapply Rle_trans; [apply (third_bound _ _ _ 56000)|]; try (unfold Moon_MU; lra). }
    assert (B2 : norm asn <= 1e-4).
    { assert (As := sun_ok s ltac:(lra)). cbv zeta in As. rewrite A2 in As. inversion As.
      assert (Bs := Sun_norm (g_epoch s)).
      eapply Rle_trans; [apply (third_bound _ _ _ 140e6)|]; try (unfold Sun_MU; lra). }
    assert (B3 : norm ap <= 1e-5).
    { assert (Ap := srp_ok s ltac:(lra)). cbv zeta in Ap. rewrite A3 in Ap. inversion Ap.
      assert (Bs := Sun_norm (g_epoch s)). rewrite norm_scale.
      set (d := sub (Sun_get_position (g_epoch s)) (g_position s)).
      assert (Nd : 0 < norm d) by (unfold d; generalize (norm_sub_ge (Sun_get_position (g_epoch s)) (g_position s)); lra).
      change (Rabs (- (Sun_P * g_srp_scalar s / 1000) / norm d)) with (Rabs (- (Sun_P * g_srp_scalar s / 1000) * / norm d)).
      rewrite Rabs_mult, Rabs_Ropp. rewrite (Rabs_pos_eq (/ norm d)) by (left; apply Rinv_0_lt_compat; auto).
      rewrite Rmult_assoc, Rinv_l by lra. rewrite Rmult_1_r.
      replace (Sun_P * g_srp_scalar s / 1000) with (Sun_P / 1000 * g_srp_scalar s) by lra.
      eapply Rle_trans; [apply ab_mult; [apply ab_lit; unfold Sun_P; lra|exact Hk]|]. unfold Sun_P. lra. }
    assert (B4 : norm ag <= 0.03).
    { destruct (gravity_bound s p Ep Hp Hr ltac:(lra)) as (a & Ea & Na). rewrite A4 in Ea. inversion Ea; subst; auto. }
    eapply Rle_trans; [apply norm_triangle|]. 
    assert (T1 := norm_triangle (add (add (attraction mu_earth (sub zero3 (g_position s))) am) asn) ap).
    assert (T2 := norm_triangle (add (attraction mu_earth (sub zero3 (g_position s))) am) asn).
    assert (T3 := norm_triangle (attraction mu_earth (sub zero3 (g_position s))) am). lra.
  - rewrite derivative_two_body by auto. eexists. split; [reflexivity|]. lra.
Qed.
