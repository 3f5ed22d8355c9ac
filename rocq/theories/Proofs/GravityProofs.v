(** The loop of acceleration_from_gravity computes the gradient of the
    geopotential. *)
From Coq Require Import Reals Lra Lia Psatz.
From Coquelicot Require Import Coquelicot.
From Verif.Model Require Import Num Constants Linalg Functions Time Celestial Positions States.
From Verif.Spec Require Import Geometry Legendre Gravity.
From Verif.Proofs Require Import NumLemmas LinalgProofs MatrixProofs Analysis FunctionsProofs LegendreProofs CelestialProofs GeodeticProofs PositionsProofs.
Local Open Scope R_scope.

(** * Coefficients *)
Lemma sqrt_div_inv a b : 0 < a -> 0 < b -> a * b = 1 -> / sqrt a = sqrt b.
Proof.
  intros Ha Hb H. assert (0 < sqrt a) by (apply sqrt_lt_R0; auto).
  apply Rmult_eq_reg_r with (sqrt a); [|lra]. rewrite Rinv_l by lra.
  rewrite <- sqrt_mult by lra. rewrite Rmult_comm, H. symmetry; apply sqrt_1.
Qed.
Lemma fact_values : INR (fact 0) = 1 /\ INR (fact 1) = 1 /\ INR (fact 2) = 2 /\ INR (fact 3) = 6 /\
  INR (fact 4) = 24 /\ INR (fact 5) = 120 /\ INR (fact 6) = 720 /\ INR (fact 7) = 5040 /\ INR (fact 8) = 40320.
Proof.
  assert (F : forall n, INR (fact (S n)) = (INR n + 1) * INR (fact n)).
  { intros n. rewrite fact_simpl, mult_INR, S_INR. reflexivity. }
  repeat split; rewrite ?F; simpl; ring.
Qed.
Lemma coefficients n m : (2 <= n <= 4)%nat -> (m <= n)%nat ->
  index2 Earth_C n m = c_coefficient n m /\ index2 Earth_S n m = s_coefficient n m.
Proof.
  intros Hn Hm. unfold c_coefficient, s_coefficient, index2, normalisation.
  destruct fact_values as (F0 & F1 & F2 & F3 & F4 & F5 & F6 & F7 & F8).
  destruct n as [|[|[|[|[|n]]]]]; try lia; destruct m as [|[|[|[|[|m]]]]]; try lia;
  cbn [nth Earth_C Earth_S c_normalised s_normalised delta Nat.eqb Nat.sub Nat.add];
  rewrite ?F0, ?F1, ?F2, ?F3, ?F4, ?F5, ?F6, ?F7, ?F8;
  (split; [|try (rewrite Rmult_0_l; reflexivity)]).
  all: unfold Rdiv at 1; apply f_equal; apply sqrt_div_inv; simpl; lra.
Qed.

(** * Derivatives of the spherical coordinates along a line *)
Section Line.
Variables (x y z a b c : R).
Hypothesis off_axis : 0 < x * x + y * y.
Let X t := x + t * a.
Let Y t := y + t * b.
Let Z t := z + t * c.
Let rho := sqrt (x * x + y * y).
Let r := sqrt (x * x + y * y + z * z).
Let Rho t := sqrt (X t * X t + Y t * Y t).
Let Rr t := sqrt (X t * X t + Y t * Y t + Z t * Z t).
Let Lam t := atan2 (Y t) (X t).
Let Phi t := atan (Z t / Rho t).

Lemma rho_pos : 0 < rho. Proof. apply sqrt_lt_R0; auto. Qed.
Lemma r_pos : 0 < r. Proof. apply sqrt_lt_R0. assert (0 <= z * z) by apply Rle_0_sqr. lra. Qed.
Lemma rho_sq : rho * rho = x * x + y * y. Proof. apply sqrt_sqrt; lra. Qed.
Lemma r_sq : r * r = x * x + y * y + z * z. Proof. apply sqrt_sqrt. assert (0 <= z * z) by apply Rle_0_sqr. lra. Qed.
Lemma X0 : X 0 = x. Proof. unfold X; ring. Qed.
Lemma Y0 : Y 0 = y. Proof. unfold Y; ring. Qed.
Lemma Z0 : Z 0 = z. Proof. unfold Z; ring. Qed.
Lemma Rho0 : Rho 0 = rho. Proof. unfold Rho. rewrite X0, Y0. auto. Qed.
Lemma Rr0 : Rr 0 = r. Proof. unfold Rr. rewrite X0, Y0, Z0. auto. Qed.

Lemma near_off_axis : locally 0 (fun t => 0 < X t * X t + Y t * Y t).
Proof.
  assert (C : continuous (fun t => X t * X t + Y t * Y t) 0).
  { apply (@ex_derive_continuous R_AbsRing R_NormedModule). unfold X, Y. auto_derive; auto. }
  apply (C (fun v => 0 < v)). apply (open_gt 0). rewrite X0, Y0. auto.
Qed.
Lemma d_Rho : is_derive Rho 0 ((x * a + y * b) / rho).
Proof.
  assert (H := rho_pos). unfold Rho, X, Y. auto_derive.
  - replace ((x + 0 * a) * (x + 0 * a) + (y + 0 * b) * (y + 0 * b)) with (x * x + y * y) by ring. auto.
  - replace ((x + 0 * a) * (x + 0 * a) + (y + 0 * b) * (y + 0 * b)) with (x * x + y * y) by ring.
    fold rho. field. lra.
Qed.
Lemma d_Rr : is_derive Rr 0 ((x * a + y * b + z * c) / r).
Proof.
  assert (H := r_pos). assert (Z2 : 0 <= z * z) by apply Rle_0_sqr. unfold Rr, X, Y, Z. auto_derive;
  replace ((x + 0 * a) * (x + 0 * a) + (y + 0 * b) * (y + 0 * b) + (z + 0 * c) * (z + 0 * c)) with (x * x + y * y + z * z) by ring.
  - lra.
  - fold r. field. lra.
Qed.
Definition dphi := (c * rho - z * ((x * a + y * b) / rho)) / (r * r).
Lemma d_Phi : is_derive Phi 0 dphi.
Proof.
  assert (H := rho_pos). assert (H' := r_pos).
  assert (E : is_derive (fun t => Z t / Rho t) 0 ((c * rho - z * ((x * a + y * b) / rho)) / (rho * rho))).
  { replace ((c * rho - z * ((x * a + y * b) / rho)) / (rho * rho)) with
      ((c * Rho 0 - Z 0 * ((x * a + y * b) / rho)) / (Rho 0) ^ 2) by (rewrite Rho0, Z0; field; lra).
    apply (is_derive_div Z Rho).
    - unfold Z. auto_derive; auto. ring.
    - apply d_Rho.
    - rewrite Rho0. lra. }
  unfold Phi.
  replace dphi with (scal ((c * rho - z * ((x * a + y * b) / rho)) / (rho * rho)) (/ (1 + (Z 0 / Rho 0) ^ 2))).
  apply (is_derive_comp atan); [|exact E].
  - apply is_derive_Reals. apply derivable_pt_lim_atan.
  - unfold scal; cbn; unfold mult; cbn. rewrite Rho0, Z0. unfold dphi.
    replace (r * r) with (rho * rho + z * z) by (rewrite rho_sq, r_sq; ring). field.
    assert (0 <= z * z) by apply Rle_0_sqr. assert (0 < rho * rho) by (apply Rmult_lt_0_compat; lra). repeat split; lra.
Qed.
Lemma dphi_0 : Phi 0 = atan (z / rho). Proof. unfold Phi. rewrite Rho0, Z0. auto. Qed.
Lemma lam0 : Lam 0 = atan2 y x. Proof. unfold Lam. rewrite X0, Y0. auto. Qed.
Definition dlam := (x * b - y * a) / (rho * rho).
Lemma d_cos1 : is_derive (fun t => cos (Lam t)) 0 (- sin (atan2 y x) * dlam) /\
               is_derive (fun t => sin (Lam t)) 0 (cos (atan2 y x) * dlam).
Proof.
  assert (H := rho_pos). assert (Hs := rho_sq).
  destruct (atan2_polar y x) as [Px Py]. fold rho in Px, Py.
  assert (Ec : cos (atan2 y x) = x / rho).
  { apply Rmult_eq_reg_l with rho; [|lra]. rewrite <- Px. field. lra. }
  assert (Es : sin (atan2 y x) = y / rho).
  { apply Rmult_eq_reg_l with rho; [|lra]. rewrite <- Py. field. lra. }
  assert (L : locally 0 (fun t => X t / Rho t = cos (Lam t) /\ Y t / Rho t = sin (Lam t))).
  { generalize near_off_axis; apply filter_imp. intros t Ht.
    assert (P : 0 < Rho t) by (apply sqrt_lt_R0; auto).
    destruct (atan2_polar (Y t) (X t)) as [Qx Qy]. fold (Rho t) (Lam t) in Qx, Qy. split.
    - rewrite Qx at 1. field. lra.
    - rewrite Qy at 1. field. lra. }
  split.
  - apply is_derive_ext_loc with (f := fun t => X t / Rho t). { generalize L; apply filter_imp. intuition. }
    replace (- sin (atan2 y x) * dlam) with ((a * Rho 0 - X 0 * ((x * a + y * b) / rho)) / (Rho 0) ^ 2).
    + apply (is_derive_div X Rho); [unfold X; auto_derive; auto; ring|apply d_Rho|rewrite Rho0; lra].
    + rewrite Rho0, X0, Es. unfold dlam.
      transitivity ((a * (rho * rho) - (x * a + y * b) * x) / (rho * rho * rho)); [field; lra|].
      transitivity ((- y * (x * b - y * a)) / (rho * rho * rho)); [|field; lra]. f_equal. rewrite Hs. ring.
  - apply is_derive_ext_loc with (f := fun t => Y t / Rho t). { generalize L; apply filter_imp. intuition. }
    replace (cos (atan2 y x) * dlam) with ((b * Rho 0 - Y 0 * ((x * a + y * b) / rho)) / (Rho 0) ^ 2).
    + apply (is_derive_div Y Rho); [unfold Y; auto_derive; auto; ring|apply d_Rho|rewrite Rho0; lra].
    + rewrite Rho0, Y0, Ec. unfold dlam.
      transitivity ((b * (rho * rho) - (x * a + y * b) * y) / (rho * rho * rho)); [field; lra|].
      transitivity ((x * (x * b - y * a)) / (rho * rho * rho)); [|field; lra]. f_equal. rewrite Hs. ring.
Qed.
Lemma d_cosm m : is_derive (fun t => cos (INR m * Lam t)) 0 (- sin (INR m * atan2 y x) * (INR m * dlam)) /\
                 is_derive (fun t => sin (INR m * Lam t)) 0 (cos (INR m * atan2 y x) * (INR m * dlam)).
Proof.
  induction m as [|m [IC IS]].
  - simpl INR. rewrite !Rmult_0_l, !Rmult_0_r. split.
    + apply is_derive_ext with (f := fun _ => cos 0). { intros t. f_equal. ring. } apply (is_derive_const (cos 0)).
    + apply is_derive_ext with (f := fun _ => sin 0). { intros t. f_equal. ring. } apply (is_derive_const (sin 0)).
  - destruct d_cos1 as [C1 S1]. assert (L0 := lam0).
    rewrite S_INR. split.
    + apply is_derive_ext with (f := fun t => cos (INR m * Lam t) * cos (Lam t) - sin (INR m * Lam t) * sin (Lam t)).
      { intros t. rewrite <- cos_plus. f_equal. ring. }
      replace ((INR m + 1) * atan2 y x) with (INR m * atan2 y x + atan2 y x) by ring. rewrite sin_plus.
      set (cm := fun t => cos (INR m * Lam t)) in *. set (sm := fun t => sin (INR m * Lam t)) in *.
      replace (- (sin (INR m * atan2 y x) * cos (atan2 y x) + cos (INR m * atan2 y x) * sin (atan2 y x)) * ((INR m + 1) * dlam))
        with ((- sin (INR m * atan2 y x) * (INR m * dlam)) * cos (Lam 0) + cm 0 * (- sin (atan2 y x) * dlam)
              - ((cos (INR m * atan2 y x) * (INR m * dlam)) * sin (Lam 0) + sm 0 * (cos (atan2 y x) * dlam)))
        by (unfold cm, sm; rewrite L0; ring).
      apply (is_derive_minus (fun t => cm t * cos (Lam t)) (fun t => sm t * sin (Lam t))).
      * apply (is_derive_mult cm (fun t => cos (Lam t))); auto. intros; apply Rmult_comm.
      * apply (is_derive_mult sm (fun t => sin (Lam t))); auto. intros; apply Rmult_comm.
    + apply is_derive_ext with (f := fun t => sin (INR m * Lam t) * cos (Lam t) + cos (INR m * Lam t) * sin (Lam t)).
      { intros t. rewrite <- sin_plus. f_equal. ring. }
      replace ((INR m + 1) * atan2 y x) with (INR m * atan2 y x + atan2 y x) by ring. rewrite cos_plus.
      set (cm := fun t => cos (INR m * Lam t)) in *. set (sm := fun t => sin (INR m * Lam t)) in *.
      replace ((cos (INR m * atan2 y x) * cos (atan2 y x) - sin (INR m * atan2 y x) * sin (atan2 y x)) * ((INR m + 1) * dlam))
        with ((cos (INR m * atan2 y x) * (INR m * dlam)) * cos (Lam 0) + sm 0 * (- sin (atan2 y x) * dlam)
              + ((- sin (INR m * atan2 y x) * (INR m * dlam)) * sin (Lam 0) + cm 0 * (cos (atan2 y x) * dlam)))
        by (unfold cm, sm; rewrite L0; ring).
      apply (is_derive_plus (fun t => sm t * cos (Lam t)) (fun t => cm t * sin (Lam t))).
      * apply (is_derive_mult sm (fun t => cos (Lam t))); auto. intros; apply Rmult_comm.
      * apply (is_derive_mult cm (fun t => sin (Lam t))); auto. intros; apply Rmult_comm.
Qed.
Lemma cos_Phi0 : 0 < cos (atan (z / rho)).
Proof. apply cos_gt_0; generalize (atan_bound (z / rho)); lra. Qed.
Lemma d_table n m : (n <= 4)%nat -> (m <= n)%nat ->
  is_derive (fun t => table (Phi t) n m) 0
    (dphi * (table (atan (z / rho)) n (m + 1) - INR m * tan (atan (z / rho)) * table (atan (z / rho)) n m)).
Proof.
  intros Hn Hm. apply (is_derive_comp (fun p => table p n m) Phi); [|apply d_Phi].
  rewrite dphi_0. apply is_derive_Reals. rewrite Nat.add_1_r. apply legendre_derivative; auto.
  generalize cos_Phi0; lra.
Qed.
(** the surface harmonic of degree n and its two partial derivatives *)
Definition surf n phi lam := sum (n + 1) (fun m => table phi n m *
  (c_coefficient n m * cos (INR m * lam) + s_coefficient n m * sin (INR m * lam))).
Definition surf_phi n phi lam := sum (n + 1) (fun m => (table phi n (m + 1) - INR m * tan phi * table phi n m) *
  (c_coefficient n m * cos (INR m * lam) + s_coefficient n m * sin (INR m * lam))).
Definition surf_lam n phi lam := sum (n + 1) (fun m => INR m * table phi n m *
  (s_coefficient n m * cos (INR m * lam) - c_coefficient n m * sin (INR m * lam))).
Lemma d_sum k (f : nat -> R -> R) (d : nat -> R) t : (forall i, (i < k)%nat -> is_derive (f i) t (d i)) ->
  is_derive (fun s => sum k (fun i => f i s)) t (sum k d).
Proof.
  induction k; intros H; simpl.
  - apply (is_derive_const (0 : R)).
  - apply (is_derive_plus (fun s => sum k (fun i => f i s)) (f k)); auto.
Qed.
Lemma d_surf n : (n <= 4)%nat -> is_derive (fun t => surf n (Phi t) (Lam t)) 0
  (surf_phi n (atan (z / rho)) (atan2 y x) * dphi + surf_lam n (atan (z / rho)) (atan2 y x) * dlam).
Proof.
  intros Hn. unfold surf, surf_phi, surf_lam. set (phi := atan (z / rho)). set (lam := atan2 y x).
  rewrite !sum_scal_r, sum_plus.
  apply (d_sum (n + 1) (fun m t => table (Phi t) n m * (c_coefficient n m * cos (INR m * Lam t) + s_coefficient n m * sin (INR m * Lam t)))).
  intros m Hm. destruct (d_cosm m) as [C S].
  replace ((table phi n (m + 1) - INR m * tan phi * table phi n m) *
    (c_coefficient n m * cos (INR m * lam) + s_coefficient n m * sin (INR m * lam)) * dphi +
    INR m * table phi n m * (s_coefficient n m * cos (INR m * lam) - c_coefficient n m * sin (INR m * lam)) * dlam)
  with ((dphi * (table phi n (m + 1) - INR m * tan phi * table phi n m)) *
        (c_coefficient n m * cos (INR m * Lam 0) + s_coefficient n m * sin (INR m * Lam 0)) +
        table (Phi 0) n m * (c_coefficient n m * (- sin (INR m * lam) * (INR m * dlam)) + s_coefficient n m * (cos (INR m * lam) * (INR m * dlam))))
  by (rewrite lam0, dphi_0; fold phi lam; ring).
  apply (is_derive_mult (fun t => table (Phi t) n m) (fun t => c_coefficient n m * cos (INR m * Lam t) + s_coefficient n m * sin (INR m * Lam t))).
  - apply d_table; lia.
  - apply (is_derive_plus (fun t => c_coefficient n m * cos (INR m * Lam t)) (fun t => s_coefficient n m * sin (INR m * Lam t))).
    + apply is_derive_Reals. apply derivable_pt_lim_scal. apply is_derive_Reals. exact C.
    + apply is_derive_Reals. apply derivable_pt_lim_scal. apply is_derive_Reals. exact S.
  - intros; apply Rmult_comm.
Qed.
Definition radial n (r : R) := mu_earth / r * (radius_earth / r) ^ n.
Lemma d_radial n : is_derive (fun t => radial n (Rr t)) 0 (- (INR n + 1) / r * radial n r * ((x * a + y * b + z * c) / r)).
Proof.
  assert (H := r_pos).
  replace (- (INR n + 1) / r * radial n r * ((x * a + y * b + z * c) / r)) with
    (scal ((x * a + y * b + z * c) / r) (- (INR n + 1) / r * radial n r)).
  2:{ unfold scal; cbn; unfold mult; cbn. ring. }
  apply (is_derive_comp (radial n) Rr); [|apply d_Rr]. rewrite Rr0. unfold radial.
  auto_derive; [repeat split; lra|].
  destruct n.
  - simpl. field. lra.
  - rewrite S_INR. simpl pred. simpl pow. unfold Rdiv. set (w := (radius_earth * / r) ^ n). clearbody w. field. lra.
Qed.
(** the two orthogonal parts of the gradient *)
Definition meridional n : vec3 :=
  let Yv := surf n (atan (z / rho)) (atan2 y x) in
  let Yp := surf_phi n (atan (z / rho)) (atan2 y x) in
  add (scale (- (INR n + 1) / r * radial n r * Yv / r) (V3 x y z))
      (scale (radial n r * Yp / (r * r)) (V3 (- (z * x) / rho) (- (z * y) / rho) rho)).
Definition zonal n : vec3 :=
  scale (radial n r * surf_lam n (atan (z / rho)) (atan2 y x) / (rho * rho)) (V3 (- y) x 0).
Lemma d_potential n : (n <= 4)%nat ->
  is_derive (fun t => potential n (add (V3 x y z) (scale t (V3 a b c)))) 0 (dot (add (meridional n) (zonal n)) (V3 a b c)).
Proof.
  intros Hn. assert (H := rho_pos). assert (H' := r_pos).
  apply is_derive_ext_loc with (f := fun t => radial n (Rr t) * surf n (Phi t) (Lam t)).
  - generalize near_off_axis; apply filter_imp. intros t Ht.
    unfold potential. assert (Nr : norm (add (V3 x y z) (scale t (V3 a b c))) = Rr t).
    { unfold norm, dot, add, scale, Rr, X, Y, Z. cbn [x3 y3 z3]. reflexivity. }
    rewrite Nr. unfold radial. apply f_equal. unfold surf. apply sum_ext. intros m Hm.
    assert (P : 0 < Rho t) by (apply sqrt_lt_R0; auto).
    assert (Pp : Rho t * Rho t = X t * X t + Y t * Y t) by (apply sqrt_sqrt; lra).
    assert (Q : 0 < Rr t) by (apply sqrt_lt_R0; assert (0 <= Z t * Z t) by apply Rle_0_sqr; lra).
    assert (Qq : Rr t * Rr t = X t * X t + Y t * Y t + Z t * Z t) by (apply sqrt_sqrt; assert (0 <= Z t * Z t) by apply Rle_0_sqr; lra).
    unfold table. rewrite legendre_table; [| |lia|lia].
    + apply f_equal2; [|reflexivity]. apply f_equal. cbn [z3 add scale]. change (z + t * c) with (Z t).
      unfold Phi. rewrite sin_atan'. 
      replace (sqrt (1 + Z t / Rho t * (Z t / Rho t))) with (Rr t / Rho t). field; lra.
      symmetry. apply sqrt_eq. apply Rdiv_nonneg; lra.
      replace (Rr t / Rho t * (Rr t / Rho t)) with (Rr t * Rr t / (Rho t * Rho t)) by (field; lra).
      rewrite Qq. replace (X t * X t + Y t * Y t) with (Rho t * Rho t) by auto. field. lra.
    + unfold Phi. generalize (atan_bound (Z t / Rho t)); lra.
  - replace (dot (add (meridional n) (zonal n)) (V3 a b c)) with
     ((- (INR n + 1) / r * radial n r * ((x * a + y * b + z * c) / r)) * surf n (Phi 0) (Lam 0)
      + radial n (Rr 0) * (surf_phi n (atan (z / rho)) (atan2 y x) * dphi + surf_lam n (atan (z / rho)) (atan2 y x) * dlam)).
    + apply (is_derive_mult (fun t => radial n (Rr t)) (fun t => surf n (Phi t) (Lam t))).
      * apply d_radial.
      * apply d_surf; auto.
      * intros; apply Rmult_comm.
    + rewrite dphi_0, lam0, Rr0. unfold meridional, zonal, dphi, dlam.
      set (k := radial n r). set (s1 := surf n _ _). set (s2 := surf_phi n _ _). set (s3 := surf_lam n _ _).
      clearbody k s1 s2 s3. unfold dot, add, scale; cbn [x3 y3 z3]. field. lra.
Qed.
Lemma parts_orthogonal n : dot (meridional n) (zonal n) = 0.
Proof.
  assert (H := rho_pos). assert (H' := r_pos).
  unfold meridional, zonal. set (k := radial n r). set (s1 := surf n _ _). set (s2 := surf_phi n _ _). set (s3 := surf_lam n _ _).
  clearbody k s1 s2 s3. unfold dot, add, scale; cbn [x3 y3 z3]. field. lra.
Qed.
End Line.

(** * The nested loops *)
Lemma trig_wrap m t : cos (INR m * wrap t) = cos (INR m * t) /\ sin (INR m * wrap t) = sin (INR m * t).
Proof.
  unfold wrap. destruct (nlt_spec t 0); auto.
  replace (INR m * (t + 2 * PI)) with (INR m * t + 2 * INR m * PI) by ring. split; [apply cos_period|apply sin_period].
Qed.
Lemma inner_loop r0 phi lam e n acc : (2 <= n <= 4)%nat ->
  fold_left (gravity_term (Spherical r0 (wrap lam) phi) (LegendrePolynomial phi) e n) (seq 0 (n + 1)) acc =
  Partials (partial_r acc + e * (INR n + 1) * surf n phi lam)
           (partial_phi acc + e * surf_phi n phi lam)
           (partial_lamb acc + e * surf_lam n phi lam).
Proof.
  intros Hn. unfold surf, surf_phi, surf_lam.
  assert (H : forall k, (k <= n + 1)%nat ->
    fold_left (gravity_term (Spherical r0 (wrap lam) phi) (LegendrePolynomial phi) e n) (seq 0 k) acc =
    Partials (partial_r acc + e * (INR n + 1) * sum k (fun m => table phi n m *
      (c_coefficient n m * cos (INR m * lam) + s_coefficient n m * sin (INR m * lam))))
      (partial_phi acc + e * sum k (fun m => (table phi n (m + 1) - INR m * tan phi * table phi n m) *
      (c_coefficient n m * cos (INR m * lam) + s_coefficient n m * sin (INR m * lam))))
      (partial_lamb acc + e * sum k (fun m => INR m * table phi n m *
      (s_coefficient n m * cos (INR m * lam) - c_coefficient n m * sin (INR m * lam))))).
  { induction k as [|k IH]; intros Hk.
    - cbn [seq fold_left sum]. destruct acc; cbn. f_equal; ring.
    - rewrite seq_S, fold_left_app, IH by lia. cbn [fold_left Nat.add]. unfold gravity_term. cbn [right_ascension declination partial_r partial_phi partial_lamb].
      destruct (coefficients n k) as [Ec Es]; [lia|lia|]. rewrite Ec, Es. unfold of_nat.
      destruct (trig_wrap k lam) as [-> ->].
      change (index2 (LegendrePolynomial phi) n (k + 1)) with (table phi n (k + 1)).
      change (index2 (LegendrePolynomial phi) n k) with (table phi n k).
      cbn [sum]. f_equal; ring. }
  apply H. lia.
Qed.
Lemma loops r0 phi lam q :
  gravity_sums (Spherical r0 (wrap lam) phi) (LegendrePolynomial phi) q =
  Partials (0 + q ^ 2 * (INR 2 + 1) * surf 2 phi lam + q ^ 3 * (INR 3 + 1) * surf 3 phi lam + q ^ 4 * (INR 4 + 1) * surf 4 phi lam)
           (0 + q ^ 2 * surf_phi 2 phi lam + q ^ 3 * surf_phi 3 phi lam + q ^ 4 * surf_phi 4 phi lam)
           (0 + q ^ 2 * surf_lam 2 phi lam + q ^ 3 * surf_lam 3 phi lam + q ^ 4 * surf_lam 4 phi lam).
Proof.
  unfold gravity_sums. change (seq 2 (Earth_DEGREE_AND_ORDER - 2)) with [2%nat; 3%nat; 4%nat].
  cbn [fold_left]. cbv zeta. rewrite !inner_loop by lia. reflexivity.
Qed.

(** the acceleration of degree [n] when the radius handed in is [r / k] *)
Definition degree_part x y z k n : vec3 :=
  add (scale (k ^ (n + 3)) (meridional x y z n)) (scale (k ^ (n + 1)) (zonal x y z n)).
Lemma gravity_ecef_ok x y z r' : 0 < x * x + y * y -> r' <> 0 ->
  let k := norm (V3 x y z) / r' in
  gravity_ecef (V3 x y z) r' = Ok (add (add (degree_part x y z k 2) (degree_part x y z k 3)) (degree_part x y z k 4)).
Proof.
  intros H Hr. cbv zeta. unfold gravity_ecef. rewrite sph_from_cart. cbn [x3 y3 z3].
  assert (P := rho_pos x y H). assert (Q := r_pos x y z H).
  assert (Nr : norm (V3 x y z) = sqrt (x * x + y * y + z * z)) by reflexivity.
  set (rho := sqrt (x * x + y * y)) in *. cbn [declination].
  replace (atan2 z rho) with (atan (z / rho)) by (unfold atan2; rewrite nlt_true; auto).
  cbv zeta. rewrite pdiv_ok by auto. cbn [bind]. rewrite pdiv_ok by lra. cbn [bind].
  rewrite loops. cbn [partial_r partial_phi partial_lamb].
  rewrite pdiv_ok by (apply Rgt_not_eq, Rdiv_pos; lra). cbn [bind]. apply f_equal.
  unfold degree_part, meridional, zonal, radial. fold rho. rewrite <- Nr.
  rewrite <- Nr in Q. set (r := norm (V3 x y z)) in *. clear Nr.
  set (phi := atan (z / rho)). set (lam := atan2 y x).
  set (f2 := surf 2 phi lam). set (f3 := surf 3 phi lam). set (f4 := surf 4 phi lam).
  set (g2 := surf_phi 2 phi lam). set (g3 := surf_phi 3 phi lam). set (g4 := surf_phi 4 phi lam).
  set (h2 := surf_lam 2 phi lam). set (h3 := surf_lam 3 phi lam). set (h4 := surf_lam 4 phi lam).
  change mu_earth with Earth_MU. change radius_earth with Earth_RADIUS.
  clearbody f2 f3 f4 g2 g3 g4 h2 h3 h4 r rho. generalize Earth_MU Earth_RADIUS; intros mu Re.
  unfold add, scale; cbn [x3 y3 z3]. 
  replace (INR 2) with 2 by (simpl; ring). replace (INR 3) with 3 by (simpl; ring). replace (INR 4) with 4 by (simpl; ring).
  replace (1 / (1 / rho)) with rho by (field; lra). cbn [Nat.add]; f_equal; field; repeat split; auto; lra.
Qed.
Lemma gravity_axis z r' : gravity_ecef (V3 0 0 z) r' = Err ZeroDivisionError.
Proof.
  unfold gravity_ecef. cbn [x3 y3 z3]. cbv zeta. replace (0 * 0 + 0 * 0) with 0 by ring. rewrite sqrt_0.
  unfold pdiv at 1. destruct (neq r' 0); [reflexivity|]. cbn [bind]. rewrite pdiv_zero. reflexivity.
Qed.
Lemma degree_part_1 x y z n : degree_part x y z 1 n = add (meridional x y z n) (zonal x y z n).
Proof. unfold degree_part. rewrite !pow1. veq; ring. Qed.
Definition grad x y z n : vec3 := add (meridional x y z n) (zonal x y z n).
Lemma grad_gradient x y z n : 0 < x * x + y * y -> (n <= 4)%nat -> gradient_at (potential n) (V3 x y z) (grad x y z n).
Proof.
  intros H Hn [a b c]. apply is_derive_Reals. apply d_potential; auto.
Qed.
Lemma split_norm al be dl M L : dot M L = 0 -> 0 <= al <= dl -> 0 <= be <= dl ->
  norm (add (scale al M) (scale be L)) <= dl * norm (add M L).
Proof.
  intros O A B. unfold norm. rewrite <- (sqrt_square dl) by lra. rewrite <- sqrt_mult by (try apply Rle_0_sqr; apply dot_self_nonneg).
  apply sqrt_le_1_alt.
  replace (dot (add (scale al M) (scale be L)) (add (scale al M) (scale be L))) with
    (al * al * dot M M + be * be * dot L L + 2 * al * be * dot M L) by (unfold dot, add, scale; cbn [x3 y3 z3]; ring).
  replace (dot (add M L) (add M L)) with (dot M M + dot L L + 2 * dot M L) by (unfold dot, add; cbn [x3 y3 z3]; ring).
  rewrite O. generalize (dot_self_nonneg M) (dot_self_nonneg L); intros.
  assert (al * al <= dl * dl) by nra. assert (be * be <= dl * dl) by nra.
  assert (al * al * dot M M <= dl * dl * dot M M) by (apply Rmult_le_compat_r; auto).
  assert (be * be * dot L L <= dl * dl * dot L L) by (apply Rmult_le_compat_r; auto). lra.
Qed.
Lemma pow_close k j : 1 <= k <= 1 + 5.5e-9 -> (j <= 7)%nat -> 0 <= k ^ j - 1 <= 4e-8.
Proof.
  intros Hk Hj. assert (H : 1 <= k ^ j <= 1 + 5.6e-9 * INR j).
  { induction j; [simpl; lra|]. specialize (IHj ltac:(lia)). rewrite S_INR. simpl pow.
    assert (INR j <= 7) by (replace 7 with (INR 7) by (simpl; ring); apply le_INR; lia).
    assert (0 <= INR j) by apply pos_INR.
    split; [nra|].
    assert (k * k ^ j <= (1 + 5.5e-9) * (1 + 5.6e-9 * INR j)) by (apply Rmult_le_compat; lra).
    nra. }
  assert (INR j <= 7) by (replace 7 with (INR 7) by (simpl; ring); apply le_INR; lia). nra.
Qed.
Lemma degree_part_close x y z k n : 0 < x * x + y * y -> 1 <= k <= 1 + 5.5e-9 -> (n <= 4)%nat ->
  norm (sub (degree_part x y z k n) (grad x y z n)) <= 4e-8 * norm (grad x y z n).
Proof.
  intros H Hk Hn.
  replace (sub (degree_part x y z k n) (grad x y z n)) with
    (add (scale (k ^ (n + 3) - 1) (meridional x y z n)) (scale (k ^ (n + 1) - 1) (zonal x y z n))).
  - apply split_norm; [apply parts_orthogonal; auto| |]; apply pow_close; auto; lia.
  - unfold degree_part, grad. set (M := meridional x y z n). set (L := zonal x y z n). clearbody M L. veq; ring.
Qed.
(** * Statements *)
Lemma gravity_is_gradient p : x3 p <> 0 \/ y3 p <> 0 -> exists g2 g3 g4,
  gravity_ecef p (norm p) = Ok (add (add g2 g3) g4) /\
  gradient_at (potential 2) p g2 /\ gradient_at (potential 3) p g3 /\ gradient_at (potential 4) p g4.
Proof.
  destruct p as [x y z]. cbn [x3 y3]. intros H.
  assert (O : 0 < x * x + y * y) by (destruct H; nra).
  assert (Q : 0 < norm (V3 x y z)) by (apply norm_pos; intros E; inversion E; lra).
  exists (grad x y z 2), (grad x y z 3), (grad x y z 4). split.
  - rewrite gravity_ecef_ok by (auto; lra). cbv zeta. replace (norm (V3 x y z) / norm (V3 x y z)) with 1 by (field; lra).
    rewrite !degree_part_1. reflexivity.
  - repeat split; apply grad_gradient; auto; lia.
Qed.
Lemma gravity_gcrf s : exists p, gcrf_to_itrf (g_position s) (g_epoch s) = Ok p /\
  (x3 p = 0 /\ y3 p = 0 -> acceleration_from_gravity s = Err ZeroDivisionError) /\
  (x3 p <> 0 \/ y3 p <> 0 -> exists a g2 g3 g4,
     acceleration_from_gravity s = itrf_to_gcrf a (g_epoch s) /\
     gradient_at (potential 2) p g2 /\ gradient_at (potential 3) p g3 /\ gradient_at (potential 4) p g4 /\
     norm (sub a (add (add g2 g3) g4)) <= 4e-8 * (norm g2 + norm g3 + norm g4)).
Proof.
  destruct (gcrf_round_trip (g_position s) (g_epoch s)) as (q & p' & E & _ & _ & S1 & S2).
  exists q. split; auto. unfold acceleration_from_gravity. rewrite E. cbn [bind]. rewrite v3_magnitude_norm.
  split.
  - destruct q as [x y z]; cbn [x3 y3]. intros [-> ->]. rewrite gravity_axis. reflexivity.
  - destruct q as [x y z]; cbn [x3 y3]. intros H.
    assert (O : 0 < x * x + y * y) by (destruct H; nra).
    assert (Q : 0 < norm (V3 x y z)) by (apply norm_pos; intros N; inversion N; lra).
    assert (P : 0 < norm (g_position s)).
    { assert (0 <= norm (g_position s)) by apply norm_nonneg. destruct H0; auto. rewrite <- H0 in S2. lra. }
    rewrite gravity_ecef_ok by (auto; lra). cbv zeta. cbn [bind].
    set (k := norm (V3 x y z) / norm (g_position s)).
    assert (K : 1 <= k <= 1 + 5.5e-9).
    { unfold k. split; apply Rmult_le_reg_r with (norm (g_position s)); auto; unfold Rdiv; rewrite Rmult_assoc, Rinv_l by lra; lra. }
    eexists _, (grad x y z 2), (grad x y z 3), (grad x y z 4). split; [reflexivity|].
    split; [apply grad_gradient; auto; lia|]. split; [apply grad_gradient; auto; lia|]. split; [apply grad_gradient; auto; lia|].
    generalize (degree_part_close x y z k 2 O K ltac:(lia)) (degree_part_close x y z k 3 O K ltac:(lia)) (degree_part_close x y z k 4 O K ltac:(lia)).
    set (d2 := degree_part x y z k 2). set (d3 := degree_part x y z k 3). set (d4 := degree_part x y z k 4).
    set (g2 := grad x y z 2). set (g3 := grad x y z 3). set (g4 := grad x y z 4). intros B2 B3 B4. clearbody d2 d3 d4 g2 g3 g4.
    replace (sub (add (add d2 d3) d4) (add (add g2 g3) g4)) with (add (add (sub d2 g2) (sub d3 g3)) (sub d4 g4)) by (veq; ring).
    generalize (norm_triangle (add (sub d2 g2) (sub d3 g3)) (sub d4 g4)) (norm_triangle (sub d2 g2) (sub d3 g3)). lra.
Qed.
