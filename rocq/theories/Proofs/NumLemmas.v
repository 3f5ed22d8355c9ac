(** Lemmas about the primitives of [Model/Num.v]. *)
From Coq Require Import Reals Lra Psatz Bool.
From Verif.Model Require Import Num.
Local Open Scope R_scope.

(** ** Comparisons *)
Lemma nlt_spec x y : reflect (x < y) (nlt x y).
Proof. unfold nlt; destruct (Rlt_dec x y); constructor; auto. Qed.
Lemma nle_spec x y : reflect (x <= y) (nle x y).
Proof. unfold nle; destruct (Rle_dec x y); constructor; auto. Qed.
Lemma neq_spec x y : reflect (x = y) (neq x y).
Proof. unfold neq; destruct (Req_EM_T x y); constructor; auto. Qed.

Lemma nlt_true x y : x < y -> nlt x y = true.
Proof. intros; destruct (nlt_spec x y); auto; contradiction. Qed.
Lemma nlt_false x y : y <= x -> nlt x y = false.
Proof. intros; destruct (nlt_spec x y); auto; lra. Qed.
Lemma nle_true x y : x <= y -> nle x y = true.
Proof. intros; destruct (nle_spec x y); auto; contradiction. Qed.
Lemma nle_false x y : y < x -> nle x y = false.
Proof. intros; destruct (nle_spec x y); auto; lra. Qed.
Lemma neq_true x y : x = y -> neq x y = true.
Proof. intros; destruct (neq_spec x y); auto; contradiction. Qed.
Lemma neq_false x y : x <> y -> neq x y = false.
Proof. intros; destruct (neq_spec x y); auto; contradiction. Qed.

(** ** Partial operations *)
Lemma pdiv_ok x y : y <> 0 -> pdiv x y = Ok (x / y).
Proof. intros; unfold pdiv; rewrite neq_false; auto. Qed.
Lemma pdiv_zero x : pdiv x 0 = Err ZeroDivisionError.
Proof. unfold pdiv; rewrite neq_true; auto. Qed.
Lemma pdiv_inv x y r : pdiv x y = Ok r -> y <> 0 /\ r = x / y.
Proof. unfold pdiv; destruct (neq_spec y 0); intros H; inversion H; auto. Qed.
Lemma pdiv_err x y e : pdiv x y = Err e -> y = 0 /\ e = ZeroDivisionError.
Proof. unfold pdiv; destruct (neq_spec y 0); intros H; inversion H; auto. Qed.

Lemma psqrt_ok x : 0 <= x -> psqrt x = Ok (sqrt x).
Proof. intros; unfold psqrt; rewrite nlt_false; auto. Qed.
Lemma psqrt_neg x : x < 0 -> psqrt x = Err ValueError.
Proof. intros; unfold psqrt; rewrite nlt_true; auto. Qed.
Lemma psqrt_inv x r : psqrt x = Ok r -> 0 <= x /\ r = sqrt x.
Proof.
  unfold psqrt; destruct (nlt_spec x 0); intros H; inversion H; split; auto; lra.
Qed.

Lemma pasin_ok x : -1 <= x <= 1 -> pasin x = Ok (asin x).
Proof. intros; unfold pasin; rewrite !nlt_false by lra; auto. Qed.
Lemma pasin_err x : x < -1 \/ 1 < x -> pasin x = Err ValueError.
Proof.
  intros; unfold pasin.
  destruct (nlt_spec x (-1)), (nlt_spec 1 x); simpl; auto; lra.
Qed.
Lemma pacos_ok x : -1 <= x <= 1 -> pacos x = Ok (acos x).
Proof. intros; unfold pacos; rewrite !nlt_false by lra; auto. Qed.
Lemma plog_ok x : 0 < x -> plog x = Ok (ln x).
Proof. intros; unfold plog; rewrite nle_false; auto. Qed.
Lemma plog_err x : x <= 0 -> plog x = Err ValueError.
Proof. intros; unfold plog; rewrite nle_true; auto. Qed.
Lemma plog10_ok x : 0 < x -> plog10 x = Ok (ln x / ln 10).
Proof. intros; unfold plog10; rewrite nle_false; auto. Qed.
Lemma plog10_err x : x <= 0 -> plog10 x = Err ValueError.
Proof. intros; unfold plog10; rewrite nle_true; auto. Qed.
Lemma ppow_pos x y : 0 < x -> ppow x y = Ok (Rpower x y).
Proof. intros; unfold ppow; rewrite nlt_true; auto. Qed.

Lemma bind_ok {A B} (m : res A) (k : A -> res B) b :
  bind m k = Ok b -> exists a, m = Ok a /\ k a = Ok b.
Proof. destruct m; simpl; intros H; [eauto|discriminate]. Qed.

(** ** Floor and remainder *)
Lemma nfloor_bounds x : IZR (nfloor x) <= x < IZR (nfloor x) + 1.
Proof. unfold nfloor. destruct (base_Int_part x). lra. Qed.
Lemma nfloor_unique x z : IZR z <= x < IZR z + 1 -> nfloor x = z.
Proof.
  intros H. generalize (nfloor_bounds x); intros H'.
  assert (IZR (nfloor x) < IZR (z + 1)) by (rewrite plus_IZR; lra).
  assert (IZR z < IZR (nfloor x + 1)) by (rewrite plus_IZR; lra).
  apply lt_IZR in H0; apply lt_IZR in H1. lia.
Qed.
Lemma nfloor_IZR z : nfloor (IZR z) = z.
Proof. apply nfloor_unique; lra. Qed.
Lemma nfloor_div z d : (0 < d)%Z -> nfloor (IZR z / IZR d) = (z / d)%Z.
Proof.
  intros Hd. apply nfloor_unique.
  assert (0 < IZR d) by (apply IZR_lt; auto).
  generalize (Z_div_mod_eq_full z d) (Z.mod_pos_bound z d Hd); intros E B.
  assert (IZR z = IZR d * IZR (z / d) + IZR (z mod d))
    by (rewrite <- mult_IZR, <- plus_IZR; f_equal; lia).
  assert (0 <= IZR (z mod d) <= IZR d - 1).
  { split; [apply IZR_le; lia|]. rewrite <- minus_IZR; apply IZR_le; lia. }
  split.
  - apply Rmult_le_reg_r with (IZR d); auto. unfold Rdiv. rewrite Rmult_assoc, Rinv_l by lra. lra.
  - apply Rmult_lt_reg_r with (IZR d); auto. unfold Rdiv. rewrite Rmult_assoc, Rinv_l by lra. lra.
Qed.
Lemma nceil_bounds x : IZR (nceil x) - 1 < x <= IZR (nceil x).
Proof.
  unfold nceil. generalize (nfloor_bounds (- x)); unfold nfloor; intros.
  rewrite opp_IZR. lra.
Qed.
Lemma nceil_nonneg x : 0 <= x -> (0 <= nceil x)%Z.
Proof.
  intros. generalize (nceil_bounds x); intros.
  assert (IZR (-1) < IZR (nceil x)) by lra. apply lt_IZR in H1. lia.
Qed.
Lemma nmod_range x y : 0 < y -> 0 <= nmod x y < y.
Proof.
  intros Hy. unfold nmod. generalize (nfloor_bounds (x / y)); unfold nfloor.
  intros [H1 H2].
  assert (x = x / y * y) by (field; lra).
  split; nra.
Qed.
Lemma nmod_eq x y : exists k : Z, nmod x y = x - y * IZR k.
Proof. unfold nmod; eauto. Qed.
Lemma nmod_unique x y r (k : Z) : 0 < y -> 0 <= r < y -> x = r + y * IZR k -> nmod x y = r.
Proof.
  intros Hy Hr E. unfold nmod.
  assert (Int_part (x / y) = k).
  { apply nfloor_unique. subst x.
    replace ((r + y * IZR k) / y) with (r / y + IZR k) by (field; lra).
    assert (0 <= r / y < 1).
    { split; [apply Rmult_le_pos; [lra|left; apply Rinv_0_lt_compat; lra]|].
      apply Rmult_lt_reg_r with y; auto. unfold Rdiv; rewrite Rmult_assoc, Rinv_l; lra. }
    lra. }
  rewrite H. lra.
Qed.

(** ** sqrt *)
Lemma sqrt_sq x : 0 <= x -> sqrt x * sqrt x = x.
Proof. apply sqrt_sqrt. Qed.
Lemma sum_sq_nonneg2 x y : 0 <= x * x + y * y.
Proof. nra. Qed.
Lemma sqrt_pos_lt x : 0 < x -> 0 < sqrt x.
Proof. apply sqrt_lt_R0. Qed.
Lemma sqrt_eq x y : 0 <= y -> y * y = x -> sqrt x = y.
Proof. intros. rewrite <- H0. apply sqrt_square; auto. Qed.
Lemma sqrt_eq_0_iff x : 0 <= x -> (sqrt x = 0 <-> x = 0).
Proof.
  intros H; split; intros E. apply sqrt_eq_0 in E; auto. rewrite E; apply sqrt_0.
Qed.

(** ** Trigonometry *)
Lemma sin2_cos2' x : sin x * sin x + cos x * cos x = 1.
Proof. generalize (sin2_cos2 x); unfold Rsqr; auto. Qed.
Lemma cos_sin_range x : -1 <= cos x <= 1 /\ -1 <= sin x <= 1.
Proof. split; [apply COS_bound|apply SIN_bound]. Qed.

Lemma cos_atan' x : cos (atan x) = 1 / sqrt (1 + x * x).
Proof. rewrite cos_atan. unfold Rsqr; auto. Qed.
Lemma sin_atan' x : sin (atan x) = x / sqrt (1 + x * x).
Proof. rewrite sin_atan. unfold Rsqr; auto. Qed.

Lemma PI_pos : 0 < PI.
Proof. exact PI_RGT_0. Qed.

Lemma atan2_range y x : - PI < atan2 y x <= PI.
Proof.
  generalize PI_pos; intros HP. unfold atan2.
  destruct (nlt_spec 0 x). { generalize (atan_bound (y / x)); lra. }
  destruct (nlt_spec x 0).
  - destruct (nle_spec 0 y).
    + generalize (atan_bound (y / x)); intros B.
      assert (y / x <= 0).
      { assert (/ x < 0) by (apply Rinv_lt_0_compat; auto). unfold Rdiv; nra. }
      assert (atan (y / x) <= 0).
      { destruct H as [H|H]; [left; rewrite <- atan_0; apply atan_increasing; auto
                             |rewrite H, atan_0; lra]. }
      lra.
    + generalize (atan_bound (y / x)); intros B.
      assert (0 < y / x).
      { assert (/ x < 0) by (apply Rinv_lt_0_compat; auto). unfold Rdiv; nra. }
      assert (0 < atan (y / x)) by (rewrite <- atan_0; apply atan_increasing; auto).
      lra.
  - destruct (nlt_spec 0 y); [lra|]. destruct (nlt_spec y 0); lra.
Qed.

(** [atan2] gives the polar angle: for every point. *)
Lemma atan2_polar y x :
  x = sqrt (x * x + y * y) * cos (atan2 y x) /\
  y = sqrt (x * x + y * y) * sin (atan2 y x).
Proof.
  assert (Hpos : forall x, 0 < x -> x <> 0 ->
            sqrt (x * x + y * y) = x * sqrt (1 + y / x * (y / x))).
  { intros z Hz Hz'. replace (z * z + y * y) with ((z * z) * (1 + y / z * (y / z))) by (field; auto).
    rewrite sqrt_mult; [|nra|]. { rewrite sqrt_square by lra; auto. }
    generalize (Rle_0_sqr (y / z)); unfold Rsqr; lra. }
  assert (Hnz : forall t, 0 < sqrt (1 + t * t)).
  { intros t. apply sqrt_lt_R0. generalize (Rle_0_sqr t); unfold Rsqr; lra. }
  unfold atan2.
  destruct (nlt_spec 0 x).
  - rewrite cos_atan', sin_atan', Hpos by lra.
    specialize (Hnz (y / x)). split; field; lra.
  - destruct (nlt_spec x 0).
    + assert (E : sqrt (x * x + y * y) = - x * sqrt (1 + y / x * (y / x))).
      { replace (x * x) with ((- x) * (- x)) by ring.
        rewrite Hpos by lra. f_equal. f_equal. field. lra. }
      rewrite E. specialize (Hnz (y / x)).
      destruct (nle_spec 0 y).
      * rewrite neg_cos, neg_sin, cos_atan', sin_atan'. split; field; lra.
      * unfold Rminus. rewrite cos_plus, sin_plus, cos_neg, sin_neg, cos_PI, sin_PI, cos_atan', sin_atan'.
        split; field; lra.
    + assert (x = 0) by lra. subst x.
      replace (0 * 0 + y * y) with (y * y) by ring.
      destruct (nlt_spec 0 y).
      * rewrite sqrt_square by lra. rewrite cos_PI2, sin_PI2. lra.
      * destruct (nlt_spec y 0).
        -- replace (y * y) with (- y * - y) by ring. rewrite sqrt_square by lra.
           rewrite cos_neg, sin_neg, cos_PI2, sin_PI2. lra.
        -- assert (y = 0) by lra. subst. replace (0 * 0) with 0 by ring. rewrite sqrt_0. lra.
Qed.

(** sin and cos determine an angle within half-open turns. *)
Lemma sin_cos_inj a b :
  sin a = sin b -> cos a = cos b -> -(2 * PI) < a - b < 2 * PI -> a = b.
Proof.
  intros Hs Hc Hr.
  assert (Hcos : cos (a - b) = 1).
  { rewrite cos_minus, Hs, Hc. rewrite <- (sin2_cos2' b). ring. }
  assert (Hsin : sin (a - b) = 0).
  { rewrite sin_minus, Hs, Hc. ring. }
  set (d := a - b) in *.
  assert (H2 : sin (d / 2) = 0).
  { assert (cos d = 1 - 2 * (sin (d / 2) * sin (d / 2))).
    { replace d with (2 * (d / 2)) at 1 by field. rewrite cos_2a_sin. ring. }
    assert (sin (d / 2) * sin (d / 2) = 0) by lra.
    destruct (Rmult_integral _ _ H0); auto. }
  assert (Hd : - PI < d / 2 < PI) by lra.
  assert (d / 2 = 0).
  { destruct (Rtotal_order (d / 2) 0) as [L|[E|G]]; auto; exfalso.
    - assert (0 < sin (- (d / 2))) by (apply sin_gt_0; lra). rewrite sin_neg in H. lra.
    - assert (0 < sin (d / 2)) by (apply sin_gt_0; lra). lra. }
  unfold d in *. lra.
Qed.

Lemma polar_norm r t : 0 <= r -> sqrt (r * cos t * (r * cos t) + r * sin t * (r * sin t)) = r.
Proof.
  intros. apply sqrt_eq; auto.
  replace (r * cos t * (r * cos t) + r * sin t * (r * sin t))
    with (r * r * (sin t * sin t + cos t * cos t)) by ring.
  rewrite sin2_cos2'. ring.
Qed.

Lemma atan2_unique r t : 0 < r -> - PI < t <= PI -> atan2 (r * sin t) (r * cos t) = t.
Proof.
  intros Hr Ht. generalize (atan2_polar (r * sin t) (r * cos t)); intros [H1 H2].
  rewrite polar_norm in H1, H2 by lra.
  generalize (atan2_range (r * sin t) (r * cos t)); intros Hb.
  apply sin_cos_inj; [nra|nra|lra].
Qed.

Lemma atan2_scale k y x : 0 < k -> atan2 (k * y) (k * x) = atan2 y x.
Proof.
  intros Hk. generalize (atan2_polar y x) (atan2_range y x); intros [Hx Hy] Hr.
  set (t := atan2 y x) in *. set (r := sqrt (x * x + y * y)) in *.
  destruct (Req_dec r 0).
  - rewrite H in Hx, Hy. assert (x = 0) by lra. assert (y = 0) by lra.
    unfold t. rewrite H0, H1, Rmult_0_r. auto.
  - assert (0 < r) by (generalize (sqrt_pos (x * x + y * y)); fold r; lra).
    rewrite Hx, Hy. rewrite <- !Rmult_assoc. apply atan2_unique; nra.
Qed.

(** The wrap [if t < 0: t += 2 pi]. *)
Definition wrap (t : R) : R := if nlt t 0 then t + 2 * PI else t.

Lemma wrap_range t : - PI < t <= PI -> 0 <= wrap t < 2 * PI.
Proof.
  intros. generalize PI_pos; intros. unfold wrap. destruct (nlt_spec t 0); lra.
Qed.
Lemma wrap_range2 t : - (2 * PI) <= t < 2 * PI -> 0 <= wrap t < 2 * PI.
Proof.
  intros. generalize PI_pos; intros. unfold wrap. destruct (nlt_spec t 0); lra.
Qed.
Lemma cos_wrap t : cos (wrap t) = cos t.
Proof. unfold wrap. destruct (nlt_spec t 0); auto. rewrite cos_plus, cos_2PI, sin_2PI. ring. Qed.
Lemma sin_wrap t : sin (wrap t) = sin t.
Proof. unfold wrap. destruct (nlt_spec t 0); auto. rewrite sin_plus, cos_2PI, sin_2PI. ring. Qed.

Lemma wrap_unique t s : 0 <= s < 2 * PI -> - PI < t <= PI ->
  sin t = sin s -> cos t = cos s -> wrap t = s.
Proof.
  intros Hs Ht E1 E2. apply sin_cos_inj; rewrite ?sin_wrap, ?cos_wrap; auto.
  generalize (wrap_range t Ht). lra.
Qed.

Lemma wrap_atan2_unique r t : 0 < r -> 0 <= t < 2 * PI -> wrap (atan2 (r * sin t) (r * cos t)) = t.
Proof.
  intros Hr Ht. generalize (atan2_polar (r * sin t) (r * cos t)); intros [H1 H2].
  rewrite polar_norm in H1, H2 by lra.
  apply wrap_unique; auto; [apply atan2_range|nra|nra].
Qed.

Lemma sin_shift_Z t (k : Z) : sin (t + 2 * PI * IZR k) = sin t.
Proof.
  destruct k; simpl.
  - rewrite Rmult_0_r, Rplus_0_r; auto.
  - rewrite <- (positive_nat_Z p). rewrite <- INR_IZR_INZ.
    replace (t + 2 * PI * INR (Pos.to_nat p)) with (t + 2 * INR (Pos.to_nat p) * PI) by ring.
    apply sin_period.
  - change (IZR (Z.neg p)) with (- IZR (Z.pos p)).
    rewrite <- (positive_nat_Z p). rewrite <- INR_IZR_INZ.
    rewrite <- (sin_period _ (Pos.to_nat p)). f_equal. ring.
Qed.
Lemma cos_shift_Z t (k : Z) : cos (t + 2 * PI * IZR k) = cos t.
Proof.
  destruct k; simpl.
  - rewrite Rmult_0_r, Rplus_0_r; auto.
  - rewrite <- (positive_nat_Z p). rewrite <- INR_IZR_INZ.
    replace (t + 2 * PI * INR (Pos.to_nat p)) with (t + 2 * INR (Pos.to_nat p) * PI) by ring.
    apply cos_period.
  - change (IZR (Z.neg p)) with (- IZR (Z.pos p)).
    rewrite <- (positive_nat_Z p). rewrite <- INR_IZR_INZ.
    rewrite <- (cos_period _ (Pos.to_nat p)). f_equal. ring.
Qed.

(** Decimal literals are [Q2R] constants; expose them to [ring] and [field]. *)
Ltac qlit := unfold Q2R in *; cbn [QArith_base.Qnum QArith_base.Qden] in *.
Ltac qfield := qlit; field.

Lemma div_le x y z : 0 < z -> x <= y * z -> x / z <= y.
Proof. intros Hz H. apply Rmult_le_reg_r with z; auto. replace (x / z * z) with x by (field; lra). auto. Qed.
Lemma le_div x y z : 0 < z -> x * z <= y -> x <= y / z.
Proof. intros Hz H. apply Rmult_le_reg_r with z; auto. replace (y / z * z) with y by (field; lra). auto. Qed.
Lemma div_lt x y z : 0 < z -> x < y * z -> x / z < y.
Proof. intros Hz H. apply Rmult_lt_reg_r with z; auto. replace (x / z * z) with x by (field; lra). auto. Qed.
Lemma lt_div x y z : 0 < z -> x * z < y -> x < y / z.
Proof. intros Hz H. apply Rmult_lt_reg_r with z; auto. replace (y / z * z) with y by (field; lra). auto. Qed.
