(** Proofs about Gauss's method. *)
From Coq Require Import Reals Lra Psatz Lia.
From Verif.Model Require Import Num Constants Linalg Functions Time Celestial Positions States Elements Obs Iod.
From Verif.Spec Require Import Geometry Gravity Orbit Gauss.
From Verif.Proofs Require Import NumLemmas LinalgProofs Analysis FunctionsProofs KeplerProofs ElementsProofs.
Local Open Scope R_scope.

(** * The function W *)
Lemma asin_half w : 0 < w < 1 -> 0 < asin (sqrt w) < PI / 2.
Proof.
  intros H. assert (S : 0 < sqrt w < 1).
  { split; [apply sqrt_lt_R0; lra|]. rewrite <- sqrt_1. apply sqrt_lt_1; lra. }
  destruct (asin_bound_lt (sqrt w)) as [B1 B2]; [lra|]. split; [|auto].
  destruct (Rle_lt_dec (asin (sqrt w)) 0) as [L|L]; auto. exfalso.
  assert (E := sin_asin (sqrt w) ltac:(lra)). assert (P := sin_ge_0 (- asin (sqrt w)) ltac:(lra) ltac:(generalize PI_RGT_0; lra)).
  rewrite sin_neg in P. lra.
Qed.
Lemma sin_g_pos w : 0 < w < 1 -> 0 < sin (2 * asin (sqrt w)).
Proof. intros H. destruct (asin_half w H). apply sin_gt_0; lra. Qed.
Lemma w_ok w : 0 < w < 1 -> w_of_omega w = Ok (W w).
Proof.
  intros H. assert (S := sin_g_pos w H). unfold w_of_omega. rewrite psqrt_ok by lra. cbn [bind].
  rewrite pasin_ok. 2:{ split; [assert (0 <= sqrt w) by apply sqrt_pos; lra|]. rewrite <- sqrt_1. apply sqrt_le_1; lra. }
  cbn [bind]. rewrite pdiv_ok. 2:{ set (s := sin _) in *. assert (0 < s * s * s) by (repeat apply Rmult_lt_0_compat; auto). lra. }
  unfold W. cbv zeta. apply f_equal. f_equal. ring.
Qed.
Lemma w_err w : ~ 0 < w < 1 -> w_of_omega w = Err (if Req_EM_T w 0 then ZeroDivisionError else if Req_EM_T w 1 then ZeroDivisionError else ValueError).
Proof.
  intros H. unfold w_of_omega. destruct (Rlt_dec w 0) as [L|L].
  { rewrite psqrt_neg by auto. cbn [bind]. destruct (Req_EM_T w 0); [lra|]. destruct (Req_EM_T w 1); [lra|]. reflexivity. }
  rewrite psqrt_ok by lra. cbn [bind]. destruct (Req_EM_T w 0) as [->|N0].
  { rewrite sqrt_0, pasin_ok by lra. cbn [bind]. rewrite asin_0, Rmult_0_r, sin_0. rewrite !Rmult_0_r. apply pdiv_zero. }
  destruct (Req_EM_T w 1) as [->|N1].
  { rewrite sqrt_1, pasin_ok by lra. cbn [bind]. rewrite asin_1. replace (2 * (PI / 2)) with PI by field. rewrite sin_PI, !Rmult_0_r. apply pdiv_zero. }
  rewrite pasin_err; [reflexivity|]. right. rewrite <- sqrt_1. apply sqrt_lt_1; lra.
Qed.
Lemma f_ok m l n : in_domain m l n -> f_of_nu n m l = Ok (F m l n).
Proof.
  intros [N D]. unfold f_of_nu. rewrite pdiv_ok by (apply Rmult_integral_contrapositive; auto). cbn [bind].
  replace (n * n) with (n ^ 2) by ring. rewrite w_ok by auto. reflexivity.
Qed.
Lemma f_err m l n : ~ in_domain m l n -> f_of_nu n m l = Err (if Req_EM_T n 0 then ZeroDivisionError else
  if Req_EM_T (m / n ^ 2 - l) 0 then ZeroDivisionError else if Req_EM_T (m / n ^ 2 - l) 1 then ZeroDivisionError else ValueError).
Proof.
  intros H. unfold f_of_nu. destruct (Req_EM_T n 0) as [->|N].
  - rewrite Rmult_0_r, pdiv_zero. reflexivity.
  - rewrite pdiv_ok by (apply Rmult_integral_contrapositive; auto). cbn [bind]. replace (n * n) with (n ^ 2) by ring.
    rewrite w_err; [reflexivity|]. intros D. apply H. split; auto.
Qed.
Lemma domain_dec m l n : in_domain m l n \/ ~ in_domain m l n.
Proof.
  unfold in_domain. destruct (Req_dec n 0); [right; tauto|]. destruct (Rlt_dec 0 (m / n ^ 2 - l)); [|right; tauto].
  destruct (Rlt_dec (m / n ^ 2 - l) 1); [left; tauto|right; tauto].
Qed.
Lemma f_inv m l n x : f_of_nu n m l = Ok x -> in_domain m l n /\ x = F m l n.
Proof.
  intros E. destruct (domain_dec m l n) as [D|D].
  - rewrite f_ok in E by auto. injection E as <-. auto.
  - rewrite f_err in E by auto. discriminate.
Qed.

(** * The secant loop *)
Lemma pdiv_inv_ok x y z : pdiv x y = Ok z -> y <> 0 /\ z = x / y.
Proof.
  intros E. destruct (Req_dec y 0) as [->|N].
  - rewrite pdiv_zero in E. discriminate.
  - rewrite pdiv_ok in E by auto. injection E as <-. auto.
Qed.
Lemma solve_sound fuel m l : forall a b n, solve_nu fuel m l a b = Ok n ->
  exists k, (k < fuel)%nat /\ secant_run (F m l) (in_domain m l) 1e-12 k a b n.
Proof.
  induction fuel as [|fuel IH]; intros a b n E; [discriminate|]. cbn [solve_nu] in E.
  apply bind_ok in E. destruct E as (f1 & E1 & E). apply f_inv in E1. destruct E1 as [D1 ->].
  apply bind_ok in E. destruct E as (f0 & E0 & E). apply f_inv in E0. destruct E0 as [D0 ->].
  apply bind_ok in E. destruct E as (q & Q & E). apply pdiv_inv_ok in Q. destruct Q as [Q ->].
  cbv zeta in E. change (b - F m l b * (b - a) / (F m l b - F m l a)) with (secant (F m l) a b) in E.
  unfold NU_TOLERANCE, nabs in E.
  destruct (nlt_spec (Rabs (secant (F m l) a b - b)) 1e-12) as [L|L].
  - injection E as <-. exists 0%nat. split; [lia|]. apply run_stop; auto. lra.
  - apply IH in E. destruct E as (k & K & R). exists (S k). split; [lia|]. apply run_more; auto; lra.
Qed.
Lemma solve_complete m l k a b n : secant_run (F m l) (in_domain m l) 1e-12 k a b n ->
  forall fuel, (k < fuel)%nat -> solve_nu fuel m l a b = Ok n.
Proof.
  induction 1 as [a b Da Db N T|k a b n Da Db N T R IH]; intros fuel K; (destruct fuel as [|fuel]; [lia|]); cbn [solve_nu];
    rewrite !f_ok by auto; cbn [bind]; rewrite pdiv_ok by lra; cbn [bind]; cbv zeta;
    change (b - F m l b * (b - a) / (F m l b - F m l a)) with (secant (F m l) a b); unfold NU_TOLERANCE, nabs.
  - rewrite nlt_true by auto. reflexivity.
  - rewrite nlt_false by auto. apply IH. lia.
Qed.
(** The last chord bounds the residual. *)
Lemma run_residual f dom tol k a b n : secant_run f dom tol k a b n -> exists p q,
  dom p /\ dom q /\ p <> q /\ n = secant f p q /\ Rabs (n - q) < tol /\ Rabs (f q) < tol * Rabs ((f q - f p) / (q - p)).
Proof.
  induction 1 as [a b Da Db N T|k a b n Da Db N T R IH]; auto.
  exists a, b. assert (AB : a <> b) by (intros ->; auto). do 5 (split; [auto|]).
  assert (Z : b - a <> 0) by lra. assert (Z' : f b - f a <> 0) by lra.
  assert (E : f b = - (secant f a b - b) * ((f b - f a) / (b - a))) by (unfold secant; field; auto).
  rewrite E at 1. rewrite Rabs_mult, Rabs_Ropp. apply Rmult_lt_compat_r; auto. apply Rabs_pos_lt.
  unfold Rdiv. apply Rmult_integral_contrapositive. split; auto. apply Rinv_neq_0_compat; auto.
Qed.

(** * Points of the orbit *)
Lemma point_place el x : orbit_point el x = place el x.
Proof. unfold orbit_point, place. cbv zeta. replace (eccentricity el ^ 2) with (eccentricity el * eccentricity el) by ring. reflexivity. Qed.

Lemma true_anomaly e t : 0 <= e < 1 -> let x := atan2 (sqrt (1 - e * e) * sin t) (cos t + e) in
  0 < 1 + e * cos t /\ cos x - e = (1 - e * e) * cos t / (1 + e * cos t) /\
  sqrt (1 - e * e) * sin x = (1 - e * e) * sin t / (1 + e * cos t).
Proof.
  intros He x. assert (B := COS_bound t). assert (P : 0 < 1 + e * cos t) by nra. split; auto.
  assert (Q : sqrt (1 - e * e) * sqrt (1 - e * e) = 1 - e * e) by (apply sqrt_sqrt; nra).
  assert (T := sin2_cos2' t).
  destruct (atan2_polar (sqrt (1 - e * e) * sin t) (cos t + e)) as [C S]. fold x in C, S.
  assert (R : sqrt ((cos t + e) * (cos t + e) + sqrt (1 - e * e) * sin t * (sqrt (1 - e * e) * sin t)) = 1 + e * cos t).
  { apply sqrt_eq; [lra|]. replace (sqrt (1 - e * e) * sin t * (sqrt (1 - e * e) * sin t)) with ((sqrt (1 - e * e) * sqrt (1 - e * e)) * (sin t * sin t)) by ring.
    rewrite Q. replace (sin t * sin t) with (1 - cos t * cos t) by lra. ring. }
  rewrite R in C, S.
  assert (C' : cos x = (cos t + e) / (1 + e * cos t)) by (rewrite C; field; lra).
  assert (S' : sin x = sqrt (1 - e * e) * sin t / (1 + e * cos t)) by (rewrite S; field; lra).
  rewrite C', S'. split; [field; lra|].
  replace (sqrt (1 - e * e) * (sqrt (1 - e * e) * sin t / (1 + e * cos t))) with ((sqrt (1 - e * e) * sqrt (1 - e * e)) * sin t / (1 + e * cos t)) by (field; lra).
  rewrite Q. reflexivity.
Qed.

Lemma place_true ep p e i o w ma t : 0 <= e < 1 -> let x := atan2 (sqrt (1 - e * e) * sin t) (cos t + e) in
  place (Elements ep (p / (1 - e * e)) e i o w ma) x = scale (p / (1 + e * cos t)) (along o i (w + t)).
Proof.
  intros He x. destruct (true_anomaly e t He) as (P & C & S). fold x in C, S.
  unfold place. cbn [semimajor_axis eccentricity raan inclination argument_of_perigee].
  destruct (along_shift o i w t) as [A _]. rewrite <- A. rewrite C.
  replace (p / (1 - e * e) * sqrt (1 - e * e) * sin x) with (p / (1 - e * e) * (sqrt (1 - e * e) * sin x)) by ring. rewrite S.
  assert (D : 1 - e * e <> 0) by nra.
  generalize (along o i w) (ahead o i w). intros u v. veq; field; split; auto; lra.
Qed.

(** * An exact run, as a concrete case *)
Lemma W_half : W (1 / 2) = PI.
Proof.
  unfold W. cbv zeta. replace (asin (sqrt (1 / 2))) with (PI / 4).
  2:{ rewrite <- (asin_sin (PI / 4)) by (generalize PI_RGT_0; lra). f_equal. rewrite sin_PI4.
      replace (1 / 2) with (/ 2) by lra. rewrite sqrt_inv. unfold Rdiv. ring. }
  replace (2 * (PI / 4)) with (PI / 2) by field. replace (2 * (PI / 2)) with PI by field. rewrite sin_PI, sin_PI2. field.
Qed.

Lemma W_quarter : W (1 / 4) < 2.
Proof.
  unfold W. cbv zeta. replace (asin (sqrt (1 / 4))) with (PI / 6).
  2:{ rewrite <- (asin_sin (PI / 6)) by (generalize PI_RGT_0; lra). f_equal. rewrite sin_PI6.
      symmetry. apply sqrt_eq; lra. }
  replace (2 * (PI / 6)) with (PI / 3) by field. rewrite sin_2a, sin_PI3, cos_PI3.
  assert (Q : sqrt 3 * sqrt 3 = 3) by (apply sqrt_sqrt; lra). assert (P := sqrt_lt_R0 3 ltac:(lra)).
  replace ((sqrt 3 / 2) ^ 3) with (3 / 8 * sqrt 3).
  2:{ replace ((sqrt 3 / 2) ^ 3) with (sqrt 3 * sqrt 3 * sqrt 3 / 8) by field. rewrite Q. field. }
  assert (L : 1.7 < sqrt 3) by nra. destruct PI_bounds as [_ B].
  apply Rmult_lt_reg_r with (3 / 8 * sqrt 3); [lra|]. unfold Rdiv at 1. rewrite Rmult_assoc, Rinv_l by lra. nra.
Qed.
Lemma exact_run fuel : (0 < fuel)%nat -> let b := 1 + PI in let m := b ^ 2 in
  solve_nu fuel m (1 / 2) (2 * b / sqrt 3) b = Ok b /\ F m (1 / 2) b = 0.
Proof.
  intros K b m. assert (B : 4 < b) by (unfold b; generalize PI_bounds; lra).
  assert (Q : sqrt 3 * sqrt 3 = 3) by (apply sqrt_sqrt; lra). assert (P := sqrt_lt_R0 3 ltac:(lra)).
  assert (Fb : F m (1 / 2) b = 0).
  { unfold F, m. replace (b ^ 2 / b ^ 2) with 1 by (field; lra). replace (1 - 1 / 2) with (1 / 2) by lra.
    rewrite W_half. unfold b. ring. }
  assert (MA : m / (2 * b / sqrt 3) ^ 2 = 3 / 4).
  { unfold m. replace (b ^ 2 / (2 * b / sqrt 3) ^ 2) with (sqrt 3 * sqrt 3 / 4) by (field; lra). rewrite Q. reflexivity. }
  assert (Ab : b < 2 * b / sqrt 3).
  { apply Rmult_lt_reg_r with (sqrt 3); [auto|]. unfold Rdiv. rewrite Rmult_assoc, Rinv_l by lra. nra. }
  assert (Fa : F m (1 / 2) (2 * b / sqrt 3) < 0).
  { unfold F. rewrite MA. replace (3 / 4 - 1 / 2) with (1 / 4) by lra. assert (W4 := W_quarter). lra. }
  assert (S : secant (F m (1 / 2)) (2 * b / sqrt 3) b = b) by (unfold secant; rewrite Fb; unfold Rdiv; ring).
  split; auto. apply solve_complete with 0%nat; auto. rewrite <- S at 3. apply run_stop.
  - split; [lra|]. rewrite MA. lra.
  - split; [lra|]. unfold m. replace (b ^ 2 / b ^ 2) with 1 by (field; lra). lra.
  - lra.
  - rewrite S. replace (b - b) with 0 by ring. rewrite Rabs_R0. lra.
Qed.

(** * The orbit through the two positions *)
Lemma double_cross u v : dot u u = 1 -> dot u v = 0 -> cross (cross u v) u = v.
Proof.
  intros U V. assert (E : cross (cross u v) u = sub (scale (dot u u) v) (scale (dot u v) u)) by (veq; unfold dot; cbn; ring).
  rewrite E, U, V. veq; ring.
Qed.
Lemma eccentric_inv ec es e : pdiv ec (cos (wrap (atan2 es ec))) = Ok e ->
  0 <= e /\ ec = e * cos (wrap (atan2 es ec)) /\ es = e * sin (wrap (atan2 es ec)).
Proof.
  intros E. apply pdiv_inv_ok in E. rewrite cos_wrap in *. rewrite sin_wrap. destruct E as [N ->].
  destruct (atan2_polar es ec) as [C S]. set (t := atan2 es ec) in *. clearbody t.
  set (r := sqrt (ec * ec + es * es)) in *. assert (R : 0 <= r) by apply sqrt_pos. clearbody r.
  assert (Q : ec / cos t = r) by (rewrite C; field; auto). rewrite Q. auto.
Qed.
Lemma wrap_fold t : (if nlt t 0 then t + 2 * PI else t) = wrap t.
Proof. reflexivity. Qed.

Record gauss_solution (fuel : nat) (ra rb : vec3) (t1 t2 : epoch) (el : elements)
  (ea r0 e0 : vec3) (ta p n m l n0 : R) : Prop := {
  gs_ra_pos : 0 < norm ra;
  gs_ea : ea = scale (/ norm ra) ra;
  gs_r0 : r0 = sub rb (scale (dot rb ea) ea);
  gs_r0_pos : 0 < norm r0;
  gs_e0 : e0 = scale (/ norm r0) r0;
  gs_tau : value t2 - value t1 <> 0;
  gs_base : 0 < 2 * (norm ra * norm rb + dot ra rb);
  gs_m : m = Earth_MU * ((value t2 - value t1) * SECONDS_IN_DAY) ^ 2 / (sqrt (2 * (norm ra * norm rb + dot ra rb))) ^ 3;
  gs_l : l = (norm ra + norm rb) / (2 * sqrt (2 * (norm ra * norm rb + dot ra rb))) - 1 / 2;
  gs_n0 : n0 = 12 / 22 + 10 / 22 * sqrt (1 + 44 / 9 * (m / (l + 5 / 6)));
  gs_run : solve_nu fuel m l (n0 + 0.1) n0 = Ok n;
  gs_p : p = (norm ra * norm r0 * n / (sqrt Earth_MU * ((value t2 - value t1) * SECONDS_IN_DAY))) ^ 2;
  gs_e : 0 <= eccentricity el < 1;
  gs_at_a : p = norm ra * (1 + eccentricity el * cos ta);
  gs_at_b : p = norm rb * (1 + eccentricity el * (cos ta * (dot rb ea / norm rb) - sin ta * (norm r0 / norm rb)));
  gs_ta : 0 <= ta < 2 * PI;
  gs_el : el = Elements t1 (p / (1 - eccentricity el * eccentricity el)) (eccentricity el)
     (I_from_w (cross ea e0)) (RAAN_from_w (cross ea e0))
     (wrap (atan2 (z3 ra) (- x3 ra * y3 (cross ea e0) + y3 ra * x3 (cross ea e0)) - ta))
     (let x := atan2 (sqrt (1 - eccentricity el * eccentricity el) * sin ta) (cos ta + eccentricity el) in
      x - eccentricity el * sin x)
}.

Lemma power_three_halves b : 0 < b -> Rpower b (-1.5) = / sqrt b ^ 3.
Proof.
  intros H. replace (-1.5) with (- (/ 2 * INR 3)) by (cbn; lra). rewrite Rpower_Ropp, <- Rpower_mult, Rpower_sqrt by auto.
  rewrite Rpower_pow by (apply sqrt_lt_R0; auto). reflexivity.
Qed.
Lemma mu_pos : 0 < Earth_MU.
Proof. unfold Earth_MU. lra. Qed.
Lemma day_nz : SECONDS_IN_DAY <> 0.
Proof. unfold SECONDS_IN_DAY. lra. Qed.

Lemma ok_inj {A} (x y : A) : Ok x = Ok y -> x = y.
Proof. intros E. injection E. auto. Qed.

Lemma coes_inv fuel ra rb t1 t2 el : coes_from_positions fuel ra rb t1 t2 = Ok el ->
  exists ea r0 e0 ta p n m l n0, gauss_solution fuel ra rb t1 t2 el ea r0 e0 ta p n m l n0.
Proof.
  intros E. unfold coes_from_positions in E. cbv zeta in E.
  apply bind_ok in E. destruct E as (ea & Eea & E). apply normalized_inv in Eea. destruct Eea as [Nra Eea].
  apply norm_pos in Nra.
  set (r0 := v3_minus rb (v3_scaled ea (v3_dot rb ea))) in *.
  apply bind_ok in E. destruct E as (e0 & Ee0 & E). apply normalized_inv in Ee0. destruct Ee0 as [Nr0 Ee0].
  apply norm_pos in Nr0.
  set (w := v3_cross ea e0) in *.
  apply bind_ok in E. destruct E as (bp & Ebp & E).
  apply bind_ok in E. destruct E as (sb & Esb & E).
  apply bind_ok in E. destruct E as (lq & Elq & E).
  apply bind_ok in E. destruct E as (mq & Emq & E).
  apply bind_ok in E. destruct E as (sn & Esn & E).
  apply bind_ok in E. destruct E as (n & En & E).
  apply bind_ok in E. destruct E as (bs & Ebs & E).
  apply bind_ok in E. destruct E as (pa & Epa & E).
  apply bind_ok in E. destruct E as (pb & Epb & E).
  apply bind_ok in E. destruct E as (cb & Ecb & E).
  apply bind_ok in E. destruct E as (sb' & Esb' & E).
  apply bind_ok in E. destruct E as (es & Ees & E).
  rewrite !wrap_fold in E.
  apply bind_ok in E. destruct E as (e & Ee & E).
  apply bind_ok in E. destruct E as (sma & Esma & E).
  apply bind_ok in E. destruct E as (se & Ese & E).
  change v3_magnitude with norm in *. change v3_dot with dot in *. change v3_cross with cross in *.
  set (base := 2 * (norm ra * norm rb + dot ra rb)) in *.
  assert (B : 0 < base).
  { unfold ppow in Ebp. destruct (nlt_spec 0 base) as [L|L]; auto. exfalso.
    destruct (neq base 0); [rewrite nlt_true in Ebp by lra|]; discriminate. }
  rewrite ppow_pos, power_three_halves in Ebp by auto. apply ok_inj in Ebp. subst bp.
  rewrite psqrt_ok in Esb by lra. apply ok_inj in Esb. subst sb.
  assert (SB : 0 < sqrt base) by (apply sqrt_lt_R0; auto).
  assert (MU : sqrt Earth_MU * sqrt Earth_MU = Earth_MU) by (apply sqrt_sqrt; generalize mu_pos; lra).
  apply pdiv_inv_ok in Elq. destruct Elq as [_ ->].
  set (d := value t2 - value t1) in *.
  assert (M : sqrt Earth_MU * d * SECONDS_IN_DAY * (sqrt Earth_MU * d * SECONDS_IN_DAY) * / sqrt base ^ 3
    = Earth_MU * (d * SECONDS_IN_DAY) ^ 2 / sqrt base ^ 3).
  { rewrite <- MU at 3. generalize SECONDS_IN_DAY. intros y. field. apply Rgt_not_eq, SB. }
  rewrite M in Emq, En. set (m := Earth_MU * (d * SECONDS_IN_DAY) ^ 2 / sqrt base ^ 3) in *.
  replace 0.5 with (1 / 2) in Emq, En by lra. set (l := (norm ra + norm rb) / (2 * sqrt base) - 1 / 2) in *.
  apply pdiv_inv_ok in Emq. destruct Emq as [_ ->]. apply psqrt_inv in Esn. destruct Esn as [_ ->].
  set (n0 := 12 / 22 + 10 / 22 * sqrt (1 + 44 / 9 * (m / (l + 5 / 6)))) in *.
  apply pdiv_inv_ok in Ebs. destruct Ebs as [NT Ebs].
  assert (D : d <> 0) by (intros Z; apply NT; rewrite Z; ring).
  apply pdiv_inv_ok in Epa. destruct Epa as [_ Epa].
  apply pdiv_inv_ok in Epb. destruct Epb as [Nrb Epb].
  apply pdiv_inv_ok in Ecb. destruct Ecb as [_ ->].
  apply pdiv_inv_ok in Esb'. destruct Esb' as [_ ->].
  apply pdiv_inv_ok in Ees. destruct Ees as [NS Ees].
  apply eccentric_inv in Ee. destruct Ee as (E0 & EC & ES).
  set (ta := wrap (atan2 es (pa - 1))) in *.
  assert (TA : 0 <= ta < 2 * PI) by (apply wrap_range, atan2_range).
  apply pdiv_inv_ok in Esma. destruct Esma as [NE ->].
  apply psqrt_inv in Ese. destruct Ese as [PE ->].
  assert (E1 : e < 1) by nra.
  assert (I : wrap (atan2 (sqrt (x3 w * x3 w + y3 w * y3 w)) (z3 w)) = I_from_w w).
  { unfold wrap. rewrite nlt_false; [reflexivity|]. apply (I_range w). }
  rewrite I in E. change (wrap (atan2 (x3 w) (- y3 w))) with (RAAN_from_w w) in E.
  exists ea, r0, e0, ta, (bs * bs), n, m, l, n0.
  assert (EE : eccentricity el = e) by (injection E as <-; reflexivity).
  assert (PA : bs * bs = norm ra * (1 + e * cos ta)) by (rewrite <- EC, Epa; field; lra).
  assert (PB : bs * bs = norm rb * (1 + e * (cos ta * (dot rb ea / norm rb) - sin ta * (norm r0 / norm rb)))).
  { replace (e * (cos ta * (dot rb ea / norm rb) - sin ta * (norm r0 / norm rb)))
      with ((e * cos ta) * (dot rb ea / norm rb) - (e * sin ta) * (norm r0 / norm rb)) by ring.
    rewrite <- EC, <- ES, Ees, Epb. field. repeat split; auto; lra. }
  constructor; rewrite ?EE; auto; try lra.
  - unfold r0. change v3_minus with sub. generalize (dot rb ea). intros k. veq; ring.
  - fold d. rewrite Ebs. replace (sqrt Earth_MU * d * SECONDS_IN_DAY) with (sqrt Earth_MU * (d * SECONDS_IN_DAY)) by ring. ring.
  - apply ok_inj in E. rewrite <- E. reflexivity.
Qed.

(** The frame spanned by the two positions *)
Lemma gauss_frame ra rb ea r0 e0 : 0 < norm ra -> ea = scale (/ norm ra) ra -> r0 = sub rb (scale (dot rb ea) ea) ->
  0 < norm r0 -> e0 = scale (/ norm r0) r0 ->
  dot ea ea = 1 /\ dot e0 e0 = 1 /\ dot ea e0 = 0 /\ ra = scale (norm ra) ea /\
  rb = add (scale (dot rb ea) ea) (scale (norm r0) e0) /\ norm rb * norm rb = dot rb ea * dot rb ea + norm r0 * norm r0 /\
  cross ra rb = scale (norm ra * norm r0) (cross ea e0).
Proof.
  intros A Ea R0 P E0. assert (Na := norm_sq ra). assert (Nb := norm_sq rb). assert (N0 := norm_sq r0).
  assert (U : dot ea ea = 1).
  { rewrite Ea. replace (dot (scale (/ norm ra) ra) (scale (/ norm ra) ra)) with (dot ra ra / (norm ra * norm ra)) by (unfold dot; cbn; field; lra).
    rewrite Na. field. rewrite <- Na. nra. }
  assert (O : dot ea r0 = 0).
  { assert (H : forall k, dot ea (sub rb (scale k ea)) = dot rb ea - k * dot ea ea) by (intros k; unfold dot; cbn; ring).
    rewrite R0, H, U. ring. }
  assert (Ra : ra = scale (norm ra) ea) by (rewrite Ea; veq; field; lra).
  assert (U0 : dot e0 e0 = 1).
  { rewrite E0. replace (dot (scale (/ norm r0) r0) (scale (/ norm r0) r0)) with (dot r0 r0 / (norm r0 * norm r0)) by (unfold dot; cbn; field; lra).
    rewrite N0. field. rewrite <- N0. nra. }
  assert (O0 : dot ea e0 = 0).
  { rewrite E0. replace (dot ea (scale (/ norm r0) r0)) with (dot ea r0 / norm r0) by (unfold dot; cbn; field; lra). rewrite O. field. lra. }
  assert (R0' : r0 = scale (norm r0) e0) by (rewrite E0; veq; field; lra).
  assert (Rb : rb = add (scale (dot rb ea) ea) r0) by (rewrite R0; generalize (dot rb ea); intros k; veq; ring).
  split; auto. split; auto. split; auto. split; auto.
  assert (Rb' : rb = add (scale (dot rb ea) ea) (scale (norm r0) e0)) by (rewrite <- R0'; auto).
  split; auto. set (k := dot rb ea) in *. set (q := norm r0) in *. set (a := norm ra) in *. clearbody k q a. split.
  - rewrite Nb, Rb'. replace (dot (add (scale k ea) (scale q e0)) (add (scale k ea) (scale q e0)))
      with (k * k * dot ea ea + 2 * k * q * dot ea e0 + q * q * dot e0 e0) by (unfold dot; cbn; ring). rewrite U, U0, O0. ring.
  - rewrite Rb', Ra. veq; ring.
Qed.

Lemma gauss_through fuel ra rb t1 t2 el ea r0 e0 ta p n m l n0 :
  gauss_solution fuel ra rb t1 t2 el ea r0 e0 ta p n m l n0 ->
  ~ (x3 (cross ra rb) = 0 /\ y3 (cross ra rb) = 0) ->
  0 < semimajor_axis el /\ 0 <= eccentricity el < 1 /\ 0 <= inclination el <= PI /\ 0 <= raan el < 2 * PI /\
  - PI < argument_of_perigee el < 2 * PI /\ el_epoch el = t1 /\
  exists xa xb, orbit_point el xa = ra /\ orbit_point el xb = rb /\
    - PI < xa <= PI /\ - PI < xb <= PI /\ mean_anomaly el = xa - eccentricity el * sin xa /\
    cross ra rb = scale (norm ra * norm r0) (orbit_normal (raan el) (inclination el)) /\
    p = semimajor_axis el * (1 - eccentricity el * eccentricity el).
Proof.
  intros G NE. destruct G.
  destruct (gauss_frame ra rb ea r0 e0) as (U & U0 & O & Ra & Rb & Nb & Cr); auto.
  set (w := cross ea e0) in *. set (e := eccentricity el) in *. clearbody e.
  assert (Nw : ~ (x3 w = 0 /\ y3 w = 0)). { intros [X Y]. apply NE. rewrite Cr. clearbody w. cbn [scale x3 y3]. rewrite X, Y. split; ring. }
  assert (Uw : dot w w = 1).
  { unfold w. replace (dot (cross ea e0) (cross ea e0)) with (dot ea ea * dot e0 e0 - dot ea e0 * dot ea e0) by (unfold dot, cross; cbn; ring).
    rewrite U, U0, O. ring. }
  assert (Pw : dot ra w = 0). { rewrite Ra. unfold w, dot, cross; cbn. ring. }
  assert (L := latitude_spec ra w Uw Pw Nw). assert (NW := normal_of_w w Uw).
  set (o := RAAN_from_w w) in *. set (i := I_from_w w) in *.
  set (ua := atan2 (z3 ra) (- x3 ra * y3 w + y3 ra * x3 w)) in *.
  assert (UA : - PI < ua <= PI) by apply atan2_range.
  assert (Ea : ea = along o i ua).
  { destruct (along_2pi o i (U_from_r_w ra w) ua) as [A _]; [apply cos_wrap|apply sin_wrap|]. rewrite A in L.
    rewrite gs_ea0. rewrite L at 2. generalize (along o i ua). intros v. veq; field; lra. }
  assert (Ee : e0 = ahead o i ua).
  { rewrite <- (double_cross ea e0 U O). fold w. rewrite <- NW, <- (along_cross o i ua), Ea.
    apply double_cross; [apply along_unit|apply along_ahead]. }
  assert (B : 0 < norm rb) by (assert (H := norm_nonneg rb); nra).
  assert (CB := COS_bound ta).
  assert (Pp : 0 < p) by (rewrite gs_at_a0; apply Rmult_lt_0_compat; [auto|]; match goal with H : 0 <= e < 1 |- _ => clear - H CB; nra end).
  assert (D : 0 < 1 - e * e) by nra.
  rewrite gs_el0. cbn [semimajor_axis eccentricity inclination raan argument_of_perigee mean_anomaly el_epoch].
  split; [apply Rdiv_pos; auto|]. split; [auto|]. split; [apply I_range|]. split; [apply RAAN_range|].
  split. { unfold wrap. destruct (nlt_spec (ua - ta) 0); lra. }
  split; [auto|]. cbv zeta.
  set (aop := wrap (ua - ta)). set (ma := _ - e * sin _).
  assert (AT : forall t, along o i (aop + (ta + t)) = along o i (ua + t)).
  { intros t. apply along_2pi.
    - rewrite cos_plus. unfold aop. rewrite cos_wrap, sin_wrap, <- cos_plus. f_equal. ring.
    - rewrite sin_plus. unfold aop. rewrite cos_wrap, sin_wrap, <- sin_plus. f_equal. ring. }
  set (d := atan2 (norm r0) (dot rb ea)).
  destruct (atan2_polar (norm r0) (dot rb ea)) as [Cd Sd]. fold d in Cd, Sd.
  replace (sqrt (dot rb ea * dot rb ea + norm r0 * norm r0)) with (norm rb) in Cd, Sd
    by (symmetry; apply sqrt_eq; lra).
  exists (atan2 (sqrt (1 - e * e) * sin ta) (cos ta + e)), (atan2 (sqrt (1 - e * e) * sin (ta + d)) (cos (ta + d) + e)).
  rewrite !point_place, !place_true by auto. split; [|split; [|split; [apply atan2_range|split; [apply atan2_range|split; [reflexivity|split; [rewrite NW; exact Cr|field; lra]]]]]].
  - replace (aop + ta) with (aop + (ta + 0)) by ring. rewrite AT, Rplus_0_r, <- Ea.
    rewrite gs_at_a0. replace (norm ra * (1 + e * cos ta) / (1 + e * cos ta)) with (norm ra) by (field; nra). auto.
  - rewrite AT. destruct (along_shift o i ua d) as [A _]. rewrite <- A, <- Ea, <- Ee.
    rewrite gs_at_b0. assert (Cd' : cos d = dot rb ea / norm rb) by (rewrite Cd; field; lra).
    assert (Sd' : sin d = norm r0 / norm rb) by (rewrite Sd; field; lra).
    rewrite <- Cd', <- Sd', <- cos_plus. assert (CB' := COS_bound (ta + d)).
    replace (norm rb * (1 + e * cos (ta + d)) / (1 + e * cos (ta + d))) with (norm rb) by (field; nra).
    rewrite Rb at 2. rewrite Cd, Sd. generalize (norm rb). intros k. veq; ring.
Qed.

Lemma place_dot el x y : let a := semimajor_axis el in let e := eccentricity el in 0 <= 1 - e * e ->
  dot (place el x) (place el y) = a * a * ((cos x - e) * (cos y - e) + (1 - e * e) * (sin x * sin y)).
Proof.
  cbv zeta. intros H. unfold place. cbv zeta. assert (Q := sqrt_sqrt _ H).
  assert (A := along_unit (raan el) (inclination el) (argument_of_perigee el)).
  assert (B := ahead_unit (raan el) (inclination el) (argument_of_perigee el)).
  assert (O := along_ahead (raan el) (inclination el) (argument_of_perigee el)).
  revert A B O Q. generalize (along (raan el) (inclination el) (argument_of_perigee el)) (ahead (raan el) (inclination el) (argument_of_perigee el)).
  generalize (sqrt (1 - eccentricity el * eccentricity el)). intros q u v A B O Q.
  assert (E : forall j k s t, dot (add (scale j u) (scale k v)) (add (scale s u) (scale t v)) = j * s * dot u u + (j * t + k * s) * dot u v + k * t * dot v v)
    by (intros; unfold dot; cbn; ring).
  rewrite E, A, B, O, <- Q. ring.
Qed.
Lemma place_cross el x y : let a := semimajor_axis el in let e := eccentricity el in
  cross (place el x) (place el y) = scale (a * a * sqrt (1 - e * e) * ((cos x - e) * sin y - (cos y - e) * sin x)) (orbit_normal (raan el) (inclination el)).
Proof.
  cbv zeta. unfold place. cbv zeta. rewrite <- (along_cross (raan el) (inclination el) (argument_of_perigee el)).
  generalize (along (raan el) (inclination el) (argument_of_perigee el)) (ahead (raan el) (inclination el) (argument_of_perigee el)).
  intros u v. veq; ring.
Qed.
Lemma place_period el x : place el (x + 2 * PI) = place el x.
Proof. unfold place. rewrite cos_plus, sin_plus, cos_2PI, sin_2PI, !Rmult_0_r, !Rmult_1_r, Rminus_0_r, Rplus_0_r. reflexivity. Qed.
Lemma normal_unit o i : dot (orbit_normal o i) (orbit_normal o i) = 1.
Proof.
  rewrite <- (along_cross o i 0).
  replace (dot (cross (along o i 0) (ahead o i 0)) (cross (along o i 0) (ahead o i 0))) with
    (dot (along o i 0) (along o i 0) * dot (ahead o i 0) (ahead o i 0) - dot (along o i 0) (ahead o i 0) * dot (along o i 0) (ahead o i 0))
    by (generalize (along o i 0) (ahead o i 0); intros u v; unfold dot, cross; cbn; ring).
  rewrite along_unit, ahead_unit, along_ahead. ring.
Qed.
Lemma scale_inj h k v : dot v v = 1 -> scale h v = scale k v -> h = k.
Proof.
  intros U E. apply (f_equal (fun u => dot u v)) in E.
  replace (dot (scale h v) v) with (h * dot v v) in E by (unfold dot; cbn; ring).
  replace (dot (scale k v) v) with (k * dot v v) in E by (unfold dot; cbn; ring). rewrite U in E. lra.
Qed.
(** Half sums and half differences of the eccentric anomalies. *)
Lemma half_angles x y : let g := (y - x) / 2 in let G := (x + y) / 2 in
  cos x = cos G * cos g + sin G * sin g /\ cos y = cos G * cos g - sin G * sin g /\
  sin x = sin G * cos g - cos G * sin g /\ sin y = sin G * cos g + cos G * sin g.
Proof.
  intros g G. replace x with (G - g) by (unfold g, G; field). replace y with (G + g) by (unfold g, G; field).
  replace (G + g - (G - g)) with (2 * g) by ring. rewrite cos_minus, cos_plus, sin_minus, sin_plus. auto.
Qed.

Lemma W_sine g : 0 < g < PI -> 0 < sin (g / 2) ^ 2 < 1 /\ W (sin (g / 2) ^ 2) = (2 * g - sin (2 * g)) / sin g ^ 3.
Proof.
  intros H. assert (S : 0 < sin (g / 2)) by (apply sin_gt_0; lra). assert (C : 0 < cos (g / 2)) by (apply cos_gt_0; lra).
  assert (T := sin2_cos2' (g / 2)). split; [split; nra|].
  unfold W. cbv zeta. replace (sqrt (sin (g / 2) ^ 2)) with (sin (g / 2)) by (symmetry; apply sqrt_eq; [lra|ring]).
  rewrite asin_sin by lra. replace (2 * (g / 2)) with g by field. reflexivity.
Qed.

Lemma flight a e xa xb A B d s n tau m l K : 0 < a -> 0 <= e < 1 -> 0 < xb - xa < 2 * PI ->
  A = a * (1 - e * cos xa) -> B = a * (1 - e * cos xb) ->
  d = a * a * ((cos xa - e) * (cos xb - e) + (1 - e * e) * (sin xa * sin xb)) ->
  s = a * a * sqrt (1 - e * e) * ((cos xa - e) * sin xb - (cos xb - e) * sin xa) -> 0 < s ->
  K = sqrt (2 * (A * B + d)) -> tau <> 0 -> a * (1 - e * e) = (s * n / tau) ^ 2 ->
  m = tau ^ 2 / K ^ 3 -> l = (A + B) / (2 * K) - 1 / 2 ->
  in_domain m l n /\ m / n ^ 2 - l = sin ((xb - xa) / 4) ^ 2 /\
  a * sqrt a * ((xb - e * sin xb) - (xa - e * sin xa)) = Rabs tau * ((F m l n + n) / Rabs n).
Proof.
  intros Pa He Hx EA EB Ed Es Ps EK Nt Ep Em El.
  destruct (half_angles xa xb) as (Cx & Cy & Sx & Sy). set (g := (xb - xa) / 2) in *. set (G := (xa + xb) / 2) in *.
  assert (Hg : 0 < g < PI) by (unfold g; lra).
  assert (Sg : 0 < sin g) by (apply sin_gt_0; lra). assert (Tg := sin2_cos2' g). assert (TG := sin2_cos2' G).
  assert (Q := sqrt_sqrt (1 - e * e) ltac:(nra)). assert (Pq : 0 < sqrt (1 - e * e)) by (apply sqrt_lt_R0; nra).
  set (q := sqrt (1 - e * e)) in *. clearbody q.
  set (c := cos g - e * cos G).
  assert (Es' : s = 2 * a * a * q * sin g * c).
  { rewrite Es, Cx, Cy, Sx, Sy. unfold c. 
    replace ((cos G * cos g + sin G * sin g - e) * (sin G * cos g + cos G * sin g) - (cos G * cos g - sin G * sin g - e) * (sin G * cos g - cos G * sin g))
      with (2 * sin g * (cos g * (sin G * sin G + cos G * cos G) - e * cos G)) by ring.
    replace (sin G * sin G + cos G * cos G) with 1 by lra. ring. }
  assert (Pc : 0 < c).
  { destruct (Rlt_le_dec 0 c) as [|L]; auto. exfalso. assert (0 < 2 * a * a * q * sin g) by (repeat apply Rmult_lt_0_compat; lra). nra. }
  assert (EK' : K = 2 * a * c).
  { rewrite EK. apply sqrt_eq; [nra|]. rewrite EA, EB, Ed, Cx, Cy, Sx, Sy. unfold c.
    assert (sG : sin G * sin G = 1 - cos G * cos G) by lra. assert (sg : sin g * sin g = 1 - cos g * cos g) by lra.
    replace ((sin G * cos g - cos G * sin g) * (sin G * cos g + cos G * sin g)) with ((sin G * sin G) * (cos g * cos g) - (cos G * cos G) * (sin g * sin g)) by ring.
    replace ((cos G * cos g + sin G * sin g - e) * (cos G * cos g - sin G * sin g - e)) with
      ((cos G * cos g - e) * (cos G * cos g - e) - (sin G * sin G) * (sin g * sin g)) by ring.
    replace (a * (1 - e * (cos G * cos g + sin G * sin g)) * (a * (1 - e * (cos G * cos g - sin G * sin g)))) with
      (a * a * ((1 - e * (cos G * cos g)) * (1 - e * (cos G * cos g)) - e * e * ((sin G * sin G) * (sin g * sin g)))) by ring.
    rewrite sG, sg. ring. }
  assert (PK : 0 < K) by (rewrite EK'; repeat apply Rmult_lt_0_compat; lra).
  assert (ES : A + B = 2 * a * (sin g * sin g) + K * cos g).
  { rewrite EA, EB, EK', Cx, Cy. unfold c. replace (sin g * sin g) with (1 - cos g * cos g) by lra. ring. }
  assert (Nn : n <> 0).
  { intros ->. rewrite Rmult_0_r in Ep. assert (H : a * (1 - e * e) = 0) by (rewrite Ep; unfold Rdiv; ring).
    rewrite <- Q in H. assert (0 < a * (q * q)) by (repeat apply Rmult_lt_0_compat; auto). lra. }
  assert (E1 : a * (sin g * sin g) = tau ^ 2 / (K ^ 2 * n ^ 2)).
  { assert (Es2 : s = K * a * q * sin g) by (rewrite Es', EK'; ring). rewrite Es2, <- Q in Ep.
    apply Rmult_eq_reg_l with (a * (q * q) * (K ^ 2 * n ^ 2 / tau ^ 2)).
    2:{ assert (a * (q * q) <> 0) by (apply Rgt_not_eq; repeat apply Rmult_lt_0_compat; auto).
        apply Rmult_integral_contrapositive; split; auto. apply Rmult_integral_contrapositive; split.
        - apply Rmult_integral_contrapositive; split; apply pow_nonzero; lra.
        - apply Rinv_neq_0_compat, pow_nonzero; auto. }
    replace (a * (q * q) * (K ^ 2 * n ^ 2 / tau ^ 2) * (tau ^ 2 / (K ^ 2 * n ^ 2))) with (a * (q * q)) by (field; repeat split; auto; lra).
    etransitivity; [|symmetry; exact Ep]. field. auto. }
  assert (Eo : m / n ^ 2 - l = sin (g / 2) ^ 2).
  { assert (H : cos g = 1 - 2 * (sin (g / 2) ^ 2)).
    { replace (cos g) with (cos (2 * (g / 2))) by (f_equal; field). rewrite cos_2a_sin. ring. }
    rewrite Em, El. replace (A + B) with (2 * (tau ^ 2 / (K ^ 2 * n ^ 2)) + K * cos g) by (rewrite <- E1, ES; ring).
    rewrite H. field. split; auto. lra. }
  destruct (W_sine g Hg) as [Wd We]. rewrite <- Eo in Wd, We.
  replace ((xb - xa) / 4) with (g / 2) by (unfold g; field). split; [split; auto|]. split; [auto|].
  assert (Psa := sqrt_lt_R0 a Pa). assert (Qa := sqrt_sqrt a (Rlt_le _ _ Pa)). set (r := sqrt a) in *. clearbody r.
  assert (At : 0 < Rabs tau) by (apply Rabs_pos_lt; auto). assert (An : 0 < Rabs n) by (apply Rabs_pos_lt; auto).
  assert (St : Rabs tau * Rabs tau = tau ^ 2) by (rewrite <- Rabs_mult, Rabs_pos_eq; [ring|nra]).
  assert (Sn : Rabs n * Rabs n = n ^ 2) by (rewrite <- Rabs_mult, Rabs_pos_eq; [ring|nra]).
  assert (Sc : r * sin g = Rabs tau / (K * Rabs n)).
  { apply Rsqr_inj; [apply Rlt_le, Rmult_lt_0_compat; auto|apply Rlt_le, Rdiv_pos; auto; apply Rmult_lt_0_compat; auto|].
    unfold Rsqr. replace (r * sin g * (r * sin g)) with ((r * r) * (sin g * sin g)) by ring. rewrite Qa, E1, <- St, <- Sn. field. split; lra. }
  unfold F. rewrite We, Em.
  replace (xb - e * sin xb - (xa - e * sin xa)) with ((2 * g - sin (2 * g)) + 2 * sin g * c).
  2:{ rewrite sin_2a, Sx, Sy. unfold c, g. field. }
  replace (a * r * (2 * g - sin (2 * g) + 2 * sin g * c)) with
    ((r * sin g) ^ 3 * ((2 * g - sin (2 * g)) / sin g ^ 3) + (r * sin g) * K).
  2:{ rewrite EK', <- Qa. field. lra. }
  rewrite Sc, <- St, <- Sn. generalize ((2 * g - sin (2 * g)) / sin g ^ 3). intros y. field. split; lra.
Qed.

Lemma gauss_flight fuel ra rb t1 t2 el ea r0 e0 ta p n m l n0 :
  gauss_solution fuel ra rb t1 t2 el ea r0 e0 ta p n m l n0 ->
  ~ (x3 (cross ra rb) = 0 /\ y3 (cross ra rb) = 0) ->
  exists xa xb, orbit_point el xa = ra /\ orbit_point el xb = rb /\ xa < xb < xa + 2 * PI /\
    mean_anomaly el = xa - eccentricity el * sin xa /\ in_domain m l n /\
    m / n ^ 2 - l = sin ((xb - xa) / 4) ^ 2 /\
    flight_time el xa xb = Rabs (value t2 - value t1) * 86400 * ((F m l n + n) / Rabs n).
Proof.
  intros G NE. destruct (gauss_through _ _ _ _ _ _ _ _ _ _ _ _ _ _ _ G NE) as (Pa & He & _ & _ & _ & _ & xa & xb0 & Ra & Rb & Xa & Xb & Ma & Cr & Ep).
  destruct G. rewrite point_place in Ra, Rb.
  assert (S0 : 0 < norm ra * norm r0) by (apply Rmult_lt_0_compat; auto).
  assert (exists xb, place el xb = rb /\ 0 < xb - xa < 2 * PI) as (xb & Rb' & Hx).
  { destruct (total_order_T xa xb0) as [[L|L]|L].
    - exists xb0. split; auto. lra.
    - exfalso. apply NE. rewrite <- Ra, <- Rb, L. split; unfold cross; cbn [x3 y3]; ring.
    - exists (xb0 + 2 * PI). rewrite place_period. split; auto. lra. }
  clear xb0 Rb Xb. exists xa, xb. rewrite !point_place. split; auto. split; auto. split; [lra|]. split; auto.
  set (a := semimajor_axis el) in *. set (e := eccentricity el) in *.
  assert (Q : 0 <= 1 - e * e) by nra.
  assert (NN : forall x, norm (place el x) = a * (1 - e * cos x)).
  { intros x. assert (B := COS_bound x). assert (T := sin2_cos2' x).
    assert (H := norm_sq (place el x)). rewrite (place_dot el x x Q) in H. fold a e in H.
    apply Rsqr_inj; [apply norm_nonneg|nra|]. unfold Rsqr. rewrite H. replace (sin x * sin x) with (1 - cos x * cos x) by lra. ring. }
  assert (Nt : sqrt Earth_MU * ((value t2 - value t1) * SECONDS_IN_DAY) <> 0).
  { apply Rmult_integral_contrapositive. split; [apply Rgt_not_eq, sqrt_lt_R0, mu_pos|].
    apply Rmult_integral_contrapositive. split; auto. apply day_nz. }
  assert (MU : sqrt Earth_MU * sqrt Earth_MU = Earth_MU) by (apply sqrt_sqrt; generalize mu_pos; lra).
  assert (PM : 0 < sqrt Earth_MU) by apply sqrt_lt_R0, mu_pos.
  destruct (flight a e xa xb (norm ra) (norm rb) (dot ra rb) (norm ra * norm r0) n
    (sqrt Earth_MU * ((value t2 - value t1) * SECONDS_IN_DAY)) m l (sqrt (2 * (norm ra * norm rb + dot ra rb)))) as (D & O & FT); auto.
  - rewrite <- Ra. apply NN.
  - rewrite <- Rb'. apply NN.
  - rewrite <- Ra, <- Rb'. apply place_dot; auto.
  - rewrite <- Ra in Cr at 1. rewrite <- Rb' in Cr at 1. rewrite place_cross in Cr.
    apply scale_inj in Cr; [|apply normal_unit]. symmetry. exact Cr.
  - rewrite <- Ep. exact gs_p0.
  - rewrite gs_m0. apply Rmult_eq_compat_r. rewrite <- MU at 1. ring.
  - split; auto. split; auto. unfold flight_time. fold a e.
    assert (SA : sqrt (a ^ 3 / mu_earth) = a * sqrt a / sqrt Earth_MU).
    { change mu_earth with Earth_MU. apply sqrt_eq.
      - apply Rlt_le, Rdiv_pos; auto. apply Rmult_lt_0_compat; auto. apply sqrt_lt_R0; auto.
      - replace (a * sqrt a / sqrt Earth_MU * (a * sqrt a / sqrt Earth_MU)) with (a * a * (sqrt a * sqrt a) / (sqrt Earth_MU * sqrt Earth_MU)) by (field; lra).
        rewrite MU, sqrt_sqrt by lra. replace (a ^ 3) with (a * a * a) by ring. reflexivity. }
    rewrite SA. replace (a * sqrt a / sqrt Earth_MU * (xb - e * sin xb - (xa - e * sin xa)))
      with (a * sqrt a * (xb - e * sin xb - (xa - e * sin xa)) / sqrt Earth_MU) by (field; lra).
    rewrite FT, Rabs_mult, (Rabs_pos_eq (sqrt Earth_MU)), Rabs_mult by lra.
    replace (Rabs SECONDS_IN_DAY) with 86400 by (unfold SECONDS_IN_DAY; rewrite Rabs_pos_eq; lra).
    generalize (Rabs (value t2 - value t1)) ((F m l n + n) / Rabs n). intros y z. field. lra.
Qed.

(** In the equatorial plane *)
Lemma gauss_equatorial fuel ra rb t1 t2 el : coes_from_positions fuel ra rb t1 t2 = Ok el ->
  x3 (cross ra rb) = 0 -> y3 (cross ra rb) = 0 ->
  exists xa, mean_anomaly el = xa - eccentricity el * sin xa /\ orbit_point el xa = V3 (norm ra) 0 0.
Proof.
  intros E X Y. apply coes_inv in E. destruct E as (ea & r0 & e0 & ta & p & n & m & l & n0 & G). destruct G.
  destruct (gauss_frame ra rb ea r0 e0) as (U & U0 & O & Ra & Rb & Nb & Cr); auto.
  assert (S0 : norm ra * norm r0 <> 0) by (apply Rgt_not_eq, Rmult_lt_0_compat; auto).
  set (w := cross ea e0) in *. set (e := eccentricity el) in *. clearbody e.
  assert (Pw : dot ra w = 0). { rewrite Ra. unfold w, dot, cross; cbn. ring. }
  assert (Uw : dot w w = 1).
  { unfold w. replace (dot (cross ea e0) (cross ea e0)) with (dot ea ea * dot e0 e0 - dot ea e0 * dot ea e0) by (unfold dot, cross; cbn; ring).
    rewrite U, U0, O. ring. }
  clearbody w. rewrite Cr in X, Y. cbn [scale x3 y3] in X, Y.
  apply Rmult_integral in X. destruct X as [X|X]; [contradiction|]. apply Rmult_integral in Y. destruct Y as [Y|Y]; [contradiction|].
  unfold dot in Uw, Pw. rewrite X, Y in Uw, Pw.
  assert (Z : z3 ra = 0) by nra.
  assert (UA : atan2 (z3 ra) (- x3 ra * y3 w + y3 ra * x3 w) = 0).
  { rewrite X, Y, Z. replace (- x3 ra * 0 + y3 ra * 0) with 0 by ring. apply atan2_00. }
  rewrite UA, (RAAN_equatorial w X Y) in gs_el0. rewrite gs_el0. cbn [mean_anomaly eccentricity]. cbv zeta.
  exists (atan2 (sqrt (1 - e * e) * sin ta) (cos ta + e)). split; [reflexivity|]. rewrite point_place, place_true by auto.
  assert (CB := COS_bound ta).
  rewrite gs_at_a0. replace (norm ra * (1 + e * cos ta) / (1 + e * cos ta)) with (norm ra) by (field; nra).
  destruct (along_2pi 0 (I_from_w w) (wrap (0 - ta) + ta) 0) as [A _].
  - rewrite cos_plus, cos_wrap, sin_wrap, <- cos_plus. f_equal. ring.
  - rewrite sin_plus, cos_wrap, sin_wrap, <- sin_plus. f_equal. ring.
  - rewrite A. unfold along, node, across. rewrite cos_0, sin_0. veq; ring.
Qed.

(** * A concrete pair of positions *)
Lemma coes_ok fuel ra rb t1 t2 ea r0 n m l n0 : 0 < norm ra -> 0 < norm rb -> ea = scale (/ norm ra) ra ->
  r0 = sub rb (scale (dot rb ea) ea) -> 0 < norm r0 -> value t2 - value t1 <> 0 -> 0 < 2 * (norm ra * norm rb + dot ra rb) ->
  m = gauss_m ra rb (value t2 - value t1) -> l = gauss_l ra rb -> n0 = hansen m l -> 0 <= m -> 0 <= l ->
  solve_nu fuel m l (n0 + 0.1) n0 = Ok n ->
  let p := (norm ra * norm r0 * n / (sqrt Earth_MU * ((value t2 - value t1) * SECONDS_IN_DAY))) ^ 2 in
  let ec := p / norm ra - 1 in
  let es := (ec * (dot rb ea / norm rb) - (p / norm rb - 1)) / (norm r0 / norm rb) in
  0 < ec -> ec * ec + es * es < 1 ->
  exists el, coes_from_positions fuel ra rb t1 t2 = Ok el.
Proof.
  intros A B Ea R0 P0 D Bs Em El En Pm Pl Run p ec es Pec Pe.
  assert (NA : ra <> zero3) by (intros Z; apply norm_zero in Z; lra). assert (N0 : r0 <> zero3) by (intros Z; apply norm_zero in Z; lra).
  unfold coes_from_positions. cbv zeta. rewrite normalized_ok by auto. cbn [bind]. rewrite <- Ea.
  replace (v3_minus rb (v3_scaled ea (v3_dot rb ea))) with r0
    by (rewrite R0; change v3_minus with sub; change v3_dot with dot; generalize (dot rb ea); intros k; veq; ring).
  rewrite normalized_ok by auto. cbn [bind]. change v3_magnitude with norm. change v3_dot with dot.
  rewrite ppow_pos, power_three_halves by auto. cbn [bind]. rewrite psqrt_ok by lra. cbn [bind].
  assert (SB : 0 < sqrt (2 * (norm ra * norm rb + dot ra rb))) by (apply sqrt_lt_R0; auto).
  rewrite pdiv_ok by lra. cbn [bind].
  assert (MU : sqrt Earth_MU * sqrt Earth_MU = Earth_MU) by (apply sqrt_sqrt; generalize mu_pos; lra).
  assert (PM : 0 < sqrt Earth_MU) by apply sqrt_lt_R0, mu_pos.
  set (base := 2 * (norm ra * norm rb + dot ra rb)) in *. set (d := value t2 - value t1) in *.
  assert (M : sqrt Earth_MU * d * SECONDS_IN_DAY * (sqrt Earth_MU * d * SECONDS_IN_DAY) * / sqrt base ^ 3 = m).
  { rewrite Em. unfold gauss_m, gauss_chord. fold base. change mu_earth with Earth_MU. change 86400 with SECONDS_IN_DAY.
    rewrite <- MU at 3. generalize SECONDS_IN_DAY. intros y. field. lra. }
  rewrite M. replace ((norm ra + norm rb) / (2 * sqrt base) - 0.5) with l by (rewrite El; unfold gauss_l, gauss_chord; fold base; lra).
  rewrite pdiv_ok by lra. cbn [bind].
  assert (0 <= m / (l + 5 / 6)) by (apply Rdiv_nonneg; lra).
  rewrite psqrt_ok by lra. cbn [bind]. change (12 / 22 + 10 / 22 * sqrt (1 + 44 / 9 * (m / (l + 5 / 6)))) with (hansen m l). rewrite <- En, Run. cbn [bind].
  assert (Nt : sqrt Earth_MU * d * SECONDS_IN_DAY <> 0).
  { apply Rmult_integral_contrapositive. split; [|apply day_nz]. apply Rmult_integral_contrapositive. split; auto. lra. }
  rewrite pdiv_ok by auto. cbn [bind].
  assert (EP : norm ra * norm r0 * n / (sqrt Earth_MU * d * SECONDS_IN_DAY) * (norm ra * norm r0 * n / (sqrt Earth_MU * d * SECONDS_IN_DAY)) = p).
  { unfold p. replace (sqrt Earth_MU * (d * SECONDS_IN_DAY)) with (sqrt Earth_MU * d * SECONDS_IN_DAY) by ring. ring. }
  rewrite EP. do 4 (rewrite pdiv_ok by lra; cbn [bind]).
  assert (0 < norm r0 / norm rb) by (apply Rdiv_pos; auto).
  rewrite pdiv_ok by lra. cbn [bind]. fold ec. fold es. rewrite !wrap_fold.
  destruct (atan2_polar es ec) as [C S]. set (t := atan2 es ec) in *. set (r := sqrt (ec * ec + es * es)) in *.
  assert (Pr : 0 <= r) by apply sqrt_pos.
  assert (Rr : r * r = ec * ec + es * es) by (apply sqrt_sqrt; nra).
  assert (Ct : 0 < cos t) by nra.
  rewrite (pdiv_ok ec) by (rewrite cos_wrap; lra). cbn [bind]. rewrite cos_wrap.
  replace (ec / cos t) with r by (rewrite C; field; lra).
  rewrite pdiv_ok by lra. cbn [bind]. rewrite psqrt_ok by lra. cbn [bind]. eexists. reflexivity.
Qed.

Lemma W_small w : 0 < w <= 1e-6 -> 0 < W w < 1.4.
Proof.
  intros H. assert (A := asin_half w ltac:(lra)). set (y := asin (sqrt w)) in *.
  assert (Sy : sin y = sqrt w). { apply sin_asin. split; [generalize (sqrt_pos w); lra|]. rewrite <- sqrt_1. apply sqrt_le_1; lra. }
  assert (Ss : sin y * sin y = w) by (rewrite Sy; apply sqrt_sqrt; lra).
  assert (P2 := PI_bounds). assert (Ly := sin_lower y ltac:(lra)).
  assert (Y : y < 0.01).
  { assert (Yh : y < 1.58) by lra. assert (L2 : y / 2 <= sin y) by nra.
    destruct (Rlt_le_dec y 0.01) as [|G]; auto. exfalso. assert (0.005 * 0.005 <= sin y * sin y) by nra. lra. }
  unfold W. cbv zeta. fold y. set (g := 2 * y).
  assert (G : 0 < g < 0.02) by (unfold g; lra).
  assert (Lg := sin_lower g ltac:(lra)). assert (L2 := sin_lower (2 * g) ltac:(lra)).
  assert (Up := sin_lt_x (2 * g) ltac:(lra)).
  assert (Sg : 0.99 * g <= sin g) by nra.
  assert (C3 : 0.97 * (g * g * g) <= sin g ^ 3).
  { apply Rle_trans with ((0.99 * g) ^ 3); [assert (0 < g * g * g) by (repeat apply Rmult_lt_0_compat; lra); nra|]. apply pow_incr. lra. }
  assert (P3 : 0 < g * g * g) by (repeat apply Rmult_lt_0_compat; lra).
  split; [apply Rdiv_pos; lra|].
  apply Rmult_lt_reg_r with (sin g ^ 3); [lra|]. unfold Rdiv. rewrite Rmult_assoc, Rinv_l by lra. nra.
Qed.

Definition arc_s : R := 1e-7.
Definition arc_h : R := sqrt (1 - arc_s * arc_s).
Definition arc_a (u v : R) : vec3 := V3 (7000 * arc_h) (- (7000 * arc_s * u)) (- (7000 * arc_s * v)).
Definition arc_b (u v : R) : vec3 := V3 (7000 * arc_h) (7000 * arc_s * u) (7000 * arc_s * v).
Definition arc_m : R := 2 / 5 * arc_s ^ 2 / arc_h.
Definition arc_l : R := 1 / (2 * arc_h) - 1 / 2.
Definition arc_days : R := sqrt (arc_m * (14000 * arc_h) ^ 3 / Earth_MU) / 86400.

Lemma arc_hs : arc_h * arc_h = 1 - arc_s * arc_s /\ 0.999 < arc_h < 1.
Proof.
  assert (Q : arc_h * arc_h = 1 - arc_s * arc_s) by (apply sqrt_sqrt; unfold arc_s; lra). split; auto.
  assert (P : 0 <= arc_h) by apply sqrt_pos. unfold arc_s in Q. split; nra.
Qed.
Lemma arc_m_range : 0 < arc_m < 1e-14 /\ 0 < arc_l /\ arc_l < 0.65 * arc_m.
Proof.
  destruct arc_hs as [Q H]. unfold arc_m, arc_l.
  assert (L : 1 / (2 * arc_h) - 1 / 2 = arc_s * arc_s / (2 * arc_h * (1 + arc_h))).
  { replace (arc_s * arc_s) with (1 - arc_h * arc_h) by lra. field. lra. }
  rewrite L. unfold arc_s in *. set (h := arc_h) in *. clearbody h. clear L.
  assert (I : 0 < / h < 1.01).
  { split; [apply Rinv_0_lt_compat; lra|]. apply Rmult_lt_reg_r with h; [lra|]. rewrite Rinv_l by lra. lra. }
  assert (J : 0 < / (1 + h) < 0.51).
  { split; [apply Rinv_0_lt_compat; lra|]. apply Rmult_lt_reg_r with (1 + h); [lra|]. rewrite Rinv_l by lra. lra. }
  replace (1e-7 * 1e-7 / (2 * h * (1 + h))) with (1e-7 * 1e-7 / 2 * (/ h * / (1 + h))) by (generalize 1e-7; intros; field; lra).
  replace (2 / 5 * 1e-7 ^ 2 / h) with (2 / 5 * (1e-7 * 1e-7) * / h) by (generalize 1e-7; intros; field; lra).
  set (i := / h) in *. set (j := / (1 + h)) in *. clearbody i j.
  assert (0 < i * j) by (apply Rmult_lt_0_compat; lra). assert (i * j < 0.51 * i) by nra. split; [|split]; [split|..]; lra.
Qed.
Lemma arc_hansen : 1 <= hansen arc_m arc_l <= 1 + 1.34 * arc_m.
Proof.
  destruct arc_m_range as (M & L & _). unfold hansen. set (x := 44 / 9 * (arc_m / (arc_l + 5 / 6))).
  assert (X : 0 <= x <= 5.87 * arc_m).
  { assert (Q : 0 < arc_m / (arc_l + 5 / 6) <= 6 / 5 * arc_m).
    { split; [apply Rdiv_pos; lra|]. apply Rmult_le_reg_r with (arc_l + 5 / 6); [lra|]. unfold Rdiv at 1. rewrite Rmult_assoc, Rinv_l by lra. nra. }
    unfold x. lra. }
  assert (S1 : 1 <= sqrt (1 + x)) by (rewrite <- sqrt_1 at 1; apply sqrt_le_1; lra).
  assert (Q := sqrt_sqrt (1 + x) ltac:(lra)). assert (S2 : sqrt (1 + x) <= 1 + x / 2) by nra. lra.
Qed.
Lemma arc_domain n : 1 <= n <= 1.11 -> in_domain arc_m arc_l n /\ 0 < arc_m / n ^ 2 * W (arc_m / n ^ 2 - arc_l) < 1.4 * arc_m.
Proof.
  intros H. destruct arc_m_range as (M & L & LM).
  assert (N2 : 1 <= n ^ 2 <= 1.24) by nra.
  assert (Q : 0.8 * arc_m <= arc_m / n ^ 2 <= arc_m).
  { split; (apply Rmult_le_reg_r with (n ^ 2); [lra|]); unfold Rdiv; rewrite (Rmult_assoc arc_m), Rinv_l by lra; nra. }
  unfold in_domain. set (k := arc_m / n ^ 2) in *. clearbody k.
  assert (Ws := W_small (k - arc_l) ltac:(split; lra)). set (w := W (k - arc_l)) in *. clearbody w.
  split; [split; [lra|]|]; [split; lra|]. split; [apply Rmult_lt_0_compat; lra|]. nra.
Qed.
Lemma arc_run fuel : (0 < fuel)%nat -> let n0 := hansen arc_m arc_l in exists n,
  solve_nu fuel arc_m arc_l (n0 + 0.1) n0 = Ok n /\ 0.999 < n < 1.001.
Proof.
  intros K n0. destruct arc_m_range as (M & L & LM). assert (N := arc_hansen). fold n0 in N.
  destruct (arc_domain n0) as [Db Fb]; [lra|]. destruct (arc_domain (n0 + 0.1)) as [Da Fa]; [lra|].
  set (f := F arc_m arc_l) in *.
  assert (B : - (1.34 * arc_m) <= f n0 <= 1.4 * arc_m) by (unfold f, F; lra).
  assert (A : f (n0 + 0.1) <= -0.1 + 1.4 * arc_m) by (unfold f, F; lra).
  assert (D : 0.09 < f n0 - f (n0 + 0.1)) by lra.
  assert (S : secant f (n0 + 0.1) n0 - n0 = f n0 * 0.1 / (f n0 - f (n0 + 0.1))).
  { unfold secant. replace (n0 - (n0 + 0.1)) with (- (0.1)) by ring. unfold Rdiv. ring. }
  assert (T : Rabs (secant f (n0 + 0.1) n0 - n0) < 1e-12).
  { rewrite S. unfold Rdiv. assert (I : 0 < / (f n0 - f (n0 + 0.1)) < 12).
    { split; [apply Rinv_0_lt_compat; lra|]. apply Rmult_lt_reg_r with (f n0 - f (n0 + 0.1)); [lra|]. rewrite Rinv_l by lra. lra. }
    set (i := / (f n0 - f (n0 + 0.1))) in *. clearbody i. apply Rabs_def1; nra. }
  exists (secant f (n0 + 0.1) n0). split.
  - apply solve_complete with 0%nat; auto. apply run_stop; auto. fold f. lra.
  - apply Rabs_def2 in T. lra.
Qed.

Lemma arc_coes fuel u v : (0 < fuel)%nat -> u * u + v * v = 1 ->
  exists el, coes_from_positions fuel (arc_a u v) (arc_b u v) (Epoch 0) (Epoch arc_days) = Ok el.
Proof.
  intros K U. destruct arc_hs as [Q H]. destruct arc_m_range as (M & L & _). destruct (arc_run fuel K) as (n & Run & Hn).
  assert (NA : norm (arc_a u v) = 7000).
  { unfold norm, arc_a. apply sqrt_eq; [lra|]. cbn [x3 y3 z3]. unfold dot; cbn [x3 y3 z3].
    replace (7000 * arc_h * (7000 * arc_h) + - (7000 * arc_s * u) * - (7000 * arc_s * u) + - (7000 * arc_s * v) * - (7000 * arc_s * v))
      with (7000 * 7000 * (arc_h * arc_h + arc_s * arc_s * (u * u + v * v))) by ring. rewrite U, Q. ring. }
  assert (NB : norm (arc_b u v) = 7000).
  { unfold norm, arc_b. apply sqrt_eq; [lra|]. unfold dot; cbn [x3 y3 z3].
    replace (7000 * arc_h * (7000 * arc_h) + 7000 * arc_s * u * (7000 * arc_s * u) + 7000 * arc_s * v * (7000 * arc_s * v))
      with (7000 * 7000 * (arc_h * arc_h + arc_s * arc_s * (u * u + v * v))) by ring. rewrite U, Q. ring. }
  assert (DD : dot (arc_a u v) (arc_b u v) = 7000 * 7000 * (2 * (arc_h * arc_h) - 1)).
  { unfold dot, arc_a, arc_b; cbn [x3 y3 z3].
    replace (7000 * arc_h * (7000 * arc_h) + - (7000 * arc_s * u) * (7000 * arc_s * u) + - (7000 * arc_s * v) * (7000 * arc_s * v))
      with (7000 * 7000 * (arc_h * arc_h - arc_s * arc_s * (u * u + v * v))) by ring. rewrite U.
    replace (arc_s * arc_s) with (1 - arc_h * arc_h) by lra. ring. }
  assert (CH : gauss_chord (arc_a u v) (arc_b u v) = 14000 * arc_h).
  { unfold gauss_chord. rewrite NA, NB, DD. apply sqrt_eq; [lra|]. ring. }
  assert (Ps : 0 < arc_s) by (unfold arc_s; lra).
  assert (PMK : 0 < arc_m * (14000 * arc_h) ^ 3 / Earth_MU).
  { apply Rdiv_pos; [|apply mu_pos]. apply Rmult_lt_0_compat; [lra|]. apply pow_lt. lra. }
  assert (Pd : 0 < arc_days) by (unfold arc_days; apply Rdiv_pos; [apply sqrt_lt_R0; auto|lra]).
  assert (Sd : (arc_days * 86400) ^ 2 = arc_m * (14000 * arc_h) ^ 3 / Earth_MU).
  { unfold arc_days. replace (sqrt (arc_m * (14000 * arc_h) ^ 3 / Earth_MU) / 86400 * 86400) with (sqrt (arc_m * (14000 * arc_h) ^ 3 / Earth_MU)) by lra.
    rewrite <- (sqrt_sqrt (arc_m * (14000 * arc_h) ^ 3 / Earth_MU)) at 2 by lra. ring. }
  set (ea := scale (/ norm (arc_a u v)) (arc_a u v)).
  assert (DE : dot (arc_b u v) ea = 7000 * (2 * (arc_h * arc_h) - 1)).
  { unfold ea. rewrite NA. replace (dot (arc_b u v) (scale (/ 7000) (arc_a u v))) with (dot (arc_a u v) (arc_b u v) / 7000) by (unfold dot; cbn; field).
    rewrite DD. field. }
  set (r0 := sub (arc_b u v) (scale (dot (arc_b u v) ea) ea)).
  assert (N0 : norm r0 = 14000 * arc_s * arc_h).
  { unfold norm. apply sqrt_eq; [repeat apply Rmult_le_pos; lra|]. unfold r0. 
    assert (UE : dot ea ea = 1).
    { unfold ea. rewrite NA. replace (dot (scale (/ 7000) (arc_a u v)) (scale (/ 7000) (arc_a u v))) with (dot (arc_a u v) (arc_a u v) / (7000 * 7000)) by (unfold dot; cbn; field).
      rewrite <- norm_sq, NA. field. }
    assert (X : forall k a b, dot (sub b (scale k a)) (sub b (scale k a)) = dot b b - 2 * k * dot b a + k * k * dot a a)
      by (intros; unfold dot; cbn; ring).
    rewrite X.
    rewrite <- norm_sq, NB, DE, UE. replace (14000 * arc_s * arc_h * (14000 * arc_s * arc_h)) with (14000 * 14000 * (arc_s * arc_s) * (arc_h * arc_h)) by ring.
    replace (arc_s * arc_s) with (1 - arc_h * arc_h) by lra. ring. }
  assert (MU : sqrt Earth_MU * sqrt Earth_MU = Earth_MU) by (apply sqrt_sqrt; generalize mu_pos; lra).
  assert (PM : 0 < sqrt Earth_MU) by apply sqrt_lt_R0, mu_pos. assert (MP := mu_pos).
  assert (EP : (norm (arc_a u v) * norm r0 * n / (sqrt Earth_MU * (arc_days * SECONDS_IN_DAY))) ^ 2 = 7000 * (5 / 4 * (n * n))).
  { rewrite NA, N0. change SECONDS_IN_DAY with 86400. set (tt := arc_days * 86400) in *.
    assert (TT : 0 < tt) by (unfold tt; lra).
    replace ((7000 * (14000 * arc_s * arc_h) * n / (sqrt Earth_MU * tt)) ^ 2) with
      ((7000 * (14000 * arc_s * arc_h) * n) ^ 2 / ((sqrt Earth_MU * sqrt Earth_MU) * tt ^ 2)) by (field; lra).
    rewrite MU, Sd. unfold arc_m. set (mu := Earth_MU) in *. clearbody mu. field. repeat split; lra. }
  apply (coes_ok fuel _ _ _ _ ea r0 n arc_m arc_l (hansen arc_m arc_l)); auto; cbn [value]; rewrite ?Rminus_0_r, ?EP, ?NA, ?NB, ?N0, ?DE, ?DD; try lra.
  - repeat apply Rmult_lt_0_compat; lra.
  - nra.
  - unfold gauss_m. rewrite CH, Sd. change mu_earth with Earth_MU. generalize dependent Earth_MU. intros mu. intros. field. split; lra.
  - unfold gauss_l. rewrite CH, NA, NB. unfold arc_l. field. lra.
  - replace (7000 * (5 / 4 * (n * n)) / 7000) with (5 / 4 * (n * n)) by field. nra.
  - replace (7000 * (5 / 4 * (n * n)) / 7000) with (5 / 4 * (n * n)) by field.
    assert (C : 0 < 5 / 4 * (n * n) - 1 < 0.3) by (split; nra). set (c := 5 / 4 * (n * n) - 1) in *. clearbody c.
    replace ((c * (7000 * (2 * (arc_h * arc_h) - 1) / 7000) - c) / (14000 * arc_s * arc_h / 7000)) with (- c * ((1 - arc_h * arc_h) / (arc_s * arc_h))) by (field; lra).
    replace (1 - arc_h * arc_h) with (arc_s * arc_s) by lra. replace (arc_s * arc_s / (arc_s * arc_h)) with (arc_s / arc_h) by (field; lra).
    assert (J : 0 < arc_s / arc_h < 1).
    { split; [apply Rdiv_pos; lra|]. apply Rmult_lt_reg_r with arc_h; [lra|]. unfold Rdiv. rewrite Rmult_assoc, Rinv_l by lra. unfold arc_s; lra. }
    set (j := arc_s / arc_h) in *. clearbody j. clear - C J. assert (c * c < 0.1) by nra. assert (0 <= c * c) by nra. assert (j * j < 1) by nra. replace (c * c + - c * j * (- c * j)) with (c * c * (1 + j * j)) by ring. nra.
Qed.

Lemma coes_distinct fuel ra rb t1 t2 el : coes_from_positions fuel ra rb t1 t2 = Ok el ->
  cross ra rb <> zero3 /\ value t2 <> value t1.
Proof.
  intros E. apply coes_inv in E. destruct E as (ea & r0 & e0 & ta & p & n & m & l & n0 & G). destruct G.
  destruct (gauss_frame ra rb ea r0 e0) as (U & U0 & O & Ra & Rb & Nb & Cr); auto. split; [|lra].
  intros Z. rewrite Cr in Z.
  assert (Uw : dot (cross ea e0) (cross ea e0) = 1).
  { replace (dot (cross ea e0) (cross ea e0)) with (dot ea ea * dot e0 e0 - dot ea e0 * dot ea e0) by (unfold dot, cross; cbn; ring).
    rewrite U, U0, O. ring. }
  assert (H : norm ra * norm r0 = 0).
  { apply (scale_inj _ _ (cross ea e0) Uw). rewrite Z. unfold zero3. veq; ring. }
  assert (0 < norm ra * norm r0) by (apply Rmult_lt_0_compat; auto). lra.
Qed.
Lemma coes_ecc fuel ra rb t1 t2 el : coes_from_positions fuel ra rb t1 t2 = Ok el -> 0 <= eccentricity el < 1.
Proof. intros E. apply coes_inv in E. destruct E as (ea & r0 & e0 & ta & p & n & m & l & n0 & G). destruct G. auto. Qed.
