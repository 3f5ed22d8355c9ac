(** Termination and accuracy of the secant iteration of Gauss's method. *)
From Coq Require Import Reals Lra Psatz Lia Ranalysis5.
From Coquelicot Require Import Coquelicot.
From Verif.Model Require Import Num Constants Linalg Functions Time Celestial Positions States Elements Obs Iod.
From Verif.Spec Require Import Geometry Gravity Orbit Gauss.
From Verif.Proofs Require Import NumLemmas LinalgProofs Analysis FunctionsProofs KeplerProofs ElementsProofs IodProofs.
Local Open Scope R_scope.

(** * W is increasing and convex *)

Definition gap (g : R) : R := 6 * sin g - 2 * sin g ^ 3 - 6 * g * cos g.
Definition slope_g (g : R) : R := 2 * gap g / sin g ^ 5.

Lemma derive_gap g : is_derive gap g (6 * sin g * (g - sin g * cos g)).
Proof.
  unfold gap. auto_derive; auto. assert (T := sin2_cos2' g). generalize dependent (sin g). generalize dependent (cos g). intros c s T.
  replace (c * c) with (1 - s * s) in * by lra. ring_simplify. nra.
Qed.

Lemma asin_derive x : -1 < x < 1 -> is_derive asin x (/ sqrt (1 - x ^ 2)).
Proof.
  intros H. apply is_derive_Reals. apply (derive_pt_eq_1 asin x _ (derivable_pt_asin x H)). rewrite derive_pt_asin.
  replace (x ^ 2) with (x²) by (unfold Rsqr; ring). unfold Rdiv. apply Rmult_1_l.
Qed.

Lemma sin_range g : 0 < g < PI -> 0 < sin g <= 1.
Proof. intros H. split; [apply sin_gt_0; lra|apply SIN_bound]. Qed.

Lemma half_double_sin g : 0 < g < PI -> 0 < g - sin g * cos g.
Proof.
  intros H. assert (S := sin_lt_x (2 * g) ltac:(lra)). rewrite sin_2a in S. lra.
Qed.

Lemma gap_pos g : 0 < g < PI -> 0 < gap g.
Proof.
  intros H. assert (Z : gap 0 = 0) by (unfold gap; rewrite sin_0, cos_0; ring).
  destruct (MVT_cor2 gap (fun g => 6 * sin g * (g - sin g * cos g)) 0 g ltac:(lra)) as [c [E Hc]].
  { intros c _. apply is_derive_Reals, derive_gap. }
  assert (S := sin_range c ltac:(lra)). assert (D := half_double_sin c ltac:(lra)).
  assert (0 < 6 * sin c * (c - sin c * cos c) * (g - 0)) by (repeat apply Rmult_lt_0_compat; lra). lra.
Qed.

Definition bend (g : R) : R := 6 * g + 24 * g * cos g ^ 2 + 4 * sin g ^ 3 * cos g - 30 * sin g * cos g.
Lemma derive_bend g : is_derive bend g (8 * sin g * gap g).
Proof.
  unfold bend, gap. auto_derive; auto. assert (T := sin2_cos2' g). generalize dependent (sin g). generalize dependent (cos g). intros c s T.
  assert (C : c * c = 1 - s * s) by lra.
  transitivity (6 + 24 * (c * c) - 48 * g * c * s + 12 * (s * s) * (c * c) - 4 * (s * s) * (s * s) - 30 * (c * c) + 30 * (s * s)); [ring|].
  rewrite C. ring.
Qed.
Lemma bend_pos g : 0 < g < PI -> 0 < bend g.
Proof.
  intros H. assert (Z : bend 0 = 0) by (unfold bend; rewrite sin_0, cos_0; ring).
  destruct (MVT_cor2 bend (fun g => 8 * sin g * gap g) 0 g ltac:(lra)) as [c [E Hc]].
  { intros c _. apply is_derive_Reals, derive_bend. }
  assert (S := sin_range c ltac:(lra)). assert (D := gap_pos c ltac:(lra)).
  assert (0 < 8 * sin c * gap c * (g - 0)) by (repeat apply Rmult_lt_0_compat; lra). lra.
Qed.

Lemma slope_pos g : 0 < g < PI -> 0 < slope_g g.
Proof.
  intros H. unfold slope_g. apply Rdiv_pos; [|apply pow_lt, sin_range; auto].
  assert (G := gap_pos g H). lra.
Qed.
Lemma derive_slope g : 0 < g < PI -> is_derive slope_g g (2 * bend g / sin g ^ 6).
Proof.
  intros H. assert (S := sin_range g H). unfold slope_g, bend, gap. auto_derive.
  - change (sin g ^ 5 <> 0). apply pow_nonzero. lra.
  - assert (T := sin2_cos2' g). generalize dependent (sin g). generalize dependent (cos g). intros c s S T.
    apply Rmult_eq_reg_r with (s ^ 10); [|apply pow_nonzero; lra].
    transitivity (2 * (6 * c - 6 * (s * s) * c - 6 * c + 6 * g * s) * s ^ 5 - 10 * (6 * s - 2 * s ^ 3 - 6 * g * c) * c * s ^ 4); [field; lra|].
    transitivity (2 * (6 * g + 24 * g * (c * c) + 4 * s ^ 3 * c - 30 * s * c) * s ^ 4); [|field; lra].
    replace (c * c) with (1 - s * s) by lra.
    transitivity (s ^ 4 * (12 * g * s ^ 2 + 8 * s ^ 3 * c - 60 * s * c + 60 * g * (c * c))); [ring|].
    replace (c * c) with (1 - s * s) by lra. ring.
Qed.
Lemma slope_incr g h : 0 < g -> g <= h -> h < PI -> slope_g g <= slope_g h.
Proof.
  intros A B C. apply (deriv_incr slope_g (fun g => 2 * bend g / sin g ^ 6)); auto.
  - intros c Hc. apply is_derive_Reals, derive_slope. lra.
  - intros c Hc. apply Rlt_le, Rdiv_pos; [|apply pow_lt, sin_range; lra]. assert (G := bend_pos c ltac:(lra)). lra.
Qed.

(** The angle belonging to [w]. *)
Definition gof (w : R) : R := 2 * asin (sqrt w).
Lemma gof_range w : 0 < w < 1 -> 0 < gof w < PI.
Proof. intros H. unfold gof. assert (A := asin_half w H). lra. Qed.
Lemma sqrt_range w : 0 < w < 1 -> 0 < sqrt w < 1 /\ sqrt w * sqrt w = w.
Proof.
  intros H. split; [|apply sqrt_sqrt; lra]. split; [apply sqrt_lt_R0; lra|]. rewrite <- sqrt_1. apply sqrt_lt_1; lra.
Qed.
Lemma sin_gof w : 0 < w < 1 -> sin (gof w) = 2 * (sqrt w * sqrt (1 - w)).
Proof.
  intros H. unfold gof. rewrite sin_2a. destruct (sqrt_range w H) as [R Q]. rewrite sin_asin by lra.
  rewrite cos_asin by lra. unfold Rsqr. rewrite Q. ring.
Qed.
Lemma derive_gof w : 0 < w < 1 -> is_derive gof w (2 / sin (gof w)).
Proof.
  intros H. destruct (sqrt_range w H) as [R Q]. destruct (sqrt_range (1 - w) ltac:(lra)) as [R' Q'].
  rewrite sin_gof by auto. unfold gof.
  apply (is_derive_ext (fun w => scal 2 (asin (sqrt w)))); [reflexivity|].
  replace (2 / (2 * (sqrt w * sqrt (1 - w)))) with (scal 2 (scal (/ (2 * sqrt w)) (/ sqrt (1 - sqrt w ^ 2)))).
  2:{ unfold scal; cbn. unfold mult; cbn. replace (1 - sqrt w * (sqrt w * 1)) with (1 - w) by lra. field. lra. }
  apply is_derive_scal. apply (is_derive_comp asin sqrt).
  - apply asin_derive. lra.
  - auto_derive; [lra|]. field. lra.
Qed.
Lemma gof_incr v w : 0 < v -> v <= w -> w < 1 -> gof v <= gof w.
Proof.
  intros A B C. apply (deriv_incr gof (fun w => 2 / sin (gof w))); auto.
  - intros c Hc. apply is_derive_Reals, derive_gof. lra.
  - intros c Hc. apply Rlt_le, Rdiv_pos; [lra|]. apply sin_range, gof_range. lra.
Qed.

Definition dW (w : R) : R := slope_g (gof w).
Lemma derive_W w : 0 < w < 1 -> is_derive W w (dW w).
Proof.
  intros H. assert (G := gof_range w H). assert (S := sin_range _ G).
  apply (is_derive_ext (fun w => (fun g => (2 * g - sin (2 * g)) / sin g ^ 3) (gof w))); [reflexivity|].
  replace (dW w) with (scal (2 / sin (gof w)) (gap (gof w) / sin (gof w) ^ 4)).
  2:{ unfold dW, slope_g, scal; cbn. unfold mult; cbn. field. lra. }
  apply (is_derive_comp (fun g => (2 * g - sin (2 * g)) / sin g ^ 3) gof); [|apply derive_gof; auto].
  auto_derive; [change (sin (gof w) ^ 3 <> 0); apply pow_nonzero; lra|]. unfold gap. rewrite sin_2a, cos_2a.
  assert (T := sin2_cos2' (gof w)). set (g := gof w) in *. generalize dependent (sin g). generalize dependent (cos g). intros c s S T.
  apply Rmult_eq_reg_r with (s ^ 6); [|apply pow_nonzero; lra].
  transitivity (2 * (1 - c * c + s * s) * s ^ 3 - 6 * g * s ^ 2 * c + 6 * s ^ 3 * (c * c)); [field; lra|].
  transitivity ((6 * s - 2 * s ^ 3 - 6 * g * c) * s ^ 2); [|field; lra].
  replace (c * c) with (1 - s * s) by lra. ring.
Qed.
Lemma dW_pos w : 0 < w < 1 -> 0 < dW w.
Proof. intros H. apply slope_pos, gof_range, H. Qed.
Lemma dW_incr v w : 0 < v -> v <= w -> w < 1 -> dW v <= dW w.
Proof.
  intros A B C. unfold dW. apply slope_incr; [apply gof_range; lra|apply gof_incr; auto|apply gof_range; lra].
Qed.
Lemma W_incr v w : 0 < v -> v <= w -> w < 1 -> W v <= W w.
Proof.
  intros A B C. apply (deriv_incr W dW); auto.
  - intros c Hc. apply is_derive_Reals, derive_W. lra.
  - intros c Hc. apply Rlt_le, dW_pos. lra.
Qed.

(** W starts from 4/3. *)
Lemma W_low w : 0 < w < 1 -> 4 / 3 < W w.
Proof.
  intros H. assert (G := gof_range w H). assert (S := sin_range _ G).
  change (W w) with ((2 * gof w - sin (2 * gof w)) / sin (gof w) ^ 3). set (g := gof w) in *. clearbody g.
  apply Rmult_lt_reg_r with (sin g ^ 3); [apply pow_lt; lra|].
  replace ((2 * g - sin (2 * g)) / sin g ^ 3 * sin g ^ 3) with (2 * g - sin (2 * g)) by (field; lra).
  destruct (MVT_cor2 (fun g => 2 * g - sin (2 * g) - 4 / 3 * sin g ^ 3) (fun g => 4 * sin g ^ 2 * (1 - cos g)) 0 g ltac:(lra)) as [c [E Hc]].
  { intros c _. apply is_derive_Reals. auto_derive; auto. rewrite cos_2a. assert (T := sin2_cos2' c).
    generalize dependent (sin c). generalize dependent (cos c). intros x y T.
    transitivity (2 - 2 * (x * x) + 2 * (y * y) - 4 * y ^ 2 * x); [field|]. replace (x * x) with (1 - y * y) by lra. ring. }
  rewrite Rmult_0_r, sin_0 in E. assert (S' := sin_range c ltac:(lra)).
  assert (C : cos c < 1). { rewrite <- cos_0. apply cos_decreasing_1; lra. }
  assert (0 < 4 * sin c ^ 2 * (1 - cos c) * (g - 0)).
  { repeat apply Rmult_lt_0_compat; try lra; try (apply pow_lt; lra). }
  lra.
Qed.

(** W stays below its first rational approximation. *)
Lemma W_high w : 0 < w < 1 -> W w * (1 - 6 / 5 * w) < 4 / 3.
Proof.
  intros H. assert (G := gof_range w H). assert (S := sin_range _ G).
  assert (EW : w = (1 - cos (gof w)) / 2).
  { destruct (sqrt_range w H) as [R Q]. unfold gof. rewrite cos_2a_sin, sin_asin by lra. lra. }
  change (W w) with ((2 * gof w - sin (2 * gof w)) / sin (gof w) ^ 3). set (g := gof w) in *. clearbody g.
  assert (E0 : forall g, 0 < g < PI -> 0 < sin (2 * g) - 8 * sin g + 6 * g).
  { intros x Hx. destruct (MVT_cor2 (fun g => sin (2 * g) - 8 * sin g + 6 * g) (fun g => 4 * (1 - cos g) ^ 2) 0 x ltac:(lra)) as [c [E Hc]].
    { intros c _. apply is_derive_Reals. auto_derive; auto. rewrite cos_2a_cos. ring. }
    rewrite !Rmult_0_r, sin_0 in E. assert (C : cos c < 1). { rewrite <- cos_0. apply cos_decreasing_1; lra. }
    assert (0 < 4 * (1 - cos c) ^ 2 * (x - 0)) by (apply Rmult_lt_0_compat; [apply Rmult_lt_0_compat; [lra|apply pow_lt; lra]|lra]). lra. }
  destruct (MVT_cor2 (fun g => 20 / 3 * sin g ^ 3 - (2 * g - sin (2 * g)) * (2 + 3 * cos g))
     (fun g => sin g * (sin (2 * g) - 8 * sin g + 6 * g)) 0 g ltac:(lra)) as [c [E Hc]].
  { intros c _. apply is_derive_Reals. auto_derive; auto. rewrite cos_2a, sin_2a. assert (T := sin2_cos2' c).
    generalize dependent (sin c). generalize dependent (cos c). intros x y T.
    transitivity (20 * y ^ 2 * x - (2 - 2 * (x * x) + 2 * (y * y)) * (2 + 3 * x) + (2 * c - 2 * y * x) * (3 * y)); [field|].
    replace (x * x) with (1 - y * y) by lra. ring. }
  rewrite !Rmult_0_r, sin_0 in E. assert (S' := sin_range c ltac:(lra)). specialize (E0 c ltac:(lra)).
  assert (0 < sin c * (sin (2 * c) - 8 * sin c + 6 * c) * (g - 0)) by (repeat apply Rmult_lt_0_compat; lra).
  apply Rmult_lt_reg_r with (sin g ^ 3); [apply pow_lt; lra|].
  replace ((2 * g - sin (2 * g)) / sin g ^ 3 * (1 - 6 / 5 * w) * sin g ^ 3) with ((2 * g - sin (2 * g)) * (1 - 6 / 5 * w)) by (field; lra).
  rewrite EW. lra.
Qed.

(** * F falls and is convex *)

Definition q_of (m n : R) : R := m / n ^ 2.
Definition dF (m l n : R) : R :=
  -1 - 2 / n * (q_of m n * W (q_of m n - l) + q_of m n ^ 2 * dW (q_of m n - l)).

Lemma derive_F m l n : 0 < n -> in_domain m l n -> is_derive (F m l) n (dF m l n).
Proof.
  intros Pn [_ D]. fold (q_of m n) in D.
  assert (DQ : is_derive (q_of m) n (- (2 / n) * q_of m n)).
  { unfold q_of. auto_derive; [change (n ^ 2 <> 0); apply pow_nonzero; lra|]. field. lra. }
  assert (DW : is_derive (fun x => W (q_of m x - l)) n (- (2 / n) * q_of m n * dW (q_of m n - l))).
  { apply (is_derive_comp W (fun x => q_of m x - l)); [apply derive_W; auto|].
    replace (- (2 / n) * q_of m n) with (minus (- (2 / n) * q_of m n) 0) by (unfold minus, plus, opp; cbn; ring).
    apply (is_derive_minus (q_of m) (fun _ => l)); [exact DQ|apply (is_derive_const l n)]. }
  apply (is_derive_ext (fun x => plus (1 - x) (mult (q_of m x) (W (q_of m x - l))))); [reflexivity|].
  replace (dF m l n) with (plus (-1) (plus (mult (- (2 / n) * q_of m n) (W (q_of m n - l))) (mult (q_of m n) (- (2 / n) * q_of m n * dW (q_of m n - l))))).
  2:{ unfold dF, plus, mult; cbn. ring. }
  apply @is_derive_plus; [auto_derive; auto; ring|]. apply (is_derive_mult (q_of m) (fun x => W (q_of m x - l))); auto.
  intros; apply Rmult_comm.
Qed.

Lemma q_anti m x y : 0 < m -> 0 < x -> x <= y -> 0 < q_of m y <= q_of m x.
Proof.
  intros M X Y. unfold q_of. assert (0 < x ^ 2) by (apply pow_lt; lra). assert (x ^ 2 <= y ^ 2) by (apply pow_incr; lra). split.
  - apply Rdiv_pos; lra.
  - unfold Rdiv. apply Rmult_le_compat_l; [lra|]. apply Rinv_le_contravar; lra.
Qed.
Lemma domain_between m l x y z : 0 < m -> 0 < x -> x <= y -> y <= z -> in_domain m l x -> in_domain m l z -> in_domain m l y.
Proof.
  intros M X A B [_ Dx] [_ Dz]. split; [lra|]. fold (q_of m x) in Dx. fold (q_of m z) in Dz. fold (q_of m y).
  assert (H1 := q_anti m x y M X A). assert (H2 := q_anti m y z M ltac:(lra) B). lra.
Qed.
Lemma W_pos w : 0 < w < 1 -> 0 < W w.
Proof. intros H. assert (L := W_low w H). lra. Qed.

Lemma dF_incr m l x y : 0 < m -> 0 < x -> x <= y -> in_domain m l x -> in_domain m l y -> dF m l x <= dF m l y.
Proof.
  intros M X A [_ Dx] [_ Dy]. fold (q_of m x) in Dx. fold (q_of m y) in Dy. assert (Q := q_anti m x y M X A). unfold dF.
  assert (W1 := W_incr (q_of m y - l) (q_of m x - l) ltac:(lra) ltac:(lra) ltac:(lra)).
  assert (W2 := dW_incr (q_of m y - l) (q_of m x - l) ltac:(lra) ltac:(lra) ltac:(lra)).
  assert (P1 := W_pos _ Dy). assert (P2 := dW_pos _ Dy).
  assert (I : 2 / y <= 2 / x). { unfold Rdiv. apply Rmult_le_compat_l; [lra|]. apply Rinv_le_contravar; lra. }
  assert (J : 0 < 2 / y) by (apply Rdiv_pos; lra).
  assert (q_of m y * W (q_of m y - l) + q_of m y ^ 2 * dW (q_of m y - l) <= q_of m x * W (q_of m x - l) + q_of m x ^ 2 * dW (q_of m x - l)).
  { apply Rplus_le_compat; apply Rmult_le_compat; try lra; try (apply pow_le; lra). apply pow_incr; lra. }
  assert (0 < q_of m y * W (q_of m y - l) + q_of m y ^ 2 * dW (q_of m y - l)).
  { apply Rplus_lt_0_compat; apply Rmult_lt_0_compat; try lra. apply pow_lt; lra. }
  assert (2 / y * (q_of m y * W (q_of m y - l) + q_of m y ^ 2 * dW (q_of m y - l)) <= 2 / x * (q_of m x * W (q_of m x - l) + q_of m x ^ 2 * dW (q_of m x - l)))
    by (apply Rmult_le_compat; lra).
  lra.
Qed.
Lemma dF_steep m l x : 0 < m -> 0 < x -> in_domain m l x -> dF m l x < -1.
Proof.
  intros M X [_ D]. fold (q_of m x) in D. assert (Q := q_anti m x x M X ltac:(lra)). unfold dF.
  assert (P1 := W_pos _ D). assert (P2 := dW_pos _ D). assert (J : 0 < 2 / x) by (apply Rdiv_pos; lra).
  assert (0 < q_of m x * W (q_of m x - l) + q_of m x ^ 2 * dW (q_of m x - l)).
  { apply Rplus_lt_0_compat; apply Rmult_lt_0_compat; try lra. apply pow_lt; lra. }
  assert (0 < 2 / x * (q_of m x * W (q_of m x - l) + q_of m x ^ 2 * dW (q_of m x - l))) by (apply Rmult_lt_0_compat; lra).
  lra.
Qed.

(** * The secant rule on a convex falling function *)

Record falling (f df : R -> R) (u v K : R) : Prop := {
  fa_d : forall x, u <= x <= v -> derivable_pt_lim f x (df x);
  fa_c : forall x y, u <= x -> x <= y -> y <= v -> df x <= df y;
  fa_s : forall x, u <= x <= v -> - K <= df x <= -1 }.

Lemma chord f df u v K x y : falling f df u v K -> u <= x -> x < y -> y <= v ->
  exists c, x < c < y /\ f y - f x = df c * (y - x) /\ - K <= df c <= -1.
Proof.
  intros [D C S] A B E. destruct (MVT_cor2 f df x y B) as [c [Q Hc]]; [intros c Hc; apply D; lra|].
  exists c. split; [lra|]. split; auto. apply S. lra.
Qed.
(** The slope of the chord of two different points, in either order. *)
Definition slope (f : R -> R) (x y : R) : R := (f y - f x) / (y - x).
Lemma slope_sym f x y : x <> y -> slope f x y = slope f y x.
Proof. intros N. unfold slope. field. split; lra. Qed.
Lemma slope_lt f df u v K x y : falling f df u v K -> u <= x -> x < y -> y <= v ->
  exists c, x < c < y /\ slope f x y = df c /\ - K <= df c <= -1.
Proof.
  intros Fa A B E. destruct (chord f df u v K x y Fa A B E) as (c & Hc & Q & S). exists c. split; auto. split; auto.
  unfold slope. rewrite Q. field. lra.
Qed.
Lemma slope_bounds f df u v K x y : falling f df u v K -> x <> y -> u <= x <= v -> u <= y <= v -> - K <= slope f x y <= -1.
Proof.
  intros Fa N A B. destruct (Rtotal_order x y) as [L|[L|L]]; [|lra|].
  - destruct (slope_lt f df u v K x y Fa) as (c & _ & -> & S); auto; lra.
  - rewrite slope_sym by auto. destruct (slope_lt f df u v K y x Fa) as (c & _ & -> & S); auto; lra.
Qed.
Lemma secant_slope f a b : a <> b -> f b <> f a -> secant f a b = b - f b / slope f a b.
Proof. intros N M. unfold secant, slope. field. split; lra. Qed.
(** Convexity for three points. *)
Lemma slope_mono f df u v K x y z : falling f df u v K -> u <= x -> x < y -> y < z -> z <= v ->
  slope f x y <= slope f y z /\ slope f x y <= slope f x z /\ slope f x z <= slope f y z.
Proof.
  intros Fa A B C E. destruct (slope_lt f df u v K x y Fa) as (c & Hc & E1 & _); try lra.
  destruct (slope_lt f df u v K y z Fa) as (d & Hd & E2 & _); try lra.
  assert (M : slope f x y <= slope f y z) by (rewrite E1, E2; apply (fa_c _ _ _ _ _ Fa); lra). split; auto.
  set (s := slope f x y) in *. set (t := slope f y z) in *.
  assert (Q1 : f y - f x = s * (y - x)) by (unfold s, slope; field; lra).
  assert (Q2 : f z - f y = t * (z - y)) by (unfold t, slope; field; lra).
  assert (Q : f z - f x = slope f x z * (z - x)) by (unfold slope; field; lra). set (k := slope f x z) in *.
  clearbody s t k. split; nra.
Qed.

Lemma falling_lt f df u v K x y : falling f df u v K -> u <= x -> x < y -> y <= v -> f y < f x /\ y - x <= f x - f y.
Proof.
  intros Fa A B C. destruct (chord f df u v K x y Fa A B C) as (c & _ & E & S). nra.
Qed.

(** Where the next point falls. *)
Lemma secant_right f df u v K r a b : falling f df u v K -> u <= r <= v -> f r = 0 -> u <= b + f b ->
  r < b -> b < a -> a <= v ->
  f b <> f a /\ u <= secant f a b <= r.
Proof.
  intros Fa Hr Fr Hin B A V.
  assert (Lb := falling_lt f df u v K b a Fa ltac:(lra) A ltac:(lra)). assert (Rb := falling_lt f df u v K r b Fa ltac:(lra) B ltac:(lra)).
  split; [lra|]. rewrite secant_slope, slope_sym by lra.
  assert (S := slope_bounds f df u v K b a Fa ltac:(lra) ltac:(lra) ltac:(lra)).
  destruct (slope_mono f df u v K r b a Fa) as [M _]; try lra.
  assert (Q : f b = slope f r b * (b - r)) by (unfold slope; rewrite Fr; field; lra).
  assert (S0 := slope_bounds f df u v K r b Fa ltac:(lra) ltac:(lra) ltac:(lra)).
  set (s := slope f b a) in *. set (t := slope f r b) in *.
  assert (E : f b / s = - f b * (- / s)) by (field; lra).
  assert (I : 0 < - / s <= 1).
  { replace (- / s) with (/ - s) by (field; lra). split; [apply Rinv_0_lt_compat; lra|]. rewrite <- Rinv_1. apply Rinv_le_contravar; lra. }
  split.
  - rewrite E. nra.
  - assert (b - r <= f b / s); [|lra]. apply Rmult_le_reg_r with (- s); [lra|].
    replace (f b / s * - s) with (- f b) by (field; lra). rewrite Q. nra.
Qed.
Lemma secant_bracket f df u v K r x y : falling f df u v K -> u <= r <= v -> f r = 0 ->
  u <= x -> x < r -> r < y -> y <= v ->
  f x <> f y /\ r <= secant f x y < y /\ secant f y x = secant f x y.
Proof.
  intros Fa Hr Fr X A B V.
  assert (Lx := falling_lt f df u v K x r Fa ltac:(lra) A ltac:(lra)). assert (Ly := falling_lt f df u v K r y Fa ltac:(lra) B ltac:(lra)).
  split; [lra|]. assert (Sy : secant f y x = secant f x y) by (unfold secant; field; lra).
  split; [|exact Sy]. rewrite secant_slope by lra.
  destruct (slope_mono f df u v K x r y Fa) as (_ & _ & M); try lra.
  assert (S := slope_bounds f df u v K x y Fa ltac:(lra) ltac:(lra) ltac:(lra)).
  assert (Q : f y = slope f r y * (y - r)) by (unfold slope; rewrite Fr; field; lra).
  assert (S0 := slope_bounds f df u v K r y Fa ltac:(lra) ltac:(lra) ltac:(lra)).
  set (s := slope f x y) in *. set (t := slope f r y) in *.
  assert (E : f y / s = - f y * (- / s)) by (field; lra).
  assert (I : 0 < - / s) by (replace (- / s) with (/ - s) by (field; lra); apply Rinv_0_lt_compat; lra).
  split.
  - assert (f y / s <= y - r); [|lra]. apply Rmult_le_reg_r with (- s); [lra|].
    replace (f y / s * - s) with (- f y) by (field; lra). rewrite Q. nra.
  - rewrite E. nra.
Qed.
(** The function is small at a point reached by a small correction. *)
Lemma secant_residual f df u v K tol a b : falling f df u v K -> u <= a <= v -> u <= b <= v -> a <> b -> 0 < tol ->
  u <= secant f a b <= v -> Rabs (secant f a b - b) < tol -> Rabs (f (secant f a b)) <= tol * (K - 1).
Proof.
  intros Fa A B N Pt C D. assert (S := slope_bounds f df u v K a b Fa N A B).
  assert (NF : f b <> f a).
  { intros E. unfold slope in S. rewrite E in S. unfold Rdiv in S. rewrite Rminus_diag_eq, Rmult_0_l in S by auto. lra. }
  assert (Q := secant_slope f a b N NF). set (n := secant f a b) in *. set (s := slope f a b) in *.
  assert (Qb : f b = - s * (n - b)) by (rewrite Q; field; lra).
  destruct (Req_dec n b) as [E|E].
  { rewrite E in *. replace (f b) with 0 by (rewrite Qb; ring). rewrite Rabs_R0. apply Rmult_le_pos; lra. }
  assert (S2 := slope_bounds f df u v K b n Fa ltac:(lra) B C).
  assert (Qn : f n = (slope f b n - s) * (n - b)).
  { replace (f n) with (slope f b n * (n - b) + f b) by (unfold slope; field; lra). rewrite Qb. ring. }
  rewrite Qn, Rabs_mult, Rmult_comm. apply Rmult_le_compat; try apply Rabs_pos; try lra.
  apply Rabs_le. lra.
Qed.

Lemma secant_at_root f (dom : R -> Prop) tol a b : 0 < tol -> dom a -> dom b -> f b = 0 -> f a <> 0 ->
  secant_run f dom tol 0 a b b.
Proof.
  intros Pt A B E N. assert (Q : secant f a b = b) by (unfold secant; rewrite E; field; lra).
  rewrite <- Q at 2. apply run_stop; auto; [lra|]. rewrite Q, Rminus_diag_eq, Rabs_R0 by auto. auto.
Qed.

Lemma secant_converges f df u v K r t tol (dom : R -> Prop) : falling f df u v K -> u <= r <= v -> f r = 0 ->
  (forall x, r <= x <= t -> u <= x + f x) -> (forall x, u <= x <= v -> dom x) -> 0 < tol ->
  forall N a b, r <= b -> b <= t -> b < a -> a <= v -> b - r < INR N * tol ->
  exists k n, secant_run f dom tol k a b n /\ u <= n <= v /\ Rabs (f n) <= tol * (K - 1).
Proof.
  intros Fa Hr Fr Hin Hd Pt.
  assert (K1 : 0 <= tol * (K - 1)) by (assert (S := fa_s _ _ _ _ _ Fa r Hr); apply Rmult_le_pos; lra).
  assert (Stop : forall a b, u <= a <= v -> u <= b <= v -> a <> b -> f b <> f a -> u <= secant f a b <= v -> Rabs (secant f a b - b) < tol ->
    exists k n, secant_run f dom tol k a b n /\ u <= n <= v /\ Rabs (f n) <= tol * (K - 1)).
  { intros a b A B NE NF C D. exists 0%nat, (secant f a b). split; [apply run_stop; auto|]. split; auto.
    apply (secant_residual f df u v); auto. }
  assert (More : forall a b, u <= a <= v -> u <= b <= v -> f b <> f a -> tol <= Rabs (secant f a b - b) ->
    (exists k n, secant_run f dom tol k b (secant f a b) n /\ u <= n <= v /\ Rabs (f n) <= tol * (K - 1)) ->
    exists k n, secant_run f dom tol k a b n /\ u <= n <= v /\ Rabs (f n) <= tol * (K - 1)).
  { intros a b A B NF T (k & n & R & C & D). exists (S k), n. split; auto. apply run_more; auto. }
  assert (Root : forall a b, u <= a <= v -> b = r -> a <> r -> exists k n, secant_run f dom tol k a b n /\ u <= n <= v /\ Rabs (f n) <= tol * (K - 1)).
  { intros a b A -> NE. exists 0%nat, r. split; [|rewrite Fr, Rabs_R0; auto]. apply secant_at_root; auto.
    destruct (Rtotal_order a r) as [L|[L|L]]; [|lra|].
    - assert (X := falling_lt f df u v K a r Fa ltac:(lra) L ltac:(lra)). lra.
    - assert (X := falling_lt f df u v K r a Fa ltac:(lra) L ltac:(lra)). lra. }
  induction N as [|N IH]; intros a b B Bt A V HN.
  { cbn in HN. lra. }
  destruct B as [B| <-]; [|apply Root; lra].
  destruct (secant_right f df u v K r a b Fa Hr Fr (Hin b ltac:(lra)) B A V) as [NF1 C1].
  destruct (Rlt_le_dec (Rabs (secant f a b - b)) tol) as [T1|T1]; [apply Stop; auto; lra|].
  apply More; auto; try lra. set (x := secant f a b) in *. clearbody x. clear T1 NF1.
  destruct C1 as [C1 [C2|C2]]; [|apply Root; lra].
  destruct (secant_bracket f df u v K r x b Fa Hr Fr C1 C2 B ltac:(lra)) as (NF2 & D & E).
  destruct (Rlt_le_dec (Rabs (secant f b x - x)) tol) as [T2|T2]; [apply Stop; auto; try lra; rewrite E; lra|].
  apply More; auto; try lra. rewrite E in *. set (y := secant f x b) in *. clearbody y. clear T2 NF2 E.
  destruct D as [[D1|D1] D2]; [|apply Root; lra].
  destruct (secant_bracket f df u v K r x y Fa Hr Fr C1 C2 D1 ltac:(lra)) as (NF3 & D & E).
  destruct (Rlt_le_dec (Rabs (secant f x y - y)) tol) as [T3|T3]; [apply Stop; auto; lra|].
  apply More; auto; try lra. set (z := secant f x y) in *. clearbody z.
  rewrite Rabs_minus_sym, Rabs_right in T3 by lra. rewrite S_INR in HN. apply IH; lra.
Qed.

(** * The sector-to-triangle ratio is found *)

Lemma hansen_gt m l : 0 < m -> 0 <= l -> 1 < hansen m l.
Proof.
  intros M L. unfold hansen. assert (0 < m / (l + 5 / 6)) by (apply Rdiv_pos; lra).
  assert (1 < sqrt (1 + 44 / 9 * (m / (l + 5 / 6)))) by (rewrite <- sqrt_1 at 1; apply sqrt_lt_1; lra). lra.
Qed.
(** Hansen's guess is never below the root. *)
Lemma hansen_right m l : 0 < m -> 0 <= l -> in_domain m l (hansen m l) -> F m l (hansen m l) <= 0.
Proof.
  intros M L D. assert (H := hansen_gt m l M L).
  assert (Q : m = (l + 5 / 6) * (9 * (11 * hansen m l - 1) * (hansen m l - 1) / 100)).
  { unfold hansen. assert (0 < m / (l + 5 / 6)) by (apply Rdiv_pos; lra).
    assert (S := sqrt_sqrt (1 + 44 / 9 * (m / (l + 5 / 6))) ltac:(lra)). set (s := sqrt _) in *.
    replace (9 * (11 * (12 / 22 + 10 / 22 * s) - 1) * (12 / 22 + 10 / 22 * s - 1) / 100) with (9 / 44 * (s * s - 1)) by field.
    rewrite S. field. lra. }
  destruct D as [_ D]. assert (Wh := W_high _ D). assert (Wp := W_pos _ D). unfold F. set (n := hansen m l) in *.
  assert (Pn : 0 < n ^ 2) by (apply pow_lt; lra).
  assert (Em : m / n ^ 2 = (l + 5 / 6) * (9 * (11 * n - 1) * (n - 1) / (100 * n ^ 2))) by (rewrite Q at 1; field; lra).
  set (w := m / n ^ 2 - l) in *. set (q := m / n ^ 2) in *. assert (Eq : 1 - 6 / 5 * w = 6 / 5 * (l + 5 / 6 - q)) by (unfold w; lra).
  assert (Pd : 0 < l + 5 / 6 - q).
  { rewrite Em. replace (l + 5 / 6 - (l + 5 / 6) * (9 * (11 * n - 1) * (n - 1) / (100 * n ^ 2))) with ((l + 5 / 6) * ((n ^ 2 + 108 * n - 9) / (100 * n ^ 2))) by (field; lra).
    apply Rmult_lt_0_compat; [lra|]. apply Rdiv_pos; nra. }
  assert (Key : q * (10 / 9) <= (n - 1) * (l + 5 / 6 - q)).
  { rewrite Em. replace ((n - 1) * (l + 5 / 6 - (l + 5 / 6) * (9 * (11 * n - 1) * (n - 1) / (100 * n ^ 2)))) with
     ((l + 5 / 6) * (n - 1) * ((n ^ 2 + 108 * n - 9) / (100 * n ^ 2))) by (field; lra).
    replace ((l + 5 / 6) * (9 * (11 * n - 1) * (n - 1) / (100 * n ^ 2)) * (10 / 9)) with ((l + 5 / 6) * (n - 1) * ((110 * n - 10) / (100 * n ^ 2))) by (field; lra).
    apply Rmult_le_compat_l; [apply Rmult_le_pos; lra|]. unfold Rdiv. apply Rmult_le_compat_r; [apply Rlt_le, Rinv_0_lt_compat; lra|]. nra. }
  clearbody w q. assert (Pq : 0 < q \/ q <= 0) by lra. rewrite Eq in Wh.
  assert (q * W w <= n - 1); [|lra].
  destruct Pq as [Pq|Pq]; [|assert (q * W w <= 0) by nra; lra].
  apply Rmult_le_reg_r with (l + 5 / 6 - q); [lra|]. nra.
Qed.

Lemma F_falling m l u v : 0 < m -> 0 < u -> u <= v -> in_domain m l u -> in_domain m l v ->
  falling (F m l) (dF m l) u v (- dF m l u).
Proof.
  intros M U V Du Dv.
  assert (D : forall x, u <= x <= v -> in_domain m l x) by (intros x Hx; apply (domain_between m l u x v); auto; lra).
  split.
  - intros x Hx. apply is_derive_Reals, derive_F; [lra|apply D; lra].
  - intros x y A B C. apply dF_incr; auto; try lra; apply D; lra.
  - intros x Hx. rewrite Ropp_involutive. split; [apply dF_incr; auto; try lra; apply D; lra|].
    apply Rlt_le, dF_steep; auto; lra.
Qed.

Lemma nu_found m l : 0 < m -> 0 <= l -> let h := hansen m l in let u := h + F m l h in
  in_domain m l (h + 0.1) -> in_domain m l h -> in_domain m l u -> 1 < u /\
  (exists r, u <= r <= h /\ F m l r = 0 /\ forall x, 0 < x -> in_domain m l x -> F m l x = 0 -> x = r) /\
  exists k n, secant_run (F m l) (in_domain m l) 1e-12 k (h + 0.1) h n /\
   u <= n <= h + 0.1 /\ in_domain m l n /\ Rabs (F m l n) <= 1e-12 * (- dF m l u - 1).
Proof.
  intros M L h u D1 D0 Du. assert (H := hansen_gt m l M L). fold h in H. assert (HR := hansen_right m l M L D0). fold h in HR.
  assert (EU : forall x, x + F m l x = 1 + q_of m x * W (q_of m x - l)) by (intros; unfold F, q_of; ring).
  assert (U1 : 1 < u).
  { unfold u. rewrite EU. assert (Wp := W_pos _ (proj2 D0)). assert (Q := q_anti m h h M ltac:(lra) ltac:(lra)).
    change (m / h ^ 2) with (q_of m h) in Wp. assert (0 < q_of m h * W (q_of m h - l)) by (apply Rmult_lt_0_compat; lra). lra. }
  split; auto.
  assert (Uh : u <= h) by (unfold u; lra).
  assert (Fa := F_falling m l u (h + 0.1) M ltac:(lra) ltac:(lra) Du D1).
  assert (D : forall x, u <= x <= h + 0.1 -> in_domain m l x) by (intros x Hx; apply (domain_between m l u x (h + 0.1)); auto; lra).
  assert (Gm : forall x y, u <= x -> x <= y -> y <= h + 0.1 -> y + F m l y <= x + F m l x).
  { intros x y A B C. rewrite !EU. assert (Q := q_anti m x y M ltac:(lra) B).
    destruct (D x ltac:(lra)) as [_ Dx]. destruct (D y ltac:(lra)) as [_ Dy]. fold (q_of m x) in Dx. fold (q_of m y) in Dy.
    assert (Wi := W_incr (q_of m y - l) (q_of m x - l) ltac:(lra) ltac:(lra) ltac:(lra)). assert (Wp := W_pos _ Dy).
    assert (q_of m y * W (q_of m y - l) <= q_of m x * W (q_of m x - l)) by (apply Rmult_le_compat; lra). lra. }
  assert (Fu : 0 <= F m l u) by (assert (X := Gm u h ltac:(lra) Uh ltac:(lra)); unfold u in *; lra).
  assert (exists r, u <= r <= h /\ F m l r = 0) as (r & Hr & Fr).
  { destruct (Req_dec (F m l u) 0) as [E|E]; [exists u; split; auto; lra|].
    destruct (Req_dec (F m l h) 0) as [E'|E']; [exists h; split; auto; lra|].
    assert (LT : u < h) by (destruct Uh; auto; exfalso; rewrite H0 in *; lra).
    destruct (IVT_interv (fun x => - F m l x) u h) as (r & Hr & E2); try lra.
    - intros x Hx. apply derivable_continuous_pt. exists (- dF m l x). apply derivable_pt_lim_opp, is_derive_Reals, derive_F; [lra|apply D; lra].
    - exists r. split; auto. lra. }
  split.
  - exists r. split; auto. split; auto. intros x Px Dx Fx.
    destruct (Rtotal_order x r) as [A|[A|A]]; auto; exfalso.
    + assert (Fa' := F_falling m l x r M Px ltac:(lra) Dx ltac:(apply D; lra)).
      assert (Z := falling_lt _ _ _ _ _ x r Fa' ltac:(lra) A ltac:(lra)). lra.
    + assert (Fa' := F_falling m l r x M ltac:(lra) ltac:(lra) ltac:(apply D; lra) Dx).
      assert (Z := falling_lt _ _ _ _ _ r x Fa' ltac:(lra) A ltac:(lra)). lra.
  - assert (exists N, (h - r) / 1e-12 < INR N) as [N HN].
    { destruct (archimed ((h - r) / 1e-12)) as [Ar _]. exists (Z.to_nat (up ((h - r) / 1e-12))). apply Rlt_le_trans with (1 := Ar).
      rewrite INR_IZR_INZ. apply IZR_le. lia. }
    assert (HN' : h - r < INR N * 1e-12).
    { apply Rmult_lt_reg_r with (/ 1e-12); [apply Rinv_0_lt_compat; lra|]. rewrite Rmult_assoc, Rinv_r, Rmult_1_r by lra. exact HN. }
    destruct (secant_converges (F m l) (dF m l) u (h + 0.1) (- dF m l u) r h 1e-12 (in_domain m l) Fa ltac:(lra) Fr) with (N := N) (a := h + 0.1) (b := h)
      as (k & n & R & Hn & Rn); auto; try lra.
    + intros x Hx. assert (X := Gm x h ltac:(lra) ltac:(lra) ltac:(lra)). unfold u. lra.
    + exists k, n. repeat (split; auto); lra.
Qed.

(** Numbers for arcs of up to two thirds of a turn in eccentric anomaly. *)
Lemma sqrt3_bounds : 1.732 < sqrt 3 < 1.7321 /\ sqrt 3 * sqrt 3 = 3.
Proof.
  assert (S := sqrt_sqrt 3 ltac:(lra)). assert (P := sqrt_lt_R0 3 ltac:(lra)). split; [split; nra|auto].
Qed.
Lemma gof_34 : gof (3 / 4) = 2 * (PI / 3).
Proof.
  unfold gof. f_equal. replace (sqrt (3 / 4)) with (sin (PI / 3)).
  - apply asin_sin. assert (P := PI_RGT_0). lra.
  - rewrite sin_PI3. destruct sqrt3_bounds as [B S]. symmetry. apply sqrt_eq; [lra|]. nra.
Qed.
Lemma trig_34 : sin (2 * (PI / 3)) = sqrt 3 / 2 /\ cos (2 * (PI / 3)) = - / 2 /\ sin (2 * (2 * (PI / 3))) = - (sqrt 3 / 2).
Proof.
  assert (A : sin (2 * (PI / 3)) = sqrt 3 / 2) by (rewrite sin_2a, sin_PI3, cos_PI3; field).
  assert (B : cos (2 * (PI / 3)) = - / 2) by (rewrite cos_2a_cos, cos_PI3; field).
  split; auto. split; auto. rewrite sin_2a, A, B. field.
Qed.
Lemma W_34 : W (3 / 4) < 7.8 /\ dW (3 / 4) < 42.
Proof.
  change (W (3 / 4)) with ((2 * gof (3 / 4) - sin (2 * gof (3 / 4))) / sin (gof (3 / 4)) ^ 3).
  unfold dW, slope_g, gap. rewrite gof_34. destruct trig_34 as (A & B & C). rewrite C, A, B. clear A B C.
  destruct sqrt3_bounds as [B S]. assert (P := PI_bounds). set (t := sqrt 3) in *.
  assert (T3 : (t / 2) ^ 3 = 3 / 8 * t) by (replace ((t / 2) ^ 3) with (t * t * t / 8) by field; rewrite S; field).
  assert (T5 : (t / 2) ^ 5 = 9 / 32 * t) by (replace ((t / 2) ^ 5) with (t * t * (t * t) * t / 32) by field; rewrite S; field).
  rewrite T5, T3. split.
  - apply Rmult_lt_reg_r with (3 / 8 * t); [lra|].
    replace ((2 * (2 * (PI / 3)) - - (t / 2)) / (3 / 8 * t) * (3 / 8 * t)) with (2 * (2 * (PI / 3)) + t / 2) by (field; lra). lra.
  - apply Rmult_lt_reg_r with (9 / 32 * t); [lra|].
    replace (2 * (6 * (t / 2) - 2 * (3 / 8 * t) - 6 * (2 * (PI / 3)) * - / 2) / (9 / 32 * t) * (9 / 32 * t)) with (2 * (9 / 4 * t + 2 * PI)) by (field; lra). lra.
Qed.

Lemma steep_bound m l n : 0 < m <= 1 -> m <= l + 3 / 4 -> 1 <= n -> in_domain m l n -> - dF m l n - 1 <= 99.6.
Proof.
  intros M ML N D. destruct D as [_ D]. fold (q_of m n) in D.
  assert (Q := q_anti m 1 n ltac:(lra) ltac:(lra) N). replace (q_of m 1) with m in Q by (unfold q_of; field).
  destruct W_34 as [W1 W2]. assert (A := W_incr (q_of m n - l) (3 / 4) ltac:(lra) ltac:(lra) ltac:(lra)).
  assert (B := dW_incr (q_of m n - l) (3 / 4) ltac:(lra) ltac:(lra) ltac:(lra)).
  assert (A' := W_pos _ D). assert (B' := dW_pos _ D). unfold dF. set (q := q_of m n) in *. set (w := W (q - l)) in *. set (d := dW (q - l)) in *.
  assert (I : 0 < 2 / n <= 2).
  { split; [apply Rdiv_pos; lra|]. replace 2 with (2 / 1) at 2 by field. unfold Rdiv. apply Rmult_le_compat_l; [lra|]. apply Rinv_le_contravar; lra. }
  assert (q ^ 2 <= 1) by nra. assert (0 <= q ^ 2) by nra. assert (q * w <= 1 * 7.8) by (apply Rmult_le_compat; lra). assert (q ^ 2 * d <= 1 * 42) by (apply Rmult_le_compat; lra).
  assert (0 <= q * w) by (apply Rmult_le_pos; lra). assert (0 <= q ^ 2 * d) by (apply Rmult_le_pos; lra).
  assert (2 / n * (q * w + q ^ 2 * d) <= 2 * (7.8 + 42)) by (apply Rmult_le_compat; lra). lra.
Qed.

(** A slow enough pair of observations: the ratio is found. *)
Lemma nu_found_short m l : 0 < m -> 0 <= l -> m <= 1 + l -> l * (hansen m l + 0.1) ^ 2 < m ->
  let h := hansen m l in let u := h + F m l h in
  in_domain m l (h + 0.1) /\ in_domain m l h /\ in_domain m l u /\ 1 < u.
Proof.
  intros M L ML HL h u. assert (H := hansen_gt m l M L). fold h in H, HL.
  assert (Pos : forall x, 1 < x <= h + 0.1 -> in_domain m l x).
  { intros x Hx. split; [lra|]. fold (q_of m x). assert (Q1 := q_anti m x (h + 0.1) M ltac:(lra) ltac:(lra)).
    assert (l < q_of m (h + 0.1)).
    { unfold q_of. apply Rmult_lt_reg_r with ((h + 0.1) ^ 2); [apply pow_lt; lra|].
      replace (m / (h + 0.1) ^ 2 * (h + 0.1) ^ 2) with m by (field; lra). auto. }
    assert (q_of m x < m); [|lra].
    unfold q_of. apply Rmult_lt_reg_r with (x ^ 2); [apply pow_lt; lra|]. replace (m / x ^ 2 * x ^ 2) with m by (field; lra).
    assert (1 < x ^ 2) by nra. nra. }
  assert (D0 := Pos h ltac:(lra)). split; [apply Pos; lra|]. split; auto.
  assert (U1 : 1 < u).
  { unfold u. replace (h + F m l h) with (1 + q_of m h * W (q_of m h - l)) by (unfold F, q_of; ring).
    assert (Wp := W_pos _ (proj2 D0)). assert (Q := q_anti m h h M ltac:(lra) ltac:(lra)).
    change (m / h ^ 2) with (q_of m h) in Wp. assert (0 < q_of m h * W (q_of m h - l)) by (apply Rmult_lt_0_compat; lra). lra. }
  split; auto. apply Pos. split; auto. assert (X := hansen_right m l M L D0). fold h in X. unfold u. lra.
Qed.

(** * From the ratio to the orbit *)

Record arc (ra rb ea r0 : vec3) (K : R) : Prop := {
  ar_a : 0 < norm ra; ar_b : 0 < norm rb; ar_ea : ea = scale (/ norm ra) ra;
  ar_r0 : r0 = sub rb (scale (dot rb ea) ea); ar_0 : 0 < norm r0;
  ar_pyth : norm rb * norm rb = dot rb ea * dot rb ea + norm r0 * norm r0;
  ar_dot : dot ra rb = norm ra * dot rb ea;
  ar_cross : norm (cross ra rb) = norm ra * norm r0;
  ar_base : 0 < 2 * (norm ra * norm rb + dot ra rb);
  ar_K : K = gauss_chord ra rb; ar_Kpos : 0 < K; ar_KK : K * K = 2 * (norm ra * norm rb + dot ra rb);
  ar_l : 0 < gauss_l ra rb }.

Lemma arc_of ra rb : cross ra rb <> zero3 -> exists ea r0 K, arc ra rb ea r0 K.
Proof.
  intros N. assert (Na : ra <> zero3) by (intros ->; apply N; unfold cross, zero3; cbn [x3 y3 z3]; f_equal; ring). assert (Nb : rb <> zero3) by (intros ->; apply N; unfold cross, zero3; cbn [x3 y3 z3]; f_equal; ring).
  apply norm_pos in Na. apply norm_pos in Nb. set (ea := scale (/ norm ra) ra). set (k := dot rb ea). set (r0 := sub rb (scale k ea)).
  assert (N0 : r0 <> zero3).
  { intros Z. apply N. assert (E : rb = scale (k * / norm ra) ra).
    { assert (X : rb = add r0 (scale k ea)) by (unfold r0; veq; ring). rewrite X, Z. unfold ea, zero3, add, scale; cbn [x3 y3 z3]. f_equal; ring. }
    rewrite E. unfold cross, zero3, scale; cbn [x3 y3 z3]. f_equal; ring. }
  apply norm_pos in N0.
  destruct (gauss_frame ra rb ea r0 (scale (/ norm r0) r0) Na eq_refl eq_refl N0 eq_refl) as (U & U0 & O & Ra & Rb & P & C).
  assert (D : dot ra rb = norm ra * dot rb ea).
  { rewrite Ra at 1. set (a := norm ra). clearbody a. unfold dot; cbn; ring. }
  fold k in P, D.
  assert (Kb : - norm rb < k < norm rb) by (split; nra).
  assert (B : 0 < 2 * (norm ra * norm rb + dot ra rb)) by (rewrite D; nra).
  exists ea, r0, (gauss_chord ra rb).
  assert (KP : 0 < gauss_chord ra rb) by (apply sqrt_lt_R0; auto).
  assert (KK : gauss_chord ra rb * gauss_chord ra rb = 2 * (norm ra * norm rb + dot ra rb)) by (apply sqrt_sqrt; lra).
  constructor; auto.
  - rewrite C. assert (X : dot (cross ea (scale (/ norm r0) r0)) (cross ea (scale (/ norm r0) r0)) = 1).
    { set (f := scale (/ norm r0) r0) in *. assert (L : forall a b, dot (cross a b) (cross a b) = dot a a * dot b b - dot a b * dot a b) by (intros; unfold dot, cross; cbn; ring).
      rewrite L, U, U0, O. ring. }
    set (c := cross ea (scale (/ norm r0) r0)) in *. assert (Pp : 0 < norm ra * norm r0) by (apply Rmult_lt_0_compat; auto). set (s := norm ra * norm r0) in *. clearbody s c.
    unfold norm at 1. apply sqrt_eq; [lra|]. replace (dot (scale s c) (scale s c)) with (s * s * dot c c) by (unfold dot; cbn; ring). rewrite X. ring.
  - unfold gauss_l. assert (gauss_chord ra rb < norm ra + norm rb) by
      (rewrite D in KK; assert (norm ra * k < norm ra * norm rb) by (apply Rmult_lt_compat_l; lra);
       set (K := gauss_chord ra rb) in *; set (A := norm ra) in *; set (B' := norm rb) in *; clearbody K A B';
       assert (0 <= (A - B') * (A - B')) by apply Rle_0_sqr; assert (K * K < (A + B') * (A + B')) by lra; apply Rsqr_incrst_0; unfold Rsqr; lra).
    assert (1 / 2 < (norm ra + norm rb) / (2 * gauss_chord ra rb)); [|lra].
    apply Rmult_lt_reg_r with (2 * gauss_chord ra rb); [lra|].
    replace ((norm ra + norm rb) / (2 * gauss_chord ra rb) * (2 * gauss_chord ra rb)) with (norm ra + norm rb) by (field; lra). lra.
Qed.

Lemma gauss_m_pos ra rb d : cross ra rb <> zero3 -> d <> 0 -> 0 < gauss_m ra rb d.
Proof.
  intros N D. destruct (arc_of ra rb N) as (ea & r0 & K & Ar). destruct Ar. unfold gauss_m. rewrite <- ar_K0. apply Rdiv_pos.
  - apply Rmult_lt_0_compat; [apply mu_pos|]. assert (X : 0 < (d * 86400) * (d * 86400)) by (apply Rsqr_pos_lt; lra). nra.
  - apply pow_lt; auto.
Qed.
Lemma gauss_l_pos ra rb : cross ra rb <> zero3 -> 0 < gauss_l ra rb.
Proof. intros N. destruct (arc_of ra rb N) as (ea & r0 & K & Ar). apply Ar. Qed.

(** The orbit for a ratio inside the domain is an ellipse. *)
Lemma ellipse_identity A B K k r x w : 0 < A -> 0 < B -> 0 < K -> 0 < r -> 0 < x ->
  K * K = 2 * (A * B + A * k) -> B * B = k * k + r * r -> w = x - ((A + B) / (2 * K) - 1 / 2) ->
  let p := A * A * (r * r) / (x * K ^ 3) in let ec := p / A - 1 in
  1 - (ec * ec + ((ec * k - p + B) / r) * ((ec * k - p + B) / r)) = p * (4 * w * (1 - w) / (K * x)).
Proof.
  intros PA PB PK Pr Px EK EB Ew p ec.
  apply Rmult_eq_reg_r with (r * r); [|apply Rgt_not_eq; nra].
  replace ((1 - (ec * ec + (ec * k - p + B) / r * ((ec * k - p + B) / r))) * (r * r)) with ((1 - ec * ec) * (r * r) - (ec * k - p + B) * (ec * k - p + B)) by (field; lra).
  unfold ec, p. rewrite Ew.
  assert (Ek : k = K * K / (2 * A) - B) by (rewrite EK; field; lra).
  assert (Er : r * r = B * B - k * k) by lra. rewrite Er, Ek. field. lra.
Qed.

Lemma bind_err {A B} (e : exn) (f : A -> res B) : (let* x := Err e in f x) = Err e.
Proof. reflexivity. Qed.

Lemma coes_reduce fuel ra rb t1 t2 ea r0 K : arc ra rb ea r0 K -> value t2 <> value t1 ->
  let d := value t2 - value t1 in let m := gauss_m ra rb d in let l := gauss_l ra rb in let h := hansen m l in
  coes_from_positions fuel ra rb t1 t2 =
  let* n := solve_nu fuel m l (h + 0.1) h in
  let p := (norm ra * norm r0 * n / (sqrt Earth_MU * (d * SECONDS_IN_DAY))) ^ 2 in
  let ec := p / norm ra - 1 in let es := (ec * dot rb ea - p + norm rb) / norm r0 in
  let ta := wrap (atan2 es ec) in
  let w := cross ea (scale (/ norm r0) r0) in
  let* e := pdiv ec (cos ta) in
  let* sma := pdiv p (1 - e * e) in
  let* se := psqrt (1 - e * e) in
  let x := atan2 (se * sin ta) (cos ta + e) in
  Ok (Elements t1 sma e (wrap (atan2 (sqrt (x3 w * x3 w + y3 w * y3 w)) (z3 w))) (wrap (atan2 (x3 w) (- y3 w)))
    (wrap (atan2 (z3 ra) (- x3 ra * y3 w + y3 ra * x3 w) - ta)) (x - e * sin x)).
Proof.
  intros Ar D0 d m l h. assert (D : d <> 0) by (unfold d; lra). destruct Ar.
  assert (NA : ra <> zero3) by (intros Z; apply norm_zero in Z; lra). assert (N0 : r0 <> zero3) by (intros Z; apply norm_zero in Z; lra).
  unfold coes_from_positions. cbv zeta. rewrite normalized_ok by auto. cbn [bind]. rewrite <- ar_ea0.
  replace (v3_minus rb (v3_scaled ea (v3_dot rb ea))) with r0
    by (rewrite ar_r1; change v3_minus with sub; change v3_dot with dot; generalize (dot rb ea); intros k; veq; ring).
  rewrite normalized_ok by auto. cbn [bind]. change v3_magnitude with norm. change v3_dot with dot. change v3_cross with cross.
  rewrite ppow_pos, power_three_halves by auto. cbn [bind]. rewrite psqrt_ok by lra. cbn [bind].
  assert (SB : 0 < sqrt (2 * (norm ra * norm rb + dot ra rb))) by (apply sqrt_lt_R0; auto).
  rewrite pdiv_ok by lra. cbn [bind].
  assert (MU : sqrt Earth_MU * sqrt Earth_MU = Earth_MU) by (apply sqrt_sqrt; generalize mu_pos; lra).
  assert (PM : 0 < sqrt Earth_MU) by apply sqrt_lt_R0, mu_pos.
  set (base := 2 * (norm ra * norm rb + dot ra rb)) in *. fold d.
  assert (M : sqrt Earth_MU * d * SECONDS_IN_DAY * (sqrt Earth_MU * d * SECONDS_IN_DAY) * / sqrt base ^ 3 = m).
  { unfold m, gauss_m, gauss_chord. fold base. change mu_earth with Earth_MU. change 86400 with SECONDS_IN_DAY.
    rewrite <- MU at 3. generalize SECONDS_IN_DAY. intros y. field. lra. }
  rewrite M. replace ((norm ra + norm rb) / (2 * sqrt base) - 0.5) with l by (unfold l, gauss_l, gauss_chord; fold base; lra).
  assert (Pm : 0 < m) by (apply gauss_m_pos; auto; intros Z; apply norm_zero in Z; rewrite ar_cross0 in Z; assert (0 < norm ra * norm r0) by (apply Rmult_lt_0_compat; auto); lra).
  fold l in ar_l0.
  rewrite pdiv_ok by lra. cbn [bind].
  assert (0 < m / (l + 5 / 6)) by (apply Rdiv_pos; lra).
  rewrite psqrt_ok by lra. cbn [bind]. change (12 / 22 + 10 / 22 * sqrt (1 + 44 / 9 * (m / (l + 5 / 6)))) with (hansen m l). fold h.
  destruct (solve_nu fuel m l (h + 0.1) h) as [n|er]; cbn [bind]; [|reflexivity].
  assert (Nt : sqrt Earth_MU * d * SECONDS_IN_DAY <> 0).
  { apply Rmult_integral_contrapositive. split; [|apply day_nz]. apply Rmult_integral_contrapositive. split; auto. lra. }
  rewrite pdiv_ok by auto. cbn [bind].
  set (p := (norm ra * norm r0 * n / (sqrt Earth_MU * (d * SECONDS_IN_DAY))) ^ 2).
  assert (EP : norm ra * norm r0 * n / (sqrt Earth_MU * d * SECONDS_IN_DAY) * (norm ra * norm r0 * n / (sqrt Earth_MU * d * SECONDS_IN_DAY)) = p).
  { unfold p. replace (sqrt Earth_MU * (d * SECONDS_IN_DAY)) with (sqrt Earth_MU * d * SECONDS_IN_DAY) by ring. ring. }
  rewrite EP. do 4 (rewrite pdiv_ok by lra; cbn [bind]).
  assert (0 < norm r0 / norm rb) by (apply Rdiv_pos; auto).
  rewrite pdiv_ok by lra. cbn [bind]. rewrite !wrap_fold.
  replace (((p / norm ra - 1) * (dot rb ea / norm rb) - (p / norm rb - 1)) / (norm r0 / norm rb))
    with (((p / norm ra - 1) * dot rb ea - p + norm rb) / norm r0) by (field; lra).
  reflexivity.
Qed.

Lemma cos_quarter es : es <> 0 -> cos (wrap (atan2 es 0)) = 0.
Proof.
  intros N. rewrite cos_wrap. destruct (atan2_polar es 0) as [C _]. set (r := sqrt (0 * 0 + es * es)) in *.
  assert (0 < r) by (apply sqrt_lt_R0; nra). nra.
Qed.

(** Once the ratio is found the orbit follows, unless the first position is
    exactly a quarter turn from perigee. *)
Lemma coes_total fuel ra rb t1 t2 n : cross ra rb <> zero3 -> value t2 <> value t1 ->
  let d := value t2 - value t1 in let m := gauss_m ra rb d in let l := gauss_l ra rb in let h := hansen m l in
  solve_nu fuel m l (h + 0.1) h = Ok n -> in_domain m l n ->
  let p := (norm (cross ra rb) * n / (sqrt Earth_MU * (d * SECONDS_IN_DAY))) ^ 2 in
  (exists el, coes_from_positions fuel ra rb t1 t2 = Ok el /\ 0 <= eccentricity el < 1 /\
     semimajor_axis el * (1 - eccentricity el ^ 2) = p /\
     semimajor_axis el * (4 * (m / n ^ 2 - l) * (1 - (m / n ^ 2 - l))) = gauss_chord ra rb * (m / n ^ 2)) \/
  (p = norm ra /\ coes_from_positions fuel ra rb t1 t2 = Err ZeroDivisionError).
Proof.
  intros N T d m l h Run Dom p. destruct (arc_of ra rb N) as (ea & r0 & K & Ar).
  assert (Pm : 0 < m) by (apply gauss_m_pos; auto; unfold d; lra).
  rewrite (coes_reduce fuel ra rb t1 t2 ea r0 K Ar T). fold d m l h. rewrite Run. cbn [bind]. destruct Ar.
  replace ((norm ra * norm r0 * n / (sqrt Earth_MU * (d * SECONDS_IN_DAY))) ^ 2) with p by (unfold p; rewrite ar_cross0; reflexivity).
  cbv zeta. set (ec := p / norm ra - 1). set (es := (ec * dot rb ea - p + norm rb) / norm r0).
  destruct Dom as [Nn Dw]. set (x := m / n ^ 2) in *.
  assert (MU : sqrt Earth_MU * sqrt Earth_MU = Earth_MU) by (apply sqrt_sqrt; generalize mu_pos; lra).
  assert (PM : 0 < sqrt Earth_MU) by apply sqrt_lt_R0, mu_pos. assert (MP := mu_pos).
  assert (Dn : d * SECONDS_IN_DAY <> 0) by (apply Rmult_integral_contrapositive; split; [unfold d; lra|apply day_nz]).
  assert (Ep : p = norm ra * norm ra * (norm r0 * norm r0) / (x * K ^ 3)).
  { unfold p, x, m, gauss_m. rewrite <- ar_K0, ar_cross0. change mu_earth with Earth_MU. change 86400 with SECONDS_IN_DAY. set (y := d * SECONDS_IN_DAY) in *.
    set (s := sqrt Earth_MU) in *. clearbody s. rewrite <- MU. field. repeat split; auto; lra. }
  assert (Px : 0 < x) by (assert (L := ar_l0); fold l in L; lra).
  assert (Id := ellipse_identity (norm ra) (norm rb) K (dot rb ea) (norm r0) x (x - l) ar_a0 ar_b0 ar_Kpos0 ar_1 Px
    ltac:(rewrite ar_KK0, ar_dot0; ring) ar_pyth0 ltac:(unfold l, gauss_l; rewrite <- ar_K0; lra)).
  cbv zeta in Id. rewrite <- Ep in Id. fold ec in Id. fold es in Id.
  assert (Pp : 0 < p).
  { rewrite Ep. apply Rdiv_pos; [|apply Rmult_lt_0_compat; [auto|apply pow_lt; auto]]. repeat apply Rmult_lt_0_compat; auto. }
  assert (EL : ec * ec + es * es < 1).
  { assert (0 < p * (4 * (x - l) * (1 - (x - l)) / (K * x))); [|lra].
    apply Rmult_lt_0_compat; auto. apply Rdiv_pos; [|apply Rmult_lt_0_compat; auto].
    assert (0 < (x - l) * (1 - (x - l))) by (apply Rmult_lt_0_compat; lra). lra. }
  destruct (atan2_polar es ec) as [C S]. set (r := sqrt (ec * ec + es * es)) in *.
  assert (Pr : 0 <= r) by apply sqrt_pos.
  assert (Rr : r * r = ec * ec + es * es) by (apply sqrt_sqrt; nra).
  assert (R1 : r < 1) by nra.
  destruct (Req_dec (cos (atan2 es ec)) 0) as [Z|Z].
  - right. assert (E0 : ec = 0) by (rewrite C, Z; ring). split.
    + assert (Q : p = (ec + 1) * norm ra) by (unfold ec; field; lra). rewrite Q, E0. ring.
    + rewrite cos_wrap, Z, pdiv_zero. reflexivity.
  - left. rewrite pdiv_ok by (rewrite cos_wrap; exact Z). cbn [bind]. rewrite cos_wrap.
    replace (ec / cos (atan2 es ec)) with r by (rewrite C at 1; field; auto).
    rewrite pdiv_ok by nra. cbn [bind]. rewrite psqrt_ok by nra. cbn [bind]. eexists. split; [reflexivity|].
    cbn [eccentricity semimajor_axis]. split; [lra|]. rewrite <- ar_K0, <- Rr in *. fold x.
    assert (1 - r * r <> 0) by nra. split; [field; replace (r ^ 2) with (r * r) by ring; auto|].
    assert (IdX : (1 - r * r) * (K * x) = p * (4 * (x - l) * (1 - (x - l)))).
    { rewrite Id. field. lra. }
    apply Rmult_eq_reg_r with (1 - r * r); auto.
    replace (p / (1 - r * r) * (4 * (x - l) * (1 - (x - l))) * (1 - r * r)) with (p * (4 * (x - l) * (1 - (x - l)))) by (field; auto).
    rewrite <- IdX. ring.
Qed.

Lemma coes_fails fuel ra rb t1 t2 e : cross ra rb <> zero3 -> value t2 <> value t1 ->
  let d := value t2 - value t1 in let m := gauss_m ra rb d in let l := gauss_l ra rb in let h := hansen m l in
  solve_nu fuel m l (h + 0.1) h = Err e -> coes_from_positions fuel ra rb t1 t2 = Err e.
Proof.
  intros N T d m l h E. destruct (arc_of ra rb N) as (ea & r0 & K & Ar).
  rewrite (coes_reduce fuel ra rb t1 t2 ea r0 K Ar T). fold d m l h. rewrite E. reflexivity.
Qed.

(** * Two exact observations of an orbit *)

Lemma seen el xa xb : 0 < semimajor_axis el -> 0 <= eccentricity el < 1 -> 0 < xb - xa < 2 * PI ->
  let e := eccentricity el in let g := (xb - xa) / 2 in let G := (xa + xb) / 2 in
  let c := cos g - e * cos G in 0 < c ->
  let ra := orbit_point el xa in let rb := orbit_point el xb in
  let d := flight_time el xa xb / 86400 in let m := gauss_m ra rb d in let l := gauss_l ra rb in
  cross ra rb <> zero3 /\ 0 < d /\ gauss_chord ra rb = 2 * semimajor_axis el * c /\
  l * c = sin (g / 2) ^ 2 * (1 + e * cos G) /\
  exists r, 0 < r /\ in_domain m l r /\ F m l r = 0 /\ m / r ^ 2 - l = sin (g / 2) ^ 2 /\
    semimajor_axis el * (1 - e ^ 2) = (norm (cross ra rb) * r / (sqrt Earth_MU * (d * SECONDS_IN_DAY))) ^ 2.
Proof.
  intros Pa He Hx e g G c Pc. rewrite !point_place. set (A := place el xa). set (B := place el xb). intros ra rb. subst ra rb. intros d m l.
  set (a := semimajor_axis el) in *. fold e in He.
  assert (Hg : 0 < g < PI) by (unfold g; lra). assert (Sg : 0 < sin g) by (apply sin_gt_0; lra).
  assert (Tg := sin2_cos2' g). assert (TG := sin2_cos2' G). destruct (half_angles xa xb) as (Cx & Cy & Sx & Sy). fold g G in Cx, Cy, Sx, Sy.
  assert (Q : 0 <= 1 - e * e) by nra. assert (Qq := sqrt_sqrt _ Q). assert (Pq : 0 < sqrt (1 - e * e)) by (apply sqrt_lt_R0; nra).
  assert (NN : forall x, norm (place el x) = a * (1 - e * cos x)).
  { intros x. assert (Bx := COS_bound x). assert (T := sin2_cos2' x).
    assert (H := norm_sq (place el x)). rewrite (place_dot el x x Q) in H. fold a e in H.
    apply Rsqr_inj; [apply norm_nonneg|nra|]. unfold Rsqr. rewrite H. replace (sin x * sin x) with (1 - cos x * cos x) by lra. ring. }
  assert (Dd := place_dot el xa xb Q). fold a e in Dd.
  assert (Cr := place_cross el xa xb). cbv zeta in Cr. fold a e in Cr.
  fold A B in Dd, Cr.
  set (s := a * a * sqrt (1 - e * e) * ((cos xa - e) * sin xb - (cos xb - e) * sin xa)) in *.
  assert (Es : s = 2 * a * a * sqrt (1 - e * e) * sin g * c).
  { unfold s. rewrite Cx, Cy, Sx, Sy. unfold c.
    replace ((cos G * cos g + sin G * sin g - e) * (sin G * cos g + cos G * sin g) - (cos G * cos g - sin G * sin g - e) * (sin G * cos g - cos G * sin g))
      with (2 * sin g * (cos g * (sin G * sin G + cos G * cos G) - e * cos G)) by ring.
    replace (sin G * sin G + cos G * cos G) with 1 by lra. ring. }
  assert (Ps : 0 < s) by (rewrite Es; repeat apply Rmult_lt_0_compat; lra).
  assert (NC : norm (cross A B) = s).
  { rewrite Cr. unfold norm. apply sqrt_eq; [lra|]. assert (U := normal_unit (raan el) (inclination el)). set (v := orbit_normal (raan el) (inclination el)) in *.
    replace (dot (scale s v) (scale s v)) with (s * s * dot v v) by (unfold dot; cbn; ring). rewrite U. ring. }
  split. { intros Z. apply norm_zero in Z. lra. }
  assert (Pk : 0 < (xb - e * sin xb) - (xa - e * sin xa)).
  { destruct (Rlt_le_dec 0 ((xb - e * sin xb) - (xa - e * sin xa))) as [|L]; auto. exfalso.
    assert (X := kf_mono_le e xa xb ltac:(lra) ltac:(lra)). unfold kf in X.
    assert (Y : kf e xa = kf e xb) by (unfold kf; lra). apply kf_inj in Y; lra. }
  assert (MP := mu_pos). assert (PM : 0 < sqrt Earth_MU) by apply sqrt_lt_R0, mu_pos.
  assert (MU : sqrt Earth_MU * sqrt Earth_MU = Earth_MU) by (apply sqrt_sqrt; lra).
  assert (Psa := sqrt_lt_R0 a Pa). assert (Qa := sqrt_sqrt a (Rlt_le _ _ Pa)).
  assert (SA : sqrt (a ^ 3 / mu_earth) = a * sqrt a / sqrt Earth_MU).
  { change mu_earth with Earth_MU. apply sqrt_eq.
    - apply Rlt_le, Rdiv_pos; auto. apply Rmult_lt_0_compat; auto.
    - replace (a * sqrt a / sqrt Earth_MU * (a * sqrt a / sqrt Earth_MU)) with (a * a * (sqrt a * sqrt a) / (sqrt Earth_MU * sqrt Earth_MU)) by (field; lra).
      rewrite MU, Qa. replace (a ^ 3) with (a * a * a) by ring. reflexivity. }
  assert (Ed : d * SECONDS_IN_DAY = flight_time el xa xb) by (unfold d; change SECONDS_IN_DAY with 86400; field).
  assert (Et : sqrt Earth_MU * (d * SECONDS_IN_DAY) = a * sqrt a * ((xb - e * sin xb) - (xa - e * sin xa))).
  { rewrite Ed. unfold flight_time. fold a e. rewrite SA. field. lra. }
  set (tau := sqrt Earth_MU * (d * SECONDS_IN_DAY)) in *.
  assert (Pt : 0 < tau) by (rewrite Et; repeat apply Rmult_lt_0_compat; auto).
  assert (Pd : 0 < d).
  { assert (0 < flight_time el xa xb); [|unfold d; lra]. rewrite <- Ed. apply Rmult_lt_reg_l with (sqrt Earth_MU); auto. rewrite Rmult_0_r. exact Pt. }
  split; auto.
  set (r := tau * (sqrt a * sqrt (1 - e * e)) / s).
  assert (Pr : 0 < r) by (apply Rdiv_pos; [apply Rmult_lt_0_compat; [exact Pt|apply Rmult_lt_0_compat; auto]|exact Ps]).
  assert (EP : a * (1 - e * e) = (s * r / tau) ^ 2).
  { unfold r. rewrite <- Qa at 1. rewrite <- Qq at 1. field. lra. }
  assert (Em : m = tau ^ 2 / gauss_chord A B ^ 3).
  { unfold m, gauss_m. apply Rmult_eq_compat_r. unfold tau. change mu_earth with Earth_MU. change 86400 with SECONDS_IN_DAY. rewrite <- MU at 1. ring. }
  assert (EK : gauss_chord A B = 2 * a * c).
  { unfold gauss_chord. apply sqrt_eq; [repeat apply Rmult_le_pos; lra|]. unfold A, B. rewrite !NN. fold A B. rewrite Dd, Cx, Cy, Sx, Sy. unfold c.
    assert (sG : sin G * sin G = 1 - cos G * cos G) by lra. assert (sg : sin g * sin g = 1 - cos g * cos g) by lra.
    replace ((sin G * cos g - cos G * sin g) * (sin G * cos g + cos G * sin g)) with ((sin G * sin G) * (cos g * cos g) - (cos G * cos G) * (sin g * sin g)) by ring.
    replace ((cos G * cos g + sin G * sin g - e) * (cos G * cos g - sin G * sin g - e)) with
      ((cos G * cos g - e) * (cos G * cos g - e) - (sin G * sin G) * (sin g * sin g)) by ring.
    replace (a * (1 - e * (cos G * cos g + sin G * sin g)) * (a * (1 - e * (cos G * cos g - sin G * sin g)))) with
      (a * a * ((1 - e * (cos G * cos g)) * (1 - e * (cos G * cos g)) - e * e * ((sin G * sin G) * (sin g * sin g)))) by ring.
    rewrite sG, sg. ring. }
  split; auto.
  assert (HC : cos g = 1 - 2 * (sin (g / 2) ^ 2)).
  { replace (cos g) with (cos (2 * (g / 2))) by (f_equal; field). rewrite cos_2a_sin. ring. }
  split.
  { unfold l, gauss_l. rewrite EK. unfold A, B. rewrite !NN, Cx, Cy.
    replace (a * (1 - e * (cos G * cos g + sin G * sin g)) + a * (1 - e * (cos G * cos g - sin G * sin g))) with (2 * a * (1 - e * (cos G * cos g))) by ring.
    replace ((2 * a * (1 - e * (cos G * cos g)) / (2 * (2 * a * c)) - 1 / 2) * c) with ((1 - e * (cos G * cos g) - c) / 2) by (field; lra).
    unfold c. rewrite HC. field. }
  exists r. split; auto.
  destruct (flight a e xa xb (norm A) (norm B) (dot A B) s r tau m l (gauss_chord A B)) as (D & O & FT); auto; try lra.
  - apply NN.
  - apply NN.
  - split; auto. rewrite <- Et, !Rabs_pos_eq in FT by lra. split.
    + assert (X : (F m l r + r) / r = 1).
      { apply Rmult_eq_reg_l with tau; lra. }
      assert (Y : F m l r + r = (F m l r + r) / r * r) by (field; lra). rewrite X in Y. lra.
    + split; [rewrite O; f_equal; f_equal; unfold g; field|]. rewrite NC. replace (e ^ 2) with (e * e) by ring. exact EP.
Qed.

(** A root within reach keeps Hansen's guess close. *)
Lemma hansen_close m l r : 0 < m -> 0 <= l -> 1 <= r <= 1.57 -> in_domain m l r -> F m l r = 0 -> hansen m l + 0.1 <= 1.3 * r.
Proof.
  intros M L Hr D E. destruct D as [_ D]. assert (Wl := W_low _ D). unfold F in E. set (q := m / r ^ 2) in *.
  assert (Q : q <= 0.75 * (r - 1)) by nra. assert (Pq : 0 < q) by lra. assert (Em : m = q * r ^ 2) by (unfold q; field; lra).
  unfold hansen. assert (B : m / (l + 5 / 6) <= 6 / 5 * m).
  { apply Rmult_le_reg_r with (l + 5 / 6); [lra|]. replace (m / (l + 5 / 6) * (l + 5 / 6)) with m by (field; lra). nra. }
  assert (B0 : 0 < m / (l + 5 / 6)) by (apply Rdiv_pos; lra).
  assert (S : sqrt (1 + 44 / 9 * (m / (l + 5 / 6))) <= 2.86 * r - 1.42); [|lra].
  apply Rsqr_incr_0; [|apply sqrt_pos|lra]. rewrite Rsqr_sqrt by lra. unfold Rsqr.
  assert (m <= 0.75 * (r - 1) * r ^ 2) by (rewrite Em; apply Rmult_le_compat_r; [apply pow_le|]; lra).
  assert (1 + 44 / 9 * (6 / 5 * (0.75 * (r - 1) * r ^ 2)) <= (2.86 * r - 1.42) * (2.86 * r - 1.42)); [|lra].
  assert (0 <= (r - 1) * (1.57 - r)) by (apply Rmult_le_pos; lra). assert (0 <= (r - 1) * (1.57 - r) * r) by (apply Rmult_le_pos; lra). nra.
Qed.

Lemma run_fuel fuel m l k a b n : secant_run (F m l) (in_domain m l) 1e-12 k a b n -> (k < fuel)%nat -> solve_nu fuel m l a b = Ok n.
Proof. intros R K. exact (solve_complete m l k a b n R fuel K). Qed.

(** The two positions and the time are enough. *)
Lemma gauss_succeeds ra rb t1 t2 : cross ra rb <> zero3 -> value t2 <> value t1 ->
  let d := value t2 - value t1 in let m := gauss_m ra rb d in let l := gauss_l ra rb in let h := hansen m l in
  m <= 1 + l -> l * (h + 0.1) ^ 2 < m ->
  exists N n, (forall fuel, (N <= fuel)%nat -> solve_nu fuel m l (h + 0.1) h = Ok n) /\ 1 < n /\ in_domain m l n /\
   (exists r, 1 < r /\ in_domain m l r /\ F m l r = 0 /\ Rabs (n - r) <= Rabs (F m l n)) /\
   (m <= 1 -> m <= l + 3 / 4 -> Rabs (F m l n) < 1e-10).
Proof.
  intros NC T d m l h M1 M2. assert (Pm : 0 < m) by (apply gauss_m_pos; auto; unfold d; lra).
  assert (Pl : 0 < l) by (apply gauss_l_pos; auto).
  destruct (nu_found_short m l Pm ltac:(lra) M1 M2) as (D1 & D0 & Du & U1). fold h in D1, D0, Du, U1.
  destruct (nu_found m l Pm ltac:(lra) D1 D0 Du) as (_ & (r & Hr & Fr & _) & k & n & R & Hn & Dn & Rn). fold h in Hr, R, Hn, Rn.
  exists (S k), n. split; [intros fuel Hf; apply (run_fuel fuel m l k); auto; lia|]. split; [lra|]. split; auto. split.
  - exists r. assert (Dr : in_domain m l r) by (apply (domain_between m l (h + F m l h) r h); auto; lra). split; [lra|]. split; auto. split; auto.
    destruct (Rtotal_order n r) as [A|[A|A]].
    + assert (Fa := F_falling m l n r Pm ltac:(lra) ltac:(lra) Dn Dr). assert (X := falling_lt _ _ _ _ _ n r Fa ltac:(lra) A ltac:(lra)).
      rewrite Rabs_minus_sym, Rabs_pos_eq, Rabs_pos_eq by lra. lra.
    + rewrite A, Rminus_diag_eq, Rabs_R0 by auto. apply Rabs_pos.
    + assert (Fa := F_falling m l r n Pm ltac:(lra) ltac:(lra) Dr Dn). assert (X := falling_lt _ _ _ _ _ r n Fa ltac:(lra) A ltac:(lra)).
      rewrite Rabs_pos_eq by lra. rewrite Rabs_minus_sym || idtac. rewrite <- Rabs_Ropp, Rabs_pos_eq by lra. lra.
  - intros A B. assert (Sb := steep_bound m l (h + F m l h) ltac:(lra) B ltac:(lra) Du). lra.
Qed.

Lemma root_unique m l x y : 0 < m -> 0 < x -> 0 < y -> in_domain m l x -> in_domain m l y -> F m l x = 0 -> F m l y = 0 -> x = y.
Proof.
  intros M X Y Dx Dy Fx Fy. destruct (Rtotal_order x y) as [A|[A|A]]; auto; exfalso.
  - assert (Fa := F_falling m l x y M X ltac:(lra) Dx Dy). assert (Z := falling_lt _ _ _ _ _ x y Fa ltac:(lra) A ltac:(lra)). lra.
  - assert (Fa := F_falling m l y x M Y ltac:(lra) Dy Dx). assert (Z := falling_lt _ _ _ _ _ y x Fa ltac:(lra) A ltac:(lra)). lra.
Qed.

Lemma abs_le_inv x b : Rabs x <= b -> - b <= x <= b.
Proof. intros H. assert (A := Rle_abs x). assert (B := Rle_abs (- x)). rewrite Rabs_Ropp in B. lra. Qed.

Lemma rel_close r n : 1 < r -> 1 < n -> Rabs (n - r) <= 1e-10 -> let rho := r ^ 2 / n ^ 2 in 1 - 2.1e-10 <= rho <= 1 + 2.1e-10.
Proof.
  intros R N A rho. apply abs_le_inv in A. assert (Pn : 0 < n ^ 2) by (apply pow_lt; lra).
  assert (E : rho * n ^ 2 = r ^ 2) by (unfold rho; field; lra). assert (Rl : n - 1e-10 <= r <= n + 1e-10) by lra.
  assert (N2 : n <= n ^ 2) by nra. assert (B1 : r ^ 2 <= (n + 1e-10) ^ 2) by (apply pow_incr; lra). assert (B2 : (n - 1e-10) ^ 2 <= r ^ 2) by (apply pow_incr; lra).
  split; apply Rmult_le_reg_r with (n ^ 2); auto; rewrite E; nra.
Qed.

Lemma close_orbit a a' K x w l rho : 0 < a -> 0 < w <= 0.07 -> x = w + l -> 0 < l <= 1.45 * w ->
  1 - 2.1e-10 <= rho <= 1 + 2.1e-10 ->
  a * (4 * w * (1 - w)) = K * x -> a' * (4 * (rho * x - l) * (1 - (rho * x - l))) = K * (rho * x) ->
  Rabs (a' - a) <= 1e-9 * a.
Proof.
  intros Pa Hw Ex Hl Hr E E'. set (w' := rho * x - l) in *.
  assert (W1 : w' - w = (rho - 1) * (w + l)) by (unfold w'; rewrite Ex; ring).
  assert (Wb : Rabs (w' - w) <= 5.2e-10 * w).
  { rewrite W1, Rabs_mult, (Rabs_pos_eq (w + l)) by lra. assert (Rabs (rho - 1) <= 2.1e-10) by (apply Rabs_le; lra).
    assert (Rabs (rho - 1) * (w + l) <= 2.1e-10 * (2.45 * w)) by (apply Rmult_le_compat; try apply Rabs_pos; lra). lra. }
  apply abs_le_inv in Wb. clear W1.
  assert (Eq : a' * (w' * (1 - w')) = a * rho * (w * (1 - w))).
  { replace (a' * (w' * (1 - w'))) with (a' * (4 * w' * (1 - w')) / 4) by field. rewrite E'.
    replace (a * rho * (w * (1 - w))) with (rho * (a * (4 * w * (1 - w))) / 4) by field. rewrite E. field. }
  clear E E'. clearbody w'.
  assert (P : 0 < w * (1 - w)) by nra.
  assert (Dl : (1 - 6e-10) * (w * (1 - w)) <= w' * (1 - w') <= (1 + 6e-10) * (w * (1 - w))).
  { assert (X : w' * (1 - w') - w * (1 - w) = (w' - w) * (1 - w - w')) by ring. assert (T : 0.85 <= 1 - w - w' <= 1) by lra. set (t := 1 - w - w') in *. clearbody t. set (u := w' - w) in *. clearbody u.
    set (b := 5.2e-10 * w) in *. assert (Pb : 0 <= b) by (unfold b; lra).
    assert (L1 : - b <= u * t) by (assert (- b * t <= u * t) by (apply Rmult_le_compat_r; lra); assert (b * t <= b * 1) by (apply Rmult_le_compat_l; lra); lra).
    assert (L2 : u * t <= b) by (assert (u * t <= b * t) by (apply Rmult_le_compat_r; lra); assert (b * t <= b * 1) by (apply Rmult_le_compat_l; lra); lra).
    assert (L3 : 0.93 * w <= w * (1 - w)) by (assert (w * w <= 0.07 * w) by (apply Rmult_le_compat_r; lra); lra).
    unfold b in *. lra. }
  set (P0 := w * (1 - w)) in *. set (P1 := w' * (1 - w')) in *. clearbody P0 P1.
  assert (Pp1 : 0 < P1) by nra. assert (Pa' : 0 < a').
  { destruct (Rlt_le_dec 0 a') as [|L]; auto. exfalso. assert (0 < a * rho * P0) by (repeat apply Rmult_lt_0_compat; lra). nra. }
  apply Rabs_le. split.
  - assert ((1 - 1e-9) * a <= a'); [|lra]. apply Rmult_le_reg_r with P1; auto. rewrite Eq.
    assert ((1 - 1e-9) * a * P1 <= (1 - 1e-9) * a * ((1 + 6e-10) * P0)) by (apply Rmult_le_compat_l; nra).
    assert ((1 - 1e-9) * (1 + 6e-10) * (a * P0) <= rho * (a * P0)) by (apply Rmult_le_compat_r; [apply Rlt_le, Rmult_lt_0_compat|]; lra). lra.
  - assert (a' <= (1 + 1e-9) * a); [|lra]. apply Rmult_le_reg_r with P1; auto. rewrite Eq.
    assert ((1 + 1e-9) * a * ((1 - 6e-10) * P0) <= (1 + 1e-9) * a * P1) by (apply Rmult_le_compat_l; nra).
    assert (rho * (a * P0) <= (1 + 1e-9) * (1 - 6e-10) * (a * P0)) by (apply Rmult_le_compat_r; [apply Rlt_le, Rmult_lt_0_compat|]; lra). lra.
Qed.

(** Nearly circular orbits over arcs of up to a radian. *)
Lemma near_circular el xa xb : 0 < semimajor_axis el -> 0 <= eccentricity el <= 0.1 -> 0 < xb - xa <= 1 ->
  let g := (xb - xa) / 2 in let c := cos g - eccentricity el * cos ((xa + xb) / 2) in
  0 < c /\ 0 < sin (g / 2) ^ 2 <= 0.0625 /\ cos g = 1 - 2 * sin (g / 2) ^ 2 /\ 0 < 1 + eccentricity el * cos ((xa + xb) / 2) <= 1.1 /\ 0.775 <= c.
Proof.
  intros Pa He Hx g c. assert (Hg : 0 < g <= 0.5) by (unfold g; lra).
  assert (HC : cos g = 1 - 2 * (sin (g / 2) ^ 2)) by (replace (cos g) with (cos (2 * (g / 2))) by (f_equal; field); rewrite cos_2a_sin; ring).
  assert (S : 0 < sin (g / 2) < g / 2) by (assert (P := PI_bounds); split; [apply sin_gt_0; lra|apply sin_lt_x; lra]).
  assert (S2 : 0 < sin (g / 2) ^ 2 <= 0.0625) by (split; [apply pow_lt; lra|]; assert (sin (g / 2) ^ 2 <= (0.25) ^ 2) by (apply pow_incr; lra); lra).
  assert (B := COS_bound ((xa + xb) / 2)). set (C := cos ((xa + xb) / 2)) in *. set (e := eccentricity el) in *.
  assert (E : -0.1 <= e * C <= 0.1) by (split; nra). unfold c. repeat split; try lra.
Qed.

Lemma slow_enough el xa xb t1 t2 : 0 < semimajor_axis el -> 0 <= eccentricity el <= 0.1 -> 0 < xb - xa <= 1 ->
  let ra := orbit_point el xa in let rb := orbit_point el xb in
  let p := semimajor_axis el * (1 - eccentricity el ^ 2) in
  (value t2 - value t1) * 86400 = flight_time el xa xb ->
  let m := gauss_m ra rb (value t2 - value t1) in let l := gauss_l ra rb in
  cross ra rb <> zero3 /\ value t2 <> value t1 /\ m <= 0.226 /\ l * (hansen m l + 0.1) ^ 2 < m.
Proof.
  intros Pa He Hx ra rb p Ht. destruct (near_circular el xa xb Pa He Hx) as (Pc & Hw & HC & Hn & Hc).
  assert (Pi := PI_bounds).
  destruct (seen el xa xb Pa ltac:(lra) ltac:(lra) Pc) as (NC & Pd & EK & El & r & Pr & Dr & Fr & Er & Ep).
  fold ra rb in NC, EK, El, Dr, Fr, Er, Ep.
  assert (Ed : flight_time el xa xb / 86400 = value t2 - value t1) by lra. rewrite Ed in *. intros m0 l0. subst m0 l0.
  set (d := value t2 - value t1) in *. set (m := gauss_m ra rb d) in *. set (l := gauss_l ra rb) in *.
  set (w := sin ((xb - xa) / 2 / 2) ^ 2) in *. set (e := eccentricity el) in *. set (C := cos ((xa + xb) / 2)) in *. set (c := cos ((xb - xa) / 2) - e * C) in *.
  assert (NT : value t2 <> value t1) by (unfold d in Pd; lra).
  assert (Pm : 0 < m) by (apply gauss_m_pos; auto; lra). assert (Pl : 0 < l) by (apply gauss_l_pos; auto).
  assert (Ll : l <= 1.42 * w).
  { apply Rmult_le_reg_r with c; auto. rewrite El. assert (w * (1 + e * C) <= w * 1.1) by (apply Rmult_le_compat_l; lra).
    assert (1.42 * w * 0.775 <= 1.42 * w * c) by (apply Rmult_le_compat_l; lra). lra. }
  assert (R2 : 0 < r ^ 2) by (apply pow_lt; auto). assert (Em : m = (w + l) * r ^ 2).
  { assert (X : m / r ^ 2 = w + l) by lra. rewrite <- X. field. lra. }
  assert (Hr : 1 < r <= 1.22).
  { unfold F in Fr. rewrite Er in Fr. assert (Wh := W_high w ltac:(lra)). assert (Wl := W_low w ltac:(lra)).
    replace (m / r ^ 2) with (w + l) in Fr by lra.
    assert (Wu : W w <= 1.4415) by nra. assert (0 < (w + l) * W w) by (apply Rmult_lt_0_compat; lra).
    assert ((w + l) * W w <= 0.1513 * 1.4415) by (apply Rmult_le_compat; lra). lra. }
  assert (Hh := hansen_close m l r Pm ltac:(lra) ltac:(lra) Dr Fr). assert (H1 := hansen_gt m l Pm ltac:(lra)).
  assert (M2 : l * (hansen m l + 0.1) ^ 2 < m).
  { assert ((hansen m l + 0.1) ^ 2 <= (1.3 * r) ^ 2) by (apply pow_incr; lra).
    assert (l * (hansen m l + 0.1) ^ 2 <= l * (1.3 * r) ^ 2) by (apply Rmult_le_compat_l; lra).
    assert (l * (1.3 * r) ^ 2 < m); [|lra]. rewrite Em. replace (l * (1.3 * r) ^ 2) with (1.69 * l * r ^ 2) by (field_simplify; lra).
    apply Rmult_lt_compat_r; lra. }
  assert (R3 : r ^ 2 <= 1.4884) by (assert (r ^ 2 <= 1.22 ^ 2) by (apply pow_incr; lra); lra).
  assert (M1 : m <= 0.226) by (rewrite Em; assert ((w + l) * r ^ 2 <= 0.1513 * 1.4884) by (apply Rmult_le_compat; lra); lra).
  auto.
Qed.

Lemma recovered el xa xb t1 t2 : 0 < semimajor_axis el -> 0 <= eccentricity el <= 0.1 -> 0 < xb - xa <= 1 ->
  let ra := orbit_point el xa in let rb := orbit_point el xb in
  let p := semimajor_axis el * (1 - eccentricity el ^ 2) in
  (value t2 - value t1) * 86400 = flight_time el xa xb ->
  exists N, forall fuel, (N <= fuel)%nat ->
  (exists el', coes_from_positions fuel ra rb t1 t2 = Ok el' /\
     Rabs (semimajor_axis el' - semimajor_axis el) <= 1e-9 * semimajor_axis el /\
     Rabs (semimajor_axis el' * (1 - eccentricity el' ^ 2) - p) <= 1e-9 * p) \/
  (coes_from_positions fuel ra rb t1 t2 = Err ZeroDivisionError /\ Rabs (norm ra - p) <= 1e-9 * p).
Proof.
  intros Pa He Hx ra rb p Ht. destruct (near_circular el xa xb Pa He Hx) as (Pc & Hw & HC & Hn & Hc).
  assert (Pi := PI_bounds).
  destruct (seen el xa xb Pa ltac:(lra) ltac:(lra) Pc) as (NC & Pd & EK & El & r & Pr & Dr & Fr & Er & Ep).
  fold ra rb in NC, EK, El, Dr, Fr, Er, Ep.
  assert (Ed : flight_time el xa xb / 86400 = value t2 - value t1) by lra. rewrite Ed in *.
  set (d := value t2 - value t1) in *. set (m := gauss_m ra rb d) in *. set (l := gauss_l ra rb) in *.
  set (w := sin ((xb - xa) / 2 / 2) ^ 2) in *. set (e := eccentricity el) in *. set (C := cos ((xa + xb) / 2)) in *. set (c := cos ((xb - xa) / 2) - e * C) in *.
  assert (NT : value t2 <> value t1) by (unfold d in Pd; lra).
  assert (Pm : 0 < m) by (apply gauss_m_pos; auto; lra). assert (Pl : 0 < l) by (apply gauss_l_pos; auto).
  assert (Ll : l <= 1.42 * w).
  { apply Rmult_le_reg_r with c; auto. rewrite El. assert (w * (1 + e * C) <= w * 1.1) by (apply Rmult_le_compat_l; lra).
    assert (1.42 * w * 0.775 <= 1.42 * w * c) by (apply Rmult_le_compat_l; lra). lra. }
  assert (R2 : 0 < r ^ 2) by (apply pow_lt; auto). assert (Em : m = (w + l) * r ^ 2).
  { assert (X : m / r ^ 2 = w + l) by lra. rewrite <- X. field. lra. }
  assert (Hr : 1 < r <= 1.22).
  { unfold F in Fr. rewrite Er in Fr. assert (Wh := W_high w ltac:(lra)). assert (Wl := W_low w ltac:(lra)).
    replace (m / r ^ 2) with (w + l) in Fr by lra.
    assert (Wu : W w <= 1.4415) by nra. assert (0 < (w + l) * W w) by (apply Rmult_lt_0_compat; lra).
    assert ((w + l) * W w <= 0.1513 * 1.4415) by (apply Rmult_le_compat; lra). lra. }
  assert (Hh := hansen_close m l r Pm ltac:(lra) ltac:(lra) Dr Fr). assert (H1 := hansen_gt m l Pm ltac:(lra)).
  assert (M2 : l * (hansen m l + 0.1) ^ 2 < m).
  { assert ((hansen m l + 0.1) ^ 2 <= (1.3 * r) ^ 2) by (apply pow_incr; lra).
    assert (l * (hansen m l + 0.1) ^ 2 <= l * (1.3 * r) ^ 2) by (apply Rmult_le_compat_l; lra).
    assert (l * (1.3 * r) ^ 2 < m); [|lra]. rewrite Em. replace (l * (1.3 * r) ^ 2) with (1.69 * l * r ^ 2) by (field_simplify; lra).
    apply Rmult_lt_compat_r; lra. }
  assert (R3 : r ^ 2 <= 1.4884) by (assert (r ^ 2 <= 1.22 ^ 2) by (apply pow_incr; lra); lra).
  assert (M1 : m <= 0.226) by (rewrite Em; assert ((w + l) * r ^ 2 <= 0.1513 * 1.4884) by (apply Rmult_le_compat; lra); lra).
  destruct (gauss_succeeds ra rb t1 t2 NC NT) as (N & n & Run & N1 & Dn & (r' & R1' & Dr' & Fr' & Cl) & Acc); fold d m l; try lra; auto.
  fold d m l in Run, Dn, Dr', Fr', Cl, Acc. specialize (Acc ltac:(lra) ltac:(lra)).
  assert (Er' : r' = r) by (apply (root_unique m l); auto; lra). subst r'.
  assert (Cn : Rabs (n - r) <= 1e-10) by lra.
  exists N. intros fuel Hf. specialize (Run fuel Hf).
  assert (Rho := rel_close r n ltac:(lra) N1 Cn). assert (Rho' := rel_close n r N1 ltac:(lra) ltac:(rewrite Rabs_minus_sym; exact Cn)). cbv zeta in Rho, Rho'.
  assert (Pp : 0 < p).
  { unfold p. apply Rmult_lt_0_compat; auto. assert (e ^ 2 <= 0.1 ^ 2) by (apply pow_incr; lra). fold e. lra. }
  set (p' := (norm (cross ra rb) * n / (sqrt Earth_MU * (d * SECONDS_IN_DAY))) ^ 2).
  assert (EP' : p' = n ^ 2 / r ^ 2 * p).
  { unfold p', p. fold e. rewrite Ep. assert (0 < sqrt Earth_MU) by apply sqrt_lt_R0, mu_pos.
    assert (d * SECONDS_IN_DAY <> 0) by (apply Rmult_integral_contrapositive; split; [lra|apply day_nz]).
    set (y := d * SECONDS_IN_DAY) in *. field. repeat split; auto; lra. }
  assert (PP : Rabs (p' - p) <= 1e-9 * p).
  { rewrite EP'. set (q := n ^ 2 / r ^ 2) in *. replace (q * p - p) with ((q - 1) * p) by ring. rewrite Rabs_mult, (Rabs_pos_eq p) by lra.
    apply Rmult_le_compat_r; [lra|]. apply Rabs_le. lra. }
  destruct (coes_total fuel ra rb t1 t2 n NC NT Run Dn) as [(el' & Ok' & E1 & P' & A')|[P' Er']].
  - left. exists el'. fold d m l p' in P', A'. split; auto. rewrite P'. split; auto.
    apply (close_orbit (semimajor_axis el) (semimajor_axis el') (gauss_chord ra rb) (m / r ^ 2) w l (r ^ 2 / n ^ 2)); auto; try lra.
    + rewrite EK. replace (m / r ^ 2) with (w + l) by lra.
      replace (2 * semimajor_axis el * c * (w + l)) with (2 * semimajor_axis el * (w * c + l * c)) by ring. rewrite El. unfold c. rewrite HC. ring.
    + replace (r ^ 2 / n ^ 2 * (m / r ^ 2)) with (m / n ^ 2) by (field; split; lra). exact A'.
  - right. fold d p' in P'. rewrite <- P'. split; auto.
Qed.

(** Passages of perigee on an elongated orbit. *)
Lemma refused_perigee fuel el x t1 t2 : 0 < semimajor_axis el -> 0.8 <= eccentricity el < 1 -> 0 < x -> x < PI -> eccentricity el < cos x ->
  (value t2 - value t1) * 86400 = flight_time el (- x) x -> (0 < fuel)%nat ->
  exists err, coes_from_positions fuel (orbit_point el (- x)) (orbit_point el x) t1 t2 = Err err /\ (err = ValueError \/ err = ZeroDivisionError).
Proof.
  intros Pa He Px Px' Hc Ht Hf. set (e := eccentricity el) in *.
  assert (G1 : (x - - x) / 2 = x) by field. assert (G2 : (- x + x) / 2 = 0) by field.
  destruct (seen el (- x) x Pa ltac:(fold e; lra) ltac:(lra)) as (NC & Pd & EK & El & r & Pr & Dr & Fr & Er & _).
  { rewrite G1, G2, cos_0. fold e. lra. }
  rewrite G1, G2, cos_0, Rmult_1_r in El. rewrite G1 in Er. fold e in El.
  set (ra := orbit_point el (- x)) in *. set (rb := orbit_point el x) in *.
  assert (Ed : flight_time el (- x) x / 86400 = value t2 - value t1) by lra. rewrite Ed in *.
  set (d := value t2 - value t1) in *. assert (NT : value t2 <> value t1) by (unfold d in Pd; lra).
  assert (Pm : 0 < gauss_m ra rb d) by (apply gauss_m_pos; auto; lra). assert (Pl : 0 < gauss_l ra rb) by (apply gauss_l_pos; auto).
  assert (Sol : exists err, solve_nu fuel (gauss_m ra rb d) (gauss_l ra rb) (hansen (gauss_m ra rb d) (gauss_l ra rb) + 0.1) (hansen (gauss_m ra rb d) (gauss_l ra rb)) = Err err /\ (err = ValueError \/ err = ZeroDivisionError)).
  2:{ destruct Sol as (err & E & K). exists err. split; auto. apply coes_fails; auto. }
  set (m := gauss_m ra rb d) in *. set (l := gauss_l ra rb) in *. set (h := hansen m l) in *. clearbody m l.
  assert (Bad : forall n, ~ in_domain m l n -> exists err, f_of_nu n m l = Err err /\ (err = ValueError \/ err = ZeroDivisionError)).
  { intros n D. rewrite (f_err m l n D). eexists. split; [reflexivity|]. destruct (Req_EM_T n 0); [right; reflexivity|].
    destruct (Req_EM_T (m / n ^ 2 - l) 0); [right; reflexivity|]. destruct (Req_EM_T (m / n ^ 2 - l) 1); [right|left]; reflexivity. }
  destruct fuel as [|fuel]; [lia|]. cbn [solve_nu].
  destruct (domain_dec m l h) as [D0|D0].
  2:{ destruct (Bad h D0) as (err & E & K). rewrite E. cbn [bind]. exists err. auto. }
  rewrite (f_ok m l h D0). cbn [bind].
  assert (D1 : ~ in_domain m l (h + 0.1)).
  2:{ destruct (Bad (h + 0.1) D1) as (err & E & K). rewrite E. cbn [bind]. exists err. auto. }
  assert (HR := hansen_right m l Pm ltac:(lra) D0). fold h in HR. assert (H1 := hansen_gt m l Pm ltac:(lra)). fold h in H1.
  assert (Hr : r <= h).
  { destruct (Rle_dec r h) as [|C]; auto. exfalso. assert (Fa := F_falling m l h r Pm ltac:(lra) ltac:(lra) D0 Dr).
    assert (X := falling_lt _ _ _ _ _ h r Fa ltac:(lra) ltac:(lra) ltac:(lra)). lra. }
  intros [_ D]. set (w := sin (x / 2) ^ 2) in *.
  assert (HC : cos x = 1 - 2 * w) by (unfold w; replace (cos x) with (cos (2 * (x / 2))) by (f_equal; field); rewrite cos_2a_sin; ring).
  assert (Pw : 0 < w) by (unfold w; apply pow_lt, sin_gt_0; lra).
  assert (Wb := W_high w ltac:(lra)). assert (Wl := W_low w ltac:(lra)). assert (Wu : W w <= 1.5152) by nra.
  assert (R2 : 0 < r ^ 2) by (apply pow_lt; auto). assert (Eq : m = (w + l) * r ^ 2).
  { assert (X : m / r ^ 2 = w + l) by lra. rewrite <- X. field. lra. }
  assert (Rv : r = 1 + (w + l) * W w).
  { unfold F in Fr. rewrite Er in Fr. replace (m / r ^ 2) with (w + l) in Fr by lra. lra. }
  set (k := cos x - e) in *. assert (Pk : 0 < k) by (unfold k; lra).
  assert (Rk : r * k <= 0.2 * (1 + e)).
  { rewrite Rv. replace ((1 + (w + l) * W w) * k) with (k + W w * (w * k + l * k)) by ring. rewrite El.
    replace (w * k + w * (1 + e)) with (w * (2 - 2 * w)) by (unfold k; rewrite HC; ring).
    assert (0 <= w * (2 - 2 * w)) by (apply Rmult_le_pos; lra).
    assert (W w * (w * (2 - 2 * w)) <= 1.5152 * (w * (2 - 2 * w))) by (apply Rmult_le_compat_r; lra).
    unfold k. rewrite HC. assert (0 <= w * w) by (apply Rmult_le_pos; lra). assert (2 * w <= 1 - e) by lra. lra. }
  assert (Wk : w * r <= 0.2 * l).
  { apply Rmult_le_reg_r with (1 + e); [lra|]. replace (w * r * (1 + e)) with (l * (r * k)) by (replace (w * r * (1 + e)) with (r * (w * (1 + e))) by ring; rewrite <- El; ring).
    assert (l * (r * k) <= l * (0.2 * (1 + e))) by (apply Rmult_le_compat_l; lra). lra. }
  assert (Big : m < l * (r + 0.1) ^ 2).
  { rewrite Eq. assert (w * r * r <= 0.2 * l * r) by (apply Rmult_le_compat_r; lra).
    replace (l * (r + 0.1) ^ 2) with (l * r ^ 2 + 0.2 * l * r + 0.01 * l) by (field_simplify; lra). lra. }
  assert ((r + 0.1) ^ 2 <= (h + 0.1) ^ 2) by (apply pow_incr; lra).
  assert (l * (r + 0.1) ^ 2 <= l * (h + 0.1) ^ 2) by (apply Rmult_le_compat_l; lra).
  assert (m / (h + 0.1) ^ 2 < l); [|lra]. apply Rmult_lt_reg_r with ((h + 0.1) ^ 2); [apply pow_lt; lra|].
  replace (m / (h + 0.1) ^ 2 * (h + 0.1) ^ 2) with m by (field; lra). lra.
Qed.

Lemma fast_refused fuel ra rb t1 t2 : cross ra rb <> zero3 -> value t2 <> value t1 -> (0 < fuel)%nat ->
  let m := gauss_m ra rb (value t2 - value t1) in let l := gauss_l ra rb in
  m <= l * (hansen m l + 0.1) ^ 2 ->
  exists err, coes_from_positions fuel ra rb t1 t2 = Err err /\ (err = ValueError \/ err = ZeroDivisionError).
Proof.
  intros NC NT Hf m l H. assert (Pm : 0 < m) by (apply gauss_m_pos; auto; lra). assert (Pl : 0 < l) by (apply gauss_l_pos; auto).
  set (h := hansen m l) in *.
  assert (Sol : exists err, solve_nu fuel m l (h + 0.1) h = Err err /\ (err = ValueError \/ err = ZeroDivisionError)).
  2:{ destruct Sol as (err & E & K). exists err. split; auto. apply coes_fails; auto. }
  assert (H1 := hansen_gt m l Pm ltac:(lra)). fold h in H1. clearbody h m l.
  assert (Bad : forall n, ~ in_domain m l n -> exists err, f_of_nu n m l = Err err /\ (err = ValueError \/ err = ZeroDivisionError)).
  { intros n D. rewrite (f_err m l n D). eexists. split; [reflexivity|]. destruct (Req_EM_T n 0); [right; reflexivity|].
    destruct (Req_EM_T (m / n ^ 2 - l) 0); [right; reflexivity|]. destruct (Req_EM_T (m / n ^ 2 - l) 1); [right|left]; reflexivity. }
  destruct fuel as [|fuel]; [lia|]. cbn [solve_nu].
  destruct (domain_dec m l h) as [D0|D0].
  2:{ destruct (Bad h D0) as (err & E & K). rewrite E. cbn [bind]. exists err. auto. }
  rewrite (f_ok m l h D0). cbn [bind].
  destruct (Bad (h + 0.1)) as (err & E & K); [|rewrite E; cbn [bind]; exists err; auto].
  intros [_ D]. assert (m / (h + 0.1) ^ 2 <= l); [|lra]. apply Rmult_le_reg_r with ((h + 0.1) ^ 2); [apply pow_lt; lra|].
  replace (m / (h + 0.1) ^ 2 * (h + 0.1) ^ 2) with m by (field; lra). lra.
Qed.
