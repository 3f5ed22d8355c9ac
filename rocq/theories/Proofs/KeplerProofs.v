(** The Newton solver for Kepler's equation. *)
From Coq Require Import Reals Lra Psatz Lia Bool.
From Coquelicot Require Import Coquelicot.
From Verif.Model Require Import Num Functions.
From Verif.Proofs Require Import NumLemmas Analysis FunctionsProofs.
Local Open Scope R_scope.

Definition kf (e x : R) : R := x - e * sin x.

Lemma kf_expand e x y : 0 <= e <= 1 -> (1 - e) * Rabs (x - y) <= Rabs (kf e x - kf e y).
Proof.
  intros He. unfold kf. assert (L := sin_lip x y).
  apply Rabs_le_between in L.
  unfold Rabs. destruct (Rcase_abs (x - y)), (Rcase_abs (x - e * sin x - (y - e * sin y)));
  unfold Rabs in L; destruct (Rcase_abs (x - y)); try lra; try nra.
Qed.
Lemma kf_inj e x y : 0 <= e < 1 -> kf e x = kf e y -> x = y.
Proof.
  intros He E. assert (H := kf_expand e x y ltac:(lra)). rewrite E in H.
  replace (kf e y - kf e y) with 0 in H by ring. rewrite Rabs_R0 in H.
  assert (P := Rabs_pos (x - y)). assert (Z : Rabs (x - y) = 0) by nra.
  destruct (Req_dec (x - y) 0); [lra|]. apply Rabs_no_R0 in H0. lra.
Qed.
Lemma kf_mono e x y : 0 <= e < 1 -> kf e x < kf e y -> x < y.
Proof.
  intros He H. destruct (Rlt_dec x y); auto. exfalso. unfold kf in H.
  assert (L := sin_lip x y). rewrite (Rabs_right (x - y)) in L by lra. apply Rabs_le_between in L. nra.
Qed.
Lemma kf_mono_le e x y : 0 <= e <= 1 -> x <= y -> kf e x <= kf e y.
Proof.
  intros He H. unfold kf. assert (L := sin_lip y x). rewrite (Rabs_right (y - x)) in L by lra.
  apply Rabs_le_between in L. nra.
Qed.
Lemma kf_cont e : continuity (kf e).
Proof. unfold kf. intros x. reg. Qed.
Lemma kf_solution e m : 0 <= e <= 1 -> exists x, kf e x = m.
Proof.
  intros He.
  destruct (IVT_weak (fun x => kf e x - m) (m - 1) (m + 1)) as [c [_ H]].
  - intros x. unfold kf. reg.
  - lra.
  - unfold kf. generalize (SIN_bound (m - 1)) (SIN_bound (m + 1)). nra.
  - exists c; lra.
Qed.

(** ** What a returned value satisfies *)
Lemma EA_loop_inv fuel ma e x0 x : EA_loop fuel ma e x0 = Ok x ->
  exists y q, 1 - e * cos y <> 0 /\ q * (1 - e * cos y) = ma - kf e y /\ x = y + q /\ Rabs q < 1e-12.
Proof.
  revert x0. induction fuel as [|fuel IH]; simpl; intros x0 H; [discriminate|].
  apply bind_ok in H. destruct H as [q [Hq H]]. apply pdiv_inv in Hq. destruct Hq as [Hd Eq].
  destruct (nlt_spec (nabs (x0 + q - x0)) EA_TOLERANCE) as [T|T].
  - inversion H. exists x0, q. split; auto. split.
    + rewrite Eq. unfold kf. field. auto.
    + split; auto. unfold nabs, EA_TOLERANCE in T. replace (x0 + q - x0) with q in T by ring. auto.
  - eapply IH; eauto.
Qed.
Lemma EA_loop_residual fuel ma e x0 x : 0 <= e <= 1 -> EA_loop fuel ma e x0 = Ok x ->
  Rabs (kf e x - ma) < 5e-25.
Proof.
  intros He H. apply EA_loop_inv in H. destruct H as (y & q & Hd & E & -> & Hq).
  assert (T := sin_taylor1 y q).
  replace (kf e (y + q) - ma) with (- e * (sin (y + q) - sin y - q * cos y)) by (unfold kf in *; lra).
  rewrite Rabs_mult, Rabs_Ropp, (Rabs_right e) by lra.
  assert (Q : q * q < 1e-24).
  { assert (P := Rabs_pos q). replace (q * q) with (Rabs q * Rabs q) by (rewrite <- Rabs_mult; apply Rabs_right; nra). nra. }
  assert (P := Rabs_pos (sin (y + q) - sin y - q * cos y)). nra.
Qed.

Lemma EA_residual fuel ma e x : 0 <= e <= 1 -> EA_from_ma_e fuel ma e = Ok x ->
  exists k : Z, (k = 0 \/ k = 1)%Z /\ Rabs (x - e * sin x - (ma + 2 * PI * IZR k)) < 5e-25.
Proof.
  intros He H. unfold EA_from_ma_e in H. apply bind_ok in H. destruct H as [y [Hy H]].
  apply EA_loop_residual in Hy; auto.
  destruct (nlt_spec y 0); inversion H; subst; clear H.
  - exists 1%Z. split; auto. replace (y + 2 * PI - e * sin (y + 2 * PI) - (ma + 2 * PI * 1)) with (kf e y - ma); auto.
    unfold kf. replace (sin (y + 2 * PI)) with (sin y); [ring|].
    rewrite sin_plus, sin_2PI, cos_2PI; ring.
  - exists 0%Z. split; auto. replace (x - e * sin x - (ma + 2 * PI * 0)) with (kf e x - ma); auto.
    unfold kf; ring.
Qed.
Lemma EA_error fuel ma e x : 0 <= e < 1 -> EA_from_ma_e fuel ma e = Ok x ->
  exists exact (k : Z), (k = 0 \/ k = 1)%Z /\ exact - e * sin exact = ma /\
    Rabs (x - (exact + 2 * PI * IZR k)) < 5e-25 / (1 - e).
Proof.
  intros He H. destruct (EA_residual fuel ma e x ltac:(lra) H) as [k [Hk R]].
  destruct (kf_solution e ma ltac:(lra)) as [s Hs]. exists s, k. split; auto. split; [exact Hs|].
  apply lt_div; [lra|].
  assert (L := kf_expand e x (s + 2 * PI * IZR k) ltac:(lra)).
  unfold kf in L at 2. rewrite sin_shift_Z in L. unfold kf in L, Hs.
  replace (x - e * sin x - (s + 2 * PI * IZR k - e * sin s)) with (x - e * sin x - (ma + 2 * PI * IZR k)) in L
    by lra.
  lra.
Qed.
Lemma EA_nonneg fuel ma e x : 0 <= e <= 1 -> - PI < ma -> EA_from_ma_e fuel ma e = Ok x -> 0 <= x.
Proof.
  intros He Hm H. unfold EA_from_ma_e in H. apply bind_ok in H. destruct H as [y [Hy H]].
  apply EA_loop_residual in Hy; auto. assert (P2 := PI2_1).
  destruct (nlt_spec y 0); inversion H; [|lra].
  apply Rabs_def2 in Hy. unfold kf in Hy. generalize (SIN_bound y). nra.
Qed.

(** ** Termination *)
Definition newton (ma e x : R) : R := x + (ma - x + e * sin x) / (1 - e * cos x).

Lemma EA_loop_step fuel ma e x : 0 <= e < 1 ->
  EA_loop (S fuel) ma e x =
  (if nlt (Rabs (newton ma e x - x)) 1e-12 then Ok (newton ma e x) else EA_loop fuel ma e (newton ma e x)).
Proof.
  intros He. simpl. assert (D := one_minus_e_cos e x He). rewrite pdiv_ok by lra. reflexivity.
Qed.

(** more fuel does not change a result *)
Lemma EA_loop_fuel f1 f2 ma e x r : (f1 <= f2)%nat -> EA_loop f1 ma e x = Ok r -> EA_loop f2 ma e x = Ok r.
Proof.
  revert f2 x. induction f1 as [|f1 IH]; simpl; intros f2 x L H; [discriminate|].
  destruct f2 as [|f2]; [lia|]. simpl. destruct (pdiv (ma - x + e * sin x) (1 - e * cos x)); simpl in *; auto.
  destruct (nlt _ _); auto. apply IH; auto; lia.
Qed.

Definition stops (ma e x : R) : Prop := exists n r, EA_loop n ma e x = Ok r.

Lemma stops_next ma e x : 0 <= e < 1 -> stops ma e (newton ma e x) -> stops ma e x.
Proof.
  intros He [n [r H]]. destruct (Rlt_dec (Rabs (newton ma e x - x)) 1e-12).
  - exists 1%nat, (newton ma e x). rewrite EA_loop_step by auto. rewrite nlt_true by auto. auto.
  - exists (S n), r. rewrite EA_loop_step by auto. rewrite nlt_false by lra. auto.
Qed.
Lemma stops_now ma e x : 0 <= e < 1 -> Rabs (newton ma e x - x) < 1e-12 -> stops ma e x.
Proof. intros He H. exists 1%nat, (newton ma e x). rewrite EA_loop_step by auto. rewrite nlt_true by auto. auto. Qed.

(** reflections of the equation *)
Lemma newton_shift ma e x : newton (2 * PI - ma) e (2 * PI - x) = 2 * PI - newton ma e x.
Proof.
  unfold newton. replace (sin (2 * PI - x)) with (- sin x).
  2:{ rewrite sin_minus, sin_2PI, cos_2PI; ring. }
  replace (cos (2 * PI - x)) with (cos x).
  2:{ rewrite cos_minus, sin_2PI, cos_2PI; ring. }
  unfold Rdiv. ring.
Qed.
Lemma newton_neg ma e x : newton (- ma) e (- x) = - newton ma e x.
Proof. unfold newton. rewrite sin_neg, cos_neg. unfold Rdiv. ring. Qed.
Lemma stops_reflect (g : R -> R) ma e x : 0 <= e < 1 ->
  (forall x, newton (g ma) e (g x) = g (newton ma e x)) ->
  (forall a b, Rabs (g a - g b) = Rabs (a - b)) ->
  stops ma e x -> stops (g ma) e (g x).
Proof.
  intros He Hn Hd [n [r H]]. revert x H. induction n as [|n IH]; intros x H; [discriminate|].
  rewrite EA_loop_step in H by auto.
  destruct (nlt_spec (Rabs (newton ma e x - x)) 1e-12) as [T|T].
  - apply stops_now; auto. rewrite Hn, Hd. auto.
  - apply stops_next; auto. rewrite Hn. apply IH; auto.
Qed.

(** Case A: monotone convergence from the right on [0, PI] *)
Lemma convex_tangent e s x : 0 <= e < 1 -> 0 <= s <= x -> x <= PI ->
  kf e x - kf e s <= (1 - e * cos x) * (x - s).
Proof.
  intros He Hs Hx.
  assert (D : forall c, derivable_pt_lim (kf e) c (1 - e * cos c)).
  { intros c. unfold kf. replace (1 - e * cos c) with (1 - e * cos c) by ring.
    apply (derivable_pt_lim_minus (fun x => x) (fun x => e * sin x)).
    apply derivable_pt_lim_id. apply (derivable_pt_lim_scal sin). apply derivable_pt_lim_sin. }
  destruct (Req_dec s x) as [->|N]. { replace (kf e x - kf e x) with 0 by ring. lra. }
  destruct (MVT_cor2 (kf e) (fun c => 1 - e * cos c) s x ltac:(lra) (fun c _ => D c)) as [c [E Hc]].
  rewrite E. apply Rmult_le_compat_r; [lra|].
  assert (cos x <= cos c) by (apply cos_decr_1; lra). nra.
Qed.
Lemma stops_right e s n : 0 <= e < 1 -> forall ma x, ma = kf e s -> 0 <= s -> s <= x <= PI ->
  x - s < INR n * 1e-12 -> stops ma e x.
Proof.
  intros He. induction n as [|n IH]; intros ma x Em Hs Hx Hn. { simpl in Hn. lra. }
  destruct (Rlt_dec (Rabs (newton ma e x - x)) 1e-12) as [T|T]; [apply stops_now; auto|].
  apply stops_next; auto.
  assert (D := one_minus_e_cos e x He).
  assert (C := convex_tangent e s x He ltac:(lra) ltac:(lra)).
  assert (M := kf_mono_le e s x ltac:(lra) ltac:(lra)).
  assert (Nx : newton ma e x - x = - ((kf e x - ma) / (1 - e * cos x))).
  { unfold newton, kf. field. lra. }
  assert (Q0 : 0 <= (kf e x - ma) / (1 - e * cos x)) by (apply Rdiv_nonneg; lra).
  assert (Q1 : (kf e x - ma) / (1 - e * cos x) <= x - s) by (apply div_le; lra).
  rewrite Nx, Rabs_Ropp, Rabs_right in T by lra.
  apply IH; auto; try lra. rewrite S_INR in Hn. lra.
Qed.

(** Case B: contraction on [PI/2, 3 PI/2] *)
Lemma cos_neg_mid x : PI / 2 <= x <= 3 * (PI / 2) -> cos x <= 0.
Proof. intros. apply cos_le_0; lra. Qed.
Lemma newton_contract e s x : 0 <= e < 1 ->
  PI / 2 <= s <= 3 * (PI / 2) -> PI / 2 <= x <= 3 * (PI / 2) ->
  Rabs (newton (kf e s) e x - s) <= e * Rabs (x - s).
Proof.
  intros He Hs Hx.
  assert (Cx := cos_neg_mid x Hx). assert (Dx := one_minus_e_cos e x He).
  assert (D : forall c, derivable_pt_lim (kf e) c (1 - e * cos c)).
  { intros c. unfold kf.
    apply (derivable_pt_lim_minus (fun x => x) (fun x => e * sin x)).
    apply derivable_pt_lim_id. apply (derivable_pt_lim_scal sin). apply derivable_pt_lim_sin. }
  assert (M : exists c, PI / 2 <= c <= 3 * (PI / 2) /\ kf e x - kf e s = (1 - e * cos c) * (x - s)).
  { destruct (Rtotal_order s x) as [L|[L|L]].
    - destruct (MVT_cor2 (kf e) (fun c => 1 - e * cos c) s x L (fun c _ => D c)) as [c [E Hc]]. exists c. split; [lra|auto].
    - exists x. split; auto. rewrite L. ring.
    - destruct (MVT_cor2 (kf e) (fun c => 1 - e * cos c) x s L (fun c _ => D c)) as [c [E Hc]]. exists c. split; [lra|].
      simpl in E. lra. }
  destruct M as [c [Hc E]]. assert (Cc := cos_neg_mid c Hc).
  assert (B1 := COS_bound x). assert (B2 := COS_bound c).
  assert (N : newton (kf e s) e x - s = (e * (cos c - cos x) / (1 - e * cos x)) * (x - s)).
  { apply Rmult_eq_reg_r with (1 - e * cos x); [|lra].
    replace ((newton (kf e s) e x - s) * (1 - e * cos x)) with ((x - s) * (1 - e * cos x) - (kf e x - kf e s)).
    - rewrite E. field. lra.
    - unfold newton, kf. field. lra. }
  rewrite N, Rabs_mult. apply Rmult_le_compat_r; [apply Rabs_pos|].
  apply Rabs_le. split.
  - apply le_div; [lra|]. nra.
  - apply div_le; [lra|]. nra.
Qed.
Lemma stops_contract e s r n : 0 <= e < 1 -> 0 <= r -> PI / 2 <= s - r -> s + r <= 3 * (PI / 2) ->
  e ^ n * r < 5e-13 -> forall k x, Rabs (x - s) <= e ^ k * r -> (k <= n)%nat ->
  stops (kf e s) e x.
Proof.
  intros He R0 Hl Hu Hn k. remember (n - k)%nat as d. revert k Heqd.
  assert (Hpow : forall k, 0 <= e ^ k <= 1).
  { intros k. split; [apply pow_le; lra|]. rewrite <- (pow1 k). apply pow_incr. lra. }
  assert (Hs : PI / 2 <= s <= 3 * (PI / 2)) by lra.
  assert (Hin : forall k x, Rabs (x - s) <= e ^ k * r -> PI / 2 <= x <= 3 * (PI / 2)).
  { intros k x Hx. specialize (Hpow k). assert (Hb : Rabs (x - s) <= r) by nra.
    apply Rabs_le_between in Hb. lra. }
  induction d as [|d IH]; intros k Hd x Hx Hk.
  - assert (k = n) by lia. subst k. assert (Hx' := Hin _ _ Hx).
    apply stops_now; auto.
    assert (C := newton_contract e s x He Hs Hx').
    replace (newton (kf e s) e x - x) with ((newton (kf e s) e x - s) + - (x - s)) by ring.
    eapply Rle_lt_trans; [apply Rabs_triang|]. rewrite Rabs_Ropp.
    assert (P := Rabs_pos (x - s)). nra.
  - apply stops_next; auto. assert (Hx' := Hin _ _ Hx).
    assert (C := newton_contract e s x He Hs Hx').
    apply (IH (S k)); [lia| |lia]. simpl. rewrite Rmult_assoc.
    eapply Rle_trans; [exact C|]. apply Rmult_le_compat_l; lra.
Qed.

Lemma archimed_nat x : exists n : nat, x < INR n.
Proof.
  destruct (archimed x) as [H _]. exists (Z.to_nat (up x)). rewrite INR_IZR_INZ.
  destruct (Z_le_gt_dec 0 (up x)).
  - rewrite Z2Nat.id by auto. lra.
  - assert (IZR (up x) <= 0) by (apply IZR_le; lia).
    assert (0 <= IZR (Z.of_nat (Z.to_nat (up x)))) by (apply IZR_le; lia). lra.
Qed.

(** M in [0, PI], start at M + e *)
Lemma stops_half e m : 0 <= e < 1 -> 0 <= m <= PI -> stops m e (m + e).
Proof.
  intros He Hm. assert (HP := PI_pos). assert (HP2 := PI2_1).
  assert (Hpi : 3.14 < PI).
  { generalize PI_bounds; lra. }
  destruct (IVT_weak (fun x => kf e x - m) 0 PI) as [s [Hs Es]].
  - intros x. unfold kf. reg.
  - lra.
  - unfold kf. rewrite sin_0, sin_PI. lra.
  - assert (Em : m = kf e s) by lra. clear Es.
    assert (S0 : 0 <= sin s <= 1) by (split; [apply sin_ge_0; lra|apply SIN_bound]).
    assert (Hx0 : s <= m + e) by (unfold kf in Em; nra).
    destruct (Rle_dec (m + e) PI) as [C|C].
    + destruct (archimed_nat ((m + e - s) / 1e-12)) as [n Hn].
      apply (stops_right e s n He); auto; try lra.
    + assert (Hsx : PI - s <= 0.55).
      { destruct (Rle_dec (PI - s) 0.55); auto. exfalso.
        unfold kf in Em.
        assert (Sx : sin (PI - s) = sin s) by apply sin_PI_x.
        set (x := PI - s) in *.
        assert (L : x + e * sin s < e) by (unfold x; lra).
        assert (L2 : x < 1) by nra.
        assert (SL := sin_lower 0.55 ltac:(lra)).
        assert (sin 0.55 <= sin x) by (apply sin_incr_1; lra).
        assert (0.52 <= sin s) by (rewrite <- Sx; lra).
        nra. }
      destruct (pow_lt_1_zero e ltac:(rewrite Rabs_right; lra) 5e-13 ltac:(lra)) as [n Hn].
      specialize (Hn n (le_n n)). rewrite Rabs_right in Hn by (apply Rle_ge, pow_le; lra).
      rewrite Em. apply (stops_contract e s 1 n) with (k := O); auto; try lra; try lia.
      simpl. unfold kf. rewrite Rabs_right; [|unfold kf in Em; nra]. nra.
Qed.

Lemma EA_terminates e ma : 0 <= e < 1 -> - PI < ma <= 2 * PI ->
  exists n x, forall fuel, (n <= fuel)%nat -> EA_from_ma_e fuel ma e = Ok x.
Proof.
  intros He Hm. assert (HP := PI_pos).
  assert (S : stops ma e (EA_start ma e)).
  { unfold EA_start.
    destruct (nlt_spec (- PI) ma) as [A|A]; [|lra].
    destruct (nlt_spec ma 0) as [B|B].
    - simpl. replace ma with (- - ma) at 1 by ring. replace (ma - e) with (- (- ma + e)) by ring.
      apply (stops_reflect Ropp); auto.
      + intros; apply newton_neg.
      + intros. replace (- a - - b) with (- (a - b)) by ring. apply Rabs_Ropp.
      + apply stops_half; auto. lra.
    - simpl. destruct (nlt_spec PI ma) as [C|C].
      + replace ma with (2 * PI - (2 * PI - ma)) at 1 by ring.
        replace (ma - e) with (2 * PI - (2 * PI - ma + e)) by ring.
        apply (stops_reflect (fun x => 2 * PI - x)); auto.
        * intros; apply newton_shift.
        * intros. replace (2 * PI - a - (2 * PI - b)) with (- (a - b)) by ring. apply Rabs_Ropp.
        * apply stops_half; auto. lra.
      + apply stops_half; auto. lra. }
  destruct S as [n [r H]]. exists n. eexists. intros fuel L.
  unfold EA_from_ma_e. rewrite (EA_loop_fuel _ _ _ _ _ _ L H). reflexivity.
Qed.

(** ** Round trips *)
Lemma MA_EA fuel ma e x : 0 <= e < 1 -> 5e-25 <= ma < 2 * PI -> EA_from_ma_e fuel ma e = Ok x ->
  Rabs (MA_from_ea_e x e - ma) < 5e-25.
Proof.
  intros He Hm H. unfold EA_from_ma_e in H. apply bind_ok in H. destruct H as [y [Hy H]].
  apply EA_loop_residual in Hy; [|lra].
  assert (Py : 0 <= y).
  { destruct (Rle_dec 0 y); auto. exfalso. apply Rabs_def2 in Hy.
    assert (kf e y <= kf e 0) by (apply kf_mono_le; lra).
    assert (kf e 0 = 0) by (unfold kf; rewrite sin_0; ring). lra. }
  rewrite nlt_false in H by auto. inversion H. subst y.
  unfold MA_from_ea_e. fold (kf e x). rewrite nlt_false; auto.
  apply Rabs_def2 in Hy. lra.
Qed.
Lemma EA_MA fuel x e x' : 0 <= e < 1 -> 0 <= x < 2 * PI ->
  EA_from_ma_e fuel (MA_from_ea_e x e) e = Ok x' ->
  exists k : Z, (k = 0 \/ k = 1)%Z /\ Rabs (x' - (x + 2 * PI * IZR k)) < 5e-25 / (1 - e).
Proof.
  intros He Hx H. apply EA_error in H; auto. destruct H as (s & k & Hk & Es & B).
  exists k. split; auto. replace x with s; auto.
  apply (kf_inj e); auto. unfold kf at 1. rewrite Es. unfold MA_from_ea_e. fold (kf e x).
  rewrite nlt_false; auto.
  assert (kf e 0 <= kf e x) by (apply kf_mono_le; lra).
  assert (kf e 0 = 0) by (unfold kf; rewrite sin_0; ring). lra.
Qed.
Lemma kepler_unique e m : 0 <= e < 1 -> exists! x, x - e * sin x = m.
Proof.
  intros He. destruct (kf_solution e m ltac:(lra)) as [x Hx]. exists x. split; [exact Hx|].
  intros y Hy. apply (kf_inj e); auto. unfold kf in *. lra.
Qed.
