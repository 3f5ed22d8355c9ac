From Coq Require Import Reals ZArith List Lra Lia Psatz.
From Flocq Require Import Core.
From Verif.Model Require Import Num Constants Linalg Functions Time Celestial Positions States Inertial TimeFloat AngleFloat ElementsFloat FrameFloat SiderealFloat GravityFloat.
From Verif.Model Require Import StepFloat.
From Verif.Spec Require Import Geometry Propagation Motion FrameFloat EarthFloat SiderealFloat.
From Verif.Spec Require Import StepFloat.
From Verif.Proofs Require Import NumLemmas LinalgProofs SmoothForces ConvergenceProofs FrameFloatBasics.
From Verif.Proofs Require Import StepFloatProofs.
Local Open Scope R_scope.

Lemma pair_inj (v a w b : vec3) : Ok (v, a) = Ok (w, b) -> a = b.
Proof. intros H. inversion H. reflexivity. Qed.

Lemma shifted r c k' k d x : close3 d x (add r (scale c k')) -> norm (sub x (add r (scale c k))) <= d + Rabs c * norm (sub k' k).
Proof.
  unfold close3. intros H. replace (sub x (add r (scale c k))) with (add (sub x (add r (scale c k'))) (scale c (sub k' k))) by (unfold sub, add, scale; cbn [x3 y3 z3]; f_equal; ring).
  eapply Rle_trans; [apply norm_triangle|]. rewrite norm_scale. lra.
Qed.

Lemma weighted a b c d a' b' c' d' e : norm (sub a' a) <= e -> norm (sub b' b) <= e -> norm (sub c' c) <= e -> norm (sub d' d) <= e ->
  norm (sub (add a' (add (scale 2 b') (add (scale 2 c') d'))) (add a (add (scale 2 b) (add (scale 2 c) d)))) <= 6 * e.
Proof.
  intros A B C D.
  replace (sub _ _) with (add (sub a' a) (add (scale 2 (sub b' b)) (add (scale 2 (sub c' c)) (sub d' d)))) by (unfold sub, add, scale; cbn [x3 y3 z3]; f_equal; ring).
  assert (T1 := norm_triangle (sub a' a) (add (scale 2 (sub b' b)) (add (scale 2 (sub c' c)) (sub d' d)))).
  assert (T2 := norm_triangle (scale 2 (sub b' b)) (add (scale 2 (sub c' c)) (sub d' d))). assert (T3 := norm_triangle (scale 2 (sub c' c)) (sub d' d)).
  rewrite !norm_scale, (Rabs_pos_eq 2) in * by lra. lra.
Qed.

Lemma near_pull Lp e s x t1 r1 g a eps : lipschitz_forces Lp -> flyable (later e s) x -> flyable (Epoch t1) r1 -> day_of t1 = day_of (value e + s / 86400) ->
  pull t1 r1 g -> close3 eps a g -> Rabs (t1 - (value e + s / 86400)) <= 2e-11 -> norm (sub a (total_acc (point e s x))) <= eps + Lp * (2e-11 + norm (sub r1 x)).
Proof.
  intros (L0 & LL) F F1 DD P C T. set (p := Pt t1 r1 (day_of t1)). assert (FP : flying p) by (split; [exact F1|reflexivity]).
  assert (G : g = total_acc p). { assert (D := derivative_total p zero3 FP). unfold p, ep in D. cbn [pt_t pt_r] in D. rewrite (P zero3) in D. apply pair_inj in D. exact D. }
  subst g. assert (H : norm (sub (total_acc p) (total_acc (point e s x))) <= Lp * (Rabs (t1 - (value e + s / 86400)) + norm (sub r1 x) + Rabs (day_of t1 - day_of (value e + s / 86400)))) by exact (proj2 (LL p (point e s x) FP (point_flying e s x F))).
  rewrite DD in H. rewrite (Rminus_diag_eq (day_of _)), Rabs_R0, Rplus_0_r in H by reflexivity. eapply Rle_trans; [apply (sub_triangle _ (total_acc p))|]. apply Rplus_le_compat; [exact C|].
  eapply Rle_trans; [exact H|]. apply Rmult_le_compat_l; lra.
Qed.

Lemma same_day t u : clear_of_midnight t -> Rabs (u - t) <= 2e-11 -> day_of u = day_of t.
Proof.
  intros (D & A & B) H. apply Rabs_le_inv in H. unfold day_of, UTC_TDT_OFFSET. apply f_equal. assert (X : forall x, IZR D <= x < IZR D + 1 -> nfloor x = D).
  { intros x X. apply nfloor_unique. exact X. }
  unfold SECONDS_IN_DAY. rewrite !X by lra. reflexivity.
Qed.

(** * Against the exact step *)
Lemma step_error Lp eps dr dv h t r v t' r' v' : lipschitz_forces Lp -> 0 <= eps <= 1e-9 -> 0 <= dr <= 3e-11 -> 0 <= dv <= 3e-14 ->
  Rabs (t - 51544.5) <= 36524 -> Rabs h <= 300 -> norm v <= 20 ->
  (forall x, norm (sub x r) <= reach (norm v) 0.05 h + 1 -> flyable (Epoch t) x) ->
  clear_of_midnight t -> clear_of_midnight (t + h / 2 / 86400) -> clear_of_midnight (t + h / 86400) ->
  runge_kutta_within 2e-11 dr dv eps h t r v t' r' v' ->
  exists q, rk4_step (set_step_size (RK4 (GCRF (Epoch t) r v)) h) = (q, Ok tt) /\ value (g_epoch (rk_state q)) = t + h / 86400 /\
    let H := Rabs h in let b := eps + Lp * (1 + 45000 * Lp) * (5e-11 + H * dv + H * H * eps) in
    norm (sub r' (g_position (rk_state q))) <= dr + H * (dv + H * b) /\ norm (sub v' (g_velocity (rk_state q))) <= dv + H * b.
Proof.
  intros LF EB RB DB TB HB VB RM K0 K1 K2 RK.
  destruct RK as (t1 & r2 & r3 & r4 & v2 & v3 & v4 & a1 & a2 & a3 & a4 & g1 & g2 & g3 & g4 & T1 & T2 & (P1 & A1) & (X2 & Y2 & P2 & A2) & (X3 & Y3 & P3 & A3) & (X4 & Y4 & P4 & A4) & XF & YF).
  set (e := Epoch t). assert (L0 := proj1 LF).
  assert (H0 := Rabs_pos h). assert (V0 := norm_nonneg v). set (H := Rabs h) in *. set (N := norm v) in *.
  assert (RE : reach N 0.05 h = H * N + 0.05 * (H * H)) by (unfold reach; fold H; lra). assert (HN : 0 <= H * N) by (apply Rmult_le_pos; lra). assert (HH : 0 <= H * H) by (apply Rmult_le_pos; lra).
  assert (H2 : Rabs (h / 2) = H / 2) by (unfold Rdiv; rewrite Rabs_mult, (Rabs_pos_eq (/ 2)) by lra; reflexivity).
  assert (HR : forall x y, x / 2 * y = (x * y) / 2) by (intros; unfold Rdiv; ring).
  assert (HBI := Rabs_le_inv _ _ HB). assert (TBI := Rabs_le_inv _ _ TB). assert (T1I := Rabs_le_inv _ _ T1). assert (T2I := Rabs_le_inv _ _ T2).
  assert (FL : forall u x, Rabs (u - 51544.5) <= 36525 -> norm (sub x r) <= reach N 0.05 h + 1 -> flyable (Epoch u) x) by (intros u x U X; destruct (RM x X) as (_ & F); split; [exact U|exact F]).
  assert (FE : forall s x, Rabs s <= 300 -> norm (sub x r) <= reach N 0.05 h + 1 -> flyable (later e s) x) by (intros s x S X; apply Rabs_le_inv in S; apply FL; [unfold e; cbn [value]; apply Rabs_le; lra|exact X]).
  assert (DI : forall c k, norm (sub (add r (scale c k)) r) = Rabs c * norm k) by (intros; rewrite <- norm_scale; f_equal; unfold sub, add, scale; cbn [x3 y3 z3]; f_equal; ring).
  assert (RR : norm (sub r r) = 0) by apply sub_self.
  (* the exact stages *)
  assert (F1 : flyable (later e 0) r) by (apply FE; [rewrite Rabs_R0; lra|lra]).
  set (b1 := total_acc (point e 0 r)).
  assert (S2 : Rabs (0 + h / 2) <= 300) by (rewrite Rplus_0_l; lra). assert (S4 : Rabs (0 + h) <= 300) by (rewrite Rplus_0_l; exact HB).
  set (q2 := add r (scale (h / 2) v)). assert (F2 : flyable (later e (0 + h / 2)) q2) by (apply FE; [exact S2|unfold q2; rewrite DI, H2, HR; fold N; lra]).
  set (b2 := total_acc (point e (0 + h / 2) q2)).
  assert (AC : forall s x, flyable (later e s) x -> norm (total_acc (point e s x)) <= 0.05).
  { intros s x F. destruct (AccelerationProofs.fly_derivative (GCRF (later e s) x zero3) F ltac:(cbn; rewrite Rabs_R0; lra)) as (g & D & G). rewrite point_derivative in D by exact F. apply pair_inj in D. rewrite D. cbn [g_thrust GCRF].
    replace (add _ g) with g by (unfold add; destruct g; cbn; f_equal; ring). exact G. }
  assert (VS : forall c a, norm a <= 0.05 -> norm (add v (scale c a)) <= N + Rabs c * 0.05).
  { intros c a A. assert (T := norm_triangle v (scale c a)). rewrite norm_scale in T. assert (Rabs c * norm a <= Rabs c * 0.05) by (apply Rmult_le_compat_l; [apply Rabs_pos|exact A]). fold N in T. lra. }
  assert (HV : forall w, norm w <= N + H / 2 * 0.05 -> H * norm w <= H * N + 0.025 * (H * H)).
  { intros w W. assert (H * norm w <= H * (N + H / 2 * 0.05)) by (apply Rmult_le_compat_l; lra). lra. }
  set (w2 := add v (scale (h / 2) b1)). assert (W2 := VS (h / 2) b1 (AC 0 r F1)). fold w2 in W2. rewrite H2 in W2. assert (W2' := HV w2 W2).
  set (q3 := add r (scale (h / 2) w2)). assert (F3 : flyable (later e (0 + h / 2)) q3) by (apply FE; [exact S2|unfold q3; rewrite DI, H2, HR; lra]).
  set (b3 := total_acc (point e (0 + h / 2) q3)).
  set (w3 := add v (scale (h / 2) b2)). assert (W3 := VS (h / 2) b2 (AC _ q2 F2)). fold w3 in W3. rewrite H2 in W3. assert (W3' := HV w3 W3).
  set (q4 := add r (scale h w3)). assert (F4 : flyable (later e (0 + h)) q4) by (apply FE; [exact S4|unfold q4; rewrite DI; fold H; lra]).
  set (b4 := total_acc (point e (0 + h) q4)). set (w4 := add v (scale h b3)).
  assert (ES := step_form (set_step_size (RK4 (GCRF e r v)) h) e 0 r v b1 b2 b3 b4). cbv zeta in ES. cbn [step_size set_step_size] in ES.
  assert (ST : rk_state (set_step_size (RK4 (GCRF e r v)) h) = GCRF (later e 0) r v).
  { cbn. unfold later, e. cbn [value]. unfold gcrf_copy. cbn. unfold GCRF. f_equal. f_equal. lra. }
  specialize (ES ST eq_refl ltac:(split; [split; [exact F1|reflexivity]|split; [split; [exact F2|reflexivity]|split; [split; [exact F3|reflexivity]|split; [exact F4|reflexivity]]]])).
  rewrite ES. eexists. split; [reflexivity|]. split; [cbn; lra|]. cbn [rk_state set_rk_state g_position g_velocity GCRF].
  fold w2 w3 w4.
  (* the errors *)
  cbv zeta. fold H.
  set (u := 5e-11 + H * dv + H * H * eps) in *. assert (u0 : 0 <= H * dv /\ 0 <= H * H * eps) by (split; repeat apply Rmult_le_pos; lra). assert (u5 : 5e-11 <= u) by (unfold u; lra).
  set (M := Lp * (1 + 45000 * Lp)) in *. set (b := eps + M * u) in *. assert (Lu : 0 <= Lp * u) by (apply Rmult_le_pos; lra).
  assert (MU : Lp * u <= M * u) by (apply Rmult_le_compat_r; [lra|]; unfold M; assert (0 <= Lp * (45000 * Lp)) by (apply Rmult_le_pos; lra); lra).
  assert (E1 : norm (sub a1 b1) <= eps).
  { assert (Z := P1 zero3). set (p := Pt t r (day_of t)). assert (FP : flying p) by (split; [exact (FL t r ltac:(lra) ltac:(lra))|reflexivity]). assert (D := derivative_total p zero3 FP). change (derivative (GCRF (Epoch t) r zero3) = Ok (zero3, total_acc p)) in D. rewrite Z in D. apply pair_inj in D. rename D into G.
    replace b1 with g1; [exact A1|]. rewrite G. unfold b1, point, p, e. cbn [value]. replace (t + 0 / 86400) with t by lra. reflexivity. }
  assert (TT : value e + (0 + h / 2) / 86400 = t + h / 2 / 86400) by (unfold e; cbn [value]; lra). assert (TT2 : value e + (0 + h) / 86400 = t + h / 86400) by (unfold e; cbn [value]; lra).
  assert (C1 : Rabs (t1 - 51544.5) <= 36525) by (apply Rabs_le; lra). assert (C2 : Rabs (t' - 51544.5) <= 36525) by (apply Rabs_le; lra).
  assert (DD1 := same_day _ _ K1 T1). assert (DD2 := same_day _ _ K2 T2).
  assert (NR : forall d c k x, close3 d x (add r (scale c k)) -> norm (sub x r) <= d + Rabs c * norm k) by (intros d c k x Z; apply (StepFloatProofs.displaced d c k r x Z)).
  assert (R2 : norm (sub r2 q2) <= dr) by exact X2.
  assert (G2 := NR _ _ _ _ X2). rewrite H2, HR in G2. fold N in G2.
  assert (E2 := near_pull Lp e (0 + h / 2) q2 t1 r2 g2 a2 eps LF F2 (FL t1 r2 C1 ltac:(lra)) ltac:(rewrite TT; exact DD1) P2 A2 ltac:(rewrite TT; exact T1)). fold b2 in E2.
  assert (LM : forall x, x <= u -> Lp * x <= Lp * u) by (intros x X; apply Rmult_le_compat_l; lra).
  assert (Z2 := LM (2e-11 + norm (sub r2 q2)) ltac:(lra)).
  assert (N2 : norm (sub v2 w2) <= dv + H / 2 * eps) by (eapply Rle_trans; [apply (shifted v (h / 2) a1 b1 dv v2 Y2)|]; rewrite H2; apply Rplus_le_compat_l, Rmult_le_compat_l; lra).
  assert (R3 : norm (sub r3 q3) <= dr + H / 2 * (dv + H / 2 * eps)) by (eapply Rle_trans; [apply (shifted r (h / 2) v2 w2 dr r3 X3)|]; rewrite H2; apply Rplus_le_compat_l, Rmult_le_compat_l; lra).
  assert (DIS : forall x y d, norm (sub x y) <= d -> norm (sub y r) + d <= reach N 0.05 h + 1 -> norm (sub x r) <= reach N 0.05 h + 1) by (intros x y d XY YR; assert (Q := sub_triangle x y r); lra).
  assert (Y3' : norm (sub q3 r) = H * norm w2 / 2) by (unfold q3; rewrite DI, H2, HR; reflexivity).
  assert (X3u : H / 2 * (dv + H / 2 * eps) <= H * dv + H * H * eps) by (clear - u0; lra).
  assert (SM : H * dv <= 300 * 3e-14) by (apply Rmult_le_compat; lra). assert (SM2 : H * H * eps <= 90000 * 1e-9) by (apply Rmult_le_compat; [lra|lra| |lra]; apply Rle_trans with (300 * 300); [apply Rmult_le_compat; lra|lra]).
  assert (E3 := near_pull Lp e (0 + h / 2) q3 t1 r3 g3 a3 eps LF F3 (FL t1 r3 C1 (DIS r3 q3 _ R3 ltac:(rewrite Y3'; lra))) ltac:(rewrite TT; exact DD1) P3 A3 ltac:(rewrite TT; exact T1)). fold b3 in E3.
  assert (Z3 := LM (2e-11 + norm (sub r3 q3)) ltac:(unfold u; lra)).
  assert (N3 : norm (sub v3 w3) <= dv + H / 2 * (eps + Lp * u)) by (eapply Rle_trans; [apply (shifted v (h / 2) a2 b2 dv v3 Y3)|]; rewrite H2; apply Rplus_le_compat_l, Rmult_le_compat_l; lra).
  assert (R4 : norm (sub r4 q4) <= dr + H * (dv + H / 2 * (eps + Lp * u))) by (eapply Rle_trans; [apply (shifted r h v3 w3 dr r4 X4)|]; fold H; apply Rplus_le_compat_l, Rmult_le_compat_l; lra).
  assert (F4' : norm (sub r4 r) <= reach N 0.05 h + 1).
  { assert (GB : norm g2 <= 0.05).
    { destruct (AccelerationProofs.fly_derivative (GCRF (Epoch t1) r2 zero3) (FL t1 r2 C1 ltac:(lra)) ltac:(cbn; rewrite Rabs_R0; lra)) as (g & D & G). rewrite (P2 zero3) in D. apply pair_inj in D. rewrite D. cbn [g_thrust GCRF].
      replace (add _ g) with g by (unfold add; destruct g; cbn; f_equal; ring). exact G. }
    assert (AB : norm a2 <= 0.051) by (assert (Q := verr_norm _ _ _ A2); lra).
    assert (VN := verr_norm _ _ _ Y3). assert (T := norm_triangle v (scale (h / 2) a2)). rewrite norm_scale, H2 in T. fold N in T.
    assert (H / 2 * norm a2 <= H / 2 * 0.051) by (apply Rmult_le_compat_l; lra).
    assert (Q4 := NR _ _ _ _ X4). fold H in Q4. assert (H * norm v3 <= H * (N + H / 2 * 0.051 + 3e-14)) by (apply Rmult_le_compat_l; lra). lra. }
  assert (E4 := near_pull Lp e (0 + h) q4 t' r4 g4 a4 eps LF F4 (FL t' r4 C2 F4') ltac:(rewrite TT2; exact DD2) P4 A4 ltac:(rewrite TT2; exact T2)). fold b4 in E4.
  assert (HL : H * H * (Lp * u) <= 90000 * (Lp * u)) by (apply Rmult_le_compat_r; [exact Lu|]; apply Rle_trans with (300 * 300); [apply Rmult_le_compat; lra|lra]).
  assert (R4' : 2e-11 + norm (sub r4 q4) <= u + 45000 * (Lp * u)).
  { assert (Q : H * (dv + H / 2 * (eps + Lp * u)) = H * dv + H * H * eps / 2 + H * H * (Lp * u) / 2) by (unfold Rdiv; ring). rewrite Q in R4. unfold u at 1. clear - R4 HL u0 RB. lra. }
  assert (Z4 : Lp * (2e-11 + norm (sub r4 q4)) <= M * u).
  { eapply Rle_trans; [apply Rmult_le_compat_l; [lra|exact R4']|]. right. unfold M. generalize 45000. intros y. ring. }
  assert (B0 : eps <= b) by (unfold b; lra). assert (BL : eps + Lp * u <= b) by (unfold b; lra).
  assert (N4 : norm (sub v4 w4) <= dv + H * b).
  { eapply Rle_trans; [apply (shifted v h a3 b3 dv v4 Y4)|]. fold H. apply Rplus_le_compat_l, Rmult_le_compat_l; lra. }
  assert (Hb : forall x, x <= b -> 0 <= x -> H / 2 * x <= H * b).
  { intros x X X0. apply Rmult_le_compat; lra. }
  assert (N2' := Hb eps B0 ltac:(lra)). assert (N3' := Hb (eps + Lp * u) BL ltac:(lra)).
  assert (SS : forall z, scale h (scale (1 / 6) z) = scale (h / 6) z) by (intros z; unfold scale; cbn [x3 y3 z3]; f_equal; field).
  assert (H6 : Rabs (h / 6) = H / 6) by (unfold Rdiv; rewrite Rabs_mult, (Rabs_pos_eq (/ 6)) by lra; reflexivity).
  unfold mean4. rewrite !SS. fold w2 w3 w4.
  split.
  - eapply Rle_trans; [apply (shifted r (h / 6) _ (add v (add (scale 2 w2) (add (scale 2 w3) w4))) dr r' XF)|]. rewrite H6. apply Rplus_le_compat_l.
    assert (Q := weighted v w2 w3 w4 v v2 v3 v4 (dv + H * b) ltac:(rewrite sub_self; assert (0 <= H * b) by (apply Rmult_le_pos; lra); lra) ltac:(lra) ltac:(lra) ltac:(lra)).
    eapply Rle_trans; [apply Rmult_le_compat_l; [lra|exact Q]|]. right. field.
  - eapply Rle_trans; [apply (shifted v (h / 6) _ (add b1 (add (scale 2 b2) (add (scale 2 b3) b4))) dv v' YF)|]. rewrite H6. apply Rplus_le_compat_l.
    assert (Q := weighted b1 b2 b3 b4 a1 a2 a3 a4 b ltac:(lra) ltac:(lra) ltac:(lra) ltac:(unfold b; lra)).
    eapply Rle_trans; [apply Rmult_le_compat_l; [lra|exact Q]|]. right. field.
Qed.
