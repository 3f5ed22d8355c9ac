From Coq Require Import Reals ZArith List Lra Lia Psatz.
From Flocq Require Import Core.
From Verif.Model Require Import Num Constants Linalg Functions Time Celestial Positions States Inertial TimeFloat AngleFloat ElementsFloat FrameFloat SiderealFloat GravityFloat.
From Verif.Model Require Import StepFloat.
From Verif.Spec Require Import Geometry Propagation Motion FrameFloat EarthFloat SiderealFloat.
From Verif.Spec Require Import StepFloat.
From Verif.Proofs Require Import NumLemmas LinalgProofs SmoothForces ConvergenceProofs FrameFloatBasics SiderealFloatProofs.
From Verif.Proofs Require Import StepFloatProofs StepFloatError.
Local Open Scope R_scope.

(** * One step from two neighbouring states *)
Lemma shifted2 r q c k' k d x : close3 d x (add r (scale c k')) -> norm (sub x (add q (scale c k))) <= d + norm (sub r q) + Rabs c * norm (sub k' k).
Proof.
  intros H. apply (shifted r c k' k d x) in H. assert (T := sub_triangle x (add r (scale c k)) (add q (scale c k))).
  replace (sub (add r (scale c k)) (add q (scale c k))) with (sub r q) in T by (unfold sub, add, scale; cbn [x3 y3 z3]; f_equal; ring). lra.
Qed.

Lemma near_pull2 Lp th e s x t1 r1 g a eps : lipschitz_forces Lp -> flyable (later e s) x -> flyable (Epoch t1) r1 -> day_of t1 = day_of (value e + s / 86400) ->
  pull t1 r1 g -> close3 eps a g -> Rabs (t1 - (value e + s / 86400)) <= th -> norm (sub a (total_acc (point e s x))) <= eps + Lp * (th + norm (sub r1 x)).
Proof.
  intros (L0 & LL) F F1 DD P C T. set (p := Pt t1 r1 (day_of t1)). assert (FP : flying p) by (split; [exact F1|reflexivity]).
  assert (G : g = total_acc p). { assert (D := derivative_total p zero3 FP). change (derivative (GCRF (Epoch t1) r1 zero3) = Ok (zero3, total_acc p)) in D. rewrite (P zero3) in D. apply pair_inj in D. exact D. }
  subst g. assert (H : norm (sub (total_acc p) (total_acc (point e s x))) <= Lp * (Rabs (t1 - (value e + s / 86400)) + norm (sub r1 x) + Rabs (day_of t1 - day_of (value e + s / 86400)))) by exact (proj2 (LL p (point e s x) FP (point_flying e s x F))).
  rewrite DD in H. rewrite (Rminus_diag_eq (day_of _)), Rabs_R0, Rplus_0_r in H by reflexivity. eapply Rle_trans; [apply (sub_triangle _ (total_acc p))|]. apply Rplus_le_compat; [exact C|].
  eapply Rle_trans; [exact H|]. apply Rmult_le_compat_l; lra.
Qed.

Lemma pull_size t r g : pull t r g -> flyable (Epoch t) r -> norm g <= 0.05.
Proof.
  intros P F. destruct (AccelerationProofs.fly_derivative (GCRF (Epoch t) r zero3) F ltac:(cbn; rewrite Rabs_R0; lra)) as (g' & D & G). rewrite (P zero3) in D. apply pair_inj in D. rewrite D. cbn [g_thrust GCRF].
  replace (add _ g') with g' by (unfold add; destruct g'; cbn; f_equal; ring). exact G.
Qed.

Lemma step_apart Lp th eps dr dv h p e s q w t r v t' r' v' : lipschitz_forces Lp -> 0 <= eps <= 1e-9 -> 0 <= dr <= 3e-11 -> 0 <= dv <= 3e-14 -> 0 <= th <= 0.5 ->
  rk_state p = GCRF (later e s) q w -> m_dot p = 0 -> step_size p = h ->
  let tau := value e + s / 86400 in Rabs (tau - 51544.5) <= 36523 -> Rabs h <= 300 -> norm w <= 19 -> ample tau q h ->
  Rabs (t - tau) <= th -> separation r v q w <= 1 ->
  (forall u x, x = s \/ x = s + h / 2 \/ x = s + h -> Rabs (u - (value e + x / 86400)) <= th + 2e-11 -> day_of u = day_of (value e + x / 86400)) ->
  runge_kutta_within 2e-11 dr dv eps h t r v t' r' v' ->
  exists q' w', rk4_step p = (set_rk_state p (GCRF (later e (s + h)) q' w'), Ok tt) /\ Rabs (t' - (value e + (s + h) / 86400)) <= th + 2e-11 /\
    let H := Rabs h in let D := norm (sub r q) in let V := norm (sub v w) in
    let Y := th + 2e-11 + dr + D + 300 * (dv + V) + 90000 * eps in let b := eps + Lp * (1 + 45000 * Lp) * Y in
    norm (sub r' q') <= dr + D + H * (dv + V + H * b) /\ norm (sub v' w') <= dv + V + H * b.
Proof.
  intros LF EB RB DB TH ST MD SZ tau TB HB WB AM TT SE DY RK. unfold separation in SE.
  destruct RK as (t1 & r2 & r3 & r4 & v2 & v3 & v4 & a1 & a2 & a3 & a4 & g1 & g2 & g3 & g4 & T1 & T2 & (P1 & A1) & (X2 & Y2 & P2 & A2) & (X3 & Y3 & P3 & A3) & (X4 & Y4 & P4 & A4) & XF & YF).
  assert (L0 := proj1 LF). assert (H0 := Rabs_pos h). set (H := Rabs h) in *. assert (D0 := norm_nonneg (sub r q)). assert (V0 := norm_nonneg (sub v w)). set (D := norm (sub r q)) in *. set (V := norm (sub v w)) in *.
  assert (HH : 0 <= H * H) by (apply Rmult_le_pos; lra). assert (HH9 : H * H <= 90000) by (apply Rle_trans with (300 * 300); [apply Rmult_le_compat; lra|lra]).
  assert (RE : reach 20 0.05 h = H * 20 + 0.05 * (H * H)) by (unfold reach; fold H; lra).
  assert (H2 : Rabs (h / 2) = H / 2) by (unfold Rdiv; rewrite Rabs_mult, (Rabs_pos_eq (/ 2)) by lra; reflexivity).
  assert (HR : forall x y, x / 2 * y = (x * y) / 2) by (intros; unfold Rdiv; ring).
  assert (HBI := Rabs_le_inv _ _ HB). assert (TBI := Rabs_le_inv _ _ TB). assert (TTI := Rabs_le_inv _ _ TT). assert (T1I := Rabs_le_inv _ _ T1). assert (T2I := Rabs_le_inv _ _ T2).
  assert (FL : forall u x, Rabs (u - 51544.5) <= 36525 -> norm (sub x q) <= reach 20 0.05 h + 2 -> flyable (Epoch u) x) by (intros u x U X; destruct (AM x X) as ((_ & F) & _); split; [exact U|exact F]).
  assert (FE : forall y x, Rabs y <= 300 -> norm (sub x q) <= reach 20 0.05 h + 2 -> flyable (later e (s + y)) x).
  { intros y x S X. apply Rabs_le_inv in S. apply FL; [|exact X]. replace (value e + (s + y) / 86400) with (tau + y / 86400) by (unfold tau; lra). apply Rabs_le. lra. }
  assert (DI : forall c k, norm (sub (add q (scale c k)) q) = Rabs c * norm k) by (intros; rewrite <- norm_scale; f_equal; unfold sub, add, scale; cbn [x3 y3 z3]; f_equal; ring).
  assert (VN : norm v <= norm w + V).
  { assert (Q := sub_triangle v w zero3). rewrite !sub_zero in Q. fold V in Q. lra. }
  assert (HW : forall k K, norm k <= 20 + K * H + 1e-9 -> 0 <= K <= 0.03 -> H * norm k <= H * 20 + 0.03 * (H * H) + 1e-6).
  { intros k K Q KB. assert (Q1 : H * norm k <= H * (20 + K * H + 1e-9)) by (apply Rmult_le_compat_l; lra). assert (K * (H * H) <= 0.03 * (H * H)) by (apply Rmult_le_compat_r; lra).
    assert (X : forall x y, H * (x + K * H + y) = H * x + K * (H * H) + H * y) by (intros; ring). rewrite X in Q1. lra. }
  (* the exact stages *)
  assert (QQ : norm (sub q q) = 0) by apply sub_self.
  assert (F1 : flyable (later e s) q). { assert (Z := FE 0 q ltac:(rewrite Rabs_R0; lra) ltac:(lra)). rewrite Rplus_0_r in Z. exact Z. }
  set (b1 := total_acc (point e s q)).
  assert (S2 : Rabs (h / 2) <= 300) by lra.
  assert (W1' := HW w 0 ltac:(lra) ltac:(lra)).
  set (q2 := add q (scale (h / 2) w)). assert (F2 : flyable (later e (s + h / 2)) q2) by (apply FE; [exact S2|unfold q2; rewrite DI, H2, HR; lra]).
  set (b2 := total_acc (point e (s + h / 2) q2)).
  assert (AC : forall y x, flyable (later e y) x -> norm (total_acc (point e y x)) <= 0.05).
  { intros y x F. apply (pull_size (value e + y / 86400) x); [|exact F]. intros z. apply point_derivative. exact F. }
  assert (VS : forall c a, norm a <= 0.05 -> norm (add w (scale c a)) <= 19 + Rabs c * 0.05).
  { intros c a A. assert (T := norm_triangle w (scale c a)). rewrite norm_scale in T. assert (Rabs c * norm a <= Rabs c * 0.05) by (apply Rmult_le_compat_l; [apply Rabs_pos|exact A]). lra. }
  set (w2 := add w (scale (h / 2) b1)). assert (W2 := VS (h / 2) b1 (AC s q F1)). fold w2 in W2. rewrite H2 in W2. assert (W2' := HW w2 0.025 ltac:(lra) ltac:(lra)).
  set (q3 := add q (scale (h / 2) w2)). assert (F3 : flyable (later e (s + h / 2)) q3) by (apply FE; [exact S2|unfold q3; rewrite DI, H2, HR; lra]).
  set (b3 := total_acc (point e (s + h / 2) q3)).
  set (w3 := add w (scale (h / 2) b2)). assert (W3 := VS (h / 2) b2 (AC _ q2 F2)). fold w3 in W3. rewrite H2 in W3. assert (W3' := HW w3 0.025 ltac:(lra) ltac:(lra)).
  set (q4 := add q (scale h w3)). assert (F4 : flyable (later e (s + h)) q4) by (apply FE; [exact HB|unfold q4; rewrite DI; fold H; lra]).
  set (b4 := total_acc (point e (s + h) q4)). set (w4 := add w (scale h b3)).
  assert (ES := step_form p e s q w b1 b2 b3 b4). cbv zeta in ES. rewrite SZ in ES.
  specialize (ES ST MD ltac:(split; [split; [exact F1|reflexivity]|split; [split; [exact F2|reflexivity]|split; [split; [exact F3|reflexivity]|split; [exact F4|reflexivity]]]])).
  rewrite ES. eexists. eexists. split; [reflexivity|]. split; [apply Rabs_le; unfold tau in *; lra|]. cbv zeta. fold w2 w3 w4.
  (* the errors *)
  set (Y := th + 2e-11 + dr + D + 300 * (dv + V) + 90000 * eps) in *. set (M := Lp * (1 + 45000 * Lp)) in *. set (b := eps + M * Y) in *.
  assert (Y0 : 0 <= Y) by (unfold Y; lra). assert (LY : 0 <= Lp * Y) by (apply Rmult_le_pos; lra).
  assert (MY : M * Y = Lp * Y + Lp * (45000 * (Lp * Y))) by (unfold M; generalize 45000; intros z; ring).
  assert (LL0 : 0 <= Lp * (45000 * (Lp * Y))) by (apply Rmult_le_pos; lra).
  assert (LM : forall x, x <= Y -> Lp * x <= Lp * Y) by (intros x X; apply Rmult_le_compat_l; lra).
  assert (LM2 : forall x, x <= Y + 45000 * (Lp * Y) -> Lp * x <= M * Y) by (intros x X; rewrite MY, <- Rmult_plus_distr_l; apply Rmult_le_compat_l; lra).
  assert (U0 : Rabs (t - 51544.5) <= 36525) by (apply Rabs_le; unfold tau in *; lra). assert (U1 : Rabs (t1 - 51544.5) <= 36525) by (apply Rabs_le; unfold tau in *; lra). assert (U2 : Rabs (t' - 51544.5) <= 36525) by (apply Rabs_le; unfold tau in *; lra).
  assert (V1 : Rabs (t - (value e + s / 86400)) <= th + 2e-11) by (apply Rabs_le; unfold tau in *; lra).
  assert (V2 : Rabs (t1 - (value e + (s + h / 2) / 86400)) <= th + 2e-11) by (apply Rabs_le; unfold tau in *; lra).
  assert (V4 : Rabs (t' - (value e + (s + h) / 86400)) <= th + 2e-11) by (apply Rabs_le; unfold tau in *; lra).
  assert (HY : forall x, 0 <= x -> H / 2 * x <= 150 * x) by (intros x X; apply Rmult_le_compat_r; lra). assert (HY' : forall x, 0 <= x -> H * x <= 300 * x) by (intros x X; apply Rmult_le_compat_r; lra).
  assert (NR : forall c k x, close3 dr x (add r (scale c k)) -> norm (sub x q) <= dr + D + Rabs c * norm k).
  { intros c k x Z. assert (Q := StepFloatProofs.displaced dr c k r x Z). assert (T := sub_triangle x r q). fold D in T. lra. }
  (* first *)
  assert (R1 : flyable (Epoch t) r) by (apply FL; [exact U0|fold D; lra]).
  assert (E1 := near_pull2 Lp _ e s q t r g1 a1 eps LF F1 R1 (DY t s ltac:(auto) V1) P1 A1 V1). fold b1 D in E1.
  assert (Z1 := LM (th + 2e-11 + D) ltac:(unfold Y; lra)). assert (E1' : norm (sub a1 b1) <= eps + Lp * Y) by lra.
  assert (A1' : norm a1 <= 0.051) by (assert (Q := verr_norm _ _ _ A1); assert (G := pull_size _ _ _ P1 R1); lra).
  (* second *)
  assert (G2 := NR _ _ _ X2). rewrite H2, HR in G2. assert (V20 := HW v 0 ltac:(lra) ltac:(lra)).
  assert (R2f : flyable (Epoch t1) r2) by (apply FL; [exact U1|lra]).
  assert (R2 := shifted2 r q (h / 2) v w dr r2 X2). fold q2 D V in R2. rewrite H2 in R2. assert (R2h := HY V V0).
  assert (E2 := near_pull2 Lp _ e (s + h / 2) q2 t1 r2 g2 a2 eps LF F2 R2f (DY t1 (s + h / 2) ltac:(auto) V2) P2 A2 V2). fold b2 in E2.
  assert (Z2 := LM (th + 2e-11 + norm (sub r2 q2)) ltac:(unfold Y; lra)). assert (E2' : norm (sub a2 b2) <= eps + Lp * Y) by lra.
  assert (A2' : norm a2 <= 0.051) by (assert (Q := verr_norm _ _ _ A2); assert (G := pull_size _ _ _ P2 R2f); lra).
  assert (N2 := shifted2 v w (h / 2) a1 b1 dv v2 Y2). fold w2 V in N2. rewrite H2 in N2.
  assert (N2h : H / 2 * norm (sub a1 b1) <= H / 2 * (eps + Lp * Y)) by (apply Rmult_le_compat_l; lra). assert (N2i := HY (eps + Lp * Y) ltac:(lra)).
  assert (VZ : forall a z, norm a <= 0.051 -> close3 dv z (add v (scale (h / 2) a)) -> norm z <= 20 + 0.0255 * H + 1e-9).
  { intros a z NA Z. assert (Q := verr_norm _ _ _ Z). assert (T := norm_triangle v (scale (h / 2) a)). rewrite norm_scale, H2 in T.
    assert (H / 2 * norm a <= H / 2 * 0.051) by (apply Rmult_le_compat_l; lra). lra. }
  assert (V2' := HW v2 0.0255 (VZ a1 v2 A1' Y2) ltac:(lra)). assert (V3' := HW v3 0.0255 (VZ a2 v3 A2' Y3) ltac:(lra)).
  assert (NV2 : norm (sub v2 w2) <= dv + V + 150 * (eps + Lp * Y)) by lra.
  (* third *)
  assert (G3 := NR _ _ _ X3). rewrite H2, HR in G3.
  assert (R3f : flyable (Epoch t1) r3) by (apply FL; [exact U1|lra]).
  assert (R3 := shifted2 r q (h / 2) v2 w2 dr r3 X3). fold q3 D in R3. rewrite H2 in R3. assert (R3h := HY (norm (sub v2 w2)) (norm_nonneg _)).
  assert (E3 := near_pull2 Lp _ e (s + h / 2) q3 t1 r3 g3 a3 eps LF F3 R3f (DY t1 (s + h / 2) ltac:(auto) V2) P3 A3 V2). fold b3 in E3.
  assert (Z3 := LM2 (th + 2e-11 + norm (sub r3 q3)) ltac:(unfold Y at 1; lra)). assert (E3' : norm (sub a3 b3) <= b) by (unfold b; lra).
  assert (N3 := shifted2 v w (h / 2) a2 b2 dv v3 Y3). fold w3 V in N3. rewrite H2 in N3.
  assert (N3h : H / 2 * norm (sub a2 b2) <= H / 2 * (eps + Lp * Y)) by (apply Rmult_le_compat_l; lra).
  assert (NV3 : norm (sub v3 w3) <= dv + V + 150 * (eps + Lp * Y)) by lra.
  (* fourth *)
  assert (G4 := NR _ _ _ X4). fold H in G4.
  assert (R4f : flyable (Epoch t') r4) by (apply FL; [exact U2|lra]).
  assert (R4 := shifted2 r q h v3 w3 dr r4 X4). fold q4 D H in R4. assert (R4h := HY' (norm (sub v3 w3)) (norm_nonneg _)).
  assert (E4 := near_pull2 Lp _ e (s + h) q4 t' r4 g4 a4 eps LF F4 R4f (DY t' (s + h) ltac:(auto) V4) P4 A4 V4). fold b4 in E4.
  assert (Z4 := LM2 (th + 2e-11 + norm (sub r4 q4)) ltac:(unfold Y at 1; lra)). assert (E4' : norm (sub a4 b4) <= b) by (unfold b; lra).
  (* the new state *)
  assert (BL : eps + Lp * Y <= b) by (unfold b; lra).
  assert (N4 : norm (sub v4 w4) <= dv + V + H * b).
  { assert (Q := shifted2 v w h a3 b3 dv v4 Y4). fold w4 V H in Q. assert (H * norm (sub a3 b3) <= H * b) by (apply Rmult_le_compat_l; lra). lra. }
  assert (Hb : H / 2 * (eps + Lp * Y) <= H * b) by (apply Rmult_le_compat; lra).
  assert (SS : forall z, scale h (scale (1 / 6) z) = scale (h / 6) z) by (intros z; unfold scale; cbn [x3 y3 z3]; f_equal; field).
  assert (H6 : Rabs (h / 6) = H / 6) by (unfold Rdiv; rewrite Rabs_mult, (Rabs_pos_eq (/ 6)) by lra; reflexivity).
  assert (HB0 : 0 <= H * b) by (apply Rmult_le_pos; lra).
  unfold mean4. rewrite !SS. fold w2 w3 w4.
  split.
  - eapply Rle_trans; [apply (shifted2 r q (h / 6) _ (add w (add (scale 2 w2) (add (scale 2 w3) w4))) dr r' XF)|]. rewrite H6. fold D. apply Rplus_le_compat_l.
    assert (Q := weighted w w2 w3 w4 v v2 v3 v4 (dv + V + H * b) ltac:(fold V; lra) ltac:(lra) ltac:(lra) ltac:(lra)).
    eapply Rle_trans; [apply Rmult_le_compat_l; [lra|exact Q]|]. right. field.
  - eapply Rle_trans; [apply (shifted2 v w (h / 6) _ (add b1 (add (scale 2 b2) (add (scale 2 b3) b4))) dv v' YF)|]. rewrite H6. fold V. apply Rplus_le_compat_l.
    assert (Q := weighted b1 b2 b3 b4 a1 a2 a3 a4 b ltac:(lra) ltac:(lra) ltac:(lra) ltac:(lra)).
    eapply Rle_trans; [apply Rmult_le_compat_l; [lra|exact Q]|]. right. field.
Qed.

(** * Many steps *)
Lemma growth Lp th H D V eps dr dv : 0 < Lp -> 0 <= H <= 300 -> 0 <= D -> 0 <= V -> eps = 2.3e-12 -> dr = 3e-11 -> dv = 3e-14 -> 0 <= th ->
  let M := Lp * (1 + 45000 * Lp) in let K := 1 + 90300 * M in
  let Y := th + 2e-11 + dr + D + 300 * (dv + V) + 90000 * eps in let b := eps + M * Y in
  dr + D + H * (dv + V + H * b) + (dv + V + H * b) <= (1 + K * H) * (D + V) + (3.1e-11 + K * H * (2.2e-7 + th)).
Proof.
  intros L0 HB D0 V0 -> -> -> T0 M K Y b. assert (M0 : 0 < M) by (apply Rmult_lt_0_compat; lra).
  set (E := D + V). assert (YB : Y <= th + 2.08e-7 + 300 * E) by (unfold Y, E; lra). assert (Y0 : 0 <= Y) by (unfold Y; lra).
  assert (MY : M * Y <= M * (th + 2.08e-7 + 300 * E)) by (apply Rmult_le_compat_l; lra).
  assert (b0 : 0 <= b) by (unfold b; assert (0 <= M * Y) by (apply Rmult_le_pos; lra); lra).
  assert (HH : H * (H * b) <= 300 * (H * b)) by (apply Rmult_le_compat_r; [apply Rmult_le_pos; lra|lra]).
  assert (BB : H * b <= H * (2.3e-12 + M * (th + 2.08e-7 + 300 * E))) by (apply Rmult_le_compat_l; [lra|unfold b; lra]).
  assert (HV : H * V <= H * E) by (apply Rmult_le_compat_l; unfold E; lra).
  assert (X1 : forall a c, H * (a + M * (th + c + 300 * E)) = H * a + H * M * th + H * M * c + 300 * (H * M * E)) by (intros; ring). rewrite X1 in BB.
  assert (X2 : H * (3e-14 + V + H * b) = H * 3e-14 + H * V + H * (H * b)) by ring. rewrite X2.
  assert (X3 : forall a, (1 + (1 + a * M) * H) * E = E + H * E + a * (H * M * E)) by (intros; ring).
  assert (X4 : forall a c, (1 + a * M) * H * (c + th) = H * c + H * th + a * (H * M * c) + a * (H * M * th)) by (intros; ring).
  unfold K. rewrite X3, X4.
  assert (P1 : 0 <= H * M * th) by (repeat apply Rmult_le_pos; lra). assert (P2 : 0 <= H * M * E) by (repeat apply Rmult_le_pos; unfold E; lra). assert (P3 : 0 <= H * M) by (apply Rmult_le_pos; lra). assert (P4 : 0 <= H * th) by (apply Rmult_le_pos; lra).
  replace (3e-11 + D + (H * 3e-14 + H * V + H * (H * b)) + (3e-14 + V + H * b)) with (3e-11 + 3e-14 + E + H * 3e-14 + H * V + H * (H * b) + H * b) by (unfold E; lra).
  set (p1 := H * M * th) in *. set (p2 := H * M * E) in *. set (p3 := H * M) in *. set (p4 := H * th) in *. set (p5 := H * E) in *. set (p6 := H * V) in *. set (p7 := H * (H * b)) in *. set (p8 := H * b) in *.
  clearbody p1 p2 p3 p4 p5 p6 p7 p8 E. clear - HB HH BB HV P1 P2 P3 P4. lra.
Qed.

Lemma day_away m t u : away_from_midnight m t -> Rabs (u - t) < m -> day_of u = day_of t.
Proof.
  intros (D & A & B) H. assert (0 <= Rabs (u - t)) by apply Rabs_pos. apply Rabs_def2 in H. unfold day_of, UTC_TDT_OFFSET. apply f_equal. assert (X : forall x, IZR D <= x < IZR D + 1 -> nfloor x = D) by (intros x X; apply nfloor_unique; exact X).
  unfold SECONDS_IN_DAY. rewrite !X by lra. reflexivity.
Qed.

Lemma run_close L tanf Lp h t r v n : lipschitz_forces Lp -> libs L tanf -> Rabs h <= 300 -> let e := Epoch t in let p := set_step_size (RK4 (GCRF e r v)) h in
  (forall k q, (k < n)%nat -> stepped k p q -> Rabs (value (g_epoch (rk_state q)) - 51544.5) <= 36523 /\ norm (g_velocity (rk_state q)) <= 19 /\ ample (value (g_epoch (rk_state q))) (g_position (rk_state q)) h) ->
  (forall k, (k <= 2 * n)%nat -> away_from_midnight (1e-10 + INR n * 2e-11) (t + INR k * (h / 2) / 86400)) ->
  let K := 1 + 90300 * (Lp * (1 + 45000 * Lp)) in let H := Rabs h in let dl := 3.1e-11 + K * H * (2.2e-7 + INR n * 2e-11) in
  exp (K * (INR n * H)) * (INR n * dl) <= 1 ->
  forall k, (k <= n)%nat -> exists q qr qv t' r' v', stepped k p q /\ rk_state q = GCRF (later e (INR k * h)) qr qv /\ m_dot q = 0 /\ step_size q = h /\
    coast_steps_b64 L tanf h k (GCRF e r v) = Ok (GCRF (Epoch t') r' v') /\ Rabs (t' - (t + INR k * h / 86400)) <= INR k * 2e-11 /\
    separation r' v' qr qv <= exp (K * (INR k * H)) * (INR k * dl).
Proof.
  intros LF LI HB e p HY MD K H dl E1. assert (L0 := proj1 LF). assert (H0 : 0 <= H) by apply Rabs_pos. assert (n0 := pos_INR n).
  assert (M0 : 0 < Lp * (1 + 45000 * Lp)) by (apply Rmult_lt_0_compat; lra). assert (K0 : 1 <= K) by (unfold K; lra). assert (KH : 0 <= K * H) by (apply Rmult_le_pos; lra).
  assert (N5 : INR n * 2e-11 <= 0.5) by (destruct (MD 0%nat ltac:(lia)) as (D & A & B); lra).
  assert (d0 : 0 <= dl) by (unfold dl; assert (0 <= K * H * (2.2e-7 + INR n * 2e-11)) by (apply Rmult_le_pos; lra); lra).
  induction k as [|k IH]; intros Hk.
  - exists p, r, v, t, r, v. cbn [INR]. rewrite !Rmult_0_l. split; [constructor|]. split.
    { cbn. unfold gcrf_copy, later, e. cbn. unfold GCRF. f_equal. f_equal. lra. }
    split; [reflexivity|]. split; [reflexivity|]. split; [reflexivity|]. split.
    { replace (t - (t + 0 / 86400)) with 0 by lra. rewrite Rabs_R0. lra. }
    rewrite separation_self. rewrite Rmult_0_r. lra.
  - destruct IH as (q & qr & qv & t0 & r0 & v0 & SQ & RQ & MQ & HQ & CS & TQ & SE); [lia|].
    assert (k0 := pos_INR k). assert (kn : INR k + 1 <= INR n) by (rewrite <- S_INR; apply le_INR; lia).
    destruct (HY k q ltac:(lia) SQ) as (TB & WB & AM). rewrite RQ in TB, WB, AM. cbn [g_epoch g_velocity g_position GCRF later value] in TB, WB, AM. unfold e in TB, AM. cbn [value] in TB, AM.
    set (tau := t + INR k * h / 86400) in *.
    assert (SE1 : separation r0 v0 qr qv <= 1).
    { eapply Rle_trans; [exact SE|]. eapply Rle_trans; [|exact E1]. apply Rmult_le_compat; [apply Rlt_le, exp_pos|apply Rmult_le_pos; lra| |apply Rmult_le_compat_r; lra].
      apply exp_le. apply Rmult_le_compat_l; [lra|]. apply Rmult_le_compat_r; lra. }
    assert (SD := SE1). unfold separation in SD. assert (D0 := norm_nonneg (sub r0 qr)). assert (V0 := norm_nonneg (sub v0 qv)).
    assert (VN : norm v0 <= 20). { assert (Q := sub_triangle v0 qv zero3). rewrite !sub_zero in Q. lra. }
    assert (th0 : 0 <= INR k * 2e-11 <= 0.5) by lra.
    assert (TQI := Rabs_le_inv _ _ TQ). assert (TBI := Rabs_le_inv _ _ TB). assert (HBI := Rabs_le_inv _ _ HB).
    assert (RM : roomy t0 r0 v0 h).
    { intros x X. destruct (AM x) as ((_ & F) & X5).
      - assert (Q := sub_triangle x r0 qr). unfold reach in *. fold H in X. fold H. assert (H * (norm v0 + 0.05 * H) <= H * (20 + 0.05 * H)) by (apply Rmult_le_compat_l; lra). lra.
      - split; [|exact X5]. split; [cbn [value]; apply Rabs_le; lra|exact F]. }
    (* epochs *)
    assert (AW : forall x, x = INR k * h \/ x = INR k * h + h / 2 \/ x = INR k * h + h -> away_from_midnight (1e-10 + INR n * 2e-11) (t + x / 86400)).
    { intros x [-> | [-> | ->]].
      - replace (t + INR k * h / 86400) with (t + INR (2 * k) * (h / 2) / 86400) by (rewrite mult_INR; cbn [INR]; lra). apply MD. lia.
      - replace (t + (INR k * h + h / 2) / 86400) with (t + INR (2 * k + 1) * (h / 2) / 86400) by (rewrite plus_INR, mult_INR; cbn [INR]; lra). apply MD. lia.
      - replace (t + (INR k * h + h) / 86400) with (t + INR (2 * k + 2) * (h / 2) / 86400) by (rewrite plus_INR, mult_INR; cbn [INR]; lra). apply MD. lia. }
    assert (CM : forall x y, (x = INR k * h \/ x = INR k * h + h / 2 \/ x = INR k * h + h) -> Rabs (y - (t + x / 86400)) <= INR k * 2e-11 + 2e-11 -> exists D, IZR D + 8e-11 <= y - 69.184 / 86400 <= IZR D + 1 - 8e-11).
    { intros x y X Q. apply Rabs_le_inv in Q. destruct (AW x X) as (D & A & B). exists D. lra. }
    destruct (step_close 8e-11 2.3e-12 L tanf h t0 r0 v0 LI) as (t' & r' & v' & E & RK); [apply Rabs_le; lra|exact HB|exact VN|exact RM| |lra..|].
    { intros u w W UW U. apply gha_round; [exact U|]. apply Rabs_le_inv in UW.
      assert (X : exists D, IZR D + 8e-11 <= u - 69.184 / 86400 <= IZR D + 1 - 8e-11).
      { destruct W as [-> | [-> | ->]]; [apply (CM (INR k * h))|apply (CM (INR k * h + h / 2))|apply (CM (INR k * h + h))]; auto; apply Rabs_le; unfold tau in *; lra. }
      destruct X as (D & A & B). exists D. lra. }
    destruct (step_apart Lp (INR k * 2e-11) 2.3e-12 3e-11 3e-14 h q e (INR k * h) qr qv t0 r0 v0 t' r' v' LF ltac:(lra) ltac:(lra) ltac:(lra) th0 RQ MQ HQ TB HB WB AM TQ SE1) as (q' & w' & ES & ET & ER); [|exact RK|].
    { intros u x X Q. apply (day_away (1e-10 + INR n * 2e-11)); [apply AW; exact X|]. unfold e in Q. cbn [value] in Q. eapply Rle_lt_trans; [exact Q|]. lra. }
    assert (NX : INR k * h + h = INR (S k) * h) by (rewrite S_INR; ring). rewrite NX in ES, ET.
    exists (set_rk_state q (GCRF (later e (INR (S k) * h)) q' w')), q', w', t', r', v'.
    split; [eapply SafeStep.stepped_snoc; eauto|]. split; [reflexivity|]. split; [exact MQ|]. split; [exact HQ|]. split; [cbn [coast_steps_b64]; rewrite CS; cbn [bind]; exact E|].
    split; [unfold e in ET; cbn [value] in ET; rewrite S_INR at 2; lra|].
    cbv zeta in ER. destruct ER as (RR & RV). fold H in RR, RV. unfold separation.
    assert (G := growth Lp (INR k * 2e-11) H (norm (sub r0 qr)) (norm (sub v0 qv)) 2.3e-12 3e-11 3e-14 L0 (conj H0 HB) D0 V0 eq_refl eq_refl eq_refl ltac:(lra)). cbv zeta in G. fold K in G.
    assert (KD : K * H * (2.2e-7 + INR k * 2e-11) <= K * H * (2.2e-7 + INR n * 2e-11)) by (apply Rmult_le_compat_l; lra).
    unfold separation in SE. set (Ek := exp (K * (INR k * H)) * (INR k * dl)) in *.
    assert (EK : (1 + K * H) * (norm (sub r0 qr) + norm (sub v0 qv)) <= (1 + K * H) * Ek) by (apply Rmult_le_compat_l; lra).
    assert (FIN : (1 + K * H) * Ek + dl <= exp (K * (INR (S k) * H)) * (INR (S k) * dl)).
    { rewrite S_INR. replace (K * ((INR k + 1) * H)) with (K * (INR k * H) + K * H) by ring. rewrite exp_plus. unfold Ek. set (x := exp (K * (INR k * H))). assert (X1 : 1 <= x) by (unfold x; rewrite <- exp_0; apply exp_le; apply Rmult_le_pos; [lra|apply Rmult_le_pos; lra]).
      assert (Y1 : 1 + K * H <= exp (K * H)) by (apply exp_ineq1_le). set (y := exp (K * H)) in *. set (z := INR k * dl). assert (Z0 : 0 <= z) by (apply Rmult_le_pos; lra).
      replace (x * y * ((INR k + 1) * dl)) with (y * (x * z) + x * y * dl) by (unfold z; ring).
      assert ((1 + K * H) * (x * z) <= y * (x * z)) by (apply Rmult_le_compat_r; [apply Rmult_le_pos; lra|exact Y1]).
      assert (1 * 1 <= x * y) by (apply Rmult_le_compat; lra). assert (1 * 1 * dl <= x * y * dl) by (apply Rmult_le_compat_r; lra). lra. }
    unfold dl in FIN at 1. clear - RR RV G KD EK FIN. lra.
Qed.
