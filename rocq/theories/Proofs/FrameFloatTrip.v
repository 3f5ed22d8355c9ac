From Coq Require Import Reals ZArith Lra Lia Bool Psatz Nsatz.
From Flocq Require Import Core.
From Verif.Model Require Import Num Constants Linalg Time States TimeFloat ElementsFloat PositionsFloat.
From Verif.Spec Require Import Geometry LibmAccuracy.
From Verif.Proofs Require Import NumLemmas LinalgProofs CelestialProofs StatesProofs TimeFloatProofs ElementsFloatProofs StateFloatProofs VectorFloatProofs PiDigits Analysis.
From Verif.Model Require Import FrameFloat.
From Verif.Spec Require Import FrameFloat.
From Verif.Proofs Require Import FrameFloatBasics FrameFloatProofs FrameFloatBack.
Local Open Scope R_scope.

Lemma apply3_sub m a b : sub (apply3 m a) (apply3 m b) = apply3 m (sub a b).
Proof. unfold apply3, sub, dot; cbn; f_equal; ring. Qed.

Lemma rotated_err m d p' p : is_rotation m -> verr d p' p -> vec_err d (apply3 m p') (apply3 m p).
Proof.
  intros M H. apply verr_parts. unfold verr. rewrite apply3_sub, rotation_norm; auto.
Qed.

Lemma dot_close e G W d u' u p' p : verr e u' u -> norm u = 1 -> verr G p' p -> norm p <= W -> 0 <= e -> e * (W + G) + G <= d -> err d (dot u' p') (dot u p).
Proof.
  intros A U B N E0 D. assert (NB := verr_norm _ _ _ B). unfold err, verr in *. assert (P0 := norm_nonneg p').
  replace (dot u' p' - dot u p) with (dot (sub u' u) p' + dot u (sub p' p)) by (unfold dot, sub; cbn [x3 y3 z3]; ring).
  eapply Rle_trans; [apply Rabs_triang|]. assert (C := cauchy_schwarz_norm u (sub p' p)). apply Rabs_le in C. assert (C' := cauchy_schwarz_norm (sub u' u) p'). apply Rabs_le in C'. rewrite U in C.
  assert (norm (sub u' u) * norm p' <= e * (W + G)) by (apply Rmult_le_compat; try lra; apply norm_nonneg). lra.
Qed.

(** The exact conversion at nearby relative states. *)
Lemma back_lip o h' h R T : ordinary_origin o -> R = norm (g_position o) -> 0 < T -> norm (g_velocity o) <= T ->
  s_epoch h' = s_epoch h ->
  around R (s_position h) -> inside (4.1 * T) (s_velocity h) ->
  err (1.5e-15 * R) (x3 (s_position h')) (x3 (s_position h)) -> err (3e-14 * R) (y3 (s_position h')) (y3 (s_position h)) -> err (3e-14 * R) (z3 (s_position h')) (z3 (s_position h)) ->
  vec_err (8e-13 * T) (s_velocity h') (s_velocity h) ->
  exists g' g, hcw_to_gcrf h' o = Ok g' /\ hcw_to_gcrf h o = Ok g /\ g_epoch g' = g_epoch g /\
    vec_err (2.2e-13 * R) (g_position g') (g_position g) /\ vec_err (9.3e-12 * T) (g_velocity g') (g_velocity g).
Proof.
  intros O ER T0 VT EE (IX & IY & IZ) (JX & JY & JZ) DX DY DZ (VX & VY & VZ). assert (NR := origin_nonradial o O).
  assert (R1 : 1 <= R <= 1e9) by (rewrite ER; apply O).
  rewrite (hcw_to_gcrf_ok h' o NR), (hcw_to_gcrf_ok h o NR). cbv zeta. rewrite <- ER.
  eexists. eexists. split; [reflexivity|]. split; [reflexivity|]. cbn [g_epoch g_position g_velocity GCRF]. split; [reflexivity|].
  set (x := x3 (s_position h)) in *. set (y := y3 (s_position h)) in *. set (z := z3 (s_position h)) in *.
  set (x' := x3 (s_position h')) in *. set (y' := y3 (s_position h')) in *. set (z' := z3 (s_position h')) in *.
  set (a := x3 (s_velocity h)) in *. set (b := y3 (s_velocity h)) in *. set (d := z3 (s_velocity h)) in *.
  set (a' := x3 (s_velocity h')) in *. set (b' := y3 (s_velocity h')) in *. set (d' := z3 (s_velocity h')) in *.
  assert (DL : err 3e-14 (y' / R) (y / R)) by (apply scaled_err; auto; lra). assert (DF : err 3e-14 (z' / R) (z / R)) by (apply scaled_err; auto; lra).
  set (l := y / R) in *. set (f := z / R) in *. set (l' := y' / R) in *. set (f' := z' / R) in *.
  assert (RI : Rabs (R + x) <= 2 * R) by (apply Rabs_le_inv in IX; apply Rabs_le; lra).
  assert (DR : err (1.5e-15 * R) (R + x') (R + x)) by (unfold err in *; replace (R + x' - (R + x)) with (x' - x) by ring; auto).
  set (ri := R + x) in *. set (ri' := R + x') in *.
  set (ut := apply3 (frame o) (g_velocity o)) in *. assert (NU : norm ut <= T) by (unfold ut; rewrite rotation_norm; auto; apply frame_rotation; auto).
  destruct (norm_ge_xyz ut) as (UX & UY & _).
  assert (FR := transposed_rotation _ (frame_rotation o NR)).
  assert (CF : err 3e-14 (cos f') (cos f)) by (unfold err in *; eapply Rle_trans; [apply cos_lip|auto]).
  assert (SF : err 3e-14 (sin f') (sin f)) by (unfold err in *; eapply Rle_trans; [apply sin_lip|auto]).
  assert (CL : err 3e-14 (cos l') (cos l)) by (unfold err in *; eapply Rle_trans; [apply cos_lip|auto]).
  assert (SL : err 3e-14 (sin l') (sin l)) by (unfold err in *; eapply Rle_trans; [apply sin_lip|auto]).
  assert (BSF := abs_sin f). assert (BCF := abs_cos f). assert (BSL := abs_sin l). assert (BCL := abs_cos l).
  assert (M : forall dx dy u' u v' v X Y D, err dx u' u -> err dy v' v -> Rabs u <= X -> Rabs v <= Y -> dx * Y + (X + dx) * dy <= D -> err D (u' * v') (u * v)).
  { intros. eapply err_weaken; [eapply err_mul; eauto|auto]. }
  assert (BP : Rabs (cos f * ri) <= 2 * R) by (rewrite <- (Rmult_1_l (2 * R)); apply abs_mul_le; auto).
  split.
  - apply rotated_err; auto. apply verr_weaken with (1.7321 * (1.25e-13 * R)); [|lra].
    assert (P1 : err (6.2e-14 * R) (cos f' * ri') (cos f * ri)) by (apply (M 3e-14 (1.5e-15 * R) _ _ _ _ 1 (2 * R)); auto; lra).
    apply col_err; [lra| | |].
    + apply (M (6.2e-14 * R) 3e-14 _ _ _ _ (2 * R) 1); auto; lra.
    + apply (M (6.2e-14 * R) 3e-14 _ _ _ _ (2 * R) 1); auto; lra.
    + apply (M 3e-14 (1.5e-15 * R) _ _ _ _ 1 (2 * R)); auto; lra.
  - assert (TR : 0 < T / R) by (apply Rdiv_lt_0_compat; lra). assert (ETR : T / R * R = T) by (field; lra).
    assert (D1 : err (8e-13 * (T / R)) (d' / R) (d / R)) by (apply scaled_err; [lra|]; eapply err_weaken; [exact VZ|]; replace (8e-13 * (T / R) * R) with (8e-13 * (T / R * R)) by ring; lra).
    assert (D2 : err (8e-13 * (T / R)) (b' / R) (b / R)) by (apply scaled_err; [lra|]; eapply err_weaken; [exact VY|]; replace (8e-13 * (T / R) * R) with (8e-13 * (T / R * R)) by ring; lra).
    assert (B1 : Rabs (d / R) <= 4.1 * (T / R)) by (apply abs_div_le; [lra|]; replace (4.1 * (T / R) * R) with (4.1 * (T / R * R)) by ring; rewrite ETR; auto).
    assert (B2 : Rabs (b / R + y3 ut / R) <= 5.1 * (T / R)).
    { replace (b / R + y3 ut / R) with ((b + y3 ut) / R) by (field; lra). apply abs_div_le; [lra|]; replace (5.1 * (T / R) * R) with (5.1 * (T / R * R)) by ring; rewrite ETR. eapply Rle_trans; [apply Rabs_triang|]. lra. }
    assert (D3 : err (8e-13 * (T / R)) (b' / R + y3 ut / R) (b / R + y3 ut / R)) by (unfold err in *; replace (b' / R + y3 ut / R - (b / R + y3 ut / R)) with (b' / R - b / R) by ring; auto).
    assert (G1 : err (1.97e-12 * T) (- ri' * (d' / R)) (- ri * (d / R))).
    { apply (M (1.5e-15 * R) (8e-13 * (T / R)) _ _ _ _ (2 * R) (4.1 * (T / R))); auto; [apply err_opp; auto|rewrite Rabs_Ropp; auto|].
      replace (1.5e-15 * R * (4.1 * (T / R)) + (2 * R + 1.5e-15 * R) * (8e-13 * (T / R))) with ((1.5e-15 * 4.1 + (2 + 1.5e-15) * 8e-13) * (T / R * R)) by ring. rewrite ETR. lra. }
    assert (G2 : err (1.61e-12 * T) (ri' * (b' / R + y3 ut / R)) (ri * (b / R + y3 ut / R))).
    { apply (M (1.5e-15 * R) (8e-13 * (T / R)) _ _ _ _ (2 * R) (5.1 * (T / R))); auto.
      replace (1.5e-15 * R * (5.1 * (T / R)) + (2 * R + 1.5e-15 * R) * (8e-13 * (T / R))) with ((1.5e-15 * 5.1 + (2 + 1.5e-15) * 8e-13) * (T / R * R)) by ring. rewrite ETR. lra. }
    assert (BG : Rabs (ri * (b / R + y3 ut / R)) <= 10.2 * T).
    { replace (10.2 * T) with (2 * R * (5.1 * (T / R))) by (transitivity (10.2 * (T / R * R)); [lra|rewrite ETR; reflexivity]). apply abs_mul_le; auto. }
    assert (G3 : err (1.97e-12 * T) (ri' * (b' / R + y3 ut / R) * cos f') (ri * (b / R + y3 ut / R) * cos f)) by (apply (M (1.61e-12 * T) 3e-14 _ _ _ _ (10.2 * T) 1); auto; lra).
    assert (G4 : err (1.97e-12 * T) (a' + x3 ut) (a + x3 ut)) by (unfold err in *; replace (a' + x3 ut - (a + x3 ut)) with (a' - a) by ring; lra).
    assert (GV := col_err (1.97e-12 * T) _ _ _ _ _ _ ltac:(lra) G1 G3 G4).
    set (sv := V3 (- ri * (d / R)) (ri * (b / R + y3 ut / R) * cos f) (a + x3 ut)) in *. set (sv' := V3 (- ri' * (d' / R)) (ri' * (b' / R + y3 ut / R) * cos f') (a' + x3 ut)) in *.
    assert (NV : norm sv <= 17.7 * T).
    { apply Rle_trans with (1.7321 * (10.2 * T)); [|lra]. apply norm_parts; unfold sv; cbn [x3 y3 z3]; [lra| | |].
      - apply Rle_trans with (2 * R * (4.1 * (T / R))); [apply abs_mul_le; auto; rewrite Rabs_Ropp; auto|]. replace (2 * R * (4.1 * (T / R))) with (2 * 4.1 * (T / R * R)) by ring. rewrite ETR. lra.
      - rewrite <- (Rmult_1_r (10.2 * T)). apply abs_mul_le; auto.
      - eapply Rle_trans; [apply Rabs_triang|]. lra. }
    apply rotated_err; auto.
    destruct (transposed_units _ (sez_rotation f l)) as (NS1 & NS2 & NS3).
    assert (K : forall u' u v' v, err 3e-14 u' u -> err 3e-14 v' v -> Rabs u <= 1 -> Rabs v <= 1 -> err 6.1e-14 (u' * v') (u * v)) by (intros; apply (M 3e-14 3e-14 _ _ _ _ 1 1); auto; lra).
    set (SZ := rsw_sez_matrix (sin f) (cos f) (sin l) (cos l)) in *. set (S' := rsw_sez_matrix (sin f') (cos f') (sin l') (cos l')).
    assert (Zt : verr 1.06e-13 (m3_row1 (transposed S')) (m3_row1 (transposed SZ)) /\ verr 1.06e-13 (m3_row2 (transposed S')) (m3_row2 (transposed SZ)) /\ verr 1.06e-13 (m3_row3 (transposed S')) (m3_row3 (transposed SZ))).
    { assert (Wk : forall u u', err 3e-14 u' u -> err 6.1e-14 u' u) by (intros; eapply err_weaken; eauto; lra).
      assert (Z1 : err 6.1e-14 0 0) by (unfold err; rewrite Rminus_eq_0, Rabs_R0; lra).
      repeat split; (apply verr_weaken with (1.7321 * 6.1e-14); [|lra]); (apply col_err; [lra|..]); unfold SZ, S'; cbn [transposed rsw_sez_matrix rsw_sez_matrix_b64 m3_transpose m3_row1 m3_row2 m3_row3 x3 y3 z3]; first [solve [auto]|apply Wk; solve [auto]|apply Wk, err_opp; solve [auto]]. }
    destruct Zt as (Z1 & Z2 & Z3).
    assert (Hx := dot_close 1.06e-13 (1.7321 * (1.97e-12 * T)) (17.7 * T) (5.31e-12 * T) _ _ _ _ Z1 NS1 GV NV ltac:(lra) ltac:(lra)).
    assert (Hy := dot_close 1.06e-13 (1.7321 * (1.97e-12 * T)) (17.7 * T) (5.31e-12 * T) _ _ _ _ Z2 NS2 GV NV ltac:(lra) ltac:(lra)).
    assert (Hz := dot_close 1.06e-13 (1.7321 * (1.97e-12 * T)) (17.7 * T) (5.31e-12 * T) _ _ _ _ Z3 NS3 GV NV ltac:(lra) ltac:(lra)).
    apply verr_weaken with (1.7321 * (5.31e-12 * T)); [|lra]. exact (col_err (5.31e-12 * T) _ _ _ _ _ _ ltac:(lra) Hx Hy Hz).
Qed.

Lemma err_trans d e a b c : err d a b -> err e b c -> err (d + e) a c.
Proof. unfold err. intros A B. replace (a - c) with ((a - b) + (b - c)) by ring. eapply Rle_trans; [apply Rabs_triang|]. lra. Qed.


Lemma ok_inj (A : Type) (a b : A) : Ok a = Ok b -> a = b.
Proof. congruence. Qed.

Lemma side_off_axis o s : ordinary_origin o -> same_side o s -> cross (g_position s) (cross (g_position o) (g_velocity o)) <> zero3.
Proof.
  intros O (S1 & _ & S3) C. assert (NR := origin_nonradial o O). apply NR.
  assert (D : 0 < dot (g_position o) (g_position s)) by (destruct O as (O1 & _); nra).
  assert (DH : dot (cross (g_position o) (g_velocity o)) (g_position o) = 0) by (unfold dot, cross; cbn [x3 y3 z3]; ring).
  set (hh := cross (g_position o) (g_velocity o)) in *.
  assert (E : scale (dot (g_position o) (g_position s)) hh = zero3).
  { transitivity (cross (cross (g_position s) hh) (g_position o)).
    - destruct (g_position o) as [a b c], (g_position s) as [a' b' c'], hh as [p q r]. unfold dot, scale, cross in *; cbn [x3 y3 z3] in *.
      f_equal; nsatz.
    - rewrite C. unfold cross, zero3; cbn [x3 y3 z3]. f_equal; ring. }
  unfold radial_orbit. fold hh. clearbody hh. destruct hh as [p q r]. unfold scale, zero3 in E. cbn [x3 y3 z3] in E. injection E as E1 E2 E3.
  unfold zero3. f_equal; apply Rmult_eq_reg_l with (dot (g_position o) (g_position s)); lra.
Qed.

Lemma trip_round L o s : accurate_angles L -> ordinary_origin o -> same_side o s ->
  0.5 * norm (g_position o) <= norm (g_position s) <= 1.9 * norm (g_position o) -> norm (g_velocity o) <= 1e5 -> norm (g_velocity s) <= 1e5 ->
  exists h g, gcrf_to_hcw_b64 L o s = Ok h /\ hcw_to_gcrf_b64 L h o = Ok g /\ g_epoch g = g_epoch o /\
    vec_err (3e-13 * norm (g_position o)) (g_position g) (g_position s) /\
    vec_err (1.1e-11 * (norm (g_velocity o) + norm (g_velocity s))) (g_velocity g) (g_velocity s).
Proof.
  intros LA O S PR V5 W5. destruct (to_hcw_round L o s LA O S) as (h' & h & E1 & E2 & (CE & CX & CY & CZ & CU & CV & CW)).
  assert (NR := origin_nonradial o O). destruct (side_facts o s O S) as (WX & WY & WZ & WN).
  destruct (frame_round o) as (r & i & c & FE & Er & Ei & Ec); [apply O|apply O|apply O|].
  destruct (sight_round L o s r i c LA O S Er Ei Ec) as (_ & _ & _ & _ & _ & CB & FB & LB & _).
  clear r i c FE Er Ei Ec.
  destruct (gcrf_hcw_gcrf o s NR (side_off_axis o s O S)) as (h2 & A & RT). rewrite E2 in A. injection A as <-.
  assert (GE := gcrf_to_hcw_ok o s NR). cbv zeta in GE. specialize (GE ltac:(left; assert (1 <= norm (g_position s)) by apply S; lra)).
  rewrite E2 in GE. assert (EH := ok_inj _ _ _ GE). clear GE.
  set (R := norm (g_position o)) in *. set (P := norm (g_position s)) in *. set (V := norm (g_velocity o)) in *. set (W := norm (g_velocity s)) in *.
  set (w := apply3 (frame o) (g_position s)) in *. set (f := asin (z3 w / P)) in *. set (l := atan2 (y3 w) (x3 w)) in *.
  set (ut := apply3 (frame o) (g_velocity o)) in *. set (sv := apply3 (rsw_sez_matrix (sin f) (cos f) (sin l) (cos l)) (apply3 (frame o) (g_velocity s))) in *.
  assert (NU : norm ut = V) by (apply rotation_norm, frame_rotation; auto).
  assert (NS : norm sv = W) by (unfold sv; rewrite rotation_norm by apply sez_rotation; apply rotation_norm, frame_rotation; auto).
  destruct (norm_ge_xyz sv) as (SX & SY & SZB). rewrite NS in SX, SY, SZB. destruct (norm_ge_xyz ut) as (TX & TY & _). rewrite NU in TX, TY.
  clearbody sv ut w. assert (P1 : 1 <= P <= 1e9) by apply S. assert (R1 : 1 <= R <= 1e9) by apply O. assert (V1 : 1e-6 <= V <= 1e6) by apply O. assert (W1 : 1e-6 <= W <= 1e6) by apply S.
  assert (RP : 0 < R / P <= 2) by (split; [apply Rdiv_lt_0_compat; lra|]; apply Rmult_le_reg_r with P; [lra|]; rewrite div_mul; lra).
  assert (WRP : 0 <= W * (R / P) <= 2 * W) by nra.
  set (T := V + W).
  assert (AR : Rabs (x3 (s_position h)) <= 0.91 * R /\ Rabs (y3 (s_position h)) <= 1.58 * R /\ Rabs (z3 (s_position h)) <= 1.58 * R).
  { rewrite EH. cbn [s_position]. cbn [x3 y3 z3]. split; [apply Rabs_le; lra|]. split; rewrite Rabs_mult, (Rabs_pos_eq R) by lra; (apply Rmult_le_compat_r; [lra|]); lra. }
  assert (IX : inside (4.05 * T) (s_velocity h)).
  { rewrite EH. cbn [s_velocity]. unfold inside, T; cbn [x3 y3 z3]. repeat split.
    - apply Rabs_le_inv in SZB, TX. apply Rabs_le; lra.
    - replace (R * (y3 sv / (P * cos f) - y3 ut / R)) with (y3 sv * (R / P) / cos f - y3 ut) by (field; lra).
      assert (Rabs (y3 sv * (R / P) / cos f) <= 4.05 * W).
      { apply abs_div_le; [lra|]. assert (Rabs (y3 sv * (R / P)) <= W * 2) by (apply abs_mul_le; auto; rewrite Rabs_pos_eq; lra). assert (4.05 * W * 0.499 <= 4.05 * W * cos f) by (apply Rmult_le_compat_l; lra). lra. }
      apply Rabs_le_inv in H, TY. apply Rabs_le; lra.
    - replace (R * (- x3 sv / P)) with (- (x3 sv * (R / P))) by (field; lra). rewrite Rabs_Ropp.
      assert (Rabs (x3 sv * (R / P)) <= W * 2) by (apply abs_mul_le; auto; rewrite Rabs_pos_eq; lra). lra. }
  clear EH SX SY SZB TX TY NS NU.
  assert (BL := back_lip o h' h R T O eq_refl ltac:(unfold T; lra) ltac:(unfold T; fold V; lra) CE).
  destruct BL as (g' & g & B1 & B2 & B3 & B4 & B5).
  { unfold around. lra. }
  { destruct IX as (? & ? & ?). assert (0 < T) by (unfold T; lra). unfold inside; repeat split; lra. }
  { unfold err. lra. } { exact CY. } { exact CZ. }
  { unfold T. repeat split; unfold err in *; lra. }
  rewrite RT in B2. injection B2 as <-. cbn [g_epoch g_position g_velocity] in *.
  assert (UP : forall d a' a b k, Rabs (a' - a) <= d -> Rabs a <= b -> b + d <= k -> Rabs a' <= k).
  { intros d a' a b k K1 K2 K3. apply Rabs_le_inv in K1, K2. apply Rabs_le; lra. }
  destruct (to_gcrf_round L o h' (4.1 * T) LA O) as (g1 & g2 & F1 & F2 & (F3 & F4 & F5)).
  { destruct AR as (A1 & A2 & A3). unfold around. fold R. split; [apply (UP _ _ _ _ _ CX A1); lra|]. split; [apply (UP _ _ _ _ _ CY A2); lra|apply (UP _ _ _ _ _ CZ A3); lra]. }
  { destruct IX as (I1 & I2 & I3). unfold inside, T in *. split; [apply (UP _ _ _ _ _ CU I1); lra|]. split; [apply (UP _ _ _ _ _ CV I2); lra|apply (UP _ _ _ _ _ CW I3); lra]. }
  { unfold T; lra. }
  rewrite B1 in F2. injection F2 as <-. exists h', g1. split; [exact E1|]. split; [exact F1|]. split; [rewrite F3; auto|].
  fold R V in F4, F5. destruct B4 as (B41 & B42 & B43). destruct B5 as (B51 & B52 & B53). destruct F4 as (F41 & F42 & F43). destruct F5 as (F51 & F52 & F53).
  assert (Tr : forall d e k a b c, err d a b -> err e b c -> d + e <= k -> err k a c) by (intros; eapply err_weaken; [eapply err_trans; eauto|auto]).
  split; (split; [|split]); (eapply Tr; [eassumption|eassumption|]); unfold T; lra.
Qed.
