From Coq Require Import Reals ZArith Lra Lia Bool Psatz.
From Flocq Require Import Core.
From Verif.Model Require Import Num Constants Linalg Time States TimeFloat ElementsFloat PositionsFloat.
From Verif.Spec Require Import Geometry LibmAccuracy.
From Verif.Proofs Require Import NumLemmas LinalgProofs CelestialProofs StatesProofs TimeFloatProofs ElementsFloatProofs StateFloatProofs VectorFloatProofs PiDigits Analysis.
From Verif.Model Require Import FrameFloat.
From Verif.Spec Require Import FrameFloat.
From Verif.Proofs Require Import FrameFloatBasics FrameFloatProofs.
Local Open Scope R_scope.

Lemma row_vec_le e G W d u' u p' p : verr e u' u -> norm u = 1 -> 0 <= e <= 1e-6 -> verr G p' p -> norm p <= W -> 0 <= G ->
  (3.5e-16 + e) * (W + G) + G + 6e-60 <= d -> err d (v3_dot_b64 u' p') (dot u p).
Proof.
  intros A U E B N G0 D. assert (NB := verr_norm _ _ _ B). assert (NU := verr_norm _ _ _ A). assert (P0 := norm_nonneg p').
  assert (R := dot_err e _ _ p' 1.001 A ltac:(lra) ltac:(lra)). unfold err in *.
  replace (v3_dot_b64 u' p' - dot u p) with ((v3_dot_b64 u' p' - dot u p') + dot u (sub p' p)) by (unfold dot, sub; cbn [x3 y3 z3]; ring).
  eapply Rle_trans; [apply Rabs_triang|]. assert (C := cauchy_schwarz_norm u (sub p' p)). apply Rabs_le in C. unfold verr in B. rewrite U in C.
  assert ((3.4e-16 * 1.001 + e) * norm p' <= (3.5e-16 + e) * (W + G)) by (apply Rmult_le_compat; lra). lra.
Qed.

Lemma col_err e a' a b' b c' c : 0 <= e -> err e a' a -> err e b' b -> err e c' c -> verr (1.7321 * e) (V3 a' b' c') (V3 a b c).
Proof. intros E A B C. unfold verr. apply norm_parts; auto. Qed.

Lemma verr_parts e u' u : verr e u' u -> err e (x3 u') (x3 u) /\ err e (y3 u') (y3 u) /\ err e (z3 u') (z3 u).
Proof. intros H. unfold verr in H. destruct (norm_ge_xyz (sub u' u)) as (A & B & C). unfold sub in A, B, C; cbn [x3 y3 z3] in A, B, C. unfold err. unfold sub in H. lra. Qed.

Lemma transposed_units m : is_rotation m -> let t := transposed m in norm (m3_row1 t) = 1 /\ norm (m3_row2 t) = 1 /\ norm (m3_row3 t) = 1.
Proof. intros H t. destruct (transposed_rotation m H) as (A & B & C & _). unfold norm. unfold t. rewrite A, B, C, sqrt_1. auto. Qed.

(** Relative positions and speeds at most the size of the orbit and [U]. *)
Lemma to_gcrf_round L o h U : accurate_angles L -> ordinary_origin o -> around (norm (g_position o)) (s_position h) -> inside U (s_velocity h) -> 1e-6 <= U <= 1e6 ->
  exists g' g, hcw_to_gcrf_b64 L h o = Ok g' /\ hcw_to_gcrf h o = Ok g /\ back_close o U g' g.
Proof.
  intros LA O (IX & IY & IZ) (JX & JY & JZ) U1. assert (NR := origin_nonradial o O). destruct (frame_units o NR) as (U1' & U2 & U3).
  destruct (frame_round o) as (r & i & c & FE & Er & Ei & Ec); [apply O|apply O|apply O|].
  assert (GE := hcw_to_gcrf_ok h o NR). cbv zeta in GE.
  set (R := norm (g_position o)) in *. assert (R1 : 1 <= R <= 1e9) by apply O. set (V := norm (g_velocity o)). assert (V1 : 1e-6 <= V <= 1e6) by apply O.
  destruct (mag_close (g_position o) ltac:(fold R; lra)) as [MR0 MR]. fold R in MR. 
  set (x := x3 (s_position h)) in *. set (y := y3 (s_position h)) in *. set (z := z3 (s_position h)) in *.
  set (a := x3 (s_velocity h)) in *. set (b := y3 (s_velocity h)) in *. set (d := z3 (s_velocity h)) in *.
  set (l := y / R) in *. set (f := z / R) in *. set (ri := R + x) in *.
  unfold hcw_to_gcrf_b64. rewrite FE. cbn [bind]. set (mR := v3_magnitude_b64 (g_position o)) in *. fold x y z a b d.
  assert (Tx := row_err _ 9.7e-16 _ _ (g_velocity o) Er ltac:(lra) ltac:(lra) ltac:(fold V; lra) ltac:(lra)).
  assert (Ty := row_err _ 1e-14 _ _ (g_velocity o) Ei ltac:(lra) ltac:(lra) ltac:(fold V; lra) ltac:(lra)). fold V in Tx, Ty.
  set (ut := apply3 (frame o) (g_velocity o)) in *. change (dot (m3_row1 (frame o)) (g_velocity o)) with (x3 ut) in Tx. change (dot (m3_row2 (frame o)) (g_velocity o)) with (y3 ut) in Ty.
  assert (NU : norm ut = V) by (apply rotation_norm, frame_rotation; auto).
  destruct (norm_ge_xyz ut) as (TX & TY & _). rewrite NU in TX, TY.
  cbn [m3_multiply_vector_b64 m3_row1 m3_row2 m3_row3 x3 y3 z3].
  set (tx := v3_dot_b64 r (g_velocity o)) in *. set (ty := v3_dot_b64 i (g_velocity o)) in *.
  destruct (err_divr (1e-14 * V) 2.9e-16 ty (y3 ut) mR R V (1.05e-14 * V) Ty TY ltac:(lra) MR ltac:(lra) ltac:(lra) ltac:(lra)) as [_ DT].
  rewrite (div_ok ty mR) by lra. cbn [bind]. set (ldt := b64 (ty / mR)) in *.
  assert (Z0 : forall t, err 0 t t) by (intros t; unfold err; rewrite Rminus_eq_0, Rabs_R0; lra).
  destruct (err_divr 0 2.9e-16 y y mR R (2 * R) (8.2e-16 * R) (Z0 _) IY ltac:(lra) MR ltac:(lra) ltac:(lra) ltac:(lra)) as [_ EL].
  destruct (err_divr 0 2.9e-16 z z mR R (2 * R) (8.2e-16 * R) (Z0 _) IZ ltac:(lra) MR ltac:(lra) ltac:(lra) ltac:(lra)) as [_ EF].
  replace (8.2e-16 * R / R) with 8.2e-16 in EL, EF by (field; lra). fold l in EL. fold f in EF.
  rewrite (div_ok y mR), (div_ok z mR) by lra. cbn [bind]. set (l' := b64 (y / mR)) in *. set (f' := b64 (z / mR)) in *.
  assert (LB : Rabs l <= 2) by (apply abs_div_le; lra). assert (FB : Rabs f <= 2) by (apply abs_div_le; lra).
  assert (FB' : Rabs f' <= 8) by (eapply Rle_trans; [apply (err_upper _ _ _ 2 EF FB)|lra]).
  assert (LB' : Rabs l' <= 8) by (eapply Rle_trans; [apply (err_upper _ _ _ 2 EL LB)|lra]).
  destruct LA as (TR & _ & _). destruct (TR f' FB') as [SF' CF']. destruct (TR l' LB') as [SL' CL'].
  assert (ESF : err 1.06e-15 (sinf L f') (sin f)).
  { unfold err. replace (sinf L f' - sin f) with ((sinf L f' - sin f') + (sin f' - sin f)) by ring. eapply Rle_trans; [apply Rabs_triang|]. assert (C := sin_lip f' f). unfold err in EF. lra. }
  assert (ECF : err 1.06e-15 (cosf L f') (cos f)).
  { unfold err. replace (cosf L f' - cos f) with ((cosf L f' - cos f') + (cos f' - cos f)) by ring. eapply Rle_trans; [apply Rabs_triang|]. assert (C := cos_lip f' f). unfold err in EF. lra. }
  assert (ECL : err 1.06e-15 (cosf L l') (cos l)).
  { unfold err. replace (cosf L l' - cos l) with ((cosf L l' - cos l') + (cos l' - cos l)) by ring. eapply Rle_trans; [apply Rabs_triang|]. assert (C := cos_lip l' l). unfold err in EL. lra. }
  assert (ESL : err 1.06e-15 (sinf L l') (sin l)).
  { unfold err. replace (sinf L l' - sin l) with ((sinf L l' - sin l') + (sin l' - sin l)) by ring. eapply Rle_trans; [apply Rabs_triang|]. assert (C := sin_lip l' l). unfold err in EL. lra. }
  assert (BSF := abs_sin f). assert (BCF := abs_cos f). assert (BSL := abs_sin l). assert (BCL := abs_cos l).
  set (sf := sinf L f') in *. set (cf := cosf L f') in *. set (sl := sinf L l') in *. set (cl := cosf L l') in *. clearbody sf cf sl cl.
  (* the matrices *)
  assert (K : forall a' a b' b, err 1.06e-15 a' a -> err 1.06e-15 b' b -> Rabs a <= 1 -> Rabs b <= 1 -> err 2.3e-15 (b64 (a' * b')) (a * b)).
  { intros a' a0 b' b0 EA EB BA BB. apply (err_mulr 1.06e-15 1.06e-15 _ _ _ _ 1 1); auto. lra. }
  set (SZ := rsw_sez_matrix (sin f) (cos f) (sin l) (cos l)) in *. set (S' := rsw_sez_matrix_b64 sf cf sl cl).
  destruct (transposed_units SZ (sez_rotation f l)) as (NS1 & NS2 & NS3).
  assert (Zt : verr 4e-15 (m3_row1 (m3_transpose S')) (m3_row1 (transposed SZ)) /\ verr 4e-15 (m3_row2 (m3_transpose S')) (m3_row2 (transposed SZ)) /\ verr 4e-15 (m3_row3 (m3_transpose S')) (m3_row3 (transposed SZ))).
  { assert (W : forall u u', err 1.06e-15 u' u -> err 2.3e-15 u' u) by (intros; eapply err_weaken; eauto; lra).
    assert (Z1 : err 2.3e-15 0 0) by (eapply err_weaken; [apply Z0|lra]).
    repeat split; (apply verr_weaken with (1.7321 * 2.3e-15); [|lra]); (apply col_err; [lra|..]); unfold SZ, S'; cbn [transposed rsw_sez_matrix rsw_sez_matrix_b64 m3_transpose m3_row1 m3_row2 m3_row3 x3 y3 z3]; first [solve [auto]|apply W; solve [auto]|apply W, err_opp; solve [auto]]. }
  destruct Zt as (Z1 & Z2 & Z3).
  destruct (transposed_units (frame o) (frame_rotation o NR)) as (NF1 & NF2 & NF3).
  assert (Ft : verr 1.67e-14 (m3_row1 (m3_transpose (M3 r i c))) (m3_row1 (transposed (frame o))) /\ verr 1.67e-14 (m3_row2 (m3_transpose (M3 r i c))) (m3_row2 (transposed (frame o))) /\ verr 1.67e-14 (m3_row3 (m3_transpose (M3 r i c))) (m3_row3 (transposed (frame o)))).
  { destruct (verr_parts _ _ _ Er) as (A1 & A2 & A3). destruct (verr_parts _ _ _ Ei) as (B1 & B2 & B3). destruct (verr_parts _ _ _ Ec) as (C1 & C2 & C3).
    repeat split; (apply verr_weaken with (1.7321 * 9.6e-15); [|lra]); apply col_err; try lra; eapply err_weaken; eauto; lra. }
  destruct Ft as (F1 & F2 & F3).
  (* lengths and rates *)
  assert (RI : Rabs ri <= 2 * R) by (unfold ri; apply Rabs_le_inv in IX; apply Rabs_le; lra).
  assert (ERI : err (5.3e-16 * R) (b64 (mR + x)) ri) by (apply (err_addr (2.9e-16 * R) 0 _ _ _ _ (2 * R)); auto; lra).
  set (ri' := b64 (mR + x)) in *.
  set (T := U + V). assert (T1 : 1e-6 <= T) by (unfold T; lra).
  assert (UR : 1e-15 <= U / R) by (apply Rmult_le_reg_r with R; [lra|]; rewrite div_mul; lra).
  assert (VR : 1e-15 <= V / R) by (apply Rmult_le_reg_r with R; [lra|]; rewrite div_mul; lra).
  assert (TR' : T / R = U / R + V / R) by (unfold T; field; lra).
  destruct (err_divr 0 2.9e-16 b b mR R U (4.1e-16 * U) (Z0 _) JY ltac:(lra) MR ltac:(lra) ltac:(lra) ltac:(lra)) as [_ EB].
  destruct (err_divr 0 2.9e-16 d d mR R U (4.1e-16 * U) (Z0 _) JZ ltac:(lra) MR ltac:(lra) ltac:(lra) ltac:(lra)) as [_ ED].
  rewrite (div_ok b mR), (div_ok d mR) by lra. cbn [bind]. set (yd := b64 (b / mR)) in *. set (pd := b64 (d / mR)) in *.
  replace (4.1e-16 * U / R) with (4.1e-16 * (U / R)) in EB, ED by (field; lra). replace (1.05e-14 * V / R) with (1.05e-14 * (V / R)) in DT by (field; lra).
  assert (BB : Rabs (b / R) <= U / R) by (apply abs_div_le; [lra|]; rewrite div_mul; lra).
  assert (BD : Rabs (d / R) <= U / R) by (apply abs_div_le; [lra|]; rewrite div_mul; lra).
  assert (BT : Rabs (y3 ut / R) <= V / R) by (apply abs_div_le; [lra|]; rewrite div_mul; lra).
  assert (BL : Rabs (b / R + y3 ut / R) <= T / R) by (rewrite TR'; eapply Rle_trans; [apply Rabs_triang|]; lra).
  assert (ELD : err (1.1e-14 * (T / R)) (b64 (yd + ldt)) (b / R + y3 ut / R)) by (apply (err_addr _ _ _ _ _ _ (T / R) _ EB DT); auto; lra).
  set (ld := b64 (yd + ldt)) in *.
  assert (ERD : err (1.2e-15 * T) (b64 (a + tx)) (a + x3 ut)).
  { apply (err_addr 0 (9.7e-16 * V) _ _ _ _ T); auto; [unfold T; eapply Rle_trans; [apply Rabs_triang|]; lra|unfold T; lra]. }
  set (rd := b64 (a + tx)) in *.
  assert (E3 : U / R * R = U) by (field; lra). assert (E4 : T / R * R = T) by (field; lra).
  assert (G1 : err (1.6e-15 * T) (b64 (- ri' * pd)) (- ri * (d / R))).
  { apply (err_mulr (5.3e-16 * R) (4.1e-16 * (U / R)) _ _ _ _ (2 * R) (U / R)); auto; [apply err_opp; auto|rewrite Rabs_Ropp; auto|].
    replace (5.3e-16 * R * (U / R) + (2 * R + 5.3e-16 * R) * (4.1e-16 * (U / R))) with ((5.3e-16 + (2 + 5.3e-16) * 4.1e-16) * (U / R * R)) by ring.
    replace (2 * R * (U / R)) with (2 * (U / R * R)) by ring. rewrite E3. unfold T. lra. }
  assert (G2' : err (2.32e-14 * T) (b64 (ri' * ld)) (ri * (b / R + y3 ut / R))).
  { apply (err_mulr (5.3e-16 * R) (1.1e-14 * (T / R)) _ _ _ _ (2 * R) (T / R)); auto.
    replace (5.3e-16 * R * (T / R) + (2 * R + 5.3e-16 * R) * (1.1e-14 * (T / R))) with ((5.3e-16 + (2 + 5.3e-16) * 1.1e-14) * (T / R * R)) by ring.
    replace (2 * R * (T / R)) with (2 * (T / R * R)) by ring. rewrite E4. lra. }
  assert (BRL : Rabs (ri * (b / R + y3 ut / R)) <= 2 * T).
  { replace (2 * T) with (2 * R * (T / R)) by (field; lra). apply abs_mul_le; auto. }
  assert (G2 : err (2.6e-14 * T) (b64 (b64 (ri' * ld) * cf)) (ri * (b / R + y3 ut / R) * cos f)).
  { apply (err_mulr (2.32e-14 * T) 1.06e-15 _ _ _ _ (2 * T) 1); auto. lra. }
  set (sv := V3 (- ri * (d / R)) (ri * (b / R + y3 ut / R) * cos f) (a + x3 ut)) in *.
  set (sv' := V3 (b64 (- ri' * pd)) (b64 (b64 (ri' * ld) * cf)) rd).
  assert (EV : verr (4.6e-14 * T) sv' sv).
  { apply verr_weaken with (1.7321 * (2.6e-14 * T)); [|lra]. apply col_err; auto; [lra| |]; (eapply err_weaken; [eassumption|lra]). }
  assert (NV : norm sv <= 3.4642 * T).
  { replace (3.4642 * T) with (1.7321 * (2 * T)) by lra. apply norm_parts; unfold sv; cbn [x3 y3 z3]; [lra| | |].
    - replace (2 * T) with (2 * R * (T / R)) by (field; lra). apply abs_mul_le; [rewrite Rabs_Ropp; auto|]. lra.
    - rewrite <- (Rmult_1_r (2 * T)). apply abs_mul_le; auto.
    - eapply Rle_trans; [apply Rabs_triang|]. unfold T. lra. }
  assert (Hx := row_vec_le 4e-15 (4.6e-14 * T) (3.4642 * T) (6.2e-14 * T) _ _ _ _ Z1 NS1 ltac:(lra) EV NV ltac:(lra) ltac:(lra)).
  assert (Hy := row_vec_le 4e-15 (4.6e-14 * T) (3.4642 * T) (6.2e-14 * T) _ _ _ _ Z2 NS2 ltac:(lra) EV NV ltac:(lra) ltac:(lra)).
  assert (Hz := row_vec_le 4e-15 (4.6e-14 * T) (3.4642 * T) (6.2e-14 * T) _ _ _ _ Z3 NS3 ltac:(lra) EV NV ltac:(lra) ltac:(lra)).
  assert (EW := col_err (6.2e-14 * T) _ _ _ _ _ _ ltac:(lra) Hx Hy Hz).
  set (vi := V3 (dot (m3_row1 (transposed SZ)) sv) (dot (m3_row2 (transposed SZ)) sv) (dot (m3_row3 (transposed SZ)) sv)) in *.
  change vi with (apply3 (transposed SZ) sv) in EW.
  assert (NW : norm (apply3 (transposed SZ) sv) <= 3.4642 * T) by (rewrite rotation_norm; auto; apply transposed_rotation, sez_rotation).
  assert (Ix := row_vec_le 1.67e-14 (1.7321 * (6.2e-14 * T)) (3.4642 * T) (2e-13 * T) _ _ _ _ F1 NF1 ltac:(lra) EW NW ltac:(lra) ltac:(lra)).
  assert (Iy := row_vec_le 1.67e-14 (1.7321 * (6.2e-14 * T)) (3.4642 * T) (2e-13 * T) _ _ _ _ F2 NF2 ltac:(lra) EW NW ltac:(lra) ltac:(lra)).
  assert (Iz := row_vec_le 1.67e-14 (1.7321 * (6.2e-14 * T)) (3.4642 * T) (2e-13 * T) _ _ _ _ F3 NF3 ltac:(lra) EW NW ltac:(lra) ltac:(lra)).
  (* the position *)
  assert (P1 : err (2.95e-15 * R) (b64 (cf * ri')) (cos f * ri)) by (apply (err_mulr 1.06e-15 (5.3e-16 * R) _ _ _ _ 1 (2 * R)); auto; lra).
  assert (BP : Rabs (cos f * ri) <= 2 * R) by (rewrite <- (Rmult_1_l (2 * R)); apply abs_mul_le; auto).
  assert (P2 : err (5.4e-15 * R) (b64 (b64 (cf * ri') * cl)) (cos f * ri * cos l)) by (apply (err_mulr (2.95e-15 * R) 1.06e-15 _ _ _ _ (2 * R) 1); auto; lra).
  assert (P3 : err (5.4e-15 * R) (b64 (b64 (cf * ri') * sl)) (cos f * ri * sin l)) by (apply (err_mulr (2.95e-15 * R) 1.06e-15 _ _ _ _ (2 * R) 1); auto; lra).
  assert (P4 : err (5.4e-15 * R) (b64 (sf * ri')) (sin f * ri)) by (apply (err_mulr 1.06e-15 (5.3e-16 * R) _ _ _ _ 1 (2 * R)); auto; lra).
  assert (EP := col_err (5.4e-15 * R) _ _ _ _ _ _ ltac:(lra) P2 P3 P4).
  set (rw := V3 (cos f * ri * cos l) (cos f * ri * sin l) (sin f * ri)) in *.
  assert (NP : norm rw <= 3.4642 * R).
  { replace (3.4642 * R) with (1.7321 * (2 * R)) by lra. apply norm_parts; unfold rw; cbn [x3 y3 z3]; [lra| | |].
    - rewrite <- (Rmult_1_r (2 * R)). apply abs_mul_le; auto.
    - rewrite <- (Rmult_1_r (2 * R)). apply abs_mul_le; auto.
    - rewrite <- (Rmult_1_l (2 * R)). apply abs_mul_le; auto. }
  assert (Kx := row_vec_le 1.67e-14 (1.7321 * (5.4e-15 * R)) (3.4642 * R) (7e-14 * R) _ _ _ _ F1 NF1 ltac:(lra) EP NP ltac:(lra) ltac:(lra)).
  assert (Ky := row_vec_le 1.67e-14 (1.7321 * (5.4e-15 * R)) (3.4642 * R) (7e-14 * R) _ _ _ _ F2 NF2 ltac:(lra) EP NP ltac:(lra) ltac:(lra)).
  assert (Kz := row_vec_le 1.67e-14 (1.7321 * (5.4e-15 * R)) (3.4642 * R) (7e-14 * R) _ _ _ _ F3 NF3 ltac:(lra) EP NP ltac:(lra) ltac:(lra)).
  eexists. eexists. split; [reflexivity|]. split; [exact GE|]. unfold back_close. cbn [g_epoch g_position g_velocity GCRF]. fold R V T.
  split; [reflexivity|]. split; (split; [|split]); assumption.
Qed.
