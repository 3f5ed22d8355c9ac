From Coq Require Import Reals ZArith Lra Lia Bool Psatz.
From Flocq Require Import Core.
From Verif.Model Require Import Num Constants Linalg Time States TimeFloat ElementsFloat PositionsFloat.
From Verif.Spec Require Import Geometry LibmAccuracy.
From Verif.Proofs Require Import NumLemmas LinalgProofs CelestialProofs StatesProofs TimeFloatProofs ElementsFloatProofs StateFloatProofs VectorFloatProofs PiDigits Analysis.
From Verif.Model Require Import FrameFloat.
From Verif.Spec Require Import FrameFloat.
From Verif.Proofs Require Import FrameFloatBasics.
Local Open Scope R_scope.

Lemma origin_nonradial o : ordinary_origin o -> ~ radial_orbit o.
Proof.
  intros (A & B & C) H. unfold radial_orbit in H. rewrite H in C. replace (norm zero3) with 0 in C by (symmetry; apply norm_zero; auto). nra.
Qed.

Lemma abs_div_le z P k : 0 < P -> Rabs z <= k * P -> Rabs (z / P) <= k.
Proof.
  intros H Z. unfold Rdiv. rewrite Rabs_mult, (Rabs_pos_eq (/ P)) by (left; apply Rinv_0_lt_compat; lra).
  apply Rmult_le_reg_r with P; [lra|]. rewrite Rmult_assoc, Rinv_l by lra. lra.
Qed.

Lemma side_facts o s : ordinary_origin o -> same_side o s -> let w := apply3 (frame o) (g_position s) in let P := norm (g_position s) in
  0.5 * P <= x3 w /\ Rabs (y3 w) <= P /\ Rabs (z3 w) <= 0.8661 * P /\ norm w = P.
Proof.
  intros O (S1 & _ & S3) w P. assert (NR := origin_nonradial o O). assert (N : norm w = P) by (apply rotation_norm, frame_rotation; auto).
  assert (X : x3 w = dot (g_position o) (g_position s) / norm (g_position o)).
  { unfold w, frame, apply3. cbn [m3_row1 x3]. unfold dot, scale. cbn [x3 y3 z3]. unfold Rdiv. ring. }
  destruct O as (O1 & _ & _). fold P in S1, S3.
  assert (X5 : 0.5 * P <= x3 w).
  { rewrite X. apply Rmult_le_reg_r with (norm (g_position o)); [lra|]. rewrite div_mul by lra. lra. }
  destruct (norm_ge_xyz w) as [_ [Y _]]. rewrite N in Y. repeat split; auto.
  assert (Q := norm_sq3 w). rewrite N in Q. assert (0 <= y3 w * y3 w) by nra. assert (0.25 * (P * P) <= x3 w * x3 w) by nra. clear - Q H H0 S1. apply Rabs_le. split; nra.
Qed.

Lemma mag_close v : 1e-6 <= norm v -> 0 < v3_magnitude_b64 v /\ Rabs (v3_magnitude_b64 v - norm v) <= 2.9e-16 * norm v.
Proof.
  intros H. assert (M := mag_near v ltac:(lra)). assert (M' := near_abs 2.9 _ (norm v) ltac:(lra) M). split; [lra|apply Rabs_le; lra].
Qed.

(** Sine of the elevation, elevation and longitude as computed. *)
Lemma sight_round L o s r i c : accurate_angles L -> ordinary_origin o -> same_side o s ->
  verr 6.2e-16 r (m3_row1 (frame o)) -> verr 9.6e-15 i (m3_row2 (frame o)) -> verr 8.5e-15 c (m3_row3 (frame o)) ->
  let w := apply3 (frame o) (g_position s) in let P := norm (g_position s) in
  let f := asin (z3 w / P) in let l := atan2 (y3 w) (x3 w) in
  exists sf, pdiv_b64 (v3_dot_b64 c (g_position s)) (v3_magnitude_b64 (g_position s)) = Ok sf /\ err 9.4e-15 sf (sin f) /\ sin f = z3 w / P /\
    Rabs (sin f) <= 0.8661 /\ 0.499 <= cos f <= 1 /\ Rabs f <= 1.571 /\ Rabs l <= 1.571 /\
    pasin_b64 L sf = Ok (asinf L sf) /\ err 2.1e-14 (asinf L sf) f /\
    err 2.5e-14 (atan2f L (v3_dot_b64 i (g_position s)) (v3_dot_b64 r (g_position s))) l.
Proof.
  intros (_ & AS & AT) O S Er Ei Ec w P f l. assert (NR := origin_nonradial o O). destruct (frame_units o NR) as (U1 & U2 & U3).
  destruct (side_facts o s O S) as (X & Y & Z & N). fold w in X, Y, Z, N. fold P in X, Y, Z, N.
  assert (P1 : 1 <= P) by apply S.
  assert (Rr := row_err _ 9.7e-16 _ _ (g_position s) Er ltac:(lra) ltac:(lra) ltac:(fold P; lra) ltac:(lra)).
  assert (Ri := row_err _ 1e-14 _ _ (g_position s) Ei ltac:(lra) ltac:(lra) ltac:(fold P; lra) ltac:(lra)).
  assert (Rc := row_err _ 8.9e-15 _ _ (g_position s) Ec ltac:(lra) ltac:(lra) ltac:(fold P; lra) ltac:(lra)). fold P in Rr, Ri, Rc.
  change (dot (m3_row1 (frame o)) (g_position s)) with (x3 w) in Rr. change (dot (m3_row2 (frame o)) (g_position s)) with (y3 w) in Ri.
  change (dot (m3_row3 (frame o)) (g_position s)) with (z3 w) in Rc.
  destruct (mag_close (g_position s) ltac:(fold P; lra)) as [M0 M]. fold P in M. set (m := v3_magnitude_b64 (g_position s)) in *.
  destruct (err_divr (8.9e-15 * P) 2.9e-16 _ _ m P P (9.4e-15 * P) Rc) as [_ SE]; [lra|lra|exact M|lra|lra|lra|].
  replace (9.4e-15 * P / P) with 9.4e-15 in SE by (field; lra). set (sf := b64 (v3_dot_b64 c (g_position s) / m)) in *. exists sf.
  assert (ZP : Rabs (z3 w / P) <= 0.8661).
  { apply abs_div_le; lra. }
  assert (ZP' := Rabs_le_inv _ _ ZP). assert (SF : sin f = z3 w / P) by (apply sin_asin; lra).
  assert (FB : - (PI / 2) <= f <= PI / 2) by apply asin_bound. assert (PD := PI_digits).
  assert (CF : 0 <= cos f) by (apply cos_ge_0; lra). assert (SC := sin2_cos2' f). rewrite SF in SC.
  assert (CL : 0.499 <= cos f) by (assert (z3 w / P * (z3 w / P) <= 0.8661 * 0.8661) by (clear - ZP'; nra); clear - SC H CF; nra).
  assert (CU := COS_bound f). unfold err in SE. assert (SE' := Rabs_le_inv _ _ SE).
  split. { apply div_ok. lra. }
  rewrite SF. split; [exact SE|]. split; [reflexivity|]. split; [exact ZP|]. split; [lra|]. split; [apply Rabs_le; lra|].
  assert (LB : Rabs l <= 1.571).
  { unfold l, atan2, nlt. destruct (Rlt_dec 0 (x3 w)); [|lra]. assert (AB := atan_bound (y3 w / x3 w)). apply Rabs_le. lra. }
  split; [exact LB|]. split.
  { unfold pasin_b64, nlt. destruct (Rlt_dec sf (-1)); [lra|]. destruct (Rlt_dec 1 sf); [lra|]. reflexivity. }
  split.
  - unfold err. assert (A := AS sf ltac:(apply Rabs_le; lra)). assert (C := asin_close sf (z3 w / P) ltac:(apply Rabs_le; lra) ltac:(lra)). fold f in C.
    replace (asinf L sf - f) with ((asinf L sf - asin sf) + (asin sf - f)) by ring. eapply Rle_trans; [apply Rabs_triang|]. lra.
  - destruct (atan2_close 9.7e-16 1e-14 _ _ _ _ P ltac:(lra) X Y ltac:(lra) ltac:(lra) Rr Ri) as [X0 AC]. fold l in AC.
    assert (A := AT (v3_dot_b64 i (g_position s)) _ X0). unfold err.
    match goal with |- Rabs (?a - l) <= _ => match type of AC with Rabs (?b - l) <= _ => replace (a - l) with ((a - b) + (b - l)) by ring end end.
    eapply Rle_trans; [apply Rabs_triang|]. lra.
Qed.

Lemma row_vec_err e g d u' u p' p W : verr e u' u -> norm u = 1 -> 0 <= e <= 1e-6 -> verr (g * W) p' p -> norm p = W -> 1e-6 <= W -> 0 <= g <= 1e-6 ->
  (3.5e-16 + e) * 1.001 + g <= d -> err (d * W) (v3_dot_b64 u' p') (dot u p).
Proof.
  intros A U E B N W1 G D. assert (NB := verr_norm _ _ _ B). rewrite N in NB. assert (GW : 0 <= g * W <= 1e-6 * W) by (split; [apply Rmult_le_pos; lra|apply Rmult_le_compat_r; lra]).
  assert (R := row_err e (3.5e-16 + e) _ _ p' A ltac:(lra) E ltac:(lra) ltac:(lra)). unfold err in *.
  replace (v3_dot_b64 u' p' - dot u p) with ((v3_dot_b64 u' p' - dot u p') + dot u (sub p' p)) by (unfold dot, sub; cbn [x3 y3 z3]; ring).
  eapply Rle_trans; [apply Rabs_triang|]. assert (C := cauchy_schwarz_norm u (sub p' p)). apply Rabs_le in C. unfold verr in B. rewrite U in C.
  assert ((3.5e-16 + e) * norm p' <= (3.5e-16 + e) * (1.001 * W)) by (apply Rmult_le_compat_l; lra).
  assert (((3.5e-16 + e) * 1.001 + g) * W <= d * W) by (apply Rmult_le_compat_r; lra). lra.
Qed.

Lemma sez_rows_round f l sf cf sl cl : err 9.4e-15 sf (sin f) -> err 2.2e-14 cf (cos f) -> err 2.6e-14 sl (sin l) -> err 2.6e-14 cl (cos l) ->
  let S' := rsw_sez_matrix_b64 sf cf sl cl in let S := rsw_sez_matrix (sin f) (cos f) (sin l) (cos l) in
  verr 8.6e-14 (m3_row1 S') (m3_row1 S) /\ verr 8.6e-14 (m3_row2 S') (m3_row2 S) /\ verr 8.6e-14 (m3_row3 S') (m3_row3 S).
Proof.
  intros A B C D. assert (K : forall da db a' a b' b, err da a' a -> err db b' b -> Rabs a <= 1 -> Rabs b <= 1 -> 0 <= da <= 1e-6 -> (da + db) * 1.01 + 1.13e-16 <= 4.9e-14 -> err 4.9e-14 (b64 (a' * b')) (a * b)).
  { intros da db a' a b' b EA EB BA BB D0 H. assert (0 <= db) by (eapply Rle_trans; [apply Rabs_pos|exact EB]). assert (da * db <= 1e-6 * db) by (apply Rmult_le_compat_r; lra). apply (err_mulr da db _ _ _ _ 1 1); auto. lra. }
  assert (SF := abs_sin f). assert (CF := abs_cos f). assert (SL := abs_sin l). assert (CL := abs_cos l).
  cbv zeta. unfold verr, rsw_sez_matrix_b64, rsw_sez_matrix. cbn [m3_row1 m3_row2 m3_row3].
  repeat split; (apply Rle_trans with (1.7321 * 4.9e-14); [|lra]); apply norm_parts; try lra; unfold sub; cbn [x3 y3 z3].
  - eapply (K 9.4e-15 2.6e-14); auto; lra.
  - eapply (K 9.4e-15 2.6e-14); auto; lra.
  - apply err_opp in B. unfold err in B. lra.
  - apply err_opp in C. unfold err in C. lra.
  - unfold err in D. lra.
  - rewrite Rminus_eq_0, Rabs_R0. lra.
  - eapply (K 2.2e-14 2.6e-14); auto; lra.
  - eapply (K 2.2e-14 2.6e-14); auto; lra.
  - unfold err in A. lra.
Qed.

Lemma scaled_err d x' x k : 0 < k -> err (d * k) x' x -> err d (x' / k) (x / k).
Proof. intros K H. unfold err in *. replace (x' / k - x / k) with ((x' - x) / k) by (field; lra). apply abs_div_le; auto. Qed.

Lemma to_hcw_round L o s : accurate_angles L -> ordinary_origin o -> same_side o s ->
  exists h' h, gcrf_to_hcw_b64 L o s = Ok h' /\ gcrf_to_hcw o s = Ok h /\ to_hcw_close o s h' h.
Proof.
  intros LA O S. assert (NR := origin_nonradial o O). destruct (frame_units o NR) as (U1 & U2 & U3).
  destruct (frame_round o) as (r & i & c & FE & Er & Ei & Ec); [apply O|apply O|apply O|].
  destruct (sight_round L o s r i c LA O S Er Ei Ec) as (sf & E1 & ES & SF & SB & CB & FB & LB & E2 & EF & EL).
  destruct (side_facts o s O S) as (WX & _ & _ & WN).
  assert (GE := gcrf_to_hcw_ok o s NR). cbv zeta in GE. 
  set (w := apply3 (frame o) (g_position s)) in *. set (P := norm (g_position s)) in *. set (R := norm (g_position o)) in *. 
  set (f := asin (z3 w / P)) in *. set (l := atan2 (y3 w) (x3 w)) in *.
  assert (P1 : 1 <= P <= 1e9) by apply S. assert (R1 : 1 <= R <= 1e9) by apply O. specialize (GE ltac:(left; lra)).
  unfold gcrf_to_hcw_b64. rewrite FE. cbn [bind m3_multiply_vector_b64 m3_row1 m3_row2 m3_row3 x3 y3 z3]. rewrite E1. cbn [bind]. rewrite E2. cbn [bind].
  destruct (mag_close (g_position o) ltac:(fold R; lra)) as [MR0 MR]. fold R in MR. set (mR := v3_magnitude_b64 (g_position o)) in *.
  destruct (mag_close (g_position s) ltac:(fold P; lra)) as [MP0 MP]. fold P in MP. set (mP := v3_magnitude_b64 (g_position s)) in *.
  set (f' := asinf L sf) in *. set (l' := atan2f L (v3_dot_b64 i (g_position s)) (v3_dot_b64 r (g_position s))) in *.
  destruct LA as (TR & _ & _). assert (PD := PI_digits).
  assert (FB' : Rabs f' <= 8) by (eapply Rle_trans; [apply (err_upper _ _ _ 1.571 EF FB)|lra]).
  assert (LB' : Rabs l' <= 8) by (eapply Rle_trans; [apply (err_upper _ _ _ 1.571 EL LB)|lra]).
  destruct (TR f' FB') as [_ CF']. destruct (TR l' LB') as [SL' CL'].
  assert (ECF : err 2.2e-14 (cosf L f') (cos f)).
  { unfold err. replace (cosf L f' - cos f) with ((cosf L f' - cos f') + (cos f' - cos f)) by ring. eapply Rle_trans; [apply Rabs_triang|]. assert (C := cos_lip f' f). unfold err in EF. lra. }
  assert (ECL : err 2.6e-14 (cosf L l') (cos l)).
  { unfold err. replace (cosf L l' - cos l) with ((cosf L l' - cos l') + (cos l' - cos l)) by ring. eapply Rle_trans; [apply Rabs_triang|]. assert (C := cos_lip l' l). unfold err in EL. lra. }
  assert (ESL : err 2.6e-14 (sinf L l') (sin l)).
  { unfold err. replace (sinf L l' - sin l) with ((sinf L l' - sin l') + (sin l' - sin l)) by ring. eapply Rle_trans; [apply Rabs_triang|]. assert (C := sin_lip l' l). unfold err in EL. lra. }
  destruct (sez_rows_round f l sf (cosf L f') (sinf L l') (cosf L l') ES ECF ESL ECL) as (Z1 & Z2 & Z3).
  set (S' := rsw_sez_matrix_b64 sf (cosf L f') (sinf L l') (cosf L l')) in *. set (SZ := rsw_sez_matrix (sin f) (cos f) (sin l) (cos l)) in *.
  destruct (sez_rotation f l) as (ZR1 & ZR2 & ZR3 & _). fold SZ in ZR1, ZR2, ZR3.
  assert (NZ : norm (m3_row1 SZ) = 1 /\ norm (m3_row2 SZ) = 1 /\ norm (m3_row3 SZ) = 1) by (unfold norm; rewrite ZR1, ZR2, ZR3, sqrt_1; auto). destruct NZ as (NZ1 & NZ2 & NZ3).
  (* velocities in the frame *)
  set (V := norm (g_velocity o)). set (W := norm (g_velocity s)). assert (V1 : 1e-6 <= V <= 1e6) by apply O. assert (W1 : 1e-6 <= W <= 1e6) by apply S.
  assert (Tx := row_err _ 9.7e-16 _ _ (g_velocity o) Er ltac:(lra) ltac:(lra) ltac:(fold V; lra) ltac:(lra)).
  assert (Ty := row_err _ 1e-14 _ _ (g_velocity o) Ei ltac:(lra) ltac:(lra) ltac:(fold V; lra) ltac:(lra)). fold V in Tx, Ty.
  set (ut := apply3 (frame o) (g_velocity o)) in *. change (dot (m3_row1 (frame o)) (g_velocity o)) with (x3 ut) in Tx. change (dot (m3_row2 (frame o)) (g_velocity o)) with (y3 ut) in Ty.
  assert (Vx := row_err _ 9.7e-16 _ _ (g_velocity s) Er ltac:(lra) ltac:(lra) ltac:(fold W; lra) ltac:(lra)).
  assert (Vy := row_err _ 1e-14 _ _ (g_velocity s) Ei ltac:(lra) ltac:(lra) ltac:(fold W; lra) ltac:(lra)).
  assert (Vz := row_err _ 8.9e-15 _ _ (g_velocity s) Ec ltac:(lra) ltac:(lra) ltac:(fold W; lra) ltac:(lra)). fold W in Vx, Vy, Vz.
  set (vi' := V3 (v3_dot_b64 r (g_velocity s)) (v3_dot_b64 i (g_velocity s)) (v3_dot_b64 c (g_velocity s))).
  set (vi := apply3 (frame o) (g_velocity s)) in *.
  assert (EV : verr (1.74e-14 * W) vi' vi).
  { unfold verr. apply Rle_trans with (1.7321 * (1e-14 * W)); [|lra]. apply norm_parts; [lra| | |]; unfold sub, vi', vi, apply3; cbn [x3 y3 z3]; unfold err in Vx, Vy, Vz; lra. }
  assert (NV : norm vi = W) by (apply rotation_norm, frame_rotation; auto).
  assert (NU : norm ut = V) by (apply rotation_norm, frame_rotation; auto).
  assert (Qx := row_vec_err 8.6e-14 1.74e-14 1.04e-13 _ _ vi' vi W Z1 NZ1 ltac:(lra) EV NV ltac:(lra) ltac:(lra) ltac:(lra)).
  assert (Qy := row_vec_err 8.6e-14 1.74e-14 1.04e-13 _ _ vi' vi W Z2 NZ2 ltac:(lra) EV NV ltac:(lra) ltac:(lra) ltac:(lra)).
  assert (Qz := row_vec_err 8.6e-14 1.74e-14 1.04e-13 _ _ vi' vi W Z3 NZ3 ltac:(lra) EV NV ltac:(lra) ltac:(lra) ltac:(lra)).
  set (sv := apply3 SZ vi) in *.
  change (dot (m3_row1 SZ) vi) with (x3 sv) in Qx. change (dot (m3_row2 SZ) vi) with (y3 sv) in Qy. change (dot (m3_row3 SZ) vi) with (z3 sv) in Qz.
  assert (NS : norm sv = W) by (unfold sv; rewrite rotation_norm; auto; apply sez_rotation).
  destruct (norm_ge_xyz sv) as (SX & SY & SZB). rewrite NS in SX, SY, SZB. destruct (norm_ge_xyz ut) as (TX & TY & _). rewrite NU in TX, TY.
  set (qx := v3_dot_b64 (m3_row1 S') vi') in *. set (qy := v3_dot_b64 (m3_row2 S') vi') in *. set (qz := v3_dot_b64 (m3_row3 S') vi') in *.
  set (tx := v3_dot_b64 r (g_velocity o)) in *. set (ty := v3_dot_b64 i (g_velocity o)) in *.
  destruct (err_divr (1e-14 * V) 2.9e-16 ty (y3 ut) mR R V (1.05e-14 * V) Ty TY ltac:(lra) MR ltac:(lra) ltac:(lra) ltac:(lra)) as [_ DT].
  rewrite (div_ok ty mR) by lra. cbn [bind]. set (ldt := b64 (ty / mR)) in *.
  destruct (err_divr (1.04e-13 * W) 2.9e-16 (- qx) (- x3 sv) mP P W (1.05e-13 * W) ltac:(apply err_opp; exact Qx) ltac:(rewrite Rabs_Ropp; exact SX) ltac:(lra) MP ltac:(lra) ltac:(lra) ltac:(lra)) as [_ DP].
  change (m3_multiply_vector_b64 (M3 r i c) (g_velocity s)) with vi'. fold qx qy qz.
  rewrite (div_ok (- qx) mP) by lra. cbn [bind]. set (pd := b64 (- qx / mP)) in *.
  (* the radius times the cosine *)
  assert (CFB : Rabs (cos f) <= 1) by apply abs_cos.
  assert (PCp : 0.499 * P <= P * cos f) by (rewrite Rmult_comm; apply Rmult_le_compat_l; lra).
  assert (PC : Rabs (b64 (mP * cosf L f') - P * cos f) <= 4.6e-14 * (P * cos f)).
  { assert (E : err (2.28e-14 * P) (b64 (mP * cosf L f')) (P * cos f)).
    { apply (err_mulr (2.9e-16 * P) 2.2e-14 _ _ _ _ P 1); auto; [rewrite Rabs_pos_eq; lra|lra]. }
    unfold err in E. lra. }
  destruct (err_divr (1.04e-13 * W) 4.6e-14 qy (y3 sv) (b64 (mP * cosf L f')) (P * cos f) W (1.51e-13 * W) Qy SY ltac:(lra) PC ltac:(lra) ltac:(assert (P * cos f <= P * 1) by (apply Rmult_le_compat_l; lra); lra) ltac:(lra)) as [PC0 DL].
  rewrite (div_ok qy _ PC0). cbn [bind]. set (ld := b64 (qy / b64 (mP * cosf L f'))) in *.
  eexists. eexists. split; [reflexivity|]. split; [exact GE|]. unfold to_hcw_close. cbn [s_epoch s_position s_velocity x3 y3 z3]. fold R P V W.
  split; [reflexivity|].
  assert (MR' := Rabs_le_inv _ _ MR). assert (MP' := Rabs_le_inv _ _ MP).
  split. { apply (err_subr (2.9e-16 * P) (2.9e-16 * R) _ _ _ _ (R + P)); auto; [apply Rabs_le; lra|lra]. }
  split. { apply (err_mulr 2.5e-14 (2.9e-16 * R) _ _ _ _ 1.571 R); auto; [rewrite Rabs_pos_eq; lra|lra]. }
  split. { apply (err_mulr 2.1e-14 (2.9e-16 * R) _ _ _ _ 1.571 R); auto; [rewrite Rabs_pos_eq; lra|lra]. }
  split. { apply (err_subr (1.04e-13 * W) (9.7e-16 * V) _ _ _ _ (V + W)); auto; [|lra]. eapply Rle_trans; [apply Rabs_triang|]. rewrite Rabs_Ropp. lra. }
  (* in-track and cross-track rates *)
  assert (RP : 1e-9 <= R / P) by (apply Rmult_le_reg_r with P; [lra|]; rewrite div_mul; lra).
  assert (WP : 1e-15 <= W / P) by (apply Rmult_le_reg_r with P; [lra|]; rewrite div_mul; lra).
  assert (VR : 1e-15 <= V / R) by (apply Rmult_le_reg_r with R; [lra|]; rewrite div_mul; lra).
  assert (EW : W / P * R = W * (R / P)) by (field; lra). assert (EVR : V / R * R = V) by (field; lra).
  assert (WRP : 1e-15 <= W * (R / P)) by nra.
  split.
  - assert (B1 : Rabs (y3 sv / (P * cos f)) <= 2.01 * (W / P)).
    { replace (y3 sv / (P * cos f)) with (y3 sv / cos f / P) by (field; lra). apply abs_div_le; [lra|]. replace (2.01 * (W / P) * P) with (2.01 * W) by (field; lra).
      apply abs_div_le; [lra|]. assert (2.01 * W * 0.499 <= 2.01 * W * cos f) by (apply Rmult_le_compat_l; lra). lra. }
    assert (B2 : Rabs (y3 ut / R) <= V / R) by (apply abs_div_le; [lra|]; rewrite div_mul; lra).
    assert (D1 : err (3.03e-13 * (W / P)) ld (y3 sv / (P * cos f))).
    { eapply err_weaken; [exact DL|]. apply Rmult_le_reg_r with (P * cos f); [lra|]. rewrite div_mul by lra.
      replace (3.03e-13 * (W / P) * (P * cos f)) with (3.03e-13 * W * cos f) by (field; lra).
      assert (3.03e-13 * W * 0.499 <= 3.03e-13 * W * cos f) by (apply Rmult_le_compat_l; lra). lra. }
    assert (D2 : err (1.05e-14 * (V / R)) ldt (y3 ut / R)) by (eapply err_weaken; [exact DT|]; unfold Rdiv at 1; lra).
    assert (D3 : err (3.1e-13 * (W / P) + 1.1e-14 * (V / R)) (b64 (ld - ldt)) (y3 sv / (P * cos f) - y3 ut / R)).
    { apply (err_subr _ _ _ _ _ _ (2.01 * (W / P) + V / R) _ D1 D2); [|lra]. eapply Rle_trans; [apply Rabs_triang|]. rewrite Rabs_Ropp. lra. }
    set (X := 2.01 * (W / P) + V / R). set (DX := 3.1e-13 * (W / P) + 1.1e-14 * (V / R)) in *.
    assert (XB : Rabs (y3 sv / (P * cos f) - y3 ut / R) <= X) by (unfold X; eapply Rle_trans; [apply Rabs_triang|]; rewrite Rabs_Ropp; lra).
    apply (err_mulr (2.9e-16 * R) DX _ _ _ _ R X); auto; [rewrite Rabs_pos_eq; lra|].
    assert (XR : X * R = 2.01 * (W * (R / P)) + V) by (transitivity (2.01 * (W / P * R) + V / R * R); [unfold X; ring|rewrite EW, EVR; reflexivity]).
    assert (DR : DX * R = 3.1e-13 * (W * (R / P)) + 1.1e-14 * V) by (transitivity (3.1e-13 * (W / P * R) + 1.1e-14 * (V / R * R)); [unfold DX; ring|rewrite EW, EVR; reflexivity]).
    replace (2.9e-16 * R * X + (R + 2.9e-16 * R) * DX) with (2.9e-16 * (X * R) + (1 + 2.9e-16) * (DX * R)) by ring. rewrite (Rmult_comm R X), XR, DR. lra.
  - assert (B1 : Rabs (- x3 sv / P) <= W / P) by (apply abs_div_le; [lra|]; rewrite div_mul, Rabs_Ropp; lra).
    assert (D2 : err (1.05e-13 * (W / P)) pd (- x3 sv / P)) by (eapply err_weaken; [exact DP|]; unfold Rdiv at 1; lra).
    apply (err_mulr (2.9e-16 * R) (1.05e-13 * (W / P)) _ _ _ _ R (W / P)); auto; [rewrite Rabs_pos_eq; lra|].
    replace (2.9e-16 * R * (W / P) + (R + 2.9e-16 * R) * (1.05e-13 * (W / P))) with ((2.9e-16 + (1 + 2.9e-16) * 1.05e-13) * (W / P * R)) by ring. rewrite (Rmult_comm R (W / P)), EW. lra.
Qed.
