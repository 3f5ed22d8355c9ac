(** The estimation error of the relative filter, and motion in Hill's frame. *)
From Coq Require Import Reals Lra Lia List.
From Coquelicot Require Import Coquelicot.
From Verif.Model Require Import Num Constants Linalg Functions Time Celestial Positions States Relative Obs Filtering.
From Verif.Spec Require Import Geometry Hill Covariance Tracking.
From Verif.Proofs Require Import NumLemmas LinalgProofs MatrixProofs StatesProofs RelativeProofs FilteringProofs.
Local Open Scope R_scope.

Lemma cauchy2 a b A B C D : 0 <= A -> 0 <= B -> 0 <= C -> 0 <= D -> a ^ 2 <= C * A -> b ^ 2 <= D * B ->
  (a + b) ^ 2 <= (C + D) * (A + B).
Proof.
  intros HA HB HC HD Ha Hb.
  assert (K : 2 * (a * b) <= C * B + D * A).
  { assert (P : 0 <= C * B) by (apply Rmult_le_pos; auto). assert (Q : 0 <= D * A) by (apply Rmult_le_pos; auto).
    assert (S : (a * b) ^ 2 <= (C * B) * (D * A)).
    { replace ((a * b) ^ 2) with (a ^ 2 * b ^ 2) by ring. replace (C * B * (D * A)) with (C * A * (D * B)) by ring.
      apply Rmult_le_compat; auto; apply pow2_ge_0. }
    destruct (Rle_dec (2 * (a * b)) (C * B + D * A)); auto. exfalso.
    assert (0 < a * b) by lra. assert (((C * B + D * A)) ^ 2 < (2 * (a * b)) ^ 2) by nra.
    assert (0 <= (C * B - D * A) ^ 2) by apply pow2_ge_0. nra. }
  nra.
Qed.
Lemma three q0 q1 q2 v0 v1 v2 e0 e1 e2 s : 0 <= s -> Rabs v0 <= s * Rabs e0 -> Rabs v1 <= s * Rabs e1 -> Rabs v2 <= s * Rabs e2 ->
  (q0 * v0 + q1 * v1 + q2 * v2) ^ 2 <= 3 * s ^ 2 * (q0 * q0 * (e0 * e0) + q1 * q1 * (e1 * e1) + q2 * q2 * (e2 * e2)).
Proof.
  intros Hs.
  assert (K : forall v e, Rabs v <= s * Rabs e -> v ^ 2 <= s ^ 2 * (e * e)).
  { intros v e H. rewrite <- (pow2_abs v). replace (e * e) with (e ^ 2) by ring. rewrite <- (pow2_abs e). rewrite <- Rpow_mult_distr. apply pow_incr. split; [apply Rabs_pos|auto]. }
  intros H0 H1 H2. apply K in H0. apply K in H1. apply K in H2.
  assert (T : (q0 * v0 + q1 * v1 + q2 * v2) ^ 2 <= 3 * (q0 ^ 2 * v0 ^ 2 + q1 ^ 2 * v1 ^ 2 + q2 ^ 2 * v2 ^ 2)).
  { assert (0 <= (q0 * v0 - q1 * v1) ^ 2 + (q1 * v1 - q2 * v2) ^ 2 + (q0 * v0 - q2 * v2) ^ 2).
    { assert (A := pow2_ge_0 (q0 * v0 - q1 * v1)). assert (B := pow2_ge_0 (q1 * v1 - q2 * v2)). assert (C := pow2_ge_0 (q0 * v0 - q2 * v2)). lra. }
    lra. }
  assert (M : forall q v e, v ^ 2 <= s ^ 2 * (e * e) -> q ^ 2 * v ^ 2 <= q ^ 2 * (s ^ 2 * (e * e))) by (intros; apply Rmult_le_compat_l; auto; apply pow2_ge_0).
  assert (A := M q0 _ _ H0). assert (B := M q1 _ _ H1). assert (C := M q2 _ _ H2). lra.
Qed.

Lemma cw_motion n c t : n <> 0 -> clohessy_wiltshire n c -> c t = motion n (c 0) t.
Proof. intros N H. apply (cw_unique n); auto; [apply motion_cw; auto|rewrite motion_zero; auto]. Qed.
Lemma cw_carry n c a b : n <> 0 -> clohessy_wiltshire n c -> c (a + b) = motion n (c a) b.
Proof. intros N H. rewrite (cw_motion n c (a + b)), (cw_motion n c a), motion_plus by auto. reflexivity. Qed.

Lemma predicted_quad f p q v : quad 6 (ent66 (predicted_covariance f p q)) v =
  quad 6 (ent66 p) (fun j => sum 6 (fun i => ent66 f i j * v i)) + quad 6 (ent66 q) v.
Proof.
  rewrite (quad_ext 6 _ (fun i j => sandwich 6 (ent66 f) (ent66 p) i j + ent66 q i j) v v) by (intros; auto using ent_predicted).
  rewrite quad_plus, quad_sandwich. reflexivity.
Qed.
Lemma predicted_within f p q x y c : 0 <= c -> semidefinite 6 (ent66 q) -> within c p x y ->
  within c (predicted_covariance f p q) (m66_multiply_vector f x) (m66_multiply_vector f y).
Proof.
  intros Hc Q W w. rewrite predicted_quad.
  replace (sum 6 (fun i => w i * (ent6v (m66_multiply_vector f x) i - ent6v (m66_multiply_vector f y) i)))
    with (sum 6 (fun j => sum 6 (fun i => ent66 f i j * w i) * (ent6v x j - ent6v y j))).
  - apply Rle_trans with (c * quad 6 (ent66 p) (fun j => sum 6 (fun i => ent66 f i j * w i))).
    + apply (W (fun j => sum 6 (fun i => ent66 f i j * w i))).
    + assert (0 <= c * quad 6 (ent66 q) w) by (apply Rmult_le_pos; auto; apply Q). lra.
  - transitivity (sum 6 (fun j => sum 6 (fun i => ent66 f i j * w i * (ent6v x j - ent6v y j)))).
    { apply sum_ext; intros. apply sum_scal_r. }
    rewrite sum_swap. apply sum_ext; intros i Hi. rewrite !ent_m66_multiply_vector by auto.
    replace (sum 6 (fun k => ent66 f i k * ent6v x k) - sum 6 (fun k => ent66 f i k * ent6v y k))
      with (sum 6 (fun k => ent66 f i k * (ent6v x k - ent6v y k))) by (cbn [sum]; ring).
    rewrite sum_scal_l. apply sum_ext; intros. ring.
Qed.
Lemma residual x g z i : (i < 6)%nat -> ent6v (updated_state x g z) i = ent6v x i + sum 3 (fun j => ent63 g i j * (ent3v z j - ent6v x j)).
Proof.
  intros Hi. unfold updated_state. rewrite ent_v6_plus, ent_m63_multiply_vector by auto. f_equal. apply sum_ext; intros j Hj.
  apply Rmult_eq_compat_l. rewrite <- (sum_delta 6 j (fun m => ent6v x m)) by lia. replace (ent3v (v3_minus z (m36_multiply_vector KH x)) j) with (ent3v z j - ent3v (m36_multiply_vector KH x) j) by (destruct j as [|[|[|j]]]; try lia; reflexivity). rewrite ent_m36_multiply_vector by auto. f_equal.
  apply sum_ext; intros; rewrite ent_KH by auto; reflexivity.
Qed.
Lemma noise_quad he q : quad 3 (ent33 (measurement_noise he)) q =
  q 0%nat * q 0%nat * (ent3v he 0 * ent3v he 0) + q 1%nat * q 1%nat * (ent3v he 1 * ent3v he 1) + q 2%nat * q 2%nat * (ent3v he 2 * ent3v he 2).
Proof. unfold quad, measurement_noise. cbn. ring. Qed.
Lemma updated_within p g he x y z c s : 0 <= c -> 0 <= s -> semidefinite 6 (ent66 p) -> within c p x y ->
  (forall j, (j < 3)%nat -> Rabs (ent3v z j - ent6v y j) <= s * Rabs (ent3v he j)) ->
  within (c + 3 * s ^ 2) (updated_covariance p g (measurement_noise he)) (updated_state x g z) y.
Proof.
  intros Hc Hs P W Z w. rewrite updated_variance. unfold variance.
  set (u := fun i => w i - (if Nat.ltb i 3 then sum 6 (fun k => ent63 g k i * w k) else 0)).
  set (q := fun j => sum 6 (fun k => ent63 g k j * w k)).
  replace (sum 6 (fun i => w i * (ent6v (updated_state x g z) i - ent6v y i)))
    with (sum 6 (fun i => u i * (ent6v x i - ent6v y i)) + (q 0%nat * (ent3v z 0 - ent6v y 0) + q 1%nat * (ent3v z 1 - ent6v y 1) + q 2%nat * (ent3v z 2 - ent6v y 2))).
  - apply cauchy2; auto.
    + rewrite noise_quad. assert (forall a b, 0 <= a * a * (b * b)) by (intros; apply Rmult_le_pos; apply Rle_0_sqr).
      assert (A := H (q 0%nat) (ent3v he 0)). assert (B := H (q 1%nat) (ent3v he 1)). assert (C := H (q 2%nat) (ent3v he 2)). lra.
    + assert (0 <= s ^ 2) by apply pow2_ge_0. lra.
    + rewrite noise_quad. apply three; auto.
  - rewrite (sum_ext 6 (fun i => w i * (ent6v (updated_state x g z) i - ent6v y i))
      (fun i => w i * (ent6v x i + sum 3 (fun j => ent63 g i j * (ent3v z j - ent6v x j)) - ent6v y i))) by (intros; rewrite residual by auto; reflexivity).
    unfold u, q. cbn [sum Nat.ltb Nat.leb]. ring.
Qed.

Lemma step_within k ob k' (cc : R -> vec6) t c s e : good k -> clohessy_wiltshire (hl_n (k_propagator k)) cc ->
  0 <= c -> 0 <= s -> t = seconds_between e (k_epoch k) -> sighted s e cc ob -> accepted k ob k' ->
  within c (k_p00 k) (k_x00 k) (cc t) -> within (c + 3 * s ^ 2) (k_p00 k') (k_x00 k') (cc (seconds_between e (k_epoch k'))).
Proof.
  intros G Hcc Hc Hs Et (_ & hz & he & Z & E & S) (hz' & he' & f & g & p & Z' & _ & E' & F & Ep & Gk & ->) W.
  rewrite Z in Z'. injection Z' as <-. rewrite E in E'. injection E' as <-.
  destruct (prediction_good k f G) as [PD PS]. assert (NZ : hl_n (k_propagator k) <> 0) by apply G.
  assert (Q : k_q k = DEFAULT_NOISE) by apply G. assert (GP : semidefinite 6 (ent66 (k_p00 k))) by apply G.
  cbn [k_p00 k_x00 k_epoch].
  assert (X : cc (seconds_between e (so_epoch ob)) = m66_multiply_vector f (cc t)).
  { rewrite (matrix_motion _ _ _ NZ F). rewrite <- cw_carry by auto. f_equal. rewrite Et. unfold seconds_between. ring. }
  rewrite X in *.
  assert (NS : semidefinite 6 (ent66 (k_q k))).
  { rewrite Q. intros v. rewrite (quad_ext 6 _ _ v v ent_default_noise) by auto. rewrite (quad_diagonal 6 (fun _ => 1e-16)).
    apply sum_nonneg; intros. apply Rmult_le_pos; [lra|apply Rle_0_sqr]. }
  apply updated_within; auto.
  - rewrite Ep. intros v. rewrite predicted_quad. assert (A := GP (fun j => sum 6 (fun i => ent66 f i j * v i))). assert (B := NS v). lra.
  - rewrite Ep. apply predicted_within; auto.
Qed.
Lemma history_within l : forall k cc c s e, good k -> clohessy_wiltshire (hl_n (k_propagator k)) cc -> 0 <= c -> 0 <= s ->
  (forall ob, In ob l -> sighted s e cc ob) -> within c (k_p00 k) (k_x00 k) (cc (seconds_between e (k_epoch k))) ->
  let k' := observe_all l k in
  within (c + 3 * s ^ 2 * INR (length l)) (k_p00 k') (k_x00 k') (cc (seconds_between e (k_epoch k'))).
Proof.
  induction l as [|ob l IH]; intros k cc c s e G Hcc Hc Hs A W.
  - cbn [length INR observe_all fold_left]. rewrite Rmult_0_r, Rplus_0_r. exact W.
  - change (observe_all (ob :: l) k) with (observe_all l (fst (kalman_process k ob))). cbn [length]. rewrite S_INR.
    destruct (process_cases k ob G) as [(O & k1 & E1 & Ac)|(O & _)].
    2:{ exfalso. apply O. apply (A ob). left; auto. }
    rewrite E1. cbn [fst].
    assert (G1 := accepted_good k ob k1 G Ac).
    assert (N1 : hl_n (k_propagator k1) = hl_n (k_propagator k)) by (rewrite <- (process_rate k ob G), E1; reflexivity).
    replace (c + 3 * s ^ 2 * (INR (length l) + 1)) with ((c + 3 * s ^ 2) + 3 * s ^ 2 * INR (length l)) by ring.
    assert (P2 := pow2_ge_0 s).
    apply IH; auto.
    + rewrite N1. exact Hcc.
    + lra.
    + intros ob' I. apply A. right; auto.
    + apply (step_within k ob k1 cc _ c s e G Hcc Hc Hs eq_refl); auto. apply A. left; auto.
Qed.

(** single coordinates *)
Lemma quad_unit n m i : (i < n)%nat -> quad n m (delta i) = m i i.
Proof.
  intros Hi. unfold quad. rewrite (sum_ext n _ (fun a => delta i a * m a i)).
  - apply (sum_delta n i (fun a => m a i)); auto.
  - intros a Ha. rewrite <- (sum_delta n i (fun j => delta i a * m a j)) by auto. apply sum_ext; intros. ring.
Qed.
Lemma within_coordinate c p x y i : within c p x y -> (i < 6)%nat -> (ent6v x i - ent6v y i) ^ 2 <= c * ent66 p i i.
Proof. intros W Hi. assert (H := W (delta i)). rewrite sum_delta, quad_unit in H by auto. exact H. Qed.
Lemma six (a0 a1 a2 a3 a4 a5 : R) : (a0 + a1 + a2 + a3 + a4 + a5) ^ 2 <= 6 * (a0 ^ 2 + a1 ^ 2 + a2 ^ 2 + a3 ^ 2 + a4 ^ 2 + a5 ^ 2).
Proof.
  assert (H : forall a b : R, 0 <= (a - b) ^ 2) by (intros; apply pow2_ge_0).
  assert (A := H a0 a1). assert (B := H a0 a2). assert (C := H a0 a3). assert (D := H a0 a4). assert (E := H a0 a5).
  assert (F := H a1 a2). assert (G := H a1 a3). assert (I := H a1 a4). assert (J := H a1 a5). assert (K := H a2 a3).
  assert (L := H a2 a4). assert (M := H a2 a5). assert (N := H a3 a4). assert (O := H a3 a5). assert (P := H a4 a5). lra.
Qed.
Lemma seed_within x y m : (forall i, (i < 6)%nat -> (ent6v x i - ent6v y i) ^ 2 <= m ^ 2 * ent66 DEFAULT_COVARIANCE i i) ->
  within (6 * m ^ 2) DEFAULT_COVARIANCE x y.
Proof.
  intros H w.
  rewrite (quad_ext 6 _ _ w w ent_default_covariance), quad_diagonal by auto.
  set (d := fun i => ent6v x i - ent6v y i) in *. cbn [sum]. fold (d 0%nat) (d 1%nat) (d 2%nat) (d 3%nat) (d 4%nat) (d 5%nat).
  assert (S := six (w 0%nat * d 0%nat) (w 1%nat * d 1%nat) (w 2%nat * d 2%nat) (w 3%nat * d 3%nat) (w 4%nat * d 4%nat) (w 5%nat * d 5%nat)).
  rewrite Rplus_0_l. eapply Rle_trans; [exact S|].
  assert (K : forall i, (i < 6)%nat -> (w i * d i) ^ 2 <= m ^ 2 * (ent66 DEFAULT_COVARIANCE i i * (w i * w i))).
  { intros i Hi. assert (B := H i Hi). assert (0 <= w i ^ 2) by apply pow2_ge_0. rewrite Rpow_mult_distr.
    apply Rle_trans with (w i ^ 2 * (m ^ 2 * ent66 DEFAULT_COVARIANCE i i)); [apply Rmult_le_compat_l; auto|apply Req_le; ring]. }
  assert (K0 := K 0%nat ltac:(lia)). assert (K1 := K 1%nat ltac:(lia)). assert (K2 := K 2%nat ltac:(lia)).
  assert (K3 := K 3%nat ltac:(lia)). assert (K4 := K 4%nat ltac:(lia)). assert (K5 := K 5%nat ltac:(lia)).
  rewrite !ent_default_covariance in * by lia. cbn in *. lra.
Qed.

(** * An observation leaves at most its own uncertainty *)
Definition position_gain : mat63 := M63 (V3 1 0 0) (V3 0 1 0) (V3 0 0 1) (V3 0 0 0) (V3 0 0 0) (V3 0 0 0).
Lemma position_gain_variance p r v : v 3%nat = 0 -> v 4%nat = 0 -> v 5%nat = 0 -> variance p r position_gain v = quad 3 (ent33 r) v.
Proof. intros A B C. unfold variance, quad. cbn. rewrite A, B, C. ring. Qed.

(** * Looking ahead *)
Definition with_state (k : kalman) (s : state) : kalman :=
  mkKalman (k_epoch k) (set_hl_state (k_propagator k) s) (k_x00 k) (k_x10 k) (k_p00 k) (k_p10 k) (k_q k) (k_f k)
    (k_k k) (k_z k) (k_range_error k) (k_angular_error k) (k_r k).
Lemma process_with_state k s ob : exists s', kalman_process (with_state k s) ob =
  (with_state (fst (kalman_process k ob)) s', snd (kalman_process k ob)) /\
  (snd (kalman_process k ob) = Ok tt -> kalman_process (with_state k s) ob = kalman_process k ob).
Proof.
  unfold kalman_process. cbv zeta.
  cbn [with_state set_k_epoch k_epoch k_propagator k_x00 k_x10 k_p00 k_p10 k_q k_f k_k k_z k_range_error k_angular_error k_r].
  destruct (gcrf_to_hcw _ (GCRF _ (v3_plus _ (so_observed_direction ob)) _)) as [hz|x].
  2:{ exists s. split; [reflexivity|discriminate]. }
  cbn [set_k_epoch set_k_z k_epoch k_propagator k_x00 k_x10 k_p00 k_p10 k_q k_f k_k k_z k_range_error k_angular_error k_r].
  destruct (gcrf_to_hcw _ (GCRF _ (v3_plus _ (observation_errors ob)) _)) as [he|x].
  2:{ exists s. split; [reflexivity|discriminate]. }
  cbn [set_k_epoch set_k_z set_k_r set_k_errors k_epoch k_propagator k_x00 k_x10 k_p00 k_p10 k_q k_f k_k k_z k_range_error k_angular_error k_r].
  change (system_matrix (k_propagator (with_state k s))) with (system_matrix (k_propagator k)).
  change (k_x00 (with_state k s)) with (k_x00 k).
  destruct (system_matrix (k_propagator k) _) as [f|x].
  2:{ exists s. split; [reflexivity|discriminate]. }
  cbn [set_k_epoch set_k_z set_k_r set_k_errors set_k_predicted set_k_p10 k_epoch k_propagator k_x00 k_x10 k_p00 k_p10 k_q k_f k_k k_z k_range_error k_angular_error k_r].
  destruct (kalman_gain _ _) as [g|x].
  2:{ exists s. split; [reflexivity|discriminate]. }
  exists (HCW_from_state_vector (updated_state (m66_multiply_vector f (k_x00 k)) g (s_position hz))). split; [reflexivity|intros _; reflexivity].
Qed.
Lemma with_own k : with_state k (hl_state (k_propagator k)) = k.
Proof. destruct k as [e [s a n st] x x1 p p1 q f g z re ae r]. reflexivity. Qed.
Lemma with_twice k s s' : with_state (with_state k s) s' = with_state k s'.
Proof. reflexivity. Qed.
Lemma used_with_state l : forall k s, exists s', used_all l (with_state k s) = with_state (observe_all (observations l) k) s'.
Proof.
  induction l as [|[ob|t] l IH]; intros k s.
  - exists s. reflexivity.
  - destruct (process_with_state k s ob) as (s1 & E & _). destruct (IH (fst (kalman_process k ob)) s1) as (s2 & E2).
    exists s2. change (used_all (Observed ob :: l) (with_state k s)) with (used_all l (fst (kalman_process (with_state k s) ob))).
    rewrite E. cbn [fst]. rewrite E2. reflexivity.
  - change (used_all (Looked t :: l) (with_state k s)) with (used_all l (used (with_state k s) (Looked t))). cbn [observations used].
    destruct (hill_step_by_seconds (k_propagator (with_state k s)) t) as [h|x] eqn:Eh.
    + assert (Q : exists s1, h = set_hl_state (k_propagator k) s1).
      { unfold hill_step_by_seconds in Eh. destruct (system_matrix _ _); [|discriminate]. cbn [bind] in Eh. injection Eh as <-. eexists. reflexivity. }
      destruct Q as (s1 & ->). destruct (IH k s1) as (s2 & E2). exists s2. rewrite <- E2. reflexivity.
    + apply IH.
Qed.
Lemma look_ahead l k : exists s, used_all l k = with_state (observe_all (observations l) k) s.
Proof. destruct (used_with_state l k (hl_state (k_propagator k))) as (s & E). rewrite with_own in E. exists s. exact E. Qed.
Lemma look_ahead_reset l k ob : snd (kalman_process (observe_all (observations l) k) ob) = Ok tt ->
  used_all (l ++ Observed ob :: nil) k = observe_all (observations l ++ ob :: nil) k.
Proof.
  intros O. unfold used_all, observe_all. rewrite !fold_left_app. cbn [fold_left used].
  destruct (look_ahead l k) as (s & E). unfold used_all, observe_all in *. rewrite E.
  destruct (process_with_state (fold_left (fun k ob => fst (kalman_process k ob)) (observations l) k) s ob) as (_ & _ & R). rewrite R; auto.
Qed.

(** * Shape of relative motion *)
Lemma norm_ge_y (a : vec3) : Rabs (y3 a) <= norm a.
Proof.
  unfold norm. rewrite <- sqrt_Rsqr_abs. apply sqrt_le_1_alt. unfold dot, Rsqr. assert (A := Rle_0_sqr (x3 a)). assert (B := Rle_0_sqr (z3 a)). unfold Rsqr in *. lra.
Qed.
Lemma norm_sum3 (a : vec3) : norm a <= Rabs (x3 a) + Rabs (y3 a) + Rabs (z3 a).
Proof.
  assert (X := Rabs_pos (x3 a)). assert (Y := Rabs_pos (y3 a)). assert (Z := Rabs_pos (z3 a)).
  unfold norm. rewrite <- (sqrt_pow2 (Rabs (x3 a) + Rabs (y3 a) + Rabs (z3 a))) by lra. apply sqrt_le_1_alt. unfold dot.
  assert (A := pow2_abs (x3 a)). assert (B := pow2_abs (y3 a)). assert (C := pow2_abs (z3 a)). nra.
Qed.
Lemma whole_turns n N : n <> 0 -> sin (n * (2 * PI * INR N / n)) = 0 /\ cos (n * (2 * PI * INR N / n)) = 1.
Proof.
  intros H. replace (n * (2 * PI * INR N / n)) with (0 + 2 * INR N * PI) by (field; auto).
  rewrite sin_period, cos_period, sin_0, cos_0. auto.
Qed.
Lemma orbits h h' N : hl_n h <> 0 -> hill_step_by_seconds h (2 * PI * INR N / hl_n h) = Ok h' ->
  let v := state_vector (hl_state h) in let v' := state_vector (hl_state h') in
  x6 v' = x6 v /\ z6 v' = z6 v /\ vx6 v' = vx6 v /\ vy6 v' = vy6 v /\ vz6 v' = vz6 v /\
  y6 v' = y6 v - 6 * PI * INR N * (2 * x6 v + vy6 v / hl_n h).
Proof.
  intros H E v v'. rewrite step_ok in E by auto. injection E as <-. unfold v'. cbn [set_hl_state hl_state]. rewrite hcw_vector. fold v.
  unfold motion. cbv zeta. destruct (whole_turns (hl_n h) N H) as [-> ->]. cbn [x6 y6 z6 vx6 vy6 vz6]. repeat split; field; auto.
Qed.
Lemma invariants h t h' : hl_n h <> 0 -> hill_step_by_seconds h t = Ok h' ->
  let n := hl_n h in let v := state_vector (hl_state h) in let v' := state_vector (hl_state h') in
  2 * x6 v' + vy6 v' / n = 2 * x6 v + vy6 v / n /\
  (3 * x6 v' + 2 * vy6 v' / n) ^ 2 + (vx6 v' / n) ^ 2 = (3 * x6 v + 2 * vy6 v / n) ^ 2 + (vx6 v / n) ^ 2 /\
  z6 v' ^ 2 + (vz6 v' / n) ^ 2 = z6 v ^ 2 + (vz6 v / n) ^ 2 /\
  y6 v' - 2 * vx6 v' / n = y6 v - 2 * vx6 v / n - 3 * n * t * (2 * x6 v + vy6 v / n).
Proof.
  intros H E n v v'. rewrite step_ok in E by auto. injection E as <-. unfold v'. cbn [set_hl_state hl_state]. rewrite hcw_vector. fold v n.
  unfold motion. cbv zeta. assert (SC := sin2_cos2 (n * t)). unfold Rsqr in SC. set (S := sin (n * t)) in *. set (C := cos (n * t)) in *.
  cbn [x6 y6 z6 vx6 vy6 vz6]. fold n in H.
  split; [field; auto|]. split; [|split].
  - set (a := x6 v). set (b := vx6 v). set (c := vy6 v).
    match goal with |- ?l = _ => replace l with ((S * S + C * C) * ((3 * a + 2 * c / n) ^ 2 + (b / n) ^ 2)) by (field; auto) end. rewrite SC. ring.
  - set (a := z6 v). set (b := vz6 v).
    match goal with |- ?l = _ => replace l with ((S * S + C * C) * (a ^ 2 + (b / n) ^ 2)) by (field; auto) end. rewrite SC. ring.
  - field; auto.
Qed.
Lemma INR_unbounded x : exists N, x < INR N.
Proof.
  exists (Z.to_nat (Z.max 0 (up x))). rewrite INR_IZR_INZ, Z2Nat.id by lia. destruct (archimed x) as [A _].
  apply Rlt_le_trans with (IZR (up x)); [lra|apply IZR_le; lia].
Qed.
Lemma bounded_iff h : 0 < hl_n h ->
  ((exists B, forall t h', hill_step_by_seconds h t = Ok h' -> norm (s_position (hl_state h')) <= B) <->
   vy6 (state_vector (hl_state h)) = - 2 * hl_n h * x6 (state_vector (hl_state h))).
Proof.
  intros H. set (v := state_vector (hl_state h)). set (n := hl_n h) in *. split.
  - intros (B & HB). destruct (Req_dec (2 * x6 v + vy6 v / n) 0) as [Z|Z].
    { apply (Rmult_eq_reg_r (/ n)); [|apply Rinv_neq_0_compat; lra]. replace (-2 * n * x6 v * / n) with (- 2 * x6 v) by (field; lra). unfold Rdiv in Z. lra. }
    exfalso. set (d := Rabs (6 * PI * (2 * x6 v + vy6 v / n))).
    assert (P := PI_RGT_0). assert (D : 0 < d) by (unfold d; apply Rabs_pos_lt; apply Rmult_integral_contrapositive_currified; lra).
    destruct (INR_unbounded ((B + Rabs (y6 v) + 1) / d)) as (N & HN).
    assert (X := step_ok h (2 * PI * INR N / n) ltac:(fold n; lra)). set (h' := set_hl_state _ _) in X.
    assert (L := HB _ _ X). destruct (orbits h h' N ltac:(fold n; lra) X) as (_ & _ & _ & _ & _ & Y). fold v n in Y.
    assert (C : Rabs (y6 (state_vector (hl_state h'))) <= norm (s_position (hl_state h'))) by (unfold state_vector; cbn; apply (norm_ge_y (s_position (hl_state h')))).
    rewrite Y in C.
    assert (M : d * INR N - Rabs (y6 v) <= Rabs (y6 v - 6 * PI * INR N * (2 * x6 v + vy6 v / n))).
    { replace (d * INR N) with (Rabs (6 * PI * INR N * (2 * x6 v + vy6 v / n))).
      - rewrite (Rabs_minus_sym (y6 v)). apply Rabs_triang_inv.
      - unfold d. rewrite <- (Rabs_pos_eq (INR N)) by apply pos_INR. rewrite <- Rabs_mult. f_equal. rewrite Rabs_pos_eq by apply pos_INR. ring. }
    assert (Q : (B + Rabs (y6 v) + 1) / d * d < INR N * d) by (apply Rmult_lt_compat_r; auto).
    replace ((B + Rabs (y6 v) + 1) / d * d) with (B + Rabs (y6 v) + 1) in Q by (field; lra). lra.
  - intros V. exists (Rabs (x6 v) + Rabs (vx6 v / n) + (Rabs (y6 v - 2 * vx6 v / n) + 2 * (Rabs (vx6 v / n) + Rabs (x6 v))) + (Rabs (z6 v) + Rabs (vz6 v / n))).
    intros t h' E. rewrite step_ok in E by (fold n; lra). injection E as <-. cbn [set_hl_state hl_state HCW_from_state_vector s_position].
    fold v n.
    assert (T : forall a b, Rabs a <= 1 -> Rabs (a * b) <= Rabs b).
    { intros a b Ha. rewrite Rabs_mult. rewrite <- (Rmult_1_l (Rabs b)) at 2. apply Rmult_le_compat_r; auto. apply Rabs_pos. }
    assert (S := SIN_bound (n * t)). assert (C := COS_bound (n * t)).
    assert (S' : Rabs (sin (n * t)) <= 1) by (apply Rabs_le; lra). assert (C' : Rabs (cos (n * t)) <= 1) by (apply Rabs_le; lra).
    unfold motion. cbv zeta. cbn [x6 y6 z6 vx6 vy6 vz6].
    eapply Rle_trans; [apply norm_sum3|]. cbn [x3 y3 z3].
    repeat apply Rplus_le_compat.
    + replace ((4 - 3 * cos (n * t)) * x6 v + sin (n * t) / n * vx6 v + 2 * (1 - cos (n * t)) / n * vy6 v)
        with (cos (n * t) * x6 v + sin (n * t) * (vx6 v / n)) by (rewrite V; field; lra).
      eapply Rle_trans; [apply Rabs_triang|]. apply Rplus_le_compat; apply T; auto.
    + match goal with |- Rabs ?l <= _ => replace l with ((y6 v - 2 * vx6 v / n) + 2 * (cos (n * t) * (vx6 v / n) + - (sin (n * t) * x6 v))) by (rewrite V; field; lra) end.
      eapply Rle_trans; [apply Rabs_triang|]. apply Rplus_le_compat_l. rewrite Rabs_mult, (Rabs_pos_eq 2) by lra. apply Rmult_le_compat_l; [lra|].
      eapply Rle_trans; [apply Rabs_triang|]. rewrite Rabs_Ropp. apply Rplus_le_compat; apply T; auto.
    + match goal with |- Rabs ?l <= _ => replace l with (cos (n * t) * z6 v + sin (n * t) * (vz6 v / n)) by (field; lra) end.
      eapply Rle_trans; [apply Rabs_triang|]. apply Rplus_le_compat; apply T; auto.
Qed.
Lemma ellipse h t h' : hl_n h <> 0 -> hill_step_by_seconds h t = Ok h' ->
  let n := hl_n h in let v := state_vector (hl_state h) in let v' := state_vector (hl_state h') in
  vy6 v = - 2 * n * x6 v -> x6 v' ^ 2 + ((y6 v' - (y6 v - 2 * vx6 v / n)) / 2) ^ 2 = x6 v ^ 2 + (vx6 v / n) ^ 2.
Proof.
  intros H E n v v' V. rewrite step_ok in E by auto. injection E as <-. unfold v'. cbn [set_hl_state hl_state]. rewrite hcw_vector. fold v n.
  unfold motion. cbv zeta. assert (SC := sin2_cos2 (n * t)). unfold Rsqr in SC. set (S := sin (n * t)) in *. set (C := cos (n * t)) in *.
  cbn [x6 y6 z6 vx6 vy6 vz6]. fold n in H. rewrite V.
  match goal with |- ?l = _ => replace l with ((S * S + C * C) * (x6 v ^ 2 + (vx6 v / n) ^ 2)) by (field; auto) end. rewrite SC. ring.
Qed.

(** * C85 *)
Lemma consistent_from e h k0 l0 c0 c s l : RelativeKalman e h = Ok k0 -> clohessy_wiltshire (hl_n h) c -> 0 <= s -> 0 <= c0 ->
  let k := observe_all l0 k0 in within c0 (k_p00 k) (k_x00 k) (c (seconds_between e (k_epoch k))) ->
  (forall ob, In ob l -> sighted s e c ob) ->
  let k' := observe_all l k in
  within (c0 + 3 * s ^ 2 * INR (length l)) (k_p00 k') (k_x00 k') (c (seconds_between e (k_epoch k'))).
Proof.
  intros E Hc Hs H0 k W A. destruct (good_start e h k0 E) as (G & Ee & Eh).
  apply history_within; auto.
  - apply history_good; auto.
  - unfold k. rewrite history_rate, Eh by auto. exact Hc.
Qed.
Lemma consistent e h k0 c m s l : RelativeKalman e h = Ok k0 -> clohessy_wiltshire (hl_n h) c -> 0 <= s ->
  (forall i, (i < 6)%nat -> (ent6v (state_vector (hl_state h)) i - ent6v (c 0) i) ^ 2 <= m ^ 2 * (if Nat.ltb i 3 then 0.5 else 5e-5)) ->
  (forall ob, In ob l -> sighted s e c ob) ->
  let k := observe_all l k0 in let truth := c (seconds_between e (k_epoch k)) in let f := 6 * m ^ 2 + 3 * s ^ 2 * INR (length l) in
  within f (k_p00 k) (k_x00 k) truth /\
  forall i, (i < 6)%nat -> Rabs (ent6v (k_x00 k) i - ent6v truth i) <= sqrt f * sqrt (ent66 (k_p00 k) i i).
Proof.
  intros E Hc Hs M A k truth f. destruct (good_start e h k0 E) as (G & Ee & Eh).
  assert (PM := pow2_ge_0 m). assert (PS := pow2_ge_0 s). assert (PN := pos_INR (length l)).
  assert (F0 : 0 <= f) by (unfold f; assert (0 <= s ^ 2 * INR (length l)) by (apply Rmult_le_pos; auto); lra).
  assert (W : within f (k_p00 k) (k_x00 k) truth).
  { apply (consistent_from e h k0 nil (6 * m ^ 2) c s l); auto; [lra|].
    change (observe_all nil k0) with k0. rewrite Ee. replace (seconds_between e e) with 0 by (unfold seconds_between; ring).
    replace (k_p00 k0) with DEFAULT_COVARIANCE.
    - apply seed_within. intros i Hi. rewrite ent_default_covariance by auto. unfold delta. rewrite Nat.eqb_refl, Rmult_1_l.
      assert (X : k_x00 k0 = state_vector (hl_state (k_propagator k0))) by apply G. rewrite X, Eh. apply M; auto.
    - unfold RelativeKalman in E. destruct (system_matrix h 0); [|discriminate]. cbn [bind] in E. injection E as <-. reflexivity. }
  split; [exact W|]. intros i Hi. rewrite <- sqrt_mult_alt by auto. rewrite <- sqrt_Rsqr_abs. apply sqrt_le_1_alt.
  replace (Rsqr (ent6v (k_x00 k) i - ent6v truth i)) with ((ent6v (k_x00 k) i - ent6v truth i) ^ 2) by (unfold Rsqr; ring).
  apply within_coordinate; auto.
Qed.
Lemma vec6_entries (x y : vec6) : (forall i, (i < 6)%nat -> ent6v x i = ent6v y i) -> x = y.
Proof.
  intros H. apply RelativeProofs.vec6_ext; [apply (H 0%nat)|apply (H 1%nat)|apply (H 2%nat)|apply (H 3%nat)|apply (H 4%nat)|apply (H 5%nat)]; lia.
Qed.
Lemma exact_tracking e h k0 c l : RelativeKalman e h = Ok k0 -> clohessy_wiltshire (hl_n h) c ->
  c 0 = state_vector (hl_state h) -> (forall ob, In ob l -> sighted 0 e c ob) ->
  let k := observe_all l k0 in k_x00 k = c (seconds_between e (k_epoch k)).
Proof.
  intros E Hc C0 A k. destruct (consistent e h k0 c 0 0 l E Hc (Rle_refl 0)) as (_ & B); auto.
  - intros i Hi. rewrite C0, Rminus_eq_0. destruct (Nat.ltb i 3); lra.
  - apply vec6_entries. intros i Hi. assert (D := B i Hi). fold k in D.
    replace (6 * 0 ^ 2 + 3 * 0 ^ 2 * INR (length l)) with 0 in D by ring. rewrite sqrt_0, Rmult_0_l in D.
    assert (P := Rabs_pos (ent6v (k_x00 k) i - ent6v (c (seconds_between e (k_epoch k))) i)).
    destruct (Req_dec (ent6v (k_x00 k) i - ent6v (c (seconds_between e (k_epoch k))) i) 0) as [Z|Z]; [lra|].
    apply Rabs_pos_lt in Z. lra.
Qed.
Lemma some_sigma (x y : vec6) : exists m, forall i, (i < 6)%nat -> (ent6v x i - ent6v y i) ^ 2 <= m ^ 2 * (if Nat.ltb i 3 then 0.5 else 5e-5).
Proof.
  set (d := fun i => (ent6v x i - ent6v y i) ^ 2). assert (P : forall i, 0 <= d i) by (intros; apply pow2_ge_0).
  exists (sqrt (20000 * sum 6 d)). intros i Hi. rewrite pow2_sqrt by (apply Rmult_le_pos; [lra|apply sum_nonneg; auto]). fold (d i).
  assert (S : d i <= sum 6 d).
  { cbn [sum]. assert (P0 := P 0%nat). assert (P1 := P 1%nat). assert (P2 := P 2%nat). assert (P3 := P 3%nat). assert (P4 := P 4%nat). assert (P5 := P 5%nat).
    destruct i as [|[|[|[|[|[|i]]]]]]; try lia; lra. }
  assert (P0 := P i). destruct (Nat.ltb i 3); lra.
Qed.
