(** The propagator cannot fail inside the region where every force is defined. *)
From Coq Require Import Reals Lra Psatz Lia ZArith.
From Coquelicot Require Import Coquelicot.
From Verif.Model Require Import Num Constants Linalg Functions Time Celestial Positions States Inertial.
From Verif.Spec Require Import Geometry Gravity Forces RungeKutta Propagation.
From Verif.Proofs Require Import NumLemmas LinalgProofs MatrixProofs Analysis FunctionsProofs CelestialProofs StatesProofs InertialProofs AccelerationProofs.
Local Open Scope R_scope.

Definition instant (h t : R) : Prop := t = 0 \/ t = h / 2 \/ t = h.
Lemma norm_add_le a b A B : norm a <= A -> norm b <= B -> norm (add a b) <= A + B.
Proof. intros. eapply Rle_trans; [apply norm_triangle|]. lra. Qed.
Lemma norm_scale_le k a K A : Rabs k <= K -> norm a <= A -> norm (scale k a) <= K * A.
Proof. intros. rewrite norm_scale. apply Rmult_le_compat; auto using Rabs_pos, norm_nonneg. Qed.
Lemma sub_add a b : sub (add a b) a = b.
Proof. veq; ring. Qed.

Lemma slope_ok T s A : norm T <= A -> flyable (g_epoch s) (g_position s) -> Rabs (g_srp_scalar s) <= 1000 -> g_thrust s = T ->
  exists a, derivative s = Ok (g_velocity s, a) /\ norm a <= 0.05 + A.
Proof.
  intros HT F K E. destruct (fly_derivative s F K) as (a & D & N). eexists. split; [exact D|].
  rewrite E. rewrite Rplus_comm. apply norm_add_le; auto.
Qed.

Lemma safe_step p A :
  let h := step_size p in let s := rk_state p in
  let B := 0.05 + A in let D := Rabs h * (norm (g_velocity s) + B * Rabs h) in
  (forall t, instant h t -> exists T, thrust_vector p t = Ok T /\ norm T <= A) ->
  Rabs (g_srp_scalar s) <= 1000 ->
  (forall t r, instant h t -> norm (sub r (g_position s)) <= D -> flyable (Epoch (value (g_epoch s) + t / 86400)) r) ->
  exists q, rk4_step p = (q, Ok tt) /\ norm (sub (g_position (rk_state q)) (g_position s)) <= D /\
    norm (sub (g_velocity (rk_state q)) (g_velocity s)) <= B * Rabs h.
Proof.
  intros h s B D HT HK HF.
  destruct (HT 0 ltac:(left; auto)) as (T0 & E0 & N0).
  destruct (HT (h / 2) ltac:(right; left; auto)) as (T1 & E1 & N1).
  destruct (HT h ltac:(right; right; auto)) as (T2 & E2 & N2).
  assert (A0 : 0 <= A) by (generalize (norm_nonneg T0); lra).
  assert (B0 : 0 <= B) by (unfold B; lra).
  assert (H0 := Rabs_pos h). assert (V0 := norm_nonneg (g_velocity s)).
  assert (BH : 0 <= B * Rabs h) by (apply Rmult_le_pos; auto).
  assert (H2 : Rabs (h / 2) <= Rabs h / 2). { unfold Rdiv. rewrite Rabs_mult, (Rabs_pos_eq (/ 2)); lra. }
  unfold rk4_step. rewrite E0. set (p0 := set_rk_state p (set_thrust s T0)).
  replace (set_rk_state p (set_thrust (rk_state p) T0)) with p0 by reflexivity.
  unfold step_result. change (step_size p0) with h.
  change (gcrf_vector_list (rk_state p0)) with (g_position s, g_velocity s). cbv beta iota zeta.
  change (g_epoch (rk_state p0)) with (g_epoch s). change (epoch_copy (g_epoch s)) with (Epoch (value (g_epoch s))).
  destruct (slope_ok T0 (rk_state p0) A N0) as (a1 & D1 & Na1); [|exact HK|reflexivity|].
  { cbn [p0 rk_state set_rk_state set_thrust g_epoch g_position]. rewrite <- (epoch_zero (g_epoch s)). apply HF; [left; auto|].
    replace (sub (g_position s) (g_position s)) with zero3 by (veq; ring).
    replace (norm zero3) with 0 by (symmetry; apply norm_zero; auto). unfold D. apply Rmult_le_pos; lra. }
  fold B in Na1. rewrite D1. cbn [bind fst snd]. change (g_velocity (rk_state p0)) with (g_velocity s).
  assert (ST : forall t, thrust_vector p0 t = thrust_vector p t) by reflexivity.
  assert (PD : plus_days (Epoch (value (g_epoch s))) (h / 2 / SECONDS_IN_DAY) = Epoch (value (g_epoch s) + h / 2 / 86400)) by reflexivity.
  assert (PE : plus_days (plus_days (Epoch (value (g_epoch s))) (h / 2 / SECONDS_IN_DAY)) (h / 2 / SECONDS_IN_DAY) = Epoch (value (g_epoch s) + h / 86400)).
  { unfold plus_days, SECONDS_IN_DAY. cbn [value]. f_equal. lra. }
  rewrite PE, PD. clear PE PD.
  unfold stage. rewrite !ST. replace (h / 2 * 2) with h by field. rewrite E1, E2. cbn [bind fst snd].
  set (v := g_velocity s) in *. set (r := g_position s) in *. set (e := g_epoch s) in *. change v3_plus with add. rewrite !v3_scaled_scale.
  assert (W : forall a k K, norm a <= B -> Rabs k <= K -> norm (add v (scale k a)) <= norm v + K * B).
  { intros. apply norm_add_le; [lra|]. apply norm_scale_le; auto. }
  assert (Dbig : Rabs h / 2 * norm v <= D) by (unfold D; nra).
  assert (Dbig2 : Rabs h * (norm v + Rabs h / 2 * B) <= D) by (unfold D; nra).
  assert (VEL : forall a b c d, g_velocity (set_thrust (GCRF a b c) d) = c) by reflexivity.
  destruct (slope_ok T1 (set_thrust (GCRF (Epoch (value e + h / 2 / 86400)) (add r (scale (h / 2) v)) (add v (scale (h / 2) a1))) T1) A N1)
    as (a2 & D2 & Na2); [|cbn; rewrite Rabs_R0; lra|reflexivity|].
  { apply HF; [right; left; auto|]. cbn [g_position set_thrust GCRF]. rewrite sub_add. eapply Rle_trans; [apply norm_scale_le; [exact H2|apply Rle_refl]|exact Dbig]. }
  fold B in Na2. rewrite D2, VEL. cbn [bind fst snd]. rewrite !v3_scaled_scale.
  destruct (slope_ok T1 (set_thrust (GCRF (Epoch (value e + h / 2 / 86400)) (add r (scale (h / 2) (add v (scale (h / 2) a1)))) (add v (scale (h / 2) a2))) T1) A N1)
    as (a3 & D3 & Na3); [|cbn; rewrite Rabs_R0; lra|reflexivity|].
  { apply HF; [right; left; auto|]. cbn [g_position set_thrust GCRF]. rewrite sub_add. eapply Rle_trans; [|exact Dbig2].
    apply norm_scale_le; [lra|]. apply W; auto. }
  fold B in Na3. rewrite D3, VEL. cbn [bind fst snd]. rewrite !v3_scaled_scale.
  destruct (slope_ok T2 (set_thrust (GCRF (Epoch (value e + h / 86400)) (add r (scale h (add v (scale (h / 2) a2)))) (add v (scale h a3))) T2) A N2)
    as (a4 & D4 & Na4); [|cbn; rewrite Rabs_R0; lra|reflexivity|].
  { apply HF; [right; right; auto|]. cbn [g_position set_thrust GCRF]. rewrite sub_add. eapply Rle_trans; [|exact Dbig2].
    apply norm_scale_le; [lra|]. apply W; auto. }
  fold B in Na4. rewrite D4, VEL. cbn [bind fst snd].
  eexists. split; [reflexivity|]. cbn [rk_state set_rk_state GCRF g_position g_velocity p0 set_thrust].
  rewrite !sub_add. rewrite !v3_scaled_scale. unfold rk_average. rewrite !v3_scaled_scale. change v3_plus with add. fold r v.
  assert (Sum : norm (add a1 (add (scale 2 a2) (add (scale 2 a3) a4))) <= B + (2 * B + (2 * B + B))).
  { apply norm_add_le; auto. apply norm_add_le; [apply norm_scale_le; auto; rewrite Rabs_pos_eq; lra|].
    apply norm_add_le; auto. apply norm_scale_le; auto; rewrite Rabs_pos_eq; lra. }
  split.
  - match goal with |- norm ?a <= _ => replace a with (scale h (add v (scale (h / 6) (add a1 (add a2 a3))))) by (veq; field) end.
    eapply Rle_trans; [|exact Dbig2]. apply norm_scale_le; [lra|]. apply norm_add_le; [lra|].
    replace (Rabs h / 2 * B) with (Rabs h / 6 * (B + (B + B))) by lra.
    apply norm_scale_le; [unfold Rdiv; rewrite Rabs_mult, (Rabs_pos_eq (/ 6)); lra|]. repeat apply norm_add_le; auto.
  - rewrite (Rmult_comm B). apply norm_scale_le; [lra|].
    replace B with (1 / 6 * (B + (2 * B + (2 * B + B)))) by lra. apply norm_scale_le; auto. rewrite Rabs_pos_eq; lra.
Qed.

Lemma stepped_snoc n p q r : stepped n p q -> rk4_step q = (r, Ok tt) -> stepped (S n) p r.
Proof.
  induction 1 as [p|n p q s H1 H2 IH]; intros H.
  - econstructor; [exact H|constructor].
  - econstructor; [exact H1|auto].
Qed.
Lemma during_part N n h t : (n < N)%nat -> instant h t -> during (INR N * h) (INR n * h + t).
Proof.
  intros L H. assert (P : 0 < INR N) by (apply (lt_INR 0); lia). assert (Q := pos_INR n).
  assert (R : INR n + 1 <= INR N) by (rewrite <- S_INR; apply le_INR; lia).
  assert (K : exists x, 0 <= x <= 1 /\ t = x * h).
  { destruct H as [->|[->| ->]]; [exists 0|exists (1 / 2)|exists 1]; split; lra. }
  destruct K as (x & X & ->). exists ((INR n + x) / INR N). split.
  - split; [apply Rdiv_nonneg; lra|apply div_le; lra].
  - field. lra.
Qed.
Lemma during_instant N h t : (0 < N)%nat -> instant h t -> during (INR N * h) t.
Proof.
  intros L H. replace t with (INR 0 * h + t) by (simpl; ring). apply during_part; auto.
Qed.
Lemma safe_steps p A N : let h := step_size p in let s := rk_state p in let B := 0.05 + A in
  (0 < N)%nat -> thrust_bounded p (INR N * h) A -> Rabs (g_srp_scalar s) <= 1000 ->
  clear_around s (INR N * h) (reach (norm (g_velocity s)) B (INR N * h)) ->
  forall n, (n <= N)%nat -> exists q, stepped n p q /\ Rabs (g_srp_scalar (rk_state q)) <= 1000 /\
    norm (sub (g_position (rk_state q)) (g_position s)) <= reach (norm (g_velocity s)) B (INR n * h) /\
    norm (sub (g_velocity (rk_state q)) (g_velocity s)) <= B * Rabs (INR n * h).
Proof.
  intros h s B LN HT HK HF. 
  assert (A0 : 0 <= A). { destruct (HT 0) as (T & _ & N0); [exists 0; split; lra|]. generalize (norm_nonneg T); lra. }
  assert (B0 : 0 <= B) by (unfold B; lra). assert (H0 := Rabs_pos h). assert (V0 := norm_nonneg (g_velocity s)).
  assert (AB : forall n, Rabs (INR n * h) = INR n * Rabs h).
  { intros n. rewrite Rabs_mult, (Rabs_pos_eq (INR n)); auto using pos_INR. }
  unfold reach in *. rewrite (AB N) in HF.
  assert (BH : 0 <= B * Rabs h) by (apply Rmult_le_pos; auto).
  induction n as [|n IH]; intros L.
  - exists p. split; [constructor|]. split; [auto|]. 
    replace (sub (g_position (rk_state p)) (g_position s)) with zero3 by (unfold s; veq; ring).
    replace (sub (g_velocity (rk_state p)) (g_velocity s)) with zero3 by (unfold s; veq; ring).
    replace (norm zero3) with 0 by (symmetry; apply norm_zero; auto). rewrite AB. simpl INR. rewrite !Rmult_0_l. lra.
  - destruct (IH ltac:(lia)) as (q & S & K & Pq & Vq). rewrite AB in Pq, Vq. rewrite AB.
    destruct (stepped_inv _ _ _ S) as [(E1 & E2 & E3 & E4 & E5) E6]. fold h s in E6.
    assert (Nn := pos_INR n). assert (NN : INR n + 1 <= INR N) by (rewrite <- S_INR; apply le_INR; lia).
    assert (Nvq : norm (g_velocity (rk_state q)) <= norm (g_velocity s) + B * (INR n * Rabs h)).
    { replace (g_velocity (rk_state q)) with (add (g_velocity s) (sub (g_velocity (rk_state q)) (g_velocity s))) by (veq; ring).
      apply norm_add_le; auto; lra. }
    set (v := norm (g_velocity s)) in *. clearbody v. set (a := Rabs h) in *. 
    assert (Step : a * (norm (g_velocity (rk_state q)) + B * a) <= a * (v + B * ((INR n + 1) * a))).
    { apply Rmult_le_compat_l; auto. lra. }
    assert (Tot : INR n * a * (v + B * (INR n * a)) + a * (v + B * ((INR n + 1) * a)) <= (INR n + 1) * a * (v + B * ((INR n + 1) * a))).
    { assert (0 <= INR n * a) by (apply Rmult_le_pos; auto).
      replace ((INR n + 1) * a * (v + B * ((INR n + 1) * a))) with (INR n * a * (v + B * ((INR n + 1) * a)) + a * (v + B * ((INR n + 1) * a))) by ring.
      apply Rplus_le_compat_r. apply Rmult_le_compat_l; auto. nra. }
    assert (Mono : (INR n + 1) * a * (v + B * ((INR n + 1) * a)) <= INR N * a * (v + B * (INR N * a))).
    { assert ((INR n + 1) * a <= INR N * a) by (apply Rmult_le_compat_r; auto).
      assert (0 <= (INR n + 1) * a) by (apply Rmult_le_pos; lra).
      apply Rmult_le_compat; auto; [apply Rplus_le_le_0_compat; auto; apply Rmult_le_pos; auto|]. nra. }
    assert (Eh : step_size q = h) by (rewrite <- E1; reflexivity).
    destruct (safe_step q A) as (r & R1 & R2 & R3); rewrite ?Eh.
    + intros t It. destruct (HT t (during_instant N h t LN It)) as (T & ET & NT). exists T. split; auto.
      rewrite <- ET. apply (thrust_restarts n); auto.
    + auto.
    + intros t r It Nr. rewrite E6. replace (value (g_epoch s) + INR n * (h / 86400) + t / 86400) with
        (value (g_epoch s) + (INR n * h + t) / 86400) by lra.
      apply HF; [apply during_part; auto; lia|].
      replace (sub r (g_position s)) with (add (sub r (g_position (rk_state q))) (sub (g_position (rk_state q)) (g_position s))) by (veq; ring).
      fold B in Nr. fold a in Nr. eapply Rle_trans; [apply norm_add_le; [exact Nr|exact Pq]|]. lra.
    + rewrite Eh in R2, R3. fold a in R2, R3. fold B in R2, R3.
      exists r. split; [eapply stepped_snoc; eauto|].
      destruct (step_inv _ _ R1) as (_ & _ & _ & Srp & _). rewrite Srp, Rabs_R0. split; [lra|].
      rewrite S_INR. split.
      * replace (sub (g_position (rk_state r)) (g_position s)) with (add (sub (g_position (rk_state r)) (g_position (rk_state q))) (sub (g_position (rk_state q)) (g_position s))) by (veq; ring).
        eapply Rle_trans; [apply norm_add_le; [exact R2|exact Pq]|]. lra.
      * replace (sub (g_velocity (rk_state r)) (g_velocity s)) with (add (sub (g_velocity (rk_state r)) (g_velocity (rk_state q))) (sub (g_velocity (rk_state q)) (g_velocity s))) by (veq; ring).
        eapply Rle_trans; [apply norm_add_le; [exact R3|exact Vq]|]. lra.
Qed.

Lemma safe_step_to_epoch p e A : let s := rk_state p in
  let dt := (value e - value (g_epoch s)) * 86400 in let D := reach (norm (g_velocity s)) (0.05 + A) dt in
  thrust_bounded p dt A -> Rabs (g_srp_scalar s) <= 1000 -> clear_around s dt D ->
  exists q, rk4_step_to_epoch p e = (q, Ok tt) /\
    norm (sub (g_position (rk_state q)) (g_position s)) <= D /\
    norm (sub (g_velocity (rk_state q)) (g_velocity s)) <= (0.05 + A) * Rabs dt.
Proof.
  intros s dt D HT HK HF. assert (E := step_to_epoch_form p e). cbv zeta in E. rewrite E. clear E.
  assert (F := parts_fewest p e). fold s dt in F. unfold substep. fold s dt. set (n := parts p e) in *. clearbody n.
  assert (A0 : 0 <= A). { destruct (HT 0) as (T & _ & N0); [exists 0; split; lra|]. generalize (norm_nonneg T); lra. }
  assert (V0 := norm_nonneg (g_velocity s)).
  assert (D0 : 0 <= D). { unfold D, reach. assert (P := Rabs_pos dt). apply Rmult_le_pos; auto. apply Rplus_le_le_0_compat; auto. apply Rmult_le_pos; lra. }
  destruct n as [|n].
  - cbn [Nat.ltb Nat.leb rk4_steps]. eexists. split; [reflexivity|]. cbn [set_step_size rk_state].
    replace (sub (g_position (rk_state p)) (g_position s)) with zero3 by (unfold s; veq; ring).
    replace (sub (g_velocity (rk_state p)) (g_velocity s)) with zero3 by (unfold s; veq; ring).
    replace (norm zero3) with 0 by (symmetry; apply norm_zero; auto). split; auto.
    assert (P := Rabs_pos dt). apply Rmult_le_pos; lra.
  - change (0 <? S n)%nat with true. cbv iota. set (p0 := set_step_size p (dt / INR (S n))).
    assert (P : 0 < INR (S n)) by (apply (lt_INR 0); lia).
    assert (Eh : INR (S n) * step_size p0 = dt). { unfold p0. cbn [set_step_size step_size]. field. lra. }
    destruct (safe_steps p0 A (S n)) with (n := S n) as (q & S & _ & Pq & Vq); rewrite ?Eh; auto; try lia.
    rewrite Eh in Pq, Vq. apply steps_stepped in S. rewrite S. eexists. split; [reflexivity|]. split; [exact Pq|exact Vq].
Qed.

(** * Sufficient, easily checked, conditions *)
Lemma rho_lip r r' : sqrt (x3 r * x3 r + y3 r * y3 r) <= sqrt (x3 r' * x3 r' + y3 r' * y3 r') + norm (sub r' r).
Proof.
  assert (E : forall u, sqrt (x3 u * x3 u + y3 u * y3 u) = norm (V3 (x3 u) (y3 u) 0)).
  { intros u. unfold norm, dot. cbn [x3 y3 z3]. f_equal. ring. }
  rewrite !E.
  assert (T := norm_triangle (V3 (x3 r') (y3 r') 0) (scale (-1) (V3 (x3 r' - x3 r) (y3 r' - y3 r) 0))).
  replace (add (V3 (x3 r') (y3 r') 0) (scale (-1) (V3 (x3 r' - x3 r) (y3 r' - y3 r) 0))) with (V3 (x3 r) (y3 r) 0) in T by (veq; ring).
  rewrite norm_opp in T. 
  assert (norm (V3 (x3 r' - x3 r) (y3 r' - y3 r) 0) <= norm (sub r' r)).
  { apply sqrt_le_1_alt. unfold dot, sub. cbn [x3 y3 z3]. assert (0 <= (z3 r' - z3 r) * (z3 r' - z3 r)) by apply Rle_0_sqr. lra. }
  lra.
Qed.
Lemma clear_check s dt D : Rabs (value (g_epoch s) - 51544.5) + Rabs dt / 86400 <= 36525 ->
  6500 + D <= norm (g_position s) -> norm (g_position s) + D <= 300000 ->
  norm (g_position s) + D <= 5 * (sqrt (x3 (g_position s) * x3 (g_position s) + y3 (g_position s) * y3 (g_position s)) - D) ->
  clear_around s dt D.
Proof.
  intros H1 H2 H3 H4 t r (x & X & ->) Hr. unfold flyable. cbn [value].
  assert (L := rho_lip (g_position s) r). set (w := sqrt (x3 (g_position s) * _ + _)) in *. clearbody w.
  assert (U : norm r <= norm (g_position s) + D).
  { replace r with (add (g_position s) (sub r (g_position s))) by (veq; ring). apply norm_add_le; auto; lra. }
  assert (W : norm (g_position s) <= norm r + D).
  { replace (g_position s) with (add r (scale (-1) (sub r (g_position s)))) at 1 by (veq; ring).
    apply norm_add_le; [lra|]. rewrite norm_opp. auto. }
  split; [|split; [split; lra|lra]].
  replace (value (g_epoch s) + x * dt / 86400 - 51544.5) with ((value (g_epoch s) - 51544.5) + x * (dt / 86400)) by lra.
  eapply Rle_trans; [apply Rabs_triang|]. rewrite Rabs_mult, (Rabs_pos_eq x) by lra.
  assert (Rabs (dt / 86400) = Rabs dt / 86400) by (unfold Rdiv; rewrite Rabs_mult, (Rabs_pos_eq (/ 86400)); lra).
  rewrite H. assert (P := Rabs_pos dt). assert (0 <= Rabs dt / 86400) by lra. nra.
Qed.
Lemma off_bounded p dt : m_dot p = 0 -> thrust_bounded p dt 0.
Proof. intros H t _. exists zero3. split; [apply thrust_off; auto|]. replace (norm zero3) with 0 by (symmetry; apply norm_zero; auto). lra. Qed.

Lemma rocket_bounded p dt : 0 < m_dot p -> 0 < m0 p -> 0 <= isp p -> thrust_direction p <> zero3 -> 0 <= dt -> m_dot p * dt < m0 p ->
  thrust_bounded p dt (m_dot p * isp p * 0.00981 / (m0 p - m_dot p * dt)).
Proof.
  intros H1 H2 H3 Hd Ht Hm t (x & X & ->).
  assert (L : m_dot p * (x * dt) <= m_dot p * dt) by (apply Rmult_le_compat_l; nra).
  exists (rocket (m_dot p) (m0 p) (isp p) (thrust_direction p) (x * dt)). split.
  - apply thrust_rocket; auto; try lra.
    assert (m_dot p * (x * dt) / m0 p < 1); [|lra]. apply Rmult_lt_reg_r with (m0 p); auto. unfold Rdiv. rewrite Rmult_assoc, Rinv_l; lra.
  - assert (P : 0 <= m_dot p * isp p) by (apply Rmult_le_pos; lra).
    rewrite rocket_norm; auto. 2:{ apply Rdiv_nonneg; lra. }
    apply Rmult_le_compat_l; [|apply Rinv_le_contravar; lra]. lra.
Qed.
Lemma safe_maneuver p d md m i T : 0 < md -> 0 < m -> 0 < i -> d <> zero3 ->
  burn_duration (norm d) md m i = Ok T ->
  let s := rk_state p in let A := md * i * 0.00981 / (m - md * T) in
  Rabs (g_srp_scalar s) <= 1000 -> clear_around s T (reach (norm (g_velocity s)) (0.05 + A) T) ->
  exists q, rk4_maneuver p d md m i = (q, Ok tt).
Proof.
  intros H1 H2 H3 Hd HT s A HK HF. assert (Nd := norm_pos _ Hd).
  destruct (burn_rocket (norm d) md m i) as (T' & HT' & (B0 & B1) & _); try lra. rewrite HT in HT'. inversion HT'. subst T'. clear HT'.
  assert (MT : md * T < m). { apply Rmult_lt_reg_r with (/ md); [apply Rinv_0_lt_compat; auto|]. replace (md * T * / md) with T by (field; lra). exact B1. }
  unfold rk4_maneuver. change (v3_magnitude d) with (norm d). rewrite HT.
  set (p1 := set_thruster p (v3_copy d) m md i).
  assert (Edt : (value (plus_days (g_epoch (rk_state p1)) (T / SECONDS_IN_DAY)) - value (g_epoch (rk_state p1))) * 86400 = T).
  { unfold plus_days, SECONDS_IN_DAY. cbn [value]. lra. }
  destruct (safe_step_to_epoch p1 (plus_days (g_epoch (rk_state p1)) (T / SECONDS_IN_DAY)) A) as (q & Q & _); rewrite ?Edt; auto.
  - apply rocket_bounded; cbn [p1 set_thruster m_dot m0 isp thrust_direction]; rewrite ?v3_copy_id; auto; lra.
  - rewrite Q. eexists. reflexivity.
Qed.

(** * Concrete states *)
Definition leo : rk4 := set_step_size (RK4 (GCRF j2000 (V3 7200 0 0) (V3 0 7.5 0))) 60.
Definition geo : rk4 := RK4 (GCRF j2000 (V3 42164 0 0) (V3 0 3.07 0)).
Lemma norm_x a : 0 <= a -> norm (V3 a 0 0) = a.
Proof. intros. unfold norm. apply sqrt_eq; auto. unfold dot; cbn [x3 y3 z3]. ring. Qed.
Lemma norm_y a : 0 <= a -> norm (V3 0 a 0) = a.
Proof. intros. unfold norm. apply sqrt_eq; auto. unfold dot; cbn [x3 y3 z3]. ring. Qed.
Lemma leo_clear dt : Rabs dt <= 60 -> clear_around (rk_state leo) dt (reach (norm (g_velocity (rk_state leo))) (0.05 + 0) dt).
Proof.
  intros H. assert (P := Rabs_pos dt).
  assert (R : reach (norm (g_velocity (rk_state leo))) (0.05 + 0) dt <= 630).
  { unfold leo, reach. cbn [set_step_size RK4 gcrf_copy GCRF rk_state g_velocity]. rewrite norm_y by lra. nra. }
  set (D := reach (norm (g_velocity (rk_state leo))) (0.05 + 0) dt) in *. clearbody D.
  apply clear_check; unfold leo in *; cbn [set_step_size RK4 gcrf_copy GCRF rk_state g_epoch g_position x3 y3] in *; rewrite ?norm_x by lra; unfold j2000; cbn [value].
  - rewrite Rminus_eq_0, Rabs_R0. lra.
  - lra.
  - lra.
  - replace (7200 * 7200 + 0 * 0) with (7200 * 7200) by ring. rewrite sqrt_square by lra. lra.
Qed.
Lemma geo_clear dt B : Rabs dt <= 600 -> 0 <= B <= 0.06 -> clear_around (rk_state geo) dt (reach (norm (g_velocity (rk_state geo))) B dt).
Proof.
  intros H HB. assert (P := Rabs_pos dt).
  assert (R : reach (norm (g_velocity (rk_state geo))) B dt <= 24000).
  { unfold geo, reach. cbn [set_step_size RK4 gcrf_copy GCRF rk_state g_velocity]. rewrite norm_y by lra.
    assert (B * Rabs dt <= 36) by nra. nra. }
  set (D := reach (norm (g_velocity (rk_state geo))) B dt) in *. clearbody D.
  apply clear_check; unfold geo in *; cbn [set_step_size RK4 gcrf_copy GCRF rk_state g_epoch g_position x3 y3] in *; rewrite ?norm_x by lra; unfold j2000; cbn [value].
  - rewrite Rminus_eq_0, Rabs_R0. lra.
  - lra.
  - lra.
  - replace (42164 * 42164 + 0 * 0) with (42164 * 42164) by ring. rewrite sqrt_square by lra. lra.
Qed.
(** a 100 m/s burn of about 334 s, and a 10 m/s burn of about 34 s *)
Lemma exp_small x : 0 <= x <= 1 -> 1 - x <= exp (- x) <= 1 - x + x * x / 2.
Proof.
  intros H. split; [destruct (Req_dec x 0) as [->|N]; [rewrite Ropp_0, exp_0; lra|generalize (exp_ineq1 (- x) ltac:(lra)); lra]|].
  destruct (Req_dec x 0) as [->|N]; [rewrite Ropp_0, exp_0; lra|].
  assert (G : 0 < 1 - x + x * x / 2 - exp (- x)); [|lra].
  destruct (MVT_cor2 (fun t => 1 - t + t * t / 2 - exp (- t)) (fun t => -1 + t + exp (- t)) 0 x ltac:(lra)) as (c & E & C).
  { intros c Hc. apply is_derive_Reals. auto_derive; auto. lra. }
  rewrite Ropp_0, exp_0 in E. assert (K := exp_ineq1 (- c) ltac:(lra)). nra.
Qed.
Lemma long_burn : exists T, burn_duration (norm (V3 0 0.1 0)) 0.1 1000 300 = Ok T /\ 300 < T < 350 /\
  exists q, rk4_maneuver geo (V3 0 0.1 0) 0.1 1000 300 = (q, Ok tt).
Proof.
  assert (Hd : V3 0 0.1 0 <> zero3) by (intros E; inversion E; lra).
  assert (E : burn_duration (norm (V3 0 0.1 0)) 0.1 1000 300 = Ok (1000 / 0.1 * (1 - exp (Ropp 0.1 / (300 * 0.00981))))).
  { rewrite norm_y by lra. apply burn_ok; lra. }
  eexists. split; [exact E|].
  set (x := 0.1 / (300 * 0.00981)).
  assert (X : 0.033978 <= x <= 0.03398) by (unfold x; split; [apply le_div|apply div_le]; lra).
  replace (Ropp 0.1 / (300 * 0.00981)) with (- x) in * by (unfold x; lra). clearbody x.
  assert (S := exp_small x ltac:(lra)). set (y := exp (- x)) in *. clearbody y.
  assert (Tb : 300 < 1000 / 0.1 * (1 - y) < 350) by (split; nra). split; auto.
  set (T := 1000 / 0.1 * (1 - y)) in *. clearbody T.
  apply (safe_maneuver geo (V3 0 0.1 0) 0.1 1000 300 T); auto; try lra.
  - cbn. rewrite Rabs_R0. lra.
  - apply geo_clear; [rewrite Rabs_pos_eq; lra|].
    assert (0 <= 0.1 * 300 * 0.00981 / (1000 - 0.1 * T) <= 0.01); [|lra].
    split; [apply Rdiv_nonneg; lra|apply div_le; lra].
Qed.
