(** Proofs about propagators/inertial.py. *)
From Coq Require Import Reals Lra Psatz Lia ZArith.
From Verif.Model Require Import Num Constants Linalg Functions Time Celestial Positions States Inertial.
From Verif.Spec Require Import Geometry Gravity RungeKutta Propagation.
From Verif.Proofs Require Import NumLemmas LinalgProofs FunctionsProofs StatesProofs.
Local Open Scope R_scope.

(** * Thrust *)
Lemma thrust_off p t : m_dot p = 0 -> thrust_vector p t = Ok zero3.
Proof. intros H. unfold thrust_vector. rewrite neq_true; auto. Qed.
Lemma thrust_rocket p t : m_dot p <> 0 -> m0 p <> 0 -> thrust_direction p <> zero3 ->
  0 < 1 - m_dot p * t / m0 p ->
  thrust_vector p t = Ok (rocket (m_dot p) (m0 p) (isp p) (thrust_direction p) t).
Proof.
  intros Hm H0 Hd Ht. assert (Nd := norm_pos _ Hd). unfold thrust_vector. rewrite neq_false by auto.
  rewrite normalized_ok by auto. unfold rocket. change SEA_LEVEL_G with 0.00981. generalize 0.00981. intros g.
  set (d := thrust_direction p) in *. set (m := m_dot p) in *. set (M := m0 p) in *. set (i := isp p).
  assert (Hx : M - m * t <> 0).
  { intros E. assert (1 - m * t / M = (M - m * t) / M) by (field; auto). rewrite E in H. unfold Rdiv in H. rewrite Rmult_0_l in H.
    unfold Rdiv in Ht. lra. }
  destruct (neq_spec t 0) as [E|E].
  - cbn [bind]. rewrite pdiv_ok by auto. cbn [bind]. apply f_equal. rewrite v3_scaled_scale. subst t.
    generalize dependent (norm d). intros. veq; field; repeat split; auto; lra.
  - rewrite pdiv_ok by auto. cbn [bind]. unfold plog. rewrite nle_false by auto. cbn [bind].
    rewrite pdiv_ok by auto. cbn [bind]. rewrite pdiv_ok by auto. cbn [bind]. 
    assert (L : ln (1 - m * t / M) <> 0).
    { intros Z. rewrite <- ln_1 in Z. apply ln_inv in Z; try lra.
      assert (m * t / M = 0) by lra. assert (m * t = 0).
      { replace (m * t) with (m * t / M * M) by (field; auto). rewrite H; ring. }
      apply Rmult_integral in H1. tauto. }
    rewrite pdiv_ok by lra. cbn [bind]. apply f_equal. rewrite !v3_scaled_scale.
    set (l := ln _) in *. clearbody l. generalize dependent (norm d). intros.
    veq; field; repeat split; auto; lra.
Qed.
Lemma rocket_norm mdot m i d t : d <> zero3 -> 0 <= mdot * i / (m - mdot * t) ->
  norm (rocket mdot m i d t) = mdot * i * 0.00981 / (m - mdot * t).
Proof.
  intros Hd H. assert (Nd := norm_pos _ Hd). unfold rocket. rewrite norm_scale.
  replace (mdot * i * 0.00981 / (m - mdot * t) / norm d) with (mdot * i / (m - mdot * t) * 0.00981 * / norm d)
    by (unfold Rdiv; generalize 0.00981; intros; ring).
  assert (0 < / norm d) by (apply Rinv_0_lt_compat; auto).
  rewrite Rabs_pos_eq by (apply Rmult_le_pos; [apply Rmult_le_pos; lra|lra]).
  rewrite Rmult_assoc, Rinv_l by lra. unfold Rdiv. generalize 0.00981; intros; ring.
Qed.
(** The failures: a zero direction, no mass, all propellant used. *)
Lemma thrust_err p t : m_dot p <> 0 -> 0 < m0 p -> m0 p <= m_dot p * t -> t <> 0 ->
  thrust_vector p t = Err ValueError.
Proof.
  intros Hm H0 H Ht. unfold thrust_vector. rewrite !neq_false by auto. rewrite pdiv_ok by lra. cbn [bind].
  unfold plog. rewrite nle_true; [reflexivity|].
  assert (1 <= m_dot p * t / m0 p) by (apply le_div; lra). lra.
Qed.
Lemma thrust_zero_direction p t : m_dot p <> 0 -> thrust_direction p = zero3 -> m0 p <> 0 ->
  (t = 0 \/ 0 < 1 - m_dot p * t / m0 p) -> thrust_vector p t = Err ZeroDivisionError.
Proof.
  intros Hm Hd H0 Ht. unfold thrust_vector. rewrite neq_false by auto. rewrite Hd, normalized_zero.
  destruct (neq_spec t 0) as [E|E]; [reflexivity|].
  destruct Ht as [?|Ht]; [contradiction|]. rewrite pdiv_ok by auto. cbn [bind]. unfold plog. rewrite nle_false by auto. reflexivity.
Qed.

(** * One step *)
Lemma pair_eq (A B : Type) (a c : A) (b d : B) : a = c -> b = d -> (a, b) = (c, d).
Proof. intros -> ->. reflexivity. Qed.
Lemma x3_add a b : x3 (add a b) = x3 a + x3 b. Proof. reflexivity. Qed.
Lemma y3_add a b : y3 (add a b) = y3 a + y3 b. Proof. reflexivity. Qed.
Lemma z3_add a b : z3 (add a b) = z3 a + z3 b. Proof. reflexivity. Qed.
Lemma x3_scale k a : x3 (scale k a) = k * x3 a. Proof. reflexivity. Qed.
Lemma y3_scale k a : y3 (scale k a) = k * y3 a. Proof. reflexivity. Qed.
Lemma z3_scale k a : z3 (scale k a) = k * z3 a. Proof. reflexivity. Qed.
Ltac comps := repeat (rewrite x3_add || rewrite y3_add || rewrite z3_add || rewrite x3_scale || rewrite y3_scale || rewrite z3_scale).
Lemma epoch_zero e : Epoch (value e + 0 / 86400) = e.
Proof. destruct e as [v]. cbn [value]. f_equal. lra. Qed.
Lemma step_inv p q : rk4_step p = (q, Ok tt) ->
  same_settings p q /\
  value (g_epoch (rk_state q)) = value (g_epoch (rk_state p)) + step_size p / 86400 /\
  g_use_perturbations (rk_state q) = true /\ g_srp_scalar (rk_state q) = 0 /\ g_thrust (rk_state q) = zero3 /\
  let s := rk_state p in
  runge_kutta (dynamics p (g_epoch s) (g_srp_scalar s) (g_use_perturbations s))
    (dynamics p (g_epoch s) 0 true) (step_size p)
    (g_position s, g_velocity s) (g_position (rk_state q), g_velocity (rk_state q)).
Proof.
  unfold rk4_step. destruct (thrust_vector p 0) as [t0|] eqn:T0; [|discriminate].
  set (p0 := set_rk_state p (set_thrust (rk_state p) t0)).
  destruct (step_result p0) as [s|] eqn:E; [|discriminate]. intros H. inversion H. subst q. clear H.
  unfold step_result in E.
  assert (G0 : gcrf_vector_list (rk_state p0) = (g_position (rk_state p), g_velocity (rk_state p))) by reflexivity.
  rewrite G0 in E. cbv zeta in E.
  apply bind_ok in E. destruct E as [k1 [K1 E]].
  apply bind_ok in E. destruct E as [y1 [Y1 E]].
  apply bind_ok in E. destruct E as [k2 [K2 E]].
  apply bind_ok in E. destruct E as [y2 [Y2 E]].
  apply bind_ok in E. destruct E as [k3 [K3 E]].
  apply bind_ok in E. destruct E as [y3 [Y3 E]].
  apply bind_ok in E. destruct E as [k4 [K4 E]].
  inversion E. subst s. clear E.
  unfold stage in Y1, Y2, Y3.
  apply bind_ok in Y1. destruct Y1 as [t1 [T1 Y1]]. inversion Y1. subst y1. clear Y1.
  apply bind_ok in Y2. destruct Y2 as [t2 [T2 Y2]]. inversion Y2. subst y2. clear Y2.
  apply bind_ok in Y3. destruct Y3 as [t3 [T3 Y3]]. inversion Y3. subst y3. clear Y3.
  change (step_size p0) with (step_size p) in *.
  change (g_epoch (rk_state p0)) with (g_epoch (rk_state p)) in *.
  change (thrust_vector p0) with (thrust_vector p) in *.
  cbn [set_rk_state rk_state step_size m_dot m0 thrust_direction isp GCRF g_epoch g_position g_velocity g_thrust g_srp_scalar g_use_perturbations].
  split; [repeat split|].
  split. { unfold plus_days, epoch_copy, SECONDS_IN_DAY. cbn [value]. lra. }
  split; [reflexivity|]. split; [reflexivity|]. split; [reflexivity|].
  set (h := step_size p) in *. set (e := g_epoch (rk_state p)) in *.
  exists k1, k2, k3, k4.
  split.
  { exists t0. split; auto. cbn [fst snd]. etransitivity; [|exact K1]. unfold p0. cbn [set_rk_state rk_state]. unfold set_thrust. fold e. rewrite epoch_zero. reflexivity. }
  assert (Ep : plus_days (epoch_copy e) (h / 2 / SECONDS_IN_DAY) = Epoch (value e + h / 2 / 86400)) by reflexivity.
  split.
  { exists t1. split; auto. etransitivity; [|exact K2]. cbn [fst snd padd pscale]. unfold set_thrust, GCRF.
    cbn [g_epoch g_position g_velocity g_thrust g_srp_scalar g_use_perturbations].
    rewrite Ep, !v3_scaled_scale. reflexivity. }
  split.
  { exists t2. split; auto. etransitivity; [|exact K3]. cbn [fst snd padd pscale]. unfold set_thrust, GCRF.
    cbn [g_epoch g_position g_velocity g_thrust g_srp_scalar g_use_perturbations].
    rewrite Ep, !v3_scaled_scale. reflexivity. }
  split.
  { exists t3. replace h with (h / 2 * 2) at 1 by field. split; auto.
    etransitivity; [|exact K4]. cbn [fst snd padd pscale]. unfold set_thrust, GCRF.
    cbn [g_epoch g_position g_velocity g_thrust g_srp_scalar g_use_perturbations].
    rewrite !v3_scaled_scale. f_equal. f_equal. unfold plus_days, epoch_copy, SECONDS_IN_DAY. cbn [value]. f_equal. lra. }
  unfold padd, pscale, rk_average. cbn [fst snd]. rewrite !v3_scaled_scale.
  apply pair_eq; veq; field.
Qed.

Lemma steps_stepped n : forall p q, rk4_steps n p = (q, Ok tt) <-> stepped n p q.
Proof.
  induction n as [|n IH]; intros p q; cbn [rk4_steps].
  - split; intros H; [inversion H; constructor|inversion H; reflexivity].
  - split.
    + destruct (rk4_step p) as [p1 [[]|e]] eqn:E; [|discriminate]. intros H. econstructor; [exact E|]. apply IH; auto.
    + intros H. inversion H; subst. rewrite H1. apply IH; auto.
Qed.
Lemma same_settings_trans p q r : same_settings p q -> same_settings q r -> same_settings p r.
Proof. unfold same_settings. intuition congruence. Qed.
Lemma same_settings_refl p : same_settings p p. Proof. repeat split. Qed.
Lemma stepped_inv n p q : stepped n p q -> same_settings p q /\
  value (g_epoch (rk_state q)) = value (g_epoch (rk_state p)) + INR n * (step_size p / 86400).
Proof.
  induction 1 as [p|n p q r H1 H2 [IH1 IH2]].
  - split; [apply same_settings_refl|]. simpl. lra.
  - apply step_inv in H1. destruct H1 as (S & E & _). split; [eapply same_settings_trans; eauto|].
    rewrite IH2, E, S_INR. destruct S as [<- _]. lra.
Qed.
(** A failing run stops after some successful steps, at a step that raises. *)
Lemma steps_err n : forall p q x, rk4_steps n p = (q, Err x) ->
  exists k r, (k < n)%nat /\ stepped k p r /\ rk4_step r = (q, Err x).
Proof.
  induction n as [|n IH]; intros p q x; cbn [rk4_steps]; [discriminate|].
  destruct (rk4_step p) as [p1 [[]|e]] eqn:E.
  - intros H. apply IH in H. destruct H as (k & r & L & S & F). exists (Datatypes.S k), r. split; [lia|]. split; auto.
    econstructor; eauto.
  - intros H. inversion H. subst. exists 0%nat, p. split; [lia|]. split; auto. constructor.
Qed.
Lemma step_err p q x : rk4_step p = (q, Err x) -> same_settings p q /\ g_epoch (rk_state q) = g_epoch (rk_state p) /\
  g_position (rk_state q) = g_position (rk_state p) /\ g_velocity (rk_state q) = g_velocity (rk_state p).
Proof.
  unfold rk4_step. destruct (thrust_vector p 0) as [t0|].
  - destruct step_result; intros H; inversion H. repeat split.
  - intros H; inversion H. repeat split.
Qed.

(** * Stepping to an epoch *)
Definition parts (p : rk4) (e : epoch) : nat :=
  Z.to_nat (nceil (nabs ((value e - value (g_epoch (rk_state p))) * SECONDS_IN_DAY / MAX_STEP))).
Lemma parts_fewest p e : fewest_parts ((value e - value (g_epoch (rk_state p))) * 86400) 300 (parts p e).
Proof.
  unfold parts. change SECONDS_IN_DAY with 86400. set (dt := _ * 86400). unfold MAX_STEP, nabs.
  assert (A : Rabs (dt / 300) = Rabs dt / 300).
  { unfold Rdiv. rewrite Rabs_mult, (Rabs_pos_eq (/ 300)); lra. }
  rewrite A. assert (Hp := Rabs_pos dt). set (x := Rabs dt / 300).
  assert (Hx : 0 <= x) by (unfold x; lra). assert (Ex : Rabs dt = 300 * x) by (unfold x; field). clearbody x.
  assert (B := nceil_bounds x). assert (N := nceil_nonneg x Hx).
  assert (I : INR (Z.to_nat (nceil x)) = IZR (nceil x)) by (rewrite INR_IZR_INZ, Z2Nat.id; auto).
  split.
  - rewrite I. lra.
  - intros m Hm. apply INR_le. rewrite I. rewrite INR_IZR_INZ in *.
    assert (x <= IZR (Z.of_nat m)) by lra.
    apply IZR_le. destruct (Z_le_dec (nceil x) (Z.of_nat m)); auto.
    exfalso. assert (Z.of_nat m + 1 <= nceil x)%Z by lia. apply IZR_le in H0. rewrite plus_IZR in H0. lra.
Qed.
Lemma fewest_zero dt limit : 0 < limit -> fewest_parts dt limit 0 -> dt = 0.
Proof. intros L [H _]. simpl in H. rewrite Rmult_0_r in H. generalize (Rabs_pos dt). intros. destruct (Req_dec dt 0); auto. apply Rabs_pos_lt in H1. lra. Qed.

Definition substep (p : rk4) (e : epoch) : R :=
  (value e - value (g_epoch (rk_state p))) * 86400 / INR (parts p e).
Lemma step_to_epoch_form p e :
  let p0 := if (0 <? parts p e)%nat then set_step_size p (substep p e) else p in
  rk4_step_to_epoch p e =
  match rk4_steps (parts p e) p0 with
  | (q, Err err) => (q, Err err)
  | (q, Ok _) => (set_step_size q (step_size p), Ok tt)
  end.
Proof.
  unfold rk4_step_to_epoch. cbv zeta. fold (parts p e).
  set (z := nceil _). assert (Z0 : (0 <= z)%Z) by (apply nceil_nonneg, Rabs_pos).
  assert (Pz : parts p e = Z.to_nat z) by reflexivity.
  replace (0 <? parts p e)%nat with (0 <? z)%Z.
  2:{ rewrite Pz. destruct (Z.ltb_spec 0 z), (Nat.ltb_spec 0 (Z.to_nat z)); auto; lia. }
  replace (substep p e) with ((value e - value (g_epoch (rk_state p))) * SECONDS_IN_DAY / of_Z z); auto.
  unfold substep. rewrite Pz, INR_IZR_INZ, Z2Nat.id by auto. reflexivity.
Qed.

(** The whole effect of a successful call. *)
Lemma step_to_epoch_ok p e q : rk4_step_to_epoch p e = (q, Ok tt) ->
  exists n, fewest_parts ((value e - value (g_epoch (rk_state p))) * 86400) 300 n /\
  (n = 0%nat -> q = p) /\
  (n <> 0%nat -> exists r, stepped n (set_step_size p ((value e - value (g_epoch (rk_state p))) * 86400 / INR n)) r /\
     q = set_step_size r (step_size p)).
Proof.
  intros H. exists (parts p e). split; [apply parts_fewest|].
  rewrite step_to_epoch_form in H. cbv zeta in H. split; intros N.
  - rewrite N in H. cbn in H. inversion H. destruct p; reflexivity.
  - replace (0 <? parts p e)%nat with true in H by (symmetry; apply Nat.ltb_lt; lia).
    destruct (rk4_steps _ _) as [r [[]|]] eqn:E; inversion H. subst q.
    exists r. split; auto. apply steps_stepped. exact E.
Qed.
Lemma step_to_epoch_lands p e q : rk4_step_to_epoch p e = (q, Ok tt) ->
  g_epoch (rk_state q) = e /\ same_settings p q.
Proof.
  intros H. destruct (step_to_epoch_ok _ _ _ H) as (n & F & N0 & N1). destruct n as [|n].
  - rewrite (N0 eq_refl). apply fewest_zero in F; [|lra]. split; [|apply same_settings_refl].
    destruct e as [w], (g_epoch (rk_state p)) as [v]. cbn [value] in F. f_equal. lra.
  - destruct (N1 ltac:(discriminate)) as (r & S & ->). apply stepped_inv in S. destruct S as [S V].
    cbn [set_step_size rk_state step_size] in V. cbn [set_step_size rk_state].
    assert (NZ : INR (Datatypes.S n) <> 0) by (apply not_0_INR; discriminate).
    split.
    + destruct (g_epoch (rk_state r)) as [v]. destruct e as [w]. cbn [value] in *. f_equal. rewrite V. field. auto.
    + destruct S as (_ & A & B & C & D). cbn in A, B, C, D. repeat split; cbn; auto.
Qed.
(** The whole effect of a failing call. *)
Lemma step_to_epoch_err p e q x : rk4_step_to_epoch p e = (q, Err x) ->
  exists n k r, fewest_parts ((value e - value (g_epoch (rk_state p))) * 86400) 300 n /\ (k < n)%nat /\
  let h := (value e - value (g_epoch (rk_state p))) * 86400 / INR n in
  stepped k (set_step_size p h) r /\ rk4_step r = (q, Err x) /\
  step_size q = h /\ m_dot q = m_dot p /\ m0 q = m0 p /\ thrust_direction q = thrust_direction p /\ isp q = isp p /\
  value (g_epoch (rk_state q)) = value (g_epoch (rk_state p)) + INR k * (h / 86400).
Proof.
  intros H. rewrite step_to_epoch_form in H. cbv zeta in H.
  destruct (rk4_steps _ _) as [r [[]|x']] eqn:E; inversion H. subst r x'. clear H.
  apply steps_err in E. destruct E as (k & r & L & S & F).
  replace (0 <? parts p e)%nat with true in S by (symmetry; apply Nat.ltb_lt; lia).
  exists (parts p e), k, r. split; [apply parts_fewest|]. split; auto. cbv zeta.
  fold (substep p e). split; auto. split; auto.
  destruct (stepped_inv _ _ _ S) as [(A1 & A2 & A3 & A4 & A5) V]. destruct (step_err _ _ _ F) as [(B1 & B2 & B3 & B4 & B5) [W _]].
  cbn [set_step_size step_size m_dot m0 thrust_direction isp rk_state] in *.
  rewrite W, V, <- B1, <- B2, <- B3, <- B4, <- B5. repeat split; auto.
Qed.

(** * Maneuvers *)
Lemma burn_ok dv md m i : md <> 0 -> m <> 0 -> i <> 0 ->
  burn_duration dv md m i = Ok (m / md * (1 - exp (- dv / (i * 0.00981)))).
Proof.
  intros H1 H2 H3. unfold burn_duration. change SEA_LEVEL_G with 0.00981.
  assert (G : 0.00981 <> 0) by lra. set (g := 0.00981) in *. clearbody g.
  assert (Q : md / m <> 0) by (unfold Rdiv; apply Rmult_integral_contrapositive; split; auto; apply Rinv_neq_0_compat; auto).
  rewrite pdiv_ok by auto. cbn [bind]. rewrite pdiv_ok by auto. cbn [bind].
  rewrite pdiv_ok. 2:{ replace (- i * (md / m) * g) with (- (i * (md / m) * g)) by ring. apply Ropp_neq_0_compat.
    repeat (apply Rmult_integral_contrapositive; split; auto). }
  cbn [bind]. apply f_equal. unfold nexp.
  replace (md / m * dv / (- i * (md / m) * g)) with (- dv / (i * g)) by (field; repeat split; auto).
  field. auto.
Qed.
Lemma burn_err dv md m i : md = 0 \/ m = 0 \/ i = 0 -> burn_duration dv md m i = Err ZeroDivisionError.
Proof.
  intros H. unfold burn_duration. destruct (Req_dec m 0) as [->|Hm]; [rewrite pdiv_zero; reflexivity|].
  rewrite pdiv_ok by auto. cbn [bind]. destruct (Req_dec md 0) as [->|Hd].
  - unfold Rdiv at 1. rewrite Rmult_0_l, pdiv_zero. reflexivity.
  - destruct H as [H|[H|H]]; try contradiction. subst i.
    rewrite pdiv_ok. 2:{ unfold Rdiv; apply Rmult_integral_contrapositive; split; auto; apply Rinv_neq_0_compat; auto. }
    cbn [bind]. rewrite Ropp_0, !Rmult_0_l, pdiv_zero. reflexivity.
Qed.
Lemma exp_neg_range x : 0 <= x -> 0 < exp (- x) <= 1.
Proof.
  intros H. split; [apply exp_pos|]. rewrite <- exp_0. destruct H as [H|<-]; [left; apply exp_increasing; lra|].
  rewrite Ropp_0. lra.
Qed.
Lemma burn_rocket dv md m i : 0 <= dv -> 0 < md -> 0 < m -> 0 < i -> exists T,
  burn_duration dv md m i = Ok T /\ 0 <= T < m / md /\ (T = 0 <-> dv = 0) /\
  i * 0.00981 * ln (m / (m - md * T)) = dv.
Proof.
  intros Hv Hd Hm Hi. eexists. split; [apply burn_ok; lra|].
  assert (G : 0 < i * 0.00981) by lra. set (g := i * 0.00981) in *. clearbody g.
  assert (Q : 0 <= dv / g) by (apply Rdiv_nonneg; lra).
  replace (- dv / g) with (- (dv / g)) by (field; lra).
  assert (E := exp_neg_range _ Q). assert (P : 0 < m / md) by (apply Rdiv_pos; lra).
  set (x := exp (- (dv / g))) in *.
  split; [split; nra|]. split.
  - split; intros Z.
    + assert (X : x = 1). { apply Rmult_integral in Z. destruct Z; lra. }
      unfold x in X. rewrite <- exp_0 in X. apply exp_inv in X. replace dv with (dv / g * g) by (field; lra). nra.
    + subst dv. unfold x. replace (- (0 / g)) with 0 by (field; lra). rewrite exp_0. ring.
  - replace (m - md * (m / md * (1 - x))) with (m * x) by (field; lra).
    replace (m / (m * x)) with (/ x) by (field; lra).
    rewrite ln_Rinv by lra. unfold x. rewrite ln_exp. field. lra.
Qed.
Lemma burn_increasing dv1 dv2 md m i T1 T2 : 0 < md -> 0 < m -> 0 < i -> dv1 < dv2 ->
  burn_duration dv1 md m i = Ok T1 -> burn_duration dv2 md m i = Ok T2 -> T1 < T2.
Proof.
  intros Hd Hm Hi L E1 E2. rewrite burn_ok in E1, E2 by lra. inversion E1. inversion E2.
  apply Rmult_lt_compat_l; [apply Rdiv_pos; lra|].
  assert (exp (- dv2 / (i * 0.00981)) < exp (- dv1 / (i * 0.00981))); [|lra].
  apply exp_increasing. apply Rmult_lt_compat_r; [apply Rinv_0_lt_compat; lra|lra].
Qed.

Lemma maneuver_ok p d md m i q : rk4_maneuver p d md m i = (q, Ok tt) ->
  exists T, burn_duration (norm d) md m i = Ok T /\
  value (g_epoch (rk_state q)) = value (g_epoch (rk_state p)) + T / 86400 /\
  step_size q = step_size p /\ m_dot q = 0 /\ forall t, thrust_vector q t = Ok zero3.
Proof.
  intros H. unfold rk4_maneuver in H. change (v3_magnitude d) with (norm d) in H.
  destruct (burn_duration (norm d) md m i) as [T|]; [|discriminate]. exists T. split; auto.
  destruct (rk4_step_to_epoch _ _) as [r [[]|]] eqn:E; inversion H. subst q. clear H.
  apply step_to_epoch_lands in E. destruct E as [E (S & _)]. cbn in S.
  cbn [set_thruster_off rk_state step_size m_dot]. rewrite E. 
  split; [reflexivity|]. split; [auto|]. split; [reflexivity|]. intros t. apply thrust_off. reflexivity.
Qed.
Lemma maneuver_err p d md m i q x : rk4_maneuver p d md m i = (q, Err x) ->
  (burn_duration (norm d) md m i = Err x /\ q = p) \/
  (exists T n, burn_duration (norm d) md m i = Ok T /\ fewest_parts T 300 n /\ n <> 0%nat /\
   m_dot q = md /\ m0 q = m /\ isp q = i /\ thrust_direction q = d /\ step_size q = T / INR n).
Proof.
  intros H. unfold rk4_maneuver in H. change (v3_magnitude d) with (norm d) in H.
  destruct (burn_duration (norm d) md m i) as [T|]; [right|left; inversion H; auto].
  destruct (rk4_step_to_epoch _ _) as [r [[]|]] eqn:E; inversion H. subst. clear H.
  apply step_to_epoch_err in E. destruct E as (n & k & r & F & L & _ & _ & S & A & B & C & D & _).
  cbn [set_thruster rk_state m_dot m0 thrust_direction isp g_epoch] in *. rewrite v3_copy_id in C.
  assert (V : (value (plus_days (g_epoch (rk_state p)) (T / SECONDS_IN_DAY)) - value (g_epoch (rk_state p))) * 86400 = T).
  { unfold plus_days, SECONDS_IN_DAY. cbn [value]. lra. }
  rewrite V in F, S. exists T, n. repeat split; auto; try apply F. lia.
Qed.
(** Mass is not carried from one sub-step to the next. *)
Lemma thrust_restarts n p q t : stepped n p q -> thrust_vector q t = thrust_vector p t.
Proof.
  intros H. apply stepped_inv in H. destruct H as [(_ & A & B & C & D) _]. unfold thrust_vector. rewrite A, B, C, D. reflexivity.
Qed.

(** * Perturbation switch *)
Lemma constructor_flag s : let p := RK4 s in
  g_use_perturbations (rk_state p) = true /\ g_srp_scalar (rk_state p) = 0 /\ g_thrust (rk_state p) = zero3 /\
  g_epoch (rk_state p) = g_epoch s /\ g_position (rk_state p) = g_position s /\ g_velocity (rk_state p) = g_velocity s /\
  step_size p = 300 /\ m_dot p = 0.
Proof. repeat split. Qed.

(** * The integration scheme itself *)
Lemma rk_driven a b c h r v y' : runge_kutta (driven a b c) (driven a b c) h (r, v) y' ->
  y' = (add r (add (scale h v) (add (scale (h ^ 2 / 2) a) (add (scale (h ^ 3 / 6) b) (scale (h ^ 4 / 12) c)))),
        add v (add (scale h a) (add (scale (h ^ 2 / 2) b) (scale (h ^ 3 / 3) c)))).
Proof.
  intros (k1 & k2 & k3 & k4 & K1 & K2 & K3 & K4 & ->). unfold driven in *. subst. unfold padd, pscale. cbn [fst snd].
  replace (h / 2) with (3 * (h / 6)) by field. replace (h ^ 2 / 2) with (18 * (h / 6) ^ 2) by field.
  replace (h ^ 3 / 6) with (36 * (h / 6) ^ 3) by field. replace (h ^ 4 / 12) with (108 * (h / 6) ^ 4) by field.
  replace (h ^ 3 / 3) with (72 * (h / 6) ^ 3) by field. replace h with (6 * (h / 6)) by field. replace (6 * (h / 6) / 6) with (h / 6) by field.
  generalize (h / 6). intros u. apply pair_eq; apply vec3_eq; comps; ring.
Qed.
Lemma rk_linear c h r v y' : runge_kutta (linear c) (linear c) h (r, v) y' ->
  y' = (add (scale (1 + c * h ^ 2 / 2 + c ^ 2 * h ^ 4 / 24) r) (scale (h + c * h ^ 3 / 6) v),
        add (scale (c * h + c ^ 2 * h ^ 3 / 6) r) (scale (1 + c * h ^ 2 / 2 + c ^ 2 * h ^ 4 / 24) v)).
Proof.
  intros (k1 & k2 & k3 & k4 & K1 & K2 & K3 & K4 & ->). unfold linear in *. subst. unfold padd, pscale. cbn [fst snd].
  replace (c * h ^ 2 / 2) with (18 * c * (h / 6) ^ 2) by field. replace (c ^ 2 * h ^ 4 / 24) with (54 * c ^ 2 * (h / 6) ^ 4) by field.
  replace (c * h ^ 3 / 6) with (36 * c * (h / 6) ^ 3) by field. replace (c ^ 2 * h ^ 3 / 6) with (36 * c ^ 2 * (h / 6) ^ 3) by field.
  replace (h / 2) with (3 * (h / 6)) by field. replace h with (6 * (h / 6)) by field. replace (6 * (h / 6) / 6) with (h / 6) by field.
  generalize (h / 6). intros u. apply pair_eq; apply vec3_eq; comps; ring.
Qed.

Lemma step_to_epoch_here p : rk4_step_to_epoch p (g_epoch (rk_state p)) = (p, Ok tt).
Proof.
  assert (F := step_to_epoch_form p (g_epoch (rk_state p))). cbv zeta in F. rewrite F.
  assert (P := parts_fewest p (g_epoch (rk_state p))). rewrite Rminus_eq_0, Rmult_0_l in P. destruct P as [_ P].
  assert (parts p (g_epoch (rk_state p)) = 0%nat).
  { assert (parts p (g_epoch (rk_state p)) <= 0)%nat; [|lia]. apply P. rewrite Rabs_R0. simpl. lra. }
  rewrite H. cbn. destruct p; reflexivity.
Qed.
Lemma fewest_bound dt n : fewest_parts dt 300 n -> n <> 0%nat ->
  Rabs (dt / INR n) <= 300 /\ (n <> 1%nat -> 300 < Rabs dt / INR (n - 1)).
Proof.
  intros [H1 H2] N. assert (P : 0 < INR n) by (apply (lt_INR 0); lia). split.
  - unfold Rdiv. rewrite Rabs_mult, (Rabs_pos_eq (/ INR n)) by (left; apply Rinv_0_lt_compat; auto).
    apply Rmult_le_reg_r with (INR n); auto. rewrite Rmult_assoc, Rinv_l by lra. lra.
  - intros N1. assert (Q : 0 < INR (n - 1)) by (apply (lt_INR 0); lia).
    destruct (Rle_dec (Rabs dt) (300 * INR (n - 1))) as [L|L].
    + apply H2 in L. lia.
    + apply Rmult_lt_reg_r with (INR (n - 1)); auto. unfold Rdiv. rewrite Rmult_assoc, Rinv_l by lra. lra.
Qed.
Lemma stepped_flag n : forall p q, stepped (S n) p q -> g_use_perturbations (rk_state q) = true /\ g_srp_scalar (rk_state q) = 0.
Proof.
  induction n as [|n IH]; intros p q H; inversion H; subst.
  - inversion H2; subst. destruct (step_inv _ _ H1) as (_ & _ & A & B & _). auto.
  - apply (IH q0); auto.
Qed.
