(** Burns split into several sub-steps. *)
From Coq Require Import Reals Lra Psatz Lia ZArith.
From Coquelicot Require Import Coquelicot.
From Verif.Model Require Import Num Constants Linalg Functions Time Celestial Positions States Inertial.
From Verif.Spec Require Import Geometry Gravity Forces RungeKutta Propagation.
From Verif.Proofs Require Import NumLemmas LinalgProofs MatrixProofs Analysis FunctionsProofs StatesProofs InertialProofs.
Local Open Scope R_scope.

(** * Completeness of the stage description *)
Lemma dynamics_fun p e k b t y k1 k2 : dynamics p e k b t y k1 -> dynamics p e k b t y k2 -> k1 = k2.
Proof. intros (T & E & D) (T' & E' & D'). rewrite E in E'. inversion E'; subst T'. rewrite D in D'. inversion D'. auto. Qed.
Lemma runge_kutta_fun p e k b h y y1 y2 :
  runge_kutta (dynamics p e k b) (dynamics p e 0 true) h y y1 ->
  runge_kutta (dynamics p e k b) (dynamics p e 0 true) h y y2 -> y1 = y2.
Proof.
  intros (a1 & a2 & a3 & a4 & A1 & A2 & A3 & A4 & ->) (b1 & b2 & b3 & b4 & B1 & B2 & B3 & B4 & ->).
  assert (a1 = b1) by (eapply dynamics_fun; eauto). subst b1.
  assert (a2 = b2) by (eapply dynamics_fun; eauto). subst b2.
  assert (a3 = b3) by (eapply dynamics_fun; eauto). subst b3.
  assert (a4 = b4) by (eapply dynamics_fun; eauto). subst b4. reflexivity.
Qed.
Lemma step_complete p y' : let s := rk_state p in
  runge_kutta (dynamics p (g_epoch s) (g_srp_scalar s) (g_use_perturbations s))
    (dynamics p (g_epoch s) 0 true) (step_size p) (g_position s, g_velocity s) y' ->
  exists q, rk4_step p = (q, Ok tt) /\ (g_position (rk_state q), g_velocity (rk_state q)) = y'.
Proof.
  intros s RK. assert (RK' := RK). destruct RK' as (k1 & k2 & k3 & k4 & (T0 & E0 & D1) & (T1 & E1 & D2) & (T1' & E1' & D3) & (T2 & E2 & D4) & _).
  rewrite E1 in E1'. inversion E1'. subst T1'. clear E1'. set (h := step_size p) in *.
  cut (exists q, rk4_step p = (q, Ok tt)).
  { intros [q Q]. exists q. split; auto. destruct (step_inv _ _ Q) as (_ & _ & _ & _ & _ & RK').
    cbv zeta in RK'. exact (runge_kutta_fun _ _ _ _ _ _ _ _ RK' RK). }
  unfold rk4_step. rewrite E0. set (p0 := set_rk_state p (set_thrust (rk_state p) T0)).
  unfold step_result. change (step_size p0) with h.
  change (gcrf_vector_list (rk_state p0)) with (g_position s, g_velocity s). cbv beta iota zeta.
  replace (derivative (rk_state p0)) with (@Ok _ k1).
  2:{ symmetry. etransitivity; [|exact D1]. cbn [fst snd]. rewrite epoch_zero. reflexivity. }
  cbn [bind]. assert (ST : forall t, thrust_vector p0 t = thrust_vector p t) by reflexivity.
  change (g_epoch (rk_state p0)) with (g_epoch s). change (epoch_copy (g_epoch s)) with (Epoch (value (g_epoch s))).
  assert (PE : plus_days (plus_days (Epoch (value (g_epoch s))) (h / 2 / SECONDS_IN_DAY)) (h / 2 / SECONDS_IN_DAY) = Epoch (value (g_epoch s) + h / 86400)).
  { unfold plus_days, SECONDS_IN_DAY. cbn [value]. f_equal. lra. }
  assert (PD : plus_days (Epoch (value (g_epoch s))) (h / 2 / SECONDS_IN_DAY) = Epoch (value (g_epoch s) + h / 2 / 86400)) by reflexivity.
  rewrite PE, PD. clear PE PD.
  unfold stage. rewrite !ST. replace (h / 2 * 2) with h by field. rewrite E1, E2. cbn [bind fst snd]. change v3_plus with add. rewrite !v3_scaled_scale.
  match goal with |- context [derivative ?a] => replace (derivative a) with (@Ok _ k2) by (symmetry; exact D2) end.
  cbn [bind fst snd]. rewrite !v3_scaled_scale.
  match goal with |- context [derivative ?a] => replace (derivative a) with (@Ok _ k3) by (symmetry; exact D3) end.
  cbn [bind fst snd]. rewrite !v3_scaled_scale.
  match goal with |- context [derivative ?a] => replace (derivative a) with (@Ok _ k4) by (symmetry; exact D4) end.
  cbn [bind fst snd]. eexists. reflexivity.
Qed.

(** * The thrust part of a step *)
Lemma derivative_split e r v T k b d : derivative (Gcrf e r v T k b) = Ok d ->
  exists a, derivative (Gcrf e r v zero3 k b) = Ok (v, a) /\ d = (v, add T a).
Proof.
  unfold derivative, acceleration_from_thrust. rewrite !v3_copy_id. cbn [g_thrust g_use_perturbations g_velocity].
  assert (C1 : forall T', acceleration_from_earth (Gcrf e r v T' k b) = acceleration_from_earth (Gcrf e r v T k b)) by reflexivity.
  assert (C2 : forall T', acceleration_from_moon (Gcrf e r v T' k b) = acceleration_from_moon (Gcrf e r v T k b)) by reflexivity.
  assert (C3 : forall T', acceleration_from_sun (Gcrf e r v T' k b) = acceleration_from_sun (Gcrf e r v T k b)) by reflexivity.
  assert (C4 : forall T', acceleration_from_srp (Gcrf e r v T' k b) = acceleration_from_srp (Gcrf e r v T k b)) by reflexivity.
  assert (C5 : forall T', acceleration_from_gravity (Gcrf e r v T' k b) = acceleration_from_gravity (Gcrf e r v T k b)) by reflexivity.
  rewrite (C1 zero3), (C2 zero3), (C3 zero3), (C4 zero3), (C5 zero3). clear.
  destruct acceleration_from_earth as [ae|]; [|discriminate]. cbn [bind]. destruct b.
  - destruct acceleration_from_moon as [am|]; [|discriminate]. cbn [bind].
    destruct acceleration_from_sun as [asn|]; [|discriminate]. cbn [bind].
    destruct acceleration_from_srp as [ap|]; [|discriminate]. cbn [bind].
    destruct acceleration_from_gravity as [ag|]; [|discriminate]. cbn [bind].
    intros E. inversion E. eexists. split; [reflexivity|]. apply pair_eq; auto. change v3_plus with add. veq; ring.
  - cbn [bind]. intros E. inversion E. eexists. split; [reflexivity|]. apply pair_eq; auto. change v3_plus with add. veq; ring.
Qed.
Lemma step_thrust p q : rk4_step p = (q, Ok tt) -> exists w g,
  thrust_part p (step_size p) w /\ natural_part (step_size p) g /\
  sub (g_velocity (rk_state q)) (g_velocity (rk_state p)) = add w g.
Proof.
  intros H. destruct (step_inv _ _ H) as (_ & _ & _ & _ & _ & RK). cbv zeta in RK. set (h := step_size p) in *.
  destruct RK as (k1 & k2 & k3 & k4 & (T0 & E0 & D1) & (T1 & E1 & D2) & (T1' & E1' & D3) & (T2 & E2 & D4) & Y).
  rewrite E1 in E1'. inversion E1'. subst T1'. clear E1'.
  destruct (derivative_split _ _ _ _ _ _ _ D1) as (b1 & F1 & ->).
  destruct (derivative_split _ _ _ _ _ _ _ D2) as (b2 & F2 & ->).
  destruct (derivative_split _ _ _ _ _ _ _ D3) as (b3 & F3 & ->).
  destruct (derivative_split _ _ _ _ _ _ _ D4) as (b4 & F4 & ->).
  exists (scale (h / 6) (add T0 (add (scale 4 T1) T2))), (scale (h / 6) (add b1 (add (scale 2 b2) (add (scale 2 b3) b4)))).
  split; [exists T0, T1, T2; auto|]. split.
  - exists b1, b2, b3, b4. split; auto. intros b [<-|[<-|[<-|[<-|[]]]]].
    + eexists; split; [|exact F1]; reflexivity.
    + eexists; split; [|exact F2]; reflexivity.
    + eexists; split; [|exact F3]; reflexivity.
    + eexists; split; [|exact F4]; reflexivity.
  - apply (f_equal snd) in Y. cbn [snd padd pscale] in Y. rewrite Y. clear. generalize (h / 6). intros u.
    apply vec3_eq; unfold sub; cbn [x3 y3 z3]; comps; ring.
Qed.
Lemma steps_thrust p w : thrust_part p (step_size p) w -> forall n q, stepped n p q -> exists gs,
  length gs = n /\ List.Forall (natural_part (step_size p)) gs /\
  sub (g_velocity (rk_state q)) (g_velocity (rk_state p)) = add (scale (INR n) w) (total gs).
Proof.
  intros Hw n q H. induction H as [p|n p q r H1 H2 IH].
  - exists nil. split; auto. split; auto. simpl INR. unfold total. cbn [List.fold_right]. veq; ring.
  - destruct (step_inv _ _ H1) as ((Es & E2 & E3 & E4 & E5) & _).
    destruct (step_thrust _ _ H1) as (w' & g & Hw' & Hg & E).
    assert (w' = w).
    { destruct Hw as (a & b & c & A & B & C & ->), Hw' as (a' & b' & c' & A' & B' & C' & ->). congruence. } subst w'.
    destruct IH as (gs & L & F & V).
    { rewrite <- Es. destruct Hw as (a & b & c & A & B & C & ->). exists a, b, c. unfold thrust_vector in *.
      rewrite <- E2, <- E3, <- E4, <- E5. auto. }
    exists (cons g gs). rewrite <- Es in F. split; [cbn; auto|]. split; [constructor; auto|].
    replace (sub (g_velocity (rk_state r)) (g_velocity (rk_state p))) with
      (add (sub (g_velocity (rk_state r)) (g_velocity (rk_state q))) (sub (g_velocity (rk_state q)) (g_velocity (rk_state p)))) by (veq; ring).
    rewrite V, E, S_INR. unfold total. cbn [List.fold_right]. apply vec3_eq; comps; ring.
Qed.

(** * Simpson's rule for the rocket acceleration *)
Definition simpson (x : R) : R := x / 6 * (1 + 4 / (1 - x / 2) + 1 / (1 - x)).
Lemma rocket_simpson md m i d h : 0 < md -> 0 < m -> d <> zero3 -> 0 <= h -> md * h < m ->
  scale (h / 6) (add (rocket md m i d 0) (add (scale 4 (rocket md m i d (h / 2))) (rocket md m i d h)))
  = scale (i * 0.00981 * simpson (md * h / m) / norm d) d.
Proof.
  intros H1 H2 Hd H3 H4. apply norm_pos in Hd. unfold rocket, simpson. generalize 0.00981. intros g.
  set (n := norm d) in *. clearbody n. 
  assert (m - md * (h / 2) <> 0) by nra. assert (m - md * h <> 0) by lra. assert (m * 2 - md * h <> 0) by nra.
  apply vec3_eq; comps; field; repeat split; lra.
Qed.
(** lower bound by mean value: f(0) = 0 and f' >= 0 *)
Lemma increasing_from_zero (f f' : R -> R) x : 0 < x ->
  (forall t, 0 <= t <= x -> is_derive f t (f' t)) -> f 0 = 0 ->
  (forall t, 0 < t <= x -> 0 < f' t) -> 0 < f x.
Proof.
  intros Hx HD H0 HP.
  destruct (MVT_cor2 f f' 0 x Hx) as (c & E & C).
  { intros c Hc. apply is_derive_Reals. apply HD; auto. }
  rewrite H0 in E. assert (0 < f' c) by (apply HP; lra). nra.
Qed.
Lemma inv_mono a b : 0 < a -> a <= b -> 1 / b <= 1 / a.
Proof. intros. unfold Rdiv. rewrite !Rmult_1_l. apply Rinv_le_contravar; auto. Qed.
Lemma simpson_multi n x : (2 <= n)%nat -> 0 < x -> INR n * x < 1 -> INR n * simpson x < - ln (1 - INR n * x).
Proof.
  intros Hn Hx H1. assert (N : 2 <= INR n) by (apply (le_INR 2) in Hn; simpl in Hn; lra). set (k := INR n) in *. clearbody k. clear n Hn.
  cut (0 < - ln (1 - k * x) - k * simpson x); [lra|].
  apply (increasing_from_zero (fun x => - ln (1 - k * x) - k * simpson x)
    (fun x => k / (1 - k * x) - k * (1 / 6 + 2 / 3 / ((1 - x / 2) * (1 - x / 2)) + 1 / 6 / ((1 - x) * (1 - x))))); auto.
  - intros t Ht. assert (k * t <= k * x) by nra. assert (t < 1 / 2) by nra. unfold simpson. auto_derive.
    + repeat split; lra.
    + field. repeat split; lra.
  - unfold simpson. rewrite Rmult_0_r, Rminus_0_r, ln_1. field.
  - intros t Ht. assert (k * t <= k * x) by nra. assert (t < 1 / 2) by nra.
    assert (A : 1 / (1 - 2 * t) <= 1 / (1 - k * t)) by (apply inv_mono; nra).
    assert (B : 1 / ((1 - t) * (1 - t)) < 1 / (1 - 2 * t)).
    { unfold Rdiv. rewrite !Rmult_1_l. apply Rinv_lt_contravar; nra. }
    assert (C : 1 / ((1 - t / 2) * (1 - t / 2)) <= 1 / ((1 - t) * (1 - t))) by (apply inv_mono; nra).
    assert (D : 1 <= 1 / ((1 - t) * (1 - t))).
    { replace 1 with (1 / 1) at 1 by field. apply inv_mono; nra. }
    replace (2 / 3 / ((1 - t / 2) * (1 - t / 2))) with (2 / 3 * (1 / ((1 - t / 2) * (1 - t / 2)))) by (field; nra).
    replace (1 / 6 / ((1 - t) * (1 - t))) with (1 / 6 * (1 / ((1 - t) * (1 - t)))) by (field; nra).
    replace (k / (1 - k * t)) with (k * (1 / (1 - k * t))) by (field; nra).
    set (a := 1 / (1 - k * t)) in *. set (b := 1 / ((1 - t) * (1 - t))) in *. set (c := 1 / ((1 - t / 2) * (1 - t / 2))) in *.
    set (e := 1 / (1 - 2 * t)) in *. clearbody a b c e. nra.
Qed.
Lemma simpson_single x : 0 < x < 1 -> - ln (1 - x) < simpson x.
Proof.
  intros [Hx H1]. cut (0 < simpson x + ln (1 - x)); [lra|].
  apply (increasing_from_zero (fun x => simpson x + ln (1 - x))
    (fun x => 1 / 6 + 2 / 3 / ((1 - x / 2) * (1 - x / 2)) + 1 / 6 / ((1 - x) * (1 - x)) - 1 / (1 - x))); auto.
  - intros t Ht. unfold simpson. auto_derive.
    + repeat split; lra.
    + field. repeat split; lra.
  - unfold simpson. rewrite Rminus_0_r, ln_1. field.
  - intros t Ht. 
    replace (1 / 6 + 2 / 3 / ((1 - t / 2) * (1 - t / 2)) + 1 / 6 / ((1 - t) * (1 - t)) - 1 / (1 - t)) with
      (t * t * t * t / (6 * ((1 - t) * (1 - t) * ((2 - t) * (2 - t))))) by (field; repeat split; lra).
    apply Rdiv_pos; repeat apply Rmult_lt_0_compat; lra.
Qed.

Lemma fewest_one dt n : fewest_parts dt 300 n -> 0 < dt <= 300 -> n = 1%nat.
Proof.
  intros [H1 H2] H. rewrite Rabs_pos_eq in * by lra. specialize (H2 1%nat). simpl INR in H2.
  assert (n <= 1)%nat by (apply H2; lra). destruct n as [|[|]]; auto; try lia. simpl in H1. lra.
Qed.
Lemma fewest_many dt n : fewest_parts dt 300 n -> 300 < dt -> (2 <= n)%nat.
Proof.
  intros [H1 H2] H. rewrite Rabs_pos_eq in H1 by lra. destruct n as [|[|n]]; [| |lia]; simpl in H1; lra.
Qed.
Lemma maneuver_trace p d md m i q T : 0 < md -> 0 < m -> 0 < i -> d <> zero3 ->
  burn_duration (norm d) md m i = Ok T -> rk4_maneuver p d md m i = (q, Ok tt) ->
  exists n, fewest_parts T 300 n /\ n <> 0%nat /\ exists c gs,
    length gs = n /\ List.Forall (natural_part (T / INR n)) gs /\
    sub (g_velocity (rk_state q)) (g_velocity (rk_state p)) = add (scale c d) (total gs) /\
    c * norm d = i * 0.00981 * (INR n * simpson (md * (T / INR n) / m)) /\
    0 < md * (T / INR n) / m /\ INR n * (md * (T / INR n) / m) < 1 /\
    norm d = i * 0.00981 * - ln (1 - INR n * (md * (T / INR n) / m)).
Proof.
  intros H1 H2 H3 Hd HT HM. assert (Nd := norm_pos _ Hd).
  destruct (burn_rocket (norm d) md m i) as (T' & HT' & (B0 & B1) & BZ & BL); try lra. rewrite HT in HT'. inversion HT'. subst T'. clear HT'.
  assert (T0 : 0 < T). { destruct B0 as [|E]; auto. symmetry in E. apply BZ in E. lra. }
  unfold rk4_maneuver in HM. change (v3_magnitude d) with (norm d) in HM. rewrite HT in HM. cbv iota in HM.
  set (p1 := set_thruster p (v3_copy d) m md i) in *.
  destruct (rk4_step_to_epoch p1 _) as [q1 [[]|x]] eqn:E; [|discriminate]. inversion HM. subst q. clear HM.
  destruct (step_to_epoch_ok _ _ _ E) as (n & F & _ & F1). 
  assert (Edt : (value (plus_days (g_epoch (rk_state p1)) (T / SECONDS_IN_DAY)) - value (g_epoch (rk_state p1))) * 86400 = T).
  { unfold plus_days, SECONDS_IN_DAY. cbn [value]. lra. }
  rewrite Edt in F, F1. exists n. split; auto.
  assert (Hn : n <> 0%nat). { intros ->. apply fewest_zero in F; lra. }
  split; auto. destruct (F1 Hn) as (r & S & ->). clear F1.
  assert (Pn : 0 < INR n) by (apply (lt_INR 0); lia). set (h := T / INR n) in *.
  assert (Hh : INR n * h = T) by (unfold h; field; lra). assert (h0 : 0 < h) by (unfold h; apply Rdiv_pos; auto).
  assert (n1 : 1 <= INR n) by (apply (le_INR 1); lia).
  assert (MT : md * T < m). { apply Rmult_lt_reg_r with (/ md); [apply Rinv_0_lt_compat; auto|]. replace (md * T * / md) with T by (field; lra). exact B1. }
  assert (Mh : md * h <= md * T) by (apply Rmult_le_compat_l; [lra|nra]).
  set (w := scale (i * 0.00981 * simpson (md * h / m) / norm d) d).
  assert (TP : forall t, 0 <= t <= h -> thrust_vector (set_step_size p1 h) t = Ok (rocket md m i d t)).
  { intros t Ht. rewrite (thrust_rocket (set_step_size p1 h)); cbn [set_step_size m_dot m0 isp thrust_direction p1 set_thruster]; rewrite ?v3_copy_id; auto; try lra.
    assert (md * t <= md * h) by (apply Rmult_le_compat_l; lra).
    assert (md * t / m < 1); [|lra]. apply Rmult_lt_reg_r with m; auto. unfold Rdiv. rewrite Rmult_assoc, Rinv_l; lra. }
  assert (W : thrust_part (set_step_size p1 h) (step_size (set_step_size p1 h)) w).
  { cbn [set_step_size step_size]. exists (rocket md m i d 0), (rocket md m i d (h / 2)), (rocket md m i d h).
    rewrite !TP by lra. repeat (split; [reflexivity|]). unfold w. symmetry. apply rocket_simpson; auto; lra. }
  destruct (steps_thrust _ _ W _ _ S) as (gs & L & G & V). cbn [set_step_size step_size] in G.
  exists (INR n * (i * 0.00981 * simpson (md * h / m) / norm d)), gs. split; auto. split; auto. split.
  { cbn [set_thruster_off rk_state set_step_size]. etransitivity; [exact V|]. unfold w. apply vec3_eq; comps; ring. }
  split. { field. lra. }
  assert (X : INR n * (md * h / m) = md * T / m) by (rewrite <- Hh; field; lra). rewrite X.
  split; [apply Rdiv_pos; auto; apply Rmult_lt_0_compat; auto|]. split.
  { apply Rmult_lt_reg_r with m; auto. unfold Rdiv. rewrite Rmult_assoc, Rinv_l; lra. }
  rewrite <- BL at 1. f_equal. replace (m / (m - md * T)) with (/ (1 - md * T / m)) by (field; lra).
  rewrite ln_Rinv; auto. assert (md * T / m < 1); [|lra].
  apply Rmult_lt_reg_r with m; auto. unfold Rdiv. rewrite Rmult_assoc, Rinv_l; lra.
Qed.
Lemma maneuver_delivers p d md m i q T : 0 < md -> 0 < m -> 0 < i -> d <> zero3 ->
  burn_duration (norm d) md m i = Ok T -> rk4_maneuver p d md m i = (q, Ok tt) ->
  exists n c gs, fewest_parts T 300 n /\ length gs = n /\ List.Forall (natural_part (T / INR n)) gs /\
    sub (g_velocity (rk_state q)) (g_velocity (rk_state p)) = add (scale c d) (total gs) /\
    0 < c /\ (300 < T -> c < 1) /\ (T <= 300 -> 1 < c).
Proof.
  intros H1 H2 H3 Hd HT HM. assert (Nd := norm_pos _ Hd).
  destruct (maneuver_trace _ _ _ _ _ _ _ H1 H2 H3 Hd HT HM) as (n & F & N0 & c & gs & L & G & V & C & X0 & X1 & DV).
  exists n, c, gs. repeat (split; [assumption|]).
  destruct (burn_rocket (norm d) md m i) as (T' & HT' & (B0 & _) & BZ & _); try lra. rewrite HT in HT'. inversion HT'. subst T'. clear HT'.
  assert (T0 : 0 < T). { destruct B0 as [|E]; auto. symmetry in E. apply BZ in E. lra. }
  set (x := md * (T / INR n) / m) in *. clearbody x.
  assert (Ig : 0 < i * 0.00981) by lra. set (ig := i * 0.00981) in *. clearbody ig.
  assert (Pn : 0 < INR n) by (apply (lt_INR 0); lia).
  assert (n1 : 1 <= INR n) by (apply (le_INR 1); lia).
  assert (S0 : - ln (1 - x) < simpson x) by (apply simpson_single; nra).
  assert (L0 : 0 < - ln (1 - x)). { assert (ln (1 - x) < 0); [|lra]. rewrite <- ln_1. apply ln_increasing; nra. }
  split; [|split].
  - apply Rmult_lt_reg_r with (norm d); auto. rewrite C. rewrite Rmult_0_l. apply Rmult_lt_0_compat; auto. apply Rmult_lt_0_compat; lra.
  - intros HL. assert (N2 := fewest_many _ _ F HL). apply Rmult_lt_reg_r with (norm d); auto. rewrite C, Rmult_1_l, DV.
    apply Rmult_lt_compat_l; auto. apply simpson_multi; auto.
  - intros HL. assert (N1 : n = 1%nat) by (apply (fewest_one T); auto). rewrite N1 in C, DV.
    replace (INR 1) with 1 in C, DV by reflexivity. rewrite Rmult_1_l in C. rewrite Rmult_1_l in DV.
    assert (ig * - ln (1 - x) < ig * simpson x) by (apply Rmult_lt_compat_l; auto). apply Rmult_lt_reg_r with (norm d); auto. lra.
Qed.
