(** Between UTC midnights the propagator is accurate to fourth order in the step. *)
From Coq Require Import Reals Lra Psatz Lia List.
From Verif.Model Require Import Num Constants Linalg Functions Time Celestial Positions States Inertial.
From Verif.Spec Require Import Geometry Gravity Forces RungeKutta Propagation Motion.
From Verif.Proofs Require Import NumLemmas LinalgProofs MatrixProofs Analysis FunctionsProofs TimeProofs StatesProofs InertialProofs AccelerationProofs SafeStep Calm SmoothForces ConvergenceProofs MotionExists.
From Verif.Proofs Require Import Paths LocalError.
Local Open Scope R_scope.

(** * Stages of a step from a state near the motion *)
Definition a1_of (e : epoch) (t h : R) (r v : vec3) : vec3 := total_acc (point e t r).
Definition a2_of (e : epoch) (t h : R) (r v : vec3) : vec3 := total_acc (point e (t + h / 2) (add r (scale (h / 2) v))).
Definition a3_of (e : epoch) (t h : R) (r v : vec3) : vec3 :=
  total_acc (point e (t + h / 2) (add r (scale (h / 2) (add v (scale (h / 2) (a1_of e t h r v)))))).
Definition a4_of (e : epoch) (t h : R) (r v : vec3) : vec3 :=
  total_acc (point e (t + h) (add r (scale h (add v (scale (h / 2) (a2_of e t h r v)))))).
Lemma stages_fly L e T r v a D W t h rn vn : lipschitz_forces L -> 0 <= D -> clear_along e T r D -> follows_forces e T r v a ->
  during T t -> during T (t + h) -> (forall s, during T s -> norm (v s) <= W) -> norm vn + Rabs h * L <= W ->
  norm (sub rn (r t)) + 4 * (Rabs h * W) <= D ->
  rk_points e t h rn vn (a1_of e t h rn vn) (a2_of e t h rn vn) (a3_of e t h rn vn) (a4_of e t h rn vn).
Proof.
  intros HL HD C FF Dt Dh Bv Bn BD. assert (HL' := HL). destruct HL' as (L0 & HL').
  assert (H0 := Rabs_pos h). assert (Nn := norm_nonneg vn). assert (W0 : 0 <= W) by (assert (Q := Bv t Dt); generalize (norm_nonneg (v t)); lra).
  assert (St : Rmin t (t + h) <= t <= Rmax t (t + h)) by (unfold Rmin, Rmax; destruct Rle_dec; lra).
  assert (S2 : Rmin t (t + h) <= t + h / 2 <= Rmax t (t + h)) by (unfold Rmin, Rmax; destruct Rle_dec; lra).
  assert (S4 : Rmin t (t + h) <= t + h <= Rmax t (t + h)) by (unfold Rmin, Rmax; destruct Rle_dec; lra).
  assert (Iv : forall s, during T s -> integral_of v s (sub (r s) (r 0))) by (intros s Hs; destruct (FF s Hs) as (_ & ? & ?); assumption).
  assert (Mr := moved v r T t h W W0 Iv Dt Dh Bv).
  assert (Near : forall s w, Rmin t (t + h) <= s <= Rmax t (t + h) -> norm w <= Rabs h * W -> flyable (later e s) (add rn w)).
  { intros s w Hs Hw. apply C; [apply (during_between T t (t + h)); auto|].
    eapply Rle_trans; [apply (sub_triangle _ rn)|]. rewrite sub_add. assert (T1 := sub_triangle rn (r t) (r s)).
    rewrite (sub_sym (r t)) in T1. assert (T2 := Mr s Hs). lra. }
  assert (Acc : forall s x, flyable (later e s) x -> norm (total_acc (point e s x)) <= L).
  { intros s x F. destruct (HL' _ _ (point_flying e s _ F) (point_flying e s _ F)); auto. }
  assert (Half : Rabs (h / 2) <= Rabs h) by (unfold Rabs; repeat destruct Rcase_abs; lra).
  assert (Sv : forall k x, Rabs k <= Rabs h -> norm x <= L -> norm (add vn (scale k x)) <= W).
  { intros k x Hk Hx. assert (Q : norm (scale k x) <= Rabs h * L) by (rewrite norm_scale; apply Rmult_le_compat; auto using Rabs_pos, norm_nonneg).
    eapply Rle_trans; [apply norm_triangle|]. lra. }
  assert (F1 : flyable (later e t) rn).
  { replace rn with (add rn zero3) by apply add_zero. apply Near; auto. replace (norm zero3) with 0 by (symmetry; apply norm_zero; auto). apply Rmult_le_pos; auto. }
  assert (F2 : flyable (later e (t + h / 2)) (add rn (scale (h / 2) vn))).
  { apply Near; auto. rewrite norm_scale. apply Rmult_le_compat; auto using Rabs_pos. nra. }
  assert (F3 : flyable (later e (t + h / 2)) (add rn (scale (h / 2) (add vn (scale (h / 2) (a1_of e t h rn vn)))))).
  { apply Near; auto. rewrite norm_scale. apply Rmult_le_compat; auto using Rabs_pos, norm_nonneg. apply Sv; auto. apply Acc; auto. }
  assert (F4 : flyable (later e (t + h)) (add rn (scale h (add vn (scale (h / 2) (a2_of e t h rn vn)))))).
  { apply Near; auto. rewrite norm_scale. apply Rmult_le_compat; auto using Rabs_pos, norm_nonneg; [lra|]. apply Sv; auto. apply Acc; auto. }
  split; [split; auto|]. split; [split; auto|]. split; (split; auto).
Qed.
Definition r_after (e : epoch) (t h : R) (r v : vec3) : vec3 :=
  add r (scale h (mean4 v (add v (scale (h / 2) (a1_of e t h r v))) (add v (scale (h / 2) (a2_of e t h r v))) (add v (scale h (a3_of e t h r v))))).
Definition v_after (e : epoch) (t h : R) (r v : vec3) : vec3 :=
  add v (scale h (mean4 (a1_of e t h r v) (a2_of e t h r v) (a3_of e t h r v) (a4_of e t h r v))).

(** * Nearby states stay nearby *)
Lemma mean4_diff a b c d a' b' c' d' M : norm (sub a a') <= M -> norm (sub b b') <= M -> norm (sub c c') <= M -> norm (sub d d') <= M ->
  norm (sub (mean4 a b c d) (mean4 a' b' c' d')) <= M.
Proof.
  intros A B C D. replace (sub (mean4 a b c d) (mean4 a' b' c' d')) with (mean4 (sub a a') (sub b b') (sub c c') (sub d d')) by (unfold mean4; veq; ring).
  rewrite <- (sub_zero (mean4 _ _ _ _)). apply mean4_close; rewrite sub_zero; auto.
Qed.
Lemma adv_diff x k m x' m' : norm (sub (add x (scale k m)) (add x' (scale k m'))) <= norm (sub x x') + Rabs k * norm (sub m m').
Proof.
  replace (sub (add x (scale k m)) (add x' (scale k m'))) with (add (sub x x') (scale k (sub m m'))) by (veq; ring).
  eapply Rle_trans; [apply norm_triangle|]. rewrite norm_scale. lra.
Qed.
Lemma step_stable L b : lipschitz_forces L -> 0 <= b -> exists K, 0 <= K /\ forall e t h r v r' v', Rabs h <= b ->
  rk_points e t h r v (a1_of e t h r v) (a2_of e t h r v) (a3_of e t h r v) (a4_of e t h r v) ->
  rk_points e t h r' v' (a1_of e t h r' v') (a2_of e t h r' v') (a3_of e t h r' v') (a4_of e t h r' v') ->
  separation (r_after e t h r v) (v_after e t h r v) (r_after e t h r' v') (v_after e t h r' v') <= (1 + Rabs h * K) * separation r v r' v'.
Proof.
  intros (L0 & HL) b0.
  set (c := 1 + b). set (M2 := L * c). set (M1 := 1 + b * (L + M2)). set (M3 := L * (1 + b * M1)).
  set (Mv := 1 + b * (L + M2 + M3)). set (Ma := L + M2 + M3 + L * (1 + b * Mv)).
  assert (c0 : 1 <= c) by (unfold c; lra). assert (M20 : 0 <= M2) by (apply Rmult_le_pos; lra).
  assert (M10 : 0 <= M1) by (unfold M1; assert (0 <= b * (L + M2)) by (apply Rmult_le_pos; lra); lra).
  assert (M30 : 0 <= M3) by (unfold M3; apply Rmult_le_pos; [lra|]; assert (0 <= b * M1) by (apply Rmult_le_pos; lra); lra).
  assert (Mv0 : 0 <= Mv) by (unfold Mv; assert (0 <= b * (L + M2 + M3)) by (apply Rmult_le_pos; lra); lra).
  assert (MaL : L + M2 + M3 <= Ma) by (unfold Ma; assert (0 <= L * (1 + b * Mv)); [apply Rmult_le_pos; [lra|]; assert (0 <= b * Mv) by (apply Rmult_le_pos; lra); lra|lra]).
  assert (Ma4 : L * (1 + b * Mv) <= Ma) by (unfold Ma; lra).
  exists (Mv + Ma). split; [lra|]. intros e t h r v r' v' Hh ((F1 & _) & (F2 & _) & (F3 & _) & (F4 & _)) ((F1' & _) & (F2' & _) & (F3' & _) & (F4' & _)).
  assert (Lip : forall s x y, flyable (later e s) x -> flyable (later e s) y -> norm (sub (total_acc (point e s x)) (total_acc (point e s y))) <= L * norm (sub x y)).
  { intros s x y Fx Fy. destruct (HL _ _ (point_flying e s x Fx) (point_flying e s y Fy)) as (_ & Q). cbn [point pt_t pt_r pt_k] in Q.
    rewrite (Rminus_diag_eq (value e + s / 86400) _ eq_refl), (Rminus_diag_eq (day_of _) _ eq_refl), Rabs_R0 in Q. lra. }
  unfold separation. set (E := norm (sub r r') + norm (sub v v')).
  assert (er := norm_nonneg (sub r r')). assert (ev := norm_nonneg (sub v v')). assert (E0 : 0 <= E) by (unfold E; lra).
  assert (h0 := Rabs_pos h). assert (Half : Rabs (h / 2) <= Rabs h) by (clear; unfold Rabs; repeat destruct Rcase_abs; lra). assert (hh0 := Rabs_pos (h / 2)).
  assert (A1 : norm (sub (a1_of e t h r v) (a1_of e t h r' v')) <= L * E).
  { eapply Rle_trans; [apply Lip; auto|]. apply Rmult_le_compat_l; unfold E; lra. }
  assert (Bd : forall k x X, 0 <= x <= X -> Rabs k <= Rabs h -> Rabs k * x <= b * X).
  { intros k x X Hx Hk. apply Rmult_le_compat; try lra. apply Rabs_pos. }
  assert (N0 : forall x, 0 <= norm x) by apply norm_nonneg.
  assert (A2 : norm (sub (a2_of e t h r v) (a2_of e t h r' v')) <= M2 * E).
  { eapply Rle_trans; [apply Lip; auto|]. unfold M2. rewrite Rmult_assoc. apply Rmult_le_compat_l; [lra|].
    eapply Rle_trans; [apply adv_diff|]. assert (Q := Bd (h / 2) (norm (sub v v')) E ltac:(unfold E; lra) Half). unfold c.
    assert (norm (sub r r') <= E) by (unfold E; lra). lra. }
  assert (V1 : forall k x y X, Rabs k <= Rabs h -> norm (sub x y) <= X * E -> norm (sub (add v (scale k x)) (add v' (scale k y))) <= (1 + b * X) * E).
  { intros k x y X Hk Hx. eapply Rle_trans; [apply adv_diff|]. assert (Q := Bd k _ _ (conj (N0 _) Hx) Hk).
    assert (norm (sub v v') <= E) by (unfold E; lra). lra. }
  assert (Mono : forall X Y, X <= Y -> X * E <= Y * E) by (intros; apply Rmult_le_compat_r; auto).
  assert (V1' := V1 (h / 2) _ _ L Half A1). assert (V2' := V1 (h / 2) _ _ M2 Half A2).
  assert (M1L : 1 + b * L <= M1) by (unfold M1; assert (0 <= b * M2) by (apply Rmult_le_pos; lra); lra).
  assert (A3 : norm (sub (a3_of e t h r v) (a3_of e t h r' v')) <= M3 * E).
  { eapply Rle_trans; [apply Lip; auto|]. unfold M3. rewrite Rmult_assoc. apply Rmult_le_compat_l; [lra|].
    eapply Rle_trans; [apply adv_diff|]. assert (V1'' : norm (sub (add v (scale (h / 2) (a1_of e t h r v))) (add v' (scale (h / 2) (a1_of e t h r' v')))) <= M1 * E) by (eapply Rle_trans; [exact V1'|apply Mono; auto]).
    assert (Q := Bd (h / 2) _ _ (conj (N0 _) V1'') Half). assert (norm (sub r r') <= E) by (unfold E; lra). lra. }
  assert (V3' := V1 h _ _ M3 (Rle_refl _) A3).
  assert (W1 : 1 + b * L <= Mv /\ 1 + b * M2 <= Mv /\ 1 + b * M3 <= Mv /\ 1 <= Mv).
  { unfold Mv. assert (0 <= b * L) by (apply Rmult_le_pos; lra). assert (0 <= b * M2) by (apply Rmult_le_pos; lra). assert (0 <= b * M3) by (apply Rmult_le_pos; lra). lra. }
  destruct W1 as (W1 & W2 & W3 & W4).
  assert (A4 : norm (sub (a4_of e t h r v) (a4_of e t h r' v')) <= L * (1 + b * Mv) * E).
  { eapply Rle_trans; [apply Lip; auto|]. rewrite Rmult_assoc. apply Rmult_le_compat_l; [lra|].
    eapply Rle_trans; [apply adv_diff|]. assert (V2'' : norm (sub (add v (scale (h / 2) (a2_of e t h r v))) (add v' (scale (h / 2) (a2_of e t h r' v')))) <= Mv * E) by (eapply Rle_trans; [exact V2'|apply Mono; auto]).
    assert (Q := Bd h _ _ (conj (N0 _) V2'') (Rle_refl _)). assert (norm (sub r r') <= E) by (unfold E; lra). lra. }
  assert (Ma' : forall x y X, X <= Ma -> norm (sub x y) <= X * E -> norm (sub x y) <= Ma * E) by (intros x y X HX Hx; eapply Rle_trans; [exact Hx|apply Mono; auto]).
  assert (Mv' : forall x y X, X <= Mv -> norm (sub x y) <= X * E -> norm (sub x y) <= Mv * E) by (intros x y X HX Hx; eapply Rle_trans; [exact Hx|apply Mono; auto]).
  assert (Pr : norm (sub (r_after e t h r v) (r_after e t h r' v')) <= norm (sub r r') + Rabs h * (Mv * E)).
  { unfold r_after. eapply Rle_trans; [apply adv_diff|]. apply Rplus_le_compat_l, Rmult_le_compat_l; auto. apply mean4_diff.
    - apply (Mv' v v' 1); auto. unfold E. lra.
    - apply (Mv' _ _ _ W1 V1').
    - apply (Mv' _ _ _ W2 V2').
    - apply (Mv' _ _ _ W3 V3'). }
  assert (Pv : norm (sub (v_after e t h r v) (v_after e t h r' v')) <= norm (sub v v') + Rabs h * (Ma * E)).
  { unfold v_after. eapply Rle_trans; [apply adv_diff|]. apply Rplus_le_compat_l, Rmult_le_compat_l; auto. apply mean4_diff.
    - apply (Ma' _ _ L); auto. lra.
    - apply (Ma' _ _ M2); auto. lra.
    - apply (Ma' _ _ M3); auto. lra.
    - apply (Ma' _ _ (L * (1 + b * Mv))); auto. }
  eapply Rle_trans; [apply Rplus_le_compat; [exact Pr|exact Pv]|]. unfold E. lra.
Qed.

(** * One step *)
Lemma one_utc e T : one_utc_day e T -> forall t, during T t -> day_of (value e + t / 86400) = day_of (value e + 0 / 86400).
Proof.
  intros (k & H). assert (Q : forall t, during T t -> day_of (value e + t / 86400) = IZR k).
  { intros t Ht. specialize (H t Ht). unfold later in H. cbn [value] in H. unfold day_of. f_equal.
    assert (F := nfloor_bounds (value e + t / 86400 - UTC_TDT_OFFSET)). unfold UTC_TDT_OFFSET, SECONDS_IN_DAY in *.
    set (x := value e + t / 86400 - 69.184 / 86400) in *. rewrite plus_IZR in H.
    assert (IZR (nfloor x) < IZR (k + 1)) by (rewrite plus_IZR; lra). assert (IZR k < IZR (nfloor x + 1)) by (rewrite plus_IZR; lra).
    apply lt_IZR in H0. apply lt_IZR in H1. lia. }
  intros t Ht. rewrite (Q t Ht), (Q 0 (during_zero T)). reflexivity.
Qed.
Lemma order_norm V B n (f g : stp -> vec3) : (forall c, part c -> order V B n (fun s => c (f s) - c (g s))) -> exists M, 0 <= M /\ forall s, valid V B s -> norm (sub (f s) (g s)) <= M * Rabs (s_h s) ^ n.
Proof.
  intros H. destruct (H x3 px) as (M1 & P1 & H1). destruct (H y3 py) as (M2 & P2 & H2). destruct (H z3 pz) as (M3 & P3 & H3).
  exists (M1 + M2 + M3). split; [lra|]. intros s Hs. eapply Rle_trans; [apply norm_sum|]. cbn [sub x3 y3 z3].
  generalize (H1 s Hs) (H2 s Hs) (H3 s Hs). lra.
Qed.
Lemma local_separation V B : exists M, 0 <= M /\ forall s, valid V B s ->
  separation (new_r s) (new_v s) (pa_r (s_m s) (s_t s + s_h s)) (pa_v (s_m s) (s_t s + s_h s)) <= M * Rabs (s_h s) ^ 5.
Proof.
  destruct (order_norm V B 5 new_r (fun s => pa_r (s_m s) (s_t s + s_h s))) as (M1 & P1 & H1); [intros c Hc; apply (local_error V B c Hc)|].
  destruct (order_norm V B 5 new_v (fun s => pa_v (s_m s) (s_t s + s_h s))) as (M2 & P2 & H2); [intros c Hc; apply (local_error V B c Hc)|].
  exists (M1 + M2). split; [lra|]. intros s Hs. unfold separation. generalize (H1 s Hs) (H2 s Hs). lra.
Qed.
Lemma separation_triangle r v r' v' r'' v'' : separation r v r'' v'' <= separation r v r' v' + separation r' v' r'' v''.
Proof. unfold separation. assert (A := sub_triangle r r' r''). assert (B := sub_triangle v v' v''). lra. Qed.
Lemma one_step4 L V B : lipschitz_forces L -> exists K C, 0 <= K /\ 0 <= C /\ forall m D W p t rn vn, within V B m -> 0 <= D ->
  clear_along (pa_e m) (pa_T m) (pa_r m) D -> let h := step_size p in
  rk_state p = GCRF (later (pa_e m) t) rn vn -> m_dot p = 0 -> during (pa_T m) t -> during (pa_T m) (t + h) ->
  (forall s, during (pa_T m) s -> norm (pa_v m s) + Rabs h * L <= W) -> norm vn + Rabs h * L <= W ->
  norm (sub rn (pa_r m t)) + 4 * (Rabs h * W) <= D ->
  exists r' v', rk4_step p = (set_rk_state p (GCRF (later (pa_e m) (t + h)) r' v'), Ok tt) /\ norm v' <= norm vn + Rabs h * L /\
  separation r' v' (pa_r m (t + h)) (pa_v m (t + h)) <= (1 + Rabs h * K) * separation rn vn (pa_r m t) (pa_v m t) + C * Rabs h ^ 5.
Proof.
  intros HL. assert (B0 := Rabs_pos B). destruct (step_stable L (2 * Rabs B) HL ltac:(lra)) as (K & K0 & St). destruct (local_separation V B) as (C & C0 & Loc).
  exists K, C. split; auto. split; auto. intros m D W p t rn vn Wm HD Cl h Es Em Dt Dh Bv Bn BD.
  assert (Wm' := Wm). destruct Wm' as (HB & HV & Fl & Dy & Fo). assert (h0 := Rabs_pos h). assert (HL' := HL). destruct HL' as (L0 & HL').
  assert (hL : 0 <= Rabs h * L) by (apply Rmult_le_pos; lra).
  assert (Bv' : forall s, during (pa_T m) s -> norm (pa_v m s) <= W) by (intros s Hs; specialize (Bv s Hs); lra).
  assert (R1 := stages_fly L (pa_e m) (pa_T m) (pa_r m) (pa_v m) (pa_a m) D W t h rn vn HL HD Cl Fo Dt Dh Bv' Bn BD).
  assert (R2 : let r := pa_r m t in let v := pa_v m t in rk_points (pa_e m) t h r v (a1_of (pa_e m) t h r v) (a2_of (pa_e m) t h r v) (a3_of (pa_e m) t h r v) (a4_of (pa_e m) t h r v)).
  { apply (stages_fly L (pa_e m) (pa_T m) (pa_r m) (pa_v m) (pa_a m) D W t h); auto. rewrite sub_self. generalize (norm_nonneg (sub rn (pa_r m t))). lra. }
  cbv zeta in R2. exists (r_after (pa_e m) t h rn vn), (v_after (pa_e m) t h rn vn). split; [|split].
  - exact (step_form p (pa_e m) t rn vn _ _ _ _ Es Em R1).
  - unfold v_after. eapply Rle_trans; [apply norm_triangle|]. apply Rplus_le_compat_l. rewrite norm_scale. apply Rmult_le_compat_l; auto.
    destruct R1 as ((F1 & _) & (F2 & _) & (F3 & _) & (F4 & _)). 
    assert (Acc : forall s x, flyable (later (pa_e m) s) x -> norm (total_acc (point (pa_e m) s x)) <= L).
    { intros s x F. destruct (HL' _ _ (point_flying _ s _ F) (point_flying _ s _ F)); auto. }
    rewrite <- (sub_zero (mean4 _ _ _ _)). apply mean4_close; rewrite sub_zero; apply Acc; auto.
  - set (s := Stp m t h).
    assert (Ea : pa_a m t = a1_of (pa_e m) t h (pa_r m t) (pa_v m t)) by (destruct (Fo t Dt) as (-> & _); reflexivity).
    assert (Vs : valid V B s).
    { assert (R2' := R2). destruct R2 as (_ & (F2 & _) & (F3 & _) & (F4 & _)). split; [split; auto|]. split; [split; auto|]. split; [exact F2|]. split.
      - unfold q3, s, s_r, s_v, s_a. cbn [s_m s_t s_h]. rewrite Ea. exact F3.
      - exact F4. }
    assert (Hb : Rabs h <= 2 * Rabs B) by apply (valid_h V B s Vs).
    assert (Q1 := St (pa_e m) t h rn vn (pa_r m t) (pa_v m t) Hb R1 R2).
    assert (Q2 := Loc s Vs). cbn [s s_m s_t s_h] in Q2.
    assert (Er : new_r s = r_after (pa_e m) t h (pa_r m t) (pa_v m t)).
    { unfold new_r, r_after, k2, k3, q2, q3, s, s_r, s_v, s_a, a2_of, a3_of. cbn [s_m s_t s_h]. rewrite Ea. reflexivity. }
    assert (Ev : new_v s = v_after (pa_e m) t h (pa_r m t) (pa_v m t)).
    { unfold new_v, v_after, k2, k3, k4, q2, q3, q4, k2, q2, s, s_r, s_v, s_a, a2_of, a3_of, a4_of, a2_of. cbn [s_m s_t s_h]. rewrite Ea. reflexivity. }
    rewrite Er, Ev in Q2. eapply Rle_trans; [apply separation_triangle|]. apply Rplus_le_compat; [exact Q1|exact Q2].
Qed.

(** * Many steps *)
Lemma many_steps4 L V B : lipschitz_forces L -> exists K C, 0 <= K /\ 0 <= C /\ forall s T r v a D W N, let e := g_epoch s in let h := T / INR N in
  within V B (Path e T r v a) -> r 0 = g_position s -> v 0 = g_velocity s -> 0 <= D -> clear_along e T r D -> (0 < N)%nat ->
  (forall t, during T t -> norm (v t) + Rabs T * L <= W) -> exp (K * Rabs T) * (Rabs T * C * Rabs h ^ 4) + 4 * (Rabs h * W) <= D ->
  forall n, (n <= N)%nat -> exists q rn vn, let t := INR n * h in stepped n (set_step_size (RK4 s) h) q /\
    rk_state q = GCRF (later e t) rn vn /\ norm vn <= norm (g_velocity s) + INR n * (Rabs h * L) /\
    separation rn vn (r t) (v t) <= exp (K * (INR n * Rabs h)) * (INR n * Rabs h * C * Rabs h ^ 4).
Proof.
  intros HL. destruct (one_step4 L V B HL) as (K & C & K0 & C0 & One). exists K, C. split; auto. split; auto.
  intros s T r v a D W N e h Wm R0 V0 HD Cl HN Bv BD. assert (HL' := HL). destruct HL' as (L0 & _).
  assert (PN : 0 < INR N) by (apply lt_0_INR; lia). assert (H0 := Rabs_pos h).
  assert (ET : Rabs T = INR N * Rabs h).
  { unfold h, Rdiv. rewrite Rabs_mult, (Rabs_pos_eq (/ INR N)) by (left; apply Rinv_0_lt_compat; auto). field. lra. }
  assert (hT : Rabs h <= Rabs T). { rewrite ET. assert (1 <= INR N) by (replace 1 with (INR 1) by reflexivity; apply le_INR; lia). assert (0 <= (INR N - 1) * Rabs h) by (apply Rmult_le_pos; lra). lra. }
  assert (h4 : 0 <= Rabs h ^ 4) by (apply pow_le; auto).
  induction n as [|n IH]; intros Hn.
  - exists (set_step_size (RK4 s) h), (g_position s), (g_velocity s). cbv zeta. cbn [INR]. rewrite !Rmult_0_l. split; [constructor|].
    split; [|split].
    + unfold later. rewrite epoch_zero. reflexivity.
    + lra.
    + rewrite R0, V0, separation_self. replace (K * 0) with 0 by ring. rewrite exp_0. lra.
  - destruct (IH ltac:(lia)) as (q & rn & vn & Sq & Eq & Nq & Bq). cbv zeta in Eq, Nq, Bq. clear IH.
    set (t := INR n * h) in *.
    destruct (stepped_inv _ _ _ Sq) as [(S1 & S2 & _) _]. cbn in S1, S2.
    assert (Hh : step_size q = h) by (rewrite <- S1; reflexivity). assert (Hm : m_dot q = 0) by (rewrite <- S2; reflexivity).
    assert (Dt : during T t) by (apply during_steps; lia).
    assert (Et : INR (S n) * h = t + h) by (unfold t; rewrite S_INR; ring).
    assert (Dh : during T (t + h)) by (rewrite <- Et; apply during_steps; lia).
    assert (In : INR n + 1 <= INR N) by (rewrite <- S_INR; apply le_INR; lia). assert (Pn := pos_INR n).
    assert (NN : norm vn + Rabs h * L <= W).
    { assert (Q := Bv 0 (during_zero T)). rewrite V0 in Q. assert ((INR n + 1) * (Rabs h * L) <= INR N * (Rabs h * L)) by (apply Rmult_le_compat_r; [apply Rmult_le_pos; lra|auto]).
      rewrite ET in Q. lra. }
    assert (nT : INR n * Rabs h <= Rabs T) by (rewrite ET; apply Rmult_le_compat_r; lra).
    assert (nh0 : 0 <= INR n * Rabs h) by (apply Rmult_le_pos; auto).
    set (G := INR n * Rabs h * C * Rabs h ^ 4) in *.
    assert (G0 : 0 <= G) by (unfold G; repeat apply Rmult_le_pos; auto; lra).
    assert (GT : G <= Rabs T * C * Rabs h ^ 4) by (unfold G; apply Rmult_le_compat_r; auto; apply Rmult_le_compat_r; auto).
    assert (Ex : exp (K * (INR n * Rabs h)) <= exp (K * Rabs T)) by (apply exp_le, Rmult_le_compat_l; lra).
    assert (Near : norm (sub rn (r t)) + 4 * (Rabs h * W) <= D).
    { eapply Rle_trans; [|exact BD]. apply Rplus_le_compat_r. 
      apply Rle_trans with (separation rn vn (r t) (v t)); [unfold separation; generalize (norm_nonneg (sub vn (v t))); lra|].
      eapply Rle_trans; [exact Bq|]. apply Rmult_le_compat; try lra. left. apply exp_pos. }
    assert (Bv' : forall u, during T u -> norm (v u) + Rabs h * L <= W).
    { intros u Hu. specialize (Bv u Hu). assert (Rabs h * L <= Rabs T * L) by (apply Rmult_le_compat_r; lra). lra. }
    rewrite <- Hh in Dh, NN, Near, Bv'.
    destruct (One (Path e T r v a) D W q t rn vn Wm HD Cl Eq Hm Dt Dh Bv' NN Near) as (r' & v' & Es & Nv & Bs').
    cbn [pa_e pa_T pa_r pa_v] in *. rewrite Hh in Es, Nv, Bs'.
    exists (set_rk_state q (GCRF (later e (t + h)) r' v')), r', v'. cbv zeta. rewrite Et.
    split; [eapply stepped_snoc; eauto|]. split; [reflexivity|]. split.
    + rewrite S_INR. lra.
    + set (c := C * Rabs h ^ 5) in *. assert (c0 : 0 <= c) by (unfold c; apply Rmult_le_pos; auto; apply pow_le; auto).
      replace (INR (S n) * Rabs h * C * Rabs h ^ 4) with (G + c) by (unfold G, c; rewrite S_INR; ring).
      replace (K * (INR (S n) * Rabs h)) with (K * (INR n * Rabs h) + Rabs h * K) by (rewrite S_INR; ring).
      rewrite exp_plus. set (X := exp (K * (INR n * Rabs h))) in *. set (u := Rabs h * K) in *.
      assert (u0 : 0 <= u) by (unfold u; apply Rmult_le_pos; lra).
      assert (X1 : 1 <= X). { apply Rle_trans with (exp 0); [rewrite exp_0; lra|]. apply exp_le. apply Rmult_le_pos; lra. }
      assert (U := exp_ineq1_le u).
      eapply Rle_trans; [exact Bs'|]. 
      assert (P1 : (1 + u) * separation rn vn (r t) (v t) <= (1 + u) * (X * G)) by (apply Rmult_le_compat_l; lra).
      assert (P2 : (1 + u) * (X * G) <= exp u * (X * G)) by (apply Rmult_le_compat_r; [apply Rmult_le_pos; lra|auto]).
      assert (P3 : 1 * c <= X * exp u * c). { apply Rmult_le_compat_r; auto. rewrite <- (Rmult_1_l 1). apply Rmult_le_compat; lra. }
      lra.
Qed.
Lemma fourth_order V B : exists C, 0 < C /\ forall s T r v D n, r 0 = g_position s -> v 0 = g_velocity s -> norm (g_velocity s) <= V -> Rabs T <= B ->
  natural_motion (g_epoch s) T r v -> clear_along (g_epoch s) T r D -> one_utc_day (g_epoch s) T -> (0 < n)%nat -> C * (Rabs T / INR n) <= D ->
  exists q, stepped n (set_step_size (RK4 s) (T / INR n)) q /\ g_epoch (rk_state q) = later (g_epoch s) T /\
    separation (g_position (rk_state q)) (g_velocity (rk_state q)) (r T) (v T) <= C * (Rabs T / INR n) ^ 4.
Proof.
  destruct forces as (L & HL). assert (HL' := HL). destruct HL' as (L0 & _). destruct (many_steps4 L V B HL) as (K & C & K0 & C0 & Many).
  destruct (path_bounds V B) as (W & W0 & HW). set (b := Rabs B). assert (b0 : 0 <= b) by apply Rabs_pos.
  set (C2 := exp (K * b) * (b * C)). assert (C20 : 0 <= C2) by (unfold C2; apply Rmult_le_pos; [left; apply exp_pos|apply Rmult_le_pos; auto]).
  set (W' := W + b * L). assert (W'0 : 0 <= W') by (unfold W'; assert (0 <= b * L) by (apply Rmult_le_pos; lra); lra).
  exists (C2 * b ^ 3 + 4 * W' + C2 + 1). assert (C2b : 0 <= C2 * b ^ 3) by (apply Rmult_le_pos; auto; apply pow_le; auto). split; [lra|].
  intros s T r v D n R0 V0 HV HB NM Cl Day Pn HD. assert (PN : 0 < INR n) by (apply lt_0_INR; auto). set (h := T / INR n).
  assert (Eh : Rabs T / INR n = Rabs h).
  { unfold h, Rdiv. rewrite Rabs_mult, (Rabs_pos_eq (/ INR n)); auto. left. apply Rinv_0_lt_compat; auto. }
  rewrite Eh in *. assert (h0 := Rabs_pos h). assert (T0 := Rabs_pos T).
  assert (Tb : Rabs T <= b) by (eapply Rle_trans; [exact HB|apply Rle_abs]).
  assert (ET : Rabs T = INR n * Rabs h).
  { rewrite <- Eh. field. lra. }
  assert (hT : Rabs h <= Rabs T). { rewrite ET. assert (1 <= INR n) by (replace 1 with (INR 1) by reflexivity; apply le_INR; lia). assert (0 <= (INR n - 1) * Rabs h) by (apply Rmult_le_pos; lra). lra. }
  assert (D0 : 0 <= D). { eapply Rle_trans; [|exact HD]. apply Rmult_le_pos; lra. }
  destruct (natural_follows _ _ _ _ _ D0 Cl NM) as (a & FF).
  assert (Wm : within V B (Path (g_epoch s) T r v a)).
  { split; [exact HB|]. split; [cbn [pa_v]; rewrite V0; exact HV|]. split; [|split; [|exact FF]].
    - intros t Ht. apply (clear_self (g_epoch s) T r D); auto.
    - intros t Ht. apply (one_utc (g_epoch s) T Day); auto. }
  assert (Bv : forall t, during T t -> norm (v t) + Rabs T * L <= W').
  { intros t Ht. destruct (HW (Path (g_epoch s) T r v a, t) (conj Wm Ht)) as (_ & Q & _). cbn [fst snd pa_v] in Q. unfold W'.
    assert (Rabs T * L <= b * L) by (apply Rmult_le_compat_r; lra). lra. }
  assert (E1 : exp (K * Rabs T) * (Rabs T * C * Rabs h ^ 4) <= C2 * Rabs h ^ 4).
  { unfold C2. rewrite (Rmult_assoc (exp _) (b * C)). apply Rmult_le_compat; [left; apply exp_pos| | |].
    - apply Rmult_le_pos; [apply Rmult_le_pos; auto|apply pow_le; auto].
    - apply exp_le, Rmult_le_compat_l; auto.
    - apply Rmult_le_compat_r; [apply pow_le; auto|]. apply Rmult_le_compat_r; auto. }
  assert (E2 : C2 * Rabs h ^ 4 <= C2 * b ^ 3 * Rabs h).
  { rewrite Rmult_assoc. apply Rmult_le_compat_l; auto. replace (Rabs h ^ 4) with (Rabs h ^ 3 * Rabs h) by ring. apply Rmult_le_compat_r; auto. apply pow_incr. lra. }
  assert (HWh : 0 <= Rabs h * W') by (apply Rmult_le_pos; auto). assert (HCh : 0 <= C2 * Rabs h) by (apply Rmult_le_pos; auto).
  destruct (Many s T r v a D W' n Wm R0 V0 D0 Cl Pn Bv ltac:(fold h; lra) n (le_n n)) as (q & rn & vn & Sq & Eq & _ & Bq).
  fold h in Sq, Eq, Bq. assert (EQ : INR n * h = T) by (unfold h; field; lra). rewrite EQ in Eq, Bq.
  exists q. rewrite Eq. cbn [GCRF g_epoch g_position g_velocity]. split; auto. split; auto.
  rewrite <- ET in Bq. eapply Rle_trans; [exact Bq|]. eapply Rle_trans; [exact E1|]. apply Rmult_le_compat_r; [apply pow_le; auto|lra].
Qed.

Lemma fourth_order_visits V B : exists C, 0 < C /\ forall s T r v D n, r 0 = g_position s -> v 0 = g_velocity s -> norm (g_velocity s) <= V -> Rabs T <= B ->
  natural_motion (g_epoch s) T r v -> clear_along (g_epoch s) T r D -> one_utc_day (g_epoch s) T -> (0 < n)%nat -> Rabs T / INR n <= 300 -> C * (Rabs T / INR n) <= D ->
  exists q, visited (RK4 s) (way_points (g_epoch s) T n) q /\ g_epoch (rk_state q) = later (g_epoch s) T /\
    separation (g_position (rk_state q)) (g_velocity (rk_state q)) (r T) (v T) <= C * (Rabs T / INR n) ^ 4.
Proof.
  destruct (fourth_order V B) as (C & C0 & H). exists C. split; auto. intros s T r v D n R0 V0 HV HB NM Cl Day Pn H300 HD.
  destruct (Req_dec T 0) as [->|T0].
  - exists (RK4 s). cbn [RK4 rk_state gcrf_copy g_epoch g_position g_velocity]. split; [|split].
    + unfold way_points. assert (Z : forall l, visited (RK4 s) (map (fun i => later (g_epoch s) (INR i * (0 / INR n))) l) (RK4 s)).
      { induction l as [|i l IH]; cbn [map]; [constructor|]. apply visited_next with (RK4 s); auto.
        replace (later (g_epoch s) (INR i * (0 / INR n))) with (g_epoch (rk_state (RK4 s))); [apply step_to_epoch_here|].
        change (g_epoch (rk_state (RK4 s))) with (g_epoch s). unfold later, Rdiv. rewrite Rmult_0_l, Rmult_0_r, Rmult_0_l, Rplus_0_r. now destruct (g_epoch s). }
      apply Z.
    + unfold later. rewrite epoch_zero. reflexivity.
    + change (g_position (gcrf_copy s)) with (g_position s). change (g_velocity (gcrf_copy s)) with (g_velocity s). rewrite R0, V0, separation_self.
      apply Rmult_le_pos; [lra|]. apply pow_le. rewrite Rabs_R0. unfold Rdiv. rewrite Rmult_0_l. lra.
  - destruct (H s T r v D n R0 V0 HV HB NM Cl Day Pn HD) as (q & Q1 & Q2 & Q3). exists (set_step_size q (step_size (RK4 s))). split; [|split; auto].
    assert (I0 : 0 < / INR n) by (apply Rinv_0_lt_compat, lt_0_INR; lia).
    assert (Vs := visits n (RK4 s) (T / INR n) q).
    assert (Q : visited (RK4 s) (map (fun i => Epoch (value (g_epoch (rk_state (RK4 s))) + INR i * (T / INR n) / 86400)) (seq 1 n)) (set_step_size q (step_size (RK4 s)))).
    { apply Vs; auto.
      - unfold Rdiv. apply Rmult_integral_contrapositive. split; lra.
      - unfold Rdiv. rewrite Rabs_mult, (Rabs_pos_eq (/ INR n)) by lra. exact H300. }
    exact Q.
Qed.
Lemma geo_day : one_utc_day (g_epoch (rk_state geo)) 600.
Proof.
  exists 51544%Z. intros t (x & Hx & ->). cbn [geo RK4 rk_state gcrf_copy GCRF g_epoch later value j2000]. rewrite plus_IZR. lra.
Qed.
