(** Accuracy of propagation along any route through time. *)
From Coq Require Import Reals Lra Lia List.
From Verif.Model Require Import Num Constants Linalg Time States Inertial.
From Verif.Spec Require Import Geometry Propagation Motion Route.
From Verif.Proofs Require Import NumLemmas LinalgProofs StatesProofs InertialProofs SafeStep SmoothForces ConvergenceProofs Paths LocalError OrderProofs.
Import ListNotations.
Local Open Scope R_scope.

Lemma route_nonneg l : forall t, 0 <= route_length t l.
Proof. induction l as [|u l IH]; intros t; cbn [route_length]; [lra|]. specialize (IH u). assert (Q := Rabs_pos (u - t)). lra. Qed.
Lemma last_any l : forall (a d d' : R), last (a :: l) d = last (a :: l) d'.
Proof. induction l as [|b l IH]; intros a d d'; auto. exact (IH b d d'). Qed.
Lemma last_cons (t u : R) l : last (u :: l) t = last l u.
Proof. destruct l as [|a l]; auto. exact (last_any l a t u). Qed.

Lemma along L V B : lipschitz_forces L -> exists K C, 0 <= K /\ 0 <= C /\ forall m D W h b, within V B m -> 0 <= D -> clear_along (pa_e m) (pa_T m) (pa_r m) D ->
  0 <= h <= 300 -> let S := exp (K * b) * (b * C * h ^ 4) in
  (forall s, during (pa_T m) s -> norm (pa_v m s) + S + h * L <= W) -> S + 4 * (h * W) <= D ->
  forall l p t x rn vn, rk_state p = GCRF (later (pa_e m) t) rn vn -> m_dot p = 0 -> during (pa_T m) t -> (forall u, In u l -> during (pa_T m) u) ->
  legs_within h t l -> 0 <= x -> x + route_length t l <= b -> separation rn vn (pa_r m t) (pa_v m t) <= exp (K * x) * (x * C * h ^ 4) ->
  exists q rn' vn', visited p (map (later (pa_e m)) l) q /\ rk_state q = GCRF (later (pa_e m) (last l t)) rn' vn' /\
    separation rn' vn' (pa_r m (last l t)) (pa_v m (last l t)) <= S.
Proof.
  intros HL. destruct (one_step4 L V B HL) as (K & C & K0 & C0 & One). exists K, C. split; auto. split; auto.
  intros m D W h b Wm HD Cl Hh S Bv BD. assert (HL' := HL). destruct HL' as (L0 & _).
  assert (h4 : 0 <= h ^ 4) by (apply pow_le; lra).
  assert (Mono : forall x, 0 <= x <= b -> exp (K * x) * (x * C * h ^ 4) <= S).
  { intros x Hx. unfold S. assert (exp (K * x) <= exp (K * b)) by (apply exp_le, Rmult_le_compat_l; lra).
    apply Rmult_le_compat; auto; [left; apply exp_pos|repeat apply Rmult_le_pos; lra|]. apply Rmult_le_compat_r; auto. apply Rmult_le_compat_r; lra. }
  intros l. induction l as [|u l IH]; intros p t x rn vn Ep Em Dt Du Lg Hx Hb Sep.
  - cbn [route_length] in Hb. exists p, rn, vn. cbn [map last]. split; [constructor|]. split; auto. eapply Rle_trans; [exact Sep|]. apply Mono. lra.
  - cbn [route_length legs_within] in Hb, Lg. destruct Lg as (Lu & Lg). set (g := u - t) in *. assert (g0 := Rabs_pos g). assert (Rl := route_nonneg l u).
    rewrite last_cons. assert (Du' := Du u (or_introl eq_refl)).
    assert (Eu : t + g = u) by (unfold g; ring).
    assert (SepS := Rle_trans _ _ _ Sep (Mono x ltac:(lra))).
    assert (gh : Rabs g * L <= h * L) by (apply Rmult_le_compat_r; lra).
    assert (W0 : 0 <= W). { assert (Q := Bv t Dt). assert (Q1 := norm_nonneg (pa_v m t)). assert (0 <= S) by (eapply Rle_trans; [|exact SepS]; unfold separation; generalize (norm_nonneg (sub rn (pa_r m t))) (norm_nonneg (sub vn (pa_v m t))); lra).
      assert (0 <= h * L) by (apply Rmult_le_pos; lra). lra. }
    assert (gW : Rabs g * W <= h * W) by (apply Rmult_le_compat_r; lra).
    set (p' := set_step_size p g).
    assert (Dh : during (pa_T m) (t + step_size p')) by (cbn [p' set_step_size step_size]; rewrite Eu; auto).
    assert (S0 : 0 <= S). { eapply Rle_trans; [|exact SepS]. unfold separation. generalize (norm_nonneg (sub rn (pa_r m t))) (norm_nonneg (sub vn (pa_v m t))). lra. }
    assert (Bv' : forall s, during (pa_T m) s -> norm (pa_v m s) + Rabs (step_size p') * L <= W).
    { intros s Hs. cbn [p' set_step_size step_size]. specialize (Bv s Hs). lra. }
    assert (Nv : norm vn + Rabs (step_size p') * L <= W).
    { cbn [p' set_step_size step_size]. specialize (Bv t Dt). assert (Q := norm_triangle (pa_v m t) (sub vn (pa_v m t))).
      replace (add (pa_v m t) (sub vn (pa_v m t))) with vn in Q by (veq; ring).
      assert (norm (sub vn (pa_v m t)) <= S) by (eapply Rle_trans; [|exact SepS]; unfold separation; generalize (norm_nonneg (sub rn (pa_r m t))); lra). lra. }
    assert (Near : norm (sub rn (pa_r m t)) + 4 * (Rabs (step_size p') * W) <= D).
    { cbn [p' set_step_size step_size]. assert (norm (sub rn (pa_r m t)) <= S) by (eapply Rle_trans; [|exact SepS]; unfold separation; generalize (norm_nonneg (sub vn (pa_v m t))); lra). lra. }
    assert (Em' : m_dot p' = 0) by exact Em. assert (Ep' : rk_state p' = GCRF (later (pa_e m) t) rn vn) by exact Ep.
    destruct (One m D W p' t rn vn Wm HD Cl Ep' Em' Dt Dh Bv' Nv Near) as (r' & v' & Es & _ & Bs). cbn [p' set_step_size step_size] in Bs. rewrite Eu in Bs.
    assert (Bs' : separation r' v' (pa_r m u) (pa_v m u) <= exp (K * (x + Rabs g)) * ((x + Rabs g) * C * h ^ 4)).
    { eapply Rle_trans; [exact Bs|]. set (X := exp (K * x)) in *. set (w := Rabs g * K) in *. assert (w0 : 0 <= w) by (apply Rmult_le_pos; lra).
      replace (K * (x + Rabs g)) with (K * x + w) by (unfold w; ring). rewrite exp_plus. fold X.
      assert (X1 : 1 <= X). { apply Rle_trans with (exp 0); [rewrite exp_0; lra|]. apply exp_le. apply Rmult_le_pos; lra. }
      assert (U := exp_ineq1_le w). set (G := x * C * h ^ 4) in *. assert (G0 : 0 <= G) by (unfold G; repeat apply Rmult_le_pos; lra).
      assert (P1 : (1 + w) * separation rn vn (pa_r m t) (pa_v m t) <= (1 + w) * (X * G)) by (apply Rmult_le_compat_l; lra).
      assert (P2 : (1 + w) * (X * G) <= exp w * (X * G)) by (apply Rmult_le_compat_r; [apply Rmult_le_pos; lra|auto]).
      assert (P4 : C * Rabs g ^ 5 <= Rabs g * C * h ^ 4).
      { replace (C * Rabs g ^ 5) with (Rabs g * C * Rabs g ^ 4) by ring. apply Rmult_le_compat_l; [apply Rmult_le_pos; lra|]. apply pow_incr. lra. }
      assert (c0 : 0 <= Rabs g * C * h ^ 4) by (repeat apply Rmult_le_pos; lra). set (c := Rabs g * C * h ^ 4) in *.
      assert (P3 : 1 * c <= X * exp w * c). { apply Rmult_le_compat_r; auto. rewrite <- (Rmult_1_l 1). apply Rmult_le_compat; lra. }
      replace ((x + Rabs g) * C * h ^ 4) with (G + c) by (unfold G, c; ring). lra. }
    destruct (Req_dec g 0) as [Z|Z].
    + assert (ut : t = u) by lra. clearbody g. subst t.
      destruct (IH p u x rn vn) as (q & rq & vq & Q1 & Q2 & Q3); auto; [intros w Hw; apply Du; right; auto|lra|].
      exists q, rq, vq. split; [|split; auto]. cbn [map]. apply visited_next with p; auto.
      replace (later (pa_e m) u) with (g_epoch (rk_state p)) by (rewrite Ep; reflexivity). apply step_to_epoch_here.
    + set (p1 := set_step_size (set_rk_state p' (GCRF (later (pa_e m) u) r' v')) (step_size p)).
      assert (St : rk4_step_to_epoch p (later (pa_e m) u) = (p1, Ok tt)).
      { cbn [p' set_step_size step_size] in Es. rewrite Eu in Es. assert (Q := visit_one p g _ Z ltac:(lra) Es).
        replace (later (pa_e m) u) with (Epoch (value (g_epoch (rk_state p)) + g / 86400)); [exact Q|].
        rewrite Ep. cbn [GCRF g_epoch later value]. unfold later. f_equal. rewrite <- Eu. field. }
      destruct (IH p1 u (x + Rabs g) r' v') as (q & rq & vq & Q1 & Q2 & Q3); auto; [intros w Hw; apply Du; right; auto|lra|lra|].
      exists q, rq, vq. split; [|split; auto]. cbn [map]. apply visited_next with p1; auto.
Qed.

Lemma route V B : exists C, 0 < C /\ forall s T r v D h l, r 0 = g_position s -> v 0 = g_velocity s -> norm (g_velocity s) <= V -> Rabs T <= B ->
  natural_motion (g_epoch s) T r v -> clear_along (g_epoch s) T r D -> one_utc_day (g_epoch s) T ->
  (forall t, In t l -> during T t) -> legs_within h 0 l -> route_length 0 l <= B -> 0 <= h <= 300 -> C * h <= D ->
  exists q, visited (RK4 s) (map (later (g_epoch s)) l) q /\ g_epoch (rk_state q) = later (g_epoch s) (last l 0) /\
    separation (g_position (rk_state q)) (g_velocity (rk_state q)) (r (last l 0)) (v (last l 0)) <= C * h ^ 4.
Proof.
  destruct forces as (L & HL). assert (HL' := HL). destruct HL' as (L0 & _). destruct (along L V B HL) as (K & C & K0 & C0 & Al).
  destruct (path_bounds V B) as (W & W0 & HW). set (b := Rabs B). assert (b0 : 0 <= b) by apply Rabs_pos.
  set (C2 := exp (K * b) * (b * C)). assert (C20 : 0 <= C2) by (unfold C2; apply Rmult_le_pos; [left; apply exp_pos|apply Rmult_le_pos; auto]).
  set (W' := W + C2 * 300 ^ 4 + 300 * L). assert (W'0 : 0 <= W') by (unfold W'; lra).
  exists (C2 * 300 ^ 3 + 4 * W' + C2 + 1). split; [lra|].
  intros s T r v D h l R0 V0 HV HB NM Cl Day Du Lg Rl Hh HD.
  assert (D0 : 0 <= D). { eapply Rle_trans; [|exact HD]. apply Rmult_le_pos; lra. }
  destruct (natural_follows _ _ _ _ _ D0 Cl NM) as (a & FF).
  set (m := Path (g_epoch s) T r v a).
  assert (Wm : within V B m).
  { split; [exact HB|]. split; [cbn [m pa_v]; rewrite V0; exact HV|]. split; [|split; [|exact FF]].
    - intros t Ht. apply (clear_self (g_epoch s) T r D); auto.
    - intros t Ht. apply (one_utc (g_epoch s) T Day); auto. }
  assert (ES : exp (K * b) * (b * C * h ^ 4) = C2 * h ^ 4) by (unfold C2; ring).
  assert (h4 : h ^ 4 <= 300 ^ 4) by (apply pow_incr; lra). assert (h3 : h ^ 3 <= 300 ^ 3) by (apply pow_incr; lra).
  assert (hh : 0 <= h ^ 4) by (apply pow_le; lra).
  assert (CW : C2 * h ^ 4 <= C2 * 300 ^ 4) by (apply Rmult_le_compat_l; auto).
  assert (CW3 : C2 * h ^ 4 <= C2 * 300 ^ 3 * h).
  { rewrite Rmult_assoc. apply Rmult_le_compat_l; auto. replace (h ^ 4) with (h ^ 3 * h) by ring. apply Rmult_le_compat_r; lra. }
  assert (HWh : 0 <= h * W') by (apply Rmult_le_pos; lra). assert (HCh : 0 <= C2 * h) by (apply Rmult_le_pos; lra). 
  assert (hL : h * L <= 300 * L) by (apply Rmult_le_compat_r; lra).
  destruct (Al m D W' h b Wm D0 Cl Hh) with (l := l) (p := RK4 s) (t := 0) (x := 0) (rn := g_position s) (vn := g_velocity s) as (q & rq & vq & Q1 & Q2 & Q3); auto.
  - intros t Ht. rewrite ES. destruct (HW (m, t) (conj Wm Ht)) as (_ & Q & _). cbn [fst snd] in Q. unfold W'. lra.
  - rewrite ES. lra.
  - unfold later. cbn [m pa_e]. rewrite epoch_zero. reflexivity.
  - apply during_zero.
  - lra.
  - unfold b. eapply Rle_trans; [|apply Rle_abs]. lra.
  - cbn [m pa_r pa_v]. rewrite R0, V0, separation_self. rewrite !Rmult_0_l, !Rmult_0_r. lra.
  - cbv zeta in Q3. rewrite ES in Q3. exists q. rewrite Q2. cbn [GCRF g_epoch g_position g_velocity]. split; auto. split; auto.
    cbn [m pa_r pa_v] in Q3. eapply Rle_trans; [exact Q3|]. apply Rmult_le_compat_r; auto. lra.
Qed.
