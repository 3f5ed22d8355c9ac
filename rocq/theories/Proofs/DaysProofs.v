(** Accuracy of propagation along routes that pass UTC midnights. *)
From Coq Require Import Reals Lra Lia List.
From Coquelicot Require Import Coquelicot.
From Verif.Model Require Import Num Constants Linalg Time States Inertial.
From Verif.Spec Require Import Geometry Propagation Motion Route.
From Verif.Proofs Require Import NumLemmas LinalgProofs StatesProofs InertialProofs SafeStep SmoothForces ConvergenceProofs Paths LocalError OrderProofs RouteProofs.
Import ListNotations.
Local Open Scope R_scope.

Lemma mt_nonneg e t l c : midnight_time e t l c -> 0 <= c.
Proof. induction 1; auto; [lra|]. generalize (Rabs_pos (u - t)). lra. Qed.

Lemma later_later e t s : later (later e t) s = later e (t + s).
Proof. unfold later. cbn [value]. f_equal. field. Qed.
Lemma during_part T t g s : during T t -> during T (t + g) -> during g s -> during T (t + s).
Proof.
  intros Dt Dg (x & Hx & ->). apply (during_between T t (t + g)); auto.
  unfold Rmin, Rmax. destruct Rle_dec; nra.
Qed.

Lemma point_later e t s x : point (later e t) s x = point e (t + s) x.
Proof. unfold point, later. cbn [value]. replace (value e + t / 86400 + s / 86400) with (value e + (t + s) / 86400) by field. reflexivity. Qed.

Lemma RInt_shift0 (f : R -> R) t s w1 w2 : is_RInt f 0 t w1 -> is_RInt f 0 (t + s) w2 -> is_RInt (fun u => f (t + u)) 0 s (w2 - w1).
Proof.
  intros A B. assert (C := RInt_between f t (t + s) w1 w2 A B).
  assert (E := is_RInt_comp_lin f 1 t 0 s (w2 - w1)).
  replace (1 * 0 + t) with t in E by ring. replace (1 * s + t) with (t + s) in E by ring. specialize (E C).
  eapply is_RInt_ext; [|exact E]. intros x _. cbn. unfold scal; cbn; unfold mult; cbn. rewrite Rmult_1_l. f_equal. ring.
Qed.

Lemma integral_shift f F t s : integral_of f t (sub (F t) (F 0)) -> integral_of f (t + s) (sub (F (t + s)) (F 0)) ->
  integral_of (fun u => f (t + u)) s (sub (F (t + s)) (F (t + 0))).
Proof.
  rewrite Rplus_0_r. intros (A1 & A2 & A3) (B1 & B2 & B3).
  assert (E : sub (F (t + s)) (F t) = V3 (x3 (sub (F (t + s)) (F 0)) - x3 (sub (F t) (F 0))) (y3 (sub (F (t + s)) (F 0)) - y3 (sub (F t) (F 0))) (z3 (sub (F (t + s)) (F 0)) - z3 (sub (F t) (F 0)))).
  { unfold sub. cbn [x3 y3 z3]. f_equal; ring. }
  rewrite E. split; [|split]; cbn [x3 y3 z3]; [apply (RInt_shift0 (fun s => x3 (f s)))|apply (RInt_shift0 (fun s => y3 (f s)))|apply (RInt_shift0 (fun s => z3 (f s)))]; auto.
Qed.

Lemma follows_part e T r v a t g : follows_forces e T r v a -> during T t -> during T (t + g) ->
  follows_forces (later e t) g (fun s => r (t + s)) (fun s => v (t + s)) (fun s => a (t + s)).
Proof.
  intros FF Dt Dg s Ds. assert (Du := during_part T t g s Dt Dg Ds).
  destruct (FF t Dt) as (_ & I1 & J1). destruct (FF (t + s) Du) as (A & I2 & J2). split; [|split].
  - rewrite A, point_later. reflexivity.
  - apply (integral_shift v r); auto.
  - apply (integral_shift a v); auto.
Qed.

Lemma any_step L V : lipschitz_forces L -> exists K C, 0 <= K /\ 0 <= C /\ forall e T r v a D W p t rn vn, 0 <= D ->
  clear_along e T r D -> follows_forces e T r v a -> let g := step_size p in
  rk_state p = GCRF (later e t) rn vn -> m_dot p = 0 -> during T t -> during T (t + g) -> Rabs g <= 300 ->
  (forall s, during T s -> norm (v s) + 300 * L <= V) ->
  (forall s, during T s -> norm (v s) + Rabs g * L <= W) -> norm vn + Rabs g * L <= W -> norm (sub rn (r t)) + 4 * (Rabs g * W) <= D ->
  exists r' v', rk4_step p = (set_rk_state p (GCRF (later e (t + g)) r' v'), Ok tt) /\
  let next := separation r' v' (r (t + g)) (v (t + g)) in let now := separation rn vn (r t) (v t) in
  next <= (1 + Rabs g * K) * now + C * Rabs g /\
  (one_utc_day (later e t) g -> next <= (1 + Rabs g * K) * now + C * Rabs g ^ 5).
Proof.
  intros HL. destruct (one_step4 L V 300 HL) as (K4 & C & K40 & C0 & One). assert (HL' := HL). destruct HL' as (L0 & _).
  destruct (step_stable L 300 HL ltac:(lra)) as (K & K0 & Stab).
  set (Wp := Rabs V). exists K, (C + 14 * L * (300 * (1 + Wp) + 2)).
  assert (Wp0 : 0 <= Wp) by apply Rabs_pos. assert (c0 : 0 <= 14 * L * (300 * (1 + Wp) + 2)) by (apply Rmult_le_pos; lra).
  split; [lra|]. split; [lra|].
  intros e T r v a D W p t rn vn HD Cl FF g Ep Em Dt Dg Hg BV Bv Bn BD. assert (g0 := Rabs_pos g).
  assert (gL : 0 <= Rabs g * L) by (apply Rmult_le_pos; lra). assert (gL3 : Rabs g * L <= 300 * L) by (apply Rmult_le_compat_r; lra).
  assert (Bv1 : forall s, during T s -> norm (v s) <= W) by (intros s Hs; specialize (Bv s Hs); lra).
  set (W0 := Rmin W V).
  assert (Bv0 : forall s, during T s -> norm (v s) + Rabs g * L <= W0).
  { intros s Hs. specialize (Bv s Hs). specialize (BV s Hs). unfold W0, Rmin. destruct Rle_dec; lra. }
  assert (Bv01 : forall s, during T s -> norm (v s) <= W0) by (intros s Hs; specialize (Bv0 s Hs); lra).
  assert (W00 : 0 <= W0) by (specialize (Bv01 t Dt); generalize (norm_nonneg (v t)); lra).
  assert (W0W : W0 <= W) by apply Rmin_l. assert (W0V : W0 <= Wp) by (unfold Wp; eapply Rle_trans; [apply Rmin_r|apply Rle_abs]).
  assert (BD0 : norm (sub (r t) (r t)) + 4 * (Rabs g * W0) <= D).
  { rewrite sub_self. assert (Rabs g * W0 <= Rabs g * W) by (apply Rmult_le_compat_l; lra). generalize (norm_nonneg (sub rn (r t))). lra. }
  assert (R1 := stages_fly L e T r v a D W t g rn vn HL HD Cl FF Dt Dg Bv1 Bn BD).
  assert (R2 := stages_fly L e T r v a D W0 t g (r t) (v t) HL HD Cl FF Dt Dg Bv01 (Bv0 t Dt) BD0).
  assert (St := Stab e t g rn vn (r t) (v t) Hg R1 R2).
  assert (F1 := step_form p e t rn vn _ _ _ _ Ep Em R1). fold g in F1.
  set (p0 := set_rk_state p (GCRF (later e t) (r t) (v t))).
  assert (F2 := step_form p0 e t (r t) (v t) _ _ _ _ eq_refl Em R2). change (step_size p0) with g in F2.
  fold (r_after e t g rn vn) (v_after e t g rn vn) in F1. fold (r_after e t g (r t) (v t)) (v_after e t g (r t) (v t)) in F2.
  exists (r_after e t g rn vn), (v_after e t g rn vn). split; [exact F1|].
  set (x1 := r_after e t g rn vn) in *. set (v1 := v_after e t g rn vn) in *. set (x0 := r_after e t g (r t) (v t)) in *. set (v0 := v_after e t g (r t) (v t)) in *.
  set (now := separation rn vn (r t) (v t)) in *. cbv zeta.
  assert (Tri := separation_triangle x1 v1 x0 v0 (r (t + g)) (v (t + g))).
  destruct (one_step L e T r v a D W0 p0 t (r t) (v t) HL HD Cl FF eq_refl Em Dt Dg Bv01 (Bv0 t Dt) BD0) as (r' & v' & Sr & _ & Sp).
  change (step_size p0) with g in Sr, Sp.
  assert (E : forall r' v', rk4_step p0 = (set_rk_state p0 (GCRF (later e (t + g)) r' v'), Ok tt) -> r' = x0 /\ v' = v0).
  { intros ra va H. rewrite F2 in H. assert (Er := f_equal (fun x => rk_state (fst x)) H). cbn [fst set_rk_state rk_state] in Er.
    assert (E2 := f_equal g_position Er). assert (E3 := f_equal g_velocity Er). cbn [GCRF g_position g_velocity] in E2, E3. auto. }
  destruct (E _ _ Sr) as (-> & ->). rewrite separation_self, Rmult_0_r in Sp. split.
  - set (dk := Rabs (day_of _ - _)) in *.
    assert (Dk : dk <= 2).
    { unfold dk. eapply Rle_trans; [apply day_span|]. replace (value e + (t + g) / 86400 - (value e + t / 86400)) with (g * / 86400) by field.
      rewrite Rabs_mult, (Rabs_pos_eq (/ 86400)) by lra. lra. }
    assert (X : Rabs g * (14 * L * (Rabs g * (1 + W0) + dk)) <= Rabs g * (14 * L * (300 * (1 + Wp) + 2))).
    { apply Rmult_le_compat_l; auto. apply Rmult_le_compat_l; [lra|]. apply Rplus_le_compat; auto. apply Rmult_le_compat; lra. }
    assert (0 <= C * Rabs g) by (apply Rmult_le_pos; auto). lra.
  - intros Day. set (m := Path (later e t) g (fun s => r (t + s)) (fun s => v (t + s)) (fun s => a (t + s))).
    assert (Cl' : clear_along (pa_e m) (pa_T m) (pa_r m) D).
    { intros s x Ds Hx. cbn [m pa_e pa_T pa_r] in *. rewrite later_later. apply (Cl (t + s) x); auto. apply (during_part T t g); auto. }
    assert (Wm : within V 300 m).
    { split; [exact Hg|]. split; [cbn [m pa_v]; rewrite Rplus_0_r; specialize (BV t Dt); lra|]. split; [|split].
      - intros s Ds. apply (clear_self _ _ _ D s HD Cl' Ds).
      - intros s Ds. apply (one_utc (later e t) g Day); auto.
      - exact (follows_part e T r v a t g FF Dt Dg). }
    destruct (One m D W0 p0 0 (r t) (v t) Wm HD Cl') as (r2 & v2 & St2 & _ & Sp2); auto.
    + cbn [m pa_e]. rewrite later_later, Rplus_0_r. reflexivity.
    + apply during_zero.
    + cbn [m pa_T]. change (step_size p0) with g. rewrite Rplus_0_l. apply during_self.
    + intros s Ds. cbn [m pa_v]. change (step_size p0) with g. apply Bv0. apply (during_part T t g); auto.
    + cbn [m pa_r]. rewrite Rplus_0_r. exact BD0.
    + change (step_size p0) with g in St2, Sp2. cbn [m pa_e pa_r pa_v] in St2, Sp2. rewrite later_later in St2. rewrite !Rplus_0_r, Rplus_0_l in Sp2. rewrite Rplus_0_l in St2.
      destruct (E _ _ St2) as (-> & ->). rewrite separation_self, Rmult_0_r in Sp2.
      assert (0 <= Rabs g ^ 5) by (apply pow_le; auto). assert (0 <= 14 * L * (300 * (1 + Wp) + 2) * Rabs g ^ 5) by (apply Rmult_le_pos; auto). lra.
Qed.

Lemma along_days L V : lipschitz_forces L -> exists K C, 0 <= K /\ 0 <= C /\ forall e T r v a D W h b w, 0 <= D -> (forall s, during T s -> norm (v s) + 300 * L <= V) ->
  clear_along e T r D -> follows_forces e T r v a -> 0 <= h <= 300 -> let S := exp (K * b) * (C * (b * h ^ 4 + w)) in
  (forall s, during T s -> norm (v s) + S + h * L <= W) -> S + 4 * (h * W) <= D ->
  forall l p t x y c rn vn, rk_state p = GCRF (later e t) rn vn -> m_dot p = 0 -> during T t -> (forall u, In u l -> during T u) ->
  legs_within h t l -> midnight_time e t l c -> 0 <= x -> 0 <= y -> x + route_length t l <= b -> y + c <= w ->
  separation rn vn (r t) (v t) <= exp (K * x) * (C * (x * h ^ 4 + y)) ->
  exists q rn' vn', visited p (map (later e) l) q /\ rk_state q = GCRF (later e (last l t)) rn' vn' /\
    separation rn' vn' (r (last l t)) (v (last l t)) <= S.
Proof.
  intros HL. destruct (any_step L V HL) as (K & C & K0 & C0 & One). exists K, C. split; auto. split; auto.
  intros e T r v a D W h b w HD WV Cl FF Hh S Bv BD. assert (HL' := HL). destruct HL' as (L0 & _).
  assert (h4 : 0 <= h ^ 4) by (apply pow_le; lra).
  assert (Mono : forall x y, 0 <= x <= b -> 0 <= y <= w -> exp (K * x) * (C * (x * h ^ 4 + y)) <= S).
  { intros x y Hx Hy. unfold S. assert (exp (K * x) <= exp (K * b)) by (apply exp_le, Rmult_le_compat_l; lra).
    assert (x * h ^ 4 <= b * h ^ 4) by (apply Rmult_le_compat_r; lra). assert (0 <= x * h ^ 4) by (apply Rmult_le_pos; lra).
    apply Rmult_le_compat; auto; [left; apply exp_pos|apply Rmult_le_pos; lra|]. apply Rmult_le_compat_l; lra. }
  intros l. induction l as [|u l IH]; intros p t x y c rn vn Ep Em Dt Du Lg Mt Hx Hy Hb Hw Sep.
  - cbn [route_length] in Hb. assert (c0 := mt_nonneg _ _ _ _ Mt). exists p, rn, vn. cbn [map last]. split; [constructor|]. split; auto. eapply Rle_trans; [exact Sep|]. apply Mono; lra.
  - cbn [route_length legs_within] in Hb, Lg. destruct Lg as (Lu & Lg). assert (c0 := mt_nonneg _ _ _ _ Mt).
    set (g := u - t) in *. assert (g0 := Rabs_pos g). assert (Rl := route_nonneg l u).
    rewrite last_cons. assert (Du' := Du u (or_introl eq_refl)).
    assert (Eu : t + g = u) by (unfold g; ring).
    assert (SepS := Rle_trans _ _ _ Sep (Mono x y ltac:(lra) ltac:(lra))).
    assert (gh : Rabs g * L <= h * L) by (apply Rmult_le_compat_r; lra).
    assert (S0 : 0 <= S). { eapply Rle_trans; [|exact SepS]. unfold separation. generalize (norm_nonneg (sub rn (r t))) (norm_nonneg (sub vn (v t))). lra. }
    assert (W0 : 0 <= W). { assert (Q := Bv t Dt). assert (Q1 := norm_nonneg (v t)). assert (0 <= h * L) by (apply Rmult_le_pos; lra). lra. }
    assert (gW : Rabs g * W <= h * W) by (apply Rmult_le_compat_r; lra).
    set (p' := set_step_size p g).
    assert (Dh : during T (t + step_size p')) by (cbn [p' set_step_size step_size]; rewrite Eu; auto).
    assert (Bv' : forall s, during T s -> norm (v s) + Rabs (step_size p') * L <= W).
    { intros s Hs. cbn [p' set_step_size step_size]. specialize (Bv s Hs). lra. }
    assert (Nv : norm vn + Rabs (step_size p') * L <= W).
    { cbn [p' set_step_size step_size]. specialize (Bv t Dt). assert (Q := norm_triangle (v t) (sub vn (v t))).
      replace (add (v t) (sub vn (v t))) with vn in Q by (veq; ring).
      assert (norm (sub vn (v t)) <= S) by (eapply Rle_trans; [|exact SepS]; unfold separation; generalize (norm_nonneg (sub rn (r t))); lra). lra. }
    assert (Near : norm (sub rn (r t)) + 4 * (Rabs (step_size p') * W) <= D).
    { cbn [p' set_step_size step_size]. assert (norm (sub rn (r t)) <= S) by (eapply Rle_trans; [|exact SepS]; unfold separation; generalize (norm_nonneg (sub vn (v t))); lra). lra. }
    assert (Em' : m_dot p' = 0) by exact Em. assert (Ep' : rk_state p' = GCRF (later e t) rn vn) by exact Ep.
    assert (G3 : Rabs (step_size p') <= 300) by (cbn [p' set_step_size step_size]; lra).
    destruct (One e T r v a D W p' t rn vn HD Cl FF Ep' Em' Dt Dh G3 WV Bv' Nv Near) as (r' & v' & Es & Bs1 & Bs2). cbn [p' set_step_size step_size] in Bs1, Bs2. rewrite Eu in Bs1, Bs2.
    set (next := separation r' v' (r u) (v u)) in *. set (now := separation rn vn (r t) (v t)) in *.
    assert (Grow : forall z, 0 <= z -> next <= (1 + Rabs g * K) * now + C * z -> next <= exp (K * (x + Rabs g)) * (C * (x * h ^ 4 + y + z))).
    { intros z Hz Bs. eapply Rle_trans; [exact Bs|]. set (X := exp (K * x)) in *. set (k := Rabs g * K) in *. assert (k0 : 0 <= k) by (apply Rmult_le_pos; lra).
      replace (K * (x + Rabs g)) with (K * x + k) by (unfold k; ring). rewrite exp_plus. fold X.
      assert (X1 : 1 <= X). { apply Rle_trans with (exp 0); [rewrite exp_0; lra|]. apply exp_le. apply Rmult_le_pos; lra. }
      assert (U := exp_ineq1_le k). set (G := C * (x * h ^ 4 + y)) in *. assert (x4 : 0 <= x * h ^ 4) by (apply Rmult_le_pos; lra).
      assert (G0 : 0 <= G) by (unfold G; apply Rmult_le_pos; lra).
      assert (P1 : (1 + k) * now <= (1 + k) * (X * G)) by (apply Rmult_le_compat_l; lra).
      assert (P2 : (1 + k) * (X * G) <= exp k * (X * G)) by (apply Rmult_le_compat_r; [apply Rmult_le_pos; lra|auto]).
      assert (cz0 : 0 <= C * z) by (apply Rmult_le_pos; lra).
      assert (P3 : 1 * (C * z) <= X * exp k * (C * z)). { apply Rmult_le_compat_r; auto. rewrite <- (Rmult_1_l 1). apply Rmult_le_compat; lra. }
      replace (C * (x * h ^ 4 + y + z)) with (G + C * z) by (unfold G; ring). lra. }
    assert (Rest : exists y' c', midnight_time e u l c' /\ y <= y' /\ y' + c' <= w /\ next <= exp (K * (x + Rabs g)) * (C * ((x + Rabs g) * h ^ 4 + y'))).
    { inversion Mt as [|t' u' l' c' Day Mt'|t' u' l' c' Mt']; subst t' u' l'.
      - subst c'. exists y, c. split; auto. split; [lra|]. split; auto. fold g in Day.
        assert (z0 : 0 <= Rabs g ^ 5) by (apply pow_le; auto).
        assert (Q := Grow (Rabs g ^ 5) z0 (Bs2 Day)). eapply Rle_trans; [exact Q|].
        apply Rmult_le_compat_l; [left; apply exp_pos|]. apply Rmult_le_compat_l; auto.
        assert (Rabs g ^ 5 <= Rabs g * h ^ 4). { replace (Rabs g ^ 5) with (Rabs g * Rabs g ^ 4) by ring. apply Rmult_le_compat_l; auto. apply pow_incr. lra. }
        rewrite Rmult_plus_distr_r. lra.
      - subst c. fold g in Hw. exists (y + Rabs g), c'. split; auto. split; [lra|]. split; [lra|].
        assert (Q := Grow (Rabs g) g0 Bs1). eapply Rle_trans; [exact Q|].
        apply Rmult_le_compat_l; [left; apply exp_pos|]. apply Rmult_le_compat_l; auto.
        assert (0 <= Rabs g * h ^ 4) by (apply Rmult_le_pos; auto). rewrite Rmult_plus_distr_r. lra. }
    destruct Rest as (y' & c' & Mt' & Hy' & Hw' & Bn').
    destruct (Req_dec g 0) as [Z|Z].
    + assert (ut : t = u) by lra. clearbody g. subst t.
      destruct (IH p u x y c' rn vn) as (q & rq & vq & Q1 & Q2 & Q3); auto; [intros k Hk; apply Du; right; auto|lra|lra|].
      exists q, rq, vq. split; [|split; auto]. cbn [map]. apply visited_next with p; auto.
      replace (later e u) with (g_epoch (rk_state p)) by (rewrite Ep; reflexivity). apply step_to_epoch_here.
    + set (p1 := set_step_size (set_rk_state p' (GCRF (later e u) r' v')) (step_size p)).
      assert (St : rk4_step_to_epoch p (later e u) = (p1, Ok tt)).
      { cbn [p' set_step_size step_size] in Es. rewrite Eu in Es. assert (Q := visit_one p g _ Z ltac:(lra) Es).
        replace (later e u) with (Epoch (value (g_epoch (rk_state p)) + g / 86400)); [exact Q|].
        rewrite Ep. cbn [GCRF g_epoch later value]. unfold later. f_equal. rewrite <- Eu. field. }
      destruct (IH p1 u (x + Rabs g) y' c' r' v') as (q & rq & vq & Q1 & Q2 & Q3); auto; [intros k Hk; apply Du; right; auto|lra|lra|lra|].
      exists q, rq, vq. split; [|split; auto]. cbn [map]. apply visited_next with p1; auto.
Qed.

Lemma mt_length e t l c : midnight_time e t l c -> c <= route_length t l.
Proof. induction 1; cbn [route_length]; [lra| |lra]. generalize (Rabs_pos (u - t)). lra. Qed.

Lemma days V B : exists C, 0 < C /\ forall s T r v D h l c, r 0 = g_position s -> v 0 = g_velocity s -> norm (g_velocity s) <= V -> Rabs T <= B ->
  natural_motion (g_epoch s) T r v -> clear_along (g_epoch s) T r D ->
  (forall t, In t l -> during T t) -> legs_within h 0 l -> route_length 0 l <= B -> midnight_time (g_epoch s) 0 l c -> 0 <= h <= 300 -> C * (h + c) <= D ->
  exists q, visited (RK4 s) (map (later (g_epoch s)) l) q /\ g_epoch (rk_state q) = later (g_epoch s) (last l 0) /\
    separation (g_position (rk_state q)) (g_velocity (rk_state q)) (r (last l 0)) (v (last l 0)) <= C * (h ^ 4 + c).
Proof.
  destruct forces as (L & HL). assert (HL' := HL). destruct HL' as (L0 & _). set (b := Rabs B). assert (b0 : 0 <= b) by apply Rabs_pos.
  set (Vp := Rabs V + 3 * (b * L)). assert (Vp0 : 0 <= Vp). { unfold Vp. assert (0 <= b * L) by (apply Rmult_le_pos; lra). generalize (Rabs_pos V). lra. }
  destruct (along_days L (Vp + 300 * L) HL) as (K & C & K0 & C0 & Al).
  set (C2 := exp (K * b) * (C * (b + 1))). assert (C20 : 0 <= C2) by (unfold C2; apply Rmult_le_pos; [left; apply exp_pos|apply Rmult_le_pos; lra]).
  set (W := Vp + C2 * (300 ^ 4 + b) + 300 * L). assert (CB0 : 0 <= C2 * (300 ^ 4 + b)) by (apply Rmult_le_pos; lra). assert (W0 : 0 <= W) by (unfold W; lra).
  exists (C2 * (300 ^ 3 + 1) + 4 * W + C2 + 1). assert (c23 : 0 <= C2 * (300 ^ 3 + 1)) by (apply Rmult_le_pos; lra). split; [lra|].
  intros s T r v D h l c R0 V0 HV HB NM Cl Du Lg Rl Mt Hh HD.
  assert (c0 := mt_nonneg _ _ _ _ Mt). assert (cl := mt_length _ _ _ _ Mt).
  assert (D0 : 0 <= D). { eapply Rle_trans; [|exact HD]. apply Rmult_le_pos; lra. }
  destruct (natural_follows _ _ _ _ _ D0 Cl NM) as (a & FF).
  assert (Tb : Rabs T <= b) by (unfold b; generalize (Rle_abs B); lra). assert (Bb : B <= b) by (unfold b; apply Rle_abs).
  assert (Sp : forall t, during T t -> norm (v t) <= Vp).
  { intros t Ht. assert (Q := follows_speed L _ _ _ _ _ _ HL D0 Cl FF t Ht). rewrite V0 in Q. unfold Vp. assert (Rabs T * L <= b * L) by (apply Rmult_le_compat_r; lra).
    assert (V <= Rabs V) by apply Rle_abs. lra. }
  assert (hh : 0 <= h ^ 4) by (apply pow_le; lra).
  assert (ES : exp (K * b) * (C * (b * h ^ 4 + c)) <= C2 * (h ^ 4 + c)).
  { unfold C2. rewrite Rmult_assoc. apply Rmult_le_compat_l; [left; apply exp_pos|]. rewrite Rmult_assoc. apply Rmult_le_compat_l; auto.
    assert (0 <= b * c) by (apply Rmult_le_pos; auto). lra. }
  assert (h4 : h ^ 4 <= 300 ^ 4) by (apply pow_incr; lra). assert (h3 : h ^ 3 <= 300 ^ 3) by (apply pow_incr; lra).
  assert (h3' : h ^ 4 <= 300 ^ 3 * h) by (replace (h ^ 4) with (h ^ 3 * h) by ring; apply Rmult_le_compat_r; lra).
  assert (CW : C2 * (h ^ 4 + c) <= C2 * (300 ^ 4 + b)) by (apply Rmult_le_compat_l; lra).
  assert (CW3 : C2 * (h ^ 4 + c) <= C2 * (300 ^ 3 + 1) * (h + c)).
  { rewrite Rmult_assoc. apply Rmult_le_compat_l; auto. assert (0 <= 300 ^ 3 * c) by (apply Rmult_le_pos; lra). lra. }
  assert (HWh : h * W <= W * (h + c)). { assert (0 <= W * c) by (apply Rmult_le_pos; lra). lra. } 
  assert (HCh : 0 <= (C2 + 1) * (h + c)) by (apply Rmult_le_pos; lra). 
  assert (hL : h * L <= 300 * L) by (apply Rmult_le_compat_r; lra).
  destruct (Al (g_epoch s) T r v a D W h b c D0) with (l := l) (p := RK4 s) (t := 0) (x := 0) (y := 0) (c := c) (rn := g_position s) (vn := g_velocity s) as (q & rq & vq & Q1 & Q2 & Q3); auto.
  - intros t Ht. specialize (Sp t Ht). lra.
  - intros t Ht. specialize (Sp t Ht). unfold W. lra.
  - lra.
  - unfold later. rewrite epoch_zero. reflexivity.
  - apply during_zero.
  - lra.
  - lra.
  - lra.
  - lra.
  - rewrite R0, V0, separation_self. rewrite Rmult_0_l, Rplus_0_l, !Rmult_0_r. lra.
  - exists q. rewrite Q2. cbn [GCRF g_epoch g_position g_velocity]. split; auto. split; auto.
    eapply Rle_trans; [exact Q3|]. eapply Rle_trans; [exact ES|]. apply Rmult_le_compat_r; lra.
Qed.
