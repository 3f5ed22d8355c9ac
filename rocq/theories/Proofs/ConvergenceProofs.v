(** Repeated steps of the propagator follow the motion under the modelled forces. *)
From Coq Require Import Reals Lra Psatz Lia List.
From Coquelicot Require Import Coquelicot.
From Verif.Model Require Import Num Constants Linalg Functions Time Celestial Positions States Inertial.
From Verif.Spec Require Import Geometry Gravity Forces RungeKutta Propagation Motion.
From Verif.Proofs Require Import NumLemmas LinalgProofs MatrixProofs Analysis FunctionsProofs TimeProofs StatesProofs InertialProofs AccelerationProofs SafeStep SmoothForces.
Local Open Scope R_scope.

(** * Integrals *)
Lemma RInt_close (f : R -> R) a b c M w : is_RInt f a b w -> 
  (forall s, Rmin a b <= s <= Rmax a b -> Rabs (f s - c) <= M) -> Rabs (w - (b - a) * c) <= Rabs (b - a) * M.
Proof.
  intros I H. assert (I2 : is_RInt (fun s => f s - c) a b (w - (b - a) * c)).
  { apply (is_RInt_minus f (fun _ => c)); auto. apply (is_RInt_const a b (c : R)). }
  exact (norm_RInt_le_const_abs (V := R_NormedModule) (fun s => f s - c) a b _ M H I2).
Qed.
Lemma RInt_between (f : R -> R) a b wa wb : is_RInt f 0 a wa -> is_RInt f 0 b wb -> is_RInt f a b (wb - wa).
Proof.
  intros A B. apply is_RInt_swap in A. replace (wb - wa) with (plus (opp wa) wb) by (unfold plus, opp; cbn; ring).
  apply (is_RInt_Chasles f a 0 b); auto.
Qed.
Lemma norm_sum v : norm v <= Rabs (x3 v) + Rabs (y3 v) + Rabs (z3 v).
Proof.
  assert (X := Rabs_pos (x3 v)). assert (Y := Rabs_pos (y3 v)). assert (Z := Rabs_pos (z3 v)).
  unfold norm. rewrite <- (sqrt_square (Rabs (x3 v) + Rabs (y3 v) + Rabs (z3 v))) by lra. apply sqrt_le_1_alt. unfold dot.
  rewrite <- (Rabs_sq (x3 v)), <- (Rabs_sq (y3 v)), <- (Rabs_sq (z3 v)). nra.
Qed.
Lemma integral_close f a b wa wb c M : integral_of f a wa -> integral_of f b wb ->
  (forall s, Rmin a b <= s <= Rmax a b -> norm (sub (f s) c) <= M) ->
  norm (sub (sub wb wa) (scale (b - a) c)) <= 3 * (Rabs (b - a) * M).
Proof.
  intros (A1 & A2 & A3) (B1 & B2 & B3) H.
  assert (I1 := RInt_between _ _ _ _ _ A1 B1). assert (I2 := RInt_between _ _ _ _ _ A2 B2). assert (I3 := RInt_between _ _ _ _ _ A3 B3).
  eapply Rle_trans; [apply norm_sum|]. cbn [sub scale x3 y3 z3].
  assert (C1 := RInt_close _ _ _ (x3 c) M _ I1). assert (C2 := RInt_close _ _ _ (y3 c) M _ I2). assert (C3 := RInt_close _ _ _ (z3 c) M _ I3).
  assert (K1 : forall s, Rmin a b <= s <= Rmax a b -> Rabs (x3 (f s) - x3 c) <= M) by (intros s Hs; eapply Rle_trans; [apply (abs_x_norm (sub (f s) c))|auto]).
  assert (K2 : forall s, Rmin a b <= s <= Rmax a b -> Rabs (y3 (f s) - y3 c) <= M) by (intros s Hs; eapply Rle_trans; [apply (abs_y_norm (sub (f s) c))|auto]).
  assert (K3 : forall s, Rmin a b <= s <= Rmax a b -> Rabs (z3 (f s) - z3 c) <= M) by (intros s Hs; eapply Rle_trans; [apply (abs_z_norm (sub (f s) c))|auto]).
  specialize (C1 K1). specialize (C2 K2). specialize (C3 K3). lra.
Qed.

(** * One step *)
Definition point (e : epoch) (t : R) (r : vec3) : pt := Pt (value e + t / 86400) r (day_of (value e + t / 86400)).
Lemma point_flying e t r : flyable (later e t) r -> flying (point e t r).
Proof. intros H. split; auto. Qed.
Lemma point_derivative e t r v : flyable (later e t) r -> derivative (GCRF (later e t) r v) = Ok (v, total_acc (point e t r)).
Proof. intros H. exact (derivative_total (point e t r) v (point_flying e t r H)). Qed.

Lemma unthrusted e r v : set_thrust (GCRF e r v) zero3 = GCRF e r v.
Proof. reflexivity. Qed.
Definition rk_points (e : epoch) (t h : R) (r v : vec3) (a1 a2 a3 a4 : vec3) : Prop :=
  let r2 := add r (scale (h / 2) v) in
  let r3 := add r (scale (h / 2) (add v (scale (h / 2) a1))) in
  let r4 := add r (scale h (add v (scale (h / 2) a2))) in
  (flyable (later e t) r /\ a1 = total_acc (point e t r)) /\
  (flyable (later e (t + h / 2)) r2 /\ a2 = total_acc (point e (t + h / 2) r2)) /\
  (flyable (later e (t + h / 2)) r3 /\ a3 = total_acc (point e (t + h / 2) r3)) /\
  (flyable (later e (t + h)) r4 /\ a4 = total_acc (point e (t + h) r4)).
Definition mean4 (a b c d : vec3) : vec3 := scale (1 / 6) (add a (add (scale 2 b) (add (scale 2 c) d))).
Lemma step_form p e t r v a1 a2 a3 a4 : let h := step_size p in
  rk_state p = GCRF (later e t) r v -> m_dot p = 0 -> rk_points e t h r v a1 a2 a3 a4 ->
  rk4_step p = (set_rk_state p (GCRF (later e (t + h))
    (add r (scale h (mean4 v (add v (scale (h / 2) a1)) (add v (scale (h / 2) a2)) (add v (scale h a3)))))
    (add v (scale h (mean4 a1 a2 a3 a4)))), Ok tt).
Proof.
  intros h Es Em ((F1 & A1) & (F2 & A2) & (F3 & A3) & (F4 & A4)).
  unfold rk4_step. rewrite thrust_off by auto.
  assert (Ep : set_rk_state p (set_thrust (rk_state p) zero3) = p).
  { clear - Es. destruct p as [s0 h0 d0 n0 td0 i0]. cbn in Es. subst s0. reflexivity. }
  rewrite Ep. unfold step_result. fold h. rewrite Es. cbn [gcrf_vector_list GCRF g_position g_velocity g_epoch].
  change (Gcrf (later e t) r v (V3 0 0 0) 0 true) with (GCRF (later e t) r v). rewrite point_derivative, <- A1 by auto. cbn [bind].
  unfold stage. rewrite !thrust_off by auto. cbn [bind fst snd].
  assert (E1 : plus_days (epoch_copy (later e t)) (h / 2 / SECONDS_IN_DAY) = later e (t + h / 2)).
  { unfold plus_days, epoch_copy, later, SECONDS_IN_DAY. cbn [value]. f_equal. field. }
  assert (E2 : plus_days (later e (t + h / 2)) (h / 2 / SECONDS_IN_DAY) = later e (t + h)).
  { unfold plus_days, later, SECONDS_IN_DAY. cbn [value]. f_equal. field. }
  rewrite E1, E2. change v3_plus with add. rewrite ?v3_scaled_scale. rewrite unthrusted, point_derivative, <- A2 by auto. cbn [bind fst snd].
  change v3_plus with add. rewrite ?v3_scaled_scale. rewrite unthrusted, point_derivative, <- A3 by auto. cbn [bind fst snd].
  change v3_plus with add. rewrite ?v3_scaled_scale. rewrite unthrusted, point_derivative, <- A4 by auto. cbn [bind fst snd].
  unfold rk_average. change v3_plus with add. rewrite ?v3_scaled_scale. reflexivity.
Qed.

(** * Vectors *)
Lemma sub_triangle a b c : norm (sub a c) <= norm (sub a b) + norm (sub b c).
Proof. replace (sub a c) with (add (sub a b) (sub b c)) by (veq; ring). apply norm_triangle. Qed.
Lemma sub_zero a : sub a zero3 = a.
Proof. veq; ring. Qed.
Lemma add_zero a : add a zero3 = a.
Proof. veq; ring. Qed.
Lemma advance x k m y z y0 w : sub (add x (scale k m)) z =
  add (add (sub x y) (scale k (sub m w))) (scale (-1) (sub (sub (sub z y0) (sub y y0)) (scale k w))).
Proof. veq; ring. Qed.
Lemma sub_self a : norm (sub a a) = 0.
Proof. apply norm_zero. veq; ring. Qed.
Lemma sub_sym a b : norm (sub a b) = norm (sub b a).
Proof. replace (sub a b) with (scale (-1) (sub b a)) by (veq; ring). apply norm_opp. Qed.
Lemma mean4_close a b c d w M : norm (sub a w) <= M -> norm (sub b w) <= M -> norm (sub c w) <= M -> norm (sub d w) <= M ->
  norm (sub (mean4 a b c d) w) <= M.
Proof.
  intros A B C D.
  replace (sub (mean4 a b c d) w) with (scale (1 / 6) (add (sub a w) (add (scale 2 (sub b w)) (add (scale 2 (sub c w)) (sub d w))))) by (unfold mean4; veq; field).
  rewrite norm_scale, Rabs_pos_eq by lra.
  assert (N1 := norm_triangle (sub a w) (add (scale 2 (sub b w)) (add (scale 2 (sub c w)) (sub d w)))).
  assert (N2 := norm_triangle (scale 2 (sub b w)) (add (scale 2 (sub c w)) (sub d w))).
  assert (N3 := norm_triangle (scale 2 (sub c w)) (sub d w)).
  rewrite norm_scale, Rabs_pos_eq in N2 by lra. rewrite norm_scale, Rabs_pos_eq in N3 by lra. lra.
Qed.
Lemma during_between T t u s : during T t -> during T u -> Rmin t u <= s <= Rmax t u -> during T s.
Proof.
  intros (x & Hx & Ex) (y & Hy & Ey) Hs. destruct (Req_dec T 0) as [E|E].
  - exists 0. split; [lra|]. rewrite E in Ex, Ey. rewrite Rmult_0_r in Ex, Ey. subst t u. rewrite Rmin_left, Rmax_left in Hs by lra. lra.
  - exists (s / T). split; [|field; auto].
    assert (B : Rmin x y <= s / T <= Rmax x y).
    { subst t u. unfold Rmin, Rmax in *. destruct (Rle_dec x y), (Rle_dec (x * T) (y * T)); destruct (Rtotal_order T 0) as [N|[N|N]]; try lra.
      all: assert (Es : s = s / T * T) by (field; auto); set (q := s / T) in *; clearbody q; subst s; split; nra. }
    unfold Rmin, Rmax in B. destruct Rle_dec in B; lra.
Qed.
Lemma day_between a b s : Rmin a b <= s <= Rmax a b -> Rabs (day_of s - day_of a) <= Rabs (day_of b - day_of a).
Proof.
  assert (Mono : forall x y, x <= y -> day_of x <= day_of y).
  { intros x y H. unfold day_of. apply IZR_le. assert (A := nfloor_bounds (x - UTC_TDT_OFFSET)). assert (B := nfloor_bounds (y - UTC_TDT_OFFSET)).
    assert (IZR (nfloor (x - UTC_TDT_OFFSET)) < IZR (nfloor (y - UTC_TDT_OFFSET) + 1)) by (rewrite plus_IZR; lra).
    apply lt_IZR in H0. lia. }
  intros H. unfold Rmin, Rmax in H. destruct (Rle_dec a b).
  - assert (A := Mono a s ltac:(lra)). assert (B := Mono s b ltac:(lra)). rewrite !Rabs_pos_eq; lra.
  - assert (A := Mono b s ltac:(lra)). assert (B := Mono s a ltac:(lra)). rewrite !Rabs_left1; lra.
Qed.
Definition lipschitz_forces (L : R) : Prop := 0 < L /\ forall p q, flying p -> flying q ->
  norm (total_acc p) <= L /\
  norm (sub (total_acc p) (total_acc q)) <= L * (Rabs (pt_t p - pt_t q) + norm (sub (pt_r p) (pt_r q)) + Rabs (pt_k p - pt_k q)).
Definition follows_forces (e : epoch) (T : R) (r v a : R -> vec3) : Prop :=
  forall t, during T t -> a t = total_acc (point e t (r t)) /\
    integral_of v t (sub (r t) (r 0)) /\ integral_of a t (sub (v t) (v 0)).
Lemma clear_self e T r D t : 0 <= D -> clear_along e T r D -> during T t -> flyable (later e t) (r t).
Proof. intros H C Ht. apply (C t (r t) Ht). rewrite sub_self. auto. Qed.
Lemma natural_follows e T r v D : 0 <= D -> clear_along e T r D -> natural_motion e T r v -> exists a, follows_forces e T r v a.
Proof.
  intros HD C (a & H). exists a. intros t Ht. destruct (H t Ht) as (E & I1 & I2). split; [|split; auto].
  rewrite point_derivative in E by (eapply clear_self; eauto). congruence.
Qed.
Lemma abs_during t h s : Rmin t (t + h) <= s <= Rmax t (t + h) -> Rabs (s - t) <= Rabs h.
Proof. unfold Rmin, Rmax, Rabs. repeat (destruct Rcase_abs || destruct Rle_dec); lra. Qed.
Lemma day_step e t h s : Rmin t (t + h) <= s <= Rmax t (t + h) ->
  Rabs (day_of (value e + s / 86400) - day_of (value e + t / 86400)) <= Rabs (day_of (value e + (t + h) / 86400) - day_of (value e + t / 86400)).
Proof.
  intros H. apply day_between. unfold Rmin, Rmax in *. repeat destruct Rle_dec; lra.
Qed.
Lemma acc_close L e t h s x y : lipschitz_forces L -> Rmin t (t + h) <= s <= Rmax t (t + h) ->
  flyable (later e s) x -> flyable (later e t) y ->
  norm (sub (total_acc (point e s x)) (total_acc (point e t y))) <=
  L * (Rabs h + norm (sub x y) + Rabs (day_of (value e + (t + h) / 86400) - day_of (value e + t / 86400))).
Proof.
  intros (L0 & HL) Hs Fx Fy. destruct (HL _ _ (point_flying e s x Fx) (point_flying e t y Fy)) as (_ & B).
  eapply Rle_trans; [exact B|]. apply Rmult_le_compat_l; [lra|]. cbn [point pt_t pt_r pt_k].
  assert (A := abs_during t h s Hs). assert (K := day_step e t h s Hs).
  replace (value e + s / 86400 - (value e + t / 86400)) with ((s - t) * / 86400) by field.
  rewrite Rabs_mult, (Rabs_pos_eq (/ 86400)) by lra. generalize (Rabs_pos (s - t)). lra.
Qed.
Lemma moved (f : R -> vec3) (F : R -> vec3) T t h M : 0 <= M -> (forall s, during T s -> integral_of f s (sub (F s) (F 0))) ->
  during T t -> during T (t + h) -> (forall s, during T s -> norm (f s) <= M) ->
  forall s, Rmin t (t + h) <= s <= Rmax t (t + h) -> norm (sub (F s) (F t)) <= 3 * (Rabs h * M).
Proof.
  intros HM I Ht Hh B s Hs. assert (Ds := during_between T t (t + h) s Ht Hh Hs).
  assert (K := integral_close f t s _ _ zero3 M (I t Ht) (I s Ds)).
  assert (H : forall u, Rmin t s <= u <= Rmax t s -> norm (sub (f u) zero3) <= M).
  { intros u Hu. replace (sub (f u) zero3) with (f u) by (veq; ring). apply B. apply (during_between T t s u); auto. }
  specialize (K H). replace (sub (F s) (F t)) with (sub (sub (sub (F s) (F 0)) (sub (F t) (F 0))) (scale (s - t) zero3)) by (veq; ring).
  eapply Rle_trans; [exact K|]. assert (A := abs_during t h s Hs). assert (Rabs (s - t) * M <= Rabs h * M) by (apply Rmult_le_compat_r; auto). lra.
Qed.
Lemma one_step L e T r v a D W p t rn vn : lipschitz_forces L -> 0 <= D -> clear_along e T r D -> follows_forces e T r v a ->
  let h := step_size p in
  rk_state p = GCRF (later e t) rn vn -> m_dot p = 0 -> during T t -> during T (t + h) ->
  (forall s, during T s -> norm (v s) <= W) -> norm vn + Rabs h * L <= W ->
  norm (sub rn (r t)) + 4 * (Rabs h * W) <= D ->
  let dk := Rabs (day_of (value e + (t + h) / 86400) - day_of (value e + t / 86400)) in
  exists r' v', rk4_step p = (set_rk_state p (GCRF (later e (t + h)) r' v'), Ok tt) /\ norm v' <= norm vn + Rabs h * L /\
  separation r' v' (r (t + h)) (v (t + h)) <= (1 + Rabs h * (1 + L)) * separation rn vn (r t) (v t)
     + Rabs h * (14 * L * (Rabs h * (1 + W) + dk)).
Proof.
  intros HL HD C FF h Es Em Dt Dh Bv Bn BD dk.
  assert (HL' := HL). destruct HL' as (L0 & HL').
  assert (H0 := Rabs_pos h). assert (Nn := norm_nonneg vn). assert (W0 : 0 <= W) by (assert (Q := Bv t Dt); generalize (norm_nonneg (v t)); lra).
  assert (St : Rmin t (t + h) <= t <= Rmax t (t + h)) by (unfold Rmin, Rmax; destruct Rle_dec; lra).
  assert (S2 : Rmin t (t + h) <= t + h / 2 <= Rmax t (t + h)) by (unfold Rmin, Rmax; destruct Rle_dec; lra).
  assert (S4 : Rmin t (t + h) <= t + h <= Rmax t (t + h)) by (unfold Rmin, Rmax; destruct Rle_dec; lra).
  assert (Ia : forall s, during T s -> integral_of a s (sub (v s) (v 0))) by (intros s Hs; destruct (FF s Hs) as (_ & ? & ?); assumption).
  assert (Iv : forall s, during T s -> integral_of v s (sub (r s) (r 0))) by (intros s Hs; destruct (FF s Hs) as (_ & ? & ?); assumption).
  assert (Ba : forall s, during T s -> norm (a s) <= L).
  { intros s Hs. destruct (FF s Hs) as (-> & _). assert (F := clear_self e T r D s HD C Hs).
    destruct (HL' _ _ (point_flying e s _ F) (point_flying e s _ F)); auto. }
  assert (Mr := moved v r T t h W W0 Iv Dt Dh Bv). assert (Mv := moved a v T t h L ltac:(lra) Ia Dt Dh Ba).
  (* places near the motion are flyable *)
  assert (Near : forall s w, Rmin t (t + h) <= s <= Rmax t (t + h) -> norm w <= Rabs h * W -> flyable (later e s) (add rn w)).
  { intros s w Hs Hw. apply C; [apply (during_between T t (t + h)); auto|].
    eapply Rle_trans; [apply (sub_triangle _ rn)|]. rewrite sub_add. assert (T1 := sub_triangle rn (r t) (r s)).
    rewrite (sub_sym (r t)) in T1. assert (T2 := Mr s Hs). lra. }
  assert (Acc : forall s w, Rmin t (t + h) <= s <= Rmax t (t + h) -> norm w <= Rabs h * W ->
    norm (total_acc (point e s (add rn w))) <= L /\
    norm (sub (total_acc (point e s (add rn w))) (a t)) <= L * (Rabs h + (norm (sub rn (r t)) + Rabs h * W) + dk)).
  { intros s w Hs Hw. assert (F := Near s w Hs Hw). split; [destruct (HL' _ _ (point_flying e s _ F) (point_flying e s _ F)); auto|].
    destruct (FF t Dt) as (-> & _). assert (Ft := clear_self e T r D t HD C Dt).
    eapply Rle_trans; [apply (acc_close L e t h s _ _ HL Hs F Ft)|]. fold dk. apply Rmult_le_compat_l; [lra|].
    assert (T1 := sub_triangle (add rn w) rn (r t)). rewrite sub_add in T1. lra. }
  assert (Zero := add_zero rn).
  assert (Wz : norm zero3 <= Rabs h * W). { replace (norm zero3) with 0 by (symmetry; apply norm_zero; auto). apply Rmult_le_pos; auto. }
  assert (Half : Rabs (h / 2) <= Rabs h) by (unfold Rabs; repeat destruct Rcase_abs; lra).
  set (a1 := total_acc (point e t rn)).
  assert (A1 := Acc t zero3 St Wz). rewrite Zero in A1. fold a1 in A1. destruct A1 as (N1 & C1).
  assert (W2 : norm (scale (h / 2) vn) <= Rabs h * W). { rewrite norm_scale. apply Rmult_le_compat; auto using Rabs_pos. nra. }
  set (a2 := total_acc (point e (t + h / 2) (add rn (scale (h / 2) vn)))).
  destruct (Acc (t + h / 2) _ S2 W2) as (N2 & C2). fold a2 in N2, C2.
  assert (Sv : forall k x, Rabs k <= Rabs h -> norm x <= L -> norm (add vn (scale k x)) <= W /\ norm (sub (add vn (scale k x)) vn) <= Rabs h * L).
  { intros k x Hk Hx. rewrite sub_add. assert (Q : norm (scale k x) <= Rabs h * L) by (rewrite norm_scale; apply Rmult_le_compat; auto using Rabs_pos, norm_nonneg).
    split; auto. eapply Rle_trans; [apply norm_triangle|]. lra. }
  destruct (Sv (h / 2) a1 Half N1) as (V1 & V1').
  assert (W3 : norm (scale (h / 2) (add vn (scale (h / 2) a1))) <= Rabs h * W). { rewrite norm_scale. apply Rmult_le_compat; auto using Rabs_pos, norm_nonneg. }
  set (a3 := total_acc (point e (t + h / 2) (add rn (scale (h / 2) (add vn (scale (h / 2) a1)))))).
  destruct (Acc (t + h / 2) _ S2 W3) as (N3 & C3). fold a3 in N3, C3.
  destruct (Sv (h / 2) a2 Half N2) as (V2 & V2').
  assert (W4 : norm (scale h (add vn (scale (h / 2) a2))) <= Rabs h * W). { rewrite norm_scale. apply Rmult_le_compat; auto using Rabs_pos, norm_nonneg. lra. }
  set (a4 := total_acc (point e (t + h) (add rn (scale h (add vn (scale (h / 2) a2)))))).
  destruct (Acc (t + h) _ S4 W4) as (N4 & C4). fold a4 in N4, C4.
  destruct (Sv h a3 ltac:(lra) N3) as (V3 & V3').
  assert (P : rk_points e t h rn vn a1 a2 a3 a4).
  { split; [split; [rewrite <- Zero; apply Near; auto|reflexivity]|].
    split; [split; [apply Near; auto|reflexivity]|]. split; (split; [apply Near; auto|reflexivity]). }
  eexists. eexists. split; [exact (step_form p e t rn vn a1 a2 a3 a4 Es Em P)|].
  fold h. set (vm := mean4 vn _ _ _). set (am := mean4 a1 a2 a3 a4).
  clear P Acc Near W2 W3 W4 Wz Zero.
  assert (Am0 : norm am <= L).
  { rewrite <- (sub_zero am). apply mean4_close; rewrite sub_zero; auto. }
  split.
  { eapply Rle_trans; [apply norm_triangle|]. rewrite norm_scale. assert (Rabs h * norm am <= Rabs h * L) by (apply Rmult_le_compat_l; auto). lra. }
  set (er := norm (sub rn (r t))) in *. set (ev := norm (sub vn (v t))).
  assert (Am : norm (sub am (a t)) <= L * (Rabs h + (er + Rabs h * W) + dk)) by (apply mean4_close; auto).
  assert (Vm : norm (sub vm (v t)) <= ev + Rabs h * L).
  { assert (HLp : 0 <= Rabs h * L) by (apply Rmult_le_pos; lra).
    apply mean4_close; [unfold ev; lra| | |]; (eapply Rle_trans; [apply (sub_triangle _ vn)|]); fold ev; lra. }
  assert (Xv : norm (sub (sub (sub (v (t + h)) (v 0)) (sub (v t) (v 0))) (scale (t + h - t) (a t))) <= 3 * (Rabs (t + h - t) * (L * (Rabs h + 3 * (Rabs h * W) + dk)))).
  { apply (integral_close a); auto. intros s Hs. assert (Ds := during_between T t (t + h) s Dt Dh Hs).
    destruct (FF s Ds) as (-> & _). destruct (FF t Dt) as (-> & _).
    eapply Rle_trans; [apply (acc_close L e t h s _ _ HL Hs); apply (clear_self e T r D); auto|]. fold dk. apply Rmult_le_compat_l; [lra|]. assert (Q := Mr s Hs). lra. }
  assert (Xr : norm (sub (sub (sub (r (t + h)) (r 0)) (sub (r t) (r 0))) (scale (t + h - t) (v t))) <= 3 * (Rabs (t + h - t) * (3 * (Rabs h * L)))).
  { apply (integral_close v); auto. }
  replace (t + h - t) with h in Xv, Xr by ring.
  clearbody am vm.
  unfold separation. fold er ev.
  assert (Fr : norm (sub (add rn (scale h vm)) (r (t + h))) <= er + Rabs h * (ev + Rabs h * L) + 3 * (Rabs h * (3 * (Rabs h * L)))).
  { rewrite (advance rn h vm (r t) (r (t + h)) (r 0) (v t)).
    eapply Rle_trans; [apply norm_triangle|]. rewrite norm_opp. assert (Q := norm_triangle (sub rn (r t)) (scale h (sub vm (v t)))).
    rewrite norm_scale in Q. fold er in Q. assert (Rabs h * norm (sub vm (v t)) <= Rabs h * (ev + Rabs h * L)) by (apply Rmult_le_compat_l; auto). lra. }
  assert (Fv : norm (sub (add vn (scale h am)) (v (t + h))) <= ev + Rabs h * (L * (Rabs h + (er + Rabs h * W) + dk)) + 3 * (Rabs h * (L * (Rabs h + 3 * (Rabs h * W) + dk)))).
  { rewrite (advance vn h am (v t) (v (t + h)) (v 0) (a t)).
    eapply Rle_trans; [apply norm_triangle|]. rewrite norm_opp. assert (Q := norm_triangle (sub vn (v t)) (scale h (sub am (a t)))).
    rewrite norm_scale in Q. fold ev in Q. assert (Rabs h * norm (sub am (a t)) <= Rabs h * (L * (Rabs h + (er + Rabs h * W) + dk))) by (apply Rmult_le_compat_l; auto). lra. }
  assert (er0 : 0 <= er) by apply norm_nonneg. assert (ev0 : 0 <= ev) by apply norm_nonneg. assert (dk0 : 0 <= dk) by apply Rabs_pos.
  eapply Rle_trans; [apply Rplus_le_compat; [exact Fr|exact Fv]|].
  set (q := Rabs h) in *. 
  assert (M1 : 0 <= q * ev * L) by (repeat apply Rmult_le_pos; lra). assert (M2 : 0 <= q * er) by (apply Rmult_le_pos; lra).
  assert (M3 : 0 <= q * L * dk) by (repeat apply Rmult_le_pos; lra). assert (M4 : 0 <= q * L * (q * W)) by (repeat apply Rmult_le_pos; lra).
  clear - M1 M2 M3 M4. lra.
Qed.

(** * Many steps *)
Lemma exp_le x y : x <= y -> exp x <= exp y.
Proof. intros [H|H]; [left; apply exp_increasing; auto|subst; lra]. Qed.
Lemma day_mono x y : x <= y -> day_of x <= day_of y.
Proof.
  intros H. unfold day_of. apply IZR_le. assert (A := nfloor_bounds (x - UTC_TDT_OFFSET)). assert (B := nfloor_bounds (y - UTC_TDT_OFFSET)).
  assert (Q : IZR (nfloor (x - UTC_TDT_OFFSET)) < IZR (nfloor (y - UTC_TDT_OFFSET) + 1)) by (rewrite plus_IZR; lra).
  apply lt_IZR in Q. lia.
Qed.
Lemma day_parts a b c : (a <= b <= c) \/ (c <= b <= a) ->
  Rabs (day_of b - day_of a) + Rabs (day_of c - day_of b) = Rabs (day_of c - day_of a).
Proof.
  intros [[H1 H2]|[H1 H2]]; assert (A := day_mono _ _ H1); assert (B := day_mono _ _ H2).
  - rewrite !Rabs_pos_eq; lra.
  - rewrite !Rabs_left1; lra.
Qed.
Lemma day_span a b : Rabs (day_of b - day_of a) <= Rabs (b - a) + 1.
Proof.
  unfold day_of. assert (A := nfloor_bounds (a - UTC_TDT_OFFSET)). assert (B := nfloor_bounds (b - UTC_TDT_OFFSET)).
  unfold Rabs. repeat destruct Rcase_abs; lra.
Qed.
Lemma during_steps T N n : (0 < N)%nat -> (n <= N)%nat -> during T (INR n * (T / INR N)).
Proof.
  intros HN Hn. assert (P : 0 < INR N) by (apply lt_0_INR; lia). exists (INR n / INR N). split.
  - split; [apply Rdiv_nonneg; [apply pos_INR|lra]|]. apply Rmult_le_reg_r with (INR N); auto. unfold Rdiv. rewrite Rmult_assoc, Rinv_l by lra.
    apply le_INR in Hn. lra.
  - field. lra.
Qed.
Definition start_error (s : gcrf) (r v : R -> vec3) : R := separation (g_position s) (g_velocity s) (r 0) (v 0).
Lemma many_steps L T r v a D W N s : let e := g_epoch s in let h := T / INR N in let E0 := start_error s r v in
  lipschitz_forces L -> 0 <= D -> clear_along e T r D -> follows_forces e T r v a -> (0 < N)%nat ->
  (forall t, during T t -> norm (v t) <= W) -> norm (g_velocity s) + Rabs T * L <= W ->
  exp ((1 + L) * Rabs T) * (E0 + Rabs h * (14 * L * (Rabs T * (1 + W) + (Rabs T + 1)))) + 4 * (Rabs h * W) <= D ->
  forall n, (n <= N)%nat -> exists q rn vn, let t := INR n * h in stepped n (set_step_size (RK4 s) h) q /\
    rk_state q = GCRF (later e t) rn vn /\ norm vn <= norm (g_velocity s) + INR n * (Rabs h * L) /\
    separation rn vn (r t) (v t) <= exp ((1 + L) * (INR n * Rabs h)) *
      (E0 + Rabs h * (14 * L * (INR n * Rabs h * (1 + W) + Rabs (day_of (value e + t / 86400) - day_of (value e + 0 / 86400))))).
Proof.
  intros e h E0 HL HD C FF HN Bv Bs BD. assert (HL' := HL). destruct HL' as (L0 & _).
  assert (PN : 0 < INR N) by (apply lt_0_INR; lia). assert (H0 := Rabs_pos h).
  assert (ET : Rabs T = INR N * Rabs h).
  { unfold h, Rdiv. rewrite Rabs_mult, (Rabs_pos_eq (/ INR N)) by (left; apply Rinv_0_lt_compat; auto). field. lra. }
  assert (D0 : during T 0) by (exists 0; split; lra).
  assert (W0 : 0 <= W) by (assert (Q := Bv 0 D0); generalize (norm_nonneg (v 0)); lra).
  assert (E00 : 0 <= E0) by (unfold E0, start_error, separation; generalize (norm_nonneg (sub (g_position s) (r 0))) (norm_nonneg (sub (g_velocity s) (v 0))); lra).
  induction n as [|n IH]; intros Hn.
  - exists (set_step_size (RK4 s) h), (g_position s), (g_velocity s). cbv zeta. cbn [INR]. rewrite !Rmult_0_l. split; [constructor|].
    split; [|split].
    + unfold later. rewrite epoch_zero. reflexivity.
    + lra.
    + replace (Rabs (_ - _)) with 0 by (symmetry; unfold Rminus; rewrite Rplus_opp_r; apply Rabs_R0).
      replace ((1 + L) * 0) with 0 by ring. rewrite exp_0. match goal with |- _ <= ?X => replace X with E0 by ring end. unfold E0, start_error. lra.
  - destruct (IH ltac:(lia)) as (q & rn & vn & Sq & Eq & Nq & Bq). cbv zeta in Eq, Nq, Bq. clear IH.
    set (t := INR n * h) in *.
    destruct (stepped_inv _ _ _ Sq) as [(S1 & S2 & _) _]. cbn in S1, S2.
    assert (Hh : step_size q = h) by (rewrite <- S1; reflexivity). assert (Hm : m_dot q = 0) by (rewrite <- S2; reflexivity).
    assert (Dt : during T t) by (apply during_steps; lia).
    assert (Et : INR (S n) * h = t + h) by (unfold t; rewrite S_INR; ring).
    assert (Dh : during T (t + h)) by (rewrite <- Et; apply during_steps; lia).
    assert (In : INR n + 1 <= INR N) by (rewrite <- S_INR; apply le_INR; lia). assert (Pn := pos_INR n).
    assert (NN : norm vn + Rabs h * L <= W).
    { assert ((INR n + 1) * (Rabs h * L) <= INR N * (Rabs h * L)) by (apply Rmult_le_compat_r; [apply Rmult_le_pos; lra|auto]).
      rewrite ET in Bs. lra. }
    set (k := fun u => day_of (value e + u / 86400)) in *.
    change (day_of (value e + t / 86400)) with (k t) in Bq. change (day_of (value e + 0 / 86400)) with (k 0) in *.
    assert (Span : Rabs (k t - k 0) <= Rabs T + 1).
    { unfold k. eapply Rle_trans; [apply day_span|]. replace (value e + t / 86400 - (value e + 0 / 86400)) with (t * / 86400) by field.
      rewrite Rabs_mult, (Rabs_pos_eq (/ 86400)) by lra. assert (Rabs t <= Rabs T); [|generalize (Rabs_pos t); lra].
      unfold t. rewrite Rabs_mult, (Rabs_pos_eq (INR n)) by auto. rewrite ET. apply Rmult_le_compat_r; lra. }
    set (S := E0 + Rabs h * (14 * L * (INR n * Rabs h * (1 + W) + Rabs (k t - k 0)))) in *.
    assert (nT : INR n * Rabs h <= Rabs T) by (rewrite ET; apply Rmult_le_compat_r; lra).
    assert (nh0 : 0 <= INR n * Rabs h) by (apply Rmult_le_pos; auto).
    assert (S0 : E0 <= S <= E0 + Rabs h * (14 * L * (Rabs T * (1 + W) + (Rabs T + 1)))).
    { unfold S. assert (Z : 0 <= Rabs h * (14 * L)) by (apply Rmult_le_pos; lra).
      assert (A : 0 <= INR n * Rabs h * (1 + W) + Rabs (k t - k 0)) by (apply Rplus_le_le_0_compat; [apply Rmult_le_pos; lra|apply Rabs_pos]).
      assert (B : INR n * Rabs h * (1 + W) <= Rabs T * (1 + W)) by (apply Rmult_le_compat_r; lra).
      rewrite <- !(Rmult_assoc (Rabs h) (14 * L)). split; [generalize (Rmult_le_pos _ _ Z A); lra|]. apply Rplus_le_compat_l, Rmult_le_compat_l; lra. }
    assert (Ex : exp ((1 + L) * (INR n * Rabs h)) <= exp ((1 + L) * Rabs T)) by (apply exp_le, Rmult_le_compat_l; lra).
    assert (Near : norm (sub rn (r t)) + 4 * (Rabs h * W) <= D).
    { eapply Rle_trans; [|exact BD]. apply Rplus_le_compat_r. 
      apply Rle_trans with (separation rn vn (r t) (v t)); [unfold separation; generalize (norm_nonneg (sub vn (v t))); lra|].
      eapply Rle_trans; [exact Bq|]. apply Rmult_le_compat; try lra. left. apply exp_pos. }
    rewrite <- Hh in Dh, NN, Near.
    destruct (one_step L e T r v a D W q t rn vn HL HD C FF Eq Hm Dt Dh Bv NN Near) as (r' & v' & Es & Nv & Bs').
    rewrite Hh in Es, Nv, Bs'. fold (k (t + h)) in Bs'. fold (k t) in Bs'.
    exists (set_rk_state q (GCRF (later e (t + h)) r' v')), r', v'. cbv zeta. rewrite Et. fold (k (t + h)).
    split; [eapply stepped_snoc; eauto|]. split; [reflexivity|]. split.
    + rewrite S_INR. lra.
    + assert (Kp : Rabs (k (t + h) - k 0) = Rabs (k t - k 0) + Rabs (k (t + h) - k t)).
      { unfold k. symmetry. apply day_parts. unfold t. destruct (Rle_dec 0 h) as [Hp|Hp].
        - left. assert (0 <= INR n * h) by (apply Rmult_le_pos; auto). lra.
        - right. assert (0 <= INR n * - h) by (apply Rmult_le_pos; lra). lra. }
      rewrite Kp. set (dk := Rabs (k (t + h) - k t)) in *.
      set (c := Rabs h * (14 * L * (Rabs h * (1 + W) + dk))) in *.
      assert (c0 : 0 <= c). { unfold c. apply Rmult_le_pos; auto. apply Rmult_le_pos; [lra|]. apply Rplus_le_le_0_compat; [apply Rmult_le_pos; lra|apply Rabs_pos]. }
      replace (E0 + Rabs h * (14 * L * (INR (Datatypes.S n) * Rabs h * (1 + W) + (Rabs (k t - k 0) + dk)))) with (S + c)
        by (unfold S, c; rewrite S_INR; ring).
      replace ((1 + L) * (INR (Datatypes.S n) * Rabs h)) with ((1 + L) * (INR n * Rabs h) + Rabs h * (1 + L)) by (rewrite S_INR; ring).
      rewrite exp_plus. set (X := exp ((1 + L) * (INR n * Rabs h))) in *. set (u := Rabs h * (1 + L)) in *.
      assert (u0 : 0 <= u) by (unfold u; apply Rmult_le_pos; lra).
      assert (X1 : 1 <= X). { apply Rle_trans with (exp 0); [rewrite exp_0; lra|]. apply exp_le. apply Rmult_le_pos; lra. }
      assert (U := exp_ineq1_le u).
      eapply Rle_trans; [exact Bs'|]. 
      assert (P1 : (1 + u) * separation rn vn (r t) (v t) <= (1 + u) * (X * S)) by (apply Rmult_le_compat_l; lra).
      assert (P2 : (1 + u) * (X * S) <= exp u * (X * S)) by (apply Rmult_le_compat_r; [apply Rmult_le_pos; lra|auto]).
      assert (P3 : 1 * c <= X * exp u * c). { apply Rmult_le_compat_r; auto. rewrite <- (Rmult_1_l 1). apply Rmult_le_compat; lra. }
      lra.
Qed.

(** * The limit of small steps *)
Lemma forces : exists L, lipschitz_forces L.
Proof. exact forces_lipschitz. Qed.
Lemma follows_speed L e T r v a D : lipschitz_forces L -> 0 <= D -> clear_along e T r D -> follows_forces e T r v a ->
  forall t, during T t -> norm (v t) <= norm (v 0) + 3 * (Rabs T * L).
Proof.
  intros (L0 & HL) HD C FF t Ht.
  assert (D0 : during T 0) by (exists 0; split; lra). assert (D1 : during T (0 + T)) by (exists 1; split; lra).
  assert (M := moved a v T 0 T L). specialize (M ltac:(lra)).
  assert (B : norm (sub (v t) (v 0)) <= 3 * (Rabs T * L)).
  { apply M; auto.
    - intros s Hs. apply FF; auto.
    - intros s Hs. destruct (FF s Hs) as (-> & _). assert (F := clear_self e T r D s HD C Hs).
      destruct (HL _ _ (point_flying e s _ F) (point_flying e s _ F)); auto.
    - destruct Ht as (x & Hx & ->). unfold Rmin, Rmax. destruct Rle_dec; nra. }
  replace (v t) with (add (v 0) (sub (v t) (v 0))) by (destruct (v t), (v 0); unfold add, sub; cbn; f_equal; ring).
  eapply Rle_trans; [apply norm_triangle|]. lra.
Qed.
Definition tolerance (K T speed E0 : R) (N : nat) : R :=
  exp (K * Rabs T) * (E0 + K * (1 + speed + Rabs T) ^ 2 * (Rabs T / INR N)).
Lemma converge : exists K, 0 < K /\ forall s T r v D N, natural_motion (g_epoch s) T r v -> clear_along (g_epoch s) T r D -> (0 < N)%nat ->
  let E := tolerance K T (norm (v 0) + norm (g_velocity s)) (start_error s r v) N in E <= D ->
  exists q, stepped N (set_step_size (RK4 s) (T / INR N)) q /\ g_epoch (rk_state q) = later (g_epoch s) T /\
    separation (g_position (rk_state q)) (g_velocity (rk_state q)) (r T) (v T) <= E.
Proof.
  destruct forces as (L & HL). assert (HL' := HL). destruct HL' as (L0 & _).
  exists ((1 + L) + 14 * L * (4 + 3 * L) + 4 * (1 + 3 * L)). set (K := _ + _ + _).
  assert (K0 : 1 + L <= K). { unfold K. nra. } assert (Kp : 14 * L * (4 + 3 * L) + 4 * (1 + 3 * L) <= K) by (unfold K; lra).
  split; [lra|]. intros s T r v D N NM C HN E HE. unfold E, tolerance in *. clear E. unfold start_error in *.
  assert (PN : 0 < INR N) by (apply lt_0_INR; lia). set (h := T / INR N).
  assert (Eh : Rabs T / INR N = Rabs h).
  { unfold h, Rdiv. rewrite Rabs_mult, (Rabs_pos_eq (/ INR N)); auto. left. apply Rinv_0_lt_compat; auto. }
  rewrite Eh in *. set (E0 := separation _ _ (r 0) (v 0)) in *.
  assert (E00 : 0 <= E0) by (unfold E0, separation; generalize (norm_nonneg (sub (g_position s) (r 0))) (norm_nonneg (sub (g_velocity s) (v 0))); lra).
  set (U := 1 + (norm (v 0) + norm (g_velocity s)) + Rabs T) in *.
  assert (T0 := Rabs_pos T). assert (h0 := Rabs_pos h). assert (v0 := norm_nonneg (v 0)). assert (s0 := norm_nonneg (g_velocity s)).
  assert (U1 : 1 <= U) by (unfold U; lra). assert (U2 : U <= U ^ 2) by nra.
  assert (Ep := exp_pos (K * Rabs T)).
  assert (HD : 0 <= D).
  { eapply Rle_trans; [|exact HE]. apply Rmult_le_pos; [lra|]. apply Rplus_le_le_0_compat; auto. apply Rmult_le_pos; auto. apply Rmult_le_pos; [lra|]. apply pow2_ge_0. }
  destruct (natural_follows _ _ _ _ _ HD C NM) as (a & FF).
  set (W := norm (v 0) + norm (g_velocity s) + 3 * (Rabs T * L)).
  assert (Bv : forall t, during T t -> norm (v t) <= W).
  { intros t Ht. assert (Q := follows_speed L _ T r v a D HL HD C FF t Ht). unfold W. lra. }
  assert (TL : 0 <= Rabs T * L) by (apply Rmult_le_pos; lra).
  assert (WU : 0 <= W <= (1 + 3 * L) * U). { unfold W, U. split; [lra|]. nra. }
  assert (TU : Rabs T <= U) by (unfold U; lra).
  assert (Main : exp ((1 + L) * Rabs T) * (E0 + Rabs h * (14 * L * (Rabs T * (1 + W) + (Rabs T + 1)))) + 4 * (Rabs h * W)
     <= exp (K * Rabs T) * (E0 + K * U ^ 2 * Rabs h)).
  { assert (A1 : exp ((1 + L) * Rabs T) <= exp (K * Rabs T)) by (apply exp_le, Rmult_le_compat_r; lra).
    assert (A2 : 1 <= exp (K * Rabs T)). { apply Rle_trans with (exp 0); [rewrite exp_0; lra|]. apply exp_le, Rmult_le_pos; lra. }
    assert (A3 : Rabs T * (1 + W) + (Rabs T + 1) <= (4 + 3 * L) * U ^ 2).
    { assert (Rabs T * (1 + W) <= U * (1 + (1 + 3 * L) * U)) by (apply Rmult_le_compat; lra). nra. }
    assert (A4 : 14 * L * (Rabs T * (1 + W) + (Rabs T + 1)) <= 14 * L * ((4 + 3 * L) * U ^ 2)) by (apply Rmult_le_compat_l; lra).
    assert (A5 : 4 * W <= 4 * (1 + 3 * L) * U ^ 2) by nra.
    set (X := 14 * L * (Rabs T * (1 + W) + (Rabs T + 1))) in *.
    assert (X0 : 0 <= X). { unfold X. apply Rmult_le_pos; [lra|]. apply Rplus_le_le_0_compat; [apply Rmult_le_pos; lra|lra]. }
    assert (B1 : X + 4 * W <= K * U ^ 2).
    { eapply Rle_trans; [apply Rplus_le_compat; [exact A4|exact A5]|]. replace (14 * L * ((4 + 3 * L) * U ^ 2) + 4 * (1 + 3 * L) * U ^ 2) with ((14 * L * (4 + 3 * L) + 4 * (1 + 3 * L)) * U ^ 2) by ring.
      apply Rmult_le_compat_r; auto. apply pow2_ge_0. }
    set (G := exp (K * Rabs T)) in *. set (G' := exp ((1 + L) * Rabs T)) in *.
    assert (C1 : G' * (E0 + Rabs h * X) <= G * (E0 + Rabs h * X)).
    { apply Rmult_le_compat_r; auto. apply Rplus_le_le_0_compat; auto. apply Rmult_le_pos; auto. }
    assert (C2 : 1 * (Rabs h * (4 * W)) <= G * (Rabs h * (4 * W))). { apply Rmult_le_compat_r; auto. apply Rmult_le_pos; lra. }
    assert (C3 : Rabs h * (X + 4 * W) <= Rabs h * (K * U ^ 2)) by (apply Rmult_le_compat_l; auto).
    assert (C4 : G * (E0 + Rabs h * (X + 4 * W)) <= G * (E0 + Rabs h * (K * U ^ 2))) by (apply Rmult_le_compat_l; lra).
    lra. }
  assert (Bs : norm (g_velocity s) + Rabs T * L <= W) by (unfold W; lra).
  destruct (many_steps L T r v a D W N s HL HD C FF HN Bv Bs ltac:(fold h; unfold start_error; fold E0; lra) N ltac:(lia)) as (q & rn & vn & Sq & Eq & _ & Bq).
  fold h in Sq, Eq, Bq. assert (ET : INR N * h = T) by (unfold h; field; lra). rewrite ET in Eq, Bq.
  exists q. rewrite Eq. cbn [GCRF g_epoch g_position g_velocity]. split; auto. split; auto.
  eapply Rle_trans; [exact Bq|]. eapply Rle_trans; [|exact Main].
  assert (EN : INR N * Rabs h = Rabs T). { transitivity (Rabs (INR N * h)); [|now rewrite ET]. rewrite Rabs_mult, (Rabs_pos_eq (INR N)); lra. }
  rewrite EN. unfold start_error. fold E0.
  assert (Span : Rabs (day_of (value (g_epoch s) + T / 86400) - day_of (value (g_epoch s) + 0 / 86400)) <= Rabs T + 1).
  { eapply Rle_trans; [apply day_span|]. replace (value (g_epoch s) + T / 86400 - (value (g_epoch s) + 0 / 86400)) with (T * / 86400) by field.
    rewrite Rabs_mult, (Rabs_pos_eq (/ 86400)) by lra. lra. }
  assert (HW : 0 <= Rabs h * W) by (apply Rmult_le_pos; lra).
  set (X := Rabs (day_of _ - _)) in *.
  assert (Q : exp ((1 + L) * Rabs T) * (E0 + Rabs h * (14 * L * (Rabs T * (1 + W) + X))) <= exp ((1 + L) * Rabs T) * (E0 + Rabs h * (14 * L * (Rabs T * (1 + W) + (Rabs T + 1))))).
  { apply Rmult_le_compat_l; [left; apply exp_pos|]. apply Rplus_le_compat_l, Rmult_le_compat_l; auto. apply Rmult_le_compat_l; lra. }
  lra.
Qed.

(** * Stability and uniqueness of the motion *)
Lemma during_trans T t u : during T t -> during t u -> during T u.
Proof. intros (x & Hx & ->) (y & Hy & ->). exists (y * x). split; [nra|ring]. Qed.
Lemma natural_part e T r v t : natural_motion e T r v -> during T t -> natural_motion e t r v.
Proof. intros (a & H) Ht. exists a. intros u Hu. apply H. eapply during_trans; eauto. Qed.
Lemma clear_part e T r D t : clear_along e T r D -> during T t -> clear_along e t r D.
Proof. intros H Ht u x Hu. apply H. eapply during_trans; eauto. Qed.
Lemma stepped_unique n p q q' : stepped n p q -> stepped n p q' -> q = q'.
Proof. intros A B. apply steps_stepped in A, B. congruence. Qed.
Lemma during_self T : during T T.
Proof. exists 1. split; [lra|ring]. Qed.
Lemma during_abs T t : during T t -> Rabs t <= Rabs T.
Proof. intros (x & Hx & ->). rewrite Rabs_mult, (Rabs_pos_eq x) by lra. generalize (Rabs_pos T). nra. Qed.
Lemma tolerance_split K T u E0 N : tolerance K T u E0 N = exp (K * Rabs T) * E0 + exp (K * Rabs T) * (K * (1 + u + Rabs T) ^ 2 * Rabs T) * / INR N.
Proof. unfold tolerance, Rdiv. ring. Qed.
Lemma tolerance_pos K T u : 0 < K -> 0 <= exp (K * Rabs T) * (K * (1 + u + Rabs T) ^ 2 * Rabs T).
Proof.
  intros K0. apply Rmult_le_pos; [left; apply exp_pos|]. apply Rmult_le_pos; [|apply Rabs_pos]. apply Rmult_le_pos; [lra|apply pow2_ge_0].
Qed.
Lemma stability : exists K, 0 < K /\ forall e T r v r' v' D, 0 < D -> natural_motion e T r v -> natural_motion e T r' v' ->
  clear_along e T r D -> clear_along e T r' D -> let E0 := separation (r 0) (v 0) (r' 0) (v' 0) in exp (K * Rabs T) * E0 < D ->
  forall t, during T t -> separation (r t) (v t) (r' t) (v' t) <= exp (K * Rabs t) * E0.
Proof.
  destruct converge as (K & K0 & H). exists K. split; auto. intros e T r v r' v' D HD N N' C C' E0 B t Ht.
  assert (E00 : 0 <= E0) by (unfold E0, separation; generalize (norm_nonneg (sub (r 0) (r' 0))) (norm_nonneg (sub (v 0) (v' 0))); lra).
  assert (Bt : exp (K * Rabs t) * E0 < D).
  { eapply Rle_lt_trans; [|exact B]. apply Rmult_le_compat_r; auto. apply exp_le. apply Rmult_le_compat_l; [lra|]. apply during_abs; auto. }
  apply (natural_part _ _ _ _ t) in N, N'; auto. apply (clear_part _ _ _ _ t) in C, C'; auto. clear B Ht T.
  set (s := GCRF e (r 0) (v 0)). set (u := norm (v 0) + norm (v 0)). set (u' := norm (v' 0) + norm (v 0)).
  set (c := exp (K * Rabs t) * (K * (1 + u + Rabs t) ^ 2 * Rabs t)). set (c' := exp (K * Rabs t) * (K * (1 + u' + Rabs t) ^ 2 * Rabs t)).
  assert (cp : 0 <= c). { apply tolerance_pos; auto. }
  assert (cp' : 0 <= c'). { apply tolerance_pos; auto. }
  apply Rnot_lt_le. intros Bad. set (d := separation (r t) (v t) (r' t) (v' t) - exp (K * Rabs t) * E0). assert (dp : 0 < d) by (unfold d; lra).
  set (m := Rmin d (Rmin D (D - exp (K * Rabs t) * E0))). assert (mp : 0 < m) by (unfold m, Rmin; repeat destruct Rle_dec; lra).
  destruct (archimed_cor1 (m / (c + c' + 1))) as (n & Hn & Pn). { apply Rdiv_lt_0_compat; lra. }
  assert (Pi : 0 < / INR n) by (apply Rinv_0_lt_compat, lt_0_INR; auto).
  assert (Q : (c + c' + 1) * / INR n < m). { apply Rmult_lt_reg_r with (/ (c + c' + 1)); [apply Rinv_0_lt_compat; lra|]. rewrite (Rmult_comm (_ + _)), Rmult_assoc, Rinv_r, Rmult_1_r by lra. exact Hn. }
  assert (Q1 : c * / INR n <= (c + c' + 1) * / INR n) by (apply Rmult_le_compat_r; lra).
  assert (Q2 : c' * / INR n <= (c + c' + 1) * / INR n) by (apply Rmult_le_compat_r; lra).
  assert (Q3 : c * / INR n + c' * / INR n <= (c + c' + 1) * / INR n) by (rewrite <- Rmult_plus_distr_r; apply Rmult_le_compat_r; lra).
  assert (M1 : m <= d) by (unfold m, Rmin; repeat destruct Rle_dec; lra). assert (M2 : m <= D) by (unfold m, Rmin; repeat destruct Rle_dec; lra).
  assert (M3 : m <= D - exp (K * Rabs t) * E0) by (unfold m, Rmin; repeat destruct Rle_dec; lra).
  assert (S0 : start_error s r v = 0). { unfold start_error, separation. cbn [s GCRF g_position g_velocity]. rewrite !sub_self. ring. }
  destruct (H s t r v D n N C Pn) as (q & Sq & _ & Bq). { rewrite tolerance_split, S0. change (norm (g_velocity s)) with (norm (v 0)). fold u. fold c. lra. }
  destruct (H s t r' v' D n N' C' Pn) as (q' & Sq' & _ & Bq'). { rewrite tolerance_split. change (norm (g_velocity s)) with (norm (v 0)). change (start_error s r' v') with E0. fold u' c'. lra. }
  rewrite tolerance_split in Bq, Bq'. change (norm (g_velocity s)) with (norm (v 0)) in Bq, Bq'. change (start_error s r' v') with E0 in Bq'. rewrite S0 in Bq. fold u in Bq. fold u' in Bq'. fold c in Bq. fold c' in Bq'.
  rewrite (stepped_unique _ _ _ _ Sq' Sq) in Bq'. clear Sq Sq'. unfold separation in *.
  assert (A1 := sub_triangle (r t) (g_position (rk_state q)) (r' t)). assert (A2 := sub_triangle (v t) (g_velocity (rk_state q)) (v' t)).
  rewrite (sub_sym (r t) (g_position _)) in A1. rewrite (sub_sym (v t) (g_velocity _)) in A2. unfold d in M1. lra.
Qed.

(** * Propagating through way points *)
Lemma fewest_one dt n : dt <> 0 -> Rabs dt <= 300 -> fewest_parts dt 300 n -> n = 1%nat.
Proof.
  intros D0 D1 F. destruct n as [|n]; [apply fewest_zero in F; lra|]. destruct F as (_ & F).
  assert (H : (S n <= 1)%nat) by (apply F; cbn; lra). lia.
Qed.
Lemma visit_one p h q : h <> 0 -> Rabs h <= 300 -> rk4_step (set_step_size p h) = (q, Ok tt) ->
  rk4_step_to_epoch p (Epoch (value (g_epoch (rk_state p)) + h / 86400)) = (set_step_size q (step_size p), Ok tt).
Proof.
  intros H0 H1 St. set (e := Epoch _). assert (Dt : (value e - value (g_epoch (rk_state p))) * 86400 = h) by (unfold e; cbn [value]; lra).
  assert (F := parts_fewest p e). rewrite Dt in F. apply fewest_one in F; auto.
  rewrite step_to_epoch_form. cbv zeta. unfold substep. rewrite Dt, F. change (INR 1) with 1. unfold Rdiv. rewrite Rinv_1, Rmult_1_r.
  change (0 <? 1)%nat with true. cbn [rk4_steps]. rewrite St. reflexivity.
Qed.
Lemma visits n : forall p h q, h <> 0 -> Rabs h <= 300 -> stepped n (set_step_size p h) q ->
  visited p (map (fun i => Epoch (value (g_epoch (rk_state p)) + INR i * h / 86400)) (seq 1 n)) (set_step_size q (step_size p)).
Proof.
  induction n as [|n IH]; intros p h q H0 H1 St.
  - inversion St; subst. replace (set_step_size (set_step_size p h) (step_size p)) with p by (destruct p; reflexivity). constructor.
  - inversion St as [|? ? q1 ? S1 S2]; subst. assert (Q := visit_one p h q1 H0 H1 S1). apply step_inv in S1. destruct S1 as ((B1 & B2 & B3 & B4 & B5) & E1 & _).
    cbn [set_step_size rk_state step_size] in E1, B1. set (p1 := set_step_size q1 (step_size p)) in *.
    assert (Eq : set_step_size p1 h = q1) by (unfold p1; rewrite B1; destruct q1; reflexivity).
    rewrite <- Eq in S2. assert (R := IH p1 h q H0 H1 S2). change (step_size p1) with (step_size p) in R.
    cbn [seq map]. apply visited_next with p1. { replace (INR 1 * h) with h by (cbn; ring). exact Q. }
    rewrite <- seq_shift, map_map. replace (map (fun x => Epoch (value (g_epoch (rk_state p)) + INR (S x) * h / 86400)) (seq 1 n))
      with (map (fun i => Epoch (value (g_epoch (rk_state p1)) + INR i * h / 86400)) (seq 1 n)); auto.
    apply map_ext. intros i. f_equal. change (rk_state p1) with (rk_state q1). rewrite E1, S_INR. field.
Qed.

(** * The statements without constants *)
Lemma separation_self r v : separation r v r v = 0.
Proof. unfold separation. rewrite !sub_self. ring. Qed.
Lemma converge_start : exists K, 0 < K /\ forall s T r v D n, r 0 = g_position s -> v 0 = g_velocity s ->
  natural_motion (g_epoch s) T r v -> clear_along (g_epoch s) T r D -> (0 < n)%nat ->
  let E := K * (1 + norm (g_velocity s) + Rabs T) ^ 2 * exp (K * Rabs T) * (Rabs T / INR n) in E <= D ->
  exists q, stepped n (set_step_size (RK4 s) (T / INR n)) q /\ g_epoch (rk_state q) = later (g_epoch s) T /\
    separation (g_position (rk_state q)) (g_velocity (rk_state q)) (r T) (v T) <= E.
Proof.
  destruct converge as (K & K0 & H). exists (4 * K). split; [lra|]. intros s T r v D n R0 V0 N C Pn E HE.
  assert (B : tolerance K T (norm (v 0) + norm (g_velocity s)) (start_error s r v) n <= E).
  { unfold tolerance, E, start_error. rewrite R0, V0, separation_self, Rplus_0_l.
    assert (T0 := Rabs_pos T). assert (v0 := norm_nonneg (g_velocity s)). set (u := norm (g_velocity s)) in *.
    assert (I0 : 0 <= Rabs T / INR n) by (apply Rmult_le_pos; auto; left; apply Rinv_0_lt_compat, lt_0_INR; auto).
    assert (U : (1 + (u + u) + Rabs T) ^ 2 <= 4 * (1 + u + Rabs T) ^ 2) by nra.
    assert (X : exp (K * Rabs T) <= exp (4 * K * Rabs T)) by (apply exp_le; nra).
    assert (Ep := exp_pos (K * Rabs T)). rewrite <- Rmult_assoc. apply Rmult_le_compat_r; auto.
    rewrite (Rmult_comm (exp _)). apply Rmult_le_compat; try lra.
    - apply Rmult_le_pos; [lra|apply pow2_ge_0].
    - replace (4 * K * (1 + u + Rabs T) ^ 2) with (K * (4 * (1 + u + Rabs T) ^ 2)) by ring. apply Rmult_le_compat_l; lra. }
  destruct (H s T r v D n N C Pn ltac:(lra)) as (q & Q1 & Q2 & Q3). exists q. split; auto. split; auto. lra.
Qed.
Lemma enough c eps : 0 <= c -> 0 < eps -> exists N, (0 < N)%nat /\ forall n, (N <= n)%nat -> c / INR n <= eps.
Proof.
  intros C0 E0. destruct (archimed_cor1 (eps / (c + 1))) as (N & HN & PN). { apply Rdiv_lt_0_compat; lra. }
  exists N. split; auto. intros n Hn. assert (PN' : 0 < INR N) by (apply lt_0_INR; auto). assert (IN : INR N <= INR n) by (apply le_INR; auto).
  assert (Y : / INR n <= / INR N) by (apply Rinv_le_contravar; auto).
  apply Rle_trans with (c * (eps / (c + 1))); [unfold Rdiv at 1; apply Rmult_le_compat_l; lra|].
  apply Rmult_le_reg_r with (c + 1); [lra|]. replace (c * (eps / (c + 1)) * (c + 1)) with (c * eps) by (field; lra). nra.
Qed.
Lemma converge_limit s T r v D : r 0 = g_position s -> v 0 = g_velocity s ->
  natural_motion (g_epoch s) T r v -> 0 < D -> clear_along (g_epoch s) T r D -> forall eps, 0 < eps ->
  exists N, (0 < N)%nat /\ forall n, (N <= n)%nat -> Rabs (T / INR n) <= 300 /\
  exists q, stepped n (set_step_size (RK4 s) (T / INR n)) q /\ g_epoch (rk_state q) = later (g_epoch s) T /\
    separation (g_position (rk_state q)) (g_velocity (rk_state q)) (r T) (v T) <= eps.
Proof.
  intros R0 V0 M D0 C eps E0. destruct converge_start as (K & K0 & H).
  set (c := K * (1 + norm (g_velocity s) + Rabs T) ^ 2 * exp (K * Rabs T) * Rabs T). assert (T0 := Rabs_pos T).
  assert (c0 : 0 <= c). { apply Rmult_le_pos; auto. apply Rmult_le_pos; [|left; apply exp_pos]. apply Rmult_le_pos; [lra|apply pow2_ge_0]. }
  destruct (enough (c + Rabs T) (Rmin eps (Rmin D 300)) ltac:(lra)) as (N & PN & HN). { unfold Rmin; repeat destruct Rle_dec; lra. }
  exists N. split; auto. intros n Hn. specialize (HN n Hn). assert (Pn : 0 < INR n) by (apply lt_0_INR; lia).
  assert (I0 : 0 < / INR n) by (apply Rinv_0_lt_compat; auto).
  assert (HN1 : c * / INR n + Rabs T * / INR n <= Rmin eps (Rmin D 300)) by (rewrite <- Rmult_plus_distr_r; exact HN).
  assert (X1 : 0 <= c * / INR n) by (apply Rmult_le_pos; lra). assert (X2 : 0 <= Rabs T * / INR n) by (apply Rmult_le_pos; lra).
  assert (M1 : Rmin eps (Rmin D 300) <= eps /\ Rmin eps (Rmin D 300) <= D /\ Rmin eps (Rmin D 300) <= 300) by (unfold Rmin; repeat destruct Rle_dec; lra).
  split. { unfold Rdiv. rewrite Rabs_mult, (Rabs_pos_eq (/ INR n)); lra. }
  assert (Ec : K * (1 + norm (g_velocity s) + Rabs T) ^ 2 * exp (K * Rabs T) * (Rabs T / INR n) = c * / INR n) by (unfold c, Rdiv; ring).
  destruct (H s T r v D n R0 V0 M C ltac:(lia)) as (q & Q1 & Q2 & Q3). { rewrite Ec. lra. }
  exists q. split; auto. split; auto. rewrite Ec in Q3. lra.
Qed.
Lemma way_points_converge s T r v D : r 0 = g_position s -> v 0 = g_velocity s ->
  natural_motion (g_epoch s) T r v -> 0 < D -> clear_along (g_epoch s) T r D -> forall eps, 0 < eps ->
  exists N, forall n, (N <= n)%nat -> exists q, visited (RK4 s) (way_points (g_epoch s) T n) q /\ g_epoch (rk_state q) = later (g_epoch s) T /\
    separation (g_position (rk_state q)) (g_velocity (rk_state q)) (r T) (v T) <= eps.
Proof.
  intros R0 V0 M D0 C eps E0. destruct (Req_dec T 0) as [->|T0].
  - exists 0%nat. intros n _. exists (RK4 s). cbn [RK4 rk_state gcrf_copy g_epoch g_position g_velocity]. split; [|split].
    + unfold way_points. assert (Z : forall l, visited (RK4 s) (map (fun i => later (g_epoch s) (INR i * (0 / INR n))) l) (RK4 s)).
      { induction l as [|i l IH]; cbn [map]; [constructor|]. apply visited_next with (RK4 s); auto.
        replace (later (g_epoch s) (INR i * (0 / INR n))) with (g_epoch (rk_state (RK4 s))); [apply step_to_epoch_here|].
        change (g_epoch (rk_state (RK4 s))) with (g_epoch s). unfold later, Rdiv. rewrite Rmult_0_l, Rmult_0_r, Rmult_0_l, Rplus_0_r. now destruct (g_epoch s). }
      apply Z.
    + unfold later. rewrite epoch_zero. reflexivity.
    + change (g_position (gcrf_copy s)) with (g_position s). change (g_velocity (gcrf_copy s)) with (g_velocity s). rewrite R0, V0, separation_self. lra.
  - destruct (converge_limit s T r v D R0 V0 M D0 C eps E0) as (N & PN & H). exists N. intros n Hn.
    destruct (H n Hn) as (B & q & Q1 & Q2 & Q3). exists (set_step_size q (step_size (RK4 s))). split; [|split; auto].
    assert (I0 : 0 < / INR n) by (apply Rinv_0_lt_compat, lt_0_INR; lia).
    assert (V := visits n (RK4 s) (T / INR n) q). apply V; auto. unfold Rdiv. apply Rmult_integral_contrapositive. split; lra.
Qed.
