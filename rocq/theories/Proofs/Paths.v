(** Motions that do not meet a UTC midnight are smooth in time, uniformly in all
    motions of bounded duration and initial speed. *)
From Coq Require Import Reals Lra Psatz Lia Factorial.
From Coquelicot Require Import Coquelicot.
From Verif.Model Require Import Num Constants Linalg Functions Time Celestial Positions States Inertial.
From Verif.Spec Require Import Geometry Gravity Forces RungeKutta Propagation Motion.
From Verif.Proofs Require Import NumLemmas LinalgProofs MatrixProofs Analysis FunctionsProofs TimeProofs StatesProofs InertialProofs AccelerationProofs SafeStep Calm SmoothForces ConvergenceProofs.
Local Open Scope R_scope.

Record path := Path { pa_e : epoch; pa_T : R; pa_r : R -> vec3; pa_v : R -> vec3; pa_a : R -> vec3 }.
Definition pa_t (m : path) (t : R) : R := value (pa_e m) + t / 86400.
Definition within (V B : R) (m : path) : Prop :=
  Rabs (pa_T m) <= B /\ norm (pa_v m 0) <= V /\
  (forall t, during (pa_T m) t -> flyable (later (pa_e m) t) (pa_r m t)) /\
  (forall t, during (pa_T m) t -> day_of (pa_t m t) = day_of (pa_t m 0)) /\
  follows_forces (pa_e m) (pa_T m) (pa_r m) (pa_v m) (pa_a m).
Definition on_path (V B : R) (x : path * R) : Prop := within V B (fst x) /\ during (pa_T (fst x)) (snd x).
Definition paths (V B : R) : space := Space (path * R) (on_path V B) (fun x y => fst x = fst y)
  (fun x y => Rabs (snd y - snd x)) (fun x y => Rabs_pos _) 1 (fun _ x y => snd y - snd x).
Lemma lin_paths V B g p q : lin (paths V B) g p q = g O p * (snd q - snd p).
Proof. unfold lin. cbn [dims paths inc]. cbn. ring. Qed.

(** * Integrals *)
Lemma primitive_calm V B (F f : path * R -> R) C M : 
  (forall m t, within V B m -> during (pa_T m) t -> is_RInt (fun s => f (m, s)) 0 t (F (m, t) - F (m, 0))) ->
  (forall x, on_path V B x -> Rabs (F x) <= C) -> (forall x, on_path V B x -> Rabs (f x) <= M) -> calm (paths V B) F.
Proof.
  intros I HC HM. apply (calm_intro (paths V B) _ C M); [exact HC|]. intros (m, s) (m', u) (Hm & Hs) (_ & Hu) E. cbn in E, Hs, Hu, Hm. subst m'.
  cbn [gap paths snd]. 
  assert (J := RInt_between _ s u _ _ (I m s Hm Hs) (I m u Hm Hu)).
  assert (K := RInt_close _ s u 0 M _ J). replace (F (m, u) - F (m, 0) - (F (m, s) - F (m, 0)) - (u - s) * 0) with (F (m, u) - F (m, s)) in K by ring.
  rewrite Rmult_comm. apply K. intros w Hw. replace (f (m, w) - 0) with (f (m, w)) by ring. apply HM. split; auto. cbn. apply (during_between (pa_T m) s u); auto.
Qed.
Lemma primitive_grows V B (F f : path * R -> R) :
  (forall m t, within V B m -> during (pa_T m) t -> is_RInt (fun s => f (m, s)) 0 t (F (m, t) - F (m, 0))) ->
  calm (paths V B) f -> grows (paths V B) F (fun _ => f).
Proof.
  intros I (M & M0 & _ & L). apply (grows_intro (paths V B) _ _ M). intros (m, s) (m', u) (Hm & Hs) (_ & Hu) E. cbn in E, Hs, Hu, Hm. subst m'.
  rewrite lin_paths. cbn [gap paths snd].
  assert (J := RInt_between _ s u _ _ (I m s Hm Hs) (I m u Hm Hu)).
  assert (K := RInt_close _ s u (f (m, s)) (M * Rabs (u - s)) _ J).
  replace (F (m, u) - F (m, 0) - (F (m, s) - F (m, 0)) - (u - s) * f (m, s)) with (F (m, u) - F (m, s) - f (m, s) * (u - s)) in K by ring.
  replace (M * (Rabs (u - s) * Rabs (u - s))) with (Rabs (u - s) * (M * Rabs (u - s))) by ring. apply K.
  intros w Hw. assert (Dw := during_between (pa_T m) s u w Hs Hu Hw).
  eapply Rle_trans; [apply (L (m, s) (m, w)); [split; auto|split; auto|reflexivity]|]. cbn [gap paths snd].
  apply Rmult_le_compat_l; auto. unfold Rmin, Rmax in Hw. unfold Rabs. destruct Rle_dec in Hw; repeat destruct Rcase_abs; lra.
Qed.

(** * Motions are smooth *)
Definition part (c : vec3 -> R) : Prop := c = x3 \/ c = y3 \/ c = z3.
Lemma part_le c v : part c -> Rabs (c v) <= norm v.
Proof. intros [->|[->| ->]]; auto using abs_x_norm, abs_y_norm, abs_z_norm. Qed.
Lemma part_integral c f t w : part c -> integral_of f t w -> is_RInt (fun s => c (f s)) 0 t (c w).
Proof. intros [->|[->| ->]] (A & B & C); auto. Qed.
Lemma part_sub c v w : part c -> c (sub v w) = c v - c w.
Proof. intros [->|[->| ->]]; reflexivity. Qed.
Lemma part_add c v w : part c -> c (add v w) = c v + c w.
Proof. intros [->|[->| ->]]; reflexivity. Qed.
Lemma part_scale c k v : part c -> c (scale k v) = k * c v.
Proof. intros [->|[->| ->]]; reflexivity. Qed.
Definition pos_of (c : vec3 -> R) (x : path * R) : R := c (pa_r (fst x) (snd x)).
Definition vel_of (c : vec3 -> R) (x : path * R) : R := c (pa_v (fst x) (snd x)).
Definition acc_of (c : vec3 -> R) (x : path * R) : R := c (pa_a (fst x) (snd x)).
Definition pt_of (x : path * R) : pt := Pt (pa_t (fst x) (snd x)) (pa_r (fst x) (snd x)) (day_of (pa_t (fst x) 0)).
Lemma pt_of_point V B x : on_path V B x -> pt_of x = point (pa_e (fst x)) (snd x) (pa_r (fst x) (snd x)).
Proof. intros ((_ & _ & _ & D & _) & H). unfold pt_of, point. rewrite <- (D _ H). reflexivity. Qed.
Lemma pt_of_flying V B x : on_path V B x -> flying (pt_of x).
Proof. intros H. rewrite (pt_of_point V B x H). apply point_flying. destruct H as ((_ & _ & F & _) & H). apply F; auto. Qed.
Lemma acc_of_total V B c x : on_path V B x -> c (total_acc (pt_of x)) = acc_of c x.
Proof.
  intros H. rewrite (pt_of_point V B x H). destruct H as ((_ & _ & _ & _ & F) & H). unfold acc_of.
  destruct (F _ H) as (-> & _). reflexivity.
Qed.
Lemma part_LB c : part c -> LB (fun p => c (total_acc p)).
Proof. intros [->|[->| ->]]; apply LBv_total. Qed.
Lemma vel_integral V B c m t : part c -> within V B m -> during (pa_T m) t ->
  is_RInt (fun s => vel_of c (m, s)) 0 t (pos_of c (m, t) - pos_of c (m, 0)).
Proof.
  intros Hc (_ & _ & _ & _ & F) H. destruct (F t H) as (_ & I & _). unfold vel_of, pos_of. cbn [fst snd].
  rewrite <- (part_sub c) by auto. apply part_integral; auto.
Qed.
Lemma acc_integral V B c m t : part c -> within V B m -> during (pa_T m) t ->
  is_RInt (fun s => acc_of c (m, s)) 0 t (vel_of c (m, t) - vel_of c (m, 0)).
Proof.
  intros Hc (_ & _ & _ & _ & F) H. destruct (F t H) as (_ & _ & I). unfold vel_of, acc_of. cbn [fst snd].
  rewrite <- (part_sub c) by auto. apply part_integral; auto.
Qed.
Lemma during_zero T : during T 0. Proof. exists 0. split; lra. Qed.
Lemma path_bounds V B : exists W, 0 <= W /\ forall x, on_path V B x ->
  norm (pa_r (fst x) (snd x)) <= W /\ norm (pa_v (fst x) (snd x)) <= W /\ norm (pa_a (fst x) (snd x)) <= W.
Proof.
  destruct forces as (L & L0 & HL). exists (300000 + Rabs V + 3 * (Rabs B * L) + L).
  assert (V0 := Rabs_pos V). assert (B0 := Rabs_pos B). assert (BL : 0 <= Rabs B * L) by (apply Rmult_le_pos; lra). split; [lra|].
  intros (m, t) (Hm & Ht). cbn in Ht. cbn [fst snd] in *. destruct Hm as (HT & HV & Fl & Dy & Fo).
  assert (Bt : norm (pa_a m t) <= L) by (destruct (Fo t Ht) as (-> & _); assert (F := point_flying _ _ _ (Fl t Ht)); apply (HL _ _ F F)).
  split; [destruct (Fl t Ht) as (_ & Q & _); lra|]. split; [|lra].
  assert (D1 : during (pa_T m) (0 + pa_T m)) by (exists 1; split; lra).
  assert (Q : norm (sub (pa_v m t) (pa_v m 0)) <= 3 * (Rabs (pa_T m) * L)).
  { apply (moved (pa_a m) (pa_v m) (pa_T m) 0 (pa_T m) L); auto using during_zero; [lra| | |].
    - intros s Hs. apply Fo; auto.
    - intros s Hs. destruct (Fo s Hs) as (-> & _); assert (F := point_flying _ _ _ (Fl s Hs)); apply (HL _ _ F F).
    - destruct Ht as (x & Hx & ->). unfold Rmin, Rmax. destruct Rle_dec; nra. }
  replace (pa_v m t) with (add (pa_v m 0) (sub (pa_v m t) (pa_v m 0))) by (destruct (pa_v m t), (pa_v m 0); unfold add, sub; cbn; f_equal; ring).
  eapply Rle_trans; [apply norm_triangle|]. assert (V1 := Rle_abs V). assert (B1 : Rabs (pa_T m) <= Rabs B) by (eapply Rle_trans; [exact HT|apply Rle_abs]).
  assert (Rabs (pa_T m) * L <= Rabs B * L) by (apply Rmult_le_compat_r; lra). lra.
Qed.
Lemma acc_smooth V B n : (forall c, part c -> smooth (paths V B) n (pos_of c)) -> forall c, part c -> smooth (paths V B) n (acc_of c).
Proof.
  intros H c Hc. apply (smooth_ext (paths V B) n (fun x => c (total_acc (pt_of x)))); [apply acc_of_total|].
  apply (LB_smooth (paths V B) n pt_of) with (f := fun p => c (total_acc p)); auto using part_LB.
  - apply pt_of_flying.
  - assert (C : calm (paths V B) (fun x => pt_t (pt_of x))).
    { apply (calm_intro (paths V B) _ 100000 1).
      - intros x Hx. destruct (pt_of_flying V B x Hx) as ((Q & _) & _). cbn [value] in Q. unfold Rabs in *. repeat destruct Rcase_abs; lra.
      - intros (m, s) (m', u) _ _ E. cbn in E. subst m'. cbn [pt_of pt_t pa_t fst snd gap paths]. unfold pa_t.
        replace (value (pa_e m) + u / 86400 - (value (pa_e m) + s / 86400)) with ((u - s) * / 86400) by field.
        rewrite Rabs_mult, (Rabs_pos_eq (/ 86400)) by lra. generalize (Rabs_pos (u - s)). lra. }
    destruct n; split; auto. exists (fun _ _ => / 86400). split; [intros; apply smooth_const|].
    apply (grows_intro (paths V B) _ _ 0). intros (m, s) (m', u) _ _ E. cbn in E. subst m'. rewrite lin_paths. cbn [pt_of pt_t pa_t fst snd].
    unfold pa_t. replace (value (pa_e m) + u / 86400 - (value (pa_e m) + s / 86400) - / 86400 * (u - s)) with 0 by field. rewrite Rabs_R0. lra.
  - assert (C : calm (paths V B) (fun x => pt_k (pt_of x))).
    { apply (calm_intro (paths V B) _ 100002 0).
      - intros x Hx. destruct (pt_of_flying V B x Hx) as ((H1 & _) & K). cbn [value] in H1. rewrite K. unfold day_of. generalize (nfloor_bounds (pt_t (pt_of x) - UTC_TDT_OFFSET)).
        unfold UTC_TDT_OFFSET, SECONDS_IN_DAY. generalize (nfloor (pt_t (pt_of x) - 69.184 / 86400)). intros. unfold Rabs in *. repeat destruct Rcase_abs; lra.
      - intros (m, s) (m', u) _ _ E. cbn in E. subst m'. cbn [pt_of pt_k fst snd]. rewrite Rminus_diag_eq by reflexivity. rewrite Rabs_R0. lra. }
    destruct n; split; auto. exists (fun _ _ => 0). split; [intros; apply smooth_const|].
    apply (grows_intro (paths V B) _ _ 0). intros (m, s) (m', u) _ _ E. cbn in E. subst m'. rewrite lin_paths. cbn [pt_of pt_k fst snd].
    replace (_ - _ - 0 * _) with 0 by ring. rewrite Rabs_R0. lra.
  - apply (H x3). left; auto.
  - apply (H y3). right; left; auto.
  - apply (H z3). right; right; auto.
Qed.
Lemma motion_smooth V B n : (forall c, part c -> smooth (paths V B) n (pos_of c)) /\ (forall c, part c -> smooth (paths V B) n (vel_of c)) /\
  (forall c, part c -> smooth (paths V B) n (acc_of c)).
Proof.
  destruct (path_bounds V B) as (W & W0 & HW).
  assert (Cr : forall c, part c -> calm (paths V B) (pos_of c)).
  { intros c Hc. apply (primitive_calm V B _ (vel_of c) W W); [intros; eapply vel_integral; eauto| |];
    intros x Hx; (eapply Rle_trans; [apply part_le; auto|]); apply HW; auto. }
  assert (Cv : forall c, part c -> calm (paths V B) (vel_of c)).
  { intros c Hc. apply (primitive_calm V B _ (acc_of c) W W); [intros; eapply acc_integral; eauto| |];
    intros x Hx; (eapply Rle_trans; [apply part_le; auto|]); apply HW; auto. }
  assert (St : forall k, (forall c, part c -> smooth (paths V B) k (pos_of c)) -> forall c, part c -> smooth (paths V B) (S k) (vel_of c)).
  { intros k Hk c Hc. split; auto. assert (A := acc_smooth V B k Hk c Hc). exists (fun _ => acc_of c). split; auto.
    apply primitive_grows; [intros; eapply acc_integral; eauto|]. eapply smooth_calm; eauto. }
  assert (All : forall k c, part c -> smooth (paths V B) k (pos_of c)).
  { induction k as [|k IH]; intros c Hc; split; auto. exists (fun _ => vel_of c). split.
    - intros _. apply smooth_lower. apply St; auto.
    - apply primitive_grows; [intros; eapply vel_integral; eauto|auto]. }
  split; auto. split.
  - intros c Hc. apply smooth_lower, St; auto.
  - apply acc_smooth. auto.
Qed.
Lemma motion_grows V B c : part c -> grows (paths V B) (pos_of c) (fun _ => vel_of c) /\ grows (paths V B) (vel_of c) (fun _ => acc_of c).
Proof.
  intros Hc. destruct (motion_smooth V B 0) as (_ & S1 & S2). split; apply primitive_grows.
  - intros; eapply vel_integral; eauto.
  - apply (smooth_calm _ O), S1; auto.
  - intros; eapply acc_integral; eauto.
  - apply (smooth_calm _ O), S2; auto.
Qed.

(** * Taylor's formula *)
Lemma mean_bound (F G : R -> R) (P : R -> Prop) C s u M : (forall x y, P x -> P y -> Rabs (F y - F x - G x * (y - x)) <= C * (Rabs (y - x) * Rabs (y - x))) ->
  (forall x, 0 <= x <= 1 -> P (s + x * (u - s)) /\ Rabs (G (s + x * (u - s))) <= M) -> Rabs (F u - F s) <= M * Rabs (u - s).
Proof.
  intros H HP. set (d := Rabs (u - s)). assert (d0 : 0 <= d) by apply Rabs_pos.
  assert (Step : forall N, (0 < N)%nat -> forall n, (n <= N)%nat ->
     Rabs (F (s + INR n / INR N * (u - s)) - F s) <= INR n * (M * (d / INR N) + Rabs C * (d / INR N * (d / INR N)))).
  { intros N HN. assert (PN : 0 < INR N) by (apply lt_0_INR; lia). induction n as [|n IH]; intros Hn.
    - cbn [INR]. replace (s + 0 / INR N * (u - s)) with s by (field; lra). rewrite Rminus_diag_eq by auto. rewrite Rabs_R0. lra.
    - specialize (IH ltac:(lia)). assert (In : INR n + 1 <= INR N) by (rewrite <- S_INR; apply le_INR; lia). assert (Pn := pos_INR n).
      assert (Rat : forall k, 0 <= k <= INR N -> 0 <= k / INR N <= 1).
      { intros k Hk. split; [apply Rdiv_nonneg; lra|]. apply Rmult_le_reg_r with (INR N); auto. unfold Rdiv. rewrite Rmult_assoc, Rinv_l by lra. lra. }
      destruct (HP (INR n / INR N) (Rat (INR n) ltac:(lra))) as (P1 & G1). rewrite S_INR. destruct (HP ((INR n + 1) / INR N) (Rat (INR n + 1) ltac:(lra))) as (P2 & _).
      set (x := s + INR n / INR N * (u - s)) in *. set (y := s + (INR n + 1) / INR N * (u - s)) in *.
      assert (E : y - x = (u - s) / INR N) by (unfold x, y; field; lra).
      assert (Ab : Rabs (y - x) = d / INR N). { rewrite E. unfold Rdiv. rewrite Rabs_mult, (Rabs_pos_eq (/ INR N)); auto. left. apply Rinv_0_lt_compat; auto. }
      assert (K := H x y P1 P2). rewrite Ab in K.
      assert (K1 : Rabs (G x * (y - x)) <= M * (d / INR N)) by (apply ab_mult; auto; rewrite Ab; lra).
      assert (dn : 0 <= d / INR N) by (apply Rdiv_nonneg; lra).
      assert (K2 : C * (d / INR N * (d / INR N)) <= Rabs C * (d / INR N * (d / INR N))) by (apply Rmult_le_compat_r; [apply Rmult_le_pos; auto|apply Rle_abs]).
      replace (F y - F s) with ((F y - F x - G x * (y - x)) + G x * (y - x) + (F x - F s)) by ring.
      eapply Rle_trans; [apply Rabs_triang|]. assert (T1 := Rabs_triang (F y - F x - G x * (y - x)) (G x * (y - x))). lra. }
  apply Rnot_lt_le. intros Lt. set (gp := Rabs (F u - F s) - M * d) in *. assert (g0 : 0 < gp) by (unfold gp; lra).
  destruct (enough (Rabs C * (d * d)) (gp / 2)) as (N & PN & HN); [apply Rmult_le_pos; [apply Rabs_pos|apply Rmult_le_pos; auto]|lra|].
  specialize (HN N (le_n N)). assert (K := Step N PN N (le_n N)). assert (IN : 0 < INR N) by (apply lt_0_INR; lia).
  replace (s + INR N / INR N * (u - s)) with u in K by (field; lra).
  replace (INR N * (M * (d / INR N) + Rabs C * (d / INR N * (d / INR N)))) with (M * d + Rabs C * (d * d) / INR N) in K by (field; lra).
  unfold gp in *. lra.
Qed.
Definition mono (i : nat) (x : R) : R := x ^ i / INR (fact i).
Lemma mono_S i x : mono (S i) x = x * mono i x / INR (S i).
Proof.
  unfold mono. change (fact (S i)) with (S i * fact i)%nat. rewrite mult_INR. simpl pow. assert (0 < INR (fact i)) by (apply lt_0_INR, lt_O_fact).
  assert (0 < INR (S i)) by (apply lt_0_INR; lia). field. lra.
Qed.
Lemma mono_grows i b : exists C, forall x y, Rabs x <= b -> Rabs y <= b -> Rabs (mono (S i) y - mono (S i) x - mono i x * (y - x)) <= C * (Rabs (y - x) * Rabs (y - x)).
Proof.
  (* powers first *)
  assert (P : forall n, exists C, 0 <= C /\ forall x y, Rabs x <= b -> Rabs y <= b -> Rabs (y ^ S n - x ^ S n - INR (S n) * x ^ n * (y - x)) <= C * (Rabs (y - x) * Rabs (y - x))).
  { intros n. destruct (Rle_dec 0 b) as [b0|b0].
    2: { exists 0. split; [lra|]. intros x y Hx _. exfalso. generalize (Rabs_pos x). lra. }
    induction n as [|n (C & C0 & IH)].
    - exists 0. split; [lra|]. intros x y _ _. replace (y ^ 1 - x ^ 1 - INR 1 * x ^ 0 * (y - x)) with 0 by (simpl; ring). rewrite Rabs_R0. lra.
    - exists (b * C + INR (S n) * b ^ n). split.
      { apply Rplus_le_le_0_compat; apply Rmult_le_pos; auto using pos_INR, pow_le. }
      intros x y Hx Hy. 
      replace (y ^ S (S n) - x ^ S (S n) - INR (S (S n)) * x ^ S n * (y - x)) with
        (y * (y ^ S n - x ^ S n - INR (S n) * x ^ n * (y - x)) + INR (S n) * x ^ n * ((y - x) * (y - x))) by (rewrite (S_INR (S n)); cbn [pow]; ring).
      eapply Rle_trans; [apply Rabs_triang|]. 
      assert (A1 := ab_mult _ _ _ _ Hy (IH x y Hx Hy)).
      assert (A2 : Rabs (INR (S n) * x ^ n * ((y - x) * (y - x))) <= INR (S n) * b ^ n * (Rabs (y - x) * Rabs (y - x))).
      { apply ab_mult; [apply ab_mult; [rewrite Rabs_pos_eq; [lra|apply pos_INR]|]|rewrite Rabs_mult; lra].
        rewrite <- RPow_abs. apply pow_incr. split; [apply Rabs_pos|auto]. }
      lra. }
  destruct (P i) as (C & C0 & H). exists (C / INR (fact (S i))). intros x y Hx Hy.
  assert (F1 : 0 < INR (fact (S i))) by (apply lt_0_INR, lt_O_fact). assert (F0 : 0 < INR (fact i)) by (apply lt_0_INR, lt_O_fact).
  assert (Fs : INR (fact (S i)) = INR (S i) * INR (fact i)) by (change (fact (S i)) with (S i * fact i)%nat; apply mult_INR).
  assert (I0 : 0 < INR (S i)) by (apply lt_0_INR; lia).
  replace (mono (S i) y - mono (S i) x - mono i x * (y - x)) with ((y ^ S i - x ^ S i - INR (S i) * x ^ i * (y - x)) / INR (fact (S i))).
  2: { unfold mono. rewrite Fs. field. lra. }
  unfold Rdiv. rewrite Rabs_mult, (Rabs_pos_eq (/ _)) by (left; apply Rinv_0_lt_compat; auto).
  replace (C * / INR (fact (S i)) * (Rabs (y - x) * Rabs (y - x))) with (C * (Rabs (y - x) * Rabs (y - x)) * / INR (fact (S i))) by ring.
  apply Rmult_le_compat_r; [left; apply Rinv_0_lt_compat; auto|]. apply H; auto.
Qed.
(** [c i] is the [i]-th derivative of [f]; the remainder is of order [n]. *)
Definition taylor V B (n : nat) (f : path * R -> R) (c : nat -> path * R -> R) : Prop := exists M, 0 <= M /\
  forall m s u, within V B m -> during (pa_T m) s -> during (pa_T m) u ->
  Rabs (f (m, u) - sum n (fun i => c i (m, s) * mono i (u - s))) <= M * Rabs (u - s) ^ n.
Lemma poly_grows n : forall (c : nat -> R) b, exists C, 0 <= C /\ forall x y, Rabs x <= b -> Rabs y <= b ->
  Rabs (sum n (fun i => c i * mono (S i) y) - sum n (fun i => c i * mono (S i) x) - sum n (fun i => c i * mono i x) * (y - x)) <= C * (Rabs (y - x) * Rabs (y - x)).
Proof.
  induction n as [|n IH]; intros c b.
  - exists 0. split; [lra|]. intros. cbn [sum]. replace (0 - 0 - 0 * (y - x)) with 0 by ring. rewrite Rabs_R0. lra.
  - destruct (IH c b) as (C & C0 & H). destruct (mono_grows n b) as (K & HK). exists (C + Rabs (c n) * Rabs K).
    split; [apply Rplus_le_le_0_compat; auto; apply Rmult_le_pos; apply Rabs_pos|]. intros x y Hx Hy. cbn [sum].
    match goal with |- Rabs ?X <= _ => replace X with ((sum n (fun i => c i * mono (S i) y) - sum n (fun i => c i * mono (S i) x) - sum n (fun i => c i * mono i x) * (y - x))
      + c n * (mono (S n) y - mono (S n) x - mono n x * (y - x))) by ring end.
    eapply Rle_trans; [apply Rabs_triang|]. assert (A := H x y Hx Hy). 
    assert (A2 := ab_mult _ _ _ _ (Rle_refl (Rabs (c n))) (HK x y Hx Hy)).
    assert (D0 : 0 <= Rabs (y - x) * Rabs (y - x)) by (apply Rmult_le_pos; apply Rabs_pos).
    assert (A3 : Rabs (c n) * (K * (Rabs (y - x) * Rabs (y - x))) <= Rabs (c n) * (Rabs K * (Rabs (y - x) * Rabs (y - x)))).
    { apply Rmult_le_compat_l; [apply Rabs_pos|]. apply Rmult_le_compat_r; [auto|apply Rle_abs]. }
    lra.
Qed.
Lemma sum_first n f : sum (S n) f = f O + sum n (fun i => f (S i)).
Proof. induction n as [|n IH]; [cbn; ring|]. change (sum (S (S n)) f) with (sum (S n) f + f (S n)). rewrite IH. cbn [sum]. ring. Qed.
Lemma taylor_step V B n f g c : grows (paths V B) f g -> taylor V B n (g O) c ->
  taylor V B (S n) f (fun i => match i with O => f | S i => c i end).
Proof.
  intros (K & K0 & HK) (M & M0 & HM). exists M. split; auto. intros m s u Hm Hs Hu.
  rewrite sum_first. set (b := 2 * Rabs (pa_T m)). destruct (poly_grows n (fun i => c i (m, s)) b) as (C & C0 & HC).
  set (F := fun w => f (m, w) - sum n (fun i => c i (m, s) * mono (S i) (w - s))).
  set (G := fun w => g O (m, w) - sum n (fun i => c i (m, s) * mono i (w - s))).
  assert (Dif : forall w, during (pa_T m) w -> Rabs (w - s) <= b).
  { intros w Hw. assert (A1 := during_abs _ _ Hw). assert (A2 := during_abs _ _ Hs). unfold b.
    eapply Rle_trans; [apply Rabs_triang|]. rewrite Rabs_Ropp. lra. }
  assert (Q : Rabs (F u - F s) <= M * Rabs (u - s) ^ n * Rabs (u - s)).
  { apply (mean_bound F G (during (pa_T m)) (K + C)).
    - intros x y Hx Hy. assert (A1 := HK (m, x) (m, y) (conj Hm Hx) (conj Hm Hy) eq_refl). rewrite lin_paths in A1. cbn [gap paths snd] in A1.
      assert (A2 := HC (x - s) (y - s) (Dif x Hx) (Dif y Hy)). replace (y - s - (x - s)) with (y - x) in A2 by ring.
      unfold F, G.
      match goal with |- Rabs ?X <= _ => replace X with ((f (m, y) - f (m, x) - g O (m, x) * (y - x)) +
        - (sum n (fun i => c i (m, s) * mono (S i) (y - s)) - sum n (fun i => c i (m, s) * mono (S i) (x - s)) - sum n (fun i => c i (m, s) * mono i (x - s)) * (y - x))) by ring end.
      eapply Rle_trans; [apply Rabs_triang|]. rewrite Rabs_Ropp. lra.
    - intros x Hx. assert (Dx : during (pa_T m) (s + x * (u - s))).
      { apply (during_between _ s u); auto. unfold Rmin, Rmax. destruct Rle_dec; nra. }
      split; auto. unfold G. eapply Rle_trans; [apply HM; auto|]. apply Rmult_le_compat_l; auto.
      apply pow_incr. split; [apply Rabs_pos|]. replace (s + x * (u - s) - s) with (x * (u - s)) by ring.
      rewrite Rabs_mult, (Rabs_pos_eq x) by lra. generalize (Rabs_pos (u - s)). nra. }
  unfold F in Q. rewrite (Rminus_diag_eq s s) in Q by auto.
  assert (Z : sum n (fun i => c i (m, s) * mono (S i) 0) = 0).
  { rewrite (sum_ext _ _ (fun _ => 0)); [apply sum_zero|]. intros i _. rewrite mono_S. unfold Rdiv. ring. }
  rewrite Z in Q. replace (mono 0 (u - s)) with 1 by (unfold mono; cbn; field).
  replace (f (m, u) - (f (m, s) * 1 + sum n (fun i => c i (m, s) * mono (S i) (u - s)))) with
    (f (m, u) - sum n (fun i => c i (m, s) * mono (S i) (u - s)) - (f (m, s) - 0)) by ring.
  eapply Rle_trans; [exact Q|]. cbn [pow]. lra.
Qed.
Lemma smooth_taylor V B n : forall f, smooth (paths V B) n f -> exists c, c O = f /\
  (forall i, (i <= n)%nat -> calm (paths V B) (c i)) /\ taylor V B (S n) f c.
Proof.
  induction n as [|n IH]; intros f S.
  - exists (fun _ => f). split; auto. destruct S as (C & _). split; auto. destruct C as (M & M0 & _ & L). exists M. split; auto. intros m s u Hm Hs Hu.
    assert (A := L (m, s) (m, u) (conj Hm Hs) (conj Hm Hu) eq_refl). cbn [gap paths snd] in A. cbn [sum]. replace (mono 0 (u - s)) with 1 by (unfold mono; cbn; field).
    replace (0 + f (m, s) * 1) with (f (m, s)) by ring. rewrite pow_1. auto.
  - destruct S as (C & g & G & W). destruct (IH (g O) (G O)) as (c & E & Cc & T). exists (fun i => match i with O => f | S i => c i end).
    split; auto. split; [intros [|i] Hi; auto; apply Cc; lia|]. apply (taylor_step V B (S n) f g); auto.
Qed.
(** Position, velocity and acceleration have one family of derivatives. *)
Lemma motion_taylor V B c : part c -> exists a1 a2 a3 M, 0 <= M /\
  calm (paths V B) a1 /\ calm (paths V B) a2 /\ calm (paths V B) a3 /\
  forall m t h, within V B m -> during (pa_T m) t -> during (pa_T m) (t + h) -> let x := (m, t) in let y := (m, t + h) in
  Rabs (acc_of c y - (acc_of c x + a1 x * h + a2 x * (h ^ 2 / 2) + a3 x * (h ^ 3 / 6))) <= M * Rabs h ^ 4 /\
  Rabs (vel_of c y - (vel_of c x + acc_of c x * h + a1 x * (h ^ 2 / 2) + a2 x * (h ^ 3 / 6) + a3 x * (h ^ 4 / 24))) <= M * Rabs h ^ 5 /\
  Rabs (pos_of c y - (pos_of c x + vel_of c x * h + acc_of c x * (h ^ 2 / 2) + a1 x * (h ^ 3 / 6) + a2 x * (h ^ 4 / 24) + a3 x * (h ^ 5 / 120))) <= M * Rabs h ^ 6.
Proof.
  intros Hc. destruct (motion_smooth V B 3) as (_ & _ & S). destruct (smooth_taylor V B 3 _ (S c Hc)) as (k & E & Ck & T).
  destruct (motion_grows V B c Hc) as (Gr & Gv).
  assert (Tv := taylor_step V B 4 _ _ k Gv T). assert (Tr := taylor_step V B 5 _ _ _ Gr Tv).
  destruct T as (M1 & P1 & T1). destruct Tv as (M2 & P2 & T2). destruct Tr as (M3 & P3 & T3).
  exists (k 1%nat), (k 2%nat), (k 3%nat), (M1 + M2 + M3). split; [lra|]. split; [apply Ck; lia|]. split; [apply Ck; lia|]. split; [apply Ck; lia|].
  intros m t h Hm Ht Hh. cbv zeta. specialize (T1 m t (t + h) Hm Ht Hh). specialize (T2 m t (t + h) Hm Ht Hh). specialize (T3 m t (t + h) Hm Ht Hh).
  replace (t + h - t) with h in T1, T2, T3 by ring. unfold mono in T1, T2, T3. cbn [sum fact Nat.mul Nat.add] in T1, T2, T3. rewrite E in T1, T2, T3.
  assert (H0 := Rabs_pos h). 
  assert (I : INR 1 = 1 /\ INR 2 = 2 /\ INR 6 = 6 /\ INR 24 = 24 /\ INR 120 = 120) by (repeat split; rewrite INR_IZR_INZ; reflexivity).
  destruct I as (I1 & I2 & I6 & I24 & I120). rewrite I1, I2, I6, ?I24, ?I120 in *.
  assert (Mon : forall n X a b, a <= b -> X <= a * Rabs h ^ n -> X <= b * Rabs h ^ n).
  { intros n X a b Hab HX. eapply Rle_trans; [exact HX|]. apply Rmult_le_compat_r; auto. apply pow_le; auto. }
  split; [|split].
  - apply (Mon 4%nat _ M1); [lra|]. match goal with |- Rabs ?X <= _ => match type of T1 with Rabs ?Y <= _ => replace X with Y by field end end. exact T1.
  - apply (Mon 5%nat _ M2); [lra|]. match goal with |- Rabs ?X <= _ => match type of T2 with Rabs ?Y <= _ => replace X with Y by field end end. exact T2.
  - apply (Mon 6%nat _ M3); [lra|]. match goal with |- Rabs ?X <= _ => match type of T3 with Rabs ?Y <= _ => replace X with Y by field end end. exact T3.
Qed.
