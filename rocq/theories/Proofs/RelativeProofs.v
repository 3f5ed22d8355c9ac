(** Proofs about propagators/relative.py. *)
From Coq Require Import Reals Lra Psatz Lia List.
From Coquelicot Require Import Coquelicot.
From Verif.Model Require Import Num Constants Linalg Functions Time Celestial Positions States Relative.
From Verif.Spec Require Import Geometry Gravity Hill.
From Verif.Proofs Require Import NumLemmas LinalgProofs FunctionsProofs StatesProofs.
Local Open Scope R_scope.

(** * Construction *)
Lemma Hill_ok s a : 0 < a -> exists h, Hill s a = Ok h /\ 0 < hl_n h /\ hl_n h ^ 2 * a ^ 3 = mu_earth /\
  hl_state h = s /\ hl_sma h = a /\ hl_step_size h = 600.
Proof.
  intros H. assert (C : 0 < a * a * a) by (repeat apply Rmult_lt_0_compat; auto).
  assert (Q : 0 < Earth_MU / (a * a * a)) by (apply Rdiv_pos; auto; unfold Earth_MU; lra).
  unfold Hill. rewrite pdiv_ok by lra. cbn [bind]. rewrite psqrt_ok by lra. cbn [bind].
  eexists. split; [reflexivity|]. cbn [hl_n hl_state hl_sma hl_step_size]. split; [apply sqrt_lt_R0; auto|]. split.
  - replace (sqrt (Earth_MU / (a * a * a)) ^ 2) with (sqrt (Earth_MU / (a * a * a)) * sqrt (Earth_MU / (a * a * a))) by ring.
    rewrite sqrt_sqrt by lra. change Earth_MU with mu_earth. field. lra.
  - split; [destruct s; reflexivity|]. split; reflexivity.
Qed.
Lemma Hill_err s a : a <= 0 -> Hill s a = Err (if Req_EM_T a 0 then ZeroDivisionError else ValueError).
Proof.
  intros H. unfold Hill. destruct (Req_EM_T a 0) as [->|N].
  - rewrite Rmult_0_r, pdiv_zero. reflexivity.
  - assert (a < 0) by lra. assert (C : a * a * a < 0) by (assert (0 < a * a) by nra; nra). rewrite pdiv_ok by lra. cbn [bind]. rewrite psqrt_neg; [reflexivity|].
    unfold Rdiv. assert (/ (a * a * a) < 0) by (apply Rinv_lt_0_compat; auto). unfold Earth_MU. nra.
Qed.

(** * The motion *)
Definition motion (n : R) (s : vec6) (t : R) : vec6 :=
  let S := sin (n * t) in let C := cos (n * t) in
  V6 ((4 - 3 * C) * x6 s + S / n * vx6 s + 2 * (1 - C) / n * vy6 s)
     (6 * (S - n * t) * x6 s + y6 s - 2 * (1 - C) / n * vx6 s + (4 * S - 3 * n * t) / n * vy6 s)
     (C * z6 s + S / n * vz6 s)
     (3 * n * S * x6 s + C * vx6 s + 2 * S * vy6 s)
     (- 6 * n * (1 - C) * x6 s - 2 * S * vx6 s + (4 * C - 3) * vy6 s)
     (- n * S * z6 s + C * vz6 s).
Lemma vec6_ext (a b : vec6) : x6 a = x6 b -> y6 a = y6 b -> z6 a = z6 b -> vx6 a = vx6 b -> vy6 a = vy6 b -> vz6 a = vz6 b -> a = b.
Proof. destruct a, b; cbn; intros; subst; reflexivity. Qed.
Lemma step_ok h t : hl_n h <> 0 ->
  hill_step_by_seconds h t = Ok (set_hl_state h (HCW_from_state_vector (motion (hl_n h) (state_vector (hl_state h)) t))).
Proof.
  intros H. unfold hill_step_by_seconds, system_matrix. rewrite pdiv_ok by auto. cbn [bind]. apply f_equal. apply f_equal. apply f_equal.
  set (s := state_vector _). clearbody s. unfold m66_multiply_vector, motion, v6_dot. cbv zeta.
  cbn [m66_row1 m66_row2 m66_row3 m66_row4 m66_row5 m66_row6 x6 y6 z6 vx6 vy6 vz6].
  apply vec6_ext; cbn [x6 y6 z6 vx6 vy6 vz6]; field; auto.
Qed.
Lemma hcw_vector v : state_vector (HCW_from_state_vector v) = v.
Proof. destruct v; reflexivity. Qed.
Lemma motion_zero n s : n <> 0 -> motion n s 0 = s.
Proof.
  intros H. unfold motion. cbv zeta. rewrite Rmult_0_r, sin_0, cos_0. apply vec6_ext; cbn [x6 y6 z6 vx6 vy6 vz6]; field; auto.
Qed.
Lemma motion_plus n s a b : n <> 0 -> motion n (motion n s a) b = motion n s (a + b).
Proof.
  intros H. unfold motion. cbv zeta. rewrite Rmult_plus_distr_l, sin_plus, cos_plus.
  assert (A := sin2_cos2 (n * a)). assert (B := sin2_cos2 (n * b)). unfold Rsqr in *.
  set (S := sin (n * a)) in *. set (C := cos (n * a)) in *. set (S' := sin (n * b)) in *. set (C' := cos (n * b)) in *.
  clearbody S C S' C'.
  apply vec6_ext; cbn [x6 y6 z6 vx6 vy6 vz6]; field; auto.
Qed.
Lemma motion_cw n s : n <> 0 -> clohessy_wiltshire n (motion n s).
Proof.
  intros H t. unfold motion. cbv zeta. cbn [x6 y6 z6 vx6 vy6 vz6].
  split; [|split; [|split; [|split; [|split]]]]; (auto_derive; [auto|field; auto]).
Qed.

(** * Uniqueness *)
Lemma flat f : (forall t, is_derive f t 0) -> forall t, f t = f 0.
Proof.
  intros H t. destruct (Rtotal_order t 0) as [L|[->|L]]; auto.
  - apply (eq_is_derive f t 0); auto.
  - symmetry. apply (eq_is_derive f 0 t); auto.
Qed.
Lemma oscillator n (f g : R -> R) : n <> 0 -> (forall t, is_derive f t (g t)) -> (forall t, is_derive g t (- n ^ 2 * f t)) ->
  f 0 = 0 -> g 0 = 0 -> forall t, f t = 0 /\ g t = 0.
Proof.
  intros Hn Df Dg F0 G0 t.
  assert (E : n ^ 2 * f t ^ 2 + g t ^ 2 = n ^ 2 * f 0 ^ 2 + g 0 ^ 2).
  { apply (flat (fun t => n ^ 2 * f t ^ 2 + g t ^ 2)). intros u.
    assert (D : is_derive (fun t => n ^ 2 * f t ^ 2 + g t ^ 2) u (n ^ 2 * (2 * g u * f u) + 2 * (- n ^ 2 * f u) * g u)).
    { apply (is_derive_plus (fun t => n ^ 2 * f t ^ 2) (fun t => g t ^ 2)).
      - apply is_derive_scal. replace (2 * g u * f u) with (INR 2 * g u * f u ^ Init.Nat.pred 2) by (simpl; ring). apply is_derive_pow; auto.
      - replace (2 * (- n ^ 2 * f u) * g u) with (INR 2 * (- n ^ 2 * f u) * g u ^ Init.Nat.pred 2) by (simpl; ring). apply is_derive_pow; auto. }
    replace 0 with (n ^ 2 * (2 * g u * f u) + 2 * (- n ^ 2 * f u) * g u) by ring. exact D. }
  rewrite F0, G0 in E. assert (0 < n ^ 2) by (replace (n ^ 2) with (n * n) by ring; destruct (Rtotal_order n 0) as [?|[?|?]]; nra).
  assert (0 <= f t ^ 2) by (apply pow2_ge_0). assert (0 <= g t ^ 2) by (apply pow2_ge_0).
  assert (f t ^ 2 = 0) by nra. assert (g t ^ 2 = 0) by nra. split; [destruct (Req_dec (f t) 0)|destruct (Req_dec (g t) 0)]; auto; exfalso; nra.
Qed.
Lemma cw_zero n c : n <> 0 -> clohessy_wiltshire n c -> c 0 = V6 0 0 0 0 0 0 -> forall t, c t = V6 0 0 0 0 0 0.
Proof.
  intros Hn H C0 t.
  assert (K : forall t, vy6 (c t) + 2 * n * x6 (c t) = 0).
  { intros u. replace 0 with (vy6 (c 0) + 2 * n * x6 (c 0)) by (rewrite C0; cbn; ring).
    apply (flat (fun t => vy6 (c t) + 2 * n * x6 (c t))). intros w. destruct (H w) as (D1 & _ & _ & _ & D5 & _).
    replace 0 with (- 2 * n * vx6 (c w) + 2 * n * vx6 (c w)) by ring.
    apply (is_derive_plus (fun t => vy6 (c t)) (fun t => 2 * n * x6 (c t))); auto. apply is_derive_scal; auto. }
  assert (X : forall t, x6 (c t) = 0 /\ vx6 (c t) = 0).
  { apply (oscillator n); auto; try (rewrite C0; reflexivity).
    - intros u. apply H.
    - intros u. destruct (H u) as (_ & _ & _ & D4 & _).
      replace (- n ^ 2 * x6 (c u)) with (3 * n ^ 2 * x6 (c u) + 2 * n * vy6 (c u)); auto.
      specialize (K u). replace (vy6 (c u)) with (- 2 * n * x6 (c u)) by lra. ring. }
  assert (Z : forall t, z6 (c t) = 0 /\ vz6 (c t) = 0).
  { apply (oscillator n); auto; try (rewrite C0; reflexivity); intros u; apply H. }
  assert (V : forall t, vy6 (c t) = 0) by (intros u; destruct (X u) as [E _]; specialize (K u); rewrite E in K; lra).
  assert (Y : y6 (c t) = 0).
  { replace 0 with (y6 (c 0)) by (rewrite C0; reflexivity). apply (flat (fun t => y6 (c t))). intros u.
    destruct (H u) as (_ & D2 & _). rewrite V in D2. exact D2. }
  destruct (X t), (Z t). specialize (V t). apply vec6_ext; auto.
Qed.
Definition diff6 (a b : vec6) := v6_minus a b.
Lemma cw_unique n c d : n <> 0 -> clohessy_wiltshire n c -> clohessy_wiltshire n d -> c 0 = d 0 -> forall t, c t = d t.
Proof.
  intros Hn Hc Hd E t.
  assert (Z : diff6 (c t) (d t) = V6 0 0 0 0 0 0).
  { apply (cw_zero n (fun t => diff6 (c t) (d t)) Hn).
    - intros u. destruct (Hc u) as (A1 & A2 & A3 & A4 & A5 & A6), (Hd u) as (B1 & B2 & B3 & B4 & B5 & B6).
      unfold diff6, v6_minus. cbn [x6 y6 z6 vx6 vy6 vz6].
      split; [|split; [|split; [|split; [|split]]]].
      + exact (is_derive_minus _ _ _ _ _ A1 B1).
      + exact (is_derive_minus _ _ _ _ _ A2 B2).
      + exact (is_derive_minus _ _ _ _ _ A3 B3).
      + replace (3 * n ^ 2 * (x6 (c u) - x6 (d u)) + 2 * n * (vy6 (c u) - vy6 (d u))) with
          ((3 * n ^ 2 * x6 (c u) + 2 * n * vy6 (c u)) - (3 * n ^ 2 * x6 (d u) + 2 * n * vy6 (d u))) by ring.
        exact (is_derive_minus _ _ _ _ _ A4 B4).
      + replace (- 2 * n * (vx6 (c u) - vx6 (d u))) with (- 2 * n * vx6 (c u) - - 2 * n * vx6 (d u)) by ring.
        exact (is_derive_minus _ _ _ _ _ A5 B5).
      + replace (- n ^ 2 * (z6 (c u) - z6 (d u))) with (- n ^ 2 * z6 (c u) - - n ^ 2 * z6 (d u)) by ring.
        exact (is_derive_minus _ _ _ _ _ A6 B6).
    - rewrite E. unfold diff6, v6_minus. apply vec6_ext; cbn; ring. }
  unfold diff6, v6_minus in Z. inversion Z. apply vec6_ext; lra.
Qed.

(** * Sequences of steps *)
Lemma steps_ok l : forall h, hl_n h <> 0 -> exists h', hill_steps l h = Ok h' /\
  state_vector (hl_state h') = motion (hl_n h) (state_vector (hl_state h)) (elapsed l) /\
  hl_n h' = hl_n h /\ hl_sma h' = hl_sma h /\ hl_step_size h' = hl_step_size h /\
  (l <> nil -> s_epoch (hl_state h') = Epoch 0).
Proof.
  induction l as [|t l IH]; intros h Hn; cbn [hill_steps elapsed fold_right].
  - exists h. split; auto. rewrite motion_zero by auto. repeat split. congruence.
  - rewrite step_ok by auto. cbn [bind].
    destruct (IH (set_hl_state h (HCW_from_state_vector (motion (hl_n h) (state_vector (hl_state h)) t))) Hn) as (h' & E & V & A & B & C & D).
    exists h'. split; auto. cbn [set_hl_state hl_state hl_n] in *. rewrite V, hcw_vector, motion_plus by auto. 
    repeat (split; auto). intros _. destruct l as [|u l]; [|apply D; discriminate].
    cbn in E. inversion E. reflexivity.
Qed.
Lemma steps_total l h : hl_n h <> 0 -> l <> nil -> hill_steps l h = hill_step_by_seconds h (elapsed l).
Proof.
  intros Hn Hl. destruct (steps_ok l h Hn) as (h' & E & V & A & B & C & D). rewrite E, step_ok by auto. apply f_equal.
  specialize (D Hl). destruct h' as [[e r v] a n k], h as [[e0 r0 v0] a0 n0 k0]. cbn in *. subst. unfold set_hl_state, HCW_from_state_vector. cbn.
  destruct r, v. unfold state_vector, v6_from_position_and_velocity in V. cbn in V.
  inversion V. reflexivity.
Qed.
Lemma ticks_steps n : forall h, hl_n h <> 0 -> hill_ticks n h = hill_steps (repeat (hl_step_size h) n) h.
Proof.
  induction n as [|n IH]; intros h Hn; [reflexivity|]. cbn [hill_ticks repeat hill_steps]. unfold hill_step.
  rewrite step_ok by auto. cbn [bind]. rewrite IH by auto. reflexivity.
Qed.
Lemma elapsed_repeat t n : elapsed (repeat t n) = INR n * t.
Proof. induction n as [|n IH]; [simpl; ring|]. cbn [repeat elapsed fold_right]. unfold elapsed in IH. rewrite IH, S_INR. ring. Qed.
Lemma ticks_total n h : hl_n h <> 0 -> n <> 0%nat -> hill_ticks n h = hill_step_by_seconds h (INR n * hl_step_size h).
Proof.
  intros Hn N. rewrite ticks_steps by auto. rewrite steps_total; auto; [|destruct n; [contradiction|discriminate]]. rewrite elapsed_repeat. reflexivity.
Qed.
