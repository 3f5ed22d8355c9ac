(** One step of the propagator from a state of the motion misses the motion by an
    amount of fifth order in the step length. *)
From Coq Require Import Reals Lra Psatz Lia.
From Verif.Model Require Import Num Constants Linalg Functions Time Celestial Positions States Inertial.
From Verif.Spec Require Import Geometry Gravity Forces RungeKutta Propagation Motion.
From Verif.Proofs Require Import NumLemmas LinalgProofs MatrixProofs Analysis FunctionsProofs TimeProofs StatesProofs InertialProofs AccelerationProofs SafeStep Calm SmoothForces ConvergenceProofs.
From Verif.Proofs Require Import Paths.
Local Open Scope R_scope.

(** A step of [s_h] seconds, [s_t] seconds into the motion [s_m]. *)
Record stp := Stp { s_m : path; s_t : R; s_h : R }.
Definition at0 (s : stp) : path * R := (s_m s, s_t s).
Definition atm (s : stp) : path * R := (s_m s, s_t s + s_h s / 2).
Definition at1 (s : stp) : path * R := (s_m s, s_t s + s_h s).
Definition s_r (s : stp) : vec3 := pa_r (s_m s) (s_t s).
Definition s_v (s : stp) : vec3 := pa_v (s_m s) (s_t s).
Definition s_a (s : stp) : vec3 := pa_a (s_m s) (s_t s).
Definition q2 (s : stp) : vec3 := add (s_r s) (scale (s_h s / 2) (s_v s)).
Definition k2 (s : stp) : vec3 := total_acc (point (pa_e (s_m s)) (s_t s + s_h s / 2) (q2 s)).
Definition q3 (s : stp) : vec3 := add (s_r s) (scale (s_h s / 2) (add (s_v s) (scale (s_h s / 2) (s_a s)))).
Definition k3 (s : stp) : vec3 := total_acc (point (pa_e (s_m s)) (s_t s + s_h s / 2) (q3 s)).
Definition q4 (s : stp) : vec3 := add (s_r s) (scale (s_h s) (add (s_v s) (scale (s_h s / 2) (k2 s)))).
Definition k4 (s : stp) : vec3 := total_acc (point (pa_e (s_m s)) (s_t s + s_h s) (q4 s)).
Definition valid (V B : R) (s : stp) : Prop :=
  on_path V B (at0 s) /\ on_path V B (at1 s) /\ flyable (later (pa_e (s_m s)) (s_t s + s_h s / 2)) (q2 s) /\
  flyable (later (pa_e (s_m s)) (s_t s + s_h s / 2)) (q3 s) /\ flyable (later (pa_e (s_m s)) (s_t s + s_h s)) (q4 s).

(** * Orders of magnitude *)
Definition order (V B : R) (n : nat) (f : stp -> R) : Prop := exists M, 0 <= M /\
  forall s, valid V B s -> Rabs (f s) <= M * Rabs (s_h s) ^ n.
Lemma valid_mid V B s : valid V B s -> on_path V B (atm s).
Proof.
  intros ((W & D) & (_ & D1) & _). split; auto. cbn [atm at0 at1 fst snd] in *. apply (during_between _ (s_t s) (s_t s + s_h s)); auto.
  unfold Rmin, Rmax. destruct Rle_dec; lra.
Qed.
Lemma valid_h V B s : valid V B s -> Rabs (s_h s) <= 2 * Rabs B.
Proof.
  intros ((W & D) & (_ & D1) & _). cbn [at0 at1 fst snd] in *. assert (A1 := during_abs _ _ D). assert (A2 := during_abs _ _ D1).
  destruct W as (HB & _). assert (B1 := Rle_abs B).
  replace (s_h s) with ((s_t s + s_h s) + - s_t s) by ring. eapply Rle_trans; [apply Rabs_triang|]. rewrite Rabs_Ropp. lra.
Qed.
Lemma ord_ext V B n f g : (forall s, valid V B s -> f s = g s) -> order V B n f -> order V B n g.
Proof. intros E (M & M0 & H). exists M. split; auto. intros s Hs. rewrite <- E; auto. Qed.
Lemma ord_plus V B n f g : order V B n f -> order V B n g -> order V B n (fun s => f s + g s).
Proof.
  intros (M & M0 & H) (N & N0 & K). exists (M + N). split; [lra|]. intros s Hs. eapply Rle_trans; [apply Rabs_triang|].
  generalize (H s Hs) (K s Hs). lra.
Qed.
Lemma ord_opp V B n f : order V B n f -> order V B n (fun s => - f s).
Proof. intros (M & M0 & H). exists M. split; auto. intros s Hs. rewrite Rabs_Ropp. auto. Qed.
Lemma ord_minus V B n f g : order V B n f -> order V B n g -> order V B n (fun s => f s - g s).
Proof. intros H K. apply (ord_plus V B n f (fun s => - g s)); auto using ord_opp. Qed.
Lemma ord_mult V B n k f g : order V B n f -> order V B k g -> order V B (n + k) (fun s => f s * g s).
Proof.
  intros (M & M0 & H) (N & N0 & K). exists (M * N). split; [apply Rmult_le_pos; auto|]. intros s Hs.
  rewrite pow_add. replace (M * N * (Rabs (s_h s) ^ n * Rabs (s_h s) ^ k)) with ((M * Rabs (s_h s) ^ n) * (N * Rabs (s_h s) ^ k)) by ring.
  apply ab_mult; auto.
Qed.
Lemma ord_const V B c : order V B 0 (fun _ => c).
Proof. exists (Rabs c). split; [apply Rabs_pos|]. intros. cbn. lra. Qed.
Lemma ord_h V B : order V B 1 s_h.
Proof. exists 1. split; [lra|]. intros. cbn. lra. Qed.
Lemma ord_pow V B n : order V B n (fun s => s_h s ^ n).
Proof. exists 1. split; [lra|]. intros. rewrite <- RPow_abs. lra. Qed.
Lemma ord_lower V B n f : order V B (S n) f -> order V B n f.
Proof.
  intros (M & M0 & H). exists (M * (2 * Rabs B)). assert (B0 := Rabs_pos B). split; [apply Rmult_le_pos; lra|]. intros s Hs.
  eapply Rle_trans; [apply H; auto|]. cbn [pow]. rewrite Rmult_assoc. apply Rmult_le_compat_l; auto.
  apply Rmult_le_compat_r; [apply pow_le, Rabs_pos|]. apply (valid_h V B); auto.
Qed.
Lemma ord_le V B n m f : (n <= m)%nat -> order V B m f -> order V B n f.
Proof. intros H. induction H; auto using ord_lower. Qed.
Lemma ord_scal V B n c f : order V B n f -> order V B n (fun s => c * f s).
Proof. intros H. apply (ord_mult V B 0 n (fun _ => c)); auto using ord_const. Qed.
Lemma ord_times V B n b f : order V B 0 b -> order V B n f -> order V B n (fun s => b s * f s).
Proof. intros H K. apply (ord_mult V B 0 n); auto. Qed.
Lemma ord_hn V B k n f : order V B n f -> order V B (k + n) (fun s => s_h s ^ k * f s).
Proof. intros H. apply (ord_mult V B k n (fun s => s_h s ^ k)); auto using ord_pow. Qed.
Lemma ord_calm V B f (y : stp -> path * R) : (forall s, valid V B s -> on_path V B (y s)) -> calm (paths V B) f -> order V B 0 (fun s => f (y s)).
Proof. intros Y (M & M0 & H & _). exists M. split; auto. intros s Hs. cbn. rewrite Rmult_1_r. apply H. apply Y; auto. Qed.
Lemma valid_0 V B s : valid V B s -> on_path V B (at0 s). Proof. intros H. apply H. Qed.
Lemma valid_1 V B s : valid V B s -> on_path V B (at1 s). Proof. intros H. apply H. Qed.

(** * Expansion of the forces about a point of the motion *)
Lemma force_expansion c : part c -> exists g : nat -> pt -> R, (forall i, calm points (g i)) /\ exists M, 0 <= M /\
  forall p q, flying p -> flying q -> pt_t q = pt_t p -> pt_k q = pt_k p ->
  let dx := x3 (pt_r q) - x3 (pt_r p) in let dy := y3 (pt_r q) - y3 (pt_r p) in let dz := z3 (pt_r q) - z3 (pt_r p) in
  Rabs (c (total_acc q) - c (total_acc p) - (g 1%nat p * dx + g 2%nat p * dy + g 3%nat p * dz)) <= M * ((Rabs dx + Rabs dy + Rabs dz) * (Rabs dx + Rabs dy + Rabs dz)).
Proof.
  intros Hc. destruct (LB_points _ 1 (part_LB c Hc)) as (_ & g & G & M & M0 & H). exists g. split; [intros i; apply (smooth_calm _ 0), G|].
  exists M. split; auto. intros p q Hp Hq Et Ek. cbv zeta. specialize (H p q Hp Hq I).
  unfold lin in H. cbn [dims points inc sum coordinate gap] in H. unfold dist in H. rewrite Et, Ek in H.
  rewrite (Rminus_diag_eq (pt_t p) _ eq_refl), (Rminus_diag_eq (pt_k p) _ eq_refl), Rabs_R0 in H.
  rewrite (Rabs_minus_sym (x3 (pt_r p))), (Rabs_minus_sym (y3 (pt_r p))), (Rabs_minus_sym (z3 (pt_r p))) in H.
  rewrite !Rmult_0_r, !Rplus_0_r, !Rplus_0_l in H. exact H.
Qed.
Lemma stage_expansion V B c n (y : stp -> path * R) (q : stp -> vec3) (g : nat -> pt -> R) M :
  (forall s, valid V B s -> on_path V B (y s) /\ fst (y s) = s_m s /\ flyable (later (pa_e (s_m s)) (snd (y s))) (q s)) ->
  0 <= M -> (forall p q, flying p -> flying q -> pt_t q = pt_t p -> pt_k q = pt_k p ->
  let dx := x3 (pt_r q) - x3 (pt_r p) in let dy := y3 (pt_r q) - y3 (pt_r p) in let dz := z3 (pt_r q) - z3 (pt_r p) in
  Rabs (c (total_acc q) - c (total_acc p) - (g 1%nat p * dx + g 2%nat p * dy + g 3%nat p * dz)) <= M * ((Rabs dx + Rabs dy + Rabs dz) * (Rabs dx + Rabs dy + Rabs dz))) ->
  let d := fun (b : vec3 -> R) s => b (q s) - pos_of b (y s) in
  order V B n (d x3) -> order V B n (d y3) -> order V B n (d z3) ->
  order V B (n + n) (fun s => c (total_acc (point (pa_e (s_m s)) (snd (y s)) (q s))) - acc_of c (y s) -
    (g 1%nat (pt_of (y s)) * d x3 s + g 2%nat (pt_of (y s)) * d y3 s + g 3%nat (pt_of (y s)) * d z3 s)).
Proof.
  intros Y M0 H d (M1 & P1 & H1) (M2 & P2 & H2) (M3 & P3 & H3).
  exists (M * ((M1 + M2 + M3) * (M1 + M2 + M3))). split; [apply Rmult_le_pos; auto; apply Rmult_le_pos; lra|]. intros s Hs.
  destruct (Y s Hs) as (Oy & Ey & Fy). assert (Fp := pt_of_flying V B _ Oy). assert (Fq := point_flying _ _ _ Fy).
  rewrite <- (acc_of_total V B c _ Oy). rewrite (pt_of_point V B _ Oy) in *. rewrite Ey in *.
  specialize (H _ _ Fp Fq eq_refl eq_refl). cbv zeta in H. cbn [point pt_r pt_t pt_k] in H.
  assert (Ep : forall b, pos_of b (y s) = b (pa_r (s_m s) (snd (y s)))) by (intros b; unfold pos_of; rewrite Ey; auto).
  unfold d in *. rewrite !Ep. cbn [point pt_r pt_t pt_k].
  eapply Rle_trans; [exact H|]. rewrite pow_add.
  specialize (H1 s Hs). specialize (H2 s Hs). specialize (H3 s Hs). rewrite Ep in H1, H2, H3.
  set (w := Rabs (s_h s) ^ n) in *. set (S := Rabs _ + Rabs _ + Rabs _) in *.
  assert (S0 : 0 <= S) by (unfold S; repeat apply Rplus_le_le_0_compat; apply Rabs_pos).
  assert (S1 : S <= (M1 + M2 + M3) * w) by (unfold S; lra).
  rewrite Rmult_assoc. apply Rmult_le_compat_l; auto. replace ((M1 + M2 + M3) * (M1 + M2 + M3) * (w * w)) with ((M1 + M2 + M3) * w * ((M1 + M2 + M3) * w)) by ring.
  apply Rmult_le_compat; auto.
Qed.
Lemma gradient_close V B g : calm points g -> order V B 1 (fun s => g (pt_of (at1 s)) - g (pt_of (atm s))).
Proof.
  intros (M & M0 & _ & H). destruct (motion_smooth V B 0) as (S & _).
  destruct (smooth_calm _ _ _ (S x3 (or_introl eq_refl))) as (M1 & P1 & _ & L1).
  destruct (smooth_calm _ _ _ (S y3 (or_intror (or_introl eq_refl)))) as (M2 & P2 & _ & L2).
  destruct (smooth_calm _ _ _ (S z3 (or_intror (or_intror eq_refl)))) as (M3 & P3 & _ & L3).
  exists (M * (1 + M1 + M2 + M3)). split; [apply Rmult_le_pos; lra|]. intros s Hs.
  assert (Vm := valid_mid V B s Hs). assert (V1 := valid_1 V B s Hs).
  eapply Rle_trans; [apply (H _ _ (pt_of_flying V B _ Vm) (pt_of_flying V B _ V1) I)|]. rewrite Rmult_assoc. apply Rmult_le_compat_l; auto.
  specialize (L1 _ _ Vm V1 eq_refl). specialize (L2 _ _ Vm V1 eq_refl). specialize (L3 _ _ Vm V1 eq_refl).
  unfold pos_of in L1, L2, L3. cbn [gap paths points pt_of pt_t pt_r pt_k atm at1 fst snd] in *. unfold dist. cbn [pt_of pt_t pt_r pt_k atm at1 fst snd].
  rewrite (Rminus_diag_eq (day_of _) _ eq_refl), Rabs_R0. 
  rewrite (Rabs_minus_sym (x3 (pa_r (s_m s) (s_t s + s_h s / 2)))), (Rabs_minus_sym (y3 (pa_r (s_m s) (s_t s + s_h s / 2)))), (Rabs_minus_sym (z3 (pa_r (s_m s) (s_t s + s_h s / 2)))).
  replace (s_t s + s_h s - (s_t s + s_h s / 2)) with (s_h s * / 2) in * by field. rewrite Rabs_mult, (Rabs_pos_eq (/ 2)) in * by lra.
  unfold pa_t. replace (value (pa_e (s_m s)) + (s_t s + s_h s / 2) / 86400 - (value (pa_e (s_m s)) + (s_t s + s_h s) / 86400)) with (s_h s * - (/ 172800)) by field.
  rewrite Rabs_mult, Rabs_Ropp, (Rabs_pos_eq (/ 172800)) by lra. rewrite pow_1. assert (h0 := Rabs_pos (s_h s)).
  set (w := Rabs (s_h s)) in *. clear - L1 L2 L3 h0 P1 P2 P3.
  assert (0 <= M1 * w) by (apply Rmult_le_pos; auto). assert (0 <= M2 * w) by (apply Rmult_le_pos; auto). assert (0 <= M3 * w) by (apply Rmult_le_pos; auto). lra.
Qed.

(** * Local errors *)
Definition px := (or_introl eq_refl : part x3).
Definition py := (or_intror (or_introl eq_refl) : part y3).
Definition pz := (or_intror (or_intror eq_refl) : part z3).
Lemma motion_orders V B c : part c -> exists a1 a2 a3, 
  order V B 0 (fun s => a1 (at0 s)) /\ order V B 0 (fun s => a2 (at0 s)) /\ order V B 0 (fun s => a3 (at0 s)) /\ 
  order V B 4 (fun s => acc_of c (at1 s) - (acc_of c (at0 s) + a1 (at0 s) * s_h s + a2 (at0 s) * (s_h s ^ 2 / 2) + a3 (at0 s) * (s_h s ^ 3 / 6))) /\
  order V B 4 (fun s => acc_of c (atm s) - (acc_of c (at0 s) + a1 (at0 s) * (s_h s / 2) + a2 (at0 s) * (s_h s ^ 2 / 8) + a3 (at0 s) * (s_h s ^ 3 / 48))) /\
  order V B 5 (fun s => vel_of c (at1 s) - (vel_of c (at0 s) + acc_of c (at0 s) * s_h s + a1 (at0 s) * (s_h s ^ 2 / 2) + a2 (at0 s) * (s_h s ^ 3 / 6) + a3 (at0 s) * (s_h s ^ 4 / 24))) /\
  order V B 5 (fun s => pos_of c (at1 s) - (pos_of c (at0 s) + vel_of c (at0 s) * s_h s + acc_of c (at0 s) * (s_h s ^ 2 / 2) + a1 (at0 s) * (s_h s ^ 3 / 6) + a2 (at0 s) * (s_h s ^ 4 / 24))) /\
  order V B 4 (fun s => pos_of c (atm s) - (pos_of c (at0 s) + vel_of c (at0 s) * (s_h s / 2) + acc_of c (at0 s) * (s_h s ^ 2 / 8) + a1 (at0 s) * (s_h s ^ 3 / 48))).
Proof.
  intros Hc. destruct (motion_taylor V B c Hc) as (a1 & a2 & a3 & M & M0 & C1 & C2 & C3 & H). exists a1, a2, a3.
  assert (B1 := ord_calm V B a1 at0 (valid_0 V B) C1). assert (B2 := ord_calm V B a2 at0 (valid_0 V B) C2). assert (B3 := ord_calm V B a3 at0 (valid_0 V B) C3).
  assert (H1 : forall s, valid V B s -> within V B (s_m s) /\ during (pa_T (s_m s)) (s_t s) /\ during (pa_T (s_m s)) (s_t s + s_h s) /\ during (pa_T (s_m s)) (s_t s + s_h s / 2)).
  { intros s Hs. destruct (valid_mid V B s Hs) as (W & D). destruct Hs as ((_ & D0) & (_ & D1) & _). auto. }
  assert (Half : forall s n, M * Rabs (s_h s / 2) ^ n <= M * Rabs (s_h s) ^ n).
  { intros s n. apply Rmult_le_compat_l; auto. apply pow_incr. split; [apply Rabs_pos|]. unfold Rabs. repeat destruct Rcase_abs; lra. }
  split; auto. split; auto. split; auto. split; [|split; [|split; [|split]]].
  - exists M. split; auto. intros s Hs. destruct (H1 s Hs) as (W & D0 & D1 & Dm). apply (H (s_m s) (s_t s) (s_h s) W D0 D1).
  - exists M. split; auto. intros s Hs. destruct (H1 s Hs) as (W & D0 & D1 & Dm). destruct (H (s_m s) (s_t s) (s_h s / 2) W D0 Dm) as (Q & _).
    fold (at0 s) in Q. fold (atm s) in Q.
    eapply Rle_trans; [|apply (Half s)]. eapply Rle_trans; [|exact Q]. right. f_equal. field.
  - exists M. split; auto. intros s Hs. destruct (H1 s Hs) as (W & D0 & D1 & Dm). apply (H (s_m s) (s_t s) (s_h s) W D0 D1).
  - assert (Q : order V B 6 (fun s => pos_of c (at1 s) - (pos_of c (at0 s) + vel_of c (at0 s) * s_h s + acc_of c (at0 s) * (s_h s ^ 2 / 2) + a1 (at0 s) * (s_h s ^ 3 / 6) + a2 (at0 s) * (s_h s ^ 4 / 24) + a3 (at0 s) * (s_h s ^ 5 / 120)))).
    { exists M. split; auto. intros s Hs. destruct (H1 s Hs) as (W & D0 & D1 & Dm). apply (H (s_m s) (s_t s) (s_h s) W D0 D1). }
    apply ord_lower in Q. assert (Q2 := ord_hn V B 5 0 _ (ord_scal V B 0 (/ 120) _ B3)). assert (Q3 := ord_plus V B 5 _ _ Q Q2).
    eapply ord_ext; [|exact Q3]. intros s Hs. cbv beta. field.
  - assert (Q : order V B 6 (fun s => pos_of c (atm s) - (pos_of c (at0 s) + vel_of c (at0 s) * (s_h s / 2) + acc_of c (at0 s) * ((s_h s / 2) ^ 2 / 2) + a1 (at0 s) * ((s_h s / 2) ^ 3 / 6) + a2 (at0 s) * ((s_h s / 2) ^ 4 / 24) + a3 (at0 s) * ((s_h s / 2) ^ 5 / 120)))).
    { exists M. split; auto. intros s Hs. destruct (H1 s Hs) as (W & D0 & D1 & Dm). destruct (H (s_m s) (s_t s) (s_h s / 2) W D0 Dm) as (_ & _ & Q).
      eapply Rle_trans; [|apply (Half s)]. exact Q. }
    apply (ord_le V B 4 6) in Q; [|lia]. assert (Q2 := ord_hn V B 4 0 _ (ord_scal V B 0 (/ 384) _ B2)).
    assert (Q4 := ord_lower V B 4 _ (ord_hn V B 5 0 _ (ord_scal V B 0 (/ 3840) _ B3))).
    assert (Q3 := ord_plus V B 4 _ _ (ord_plus V B 4 _ _ Q Q2) Q4).
    eapply ord_ext; [|exact Q3]. intros s Hs. cbv beta. field.
Qed.
Lemma acc_O V B c : part c -> order V B 0 (fun s => acc_of c (at0 s)).
Proof. intros Hc. destruct (motion_smooth V B 0) as (_ & _ & S). apply (ord_calm V B (acc_of c) at0 (valid_0 V B)). apply (smooth_calm _ 0), S; auto. Qed.
Definition d2 (c : vec3 -> R) (s : stp) : R := c (q2 s) - pos_of c (atm s).
Definition d3 (c : vec3 -> R) (s : stp) : R := c (q3 s) - pos_of c (atm s).
Definition d4 (c : vec3 -> R) (s : stp) : R := c (q4 s) - pos_of c (at1 s).
Lemma d2_eq c s : part c -> d2 c s = pos_of c (at0 s) + s_h s / 2 * vel_of c (at0 s) - pos_of c (atm s).
Proof. intros Hc. unfold d2, q2. rewrite part_add, part_scale by auto. reflexivity. Qed.
Lemma d3_eq c s : part c -> d3 c s = d2 c s + s_h s ^ 2 * (/ 4 * acc_of c (at0 s)).
Proof. intros Hc. unfold d3, d2, q3, q2. rewrite ?part_add, ?part_scale, ?part_add, ?part_scale by auto. unfold acc_of, s_a. cbn [at0 fst snd]. field. Qed.
Lemma d4_eq c s : part c -> d4 c s = pos_of c (at0 s) + s_h s * vel_of c (at0 s) + s_h s ^ 2 * (/ 2 * c (k2 s)) - pos_of c (at1 s).
Proof. intros Hc. unfold d4, q4. rewrite ?part_add, ?part_scale, ?part_add, ?part_scale by auto. unfold pos_of, vel_of, s_r, s_v. cbn [at0 fst snd]. field. Qed.
Lemma d2_O V B c : part c -> order V B 2 (d2 c).
Proof.
  intros Hc. destruct (motion_orders V B c Hc) as (a1 & a2 & a3 & B1 & B2 & B3 & _ & _ & _ & _ & Pm). assert (A := acc_O V B c Hc).
  apply (ord_le V B 2 4) in Pm; [|lia].
  assert (Q1 := ord_hn V B 2 0 _ (ord_scal V B 0 (/ 8) _ A)). assert (Q2 := ord_lower V B 2 _ (ord_hn V B 3 0 _ (ord_scal V B 0 (/ 48) _ B1))).
  assert (Q := ord_opp V B 2 _ (ord_plus V B 2 _ _ (ord_plus V B 2 _ _ Pm Q1) Q2)).
  eapply ord_ext; [|exact Q]. intros s Hs. cbv beta. rewrite d2_eq by auto. field.
Qed.
Lemma d3_O V B c : part c -> order V B 2 (d3 c).
Proof.
  intros Hc. assert (A := acc_O V B c Hc). assert (Q1 := ord_hn V B 2 0 _ (ord_scal V B 0 (/ 4) _ A)).
  eapply ord_ext; [|exact (ord_plus V B 2 _ _ (d2_O V B c Hc) Q1)]. intros s Hs. cbv beta. rewrite d3_eq by auto. reflexivity.
Qed.
Lemma stages2 V B s : valid V B s -> on_path V B (atm s) /\ fst (atm s) = s_m s /\ flyable (later (pa_e (s_m s)) (snd (atm s))) (q2 s).
Proof. intros H. split; [apply valid_mid; auto|]. split; auto. apply H. Qed.
Lemma stages3 V B s : valid V B s -> on_path V B (atm s) /\ fst (atm s) = s_m s /\ flyable (later (pa_e (s_m s)) (snd (atm s))) (q3 s).
Proof. intros H. split; [apply valid_mid; auto|]. split; auto. apply H. Qed.
Lemma stages4 V B s : valid V B s -> on_path V B (at1 s) /\ fst (at1 s) = s_m s /\ flyable (later (pa_e (s_m s)) (snd (at1 s))) (q4 s).
Proof. intros H. split; [apply valid_1; auto|]. split; auto. apply H. Qed.
Lemma calm_points_O V B g (y : stp -> path * R) : (forall s, valid V B s -> on_path V B (y s)) -> calm points g -> order V B 0 (fun s => g (pt_of (y s))).
Proof.
  intros Y (M & M0 & H & _). exists M. split; auto. intros s Hs. cbn. rewrite Rmult_1_r. apply H. apply (pt_of_flying V B). apply Y; auto.
Qed.
Lemma k2_O V B c : part c -> order V B 2 (fun s => c (k2 s) - acc_of c (atm s)).
Proof.
  intros Hc. destruct (force_expansion c Hc) as (g & G & M & M0 & H).
  assert (Q := stage_expansion V B c 2 atm q2 g M (stages2 V B) M0 H (d2_O V B x3 px) (d2_O V B y3 py) (d2_O V B z3 pz)). cbv zeta in Q.
  apply (ord_le V B 2 (2 + 2)) in Q; [|lia].
  assert (Q1 := ord_times V B 2 _ _ (calm_points_O V B (g 1%nat) atm (valid_mid V B) (G _)) (d2_O V B x3 px)).
  assert (Q2 := ord_times V B 2 _ _ (calm_points_O V B (g 2%nat) atm (valid_mid V B) (G _)) (d2_O V B y3 py)).
  assert (Q3 := ord_times V B 2 _ _ (calm_points_O V B (g 3%nat) atm (valid_mid V B) (G _)) (d2_O V B z3 pz)).
  eapply ord_ext; [|exact (ord_plus V B 2 _ _ Q (ord_plus V B 2 _ _ (ord_plus V B 2 _ _ Q1 Q2) Q3))]. intros s Hs. cbv beta. unfold k2, d2. cbn [atm snd]. ring.
Qed.
Lemma d23_O V B c : part c -> exists a1, order V B 0 a1 /\ order V B 4 (fun s => d2 c s + d3 c s + s_h s ^ 3 * (/ 24 * a1 s)) /\
  order V B 4 (fun s => d4 c s - s_h s ^ 3 * (/ 12 * a1 s)).
Proof.
  intros Hc. destruct (motion_orders V B c Hc) as (a1 & a2 & a3 & B1 & B2 & B3 & _ & Am & _ & P1 & Pm). exists (fun s => a1 (at0 s)). split; auto. split.
  - eapply ord_ext; [|exact (ord_scal V B 4 (-2) _ Pm)]. intros s Hs. cbv beta. rewrite d3_eq, d2_eq by auto. field.
  - apply ord_lower in P1. apply (ord_le V B 2 4) in Am; [|lia].
    assert (Q1 := ord_hn V B 2 2 _ (ord_scal V B 2 (/ 2) _ (ord_plus V B 2 _ _ (k2_O V B c Hc) Am))). cbn [Nat.add] in Q1.
    assert (Q2 := ord_hn V B 4 0 _ (ord_scal V B 0 (/ 16) _ B2)). cbn [Nat.add] in Q2.
    assert (Q3 := ord_lower V B 4 _ (ord_hn V B 5 0 _ (ord_scal V B 0 (/ 96) _ B3))).
    assert (Q4 := ord_hn V B 4 0 _ (ord_scal V B 0 (/ 24) _ B2)). cbn [Nat.add] in Q4.
    eapply ord_ext; [|exact (ord_minus V B 4 _ _ (ord_plus V B 4 _ _ (ord_plus V B 4 _ _ (ord_minus V B 4 _ _ Q1 P1) Q2) Q3) Q4)].
    intros s Hs. cbv beta. rewrite d4_eq by auto. field.
Qed.
Lemma d4_O V B c : part c -> order V B 2 (d4 c).
Proof.
  intros Hc. destruct (d23_O V B c Hc) as (a1 & A & _ & H). apply (ord_le V B 2 4) in H; [|lia].
  assert (Q := ord_lower V B 2 _ (ord_hn V B 3 0 _ (ord_scal V B 0 (/ 12) _ A))).
  eapply ord_ext; [|exact (ord_plus V B 2 _ _ H Q)]. intros s Hs. cbv beta. ring.
Qed.
Lemma stages_cancel V B c : part c -> order V B 4 (fun s => 2 * (c (k2 s) + c (k3 s) - 2 * acc_of c (atm s)) + (c (k4 s) - acc_of c (at1 s))) /\
  order V B 3 (fun s => c (k2 s) + c (k3 s) - 2 * acc_of c (atm s)).
Proof.
  intros Hc. destruct (force_expansion c Hc) as (g & G & M & M0 & H).
  destruct (d23_O V B x3 px) as (ax & Ax & X23 & X4). destruct (d23_O V B y3 py) as (ay & Ay & Y23 & Y4). destruct (d23_O V B z3 pz) as (az & Az & Z23 & Z4).
  assert (E2 := stage_expansion V B c 2 atm q2 g M (stages2 V B) M0 H (d2_O V B x3 px) (d2_O V B y3 py) (d2_O V B z3 pz)).
  assert (E3 := stage_expansion V B c 2 atm q3 g M (stages3 V B) M0 H (d3_O V B x3 px) (d3_O V B y3 py) (d3_O V B z3 pz)).
  assert (E4 := stage_expansion V B c 2 at1 q4 g M (stages4 V B) M0 H (d4_O V B x3 px) (d4_O V B y3 py) (d4_O V B z3 pz)).
  cbv zeta in E2, E3, E4. cbn [Nat.add] in E2, E3, E4.
  assert (Gm : forall i, order V B 0 (fun s => g i (pt_of (atm s)))) by (intros i; apply calm_points_O; [apply valid_mid|apply G]).
  assert (G1 : forall i, order V B 0 (fun s => g i (pt_of (at1 s)))) by (intros i; apply calm_points_O; [apply valid_1|apply G]).
  (* the two middle stages together *)
  assert (Mid : order V B 4 (fun s => c (k2 s) + c (k3 s) - 2 * acc_of c (atm s) + s_h s ^ 3 * (/ 24 * (g 1%nat (pt_of (atm s)) * ax s + g 2%nat (pt_of (atm s)) * ay s + g 3%nat (pt_of (atm s)) * az s)))).
  { assert (Q1 := ord_times V B 4 _ _ (Gm 1%nat) X23). assert (Q2 := ord_times V B 4 _ _ (Gm 2%nat) Y23). assert (Q3 := ord_times V B 4 _ _ (Gm 3%nat) Z23).
    eapply ord_ext; [|exact (ord_plus V B 4 _ _ (ord_plus V B 4 _ _ E2 E3) (ord_plus V B 4 _ _ (ord_plus V B 4 _ _ Q1 Q2) Q3))].
    intros s Hs. cbv beta. unfold k2, k3, d2, d3. cbn [atm snd]. ring. }
  assert (Last : order V B 4 (fun s => c (k4 s) - acc_of c (at1 s) - s_h s ^ 3 * (/ 12 * (g 1%nat (pt_of (at1 s)) * ax s + g 2%nat (pt_of (at1 s)) * ay s + g 3%nat (pt_of (at1 s)) * az s)))).
  { assert (Q1 := ord_times V B 4 _ _ (G1 1%nat) X4). assert (Q2 := ord_times V B 4 _ _ (G1 2%nat) Y4). assert (Q3 := ord_times V B 4 _ _ (G1 3%nat) Z4).
    eapply ord_ext; [|exact (ord_plus V B 4 _ _ E4 (ord_plus V B 4 _ _ (ord_plus V B 4 _ _ Q1 Q2) Q3))].
    intros s Hs. cbv beta. unfold k4, d4. cbn [at1 snd]. ring. }
  split.
  - assert (Gd : forall i a, order V B 0 a -> order V B 4 (fun s => s_h s ^ 3 * (/ 12 * ((g i (pt_of (at1 s)) - g i (pt_of (atm s))) * a s)))).
    { intros i a Ha. apply (ord_hn V B 3 1). apply ord_scal. apply (ord_mult V B 1 0 (fun s => g i (pt_of (at1 s)) - g i (pt_of (atm s)))); auto. apply gradient_close, G. }
    eapply ord_ext; [|exact (ord_plus V B 4 _ _ (ord_plus V B 4 _ _ (ord_scal V B 4 2 _ Mid) Last) (ord_plus V B 4 _ _ (ord_plus V B 4 _ _ (Gd 1%nat ax Ax) (Gd 2%nat ay Ay)) (Gd 3%nat az Az)))].
    intros s Hs. cbv beta. field.
  - assert (Gb : order V B 3 (fun s => s_h s ^ 3 * (/ 24 * (g 1%nat (pt_of (atm s)) * ax s + g 2%nat (pt_of (atm s)) * ay s + g 3%nat (pt_of (atm s)) * az s)))).
    { apply (ord_hn V B 3 0). apply ord_scal. 
      exact (ord_plus V B 0 _ _ (ord_plus V B 0 _ _ (ord_times V B 0 _ _ (Gm 1%nat) Ax) (ord_times V B 0 _ _ (Gm 2%nat) Ay)) (ord_times V B 0 _ _ (Gm 3%nat) Az)). }
    apply ord_lower in Mid. eapply ord_ext; [|exact (ord_minus V B 3 _ _ Mid Gb)]. intros s Hs. cbv beta. ring.
Qed.
Definition new_r (s : stp) : vec3 := add (s_r s) (scale (s_h s) (mean4 (s_v s) (add (s_v s) (scale (s_h s / 2) (s_a s))) (add (s_v s) (scale (s_h s / 2) (k2 s))) (add (s_v s) (scale (s_h s) (k3 s))))).
Definition new_v (s : stp) : vec3 := add (s_v s) (scale (s_h s) (mean4 (s_a s) (k2 s) (k3 s) (k4 s))).
Lemma local_error V B c : part c -> order V B 5 (fun s => c (new_r s) - pos_of c (at1 s)) /\ order V B 5 (fun s => c (new_v s) - vel_of c (at1 s)).
Proof.
  intros Hc. destruct (motion_orders V B c Hc) as (a1 & a2 & a3 & B1 & B2 & B3 & A1 & Am & V1 & P1 & _).
  destruct (stages_cancel V B c Hc) as (S4 & S3). split.
  - assert (Q1 := ord_hn V B 2 3 _ (ord_scal V B 3 (/ 6) _ S3)). cbn [Nat.add] in Q1.
    assert (Q2 := ord_hn V B 2 3 _ (ord_scal V B 3 (/ 3) _ (ord_lower V B 3 _ Am))). cbn [Nat.add] in Q2.
    assert (Q3 := ord_hn V B 5 0 _ (ord_scal V B 0 (/ 144) _ B3)). cbn [Nat.add] in Q3.
    eapply ord_ext; [|exact (ord_plus V B 5 _ _ (ord_minus V B 5 _ _ (ord_plus V B 5 _ _ Q1 Q2) P1) Q3)].
    intros s Hs. cbv beta. unfold new_r, mean4. rewrite ?part_add, ?part_scale, ?part_add, ?part_scale, ?part_add, ?part_scale, ?part_add, ?part_scale by auto.
    unfold pos_of, vel_of, acc_of, s_r, s_v, s_a. cbn [at0 fst snd]. field.
  - assert (Q1 := ord_hn V B 1 4 _ (ord_scal V B 4 (/ 6) _ S4)). cbn [Nat.add] in Q1.
    assert (Q2 := ord_hn V B 1 4 _ (ord_scal V B 4 (2 / 3) _ Am)). cbn [Nat.add] in Q2.
    assert (Q3 := ord_hn V B 1 4 _ (ord_scal V B 4 (/ 6) _ A1)). cbn [Nat.add] in Q3.
    eapply ord_ext; [|exact (ord_minus V B 5 _ _ (ord_plus V B 5 _ _ (ord_plus V B 5 _ _ Q1 Q2) Q3) V1)].
    intros s Hs. cbv beta. unfold new_v, mean4. rewrite ?part_add, ?part_scale, ?part_add, ?part_scale, ?part_add, ?part_scale, ?part_add, ?part_scale by auto.
    unfold pos_of, vel_of, acc_of, s_r, s_v, s_a. cbn [at0 fst snd]. field.
Qed.
