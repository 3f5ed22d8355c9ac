(** A motion under the modelled forces exists from every state with room around it. *)
From Coq Require Import Reals Lra Psatz Lia List ZArith.
From Coquelicot Require Import Coquelicot.
From Verif.Model Require Import Num Constants Linalg Functions Time Celestial Positions States Inertial.
From Verif.Spec Require Import Geometry Gravity Forces RungeKutta Propagation Motion.
From Verif.Proofs Require Import NumLemmas LinalgProofs MatrixProofs Analysis FunctionsProofs TimeProofs StatesProofs InertialProofs AccelerationProofs SafeStep SmoothForces ConvergenceProofs.
Local Open Scope R_scope.

(** * Integrability of functions that jump once a day *)
Definition clamp (A B t : R) : R := Rmax A (Rmin t B).
Lemma clamp_in A B t : A <= B -> A <= clamp A B t <= B.
Proof. intros H. unfold clamp, Rmax, Rmin. repeat destruct Rle_dec; lra. Qed.
Lemma clamp_id A B t : A <= t <= B -> clamp A B t = t.
Proof. intros H. unfold clamp, Rmax, Rmin. repeat destruct Rle_dec; lra. Qed.
Lemma clamp_close A B s t : A <= B -> Rabs (clamp A B s - clamp A B t) <= Rabs (s - t).
Proof. intros H. unfold clamp, Rmax, Rmin. repeat destruct Rle_dec; split_Rabs; lra. Qed.
Lemma lip_continuous (g : R -> R) C x : 0 <= C -> (forall s t, Rabs (g s - g t) <= C * Rabs (s - t)) -> continuous g x.
Proof.
  intros C0 H. apply continuity_pt_filterlim. intros eps He. exists (eps / (C + 1)). split; [apply Rdiv_lt_0_compat; lra|].
  intros y (_ & Hy). cbn in *. unfold R_dist in *.
  eapply Rle_lt_trans; [apply H|]. apply Rle_lt_trans with (C * (eps / (C + 1))). { apply Rmult_le_compat_l; lra. }
  apply Rmult_lt_reg_r with (C + 1); [lra|]. field_simplify; lra.
Qed.
Lemma lip_RInt (g : R -> R) A B C : A <= B -> 0 <= C -> (forall s t, A <= s <= B -> A <= t <= B -> Rabs (g s - g t) <= C * Rabs (s - t)) -> ex_RInt g A B.
Proof.
  intros AB C0 H. apply ex_RInt_ext with (fun t => g (clamp A B t)).
  { intros x. rewrite Rmin_left, Rmax_right by auto. intros Hx. now rewrite clamp_id by lra. }
  apply (ex_RInt_continuous (V := R_CompleteNormedModule)). intros z _. apply lip_continuous with C; auto. intros s t.
  eapply Rle_trans; [apply H; apply clamp_in; auto|]. apply Rmult_le_compat_l; auto. apply clamp_close; auto.
Qed.
Lemma lip_open (g : R -> R) A B C : A < B -> 0 <= C -> (forall s t, A <= s < B -> A <= t < B -> Rabs (g s - g t) <= C * Rabs (s - t)) -> ex_RInt g A B.
Proof.
  intros AB C0 H. set (x := fun n : nat => B - (B - A) / (INR n + 1)).
  assert (X : forall n, A <= x n < B /\ B - x n = (B - A) / (INR n + 1)).
  { intros n. unfold x. assert (P := pos_INR n). assert (0 < (B - A) / (INR n + 1)) by (apply Rdiv_lt_0_compat; lra).
    assert ((B - A) / (INR n + 1) <= B - A). { apply Rmult_le_reg_r with (INR n + 1); [lra|]. field_simplify; [nra|lra]. } lra. }
  assert (Small : forall eps, 0 < eps -> exists N, forall n, (N <= n)%nat -> C * (B - x n) < eps).
  { intros eps He. destruct (archimed_cor1 (eps / (C * (B - A) + 1))) as (N & HN & PN). { apply Rdiv_lt_0_compat; nra. }
    exists N. intros n Hn. destruct (X n) as (_ & ->). assert (IN : INR N <= INR n) by (apply le_INR; auto).
    assert (PN' : 0 < INR N) by (apply lt_0_INR; auto). 
    assert (Y : / (INR n + 1) < eps / (C * (B - A) + 1)). { eapply Rlt_trans; [|exact HN]. apply Rinv_lt_contravar; nra. }
    unfold Rdiv at 1. rewrite <- Rmult_assoc. assert (CP : 0 <= C * (B - A)) by (apply Rmult_le_pos; lra).
    apply Rle_lt_trans with (C * (B - A) * (eps / (C * (B - A) + 1))). { apply Rmult_le_compat_l; lra. }
    apply Rmult_lt_reg_r with (C * (B - A) + 1); [lra|]. field_simplify; lra. }
  destruct (proj2 (ex_lim_seq_cauchy_corr (fun n => g (x n)))) as (l & Hl).
  { intros eps. destruct (Small (eps / 2)) as (N & HN). { generalize (cond_pos eps). lra. }
    exists N. intros n m Hn Hm. destruct (X n) as (Xn & _). destruct (X m) as (Xm & _).
    eapply Rle_lt_trans; [apply H; lra|]. assert (Qn := HN n Hn). assert (Qm := HN m Hm).
    apply Rle_lt_trans with (C * (B - x n) + C * (B - x m)); [|lra]. rewrite <- Rmult_plus_distr_l. apply Rmult_le_compat_l; auto. split_Rabs; lra. }
  assert (G : forall t, A <= t < B -> Rabs (g t - l) <= C * (B - t)).
  { intros t Ht. rewrite <- (Rplus_0_r (C * (B - t))). apply (is_lim_seq_le (fun n => Rabs (g t - g (x n))) (fun n => C * (B - t) + C * (B - x n)) (Rabs (g t - l)) (C * (B - t) + 0)).
    - intros n. destruct (X n) as (Xn & _). eapply Rle_trans; [apply H; lra|]. rewrite <- Rmult_plus_distr_l. apply Rmult_le_compat_l; auto. split_Rabs; lra.
    - apply (is_lim_seq_abs _ (g t - l)). apply is_lim_seq_minus'; auto. apply is_lim_seq_const.
    - apply is_lim_seq_plus'; [apply is_lim_seq_const|].
      apply is_lim_seq_spec. intros eps. destruct (Small eps (cond_pos eps)) as (N & HN). exists N. intros n Hn. rewrite Rminus_0_r, Rabs_pos_eq; auto.
      destruct (X n) as (Xn & _). apply Rmult_le_pos; lra. }
  apply ex_RInt_ext with (fun t => if Rlt_dec t B then g t else l).
  { intros t. rewrite Rmin_left, Rmax_right by lra. intros Ht. destruct Rlt_dec; lra. }
  apply lip_RInt with C; auto; [lra|]. intros s t Hs Ht. destruct (Rlt_dec s B), (Rlt_dec t B).
  - apply H; lra.
  - replace t with B by lra. rewrite (Rabs_minus_sym s B), (Rabs_pos_eq (B - s)) by lra. apply G; lra.
  - replace s with B by lra. rewrite Rabs_minus_sym, (Rabs_pos_eq (B - t)) by lra. apply G; lra.
  - rewrite Rminus_diag_eq, Rabs_R0 by auto. apply Rmult_le_pos; auto. apply Rabs_pos.
Qed.
Definition jumpy (g : R -> R) (A B C : R) : Prop :=
  forall s t, A <= s <= B -> A <= t <= B -> Rabs (g s - g t) <= C * (Rabs (s - t) + Rabs (day_of s - day_of t)).
Lemma jumpy_sub g A B C A' B' : jumpy g A B C -> A <= A' -> B' <= B -> jumpy g A' B' C.
Proof. intros H X Y s t Hs Ht. apply H; lra. Qed.
Lemma day_bounds t : day_of t <= t - UTC_TDT_OFFSET < day_of t + 1.
Proof. unfold day_of. apply nfloor_bounds. Qed.
Lemma day_same k t : IZR k <= t - UTC_TDT_OFFSET < IZR k + 1 -> day_of t = IZR k.
Proof.
  intros H. assert (B := day_bounds t). unfold day_of in *. f_equal. set (j := nfloor _) in *.
  assert (IZR j < IZR (k + 1)) by (rewrite plus_IZR; lra). assert (IZR k < IZR (j + 1)) by (rewrite plus_IZR; lra).
  apply lt_IZR in H0, H1. lia.
Qed.
Lemma jumpy_RInt_aux n : forall g A B C, 0 <= C -> A <= B -> jumpy g A B C -> day_of B <= day_of A + INR n -> ex_RInt g A B.
Proof.
  induction n as [|n IH]; intros g A B C C0 AB H K.
  - cbn in K. apply lip_RInt with C; auto. intros s t Hs Ht. eapply Rle_trans; [apply H; auto|].
    assert (E : forall u, A <= u <= B -> day_of u = day_of A).
    { intros u Hu. apply Rle_antisym; [|apply day_mono; lra]. apply Rle_trans with (day_of B); [apply day_mono; lra|lra]. }
    rewrite (E s Hs), (E t Ht), (Rminus_diag_eq (day_of A) _ eq_refl), Rabs_R0, Rplus_0_r. lra.
  - rewrite S_INR in K. set (k := nfloor (A - UTC_TDT_OFFSET)). set (M := IZR (k + 1) + UTC_TDT_OFFSET).
    assert (BA := day_bounds A). assert (EA : day_of A = IZR k) by reflexivity.
    destruct (Rlt_le_dec B M) as [BM|BM].
    + apply IH with C; auto. replace (day_of B) with (day_of A); [generalize (pos_INR n); lra|]. rewrite EA. symmetry. apply day_same.
      unfold M in BM. rewrite plus_IZR in BM. lra.
    + assert (AM : A < M) by (unfold M; rewrite plus_IZR; lra).
      apply (ex_RInt_Chasles g A M B).
      * apply lip_open with C; auto. intros s t Hs Ht. eapply Rle_trans; [apply H; lra|].
        assert (E : forall u, A <= u < M -> day_of u = IZR k).
        { intros u Hu. apply day_same. unfold M in Hu. rewrite plus_IZR in Hu. lra. }
        rewrite (E s Hs), (E t Ht), (Rminus_diag_eq (IZR k) _ eq_refl), Rabs_R0, Rplus_0_r. lra.
      * apply IH with C; auto; [eapply jumpy_sub; eauto; lra|]. replace (day_of M) with (day_of A + 1); [lra|].
        rewrite EA, (day_same (k + 1) M); [now rewrite plus_IZR|]. unfold M. lra.
Qed.
Lemma jumpy_RInt g A B C : 0 <= C -> A <= B -> jumpy g A B C -> ex_RInt g A B.
Proof.
  intros C0 AB H. assert (M := day_mono A B AB). destruct (nfloor_ex (day_of B - day_of A) ltac:(lra)) as (n & _ & Hn).
  apply jumpy_RInt_aux with (S n) C; auto. rewrite S_INR. lra.
Qed.

Lemma ride_RInt (h : R -> R) a b C x : b <> 0 -> 0 <= C -> 0 <= x <= 1 ->
  (forall s t, 0 <= s <= 1 -> 0 <= t <= 1 -> Rabs (h s - h t) <= C * (Rabs (s - t) + Rabs (day_of (b * s + a) - day_of (b * t + a)))) -> ex_RInt h 0 x.
Proof.
  intros B0 C0 Hx H. set (g := fun u => h ((u - a) / b)).
  assert (Bp : 0 < Rabs b) by (apply Rabs_pos_lt; auto). assert (Bi : 0 < / Rabs b) by (apply Rinv_0_lt_compat; auto).
  assert (J : forall A B, (forall u, A <= u <= B -> 0 <= (u - a) / b <= 1) -> jumpy g A B (C * (1 + / Rabs b))).
  { intros A B Q s t Hs Ht. unfold g. eapply Rle_trans; [apply H; auto|].
    replace (b * ((s - a) / b) + a) with s by (field; auto). replace (b * ((t - a) / b) + a) with t by (field; auto).
    replace ((s - a) / b - (t - a) / b) with ((s - t) * / b) by (field; auto). rewrite Rabs_mult, Rabs_inv, Rmult_assoc.
    apply Rmult_le_compat_l; auto. assert (X := Rabs_pos (s - t)). assert (Y := Rabs_pos (day_of s - day_of t)). nra. }
  assert (G : ex_RInt g (b * 0 + a) (b * x + a)).
  { destruct (Rlt_le_dec b 0) as [N|N].
    - apply ex_RInt_swap. apply jumpy_RInt with (C * (1 + / Rabs b)); [apply Rmult_le_pos; lra|nra|]. apply J.
      intros u Hu. assert (E : (u - a) / b = (a - u) / (- b)) by (field; auto). rewrite E. split.
      + apply Rmult_le_reg_r with (- b); [lra|]. unfold Rdiv. rewrite Rmult_assoc, Rinv_l by lra. nra.
      + apply Rmult_le_reg_r with (- b); [lra|]. unfold Rdiv. rewrite Rmult_assoc, Rinv_l by lra. nra.
    - apply jumpy_RInt with (C * (1 + / Rabs b)); [apply Rmult_le_pos; lra|nra|]. apply J.
      intros u Hu. split; apply Rmult_le_reg_r with b; try lra; unfold Rdiv; rewrite Rmult_assoc, Rinv_l by auto; nra. }
  apply ex_RInt_comp_lin in G. apply (ex_RInt_scal _ _ _ (/ b)) in G. revert G. apply ex_RInt_ext.
  intros y _. unfold scal, mult; cbn. unfold mult, g; cbn. replace ((b * y + a - a) / b) with y by (field; auto). field; auto.
Qed.

(** * Vector integrals *)
Definition vint (f : R -> vec3) (x : R) : vec3 :=
  V3 (RInt (fun s => x3 (f s)) 0 x) (RInt (fun s => y3 (f s)) 0 x) (RInt (fun s => z3 (f s)) 0 x).
Definition summable (f : R -> vec3) (x : R) : Prop :=
  ex_RInt (fun s => x3 (f s)) 0 x /\ ex_RInt (fun s => y3 (f s)) 0 x /\ ex_RInt (fun s => z3 (f s)) 0 x.
Lemma vint_of f x : summable f x -> integral_of f x (vint f x).
Proof. intros (A & B & C). split; [|split]; apply (RInt_correct (V := R_CompleteNormedModule)); auto. Qed.
Lemma vint_zero f : vint f 0 = zero3.
Proof. unfold vint. rewrite !RInt_point. reflexivity. Qed.
Lemma integral_sub f g x w w' : integral_of f x w -> integral_of g x w' -> integral_of (fun s => sub (f s) (g s)) x (sub w w').
Proof.
  intros (A & B & C) (A' & B' & C'). split; [|split]; cbn [sub x3 y3 z3];
  [apply (is_RInt_minus (fun s => x3 (f s)) (fun s => x3 (g s)))|apply (is_RInt_minus (fun s => y3 (f s)) (fun s => y3 (g s)))|apply (is_RInt_minus (fun s => z3 (f s)) (fun s => z3 (g s)))]; auto.
Qed.
Lemma integral_unique f x w w' : integral_of f x w -> integral_of f x w' -> w = w'.
Proof.
  intros (A & B & C) (A' & B' & C'). apply (is_RInt_unique (V := R_CompleteNormedModule)) in A, B, C, A', B', C'. destruct w, w'; cbn in *. congruence.
Qed.
Lemma integral_ext f g x w : (forall s, f s = g s) -> integral_of f x w -> integral_of g x w.
Proof.
  intros E (A & B & C). split; [|split]; [apply is_RInt_ext with (fun s => x3 (f s))|apply is_RInt_ext with (fun s => y3 (f s))|apply is_RInt_ext with (fun s => z3 (f s))]; auto; intros s _; now rewrite E.
Qed.
Lemma integral_le f x w (phi : R -> R) W : 0 <= x -> integral_of f x w -> is_RInt phi 0 x W ->
  (forall s, 0 < s < x -> norm (f s) <= phi s) -> norm w <= W.
Proof.
  intros X0 (A & B & C) P H. assert (Wn := norm_nonneg w).
  assert (W0 : 0 <= W).
  { replace 0 with (scal (x - 0) (0 : R)) by (unfold scal; cbn; unfold mult; cbn; ring).
    apply (is_RInt_le (fun _ => 0) phi 0 x); auto. { apply (is_RInt_const 0 x (0 : R)). }
    intros s Hs. eapply Rle_trans; [|apply H; auto]. apply norm_nonneg. }
  destruct (Req_dec (norm w) 0) as [Z|Z]; [lra|].
  assert (I : is_RInt (fun s => dot w (f s)) 0 x (dot w w)).
  { unfold dot at 2. apply (is_RInt_plus (fun s => x3 w * x3 (f s) + y3 w * y3 (f s)) (fun s => z3 w * z3 (f s))).
    - apply (is_RInt_plus (fun s => x3 w * x3 (f s)) (fun s => y3 w * y3 (f s))); [apply (is_RInt_scal (fun s => x3 (f s)))|apply (is_RInt_scal (fun s => y3 (f s)))]; auto.
    - apply (is_RInt_scal (fun s => z3 (f s))); auto. }
  assert (J : is_RInt (fun s => norm w * phi s) 0 x (norm w * W)) by (apply (is_RInt_scal phi); auto).
  assert (K : dot w w <= norm w * W).
  { apply (is_RInt_le (fun s => dot w (f s)) (fun s => norm w * phi s) 0 x); auto. intros s Hs.
    eapply Rle_trans; [apply cauchy_schwarz_norm|]. apply Rmult_le_compat_l; auto. }
  rewrite <- norm_sq in K. apply Rmult_le_reg_l with (norm w); lra.
Qed.
Lemma integral_le_const f x w M : 0 <= x -> integral_of f x w -> (forall s, 0 < s < x -> norm (f s) <= M) -> norm w <= x * M.
Proof.
  intros X0 I H. apply (integral_le f x w (fun _ => M)); auto. replace (x * M) with (scal (x - 0) M) by (unfold scal; cbn; unfold mult; cbn; ring).
  apply (is_RInt_const 0 x (M : R)).
Qed.
Lemma integral_le_exp f x w c k : 0 < k -> 0 <= c -> 0 <= x -> integral_of f x w -> (forall s, 0 < s < x -> norm (f s) <= c * exp (k * s)) -> norm w <= c * exp (k * x) / k.
Proof.
  intros K0 C0 X0 I H. apply Rle_trans with (c * exp (k * x) / k - c * exp (k * 0) / k).
  - apply (integral_le f x w (fun s => c * exp (k * s))); auto.
    apply (is_RInt_derive (fun s => c * exp (k * s) / k) (fun s => c * exp (k * s))).
    + intros s _. auto_derive; auto. field. lra.
    + intros s _. apply (ex_derive_continuous (fun s => c * exp (k * s))). auto_derive; auto.
  - assert (0 <= c * exp (k * 0) / k); [|lra]. unfold Rdiv. apply Rmult_le_pos; [apply Rmult_le_pos; auto; left; apply exp_pos|]. left. apply Rinv_0_lt_compat; auto.
Qed.

(** * Successive approximation *)
Definition unit_time (x : R) : Prop := 0 <= x <= 1.
Definition Lipv (F : R -> vec3) (c : R) : Prop := forall x y, unit_time x -> unit_time y -> norm (sub (F x) (F y)) <= c * Rabs (x - y).
Definition acc (e : epoch) (T : R) (p : R -> vec3) (x : R) : vec3 := total_acc (point e (x * T) (p x)).
Definition top (T : R) (v0 : vec3) : R := norm v0 + 0.05 * Rabs T.
Definition room (e : epoch) (T : R) (r0 v0 : vec3) : Prop :=
  forall x y, unit_time x -> norm (sub y r0) <= Rabs T * top T v0 -> flyable (later e (x * T)) y.
Definition good (e : epoch) (T : R) (r0 v0 : vec3) (p q : R -> vec3) : Prop :=
  (forall x, unit_time x -> norm (sub (p x) r0) <= Rabs T * top T v0) /\ (forall x, unit_time x -> norm (q x) <= top T v0) /\
  Lipv p (3 * (Rabs T * top T v0)) /\ Lipv q (3 * Rabs T).
Lemma top_pos T v0 : 0 <= top T v0.
Proof. unfold top. generalize (norm_nonneg v0) (Rabs_pos T). lra. Qed.
Lemma acc_small e T p x : flyable (later e (x * T)) (p x) -> norm (acc e T p x) <= 0.05.
Proof.
  intros F. destruct (fly_derivative (GCRF (later e (x * T)) (p x) zero3)) as (a & D & N); auto.
  { cbn. rewrite Rabs_R0. lra. }
  rewrite (point_derivative e (x * T) (p x) zero3 F) in D. unfold acc. set (w := total_acc _) in *. clearbody w.
  apply (f_equal (fun o : res (vec3 * vec3) => match o with Ok (_, z) => z | Err _ => zero3 end)) in D. cbn [GCRF g_thrust] in D. cbv beta iota in D. rewrite D.
  replace (add _ a) with a; [exact N|]. destruct a; unfold add, zero3; cbn. f_equal; ring.
Qed.
Lemma comp_lip F c : Lipv F c -> forall s t, unit_time s -> unit_time t ->
  Rabs (x3 (F s) - x3 (F t)) <= c * Rabs (s - t) /\ Rabs (y3 (F s) - y3 (F t)) <= c * Rabs (s - t) /\ Rabs (z3 (F s) - z3 (F t)) <= c * Rabs (s - t).
Proof.
  intros H s t Hs Ht. assert (B := H s t Hs Ht). split; [|split]; (eapply Rle_trans; [|exact B]).
  - apply (abs_x_norm (sub (F s) (F t))). - apply (abs_y_norm (sub (F s) (F t))). - apply (abs_z_norm (sub (F s) (F t))).
Qed.
Lemma lip_summable F c x : 0 <= c -> Lipv F c -> unit_time x -> summable F x.
Proof.
  intros C0 H Hx. assert (Q := comp_lip F c H). unfold unit_time in *.
  split; [|split]; apply lip_RInt with c; try lra; intros s t Hs Ht; apply Q; lra.
Qed.
Lemma acc_summable L e T r0 v0 p q x : lipschitz_forces L -> T <> 0 -> room e T r0 v0 -> good e T r0 v0 p q -> unit_time x -> summable (acc e T p) x.
Proof.
  intros (L0 & HL) T0 Rm (G1 & G2 & G3 & G4) Hx. set (c := 3 * (Rabs T * top T v0)) in *.
  assert (C0 : 0 <= c). { unfold c. generalize (Rmult_le_pos _ _ (Rabs_pos T) (top_pos T v0)). lra. }
  assert (T1 := Rabs_pos T).
  assert (B : forall s t, unit_time s -> unit_time t -> norm (sub (acc e T p s) (acc e T p t)) <=
     L * (Rabs T + c + 1) * (Rabs (s - t) + Rabs (day_of (T / 86400 * s + value e) - day_of (T / 86400 * t + value e)))).
  { intros s t Hs Ht. unfold acc.
    destruct (HL (point e (s * T) (p s)) (point e (t * T) (p t))) as (_ & B).
    { apply point_flying, Rm; auto. } { apply point_flying, Rm; auto. }
    eapply Rle_trans; [exact B|]. cbn [point pt_t pt_r pt_k]. rewrite Rmult_assoc. apply Rmult_le_compat_l; [lra|].
    replace (T / 86400 * s + value e) with (value e + s * T / 86400) by (field).
    replace (T / 86400 * t + value e) with (value e + t * T / 86400) by (field).
    replace (value e + s * T / 86400 - (value e + t * T / 86400)) with (T * (s - t) * / 86400) by field.
    rewrite 2!Rabs_mult, (Rabs_pos_eq (/ 86400)) by lra. assert (P := G3 s t Hs Ht).
    set (X := Rabs (s - t)) in *. set (Y := Rabs (day_of _ - _)). assert (0 <= X) by apply Rabs_pos. assert (0 <= Y) by apply Rabs_pos.
    assert (Rabs T * X * / 86400 <= Rabs T * X). { assert (0 <= Rabs T * X) by (apply Rmult_le_pos; auto). lra. } nra. }
  assert (K0 : 0 <= L * (Rabs T + c + 1)) by (apply Rmult_le_pos; lra).
  assert (N0 : T / 86400 <> 0) by (unfold Rdiv; apply Rmult_integral_contrapositive; split; auto; lra).
  split; [|split]; apply (ride_RInt _ (value e) (T / 86400) (L * (Rabs T + c + 1))); auto; intros s t Hs Ht; (eapply Rle_trans; [|apply B; auto]).
  - apply (abs_x_norm (sub (acc e T p s) (acc e T p t))). - apply (abs_y_norm (sub (acc e T p s) (acc e T p t))). - apply (abs_z_norm (sub (acc e T p s) (acc e T p t))).
Qed.
Lemma vint_lip f M : 0 <= M -> (forall x, unit_time x -> summable f x) -> (forall x, unit_time x -> norm (f x) <= M) -> Lipv (vint f) (3 * M).
Proof.
  intros M0 S H x y Hx Hy. assert (C := integral_close f y x _ _ zero3 M (vint_of f y (S y Hy)) (vint_of f x (S x Hx))).
  replace (sub (sub (vint f x) (vint f y)) (scale (x - y) zero3)) with (sub (vint f x) (vint f y)) in C.
  - rewrite (Rmult_comm (Rabs _) M) in C. rewrite Rmult_assoc. apply C. intros s Hs. replace (sub (f s) zero3) with (f s).
    + apply H. unfold unit_time, Rmin, Rmax in *. destruct Rle_dec; lra.
    + destruct (f s); unfold sub, zero3; cbn; f_equal; ring.
  - unfold sub, scale, zero3; cbn; f_equal; ring.
Qed.
Definition next_p (r0 : vec3) (T : R) (q : R -> vec3) (x : R) : vec3 := add r0 (scale T (vint q x)).
Definition next_q (e : epoch) (v0 : vec3) (T : R) (p : R -> vec3) (x : R) : vec3 := add v0 (scale T (vint (acc e T p) x)).
Lemma shift_sub a k u w : sub (add a (scale k u)) (add a (scale k w)) = scale k (sub u w).
Proof. unfold sub, add, scale; cbn; f_equal; ring. Qed.
Lemma good_acc e T r0 v0 p q x : room e T r0 v0 -> good e T r0 v0 p q -> unit_time x -> norm (acc e T p x) <= 0.05.
Proof. intros Rm (G & _) Hx. apply acc_small. apply Rm; auto. Qed.
Lemma good_q e T r0 v0 p q x : good e T r0 v0 p q -> unit_time x -> summable q x.
Proof. intros (_ & _ & _ & G) Hx. apply lip_summable with (3 * Rabs T); auto. generalize (Rabs_pos T). lra. Qed.
Lemma good_next L e T r0 v0 p q : lipschitz_forces L -> T <> 0 -> room e T r0 v0 -> good e T r0 v0 p q ->
  good e T r0 v0 (next_p r0 T q) (next_q e v0 T p).
Proof.
  intros HL T0 Rm G. assert (T1 := Rabs_pos T). assert (W0 := top_pos T v0).
  assert (SQ : forall x, unit_time x -> summable q x) by (intros; eapply good_q; eauto).
  assert (SA : forall x, unit_time x -> summable (acc e T p) x) by (intros; eapply acc_summable; eauto).
  assert (BA : forall x, unit_time x -> norm (acc e T p x) <= 0.05) by (intros; eapply good_acc; eauto).
  destruct G as (G1 & G2 & G3 & G4). split; [|split; [|split]].
  - intros x Hx. unfold next_p. rewrite sub_add, norm_scale. apply Rmult_le_compat_l; auto.
    apply Rle_trans with (x * top T v0); [|unfold unit_time in *; nra]. apply (integral_le_const q x); [apply Hx|apply vint_of; auto|].
    intros s Hs. apply G2. unfold unit_time in *. lra.
  - intros x Hx. unfold next_q, top. apply norm_add_le; [lra|]. rewrite norm_scale, Rmult_comm. apply Rmult_le_compat_r; auto.
    apply Rle_trans with (x * 0.05); [|unfold unit_time in *; nra]. apply (integral_le_const (acc e T p) x); [apply Hx|apply vint_of; auto|].
    intros s Hs. apply BA. unfold unit_time in *. lra.
  - intros x y Hx Hy. unfold next_p. rewrite shift_sub, norm_scale. replace (3 * (Rabs T * top T v0) * Rabs (x - y)) with (Rabs T * (3 * top T v0 * Rabs (x - y))) by ring.
    apply Rmult_le_compat_l; auto. apply vint_lip; auto.
  - intros x y Hx Hy. unfold next_q. rewrite shift_sub, norm_scale. replace (3 * Rabs T * Rabs (x - y)) with (Rabs T * (3 * Rabs (x - y))) by ring.
    apply Rmult_le_compat_l; auto. eapply Rle_trans; [apply (vint_lip _ 0.05); auto; lra|]. generalize (Rabs_pos (x - y)). lra.
Qed.
Definition gap (p q p' q' : R -> vec3) (x : R) : R := norm (sub (p x) (p' x)) + norm (sub (q x) (q' x)).
Definition rate (L T : R) : R := 2 * (Rabs T * (1 + L)) + 1.
Lemma contract L e T r0 v0 p q p' q' c : lipschitz_forces L -> T <> 0 -> room e T r0 v0 -> good e T r0 v0 p q -> good e T r0 v0 p' q' -> 0 <= c ->
  (forall x, unit_time x -> gap p q p' q' x <= c * exp (rate L T * x)) ->
  forall x, unit_time x -> gap (next_p r0 T q) (next_q e v0 T p) (next_p r0 T q') (next_q e v0 T p') x <= c / 2 * exp (rate L T * x).
Proof.
  intros HL T0 Rm G G' C0 H x Hx. set (k := rate L T) in *. assert (T1 := Rabs_pos T). assert (L0 := proj1 HL).
  assert (TL : 0 <= Rabs T * L) by (apply Rmult_le_pos; lra).
  assert (K0 : 0 < k) by (unfold k, rate; lra).
  assert (A : norm (sub (vint q x) (vint q' x)) <= c * exp (k * x) / k).
  { apply (integral_le_exp (fun s => sub (q s) (q' s)) x _ c k); auto; [apply Hx| |].
    - apply integral_sub; apply vint_of; eapply good_q; eauto.
    - intros s Hs. eapply Rle_trans; [|apply H]; [|unfold unit_time in *; lra]. unfold gap. generalize (norm_nonneg (sub (p s) (p' s))). lra. }
  assert (B : norm (sub (vint (acc e T p) x) (vint (acc e T p') x)) <= L * c * exp (k * x) / k).
  { apply (integral_le_exp (fun s => sub (acc e T p s) (acc e T p' s)) x _ (L * c) k); auto; [apply Rmult_le_pos; lra|apply Hx| |].
    - apply integral_sub; apply vint_of; eapply acc_summable; eauto.
    - intros s Hs. assert (Us : unit_time s) by (unfold unit_time in *; lra). unfold acc.
      destruct (proj2 HL (point e (s * T) (p s)) (point e (s * T) (p' s))) as (_ & B).
      { apply point_flying, Rm; auto. apply G; auto. } { apply point_flying, Rm; auto. apply G'; auto. }
      eapply Rle_trans; [exact B|]. cbn [point pt_t pt_r pt_k]. rewrite !Rminus_diag_eq, Rabs_R0 by auto.
      rewrite Rmult_assoc. apply Rmult_le_compat_l; [lra|]. eapply Rle_trans; [|apply H; auto]. unfold gap. generalize (norm_nonneg (sub (q s) (q' s))). lra. }
  unfold gap, next_p, next_q. rewrite !shift_sub, !norm_scale.
  set (E := exp (k * x)) in *. assert (E0 : 0 < E) by apply exp_pos.
  apply Rle_trans with (Rabs T * (c * E / k) + Rabs T * (L * c * E / k)).
  { apply Rplus_le_compat; apply Rmult_le_compat_l; auto. }
  apply Rmult_le_reg_r with k; auto. replace ((Rabs T * (c * E / k) + Rabs T * (L * c * E / k)) * k) with (c * E * (Rabs T * (1 + L))) by (field; lra).
  replace (c / 2 * E * k) with (c * E * (k / 2)) by field. apply Rmult_le_compat_l; [apply Rmult_le_pos; lra|]. unfold k, rate. lra.
Qed.

(** * The limit *)
Fixpoint picard (e : epoch) (T : R) (r0 v0 : vec3) (n : nat) : (R -> vec3) * (R -> vec3) :=
  match n with
  | O => (fun _ => r0, fun _ => v0)
  | S n => (next_p r0 T (snd (picard e T r0 v0 n)), next_q e v0 T (fst (picard e T r0 v0 n)))
  end.
Lemma picard_good L e T r0 v0 n : lipschitz_forces L -> T <> 0 -> room e T r0 v0 ->
  good e T r0 v0 (fst (picard e T r0 v0 n)) (snd (picard e T r0 v0 n)).
Proof.
  intros HL T0 Rm. assert (T1 := Rabs_pos T). assert (W0 := top_pos T v0). assert (P := Rmult_le_pos _ _ T1 W0).
  induction n as [|n IH].
  - cbn. split; [|split; [|split]].
    + intros x _. rewrite sub_self. auto.
    + intros x _. unfold top. lra.
    + intros x y _ _. rewrite sub_self. apply Rmult_le_pos; [lra|apply Rabs_pos].
    + intros x y _ _. rewrite sub_self. apply Rmult_le_pos; [lra|apply Rabs_pos].
  - cbn [picard fst snd]. apply good_next with L; auto.
Qed.
Definition seq_gap e T r0 v0 n m x :=
  gap (fst (picard e T r0 v0 n)) (snd (picard e T r0 v0 n)) (fst (picard e T r0 v0 m)) (snd (picard e T r0 v0 m)) x.
Lemma picard_step L e T r0 v0 n : lipschitz_forces L -> T <> 0 -> room e T r0 v0 ->
  forall x, unit_time x -> seq_gap e T r0 v0 (S n) n x <= (Rabs T * top T v0 + 2 * top T v0) * (1 / 2) ^ n * exp (rate L T * x).
Proof.
  intros HL T0 Rm. assert (T1 := Rabs_pos T). assert (W0 := top_pos T v0). assert (P := Rmult_le_pos _ _ T1 W0). assert (L0 := proj1 HL).
  induction n as [|n IH].
  - intros x Hx. assert (G := picard_good L e T r0 v0 1 HL T0 Rm). destruct G as (G1 & G2 & _).
    apply Rle_trans with (Rabs T * top T v0 + 2 * top T v0).
    + unfold seq_gap, gap. apply Rplus_le_compat; [apply (G1 x Hx)|]. cbn [picard snd] in *.
      eapply Rle_trans; [apply norm_sub_le|]. assert (Q := G2 x Hx). unfold top in *. generalize (norm_nonneg v0). lra.
    + rewrite pow_O, Rmult_1_r. set (Z := Rabs T * top T v0 + 2 * top T v0). rewrite <- (Rmult_1_r Z) at 1. apply Rmult_le_compat_l; [unfold Z; lra|].
      apply Rle_trans with (exp 0); [rewrite exp_0; lra|]. apply exp_le. apply Rmult_le_pos; [|apply Hx]. unfold rate.
      assert (0 <= Rabs T * (1 + L)) by (apply Rmult_le_pos; lra). lra.
  - intros x Hx. unfold seq_gap. cbn [picard fst snd pow].
    replace ((Rabs T * top T v0 + 2 * top T v0) * (1 / 2 * (1 / 2) ^ n)) with ((Rabs T * top T v0 + 2 * top T v0) * (1 / 2) ^ n / 2) by field.
    assert (Pn : 0 <= (1 / 2) ^ n) by (apply pow_le; lra).
    apply (contract L e T r0 v0 (fst (picard e T r0 v0 (S n))) (snd (picard e T r0 v0 (S n))) (fst (picard e T r0 v0 n)) (snd (picard e T r0 v0 n))); auto.
    + apply picard_good with L; auto. + apply picard_good with L; auto. + apply Rmult_le_pos; lra.
Qed.
Lemma gap_triangle p q p' q' p'' q'' x : gap p q p'' q'' x <= gap p q p' q' x + gap p' q' p'' q'' x.
Proof. unfold gap. assert (A := sub_triangle (p x) (p' x) (p'' x)). assert (B := sub_triangle (q x) (q' x) (q'' x)). lra. Qed.
Lemma picard_cauchy L e T r0 v0 : lipschitz_forces L -> T <> 0 -> room e T r0 v0 -> exists c, 0 <= c /\
  forall n m x, (n <= m)%nat -> unit_time x -> seq_gap e T r0 v0 m n x <= c * (1 / 2) ^ n.
Proof.
  intros HL T0 Rm. assert (T1 := Rabs_pos T). assert (W0 := top_pos T v0). assert (P := Rmult_le_pos _ _ T1 W0). assert (L0 := proj1 HL).
  assert (R0 : 0 <= rate L T). { unfold rate. assert (0 <= Rabs T * (1 + L)) by (apply Rmult_le_pos; lra). lra. }
  set (c := (Rabs T * top T v0 + 2 * top T v0) * exp (rate L T)).
  assert (C0 : 0 <= c) by (apply Rmult_le_pos; [lra|left; apply exp_pos]).
  exists (2 * c). split; [lra|]. intros n m x Hnm Hx.
  assert (Q : seq_gap e T r0 v0 m n x <= 2 * c * ((1 / 2) ^ n - (1 / 2) ^ m)).
  { induction Hnm as [|m Hnm IH].
    - unfold seq_gap, gap. rewrite !sub_self. lra.
    - unfold seq_gap in *. eapply Rle_trans; [apply gap_triangle|].
      assert (B : seq_gap e T r0 v0 (S m) m x <= c * (1 / 2) ^ m).
      { eapply Rle_trans; [apply (picard_step L); auto|]. unfold c. rewrite Rmult_assoc, (Rmult_comm _ (exp _)), <- Rmult_assoc.
        apply Rmult_le_compat_r; [apply pow_le; lra|]. apply Rmult_le_compat_l; [lra|]. apply exp_le. destruct Hx. nra. }
      eapply Rle_trans; [apply Rplus_le_compat; [exact B|exact IH]|]. cbn [pow]. lra. }
  assert (Pm : 0 <= (1 / 2) ^ m) by (apply pow_le; lra). nra.
Qed.
Lemma below_all x y c : (forall n, x <= y + c * (1 / 2) ^ n) -> x <= y.
Proof.
  intros H. apply (is_lim_seq_le (fun _ => x) (fun n => y + c * (1 / 2) ^ n) x y); auto; [apply is_lim_seq_const|].
  replace (Finite y) with (Finite (y + c * 0)) by (f_equal; ring).
  apply is_lim_seq_plus'; [apply is_lim_seq_const|]. apply (is_lim_seq_scal_l _ c 0). apply is_lim_seq_geom. rewrite Rabs_pos_eq; lra.
Qed.
Lemma cauchy_lim (u : nat -> R) c : 0 <= c -> (forall n m, (n <= m)%nat -> Rabs (u m - u n) <= c * (1 / 2) ^ n) ->
  forall n, Rabs (real (Lim_seq u) - u n) <= c * (1 / 2) ^ n.
Proof.
  intros C0 H n.
  assert (X : ex_finite_lim_seq u).
  { apply ex_lim_seq_cauchy_corr. intros eps.
    assert (G : is_lim_seq (fun n => c * (1 / 2) ^ n) 0).
    { replace 0 with (c * 0) by ring. apply (is_lim_seq_scal_l _ c 0). apply is_lim_seq_geom. rewrite Rabs_pos_eq; lra. }
    apply is_lim_seq_spec in G. assert (E2 : 0 < eps / 2) by (generalize (cond_pos eps); lra). destruct (G (mkposreal _ E2)) as (N & HN). cbn in HN.
    assert (B : c * (1 / 2) ^ N < eps / 2). { eapply Rle_lt_trans; [|apply (HN N); lia]. rewrite Rminus_0_r. apply Rle_abs. }
    exists N. intros a b Ha Hb. assert (Qa := H N a Ha). assert (Qb := H N b Hb).
    replace (u a - u b) with ((u a - u N) - (u b - u N)) by ring. eapply Rle_lt_trans; [apply Rabs_triang|]. rewrite Rabs_Ropp. lra. }
  apply Lim_seq_correct' in X. set (l := real (Lim_seq u)) in *.
  apply (is_lim_seq_le_loc (fun m => Rabs (u m - u n)) (fun _ => c * (1 / 2) ^ n) (Rabs (l - u n)) (c * (1 / 2) ^ n)).
  - exists n. intros m Hm. apply H; auto.
  - apply (is_lim_seq_abs _ (l - u n)). apply is_lim_seq_minus'; auto. apply is_lim_seq_const.
  - apply is_lim_seq_const.
Qed.
Definition lim3 (F : nat -> vec3) : vec3 :=
  V3 (real (Lim_seq (fun n => x3 (F n)))) (real (Lim_seq (fun n => y3 (F n)))) (real (Lim_seq (fun n => z3 (F n)))).
Lemma lim3_close F c : 0 <= c -> (forall n m, (n <= m)%nat -> norm (sub (F m) (F n)) <= c * (1 / 2) ^ n) ->
  forall n, norm (sub (lim3 F) (F n)) <= 3 * c * (1 / 2) ^ n.
Proof.
  intros C0 H n. eapply Rle_trans; [apply norm_sum|]. cbn [lim3 sub x3 y3 z3].
  assert (A := cauchy_lim (fun n => x3 (F n)) c C0). assert (B := cauchy_lim (fun n => y3 (F n)) c C0). assert (C := cauchy_lim (fun n => z3 (F n)) c C0).
  specialize (A (fun n m K => Rle_trans _ _ _ (abs_x_norm (sub (F m) (F n))) (H n m K)) n).
  specialize (B (fun n m K => Rle_trans _ _ _ (abs_y_norm (sub (F m) (F n))) (H n m K)) n).
  specialize (C (fun n m K => Rle_trans _ _ _ (abs_z_norm (sub (F m) (F n))) (H n m K)) n). cbn in A, B, C. lra.
Qed.
Lemma norm_zero_eq a b : norm (sub a b) <= 0 -> a = b.
Proof.
  intros H. assert (Z : norm (sub a b) = 0) by (generalize (norm_nonneg (sub a b)); lra). apply norm_zero in Z.
  destruct a, b; unfold sub, zero3 in Z; cbn in Z. injection Z as X Y W. f_equal; lra.
Qed.
Lemma fixed_point L e T r0 v0 : lipschitz_forces L -> T <> 0 -> room e T r0 v0 -> exists p q, good e T r0 v0 p q /\
  forall x, unit_time x -> p x = next_p r0 T q x /\ q x = next_q e v0 T p x.
Proof.
  intros HL T0 Rm. destruct (picard_cauchy L e T r0 v0 HL T0 Rm) as (c & C0 & HC). assert (L0 := proj1 HL). assert (T1 := Rabs_pos T).
  set (P := fun n => fst (picard e T r0 v0 n)). set (Q := fun n => snd (picard e T r0 v0 n)).
  set (p := fun x => lim3 (fun n => P n x)). set (q := fun x => lim3 (fun n => Q n x)).
  assert (Bp : forall n x, unit_time x -> norm (sub (p x) (P n x)) <= 3 * c * (1 / 2) ^ n).
  { intros n x Hx. apply (lim3_close (fun n => P n x)); auto. intros a b Hab. eapply Rle_trans; [|apply (HC a b x Hab Hx)].
    unfold seq_gap, gap. fold (P a) (P b). generalize (norm_nonneg (sub (snd (picard e T r0 v0 b) x) (snd (picard e T r0 v0 a) x))). lra. }
  assert (Bq : forall n x, unit_time x -> norm (sub (q x) (Q n x)) <= 3 * c * (1 / 2) ^ n).
  { intros n x Hx. apply (lim3_close (fun n => Q n x)); auto. intros a b Hab. eapply Rle_trans; [|apply (HC a b x Hab Hx)].
    unfold seq_gap, gap. fold (Q a) (Q b). generalize (norm_nonneg (sub (fst (picard e T r0 v0 b) x) (fst (picard e T r0 v0 a) x))). lra. }
  assert (GG : forall n, good e T r0 v0 (P n) (Q n)) by (intros; eapply picard_good; eauto).
  assert (Lim : forall (F : nat -> R -> vec3) (f : R -> vec3) k, (forall n, Lipv (F n) k) -> (forall n x, unit_time x -> norm (sub (f x) (F n x)) <= 3 * c * (1 / 2) ^ n) -> Lipv f k).
  { intros F f k HF Hf x y Hx Hy. apply (below_all _ _ (6 * c)). intros n.
    assert (A := Hf n x Hx). assert (B := Hf n y Hy). assert (C := HF n x y Hx Hy). rewrite sub_sym in B.
    assert (D := sub_triangle (f x) (F n x) (f y)). assert (E := sub_triangle (F n x) (F n y) (f y)). lra. }
  assert (G : good e T r0 v0 p q).
  { split; [|split; [|split]].
    - intros x Hx. apply (below_all _ _ (3 * c)). intros n. destruct (GG n) as (A & _). assert (X := A x Hx). assert (Y := Bp n x Hx).
      assert (D := sub_triangle (p x) (P n x) r0). lra.
    - intros x Hx. apply (below_all _ _ (3 * c)). intros n. destruct (GG n) as (_ & A & _). assert (X := A x Hx). assert (Y := Bq n x Hx).
      assert (D := norm_sub_ge (q x) (Q n x)). lra.
    - apply (Lim P); auto. intros n. apply GG.
    - apply (Lim Q); auto. intros n. apply GG. }
  exists p, q. split; auto. intros x Hx.
  assert (D : forall n, norm (sub (vint q x) (vint (Q n) x)) <= 3 * c * (1 / 2) ^ n /\
     norm (sub (vint (acc e T p) x) (vint (acc e T (P n)) x)) <= L * (3 * c * (1 / 2) ^ n)).
  { intros n. assert (Pn : 0 <= (1 / 2) ^ n) by (apply pow_le; lra). assert (X : 0 <= 3 * c * (1 / 2) ^ n) by (apply Rmult_le_pos; lra).
    assert (Sc : forall M, 0 <= M -> x * M <= M) by (intros; destruct Hx; nra). split.
    - eapply Rle_trans; [|apply Sc; exact X]. apply (integral_le_const (fun s => sub (q s) (Q n s)) x); [apply Hx| |].
      + apply integral_sub; apply vint_of; eapply good_q; eauto.
      + intros s Hs. apply Bq. destruct Hx; split; lra.
    - eapply Rle_trans; [|apply Sc; apply Rmult_le_pos; [lra|exact X]]. apply (integral_le_const (fun s => sub (acc e T p s) (acc e T (P n) s)) x); [apply Hx| |].
      + apply integral_sub; apply vint_of; eapply acc_summable; eauto.
      + intros s Hs. assert (Us : unit_time s) by (destruct Hx; split; lra). unfold acc.
        destruct (proj2 HL (point e (s * T) (p s)) (point e (s * T) (P n s))) as (_ & B).
        { apply point_flying, Rm; auto. apply G; auto. } { apply point_flying, Rm; auto. apply GG; auto. }
        eapply Rle_trans; [exact B|]. cbn [point pt_t pt_r pt_k]. rewrite !Rminus_diag_eq, Rabs_R0 by auto.
        apply Rmult_le_compat_l; [lra|]. rewrite Rplus_0_l, Rplus_0_r. apply Bp; auto. }
  split; apply norm_zero_eq.
  - apply (below_all _ _ (3 * c + Rabs T * (3 * c))). intros n. destruct (D n) as (A & _). assert (B := Bp (S n) x Hx).
    assert (E : P (S n) x = next_p r0 T (Q n) x) by reflexivity. rewrite E in B. clear E.
    assert (F := sub_triangle (p x) (next_p r0 T (Q n) x) (next_p r0 T q x)).
    rewrite sub_sym in A. assert (K : norm (sub (next_p r0 T (Q n) x) (next_p r0 T q x)) <= Rabs T * (3 * c * (1 / 2) ^ n)).
    { unfold next_p. rewrite shift_sub, norm_scale. apply Rmult_le_compat_l; auto. }
    cbn [pow] in B. assert (Pn : 0 <= c * (1 / 2) ^ n) by (apply Rmult_le_pos; auto; apply pow_le; lra). lra.
  - apply (below_all _ _ (3 * c + Rabs T * (L * (3 * c)))). intros n. destruct (D n) as (_ & A). assert (B := Bq (S n) x Hx).
    assert (E : Q (S n) x = next_q e v0 T (P n) x) by reflexivity. rewrite E in B. clear E.
    assert (F := sub_triangle (q x) (next_q e v0 T (P n) x) (next_q e v0 T p x)).
    rewrite sub_sym in A. assert (K : norm (sub (next_q e v0 T (P n) x) (next_q e v0 T p x)) <= Rabs T * (L * (3 * c * (1 / 2) ^ n))).
    { unfold next_q. rewrite shift_sub, norm_scale. apply Rmult_le_compat_l; auto. }
    cbn [pow] in B. assert (Pn : 0 <= c * (1 / 2) ^ n) by (apply Rmult_le_pos; auto; apply pow_le; lra). lra.
Qed.

(** * The motion in seconds *)
Lemma stretch_RInt (f : R -> R) T x w : T <> 0 -> is_RInt f 0 x w -> is_RInt (fun s => f (s / T)) 0 (x * T) (T * w).
Proof.
  intros T0 I. assert (J : is_RInt (fun s => T * f s) (/ T * 0 + 0) (/ T * (x * T) + 0) (T * w)).
  { replace (/ T * 0 + 0) with 0 by ring. replace (/ T * (x * T) + 0) with x by (field; auto). apply (is_RInt_scal f); auto. }
  apply is_RInt_comp_lin in J. revert J. apply is_RInt_ext. intros s _. unfold scal; cbn; unfold mult; cbn.
  replace (/ T * s + 0) with (s / T) by (unfold Rdiv; ring). field; auto.
Qed.
Lemma stretch_integral f T x w : T <> 0 -> integral_of f x w -> integral_of (fun s => f (s / T)) (x * T) (scale T w).
Proof.
  intros T0 (A & B & C). split; [|split]; cbn [scale x3 y3 z3];
  [apply (stretch_RInt (fun s => x3 (f s)))|apply (stretch_RInt (fun s => y3 (f s)))|apply (stretch_RInt (fun s => z3 (f s)))]; auto.
Qed.
Lemma motion_exists s T : clear_around s T (reach (norm (g_velocity s)) 0.05 T) -> exists r v, r 0 = g_position s /\ v 0 = g_velocity s /\
  natural_motion (g_epoch s) T r v /\ forall t, during T t -> norm (sub (r t) (g_position s)) <= reach (norm (g_velocity s)) 0.05 T.
Proof.
  intros Cl. set (r0 := g_position s) in *. set (v0 := g_velocity s) in *. set (e := g_epoch s) in *.
  assert (ER : reach (norm v0) 0.05 T = Rabs T * top T v0) by reflexivity.
  assert (R0 : 0 <= Rabs T * top T v0) by (apply Rmult_le_pos; [apply Rabs_pos|apply top_pos]).
  destruct (Req_dec T 0) as [Z|T0].
  - exists (fun _ => r0), (fun _ => v0). split; auto. split; auto. split.
    + exists (fun t => total_acc (point e t r0)). intros t Ht.
      assert (F : flyable (later e t) r0). { apply (Cl t r0 Ht). fold r0. rewrite sub_self, ER. auto. }
      assert (t = 0). { destruct Ht as (x & _ & ->). rewrite Z. ring. } subst t. split; [apply point_derivative; auto|].
      split; (split; [|split]); cbn [sub x3 y3 z3]; rewrite Rminus_diag_eq by auto; apply (is_RInt_point (V := R_NormedModule)).
    + intros t _. rewrite sub_self, ER. auto.
  - destruct forces as (L & HL).
    assert (Rm : room e T r0 v0). { intros x y Hx Hy. apply (Cl (x * T) y); [exists x; auto|]. fold r0. rewrite ER. auto. }
    destruct (fixed_point L e T r0 v0 HL T0 Rm) as (p & q & G & FP).
    assert (U0 : unit_time 0) by (unfold unit_time; lra).
    assert (P0 : p (0 / T) = r0). { replace (0 / T) with 0 by (field; auto). rewrite (proj1 (FP 0 U0)). unfold next_p. rewrite vint_zero. unfold add, scale, zero3; destruct r0; cbn; f_equal; ring. }
    assert (Q0 : q (0 / T) = v0). { replace (0 / T) with 0 by (field; auto). rewrite (proj2 (FP 0 U0)). unfold next_q. rewrite vint_zero. unfold add, scale, zero3; destruct v0; cbn; f_equal; ring. }
    exists (fun t => p (t / T)), (fun t => q (t / T)). split; auto. split; auto. split.
    + exists (fun t => acc e T p (t / T)). intros t (x & Hx & ->). rewrite P0, Q0.
      replace (x * T / T) with x by (field; auto). split; [|split].
      * apply point_derivative. apply Rm; auto. apply G; auto.
      * rewrite (proj1 (FP x Hx)). unfold next_p. rewrite sub_add. apply (stretch_integral q); auto. apply vint_of. eapply good_q; eauto.
      * rewrite (proj2 (FP x Hx)). unfold next_q. rewrite sub_add. apply (stretch_integral (acc e T p)); auto. apply vint_of. eapply acc_summable; eauto.
    + intros t (x & Hx & ->). replace (x * T / T) with x by (field; auto). rewrite ER. apply G; auto.
Qed.

(** * Existence with a margin *)
Lemma motion_margin s T D : 0 <= D -> clear_around s T (reach (norm (g_velocity s)) 0.05 T + D) -> exists r v, r 0 = g_position s /\ v 0 = g_velocity s /\
  natural_motion (g_epoch s) T r v /\ clear_along (g_epoch s) T r D.
Proof.
  intros D0 C. destruct (motion_exists s T) as (r & v & R0 & V0 & N & B).
  { intros t x Ht Hx. apply (C t x Ht). lra. }
  exists r, v. split; auto. split; auto. split; auto. intros t x Ht Hx. apply (C t x Ht).
  assert (A := sub_triangle x (r t) (g_position s)). assert (Q := B t Ht). lra.
Qed.
Lemma geo_margin : clear_around (rk_state geo) 600 (reach (norm (g_velocity (rk_state geo))) 0.05 600 + 1000).
Proof.
  assert (P : Rabs 600 = 600) by (apply Rabs_pos_eq; lra).
  assert (R : reach (norm (g_velocity (rk_state geo))) 0.05 600 <= 24000).
  { unfold geo, reach. cbn [set_step_size RK4 gcrf_copy GCRF rk_state g_velocity]. rewrite norm_y, P by lra. lra. }
  set (D := reach (norm (g_velocity (rk_state geo))) 0.05 600) in *. clearbody D.
  apply clear_check; unfold geo in *; cbn [set_step_size RK4 gcrf_copy GCRF rk_state g_epoch g_position x3 y3] in *; rewrite ?norm_x by lra; unfold j2000; cbn [value].
  - rewrite Rminus_eq_0, Rabs_R0. lra.
  - lra.
  - lra.
  - replace (42164 * 42164 + 0 * 0) with (42164 * 42164) by ring. rewrite sqrt_square by lra. lra.
Qed.
Lemma unique_motion e T r v r' v' D : 0 < D -> natural_motion e T r v -> natural_motion e T r' v' ->
  clear_along e T r D -> clear_along e T r' D -> r 0 = r' 0 -> v 0 = v' 0 -> forall t, during T t -> r t = r' t /\ v t = v' t.
Proof.
  intros D0 N N' C C' R0 V0 t Ht. destruct stability as (K & K0 & H).
  assert (Z : separation (r 0) (v 0) (r' 0) (v' 0) = 0) by (rewrite R0, V0; apply separation_self).
  assert (B := H e T r v r' v' D D0 N N' C C'). cbv zeta in B. rewrite Z, !Rmult_0_r in B. specialize (B D0 t Ht). rewrite Rmult_0_r in B.
  unfold separation in B. assert (X := norm_nonneg (sub (r t) (r' t))). assert (Y := norm_nonneg (sub (v t) (v' t))).
  split; apply norm_zero_eq; lra.
Qed.
