(** Newton's iteration for Kepler's equation survives rounding. *)
From Coq Require Import Reals Lra Psatz Lia Bool.
From Flocq Require Import Core.
From Verif.Model Require Import Num Functions TimeFloat AngleFloat ElementsFloat KeplerFloat.
From Verif.Spec Require Import LibmAccuracy.
From Verif.Proofs Require Import PiDigits NumLemmas Analysis FunctionsProofs KeplerProofs TimeFloatProofs AngleFloatProofs ElementsFloatProofs.
Local Open Scope R_scope.

(** * An iteration that follows Newton's up to a small error *)

Definition good (ma e x : R) : Prop := Rabs (ma - x) <= 1.2 /\ Rabs (newton ma e x - x) <= 3.
Definition follows (F : R -> R) (ma e : R) : Prop :=
  forall x, good ma e x -> Rabs (F x - newton ma e x) <= 2.5e-15 / (1 - e * cos x) + 1.7e-15.
Inductive settles (F : R -> R) (ma e : R) : R -> Prop :=
| settle_now x : good ma e x -> Rabs (F x - x) <= 9e-13 -> settles F ma e x
| settle_next x : good ma e x -> settles F ma e (F x) -> settles F ma e x.

Lemma newton_gap e s x : 0 <= e < 1 -> (newton (kf e s) e x - x) * (1 - e * cos x) = kf e s - kf e x.
Proof. intros He. assert (D := one_minus_e_cos e x He). unfold newton, kf. field. lra. Qed.

Lemma newton_quad e s x : 0 <= e < 1 -> Rabs (newton (kf e s) e x - s) * (1 - e * cos x) <= (x - s) * (x - s) / 2.
Proof.
  intros He. assert (D := one_minus_e_cos e x He). assert (G := newton_gap e s x He).
  assert (T := sin_taylor1 x (s - x)). replace (x + (s - x)) with s in T by ring.
  assert (E : (newton (kf e s) e x - s) * (1 - e * cos x) = - e * (sin s - sin x - (s - x) * cos x)).
  { replace ((newton (kf e s) e x - s) * (1 - e * cos x)) with ((newton (kf e s) e x - x) * (1 - e * cos x) + (x - s) * (1 - e * cos x)) by ring.
    rewrite G. unfold kf. ring. }
  rewrite <- (Rabs_pos_eq (1 - e * cos x)) at 1 by lra. rewrite <- Rabs_mult, E, Rabs_mult, Rabs_Ropp, (Rabs_pos_eq e) by lra.
  assert (P := Rabs_pos (sin s - sin x - (s - x) * cos x)).
  replace ((x - s) * (x - s)) with ((s - x) * (s - x)) by ring. set (a := Rabs _) in *. set (b := (s - x) * (s - x) / 2) in *. nra.
Qed.

Lemma den_range e x : 0 <= e <= 0.99 -> 0.01 <= 1 - e <= 1 /\ 1 - e <= 1 - e * cos x <= 2.
Proof. intros He. assert (B := COS_bound x). split; [lra|]. split; nra. Qed.

Lemma follow_error F ma e x : 0 <= e <= 0.99 -> follows F ma e -> good ma e x -> Rabs (F x - newton ma e x) <= 2.52e-13.
Proof.
  intros He HF HG. eapply Rle_trans; [apply HF; auto|]. destruct (den_range e x He) as [A B].
  assert (2.5e-15 / (1 - e * cos x) <= 2.5e-13) by (apply div_le; nra). lra.
Qed.

Lemma div_plus_distr a b g : (a + b) / g = a / g + b / g.
Proof. unfold Rdiv. ring. Qed.

(** wherever the iteration stops, it is near the solution *)
Lemma stop_error F e s x : 0 <= e <= 0.99 -> follows F (kf e s) e -> good (kf e s) e x -> Rabs (F x - x) <= 1.1e-12 ->
  Rabs (F x - s) <= 4.3e-15 / (1 - e).
Proof.
  intros He HF HG HS. assert (E1 := follow_error F _ e x He HF HG). assert (E2 := HF x HG).
  destruct (den_range e x He) as [[G0 G1] [D0 D1]].
  assert (He1 : 0 <= e <= 1) by lra. assert (He2 : 0 <= e < 1) by lra.
  assert (X := kf_expand e x s He1). assert (W := newton_quad e s x He2). assert (NG := newton_gap e s x He2).
  set (N := newton (kf e s) e x) in *. set (d := 1 - e * cos x) in *. set (g := 1 - e) in *.
  assert (Q : Rabs (N - x) <= 1.4e-12).
  { replace (N - x) with (- (F x - N) + (F x - x)) by ring. eapply Rle_trans; [apply Rabs_triang|]. rewrite Rabs_Ropp. lra. }
  assert (K : Rabs (kf e x - kf e s) = Rabs (N - x) * d).
  { rewrite <- (Rabs_pos_eq d) by lra. rewrite <- Rabs_mult, NG. apply Rabs_minus_sym. }
  rewrite K in X.
  assert (SQ : (x - s) * (x - s) = Rabs (x - s) * Rabs (x - s)) by (rewrite <- Rabs_mult; symmetry; apply Rabs_pos_eq; exact (Rle_0_sqr (x - s))).
  rewrite SQ in W. assert (U0 := Rabs_pos (x - s)). assert (W0 := Rabs_pos (N - s)). assert (Q0 := Rabs_pos (N - x)).
  assert (T : Rabs (F x - s) <= 2.5e-15 / d + 1.7e-15 + Rabs (N - s)).
  { replace (F x - s) with ((F x - N) + (N - s)) by ring. eapply Rle_trans; [apply Rabs_triang|]. lra. }
  set (u := Rabs (x - s)) in *. set (w := Rabs (N - s)) in *. set (q := Rabs (N - x)) in *.
  eapply Rle_trans; [exact T|].
  assert (A1 : 2.5e-15 / d <= 2.5e-15 / g).
  { apply Rmult_le_compat_l; [lra|]. apply Rinv_le_contravar; lra. }
  assert (A2 : w <= 2e-22 / g).
  { apply le_div; [lra|].
    assert (V : g * u <= 1.4e-12 * d) by (clear - X Q Q0 D0 D1 G0; nra).
    assert (V6 : u <= 2.8e-10) by (clear - V G0 U0 D1; nra).
    assert (V7 : w * d * g <= u * (g * u) / 2) by (clear - W G0; nra).
    assert (V8 : u * (g * u) <= 2.8e-10 * (1.4e-12 * d)) by (apply Rmult_le_compat; auto; clear - U0 G0; nra).
    apply Rmult_le_reg_r with d; [lra|]. lra. }
  assert (A3 : 1.7e-15 <= 1.7e-15 / g) by (apply le_div; lra).
  replace 4.3e-15 with (2.5e-15 + 1.7e-15 + 1e-16) by lra. rewrite !div_plus_distr.
  assert (A4 : 2e-22 / g <= 1e-16 / g) by (apply Rmult_le_compat_r; [left; apply Rinv_0_lt_compat|]; lra). lra.
Qed.

(** * Root in the first part: monotone from the right *)
Lemma settle_below F e s x : 0 <= e <= 0.99 -> follows F (kf e s) e -> Rabs (x - s) <= 2.52e-13 -> Rabs (kf e s - x) <= 1.2 ->
  settles F (kf e s) e x.
Proof.
  intros He HF HX HM. destruct (den_range e x He) as [[G0 G1] [D0 D1]].
  assert (He2 : 0 <= e < 1) by lra. assert (W := newton_quad e s x He2).
  assert (SQ : (x - s) * (x - s) = Rabs (x - s) * Rabs (x - s)) by (rewrite <- Rabs_mult; symmetry; apply Rabs_pos_eq; exact (Rle_0_sqr (x - s))).
  rewrite SQ in W. assert (U0 := Rabs_pos (x - s)). assert (W0 := Rabs_pos (newton (kf e s) e x - s)).
  assert (w : Rabs (newton (kf e s) e x - s) <= 1e-20).
  { assert (Rabs (x - s) * Rabs (x - s) <= 2.52e-13 * 2.52e-13) by (apply Rmult_le_compat; auto).
    apply Rmult_le_reg_r with (1 - e * cos x); [lra|]. eapply Rle_trans; [exact W|]. lra. }
  assert (Q : Rabs (newton (kf e s) e x - x) <= 2.53e-13).
  { replace (newton (kf e s) e x - x) with ((newton (kf e s) e x - s) + - (x - s)) by ring.
    eapply Rle_trans; [apply Rabs_triang|]. rewrite Rabs_Ropp. lra. }
  assert (G : good (kf e s) e x) by (split; lra).
  apply settle_now; auto. assert (E1 := follow_error F _ e x He HF G).
  replace (F x - x) with ((F x - newton (kf e s) e x) + (newton (kf e s) e x - x)) by ring.
  eapply Rle_trans; [apply Rabs_triang|]. lra.
Qed.

Lemma settle_right F e s : 0 <= e <= 0.99 -> follows F (kf e s) e -> 0 <= s <= 1.68 ->
  forall n x, s - 2.52e-13 <= x <= kf e s + e + 1e-15 -> x - s < INR n * 9e-13 -> settles F (kf e s) e x.
Proof.
  intros He HF Hs. assert (PI2 := PI_bounds).
  assert (S0 : 0 <= sin s <= 1) by (split; [apply sin_ge_0; lra|apply SIN_bound]).
  assert (M0 : kf e s <= s /\ s - kf e s <= e) by (unfold kf; split; nra).
  induction n as [|n IH]; intros x Hx Hn.
  { simpl in Hn. apply settle_below; auto; apply Rabs_le; lra. }
  destruct (Rlt_le_dec x s) as [L|L]. { apply settle_below; auto; apply Rabs_le; lra. }
  assert (He2 : 0 <= e < 1) by lra.
  assert (NG := newton_gap e s x He2).
  destruct (den_range e x He) as [[G0 G1] [D0 D1]].
  assert (C := convex_tangent e s x He2 ltac:(lra) ltac:(lra)).
  assert (MM := kf_mono_le e s x ltac:(lra) ltac:(lra)).
  assert (N1 : newton (kf e s) e x <= x) by (clear - NG MM D0 G0; nra).
  assert (N2 : s <= newton (kf e s) e x) by (clear - NG C D0 G0; nra).
  assert (G : good (kf e s) e x) by (split; apply Rabs_le; lra).
  assert (E1 := follow_error F _ e x He HF G). apply Rabs_le_inv in E1.
  destruct (Rle_dec (Rabs (F x - x)) 9e-13) as [T|T]; [apply settle_now; auto|].
  apply settle_next; auto.
  assert (F x < x - 9e-13).
  { destruct (Rle_lt_dec (x - 9e-13) (F x)); [|auto]. exfalso. apply T. apply Rabs_le. lra. }
  rewrite S_INR in Hn. apply IH; lra.
Qed.

(** * Root in the middle part: contraction *)
Lemma settle_middle F e s : 0 <= e <= 0.99 -> follows F (kf e s) e -> PI / 2 + 0.1 <= s <= PI + 0.01 ->
  forall n D x, 0 <= D -> 0.99 ^ n * D <= 1e-14 -> Rabs (x - s) <= e * (1 - sin s) + 1e-12 -> Rabs (x - s) <= D + 4.2e-13 ->
  settles F (kf e s) e x.
Proof.
  intros He HF Hs. assert (PB := PI_bounds).
  assert (S1 : 1 - (s - PI / 2) * (s - PI / 2) / 2 <= sin s).
  { rewrite <- (cos_shift s). replace (PI / 2 - s) with (- (s - PI / 2)) by ring. rewrite cos_neg. apply cos_lower. }
  assert (S2 : -0.01 <= sin s <= 1).
  { split; [|apply SIN_bound]. destruct (Rle_dec s PI) as [L|L]. { assert (0 <= sin s) by (apply sin_ge_0; lra). lra. }
    assert (Z := sin_lip s PI). rewrite sin_PI, Rminus_0_r, (Rabs_pos_eq (s - PI)) in Z by lra. apply Rabs_le_inv in Z. lra. }
  set (r := e * (1 - sin s) + 1e-12).
  assert (R1 : r <= s - PI / 2).
  { unfold r. assert (e * (1 - sin s) <= 1 - sin s) by nra. set (t := s - PI / 2) in *. assert (0.1 <= t <= 1.6) by (unfold t; lra).
    assert (t * t / 2 <= 0.8 * t) by nra. lra. }
  assert (R2 : 1e-12 <= r <= 1.01) by (unfold r; split; nra).
  assert (R3 : r <= 3 * (PI / 2) - s) by lra.
  assert (KM : kf e s = s - e * sin s) by reflexivity.
  assert (R4 : r + e * sin s <= 1) by (unfold r; lra).
  assert (R5 : r - e * sin s <= 1.1) by nra.
  assert (He2 : 0 <= e < 1) by lra.
  assert (STEP : forall x, Rabs (x - s) <= r -> good (kf e s) e x /\ Rabs (F x - s) <= e * Rabs (x - s) + 4.2e-15).
  { intros x Hx. assert (B := Rabs_le_inv _ _ Hx).
    assert (C := newton_contract e s x He2 ltac:(lra) ltac:(lra)).
    assert (G : good (kf e s) e x).
    { split.
      - apply Rabs_le. lra.
      - replace (newton (kf e s) e x - x) with ((newton (kf e s) e x - s) + - (x - s)) by ring.
        eapply Rle_trans; [apply Rabs_triang|]. rewrite Rabs_Ropp. assert (P := Rabs_pos (x - s)). nra. }
    split; auto. assert (E2 := HF x G). assert (CX : cos x <= 0) by (apply cos_neg_mid; lra).
    assert (2.5e-15 / (1 - e * cos x) <= 2.5e-15) by (apply div_le; nra).
    replace (F x - s) with ((F x - newton (kf e s) e x) + (newton (kf e s) e x - s)) by ring.
    eapply Rle_trans; [apply Rabs_triang|]. lra. }
  induction n as [|n IH]; intros D x HD Hn Hr Hx; destruct (STEP x Hr) as [G C]; assert (P := Rabs_pos (x - s)).
  - simpl in Hn. apply settle_now; auto.
    replace (F x - x) with ((F x - s) + - (x - s)) by ring. eapply Rle_trans; [apply Rabs_triang|]. rewrite Rabs_Ropp.
    clear - Hn Hx C P He. nra.
  - apply settle_next; auto. apply (IH (0.99 * D)).
    + lra.
    + simpl in Hn. lra.
    + fold r. clear - C Hr R2 He P. fold r in Hr. nra.
    + clear - C Hx He P HD. nra.
Qed.

Lemma enough_steps x eps : 0 < eps -> exists n, x < INR n * eps.
Proof.
  intros H. destruct (archimed (Rabs x / eps)) as [A _]. exists (Z.to_nat (up (Rabs x / eps))).
  assert (P := Rabs_pos x). assert (Q : 0 <= Rabs x / eps) by (apply Rdiv_nonneg; auto).
  rewrite INR_IZR_INZ, Z2Nat.id by (apply le_IZR; lra).
  apply Rle_lt_trans with (Rabs x / eps * eps); [|apply Rmult_lt_compat_r; auto].
  replace (Rabs x / eps * eps) with (Rabs x) by (field; lra). apply Rle_abs.
Qed.
Lemma settle_half F ma e x0 : 0 <= e <= 0.99 -> 0 <= ma <= PI + 0.01 -> follows F ma e -> Rabs (x0 - (ma + e)) <= 1e-15 ->
  exists s, kf e s = ma /\ settles F ma e x0.
Proof.
  intros He Hm HF H0. apply Rabs_le_inv in H0. assert (PB := PI_bounds).
  assert (He1 : 0 <= e <= 1) by lra. assert (He2 : 0 <= e < 1) by lra.
  destruct (kf_solution e ma He1) as [s Es]. exists s. split; auto. rewrite <- Es in *.
  assert (S0 : 0 <= s).
  { destruct (Rle_lt_dec 0 s) as [A|A]; auto. exfalso. assert (Z := kf_expand e s 0 He1). assert (Y := kf_mono_le e s 0 He1 ltac:(lra)).
    replace (kf e 0) with 0 in * by (unfold kf; rewrite sin_0; ring). rewrite !Rminus_0_r in Z. rewrite (Rabs_left s), (Rabs_left1 (kf e s)) in Z by lra. nra. }
  assert (S1 : s <= PI + 0.01).
  { destruct (Rle_lt_dec s (PI + 0.01)) as [A|A]; auto. exfalso. assert (Z := kf_expand e s (PI + 0.01) He1). assert (Y := kf_mono_le e (PI + 0.01) s He1 ltac:(lra)).
    assert (V : PI + 0.01 <= kf e (PI + 0.01)).
    { unfold kf. assert (sin (PI + 0.01) <= 0) by (apply sin_le_0; lra). nra. }
    rewrite !Rabs_pos_eq in Z by lra. nra. }
  assert (B := SIN_bound s). assert (EX : kf e s + e - s = e * (1 - sin s)) by (unfold kf; ring).
  assert (P : 0 <= e * (1 - sin s) <= 1.98) by nra.
  destruct (Rle_lt_dec s 1.68) as [A|A].
  - destruct (enough_steps (x0 - s) 9e-13 ltac:(lra)) as [n Hn]. apply settle_right with n; auto.
    lra.
  - destruct (pow_lt_1_zero 0.99 ltac:(rewrite Rabs_pos_eq; lra) 1e-15 ltac:(lra)) as [n Hn].
    specialize (Hn n (le_n n)). rewrite Rabs_pos_eq in Hn by (apply pow_le; lra).
    apply settle_middle with n 2; auto; try lra.
    + apply Rabs_le. lra.
    + apply Rabs_le. lra.
Qed.

(** * Reflections *)
Lemma cos_turn c x : c = 0 \/ c = 2 * PI -> cos (c - x) = cos x.
Proof. intros [->| ->]. { unfold Rminus. rewrite Rplus_0_l. apply cos_neg. } rewrite cos_minus, cos_2PI, sin_2PI. ring. Qed.
Lemma sin_turn c x : c = 0 \/ c = 2 * PI -> sin (c - x) = - sin x.
Proof. intros [->| ->]. { unfold Rminus. rewrite Rplus_0_l. apply sin_neg. } rewrite sin_minus, cos_2PI, sin_2PI. ring. Qed.
Lemma newton_mirror c ma e x : 0 <= e < 1 -> c = 0 \/ c = 2 * PI -> newton (c - ma) e (c - x) = c - newton ma e x.
Proof.
  intros He Hc. assert (D := one_minus_e_cos e x He). unfold newton. rewrite sin_turn, cos_turn by auto. field. lra.
Qed.
Lemma kf_mirror c e s : c = 0 \/ c = 2 * PI -> kf e (c - s) = c - kf e s.
Proof. intros Hc. unfold kf. rewrite sin_turn by auto. ring. Qed.
Lemma good_mirror c ma e x : 0 <= e < 1 -> c = 0 \/ c = 2 * PI -> good (c - ma) e (c - x) <-> good ma e x.
Proof.
  intros He Hc. unfold good. rewrite newton_mirror by auto.
  replace (c - ma - (c - x)) with (- (ma - x)) by ring. replace (c - newton ma e x - (c - x)) with (- (newton ma e x - x)) by ring.
  rewrite !Rabs_Ropp. tauto.
Qed.
Lemma follows_mirror c F ma e : 0 <= e < 1 -> c = 0 \/ c = 2 * PI -> follows F ma e -> follows (fun x => c - F (c - x)) (c - ma) e.
Proof.
  intros He Hc HF x G. assert (G' : good ma e (c - x)).
  { apply (good_mirror c); auto. replace (c - (c - x)) with x by ring. auto. }
  assert (H := HF _ G'). rewrite cos_turn in H by auto.
  assert (N := newton_mirror c ma e (c - x) He Hc). replace (c - (c - x)) with x in N by ring. rewrite N.
  replace (c - F (c - x) - (c - newton ma e (c - x))) with (- (F (c - x) - newton ma e (c - x))) by ring.
  rewrite Rabs_Ropp. auto.
Qed.
Lemma settles_mirror c F ma e x : 0 <= e < 1 -> c = 0 \/ c = 2 * PI -> settles (fun x => c - F (c - x)) (c - ma) e x -> settles F ma e (c - x).
Proof.
  intros He Hc H. induction H as [x G S|x G S IH].
  - apply settle_now. { apply (good_mirror c); auto. replace (c - (c - x)) with x by ring. auto. }
    replace (F (c - x) - (c - x)) with (- (c - F (c - x) - x)) by ring. rewrite Rabs_Ropp. auto.
  - apply settle_next. { apply (good_mirror c); auto. replace (c - (c - x)) with x by ring. auto. }
    replace (c - (c - F (c - x))) with (F (c - x)) in IH by ring. auto.
Qed.
Lemma settle_mirror c F ma e x0 : 0 <= e <= 0.99 -> c = 0 \/ c = 2 * PI -> 0 <= c - ma <= PI + 0.01 -> follows F ma e -> Rabs (x0 - (ma - e)) <= 1e-15 ->
  exists s, kf e s = ma /\ settles F ma e x0.
Proof.
  intros He Hc Hm HF H0. assert (He2 : 0 <= e < 1) by lra.
  destruct (settle_half (fun x => c - F (c - x)) (c - ma) e (c - x0) He Hm) as (s & Es & S).
  - apply follows_mirror; auto.
  - replace (c - x0 - (c - ma + e)) with (- (x0 - (ma - e))) by ring. rewrite Rabs_Ropp. auto.
  - exists (c - s). split. { rewrite kf_mirror, Es by auto. ring. }
    apply settles_mirror in S; auto. replace (c - (c - x0)) with x0 in S by ring. auto.
Qed.

(** * One rounded iteration *)
Definition kstep (L : libm) (ma e x : R) : R :=
  b64 (x + b64 (b64 (b64 (ma - x) + b64 (e * sinf L x)) / b64 (1 - b64 (e * cosf L x)))).

Lemma b64_within x B : Rabs x <= B -> x - (1.12e-16 * B + 1e-60) <= b64 x <= x + (1.12e-16 * B + 1e-60).
Proof. intros H. apply abs_split. assert (F := b64_fine x). lra. Qed.
Lemma e_trig e t t' : 0 <= e <= 0.99 -> -1 <= t <= 1 -> Rabs (t' - t) <= 2.3e-16 -> e * t - 3.5e-16 <= b64 (e * t') <= e * t + 3.5e-16.
Proof.
  intros He Ht H. apply Rabs_le_inv in H.
  assert (A : e * t - 2.3e-16 <= e * t' <= e * t + 2.3e-16) by nra.
  assert (B := b64_within (e * t') 1 ltac:(apply Rabs_le; nra)). lra.
Qed.
Lemma step_den L e x : accurate_trig L -> 0 <= e <= 0.99 -> Rabs x <= 8 ->
  Rabs (b64 (1 - b64 (e * cosf L x)) - (1 - e * cos x)) <= 5.8e-16.
Proof.
  intros HL He Hx. destruct (HL x Hx) as [_ HC]. assert (T := e_trig e _ _ He (COS_bound x) HC).
  assert (B := COS_bound x). assert (-1 <= e * cos x <= 1) by nra.
  set (c := b64 (e * cosf L x)) in *.
  assert (Q := b64_within (1 - c) 2.01 ltac:(apply Rabs_le; lra)). apply Rabs_le. lra.
Qed.
Lemma step_num L ma e x : accurate_trig L -> 0 <= e <= 0.99 -> Rabs x <= 8 -> Rabs (ma - x) <= 1.2 ->
  Rabs (b64 (b64 (ma - x) + b64 (e * sinf L x)) - (ma - x + e * sin x)) <= 7.4e-16.
Proof.
  intros HL He Hx Hm. destruct (HL x Hx) as [HS _]. assert (T := e_trig e _ _ He (SIN_bound x) HS).
  assert (B := SIN_bound x). assert (-1 <= e * sin x <= 1) by nra.
  assert (A := b64_within (ma - x) 1.2 Hm). apply Rabs_le_inv in Hm.
  set (a := b64 (ma - x)) in *. set (c := b64 (e * sinf L x)) in *.
  assert (Q := b64_within (a + c) 2.21 ltac:(apply Rabs_le; lra)). apply Rabs_le. lra.
Qed.

Lemma step_follows L ma e : accurate_trig L -> 0 <= e <= 0.99 -> Rabs ma <= 6.4 -> follows (kstep L ma e) ma e.
Proof.
  intros HL He Hm x [G1 G2]. assert (Hx : Rabs x <= 7.6).
  { replace x with (ma + - (ma - x)) by ring. eapply Rle_trans; [apply Rabs_triang|]. rewrite Rabs_Ropp. lra. }
  assert (D := step_den L e x HL He ltac:(lra)). assert (N := step_num L ma e x HL He ltac:(lra) G1).
  destruct (den_range e x He) as [[g0 g1] [D0 D1]].
  unfold kstep. set (d' := b64 (1 - b64 (e * cosf L x))) in *. set (n' := b64 (b64 (ma - x) + b64 (e * sinf L x))) in *.
  set (d := 1 - e * cos x) in *. set (n := ma - x + e * sin x) in *.
  assert (EN : newton ma e x = x + n / d) by reflexivity. rewrite EN in *.
  replace (x + n / d - x) with (n / d) in G2 by ring. set (q := n / d) in *.
  assert (Eq : n = q * d) by (unfold q; field; lra).
  assert (D' := Rabs_le_inv _ _ D). assert (P : 0.999 * d <= d') by lra. assert (P0 : 0 < d') by lra.
  assert (R : Rabs (n' / d' - q) <= 2.49e-15 / d).
  { replace (n' / d' - q) with (((n' - n) - q * (d' - d)) / d') by (rewrite Eq; field; lra).
    unfold Rdiv at 1. rewrite Rabs_mult, Rabs_inv, (Rabs_pos_eq d') by lra.
    apply (div_le (Rabs (n' - n - q * (d' - d))) (2.49e-15 / d) d'); [lra|].
    apply Rle_trans with 2.485e-15.
    - unfold Rminus at 1. eapply Rle_trans; [apply Rabs_triang|]. rewrite Rabs_Ropp, Rabs_mult.
      assert (Rabs q * Rabs (d' - d) <= 3 * 5.8e-16) by (apply Rmult_le_compat; auto using Rabs_pos). lra.
    - apply Rmult_le_reg_r with d; [lra|]. replace (2.49e-15 / d * d' * d) with (2.49e-15 * d') by (generalize 2.49e-15; intros; field; lra). lra. }
  assert (R0 : 2.49e-15 / d <= 2.49e-13) by (apply div_le; lra).
  assert (Q1 : Rabs (n' / d') <= 3.001).
  { replace (n' / d') with ((n' / d' - q) + q) by ring. eapply Rle_trans; [apply Rabs_triang|]. lra. }
  assert (B1 := b64_within _ _ Q1). set (q' := b64 (n' / d')) in *.
  apply Rabs_le_inv in R. apply Rabs_le_inv in G2. apply Rabs_le_inv in Hx.
  assert (B2 := b64_within (x + q') 10.7 ltac:(apply Rabs_le; lra)).
  assert (R1 : 2.49e-15 / d <= 2.5e-15 / d) by (apply Rmult_le_compat_r; [left; apply Rinv_0_lt_compat|]; lra).
  apply Rabs_le. lra.
Qed.

Lemma next_value L ma e x : accurate_trig L -> 0 <= e <= 0.99 -> Rabs ma <= 6.4 -> good ma e x -> EA_next_b64 L ma e x = Ok (kstep L ma e x).
Proof.
  intros HL He Hm [G _]. assert (Hx : Rabs x <= 8).
  { replace x with (ma + - (ma - x)) by ring. eapply Rle_trans; [apply Rabs_triang|]. rewrite Rabs_Ropp. lra. }
  assert (D := Rabs_le_inv _ _ (step_den L e x HL He Hx)). destruct (den_range e x He) as [[g0 g1] [D0 D1]].
  unfold EA_next_b64, pdiv_b64. rewrite pdiv_ok by lra. reflexivity.
Qed.

Lemma loop_settles L ma e x s : accurate_trig L -> 0 <= e <= 0.99 -> Rabs ma <= 6.4 -> kf e s = ma -> settles (kstep L ma e) ma e x ->
  exists n r, EA_loop_b64 L n ma e x = Ok r /\ Rabs (r - s) <= 4.3e-15 / (1 - e).
Proof.
  intros HL He Hm Es H. assert (HF := step_follows L ma e HL He Hm).
  assert (T0 := b64_within 1e-12 1e-12 ltac:(apply Rabs_le; lra)).
  assert (ST : forall x, good ma e x -> Rabs (kstep L ma e x - x) <= 1.1e-12 -> Rabs (kstep L ma e x - s) <= 4.3e-15 / (1 - e)).
  { intros y G. rewrite <- Es in *. apply stop_error; auto. }
  induction H as [x G S|x G S IH].
  - exists 1%nat, (kstep L ma e x). split; [|apply ST; auto; lra]. cbn [EA_loop_b64]. rewrite next_value by auto. cbn [bind].
    destruct (nlt_spec (nabs (b64 (kstep L ma e x - x))) EA_TOLERANCE_b64) as [T|T]; auto. exfalso. apply T. clear T.
    unfold EA_TOLERANCE_b64, nabs. assert (B := b64_within _ _ S). apply Rabs_le_inv in S.
    apply Rle_lt_trans with 9.01e-13; [|lra]. apply Rabs_le. lra.
  - destruct (Rlt_dec (nabs (b64 (kstep L ma e x - x))) EA_TOLERANCE_b64) as [T|T].
    + exists 1%nat, (kstep L ma e x). split.
      * cbn [EA_loop_b64]. rewrite next_value by auto. cbn [bind]. destruct (nlt_spec (nabs (b64 (kstep L ma e x - x))) EA_TOLERANCE_b64) as [T'|T']; [auto|contradiction].
      * apply ST; auto. unfold EA_TOLERANCE_b64, nabs in T. assert (F := b64_fine (kstep L ma e x - x)).
        assert (TR := Rabs_triang_inv (kstep L ma e x - x) (b64 (kstep L ma e x - x))). rewrite (Rabs_minus_sym (kstep L ma e x - x) (b64 _)) in TR. lra.
    + destruct IH as (n & r & Hr & A). exists (1 + n)%nat, r. split; auto. cbn [EA_loop_b64 Nat.add]. rewrite next_value by auto. cbn [bind].
      destruct (nlt_spec (nabs (b64 (kstep L ma e x - x))) EA_TOLERANCE_b64) as [T'|T']; [contradiction|auto].
Qed.

Lemma loop_fuel_b64 L f1 f2 ma e x r : (f1 <= f2)%nat -> EA_loop_b64 L f1 ma e x = Ok r -> EA_loop_b64 L f2 ma e x = Ok r.
Proof.
  revert f2 x. induction f1 as [|f1 IH]; intros f2 x Hf H; [discriminate|]. destruct f2 as [|f2]; [lia|].
  cbn [EA_loop_b64] in *. destruct (EA_next_b64 L ma e x) as [y|]; cbn [bind] in *; auto. destruct (nlt _ _); auto. apply IH; auto; lia.
Qed.

(** * The solver *)
Lemma solver_b64 L ma e : accurate_trig L -> 0 <= e <= 0.99 -> -3.14 <= ma <= 2 * math_pi ->
  exists n r, (forall fuel, (n <= fuel)%nat -> EA_from_ma_e_b64 L fuel ma e = Ok r) /\
  exists s (k : Z), s - e * sin s = ma /\ (k = 0 \/ k = 1)%Z /\ Rabs (r - (s + 2 * PI * IZR k)) <= 6e-15 / (1 - e) /\ 0 <= r <= 2 * PI + 5e-13.
Proof.
  intros HL He Hm. assert (MP := math_pi_close). assert (PD := PI_digits).
  assert (Am : Rabs ma <= 6.4) by (apply Rabs_le; lra). assert (HF := step_follows L ma e HL He Am).
  assert (START : exists s, kf e s = ma /\ settles (kstep L ma e) ma e (EA_start_b64 ma e)).
  { unfold EA_start_b64. destruct (nlt_spec (- math_pi) ma) as [A|A]; [|lra]. cbn [andb].
    destruct (nlt_spec ma 0) as [B|B]; cbn [orb].
    - apply (settle_mirror 0); auto; try lra. assert (Q := b64_within (ma - e) 4.2 ltac:(apply Rabs_le; lra)). apply Rabs_le. lra.
    - destruct (nlt_spec math_pi ma) as [C|C].
      + apply (settle_mirror (2 * PI)); auto; try lra. assert (Q := b64_within (ma - e) 6.4 ltac:(apply Rabs_le; lra)). apply Rabs_le. lra.
      + apply settle_half; auto; try lra. assert (Q := b64_within (ma + e) 4.2 ltac:(apply Rabs_le; lra)). apply Rabs_le. lra. }
  destruct START as (s & Es & S). destruct (loop_settles L ma e _ s HL He Am Es S) as (n & y & Hy & A).
  exists n, (wrap_b64 y). split.
  { intros fuel Hf. unfold EA_from_ma_e_b64. rewrite (loop_fuel_b64 L n fuel _ _ _ y Hf Hy). auto. }
  destruct (den_range e 0 He) as [[g0 g1] _].
  assert (W1 : 4.3e-15 / (1 - e) <= 4.3e-13) by (apply div_le; lra).
  assert (W2 : 1.7e-15 <= 1.7e-15 / (1 - e)) by (apply le_div; lra).
  assert (W3 : 6e-15 / (1 - e) = 4.3e-15 / (1 - e) + 1.7e-15 / (1 - e)).
  { replace 6e-15 with (4.3e-15 + 1.7e-15) by lra. apply div_plus_distr. }
  assert (W4 : 4.3e-15 / (1 - e) + 1.7e-15 <= 6e-15 / (1 - e)) by lra.
  unfold wrap_b64. destruct (nlt_spec y 0) as [Y|Y].
  - exists s, 1%Z. split; [exact Es|]. split; auto. apply Rabs_le_inv in A.
    assert (YL : -4.2 <= y). { unfold kf in Es. assert (B := SIN_bound s). nra. }
    assert (Q := b64_within (y + 2 * math_pi) 6.4 ltac:(apply Rabs_le; lra)). split; [apply Rabs_le; lra|].
    split; [apply b64_nonneg; lra|]. assert (U := b64_below (y + turn) turn turn_b64 ltac:(lra)). unfold turn in U. lra.
  - exists s, 0%Z. split; [exact Es|]. split; auto. replace (s + 2 * PI * 0) with s by ring. split; [lra|].
    assert (s <= 2 * PI).
    { destruct (Rle_lt_dec s (2 * PI)) as [G|G]; auto. exfalso. assert (X := kf_expand e s (2 * PI) ltac:(lra)).
      assert (X2 := kf_mono_le e (2 * PI) s ltac:(lra) ltac:(lra)). replace (kf e (2 * PI)) with (2 * PI) in * by (unfold kf; rewrite sin_2PI; ring).
      rewrite !Rabs_pos_eq in X by lra. nra. }
    apply Rabs_le_inv in A. lra.
Qed.

Lemma solver_value L fuel ma e r : accurate_trig L -> 0 <= e <= 0.99 -> -3.14 <= ma <= 2 * math_pi -> EA_from_ma_e_b64 L fuel ma e = Ok r ->
  exists s (k : Z), s - e * sin s = ma /\ (k = 0 \/ k = 1)%Z /\ Rabs (r - (s + 2 * PI * IZR k)) <= 6e-15 / (1 - e) /\ 0 <= r <= 2 * PI + 5e-13.
Proof.
  intros HL He Hm H. destruct (solver_b64 L ma e HL He Hm) as (n & r' & T & A).
  assert (E : EA_from_ma_e_b64 L (fuel + n) ma e = Ok r).
  { unfold EA_from_ma_e_b64 in *. destruct (EA_loop_b64 L fuel ma e (EA_start_b64 ma e)) as [y|x] eqn:Q; [|discriminate].
    rewrite (loop_fuel_b64 L fuel (fuel + n) _ _ _ y ltac:(lia) Q). auto. }
  rewrite (T (fuel + n)%nat ltac:(lia)) in E. injection E as <-. exact A.
Qed.

(** correctly rounded functions are accurate enough *)
Lemma rounded_trig L : (forall x, sinf L x = b64 (sin x)) -> (forall x, cosf L x = b64 (cos x)) -> accurate_trig L.
Proof.
  intros HS HC x _. rewrite HS, HC.
  assert (A := b64_within (sin x) 1 ltac:(apply Rabs_le; apply SIN_bound)). assert (B := b64_within (cos x) 1 ltac:(apply Rabs_le; apply COS_bound)).
  split; apply Rabs_le; lra.
Qed.
