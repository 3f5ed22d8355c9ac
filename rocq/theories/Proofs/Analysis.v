(** Small calculus toolbox. *)
From Coq Require Import Reals Lra Psatz Lia Machin.
From Coquelicot Require Import Coquelicot.
From Verif.Proofs Require Import NumLemmas.
Local Open Scope R_scope.

Lemma deriv_incr f f' a b : a <= b ->
  (forall c, a <= c <= b -> derivable_pt_lim f c (f' c)) ->
  (forall c, a < c < b -> 0 <= f' c) -> f a <= f b.
Proof.
  intros [H| ->] Hd Hp; [|lra].
  destruct (MVT_cor2 f f' a b H Hd) as [c [E Hc]].
  specialize (Hp c Hc). assert (0 <= f' c * (b - a)) by (apply Rmult_le_pos; lra). lra.
Qed.

Lemma deriv_bound f f' a b k : a <= b ->
  (forall c, a <= c <= b -> derivable_pt_lim f c (f' c)) ->
  (forall c, a < c < b -> Rabs (f' c) <= k) -> Rabs (f b - f a) <= k * (b - a).
Proof.
  intros [H| ->] Hd Hp.
  - destruct (MVT_cor2 f f' a b H Hd) as [c [E Hc]]. rewrite E, Rabs_mult, (Rabs_right (b - a)) by lra.
    apply Rmult_le_compat_r; [lra|auto].
  - replace (f b - f b) with 0 by ring. rewrite Rabs_R0. lra.
Qed.

Lemma sin_lip x y : Rabs (sin x - sin y) <= Rabs (x - y).
Proof.
  assert (G : forall a b, a <= b -> Rabs (sin b - sin a) <= b - a).
  { intros a b H. replace (b - a) with (1 * (b - a)) by ring. apply (deriv_bound sin cos); auto.
    - intros; apply derivable_pt_lim_sin.
    - intros c _. apply Rabs_le. generalize (COS_bound c); lra. }
  destruct (Rle_dec x y).
  - rewrite Rabs_minus_sym, (Rabs_minus_sym x y), (Rabs_right (y - x)) by lra. auto.
  - rewrite (Rabs_right (x - y)) by lra. apply G; lra.
Qed.
Lemma cos_lip x y : Rabs (cos x - cos y) <= Rabs (x - y).
Proof.
  assert (H := sin_lip (PI / 2 - x) (PI / 2 - y)). rewrite !sin_shift in H.
  replace (PI / 2 - x - (PI / 2 - y)) with (y - x) in H by ring. rewrite (Rabs_minus_sym y x) in H. auto.
Qed.

Lemma sin_taylor1_pos x q : 0 <= q -> Rabs (sin (x + q) - sin x - q * cos x) <= q * q / 2.
Proof.
  intros Hq.
  assert (D : forall s c, derivable_pt_lim (fun t => t * t / 2 + s * (sin (x + t) - sin x - t * cos x)) c
                        (c + s * (cos (x + c) - cos x))).
  { intros s c. apply is_derive_Reals. auto_derive; auto. field. }
  assert (B : forall c, 0 <= c -> -c <= cos (x + c) - cos x <= c).
  { intros c Hc. assert (L := cos_lip (x + c) x). replace (x + c - x) with c in L by ring.
    rewrite (Rabs_right c) in L by lra. apply Rabs_le_between in L. auto. }
  apply Rabs_le. split.
  - assert (H := deriv_incr _ _ 0 q Hq (fun c _ => D 1 c)).
    simpl in H. rewrite Rplus_0_r in H. specialize (H ltac:(intros c Hc; specialize (B c); lra)). lra.
  - assert (H := deriv_incr _ _ 0 q Hq (fun c _ => D (-1) c)).
    simpl in H. rewrite Rplus_0_r in H. specialize (H ltac:(intros c Hc; specialize (B c); lra)). lra.
Qed.
Lemma sin_taylor1 x q : Rabs (sin (x + q) - sin x - q * cos x) <= q * q / 2.
Proof.
  destruct (Rle_dec 0 q). { apply sin_taylor1_pos; auto. }
  assert (H := sin_taylor1_pos (- x) (- q) ltac:(lra)).
  replace (- x + - q) with (- (x + q)) in H by ring.
  rewrite !sin_neg, cos_neg in H.
  replace (- sin (x + q) - - sin x - - q * cos x) with (- (sin (x + q) - sin x - q * cos x)) in H by ring.
  rewrite Rabs_Ropp in H. lra.
Qed.

(** intermediate value with weak signs *)
Lemma IVT_weak f a b : continuity f -> a <= b -> f a <= 0 <= f b ->
  exists c, a <= c <= b /\ f c = 0.
Proof.
  intros Hc Hab [Ha Hb].
  destruct Ha as [Ha|Ha]; [|exists a; split; [lra|auto]].
  destruct Hb as [Hb|Hb]; [|exists b; split; [lra|auto]].
  destruct Hab as [Hab|Hab]; [|subst; lra].
  destruct (IVT f a b Hc Hab Ha Hb) as [c [H1 H2]]. eauto.
Qed.

Lemma cos_lower x : 1 - x * x / 2 <= cos x.
Proof.
  replace x with (2 * (x / 2)) at 3 by field. rewrite cos_2a_sin.
  assert (L := sin_lip (x / 2) 0). rewrite sin_0, !Rminus_0_r in L.
  assert (Q : Rabs (sin (x / 2)) * Rabs (sin (x / 2)) <= Rabs (x / 2) * Rabs (x / 2)).
  { apply Rmult_le_compat; auto; apply Rabs_pos. }
  rewrite <- !Rabs_mult, !Rabs_right in Q by nra. lra.
Qed.
Lemma sin_lower x : 0 <= x -> x - x * x * x / 6 <= sin x.
Proof.
  intros Hx.
  assert (D : forall c, derivable_pt_lim (fun t => sin t - t + t * t * t / 6) c (cos c - 1 + c * c / 2)).
  { intros c. apply is_derive_Reals. auto_derive; auto. field. }
  assert (H := deriv_incr _ _ 0 x Hx (fun c _ => D c)). simpl in H. rewrite sin_0 in H.
  specialize (H ltac:(intros c _; generalize (cos_lower c); lra)). lra.
Qed.

Lemma PI_bounds : 3.1415926 < PI < 3.1415927.
Proof.
  destruct (Machin.PI_2_3_7_ineq 4) as [H1 H2].
  unfold tg_alt, Machin.PI_2_3_7_tg, Ratan_seq in *. cbn [sum_f_R0 Nat.mul Nat.add pow INR] in *.
  split; lra.
Qed.
