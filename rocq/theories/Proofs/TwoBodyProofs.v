(** Unperturbed motion: conserved quantities and Kepler's law for the elements. *)
From Coq Require Import Reals Lra Psatz Lia.
From Coquelicot Require Import Coquelicot.
From Verif.Model Require Import Num Constants Linalg Functions Time Celestial Positions States Elements.
From Verif.Spec Require Import Geometry Gravity Forces Orbit Gauss TwoBody.
From Verif.Proofs Require Import NumLemmas LinalgProofs Analysis FunctionsProofs KeplerProofs StatesProofs ElementsProofs IodProofs.
From Verif.Proofs Require RelativeProofs.
Local Open Scope R_scope.

(** * Derivatives of real functions *)
Lemma d_eq (f : R -> R) (t a b : R) : is_derive f t a -> a = b -> is_derive f t b.
Proof. intros H <-; auto. Qed.
Lemma d_ext (f g : R -> R) (t a : R) : (forall x : R, f x = g x) -> is_derive f t a -> is_derive g t a.
Proof. exact (is_derive_ext f g t a). Qed.
Lemma d_mult (f g : R -> R) (t a b : R) : is_derive f t a -> is_derive g t b ->
  is_derive (fun t => f t * g t) t (a * g t + f t * b).
Proof. intros F G. apply (is_derive_mult f g t a b F G). intros; apply Rmult_comm. Qed.
Lemma d_plus (f g : R -> R) (t a b : R) : is_derive f t a -> is_derive g t b ->
  is_derive (fun t => f t + g t) t (a + b).
Proof. exact (is_derive_plus f g t a b). Qed.
Lemma d_minus (f g : R -> R) (t a b : R) : is_derive f t a -> is_derive g t b ->
  is_derive (fun t => f t - g t) t (a - b).
Proof. exact (is_derive_minus f g t a b). Qed.
Lemma d_const (k t : R) : is_derive (fun _ => k) t 0.
Proof. exact (is_derive_const k t). Qed.
Lemma d_id (t : R) : is_derive (fun t => t) t 1.
Proof. exact (is_derive_id t). Qed.
Lemma d_inv (f : R -> R) (t a : R) : f t <> 0 -> is_derive f t a -> is_derive (fun t => / f t) t (- a / (f t) ^ 2).
Proof. intros N F. apply (is_derive_inv f t a F N). Qed.
Lemma d_comp (g f : R -> R) (t a b : R) : is_derive g (f t) b -> is_derive f t a -> is_derive (fun t => g (f t)) t (a * b).
Proof. intros G F. apply (is_derive_comp g f t b a G F). Qed.
Lemma d_sin (f : R -> R) (t a : R) : is_derive f t a -> is_derive (fun t => sin (f t)) t (a * cos (f t)).
Proof. intros F. apply d_comp; auto. apply is_derive_Reals, derivable_pt_lim_sin. Qed.
Lemma d_cos (f : R -> R) (t a : R) : is_derive f t a -> is_derive (fun t => cos (f t)) t (a * - sin (f t)).
Proof. intros F. apply d_comp; auto. apply is_derive_Reals, derivable_pt_lim_cos. Qed.
Lemma d_sqrt (f : R -> R) (t a : R) : 0 < f t -> is_derive f t a -> is_derive (fun t => sqrt (f t)) t (a / (2 * sqrt (f t))).
Proof.
  intros P F. apply (d_eq _ t (a * / (2 * sqrt (f t)))); [|reflexivity].
  apply (d_comp sqrt f); auto. apply is_derive_Reals, derivable_pt_lim_sqrt; auto.
Qed.
Lemma d_lin (k t : R) : is_derive (Rmult k) t k.
Proof. apply (d_eq (fun t => k * t) t (0 * t + k * 1)); [exact (d_mult _ _ t 0 1 (d_const k t) (d_id t))|ring]. Qed.
Ltac der := repeat
  match goal with
  | |- is_derive (Rmult _) _ _ => apply d_lin
  | |- is_derive (fun t => _ + _) _ _ => apply d_plus
  | |- is_derive (fun t => _ - _) _ _ => apply d_minus
  | |- is_derive (fun _ => ?k) _ _ => apply d_const
  | |- is_derive (fun t => _ * _) _ _ => apply d_mult
  | |- is_derive (fun t => t) _ _ => apply d_id
  | H : is_derive ?f ?t _ |- is_derive ?f ?t _ => exact H
  end.


Definition flat := RelativeProofs.flat.
Lemma mup : 0 < mu_earth.
Proof. exact mu_pos. Qed.

(** * Rates along a motion *)
Lemma motion_off r v t : unperturbed_motion r v -> r t <> zero3.
Proof.
  intros M Z. destruct (M t) as (e & srp & dr & dv & D & _). rewrite derivative_centre in D by exact Z. discriminate.
Qed.
Lemma motion_rates r v t : unperturbed_motion r v ->
  rate_of r t (v t) /\ rate_of v t (scale (- (mu_earth / (norm (r t) * norm (r t) * norm (r t)))) (r t)).
Proof.
  intros M. assert (Z := motion_off r v t M). destruct (M t) as (e & srp & dr & dv & D & R1 & R2).
  rewrite derivative_two_body in D by (auto; exact Z). cbn [g_velocity g_position g_thrust] in D. inversion D; subst. split; auto.
  replace (scale _ (r t)) with (add zero3 (attraction mu_earth (sub zero3 (r t)))); auto.
  unfold attraction. replace (norm (sub zero3 (r t))) with (norm (r t)).
  - generalize (mu_earth / (norm (r t) * norm (r t) * norm (r t))). intros. unfold zero3. veq; ring.
  - unfold norm. f_equal. unfold zero3, sub, dot; cbn. ring.
Qed.
Lemma dot_rate f g t a b : rate_of f t a -> rate_of g t b ->
  is_derive (fun t => dot (f t) (g t)) t (dot a (g t) + dot (f t) b).
Proof.
  intros (F1 & F2 & F3) (G1 & G2 & G3). unfold dot. eapply d_eq. der. cbn. ring.
Qed.
Lemma norm_rate f t a : rate_of f t a -> f t <> zero3 -> is_derive (fun t => norm (f t)) t (dot (f t) a / norm (f t)).
Proof.
  intros F N. apply norm_pos in N. unfold norm. eapply d_eq. apply d_sqrt.
  - unfold norm in N. destruct (Rle_lt_dec (dot (f t) (f t)) 0) as [L|L]; auto. rewrite sqrt_neg_0 in N by auto. lra.
  - apply dot_rate; eauto.
  - unfold norm in N. replace (dot a (f t)) with (dot (f t) a) by (unfold dot; ring). cbv beta. field. lra.
Qed.
Lemma cross_rate f g t a b : rate_of f t a -> rate_of g t b ->
  rate_of (fun t => cross (f t) (g t)) t (add (cross a (g t)) (cross (f t) b)).
Proof.
  intros (F1 & F2 & F3) (G1 & G2 & G3). unfold cross, add; split; [|split]; cbn; eapply d_eq; try der; cbn; ring.
Qed.
Lemma flat3 f : (forall t, rate_of f t zero3) -> forall t, f t = f 0.
Proof.
  intros H t. apply vec3_eq.
  - apply (flat (fun t => x3 (f t))). intros u. apply (H u).
  - apply (flat (fun t => y3 (f t))). intros u. apply (H u).
  - apply (flat (fun t => z3 (f t))). intros u. apply (H u).
Qed.

(** * Conserved quantities *)
Lemma momentum_kept r v : unperturbed_motion r v -> forall t, momentum (r t) (v t) = momentum (r 0) (v 0).
Proof.
  intros M. apply (flat3 (fun t => momentum (r t) (v t))). intros t. destruct (motion_rates r v t M) as [A B].
  assert (C := cross_rate r v t _ _ A B). unfold momentum.
  replace zero3 with (add (cross (v t) (v t)) (cross (r t) (scale (- (mu_earth / (norm (r t) * norm (r t) * norm (r t)))) (r t)))); auto.
  generalize (mu_earth / (norm (r t) * norm (r t) * norm (r t))). intros. unfold zero3. veq; ring.
Qed.
Lemma energy_kept r v : unperturbed_motion r v -> forall t, orbital_energy (r t) (v t) = orbital_energy (r 0) (v 0).
Proof.
  intros M. apply (flat (fun t => orbital_energy (r t) (v t))). intros t. destruct (motion_rates r v t M) as [A B].
  assert (Z := motion_off r v t M). assert (N := norm_rate r t _ A Z). apply norm_pos in Z.
  apply (d_ext (fun t => dot (v t) (v t) * / 2 - mu_earth * / norm (r t))).
  { intros u. unfold orbital_energy. rewrite norm_sq. reflexivity. }
  assert (I := d_inv (fun t => norm (r t)) t _ ltac:(lra) N). assert (D := dot_rate v v t _ _ B B).
  eapply d_eq. der. 
  replace (dot (scale (- (mu_earth / (norm (r t) * norm (r t) * norm (r t)))) (r t)) (v t)) with (- (mu_earth / (norm (r t) * norm (r t) * norm (r t))) * dot (r t) (v t)) by (unfold dot, scale; cbn; ring).
  replace (dot (v t) (scale (- (mu_earth / (norm (r t) * norm (r t) * norm (r t)))) (r t))) with (- (mu_earth / (norm (r t) * norm (r t) * norm (r t))) * dot (r t) (v t)) by (unfold dot, scale; cbn; ring).
  cbv beta. field. lra.
Qed.
(** mu times the eccentricity vector *)
Definition laplace (r v : vec3) : vec3 := sub (cross v (momentum r v)) (scale (mu_earth / norm r) r).
Lemma laplace_kept r v : unperturbed_motion r v -> forall t, laplace (r t) (v t) = laplace (r 0) (v 0).
Proof.
  intros M t. unfold laplace. rewrite (momentum_kept r v M t). revert t.
  set (h := momentum (r 0) (v 0)).
  apply (flat3 (fun t => sub (cross (v t) h) (scale (mu_earth / norm (r t)) (r t)))). intros t.
  destruct (motion_rates r v t M) as [A B]. assert (Z := motion_off r v t M). assert (N := norm_rate r t _ A Z).
  assert (Hh : momentum (r t) (v t) = h) by apply (momentum_kept r v M t). clearbody h.
  assert (N2 := norm_sq (r t)). apply norm_pos in Z.
  assert (I := d_inv (fun t => norm (r t)) t _ ltac:(lra) N). cbv beta in I.
  set (n := norm (r t)) in *.
  assert (K : rate_of (fun t => sub (cross (v t) h) (scale (mu_earth * / norm (r t)) (r t))) t
     (sub (cross (scale (- (mu_earth / (n * n * n))) (r t)) h)
          (add (scale (mu_earth * (- (dot (r t) (v t) / n) / n ^ 2)) (r t)) (scale (mu_earth * / n) (v t))))).
  { destruct A as (A1 & A2 & A3), B as (B1 & B2 & B3). unfold sub, cross, scale, add in *; cbn [x3 y3 z3] in *.
    split; [|split]; cbn [x3 y3 z3]; (eapply d_eq; [der|cbv beta; fold n; field; lra]). }
  replace zero3 with (sub (cross (scale (- (mu_earth / (n * n * n))) (r t)) h)
          (add (scale (mu_earth * (- (dot (r t) (v t) / n) / n ^ 2)) (r t)) (scale (mu_earth * / n) (v t)))); [exact K|].
  rewrite <- Hh. clear K I N A B Hh M. clearbody n.
  replace (cross (scale (- (mu_earth / (n * n * n))) (r t)) (momentum (r t) (v t)))
    with (scale (mu_earth / (n * n * n)) (sub (scale (dot (r t) (r t)) (v t)) (scale (dot (r t) (v t)) (r t)))).
  2:{ unfold momentum, dot. generalize (mu_earth / (n * n * n)). intros. veq; ring. }
  rewrite <- N2. generalize (dot (r t) (v t)) (r t) (v t). intros. unfold zero3. veq; field; lra.
Qed.

(** * Angles modulo a turn *)
Lemma full_turns a b : cos a = cos b -> sin a = sin b -> exists k : Z, a = b + 2 * PI * IZR k.
Proof.
  intros C S. assert (P := PI_pos).
  destruct (nmod_eq (a - b) (2 * PI)) as [j J].
  assert (Rg := nmod_range (a - b) (2 * PI) ltac:(lra)).
  assert (Z : nmod (a - b) (2 * PI) = 0).
  { apply sin_cos_inj; try lra.
    - rewrite sin_0, J. replace (a - b - 2 * PI * IZR j) with (a - b + 2 * PI * IZR (- j)) by (rewrite opp_IZR; ring).
      rewrite sin_shift_Z, sin_minus, C, S. ring.
    - rewrite cos_0, J. replace (a - b - 2 * PI * IZR j) with (a - b + 2 * PI * IZR (- j)) by (rewrite opp_IZR; ring).
      rewrite cos_shift_Z, cos_minus, C, S. generalize (sin2_cos2' b). lra. }
  exists j. lra.
Qed.

(** Kepler's equation advances uniformly. *)
Lemma kepler_advance e n (C S : R -> R) :
  (forall t, 0 < 1 - e * C t) ->
  (forall t, is_derive C t (- S t * (n / (1 - e * C t)))) ->
  (forall t, is_derive S t (C t * (n / (1 - e * C t)))) ->
  forall t x0 x, cos x0 = C 0 -> sin x0 = S 0 -> cos x = C t -> sin x = S t ->
  exists k : Z, x - e * sin x = x0 - e * sin x0 + n * t + 2 * PI * IZR k.
Proof.
  intros P DC DS.
  set (E0 := fun t => e * S t + n * t).
  assert (DE : forall t, is_derive E0 t (n / (1 - e * C t))).
  { intros t. unfold E0. assert (DSt := DS t). eapply d_eq. der. specialize (P t). cbv beta. field. lra. }
  assert (G1 : forall t, C t * cos (E0 t) + S t * sin (E0 t) = C 0 * cos (E0 0) + S 0 * sin (E0 0)).
  { apply (flat (fun t => C t * cos (E0 t) + S t * sin (E0 t))). intros t.
    assert (A := d_cos E0 t _ (DE t)). assert (B := d_sin E0 t _ (DE t)). assert (DSt := DS t). assert (DCt := DC t).
    eapply d_eq. der. cbv beta. ring. }
  assert (G2 : forall t, S t * cos (E0 t) - C t * sin (E0 t) = S 0 * cos (E0 0) - C 0 * sin (E0 0)).
  { apply (flat (fun t => S t * cos (E0 t) - C t * sin (E0 t))). intros t.
    assert (A := d_cos E0 t _ (DE t)). assert (B := d_sin E0 t _ (DE t)). assert (DSt := DS t). assert (DCt := DC t).
    eapply d_eq. der. cbv beta. ring. }
  intros t x0 x C0 S0 Ct St. destruct (full_turns (x - E0 t) (x0 - E0 0)) as [k K].
  - rewrite !cos_minus. rewrite C0, S0, Ct, St, G1. reflexivity.
  - rewrite !sin_minus. rewrite C0, S0, Ct, St, G2. reflexivity.
  - exists k. rewrite S0, St. unfold E0 in K. lra.
Qed.

(** * Elements are determined by the conserved quantities *)
Lemma laplace_place el x : 0 < semimajor_axis el -> 0 <= eccentricity el < 1 ->
  laplace (place el x) (motion el x)
  = scale (mu_earth * eccentricity el) (along (raan el) (inclination el) (argument_of_perigee el)).
Proof.
  intros Ha He. unfold laplace. rewrite to_ijk_momentum, place_norm by auto. unfold place, motion.
  rewrite <- (along_cross (raan el) (inclination el) (argument_of_perigee el)).
  assert (A := along_unit (raan el) (inclination el) (argument_of_perigee el)).
  assert (B := along_ahead (raan el) (inclination el) (argument_of_perigee el)).
  assert (C := ahead_unit (raan el) (inclination el) (argument_of_perigee el)).
  set (p := along _ _ _) in *. set (q := ahead _ _ _) in *. clearbody p q.
  set (a := semimajor_axis el) in *. set (e := eccentricity el) in *. clearbody a e.
  assert (M := mup). assert (Q := one_minus_sq _ He). assert (D := one_minus_e_cos _ x He).
  assert (T := sin2_cos2' x).
  assert (0 < mu_earth / a) by (apply Rdiv_pos; auto).
  assert (Hh : sqrt (mu_earth * a * (1 - e ^ 2)) = sqrt (mu_earth / a) * a * sqrt (1 - e * e)).
  { replace (mu_earth * a * (1 - e ^ 2)) with (mu_earth / a * (a * a) * (1 - e * e)) by (field; lra).
    rewrite sqrt_mult by nra. rewrite sqrt_mult by nra. rewrite (sqrt_square a) by lra. reflexivity. }
  rewrite Hh. set (k := sqrt (mu_earth / a)). set (sb := sqrt (1 - e * e)).
  assert (K : k * k = mu_earth / a) by (apply sqrt_sqrt; lra).
  assert (Sb : sb * sb = 1 - e * e) by (apply sqrt_sqrt; lra). clearbody k sb.
  set (c := cos x) in *. set (t := sin x) in *. clearbody c t.
  assert (X : forall al be h, cross (add (scale al p) (scale be q)) (scale h (cross p q)) =
     scale h (sub (scale (al * dot p q + be * dot q q) p) (scale (al * dot p p + be * dot p q) q))).
  { intros. unfold dot. veq; ring. }
  rewrite X, A, B, C.
  assert (E1 : k * a * sb * (k / (1 - e * c) * sb * c) = mu_earth * (1 - e * e) * c / (1 - e * c)).
  { replace (k * a * sb * (k / (1 - e * c) * sb * c)) with ((k * k) * a * (sb * sb) * c / (1 - e * c)) by (field; lra).
    rewrite K, Sb. field. lra. }
  assert (E2 : k * a * sb * (- (k / (1 - e * c)) * t) = - (mu_earth * sb * t / (1 - e * c))).
  { replace (k * a * sb * (- (k / (1 - e * c)) * t)) with (- ((k * k) * a * sb * t / (1 - e * c))) by (field; lra).
    rewrite K. field. lra. }
  replace (scale (k * a * sb) (sub (scale (- (k / (1 - e * c)) * t * 0 + k / (1 - e * c) * sb * c * 1) p)
      (scale (- (k / (1 - e * c)) * t * 1 + k / (1 - e * c) * sb * c * 0) q)))
    with (sub (scale (k * a * sb * (k / (1 - e * c) * sb * c)) p) (scale (k * a * sb * (- (k / (1 - e * c)) * t)) q)) by (veq; ring).
  rewrite E1, E2. clear X A B C E1 E2 K Sb T Hh. veq; field; lra.
Qed.

Lemma along_inj o i w w' : along o i w = along o i w' -> cos w = cos w' /\ sin w = sin w'.
Proof.
  intros E.
  assert (A : forall u, dot (along o i u) (node o) = cos u).
  { intros u. unfold along. transitivity (cos u * dot (node o) (node o) + sin u * dot (node o) (across o i)).
    unfold dot; cbn; ring. rewrite node_unit, node_across_dot. ring. }
  assert (B : forall u, dot (along o i u) (across o i) = sin u).
  { intros u. unfold along. transitivity (cos u * dot (node o) (across o i) + sin u * dot (across o i) (across o i)).
    unfold dot; cbn; ring. rewrite across_unit, node_across_dot. ring. }
  split; [rewrite <- !A, E; auto|rewrite <- !B, E; auto].
Qed.
Lemma scale_inj k a b : k <> 0 -> scale k a = scale k b -> a = b.
Proof.
  intros H E. unfold scale in E. inversion E. apply vec3_eq; eapply Rmult_eq_reg_l; eauto.
Qed.
Lemma normal_inj o i o' i' : orbit_normal o i = orbit_normal o' i' ->
  0 <= i <= PI -> 0 <= i' <= PI -> sin i <> 0 -> 0 <= o < 2 * PI -> 0 <= o' < 2 * PI -> i = i' /\ o = o'.
Proof.
  intros E Hi Hi' Hs Ho Ho'. unfold orbit_normal in E. injection E as E1 E2 E3.
  assert (I : i = i').
  { destruct (Rtotal_order i i') as [L|[L|L]]; auto; exfalso.
    - assert (cos i' < cos i) by (apply cos_decreasing_1; lra). lra.
    - assert (cos i < cos i') by (apply cos_decreasing_1; lra). lra. }
  subst i'. split; auto. apply sin_cos_inj; try lra.
  - apply Rmult_eq_reg_r with (sin i); auto.
  - apply Rmult_eq_reg_r with (sin i); lra.
Qed.

Lemma elements_determined el el' x x' :
  0 < semimajor_axis el -> 0 <= eccentricity el < 1 -> 0 < semimajor_axis el' -> 0 <= eccentricity el' < 1 ->
  orbital_energy (place el x) (motion el x) = orbital_energy (place el' x') (motion el' x') ->
  momentum (place el x) (motion el x) = momentum (place el' x') (motion el' x') ->
  semimajor_axis el = semimajor_axis el' /\ eccentricity el = eccentricity el' /\
  orbit_normal (raan el) (inclination el) = orbit_normal (raan el') (inclination el').
Proof.
  intros Ha He Ha' He' En Mo. rewrite !to_ijk_energy in En by auto. rewrite !to_ijk_momentum in Mo by auto.
  assert (M := mup).
  assert (A : semimajor_axis el = semimajor_axis el').
  { assert (H : / semimajor_axis el = / semimajor_axis el').
    { apply Rmult_eq_reg_l with (- mu_earth / 2); [|apply Rlt_not_eq; lra].
      transitivity (- mu_earth / (2 * semimajor_axis el)); [field; lra|]. rewrite En. field; lra. }
    rewrite <- (Rinv_inv (semimajor_axis el)), H, Rinv_inv; auto. }
  assert (Q := one_minus_sq _ He). assert (Q' := one_minus_sq _ He').
  assert (P : forall a e, 0 < a -> 0 < 1 - e * e -> 0 < mu_earth * a * (1 - e ^ 2)).
  { intros a e B C. replace (e ^ 2) with (e * e) by ring. apply Rmult_lt_0_compat; [apply Rmult_lt_0_compat|]; auto. }
  assert (P1 := P _ _ Ha Q). assert (P2 := P _ _ Ha' Q').
  assert (N := f_equal norm Mo).
  rewrite !scale_unit in N by (try apply sqrt_lt_R0; auto; apply normal_unit).
  apply (f_equal (fun y => y * y)) in N. rewrite !sqrt_sqrt in N by lra. rewrite A in N.
  assert (E2 : eccentricity el ^ 2 = eccentricity el' ^ 2).
  { assert (0 < mu_earth * semimajor_axis el') by (apply Rmult_lt_0_compat; auto). nra. }
  assert (E : eccentricity el = eccentricity el') by nra.
  split; auto. split; auto.
  rewrite A, E in Mo. apply scale_inj in Mo; auto. apply Rgt_not_eq, sqrt_lt_R0; auto.
Qed.
Lemma perigee_determined el el' x x' :
  0 < semimajor_axis el -> 0 < eccentricity el < 1 -> 0 < semimajor_axis el' ->
  eccentricity el' = eccentricity el -> raan el' = raan el -> inclination el' = inclination el ->
  laplace (place el x) (motion el x) = laplace (place el' x') (motion el' x') ->
  0 <= argument_of_perigee el < 2 * PI -> 0 <= argument_of_perigee el' < 2 * PI ->
  argument_of_perigee el = argument_of_perigee el'.
Proof.
  intros Ha He Ha' Ee Eo Ei L W W'. assert (M := mup). rewrite !laplace_place in L by (auto; lra).
  rewrite Ee, Eo, Ei in L. apply scale_inj in L; [|apply Rgt_not_eq, Rmult_lt_0_compat; lra].
  apply along_inj in L. destruct L. apply sin_cos_inj; auto; lra.
Qed.

(** The elements from_ijk returns, with their eccentric anomaly. *)
Lemma from_ijk_full s : let r := s_position s in let v := s_velocity s in
  bound_orbit r v -> ~ equatorial r v -> exists el x,
  elements_from_ijk s = Ok el /\ el_epoch el = s_epoch s /\ 0 < semimajor_axis el /\ 0 <= eccentricity el < 1 /\
  0 <= inclination el <= PI /\ sin (inclination el) <> 0 /\ 0 <= raan el < 2 * PI /\
  0 <= argument_of_perigee el < 2 * PI /\ 0 <= x < 2 * PI /\
  mean_anomaly el = x - eccentricity el * sin x /\ place el x = r /\ motion el x = v.
Proof.
  intros r v B Ne. destruct (from_ijk_ok s B) as (a & e & x & Sh & E). fold r v in E, Sh.
  destruct B as [B1 B2]. set (h := momentum r v) in *. set (w := scale (/ norm h) h) in *.
  destruct (made_exact s a e x Sh B2 Ne) as [P Mo]. fold r v h w in P, Mo.
  exists (made s w a e x), x. destruct Sh as (Ha & He & Hx & En & Hh & Hr & Hd).
  split; [exact E|]. split; [reflexivity|]. split; [exact Ha|]. split; [exact He|].
  split; [apply I_range|]. split.
  { intros Z. apply Ne. cbn [made inclination] in Z.
    assert (N := normal_of_w w (unit_dot h B2)). unfold orbit_normal in N. rewrite Z in N.
    assert (X : x3 w = 0 /\ y3 w = 0) by (rewrite <- N; cbn; split; ring). destruct X as [X Y].
    unfold w, scale in X, Y; cbn [x3 y3] in X, Y. assert (Hn := norm_pos _ B2).
    assert (/ norm h <> 0) by (apply Rinv_neq_0_compat; lra).
    apply Rmult_integral in X. apply Rmult_integral in Y. unfold equatorial. fold h. tauto. }
  split; [apply RAAN_range|]. split; [apply W_range; [apply U_range|apply wrap_range, atan2_range]|].
  split; [exact Hx|]. split; [|auto].
  cbn [made mean_anomaly eccentricity]. unfold MA_from_ea_e.
  assert (Bx := e_sin_bound e x He ltac:(lra)). rewrite nlt_false by lra. reflexivity.
Qed.

(** * Kepler's law *)
Lemma cos_sin_of_state el x : 0 < semimajor_axis el -> 0 < eccentricity el < 1 ->
  cos x = (1 - norm (place el x) * / semimajor_axis el) * / eccentricity el /\
  sin x = dot (place el x) (motion el x) * / (eccentricity el * (sqrt (mu_earth / semimajor_axis el) * semimajor_axis el)).
Proof.
  intros Ha He. assert (M := mup). assert (0 < sqrt (mu_earth / semimajor_axis el)) by (apply sqrt_lt_R0, Rdiv_pos; auto).
  assert (D := one_minus_e_cos (eccentricity el) x ltac:(lra)). assert (Q := one_minus_sq (eccentricity el) ltac:(lra)).
  split.
  - rewrite place_norm by (auto; lra). field. lra.
  - unfold place, motion. rewrite pq_dot. set (k := sqrt (mu_earth / _)) in *.
    set (e := eccentricity el) in *. set (a := semimajor_axis el) in *.
    assert (T := sin2_cos2' x). set (sb := sqrt (1 - e * e)). assert (Sb : sb * sb = 1 - e * e) by (apply sqrt_sqrt; lra).
    set (c := cos x) in *. set (t := sin x) in *. clearbody k sb c t.
    replace (a * (c - e) * (- (k / (1 - e * c)) * t) + a * sb * t * (k / (1 - e * c) * sb * c))
      with (a * k * t * (- (c - e) + (sb * sb) * c) / (1 - e * c)) by (field; lra).
    rewrite Sb. field. lra.
Qed.

Lemma equatorial_kept r v : unperturbed_motion r v -> forall t, bound_orbit (r 0) (v 0) -> ~ equatorial (r 0) (v 0) ->
  bound_orbit (r t) (v t) /\ ~ equatorial (r t) (v t).
Proof.
  intros M t [B1 B2] Ne. unfold bound_orbit, equatorial in *. rewrite (energy_kept r v M t), (momentum_kept r v M t). auto.
Qed.

Lemma vis_viva_place r v a : r <> zero3 -> orbital_energy r v = - mu_earth / (2 * a) -> 0 < a ->
  dot v v = 2 * mu_earth / norm r - mu_earth / a.
Proof.
  intros Z E Ha. apply norm_pos in Z. unfold orbital_energy in E. rewrite norm_sq in E.
  assert (- mu_earth / (2 * a) = - (mu_earth / a) / 2) by (field; lra).
  assert (2 * mu_earth / norm r = 2 * (mu_earth / norm r)) by (field; lra). lra.
Qed.

Lemma elements_advance r v : unperturbed_motion r v -> bound_orbit (r 0) (v 0) -> ~ equatorial (r 0) (v 0) ->
  forall e0 el0, elements_from_ijk (State e0 (r 0) (v 0)) = Ok el0 -> 0 < eccentricity el0 ->
  forall t e, exists el (k : Z), elements_from_ijk (State e (r t) (v t)) = Ok el /\ el_epoch el = e /\
    semimajor_axis el = semimajor_axis el0 /\ eccentricity el = eccentricity el0 /\
    inclination el = inclination el0 /\ raan el = raan el0 /\ argument_of_perigee el = argument_of_perigee el0 /\
    mean_anomaly el = mean_anomaly el0 + sqrt (mu_earth / semimajor_axis el0 ^ 3) * t + 2 * PI * IZR k.
Proof.
  intros M B Ne e0 el0 E0 He0 t e.
  destruct (from_ijk_full (State e0 (r 0) (v 0)) B Ne) as (el0' & x0 & E0' & _ & Ha & He & Hi & Hs & Ho & Hw & Hx & Hm & P0 & V0).
  rewrite E0 in E0'. inversion E0'; subst el0'; clear E0'. cbn [s_position s_velocity] in P0, V0.
  assert (All : forall t e, exists el x, elements_from_ijk (State e (r t) (v t)) = Ok el /\ el_epoch el = e /\
    semimajor_axis el = semimajor_axis el0 /\ eccentricity el = eccentricity el0 /\
    inclination el = inclination el0 /\ raan el = raan el0 /\ argument_of_perigee el = argument_of_perigee el0 /\
    mean_anomaly el = x - eccentricity el0 * sin x /\ place el x = r t /\ motion el x = v t).
  { clear t e. intros t e. destruct (equatorial_kept r v M t B Ne) as [Bt Nt].
    destruct (from_ijk_full (State e (r t) (v t)) Bt Nt) as (el & x & E & Ep & Ha' & He' & Hi' & Hs' & Ho' & Hw' & Hx' & Hm' & P & V).
    cbn [s_position s_velocity] in P, V.
    destruct (elements_determined el0 el x0 x Ha He Ha' He') as (A1 & A2 & A3).
    { rewrite P0, V0, P, V. symmetry. apply (energy_kept r v M t). }
    { rewrite P0, V0, P, V. symmetry. apply (momentum_kept r v M t). }
    destruct (normal_inj _ _ _ _ A3) as [A4 A5]; auto.
    assert (A6 : argument_of_perigee el0 = argument_of_perigee el).
    { apply (perigee_determined el0 el x0 x); auto; try lra.
      rewrite P0, V0, P, V. symmetry. apply (laplace_kept r v M t). }
    exists el, x. rewrite A2. repeat (split; [solve [auto]|]). auto. }
  set (a := semimajor_axis el0) in *. set (ec := eccentricity el0) in *.
  assert (Mu := mup). set (k := sqrt (mu_earth / a)).
  assert (Hk : 0 < k) by (apply sqrt_lt_R0, Rdiv_pos; auto).
  assert (Kk : k * k = mu_earth / a) by (apply sqrt_sqrt; left; apply Rdiv_pos; auto).
  assert (Hn : sqrt (mu_earth / a ^ 3) = k / a).
  { apply sqrt_eq. left; apply Rdiv_pos; auto.
    transitivity (k * k / (a * a)); [field; lra|]. rewrite Kk. field. lra. }
  set (C := fun t => (1 - norm (r t) * / a) * / ec).
  set (S := fun t => dot (r t) (v t) * / (ec * (k * a))).
  assert (CS : forall t el x, semimajor_axis el = a -> eccentricity el = ec -> place el x = r t -> motion el x = v t ->
    cos x = C t /\ sin x = S t).
  { intros u el x A1 A2 A3 A4. unfold C, S, k. rewrite <- A1, <- A2, <- A3, <- A4. apply cos_sin_of_state; [rewrite A1; auto|rewrite A2; lra]. }
  assert (En : forall t, 1 - ec * C t = norm (r t) / a) by (intros u; unfold C; field; lra).
  assert (Vv : forall t, dot (v t) (v t) = 2 * mu_earth / norm (r t) - mu_earth / a).
  { intros u. apply vis_viva_place; auto. apply (motion_off r v u M). rewrite (energy_kept r v M u), <- P0, <- V0.
    apply to_ijk_energy; auto. }
  destruct (All t e) as (el & x & E & Ep & A1 & A2 & A3 & A4 & A5 & A6 & A7 & A8).
  destruct (CS 0 el0 x0 eq_refl eq_refl P0 V0) as [Q1 Q2].
  destruct (CS t el x A1 A2 A7 A8) as [Q3 Q4].
  destruct (kepler_advance ec (k / a) C S) with (t := t) (x0 := x0) (x := x) as [j J]; auto.
  - intros u. rewrite En. apply Rdiv_pos; auto. apply norm_pos, (motion_off r v u M).
  - intros u. assert (Z := motion_off r v u M). destruct (motion_rates r v u M) as [R1 R2].
    assert (N := norm_rate r u _ R1 Z). apply norm_pos in Z. rewrite En. unfold C. eapply d_eq. der. unfold S. field. lra.
  - intros u. assert (Z := motion_off r v u M). destruct (motion_rates r v u M) as [R1 R2].
    assert (D := dot_rate r v u _ _ R1 R2). apply norm_pos in Z. rewrite En. unfold S. eapply d_eq. der.
    rewrite Vv. replace (dot (r u) (scale (- (mu_earth / (norm (r u) * norm (r u) * norm (r u)))) (r u)))
      with (- (mu_earth / (norm (r u) * norm (r u) * norm (r u))) * (norm (r u) * norm (r u))) by (rewrite norm_sq; unfold dot, scale; cbn; ring).
    unfold C. replace mu_earth with (k * k * a) by (rewrite Kk; field; lra). field. lra.
  - exists el, j. rewrite Hn. repeat (split; [solve [auto]|]). rewrite A6, Hm. exact J.
Qed.

(** * The motion exists *)
Lemma kepler_inverse e m : 0 <= e < 1 -> {x : R | kf e x = m}.
Proof.
  intros He. destruct (IVT (fun x => kf e x - m) (m - 2) (m + 2)) as [x [_ H]].
  - intros x. unfold kf. reg.
  - lra.
  - unfold kf. generalize (SIN_bound (m - 2)). nra.
  - unfold kf. generalize (SIN_bound (m + 2)). nra.
  - exists x. cbv beta in H. lra.
Qed.
Lemma inverse_rate e m n (X : R -> R) : 0 <= e < 1 -> (forall t, kf e (X t) = m + n * t) ->
  forall t, is_derive X t (n / (1 - e * cos (X t))).
Proof.
  intros He HX t. apply is_derive_Reals. intros eps Heps.
  set (K := n * n / ((1 - e) * (1 - e) * (1 - e)) + 1).
  assert (Hd : 0 < 1 - e) by lra.
  assert (Hd3 : 0 < (1 - e) * (1 - e) * (1 - e)) by (repeat apply Rmult_lt_0_compat; auto).
  assert (HK : 0 < K).
  { unfold K. assert (0 <= n * n / ((1 - e) * (1 - e) * (1 - e))) by (apply Rdiv_le_0_compat; [nra|auto]). lra. }
  exists (mkposreal (eps / K) (Rdiv_pos _ _ Heps HK)). intros h Hh Hl. cbn [pos] in Hl.
  set (q := X (t + h) - X t). set (k := 1 - e * cos (X t)).
  assert (Hk : 1 - e <= k). { unfold k. generalize (COS_bound (X t)). nra. }
  assert (E : kf e (X (t + h)) - kf e (X t) = n * h) by (rewrite !HX; ring).
  assert (B1 := kf_expand e (X (t + h)) (X t) ltac:(lra)). rewrite E in B1. fold q in B1.
  assert (T := sin_taylor1 (X t) q). replace (X t + q) with (X (t + h)) in T by (unfold q; ring).
  assert (B2 : Rabs (n * h - q * k) <= q * q / 2).
  { rewrite <- E. unfold kf, k. replace (X (t + h) - e * sin (X (t + h)) - (X t - e * sin (X t)) - q * (1 - e * cos (X t)))
      with (- e * (sin (X (t + h)) - sin (X t) - q * cos (X t))) by (unfold q; ring).
    rewrite Rabs_mult, Rabs_Ropp, (Rabs_pos_eq e) by lra.
    assert (P := Rabs_pos (sin (X (t + h)) - sin (X t) - q * cos (X t))). nra. }
  replace (q / h - n / k) with (- (n * h - q * k) / (h * k)) by (field; lra).
  assert (Hah : 0 < Rabs h) by (apply Rabs_pos_lt; auto).
  unfold Rdiv. rewrite Rabs_mult, Rabs_Ropp, Rabs_inv, Rabs_mult, (Rabs_pos_eq k) by lra.
  assert (Q2 : q * q <= (n * n) * (Rabs h * Rabs h) / ((1 - e) * (1 - e))).
  { assert (B3 : Rabs q <= Rabs (n * h) / (1 - e)).
    { apply Rmult_le_reg_l with (1 - e); auto. replace ((1 - e) * (Rabs (n * h) / (1 - e))) with (Rabs (n * h)) by (field; lra). auto. }
    assert (Pq := Rabs_pos q). 
    replace (q * q) with (Rabs q * Rabs q) by (rewrite <- Rabs_mult; apply Rabs_pos_eq; nra).
    replace ((n * n) * (Rabs h * Rabs h) / ((1 - e) * (1 - e))) with ((Rabs (n * h) / (1 - e)) * (Rabs (n * h) / (1 - e))).
    - apply Rmult_le_compat; auto.
    - rewrite Rabs_mult. replace (n * n) with (Rabs n * Rabs n) by (rewrite <- Rabs_mult; apply Rabs_pos_eq; nra). field. lra. }
  apply Rle_lt_trans with ((q * q / 2) * / (Rabs h * k)).
  { apply Rmult_le_compat_r; auto. left. apply Rinv_0_lt_compat, Rmult_lt_0_compat; lra. }
  apply Rle_lt_trans with ((n * n) * (Rabs h * Rabs h) / ((1 - e) * (1 - e)) / 2 * / (Rabs h * (1 - e))).
  { apply Rmult_le_compat; [nra| |lra|].
    - left. apply Rinv_0_lt_compat, Rmult_lt_0_compat; lra.
    - apply Rinv_le_contravar; [apply Rmult_lt_0_compat; lra|]. apply Rmult_le_compat_l; lra. }
  replace ((n * n) * (Rabs h * Rabs h) / ((1 - e) * (1 - e)) / 2 * / (Rabs h * (1 - e)))
    with (Rabs h * ((n * n / ((1 - e) * (1 - e) * (1 - e))) / 2)) by (field; lra).
  apply Rlt_le_trans with (eps / K * K); [|right; field; lra].
  assert (Z : 0 <= n * n / ((1 - e) * (1 - e) * (1 - e))) by (apply Rdiv_le_0_compat; [nra|auto]).
  apply Rle_lt_trans with (Rabs h * K).
  - apply Rmult_le_compat_l; [lra|]. unfold K. lra.
  - apply Rmult_lt_compat_r; auto.
Qed.

Lemma kepler_motion el (X : R -> R) : 0 < semimajor_axis el -> 0 <= eccentricity el < 1 ->
  (forall t, is_derive X t (sqrt (mu_earth / semimajor_axis el ^ 3) / (1 - eccentricity el * cos (X t)))) ->
  unperturbed_motion (fun t => place el (X t)) (fun t => motion el (X t)).
Proof.
  intros Ha He HX t. assert (N := place_norm el (X t) Ha He). assert (D := one_minus_e_cos _ (X t) He).
  assert (Pz : place el (X t) <> zero3).
  { intros Z. apply norm_zero in Z. assert (0 < semimajor_axis el * (1 - eccentricity el * cos (X t))) by (apply Rmult_lt_0_compat; auto). lra. }
  exists (Epoch 0), 0. eexists. eexists. split; [rewrite derivative_two_body by auto; reflexivity|].
  cbn [g_velocity g_position g_thrust].
  assert (Mu := mup). set (a := semimajor_axis el) in *. set (e := eccentricity el) in *.
  set (k := sqrt (mu_earth / a)).
  assert (Hk : 0 < k) by (apply sqrt_lt_R0, Rdiv_pos; auto).
  assert (Kk : k * k = mu_earth / a) by (apply sqrt_sqrt; left; apply Rdiv_pos; auto).
  assert (Hn : sqrt (mu_earth / a ^ 3) = k / a).
  { apply sqrt_eq. left; apply Rdiv_pos; auto.
    transitivity (k * k / (a * a)); [field; lra|]. rewrite Kk. field. lra. }
  assert (Dx := HX t). rewrite Hn in Dx. assert (Dc := d_cos X t _ Dx). assert (Ds := d_sin X t _ Dx).
  assert (Di : is_derive (fun t => / (1 - e * cos (X t))) t
     (- (0 - (0 * cos (X t) + e * (k / a / (1 - e * cos (X t)) * - sin (X t)))) / (1 - e * cos (X t)) ^ 2)).
  { apply (d_inv (fun t => 1 - e * cos (X t))); [lra|]. eapply d_eq; [der|cbv beta; ring]. }
  set (b := sqrt (1 - e * e)).
  assert (R1 : rate_of (fun t => place el (X t)) t (motion el (X t))).
  { unfold place, motion. fold a e b k. set (p := along _ _ _). set (q := ahead _ _ _). clearbody p q.
    unfold rate_of, add, scale; cbn [x3 y3 z3].
    split; [|split]; (eapply d_eq; [der|cbv beta; field; lra]). }
  split; [exact R1|].
  unfold attraction. replace (norm (sub zero3 (place el (X t)))) with (norm (place el (X t))).
  2:{ unfold norm. f_equal. unfold zero3, sub, dot; cbn. ring. }
  rewrite N. fold a e.
  set (w := 1 - e * cos (X t)) in *.
  assert (G : forall p, is_derive (fun t => - (k / (1 - e * cos (X t))) * sin (X t) * p) t
     (- (k * k / a / (w * w * w)) * (cos (X t) - e) * p)).
  { intros p. apply (d_ext (fun t => - (k * / (1 - e * cos (X t))) * sin (X t) * p)); [intros; reflexivity|].
    apply (d_ext (fun t => (-1) * k * / (1 - e * cos (X t)) * sin (X t) * p)); [intros; ring|].
    eapply d_eq; [der|]. cbv beta. fold w. unfold w in *.
    assert (T := sin2_cos2' (X t)). set (s := sin (X t)) in *. set (c := cos (X t)) in *. 
    transitivity (- (k * k / a) * (c * (1 - e * c) - e * (s * s)) / ((1 - e * c) ^ 3) * p).
    { clearbody s c. field. lra. }
    replace (s * s) with (1 - c * c) by lra. clearbody s c. field. lra. }
  assert (G2 : forall p, is_derive (fun t => k / (1 - e * cos (X t)) * b * cos (X t) * p) t
     (- (k * k / a / (w * w * w)) * (b * sin (X t)) * p)).
  { intros p. apply (d_ext (fun t => k * / (1 - e * cos (X t)) * b * cos (X t) * p)); [intros; reflexivity|].
    eapply d_eq; [der|]. cbv beta. unfold w in *. 
    set (s := sin (X t)) in *. set (c := cos (X t)) in *. field. lra. }
  assert (Ka : k * k / a / (w * w * w) = mu_earth / (a * w * (a * w) * (a * w)) * a) by (rewrite Kk; field; lra).
  unfold motion, place. fold a e b k. set (p := along _ _ _) in *. set (q := ahead _ _ _) in *. clearbody p q. clear R1.
  unfold rate_of, add, scale, sub, zero3; cbn [x3 y3 z3].
  split; [|split]; (eapply d_eq; [apply d_plus; [apply G|apply G2]|]); rewrite Ka; ring.
Qed.

Lemma motion_exists s : let r0 := s_position s in let v0 := s_velocity s in bound_orbit r0 v0 -> ~ equatorial r0 v0 ->
  exists r v, unperturbed_motion r v /\ r 0 = r0 /\ v 0 = v0.
Proof.
  intros r0 v0 B Ne.
  destruct (from_ijk_full s B Ne) as (el & x & E & _ & Ha & He & Hi & Hs & Ho & Hw & Hx & Hm & P & V).
  set (n := sqrt (mu_earth / semimajor_axis el ^ 3)).
  set (X := fun t => proj1_sig (kepler_inverse (eccentricity el) (kf (eccentricity el) x + n * t) He)).
  assert (HX : forall t, kf (eccentricity el) (X t) = kf (eccentricity el) x + n * t).
  { intros t. unfold X. apply (proj2_sig (kepler_inverse _ _ He)). }
  assert (X0 : X 0 = x). { apply (kf_inj (eccentricity el)); auto. rewrite HX. ring. }
  exists (fun t => place el (X t)), (fun t => motion el (X t)). split.
  - apply kepler_motion; auto. intros t. apply (inverse_rate _ (kf (eccentricity el) x)); auto.
  - rewrite X0. auto.
Qed.

(** Advancing the mean anomaly and converting back follows the motion. *)
Lemma advance_predicts r v : unperturbed_motion r v -> bound_orbit (r 0) (v 0) -> ~ equatorial (r 0) (v 0) ->
  forall e0 el0, elements_from_ijk (State e0 (r 0) (v 0)) = Ok el0 -> 0 < eccentricity el0 ->
  forall t e m (k : Z), 0 <= m < 2 * PI ->
    m = mean_anomaly el0 + sqrt (mu_earth / semimajor_axis el0 ^ 3) * t + 2 * PI * IZR k ->
  exists n s, (forall fuel, (n <= fuel)%nat ->
      elements_to_ijk fuel (Elements e (semimajor_axis el0) (eccentricity el0) (inclination el0) (raan el0) (argument_of_perigee el0) m) = Ok s) /\
    s_epoch s = e /\
    norm (sub (s_position s) (r t)) <= 1e-24 * semimajor_axis el0 / (1 - eccentricity el0) /\
    norm (sub (s_velocity s) (v t)) <= 1e-24 * sqrt (mu_earth / semimajor_axis el0) / (1 - eccentricity el0) ^ 2.
Proof.
  intros M B Ne e0 el0 E0 He0 t e m k Hm Em.
  destruct (elements_advance r v M B Ne e0 el0 E0 He0 t e) as (el & j & E & A0 & A1 & A2 & A3 & A4 & A5 & A6).
  destruct (equatorial_kept r v M t B Ne) as [Bt Nt].
  destruct (round_trip (State e (r t) (v t)) Bt Nt) as (el' & n & s & E' & T & Ep & P & V).
  rewrite E in E'. inversion E'; subst el'; clear E'. rewrite A1, A2 in P, V.
  destruct (from_ijk_full (State e (r t) (v t)) Bt Nt) as (el' & x & E' & _ & Ha & He & _ & _ & _ & _ & Hx & Hma & _).
  rewrite E in E'. inversion E'; subst el'; clear E'.
  assert (Hr : 0 <= mean_anomaly el < 2 * PI).
  { rewrite Hma. assert (Bx := e_sin_bound (eccentricity el) x He (proj1 Hx)).
    assert (R := MA_range x (eccentricity el) He Hx). unfold MA_from_ea_e in R. rewrite nlt_false in R by lra. auto. }
  assert (Q : mean_anomaly el = m).
  { assert (Z : m = mean_anomaly el + 2 * PI * IZR (k - j)) by (rewrite minus_IZR; lra).
    apply sin_cos_inj; [rewrite Z, sin_shift_Z; auto|rewrite Z, cos_shift_Z; auto|lra]. }
  exists n, s. split.
  - intros fuel L. rewrite <- (T fuel L). f_equal. rewrite <- A0 at 1. rewrite <- A1, <- A2, <- A3, <- A4, <- A5, <- Q. clear. destruct el. reflexivity.
  - auto.
Qed.

(** * Elements to state and back *)
Lemma elements_round_trip fuel el s : 0 < semimajor_axis el -> 0 < eccentricity el < 1 ->
  0 < inclination el < PI -> 0 <= raan el < 2 * PI -> 0 <= argument_of_perigee el < 2 * PI ->
  elements_to_ijk fuel el = Ok s ->
  exists el' (k : Z), elements_from_ijk s = Ok el' /\ el_epoch el' = el_epoch el /\
    semimajor_axis el' = semimajor_axis el /\ eccentricity el' = eccentricity el /\
    inclination el' = inclination el /\ raan el' = raan el /\ argument_of_perigee el' = argument_of_perigee el /\
    Rabs (mean_anomaly el' - (mean_anomaly el + 2 * PI * IZR k)) < 5e-25.
Proof.
  intros Ha He Hi Ho Hw T. assert (Hs : 0 < sin (inclination el)) by (apply sin_gt_0; lra).
  assert (He' : 0 <= eccentricity el < 1) by lra.
  destruct (eccentric_anomaly fuel el) as [x|er] eqn:Ex.
  2:{ unfold elements_to_ijk in T. rewrite perigee_ok in T. cbn [bind] in T. rewrite Ex in T. discriminate. }
  rewrite (to_ijk_ok fuel el x Ha He' Ex) in T. inversion T; subst s; clear T.
  assert (Mu := mup). assert (Q := one_minus_sq _ He').
  assert (Hh : 0 < sqrt (mu_earth * semimajor_axis el * (1 - eccentricity el ^ 2))).
  { apply sqrt_lt_R0. replace (eccentricity el ^ 2) with (eccentricity el * eccentricity el) by ring.
    apply Rmult_lt_0_compat; [apply Rmult_lt_0_compat|]; auto. }
  set (h := sqrt (mu_earth * _ * _)) in *.
  assert (Nz : ~ equatorial (place el x) (motion el x)).
  { unfold equatorial. rewrite to_ijk_momentum by auto. fold h. cbn [scale orbit_normal x3 y3]. intros [X Y].
    clearbody h. apply Rmult_integral in X. apply Rmult_integral in Y.
    destruct X as [X|X]; [lra|]. destruct Y as [Y|Y]; [lra|]. apply Rmult_integral in X. apply Rmult_integral in Y.
    destruct X as [X|X]; [|lra]. destruct Y as [Y|Y]; [|lra]. apply Ropp_eq_0_compat in Y. rewrite Ropp_involutive in Y.
    generalize (sin2_cos2' (raan el)). rewrite X, Y. lra. }
  assert (B : bound_orbit (place el x) (motion el x)).
  { split. rewrite to_ijk_energy by auto. assert (0 < mu_earth / (2 * semimajor_axis el)) by (apply Rdiv_pos; lra).
    replace (- mu_earth / (2 * semimajor_axis el)) with (- (mu_earth / (2 * semimajor_axis el))) by (field; lra). lra.
    intros Z. apply Nz. unfold equatorial. rewrite Z. auto. }
  destruct (from_ijk_full (State (el_epoch el) (place el x) (motion el x)) B Nz)
    as (el' & y & E & Ep & Ha2 & He2 & Hi2 & Hs2 & Ho2 & Hw2 & Hy & Hm & P & V).
  cbn [s_position s_velocity s_epoch] in *.
  destruct (elements_determined el el' x y Ha He' Ha2 He2) as (A1 & A2 & A3); try congruence.
  destruct (normal_inj _ _ _ _ A3) as [A4 A5]; auto; try lra.
  assert (A6 : argument_of_perigee el = argument_of_perigee el').
  { apply (perigee_determined el el' x y); auto; congruence. }
  assert (CS1 := cos_sin_of_state el x Ha He). assert (CS2 := cos_sin_of_state el' y Ha2 ltac:(rewrite <- A2; auto)).
  rewrite P, V, <- A1, <- A2 in CS2. destruct CS1 as [C1 S1], CS2 as [C2 S2].
  destruct (full_turns y x) as [j J]; [congruence|congruence|].
  destruct (EA_residual fuel (mean_anomaly el) (eccentricity el) x ltac:(lra) Ex) as (k & _ & K).
  exists el', (k + j)%Z. repeat (split; [solve [auto; congruence]|]).
  rewrite Hm, <- A2, plus_IZR. replace (sin y) with (sin x) by congruence.
  replace (y - eccentricity el * sin x - (mean_anomaly el + 2 * PI * (IZR k + IZR j)))
    with (x - eccentricity el * sin x - (mean_anomaly el + 2 * PI * IZR k)) by lra. exact K.
Qed.

(** * Circular orbits: only the sum of the two angles advances *)
Lemma circular_advance r v : unperturbed_motion r v -> bound_orbit (r 0) (v 0) -> ~ equatorial (r 0) (v 0) ->
  forall e0 el0, elements_from_ijk (State e0 (r 0) (v 0)) = Ok el0 -> eccentricity el0 = 0 ->
  forall t e, exists el (k : Z), elements_from_ijk (State e (r t) (v t)) = Ok el /\
    semimajor_axis el = semimajor_axis el0 /\ eccentricity el = 0 /\
    inclination el = inclination el0 /\ raan el = raan el0 /\
    argument_of_perigee el + mean_anomaly el = argument_of_perigee el0 + mean_anomaly el0
      + sqrt (mu_earth / semimajor_axis el0 ^ 3) * t + 2 * PI * IZR k.
Proof.
  intros M B Ne e0 el0 E0 He0 t e.
  destruct (from_ijk_full (State e0 (r 0) (v 0)) B Ne) as (el0' & x0 & E0' & _ & Ha & He & Hi & Hs & Ho & Hw & Hx & Hm & P0 & V0).
  rewrite E0 in E0'. inversion E0'; subst el0'; clear E0'. cbn [s_position s_velocity] in P0, V0.
  assert (All : forall t e, exists el x, elements_from_ijk (State e (r t) (v t)) = Ok el /\
    semimajor_axis el = semimajor_axis el0 /\ eccentricity el = 0 /\
    inclination el = inclination el0 /\ raan el = raan el0 /\ mean_anomaly el = x /\ place el x = r t /\ motion el x = v t).
  { clear t e. intros t e. destruct (equatorial_kept r v M t B Ne) as [Bt Nt].
    destruct (from_ijk_full (State e (r t) (v t)) Bt Nt) as (el & x & E & Ep & Ha' & He' & Hi' & Hs' & Ho' & Hw' & Hx' & Hm' & P & V).
    cbn [s_position s_velocity] in P, V.
    destruct (elements_determined el0 el x0 x Ha He Ha' He') as (A1 & A2 & A3).
    { rewrite P0, V0, P, V. symmetry. apply (energy_kept r v M t). }
    { rewrite P0, V0, P, V. symmetry. apply (momentum_kept r v M t). }
    destruct (normal_inj _ _ _ _ A3) as [A4 A5]; auto.
    exists el, x. rewrite <- A2, He0 in Hm'. split; [auto|]. split; [auto|]. split; [congruence|].
    split; [auto|]. split; [auto|]. split; [lra|auto]. }
  set (a := semimajor_axis el0) in *.
  assert (Mu := mup). set (k := sqrt (mu_earth / a)).
  assert (Hk : 0 < k) by (apply sqrt_lt_R0, Rdiv_pos; auto).
  assert (Hn : sqrt (mu_earth / a ^ 3) = k / a).
  { apply sqrt_eq. left; apply Rdiv_pos; auto.
    assert (Kk : k * k = mu_earth / a) by (apply sqrt_sqrt; left; apply Rdiv_pos; auto).
    transitivity (k * k / (a * a)); [field; lra|]. rewrite Kk. field. lra. }
  set (o := raan el0) in *. set (i := inclination el0) in *.
  assert (S1 : sqrt (1 - 0 * 0) = 1) by (apply sqrt_eq; lra).
  assert (PV : forall el x, semimajor_axis el = a -> eccentricity el = 0 -> inclination el = i -> raan el = o ->
    place el x = scale a (along o i (argument_of_perigee el + x)) /\ motion el x = scale k (ahead o i (argument_of_perigee el + x))).
  { intros el x A1 A2 A3 A4. destruct (along_shift o i (argument_of_perigee el) x) as [H1 H2]. unfold place, motion.
    rewrite A1, A2, A3, A4, S1. rewrite <- H1, <- H2. set (p := along _ _ _). set (q := ahead _ _ _). clearbody p q. fold k. split.
    - veq; ring. 
    - replace (k / (1 - 0 * cos x)) with k by (field; lra). veq; ring. }
  set (C := fun t => dot (r t) (node o) * / a). set (S := fun t => dot (r t) (across o i) * / a).
  assert (AN : forall u, dot (along o i u) (node o) = cos u /\ dot (along o i u) (across o i) = sin u /\
     dot (ahead o i u) (node o) = - sin u /\ dot (ahead o i u) (across o i) = cos u).
  { intros u. assert (A := node_unit o). assert (A' := across_unit o i). assert (A'' := node_across_dot o i).
    unfold along, ahead.
    assert (L : forall c d w, dot (add (scale c (node o)) (scale d (across o i))) w = c * dot (node o) w + d * dot (across o i) w) by (intros; unfold dot; cbn; ring).
    rewrite !L. assert (A3 : dot (across o i) (node o) = 0) by (rewrite <- A''; unfold dot; ring).
    rewrite A, A', A'', A3. repeat split; ring. }
  assert (CS : forall t el x, semimajor_axis el = a -> eccentricity el = 0 -> inclination el = i -> raan el = o ->
    place el x = r t -> motion el x = v t ->
    cos (argument_of_perigee el + x) = C t /\ sin (argument_of_perigee el + x) = S t /\
    dot (v t) (node o) = - k * S t /\ dot (v t) (across o i) = k * C t).
  { intros u el x A1 A2 A3 A4 A5 A6. destruct (PV el x A1 A2 A3 A4) as [H1 H2]. unfold C, S. rewrite <- A5, <- A6, H1, H2.
    set (y := argument_of_perigee el + x). destruct (AN y) as (N1 & N2 & N3 & N4).
    assert (L : forall c p w, dot (scale c p) w = c * dot p w) by (intros; unfold dot; cbn; ring).
    rewrite !L, N1, N2, N3, N4. repeat split; field; lra. }
  destruct (All t e) as (el & x & E & A1 & A2 & A3 & A4 & A5 & A6 & A7).
  destruct (CS 0 el0 x0 eq_refl He0 eq_refl eq_refl P0 V0) as (Q1 & Q2 & _).
  destruct (CS t el x A1 A2 A3 A4 A6 A7) as (Q3 & Q4 & _).
  assert (Cn : forall w u, rate_of (fun _ => w) u zero3).
  { intros w u. unfold zero3. split; [|split]; cbn; apply d_const. }
  destruct (kepler_advance 0 (k / a) C S) with (t := t) (x0 := argument_of_perigee el0 + x0) (x := argument_of_perigee el + x) as [j J]; auto.
  - intros u. lra.
  - intros u. destruct (All u e) as (el1 & x1 & _ & B1 & B2 & B3 & B4 & _ & B6 & B7).
    destruct (CS u el1 x1 B1 B2 B3 B4 B6 B7) as (_ & _ & V1 & _).
    destruct (motion_rates r v u M) as [R1 _]. assert (D := dot_rate r (fun _ => node o) u _ _ R1 (Cn _ u)). cbv beta in D.
    unfold C. eapply d_eq. der. rewrite V1. unfold zero3, dot; cbn. unfold dot; cbn. field. lra.
  - intros u. destruct (All u e) as (el1 & x1 & _ & B1 & B2 & B3 & B4 & _ & B6 & B7).
    destruct (CS u el1 x1 B1 B2 B3 B4 B6 B7) as (_ & _ & _ & V1).
    destruct (motion_rates r v u M) as [R1 _]. assert (D := dot_rate r (fun _ => across o i) u _ _ R1 (Cn _ u)). cbv beta in D.
    unfold S. eapply d_eq. der. rewrite V1. unfold zero3. replace (dot (r u) (V3 0 0 0)) with 0 by (unfold dot; cbn; ring).
    fold (C u). field. lra.
  - exists el, j. rewrite Hn. repeat (split; [solve [auto]|]). rewrite A5. rewrite He0 in Hm. lra.
Qed.

(** Position and velocity of the returned elements. *)
Lemma velocity_motion el x : orbit_velocity el x = motion el x.
Proof.
  unfold orbit_velocity, motion. cbv zeta.
  replace (eccentricity el ^ 2) with (eccentricity el * eccentricity el) by ring.
  change (plane_direction (raan el) (inclination el) (argument_of_perigee el)) with (along (raan el) (inclination el) (argument_of_perigee el)).
  replace (plane_direction (raan el) (inclination el) (argument_of_perigee el + PI / 2)) with (ahead (raan el) (inclination el) (argument_of_perigee el)); auto.
  unfold plane_direction, ahead. rewrite cos_plus, sin_plus, cos_PI2, sin_PI2.
  replace (cos (argument_of_perigee el) * 0 - sin (argument_of_perigee el) * 1) with (- sin (argument_of_perigee el)) by ring.
  replace (sin (argument_of_perigee el) * 0 + cos (argument_of_perigee el) * 1) with (cos (argument_of_perigee el)) by ring. reflexivity.
Qed.
Lemma from_ijk_exact s : let r := s_position s in let v := s_velocity s in
  bound_orbit r v -> ~ equatorial r v -> exists el x, elements_from_ijk s = Ok el /\
  mean_anomaly el = x - eccentricity el * sin x /\ orbit_point el x = r /\ orbit_velocity el x = v.
Proof.
  intros r v B Ne. destruct (from_ijk_full s B Ne) as (el & x & E & _ & _ & _ & _ & _ & _ & _ & _ & Hm & P & V).
  exists el, x. rewrite point_place, velocity_motion. auto.
Qed.

(** Node, inclination and argument of latitude of any vector. *)
Lemma normal_any w : w = scale (norm w) (orbit_normal (RAAN_from_w w) (I_from_w w)).
Proof.
  destruct (vec3_zero_dec w) as [->|N].
  - replace (norm zero3) with 0 by (symmetry; apply norm_zero; auto). unfold zero3. veq; ring.
  - assert (Hn := norm_pos _ N).
    assert (U := normal_of_w (scale (/ norm w) w) (unit_dot w N)).
    assert (Hi : 0 < / norm w) by (apply Rinv_0_lt_compat; auto).
    assert (E1 : RAAN_from_w (scale (/ norm w) w) = RAAN_from_w w).
    { unfold RAAN_from_w, scale; cbn [x3 y3]. replace (- (/ norm w * y3 w)) with (/ norm w * - y3 w) by ring. rewrite atan2_scale by auto. reflexivity. }
    assert (E2 : I_from_w (scale (/ norm w) w) = I_from_w w).
    { unfold I_from_w, scale; cbn [x3 y3 z3]. 
      replace (sqrt (/ norm w * x3 w * (/ norm w * x3 w) + / norm w * y3 w * (/ norm w * y3 w))) with (/ norm w * sqrt (x3 w * x3 w + y3 w * y3 w)).
      apply atan2_scale; auto. symmetry. apply sqrt_eq.
      - apply Rmult_le_pos; [lra|apply sqrt_pos].
      - replace (/ norm w * sqrt (x3 w * x3 w + y3 w * y3 w) * (/ norm w * sqrt (x3 w * x3 w + y3 w * y3 w)))
          with (/ norm w * / norm w * (sqrt (x3 w * x3 w + y3 w * y3 w) * sqrt (x3 w * x3 w + y3 w * y3 w))) by ring.
        rewrite sqrt_sqrt by apply sum_sq_nonneg2. ring. }
    rewrite E1, E2 in U. rewrite U. symmetry. apply unit_scale_back; auto.
Qed.
Lemma latitude_any r w : norm w = 1 -> dot r w = 0 -> ~ (x3 w = 0 /\ y3 w = 0) ->
  r = scale (norm r) (plane_direction (RAAN_from_w w) (I_from_w w) (U_from_r_w r w)).
Proof. intros U P N. apply (latitude_spec r w); auto. rewrite <- norm_sq, U. ring. Qed.
Lemma perigee_sum u nu : exists k : Z, W_from_u_nu u nu + nu = u + 2 * PI * IZR k.
Proof. unfold W_from_u_nu. destruct (nlt (u - nu) 0); [exists 1%Z|exists 0%Z]; lra. Qed.
