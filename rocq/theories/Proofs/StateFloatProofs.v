(** The rounded state from classical elements. *)
From Coq Require Import Reals Lra Psatz Lia.
From Flocq Require Import Core.
From Verif.Model Require Import Num Constants Linalg Functions Time Celestial States Elements TimeFloat AngleFloat ElementsFloat KeplerFloat.
From Verif.Spec Require Import Geometry Gravity Orbit LibmAccuracy.
From Verif.Proofs Require Import NumLemmas Analysis LinalgProofs FunctionsProofs KeplerProofs ElementsProofs TimeFloatProofs AngleFloatProofs ElementsFloatProofs PiDigits KeplerFloatProofs.
Local Open Scope R_scope.

(** * Absolute errors *)
Definition err (d x' x : R) : Prop := Rabs (x' - x) <= d.

Lemma err_weaken d d' x' x : err d x' x -> d <= d' -> err d' x' x.
Proof. unfold err. lra. Qed.
Lemma err_opp d x' x : err d x' x -> err d (- x') (- x).
Proof. unfold err. intros H. replace (- x' - - x) with (- (x' - x)) by ring. rewrite Rabs_Ropp. auto. Qed.
Lemma err_upper d x' x X : err d x' x -> Rabs x <= X -> Rabs x' <= X + d.
Proof. unfold err. intros H B. replace x' with (x + (x' - x)) by ring. eapply Rle_trans; [apply Rabs_triang|]. lra. Qed.
Lemma err_round d x' x X d' : err d x' x -> Rabs x <= X -> d + 1.12e-16 * (X + d) + 1e-60 <= d' -> err d' (b64 x') x.
Proof.
  intros H B L. assert (U := err_upper d x' x X H B). unfold err in *. assert (F := b64_fine x').
  replace (b64 x' - x) with ((b64 x' - x') + (x' - x)) by ring. eapply Rle_trans; [apply Rabs_triang|]. lra.
Qed.
Lemma err_add dx dy x' x y' y : err dx x' x -> err dy y' y -> err (dx + dy) (x' + y') (x + y).
Proof. unfold err. intros A B. replace (x' + y' - (x + y)) with ((x' - x) + (y' - y)) by ring. eapply Rle_trans; [apply Rabs_triang|]. lra. Qed.
Lemma err_sub dx dy x' x y' y : err dx x' x -> err dy y' y -> err (dx + dy) (x' - y') (x - y).
Proof. intros A B. apply err_opp in B. exact (err_add _ _ _ _ _ _ A B). Qed.
Lemma err_mul dx dy x' x y' y X Y : err dx x' x -> err dy y' y -> Rabs x <= X -> Rabs y <= Y -> err (dx * Y + (X + dx) * dy) (x' * y') (x * y).
Proof.
  intros A B BX BY. assert (U := err_upper dx x' x X A BX). unfold err in *.
  replace (x' * y' - x * y) with ((x' - x) * y + x' * (y' - y)) by ring. eapply Rle_trans; [apply Rabs_triang|]. rewrite !Rabs_mult.
  apply Rplus_le_compat; apply Rmult_le_compat; auto using Rabs_pos.
Qed.
Lemma abs_mul_le x y X Y : Rabs x <= X -> Rabs y <= Y -> Rabs (x * y) <= X * Y.
Proof. intros. rewrite Rabs_mult. apply Rmult_le_compat; auto using Rabs_pos. Qed.
Lemma err_mulr dx dy x' x y' y X Y d : err dx x' x -> err dy y' y -> Rabs x <= X -> Rabs y <= Y ->
  (dx * Y + (X + dx) * dy) * 1.01 + 1.12e-16 * (X * Y) + 1e-60 <= d -> err d (b64 (x' * y')) (x * y).
Proof.
  intros A B BX BY H. assert (E := err_mul _ _ _ _ _ _ _ _ A B BX BY). apply (err_round _ _ _ (X * Y) d E (abs_mul_le _ _ _ _ BX BY)).
  assert (0 <= dx * Y + (X + dx) * dy) by (eapply Rle_trans; [apply Rabs_pos|exact E]). lra.
Qed.
Lemma err_addr dx dy x' x y' y X d : err dx x' x -> err dy y' y -> Rabs (x + y) <= X -> (dx + dy) * 1.01 + 1.12e-16 * X + 1e-60 <= d -> err d (b64 (x' + y')) (x + y).
Proof.
  intros A B BX H. assert (E := err_add _ _ _ _ _ _ A B). apply (err_round _ _ _ X d E BX).
  assert (0 <= dx + dy) by (eapply Rle_trans; [apply Rabs_pos|exact E]). lra.
Qed.
Lemma err_subr dx dy x' x y' y X d : err dx x' x -> err dy y' y -> Rabs (x - y) <= X -> (dx + dy) * 1.01 + 1.12e-16 * X + 1e-60 <= d -> err d (b64 (x' - y')) (x - y).
Proof. intros A B. apply err_opp in B. exact (err_addr _ _ _ _ _ _ _ _ A B). Qed.

Lemma abs_sin x : Rabs (sin x) <= 1. Proof. apply Rabs_le, SIN_bound. Qed.
Lemma abs_cos x : Rabs (cos x) <= 1. Proof. apply Rabs_le, COS_bound. Qed.
Lemma abs_opp x X : Rabs x <= X -> Rabs (- x) <= X. Proof. now rewrite Rabs_Ropp. Qed.

(** * The orbit frame *)
Lemma comb_le x y z w : Rabs x <= 1 -> Rabs y <= 1 -> Rabs z <= 1 -> Rabs w <= 1 -> Rabs (x * y + z * w) <= 2.
Proof.
  intros. eapply Rle_trans; [apply Rabs_triang|]. assert (Rabs (x * y) <= 1 * 1) by (apply abs_mul_le; auto).
  assert (Rabs (z * w) <= 1 * 1) by (apply abs_mul_le; auto). lra.
Qed.
Lemma frame_sum a' a b' b c' c d' d f' f : err 2.3e-16 a' a -> err 2.3e-16 b' b -> err 2.3e-16 c' c -> err 2.3e-16 d' d -> err 2.3e-16 f' f ->
  Rabs a <= 1 -> Rabs b <= 1 -> Rabs c <= 1 -> Rabs d <= 1 -> Rabs f <= 1 ->
  err 1.8e-15 (b64 (b64 (a' * b') + b64 (b64 (c' * d') * f'))) (a * b + c * d * f) /\
  err 1.8e-15 (b64 (b64 (a' * b') - b64 (b64 (c' * d') * f'))) (a * b - c * d * f).
Proof.
  intros A B C D F BA BB BC BD BF.
  assert (E1 : err 5.8e-16 (b64 (a' * b')) (a * b)) by (apply (err_mulr _ _ _ _ _ _ 1 1 _ A B); auto; lra).
  assert (E2 : err 5.8e-16 (b64 (c' * d')) (c * d)) by (apply (err_mulr _ _ _ _ _ _ 1 1 _ C D); auto; lra).
  assert (CD : Rabs (c * d) <= 1) by (replace 1 with (1 * 1) by ring; apply abs_mul_le; auto).
  assert (E3 : err 9.4e-16 (b64 (b64 (c' * d') * f')) (c * d * f)) by (apply (err_mulr _ _ _ _ _ _ 1 1 _ E2 F); auto; lra).
  split.
  - apply (err_addr _ _ _ _ _ _ 2 _ E1 E3); [apply comb_le; auto|lra].
  - apply (err_subr _ _ _ _ _ _ 2 _ E1 E3); [|lra].
    replace (a * b - c * d * f) with (a * b + - (c * d) * f) by ring. apply comb_le; auto. now rewrite Rabs_Ropp.
Qed.

Definition vec_err (d : R) (u' u : vec3) : Prop := err d (x3 u') (x3 u) /\ err d (y3 u') (y3 u) /\ err d (z3 u') (z3 u).
Definition small_angles (el : elements) : Prop := Rabs (inclination el) <= 8 /\ Rabs (raan el) <= 8 /\ Rabs (argument_of_perigee el) <= 8.

Lemma unit_parts v : dot v v = 1 -> Rabs (x3 v) <= 1 /\ Rabs (y3 v) <= 1 /\ Rabs (z3 v) <= 1.
Proof. unfold dot. intros H. repeat split; apply Rabs_le; split; nra. Qed.

Lemma semilatus_b64 L el : accurate_trig L -> small_angles el ->
  vec_err 1.8e-15 (semilatus_rectum_vector_b64 L el) (ahead (raan el) (inclination el) (argument_of_perigee el)).
Proof.
  intros HL (Hi & Ho & Hw). rewrite <- semilatus_ok. unfold semilatus_rectum_vector, semilatus_rectum_vector_b64.
  destruct (HL _ Hi) as [Si Ci]. destruct (HL _ Ho) as [So Co]. destruct (HL _ Hw) as [Sw Cw].
  assert (B : forall x, Rabs (sin x) <= 1 /\ Rabs (cos x) <= 1) by (split; [apply abs_sin|apply abs_cos]).
  destruct (B (inclination el)) as [B1 B2]. destruct (B (raan el)) as [B3 B4]. destruct (B (argument_of_perigee el)) as [B5 B6].
  unfold vec_err; cbn [x3 y3 z3]. split; [|split].
  - apply frame_sum; auto; try (now apply err_opp); now rewrite Rabs_Ropp.
  - apply frame_sum; auto; try (now apply err_opp); now rewrite Rabs_Ropp.
  - apply (err_mulr _ _ _ _ _ _ 1 1 _ Cw Si); auto; lra.
Qed.

Lemma perigee_b64 L el : accurate_trig L -> small_angles el -> exists p, perigee_vector_b64 L el = Ok p /\
  vec_err 5.9e-15 p (along (raan el) (inclination el) (argument_of_perigee el)).
Proof.
  intros HL (Hi & Ho & Hw).
  set (u := along (raan el) (inclination el) (argument_of_perigee el)).
  assert (Eu : u = V3 (cos (argument_of_perigee el) * cos (raan el) - sin (argument_of_perigee el) * cos (inclination el) * sin (raan el))
     (cos (argument_of_perigee el) * sin (raan el) + sin (argument_of_perigee el) * cos (inclination el) * cos (raan el))
     (sin (argument_of_perigee el) * sin (inclination el))) by (unfold u, along; veq; ring).
  assert (U1 : dot u u = 1) by apply along_unit.
  destruct (HL _ Hi) as [Si Ci]. destruct (HL _ Ho) as [So Co]. destruct (HL _ Hw) as [Sw Cw].
  assert (B : forall x, Rabs (sin x) <= 1 /\ Rabs (cos x) <= 1) by (split; [apply abs_sin|apply abs_cos]).
  destruct (B (inclination el)) as [B1 B2]. destruct (B (raan el)) as [B3 B4]. destruct (B (argument_of_perigee el)) as [B5 B6].
  unfold perigee_vector_b64. set (w := V3 (b64 (_ - _)) _ _).
  assert (E : vec_err 1.8e-15 w u).
  { rewrite Eu. unfold vec_err, w; cbn [x3 y3 z3]. split; [|split].
    - apply frame_sum; auto.
    - apply frame_sum; auto.
    - apply (err_mulr _ _ _ _ _ _ 1 1 _ Sw Si); auto; lra. }
  destruct (unit_parts u U1) as (P1 & P2 & P3). clear Eu. destruct E as (E1 & E2 & E3).
  clearbody w. clearbody u. destruct u as [a b c], w as [a' b' c']. unfold dot in U1. cbn [x3 y3 z3] in *.
  assert (F1 := E1). assert (F2 := E2). assert (F3 := E3). unfold err in E1, E2, E3. apply Rabs_le_inv in E1. apply Rabs_le_inv in E2. apply Rabs_le_inv in E3.
  (* the length *)
  assert (N2 : 1 - 6.5e-15 <= a' * a' + b' * b' + c' * c' <= 1 + 6.5e-15).
  { apply Rabs_le_inv in P1. apply Rabs_le_inv in P2. apply Rabs_le_inv in P3.
    set (da := a' - a) in *. set (db := b' - b) in *. set (dc := c' - c) in *.
    assert (Q : a' * a' + b' * b' + c' * c' = 1 + 2 * (a * da + b * db + c * dc) + (da * da + db * db + dc * dc)) by (unfold da, db, dc; rewrite <- U1; ring).
    assert (Q2 : 0 <= da * da + db * db + dc * dc <= 9.72e-30) by nra.
    assert (Q3 : (a * da + b * db + c * dc) * (a * da + b * db + c * dc) <= da * da + db * db + dc * dc).
    { assert (0 <= (a * db - b * da) * (a * db - b * da) + (a * dc - c * da) * (a * dc - c * da) + (b * dc - c * db) * (b * dc - c * db)) by (generalize (Rle_0_sqr (a * db - b * da)) (Rle_0_sqr (a * dc - c * da)) (Rle_0_sqr (b * dc - c * db)); unfold Rsqr; lra).
      assert ((a * a + b * b + c * c) * (da * da + db * db + dc * dc) = (a * da + b * db + c * dc) * (a * da + b * db + c * dc) + ((a * db - b * da) * (a * db - b * da) + (a * dc - c * da) * (a * dc - c * da) + (b * dc - c * db) * (b * dc - c * db))) by ring.
      rewrite U1 in H0. lra. }
    assert (Q4 : - 3.2e-15 <= a * da + b * db + c * dc <= 3.2e-15).
    { set (t := a * da + b * db + c * dc) in *. clear - Q2 Q3. nra. }
    lra. }
  set (v := V3 a' b' c').
  assert (NS := norm_sq3 v). unfold v in NS. cbn [x3 y3 z3] in NS. fold v in NS.
  assert (N0 : 0 <= norm v) by apply sqrt_pos.
  assert (N1 : 1 - 3.3e-15 <= norm v <= 1 + 3.3e-15) by (clear - NS N2 N0; nra).
  assert (MG := mag_near v ltac:(lra)). unfold near in MG. rewrite (Rabs_pos_eq (norm v)) in MG by lra. apply Rabs_le_inv in MG.
  set (m := v3_magnitude_b64 v) in *. assert (M1 : 1 - 3.7e-15 <= m <= 1 + 3.7e-15) by (clear - MG N1; lra).
  assert (K1 : err 3.75e-15 (1 / m) 1).
  { unfold err. apply Rabs_le. assert (X1 : 1 / m <= 1 + 3.75e-15) by (apply div_le; lra). assert (X2 : 1 - 3.75e-15 <= 1 / m) by (apply le_div; lra). lra. }
  assert (K2 : err 3.9e-15 (b64 (1 / m)) 1) by (apply (err_round _ _ _ 1 _ K1); [rewrite Rabs_R1|]; lra).
  exists (V3 (b64 (a' * b64 (1 / m))) (b64 (b' * b64 (1 / m))) (b64 (c' * b64 (1 / m)))). split.
  { unfold v3_normalized_b64. fold v. fold m. unfold pdiv_b64. rewrite pdiv_ok by lra. reflexivity. }
  assert (O : Rabs 1 <= 1) by (rewrite Rabs_R1; lra).
  unfold vec_err; cbn [x3 y3 z3]. split; [|split].
  - rewrite <- (Rmult_1_r a). apply (err_mulr _ _ _ _ _ _ 1 1 _ F1 K2); auto; lra.
  - rewrite <- (Rmult_1_r b). apply (err_mulr _ _ _ _ _ _ 1 1 _ F2 K2); auto; lra.
  - rewrite <- (Rmult_1_r c). apply (err_mulr _ _ _ _ _ _ 1 1 _ F3 K2); auto; lra.
Qed.

(** * A combination of the two directions *)
Lemma combine A P Q p' q' x' x y' y dx dy : 1e-20 <= A -> Rabs P <= 1 -> Rabs Q <= 1 -> err 5.9e-15 p' P -> err 1.8e-15 q' Q ->
  Rabs x <= 2 * A -> Rabs y <= A -> err (dx * A) x' x -> err (dy * A) y' y -> 0 <= dx <= 1e-8 -> 0 <= dy <= 1e-8 ->
  err ((1.03 * (dx + dy) + 1.6e-14) * A) (b64 (b64 (p' * x') + b64 (q' * y'))) (P * x + Q * y).
Proof.
  intros HA BP BQ EP EQ BX BY EX EY DX DY. assert (0 <= dx * A) by nra. assert (0 <= dy * A) by nra.
  assert (E1 : err (1.0101 * (dx * A) + 1.2145e-14 * A) (b64 (p' * x')) (P * x)).
  { apply (err_mulr _ _ _ _ _ _ 1 (2 * A) _ EP EX); auto. lra. }
  assert (E2 : err (1.0101 * (dy * A) + 1.94e-15 * A) (b64 (q' * y')) (Q * y)).
  { apply (err_mulr _ _ _ _ _ _ 1 A _ EQ EY); auto. lra. }
  apply (err_addr _ _ _ _ _ _ (3 * A) _ E1 E2).
  - eapply Rle_trans; [apply Rabs_triang|]. assert (Rabs (P * x) <= 1 * (2 * A)) by (apply abs_mul_le; auto).
    assert (Rabs (Q * y) <= 1 * A) by (apply abs_mul_le; auto). lra.
  - lra.
Qed.

(** * Relative errors *)
Definition rel (d x' x : R) : Prop := Rabs (x' - x) <= d * Rabs x.
Lemma rel_err d x' x X : rel d x' x -> 0 <= d -> Rabs x <= X -> err (d * X) x' x.
Proof. unfold rel, err. intros H P B. eapply Rle_trans; [exact H|]. apply Rmult_le_compat_l; auto. Qed.
Lemma rel_upper d x' x : rel d x' x -> Rabs x' <= (1 + d) * Rabs x.
Proof. unfold rel. intros H. assert (T := Rabs_triang x (x' - x)). replace (x + (x' - x)) with x' in T by ring. lra. Qed.
Lemma rel_lower d x' x : rel d x' x -> (1 - d) * Rabs x <= Rabs x'.
Proof. unfold rel. intros H. assert (T := Rabs_triang_inv x (x - x')). replace (x - (x - x')) with x' in T by ring. rewrite (Rabs_minus_sym x x') in T. lra. Qed.
Lemma rel_mul d1 d2 x' x y' y d : 0 <= d1 <= 1e-6 -> rel d1 x' x -> rel d2 y' y -> d1 + 1.000001 * d2 <= d -> 0 <= d2 -> rel d (x' * y') (x * y).
Proof.
  intros D1 X Y D D2. assert (U := rel_upper _ _ _ X). unfold rel in *. rewrite Rabs_mult.
  replace (x' * y' - x * y) with ((x' - x) * y + x' * (y' - y)) by ring. eapply Rle_trans; [apply Rabs_triang|]. rewrite !Rabs_mult.
  assert (PX := Rabs_pos x). assert (PY := Rabs_pos y). assert (PX' := Rabs_pos x').
  assert (E1 : Rabs (x' - x) * Rabs y <= d1 * Rabs x * Rabs y) by (apply Rmult_le_compat_r; auto).
  assert (E2 : Rabs x' * Rabs (y' - y) <= ((1 + d1) * Rabs x) * (d2 * Rabs y)) by (apply Rmult_le_compat; auto using Rabs_pos).
  assert (XY : 0 <= Rabs x * Rabs y) by (apply Rmult_le_pos; auto).
  replace (((1 + d1) * Rabs x) * (d2 * Rabs y)) with ((1 + d1) * d2 * (Rabs x * Rabs y)) in E2 by ring.
  assert (E3 : (1 + d1) * d2 <= 1.000001 * d2) by (clear - D1 D2; nra).
  assert (E4 : (1 + d1) * d2 * (Rabs x * Rabs y) <= 1.000001 * d2 * (Rabs x * Rabs y)) by (apply Rmult_le_compat_r; auto).
  assert (E5 : (d1 + 1.000001 * d2) * (Rabs x * Rabs y) <= d * (Rabs x * Rabs y)) by (apply Rmult_le_compat_r; auto).
  lra.
Qed.
Lemma rel_round d x' x d' : rel d x' x -> 0 <= d <= 1e-6 -> 1e-30 <= Rabs x -> d + 1.121e-16 <= d' -> rel d' (b64 x') x.
Proof.
  intros X D L H. assert (U := rel_upper _ _ _ X). assert (F := b64_fine x'). unfold rel in *.
  replace (b64 x' - x) with ((b64 x' - x') + (x' - x)) by ring. eapply Rle_trans; [apply Rabs_triang|].
  assert ((1 + d) * Rabs x <= 1.000001 * Rabs x) by (apply Rmult_le_compat_r; lra).
  assert ((d + 1.121e-16) * Rabs x <= d' * Rabs x) by (apply Rmult_le_compat_r; lra). lra.
Qed.
Lemma rel_inv d x' x : rel d x' x -> 0 <= d <= 1e-6 -> x <> 0 -> rel (1.00001 * d) (1 / x') (1 / x).
Proof.
  intros H D NZ. assert (L := rel_lower _ _ _ H). assert (P := Rabs_pos_lt x NZ).
  assert (L' : 0.999999 * Rabs x <= Rabs x') by (eapply Rle_trans; [|exact L]; apply Rmult_le_compat_r; lra).
  assert (NZ' : x' <> 0) by (intros E; rewrite E, Rabs_R0 in L'; lra).
  unfold rel in *. replace (1 / x' - 1 / x) with (- (x' - x) * / x' * / x) by (field; auto).
  replace (1 / x) with (/ x) by (field; auto).
  rewrite !Rabs_mult, Rabs_Ropp, !Rabs_inv.
  assert (Pi : 0 < / Rabs x) by now apply Rinv_0_lt_compat. apply Rmult_le_compat_r; [lra|].
  apply Rmult_le_reg_r with (Rabs x'); [lra|]. rewrite Rmult_assoc, Rinv_l, Rmult_1_r by lra.
  eapply Rle_trans; [exact H|]. set (X := Rabs x) in *. set (X' := Rabs x') in *.
  assert (1.00001 * d * (0.999999 * X) <= 1.00001 * d * X') by (apply Rmult_le_compat_l; lra).
  assert (0 <= d * X) by (apply Rmult_le_pos; lra). lra.
Qed.
Lemma near_rel k x' x : near k x' x -> rel (k * 1e-16) x' x.
Proof. auto. Qed.

(** * The anomaly *)
Lemma anomaly_pair L f1 f2 ma e ea x : accurate_trig L -> 0 <= e <= 0.99 -> -3.14 <= ma <= 2 * math_pi ->
  EA_from_ma_e_b64 L f1 ma e = Ok ea -> EA_from_ma_e f2 ma e = Ok x ->
  err (6.3e-15 * / (1 - e)) (sinf L ea) (sin x) /\ err (6.3e-15 * / (1 - e)) (cosf L ea) (cos x).
Proof.
  intros HL He Hm HE HX. destruct (solver_value _ _ _ _ _ HL He Hm HE) as (s & k & Es & Hk & A & [R0 R1]).
  assert (He2 : 0 <= e < 1) by lra. destruct (EA_error _ _ _ _ He2 HX) as (s' & k' & Hk' & Es' & A').
  assert (s' = s) by (apply (kf_inj e); auto; unfold kf; lra). subst s'.
  assert (PB := PI_bounds). destruct (HL ea ltac:(rewrite Rabs_pos_eq; lra)) as [HS HC].
  destruct (den_range e 0 He) as [[g0 g1] _]. assert (Q0 : 1 <= / (1 - e)) by (rewrite <- Rinv_1 at 1; apply Rinv_le_contravar; lra).
  unfold Rdiv in A, A'. set (h := / (1 - e)) in *.
  assert (T : forall y z (j : Z), Rabs (y - (z + 2 * PI * IZR j)) <= Rabs (y - (z + 2 * PI * IZR j))) by (intros; lra).
  assert (S1 := sin_lip ea (s + 2 * PI * IZR k)). assert (S2 := sin_lip x (s + 2 * PI * IZR k')).
  assert (C1 := cos_lip ea (s + 2 * PI * IZR k)). assert (C2 := cos_lip x (s + 2 * PI * IZR k')).
  rewrite sin_shift_Z in S1, S2.
  assert (CZ : forall j : Z, (j = 0 \/ j = 1)%Z -> cos (s + 2 * PI * IZR j) = cos s).
  { intros j [->| ->]. - f_equal. ring. - rewrite Rmult_1_r, cos_plus, cos_2PI, sin_2PI. ring. }
  rewrite CZ in C1, C2 by auto. unfold err. split.
  - replace (sinf L ea - sin x) with ((sinf L ea - sin ea) + ((sin ea - sin s) - (sin x - sin s))) by ring.
    eapply Rle_trans; [apply Rabs_triang|]. unfold Rminus at 2. assert (U := Rabs_triang (sin ea - sin s) (- (sin x - sin s))). rewrite Rabs_Ropp in U. lra.
  - replace (cosf L ea - cos x) with ((cosf L ea - cos ea) + ((cos ea - cos s) - (cos x - cos s))) by ring.
    eapply Rle_trans; [apply Rabs_triang|]. unfold Rminus at 2. assert (U := Rabs_triang (cos ea - cos s) (- (cos x - cos s))). rewrite Rabs_Ropp in U. lra.
Qed.

(** * The scalars of the orbit *)
Lemma mu_rel a : 1 <= a <= 1e9 -> exists q root, pdiv_b64 MU_b64 a = Ok q /\ psqrt_b64 q = Ok root /\ rel 3.6e-16 root (sqrt (mu_earth / a)).
Proof.
  intros Ha. assert (M : near 1.13 MU_b64 Earth_MU) by (apply b64_near; unfold Earth_MU; rewrite Rabs_pos_eq; lra).
  assert (Q : 3e-4 <= mu_earth / a).
  { apply le_div; [lra|]. unfold mu_earth. lra. }
  assert (Q1 : near 1.15 (MU_b64 / a) (mu_earth / a)).
  { replace 1.15 with (1.13 + 0 + 0.02) by lra. apply near_div; try lra; auto. apply near_refl. }
  assert (Q2 : near 2.29 (b64 (MU_b64 / a)) (mu_earth / a)).
  { replace 2.29 with (1.15 + 1.14) by lra. apply near_round; auto; [lra|]. rewrite Rabs_pos_eq; lra. }
  assert (P2 : 0 <= b64 (MU_b64 / a)).
  { unfold near in Q2. rewrite (Rabs_pos_eq (mu_earth / a)) in Q2 by lra. apply Rabs_le_inv in Q2. lra. }
  assert (Q3 : near 1.16 (sqrt (b64 (MU_b64 / a))) (sqrt (mu_earth / a))).
  { apply near_weaken with (2.29 / 2 + 0.01); [|lra]. apply near_sqrt; auto; lra. }
  assert (SQ : 1e-4 <= sqrt (mu_earth / a)).
  { rewrite <- (sqrt_square 1e-4) by lra. apply sqrt_le_1_alt. lra. }
  exists (b64 (MU_b64 / a)), (b64 (sqrt (b64 (MU_b64 / a)))). split; [|split].
  - unfold pdiv_b64. rewrite pdiv_ok by lra. auto.
  - unfold psqrt_b64. rewrite psqrt_ok by auto. auto.
  - replace 3.6e-16 with (3.6 * 1e-16) by lra. apply near_rel. apply near_weaken with (1.16 + 1.14); [|lra]. apply near_round; auto; [lra|]. rewrite Rabs_pos_eq; lra.
Qed.

Lemma minor_b64 e : 0 <= e <= 0.99 -> exists sb, psqrt_b64 (b64 (1 - b64 (e * e))) = Ok sb /\ err 1.1e-15 sb (sqrt (1 - e * e)) /\ 0 < sqrt (1 - e * e) <= 1.
Proof.
  intros He. assert (E0 : 0 <= e * e <= 0.9801) by nra. set (q := e * e) in *.
  assert (A := b64_within q 0.9801 ltac:(apply Rabs_le; lra)). set (q' := b64 q) in *.
  assert (B := b64_within (1 - q') 1.01 ltac:(apply Rabs_le; lra)). set (m' := b64 (1 - q')) in *.
  assert (MM : err 2.3e-16 m' (1 - q)) by (apply Rabs_le; lra). assert (P : 0.0198 <= m') by lra.
  assert (S0 := sqrt_sqrt (1 - q) ltac:(lra)). assert (S1 := sqrt_sqrt m' ltac:(lra)).
  assert (T0 : 0.14 <= sqrt (1 - q)). { rewrite <- (sqrt_square 0.14) by lra. apply sqrt_le_1_alt. lra. }
  assert (T1 : 0.14 <= sqrt m'). { rewrite <- (sqrt_square 0.14) by lra. apply sqrt_le_1_alt. lra. }
  assert (U0 : sqrt (1 - q) <= 1). { rewrite <- sqrt_1 at 2. apply sqrt_le_1_alt. lra. }
  exists (b64 (sqrt m')). split; [|split; [|lra]].
  - unfold psqrt_b64. rewrite psqrt_ok by lra. auto.
  - apply (err_round 9e-16 _ _ 1).
    + unfold err in *. set (s := sqrt (1 - q)) in *. set (s' := sqrt m') in *. apply Rabs_le_inv in MM.
      assert (D : (s' - s) * (s' + s) = m' - (1 - q)) by (rewrite <- S0, <- S1; ring). apply Rabs_le. clear - D MM T0 T1. split; nra.
    + rewrite Rabs_pos_eq; lra.
    + lra.
Qed.

(** * The state *)
Lemma state_b64 L f1 f2 el s : accurate_trig L -> small_angles el -> 1 <= semimajor_axis el <= 1e9 -> 0 <= eccentricity el <= 0.99 ->
  -3.14 <= mean_anomaly el <= 2 * math_pi -> elements_to_ijk f2 el = Ok s ->
  (exists ea, EA_from_ma_e_b64 L f1 (mean_anomaly el) (eccentricity el) = Ok ea) ->
  exists s', elements_to_ijk_b64 L f1 el = Ok s' /\ s_epoch s' = el_epoch el /\
    vec_err (3.2e-14 * / (1 - eccentricity el) * semimajor_axis el) (s_position s') (s_position s) /\
    vec_err (5.2e-14 * / (1 - eccentricity el) ^ 3 * sqrt (mu_earth / semimajor_axis el)) (s_velocity s') (s_velocity s).
Proof.
  intros HL HA Ha He Hm HS [ea HE]. destruct (to_ijk_inv _ _ _ HS) as [x HX].
  rewrite (to_ijk_ok _ _ x) in HS by (auto; lra). injection HS as <-. cbn [s_position s_velocity s_epoch].
  destruct (anomaly_pair L f1 f2 _ _ ea x HL He Hm HE HX) as [ES EC].
  destruct (perigee_b64 L el HL HA) as (p & Hp & P1 & P2 & P3). destruct (semilatus_b64 L el HL HA) as (Q1 & Q2 & Q3).
  destruct (mu_rel _ Ha) as (qm & root & R1 & R2 & R3). destruct (minor_b64 _ He) as (sb & B1 & B2 & B3).
  destruct (unit_parts _ (along_unit (raan el) (inclination el) (argument_of_perigee el))) as (U1 & U2 & U3).
  destruct (unit_parts _ (ahead_unit (raan el) (inclination el) (argument_of_perigee el))) as (V1 & V2 & V3).
  unfold elements_to_ijk_b64. rewrite Hp. cbn [bind]. rewrite HE. cbn [bind].
  unfold place, motion. set (q := semilatus_rectum_vector_b64 L el) in *. set (o1 := along _ _ _) in *. set (o2 := ahead _ _ _) in *.
  destruct (den_range _ x He) as [[g0 g1] [D0 D1]]. set (a := semimajor_axis el) in *. set (e := eccentricity el) in *.
  set (D := 1 - e * cos x) in *. set (c := cosf L ea) in *. set (n := sinf L ea) in *.
  assert (H1 : 1 <= / (1 - e) <= 100).
  { split; [rewrite <- Rinv_1 at 1; apply Rinv_le_contravar; lra|]. replace 100 with (/ 0.01) by lra. apply Rinv_le_contravar; lra. }
  assert (HD : / D <= / (1 - e)) by (apply Rinv_le_contravar; lra).
  assert (ID : 0 < / D) by (apply Rinv_0_lt_compat; lra).
  replace (/ (1 - e) ^ 3) with (/ (1 - e) * (/ (1 - e) * / (1 - e))) by (field; lra).
  set (h := / (1 - e)) in *.
  assert (AS := abs_sin x). assert (AC := abs_cos x).
  assert (E0 : err 0 e e) by (unfold err; rewrite Rminus_eq_0, Rabs_R0; lra).
  assert (A0 : err 0 a a) by (unfold err; rewrite Rminus_eq_0, Rabs_R0; lra).
  assert (O0 : err 0 1 1) by (unfold err; rewrite Rminus_eq_0, Rabs_R0; lra).
  assert (AE : Rabs e <= 1) by (apply Rabs_le; lra). assert (AA : Rabs a <= a) by (rewrite Rabs_pos_eq; lra).
  (* the distance *)
  assert (T1 : err (6.5e-15 * h) (b64 (e * c)) (e * cos x)) by (apply (err_mulr _ _ _ _ _ _ 1 1 _ E0 EC); auto; lra).
  assert (T2 : err (6.9e-15 * h) (b64 (1 - b64 (e * c))) D).
  { unfold D. apply (err_subr _ _ _ _ _ _ 2 _ O0 T1); [fold D; apply Rabs_le; lra|lra]. }
  assert (ha : a <= a * h) by nra.
  assert (T3 : err (7.3e-15 * (a * h)) (b64 (a * b64 (1 - b64 (e * c)))) (a * D)).
  { apply (err_mulr _ _ _ _ _ _ a 2 _ A0 T2); auto; [apply Rabs_le; lra|]. lra. }
  set (r := b64 (a * b64 (1 - b64 (e * c)))) in *.
  assert (aD : 0 < a * D) by (apply Rmult_lt_0_compat; lra).
  assert (hh1 : 1 <= h * h <= 10000) by nra.
  assert (hh2 : h <= h * h) by nra.
  assert (T4 : rel (7.3e-15 * (h * h)) r (a * D)).
  { unfold rel. rewrite (Rabs_pos_eq (a * D)) by lra. eapply Rle_trans; [exact T3|].
    assert (1 <= h * D). { apply Rmult_le_reg_r with (/ D); auto. rewrite Rmult_assoc, Rinv_r by lra. lra. }
    assert (a * h <= a * h * (h * D)) by (clear - H Ha H1; assert (0 <= a * h) by nra; nra). lra. }
  assert (r0 : r <> 0).
  { intros Z. rewrite Z in T4. unfold rel in T4. replace (0 - a * D) with (- (a * D)) in T4 by ring. rewrite Rabs_Ropp, (Rabs_pos_eq (a * D)) in T4 by lra.
    assert (7.3e-15 * (h * h) * (a * D) <= 1e-6 * (a * D)) by (apply Rmult_le_compat_r; lra). lra. }
  unfold pdiv_b64 at 1. rewrite pdiv_ok by auto. cbn [bind]. rewrite R1. cbn [bind]. rewrite R2. cbn [bind]. rewrite B1. cbn [bind].
  assert (IaD : 1e-10 <= 1 / (a * D)).
  { apply le_div; auto. assert (a * D <= 1e9 * 2) by (apply Rmult_le_compat; lra). lra. }
  assert (T5 : rel (7.42e-15 * (h * h)) (b64 (1 / r)) (1 / (a * D))).
  { apply (rel_round _ _ _ _ (rel_inv _ _ _ T4 ltac:(lra) ltac:(lra))); [lra|rewrite Rabs_pos_eq; lra|lra]. }
  set (V := sqrt (mu_earth / a)) in *.
  assert (V0 : 1e-4 <= V).
  { unfold V. rewrite <- (sqrt_square 1e-4) by lra. apply sqrt_le_1_alt. apply le_div; [lra|]. unfold mu_earth. lra. }
  set (E := 1 / (a * D) * V). assert (EP : 1e-14 <= E) by (unfold E; clear - IaD V0; nra).
  assert (T6 : rel (7.92e-15 * (h * h)) (b64 (b64 (1 / r) * root)) E).
  { apply rel_round with (7.79e-15 * (h * h)); [|lra|rewrite Rabs_pos_eq; lra|lra].
    refine (rel_mul _ _ _ _ _ _ _ _ T5 R3 _ _); lra. }
  set (ed := b64 (b64 (1 / r) * root)) in *.
  assert (T7 := rel_err _ _ _ E T6 ltac:(lra) ltac:(rewrite Rabs_pos_eq; lra)).
  assert (AEE : Rabs E <= E) by (rewrite Rabs_pos_eq; lra).
  set (W := a * E). assert (EW : W = V / D) by (unfold W, E; field; lra).
  assert (W0 : 1e-14 <= W) by (unfold W; clear - Ha EP; nra).
  assert (W1 : W <= W * (h * h)) by (clear - W0 hh1; nra).
  assert (W2 : 0 <= W * (h * h)) by lra. 
  (* in-plane coordinates *)
  assert (X1 : err (6.7e-15 * h) (b64 (c - e)) (cos x - e)).
  { apply (err_subr _ _ _ _ _ _ 2 _ EC E0); [|lra]. apply Rabs_le. apply Rabs_le_inv in AC. lra. }
  assert (X2 : err (7.1e-15 * h * a) (b64 (a * b64 (c - e))) (a * (cos x - e))).
  { apply (err_mulr _ _ _ _ _ _ a 2 _ A0 X1); auto; [|lra]. apply Rabs_le. apply Rabs_le_inv in AC. lra. }
  assert (Y0 : err (1.3e-15 * a) (b64 (a * sb)) (a * sqrt (1 - e * e))).
  { apply (err_mulr _ _ _ _ _ _ a 1 _ A0 B2); auto; [apply Rabs_le; lra|lra]. }
  assert (AB : Rabs (a * sqrt (1 - e * e)) <= a) by (rewrite <- (Rmult_1_r a) at 2; apply abs_mul_le; auto; apply Rabs_le; lra).
  assert (Y1 : err (7.9e-15 * h * a) (b64 (b64 (a * sb) * n)) (a * sqrt (1 - e * e) * sin x)).
  { apply (err_mulr _ _ _ _ _ _ a 1 _ Y0 ES); auto. 
    assert (0 <= a * h) by lra. lra. }
  assert (XX : Rabs (a * (cos x - e)) <= 2 * a).
  { rewrite (Rmult_comm 2). apply abs_mul_le; auto. apply Rabs_le. apply Rabs_le_inv in AC. lra. }
  assert (YY : Rabs (a * sqrt (1 - e * e) * sin x) <= a) by (rewrite <- (Rmult_1_r a) at 2; apply abs_mul_le; auto).
  (* in-plane rates *)
  assert (Z1 : err (8.15e-15 * (W * (h * h))) (b64 (- a * ed)) (- W)).
  { unfold W. replace (- (a * E)) with (- a * E) by ring. apply err_opp in A0.
    apply (err_mulr _ _ _ _ _ _ a E _ A0 T7); auto; [now rewrite Rabs_Ropp|]. 
    fold W. replace ((0 * E + (a + 0) * (7.92e-15 * (h * h) * E))) with (7.92e-15 * (W * (h * h))) by (unfold W; ring). fold W in W1. lra. }
  assert (AW : Rabs W <= W) by (rewrite Rabs_pos_eq; lra).
  assert (Wh : W * h <= W * (h * h)) by (apply Rmult_le_compat_l; lra).
  assert (Wh3 : W * (h * h) * h <= 100 * (W * (h * h))) by (rewrite Rmult_comm; apply Rmult_le_compat_r; lra).
  assert (Z2 : err (1.48e-14 * (h * h) * W) (b64 (b64 (- a * ed) * n)) (- W * sin x)).
  { apply (err_mulr _ _ _ _ _ _ W 1 _ Z1 ES); auto; [now rewrite Rabs_Ropp|]. lra. }
  assert (Z3 : err (9.7e-15 * (W * (h * h))) (b64 (b64 (a * sb) * ed)) (W * sqrt (1 - e * e))).
  { replace (W * sqrt (1 - e * e)) with (a * sqrt (1 - e * e) * E) by (unfold W; ring).
    apply (err_mulr _ _ _ _ _ _ a E _ Y0 T7); auto.
    replace (1.3e-15 * a * E + (a + 1.3e-15 * a) * (7.92e-15 * (h * h) * E)) with (1.3e-15 * W + (1 + 1.3e-15) * (7.92e-15 * (W * (h * h)))) by (unfold W; ring).
    fold W. lra. }
  assert (AWB : Rabs (W * sqrt (1 - e * e)) <= W) by (rewrite <- (Rmult_1_r W) at 2; apply abs_mul_le; auto; apply Rabs_le; lra).
  assert (Z4 : err (1.65e-14 * (h * h) * W) (b64 (b64 (b64 (a * sb) * ed) * c)) (W * sqrt (1 - e * e) * cos x)).
  { apply (err_mulr _ _ _ _ _ _ W 1 _ Z3 EC); auto. lra. }
  assert (XD : Rabs (- W * sin x) <= 2 * W).
  { assert (Rabs (- W * sin x) <= W * 1) by (apply abs_mul_le; auto; now rewrite Rabs_Ropp). lra. }
  assert (YD : Rabs (W * sqrt (1 - e * e) * cos x) <= W) by (rewrite <- (Rmult_1_r W) at 2; apply abs_mul_le; auto).
  assert (POS : forall P Q p' q', Rabs P <= 1 -> Rabs Q <= 1 -> err 5.9e-15 p' P -> err 1.8e-15 q' Q ->
    err (3.2e-14 * h * a) (b64 (b64 (p' * b64 (a * b64 (c - e))) + b64 (q' * b64 (b64 (a * sb) * n)))) (P * (a * (cos x - e)) + Q * (a * sqrt (1 - e * e) * sin x))).
  { intros P Q p' q' BP BQ HP HQ. eapply err_weaken; [apply (combine a P Q p' q' _ _ _ _ _ _ ltac:(lra) BP BQ HP HQ XX YY X2 Y1); lra|].
    apply Rmult_le_compat_r; lra. }
  assert (VEL : forall P Q p' q', Rabs P <= 1 -> Rabs Q <= 1 -> err 5.9e-15 p' P -> err 1.8e-15 q' Q ->
    err (5.2e-14 * (h * (h * h)) * V) (b64 (b64 (p' * b64 (b64 (- a * ed) * n)) + b64 (q' * b64 (b64 (b64 (a * sb) * ed) * c)))) (P * (- W * sin x) + Q * (W * sqrt (1 - e * e) * cos x))).
  { intros P Q p' q' BP BQ HP HQ. eapply err_weaken; [apply (combine W P Q p' q' _ _ _ _ _ _ ltac:(lra) BP BQ HP HQ XD YD Z2 Z4); lra|].
    apply Rle_trans with (5.2e-14 * (h * h) * W); [apply Rmult_le_compat_r; lra|].
    assert (W <= h * V). { rewrite EW. unfold Rdiv. rewrite Rmult_comm. apply Rmult_le_compat_r; lra. }
    replace (5.2e-14 * (h * (h * h)) * V) with (5.2e-14 * (h * h) * (h * V)) by ring. apply Rmult_le_compat_l; lra. }
  eexists. split; [reflexivity|]. cbn [s_epoch s_position s_velocity]. split; [auto|].
  fold V. replace (V / D) with W by auto.
  unfold vec_err, v3_plus_b64, v3_scaled_b64, add, scale. cbn [x3 y3 z3].
  split; (split; [|split]).
  - rewrite (Rmult_comm (a * (cos x - e))), (Rmult_comm (a * sqrt (1 - e * e) * sin x)). apply POS; auto.
  - rewrite (Rmult_comm (a * (cos x - e))), (Rmult_comm (a * sqrt (1 - e * e) * sin x)). apply POS; auto.
  - rewrite (Rmult_comm (a * (cos x - e))), (Rmult_comm (a * sqrt (1 - e * e) * sin x)). apply POS; auto.
  - rewrite (Rmult_comm (- W * sin x)), (Rmult_comm (W * sqrt (1 - e * e) * cos x)). apply VEL; auto.
  - rewrite (Rmult_comm (- W * sin x)), (Rmult_comm (W * sqrt (1 - e * e) * cos x)). apply VEL; auto.
  - rewrite (Rmult_comm (- W * sin x)), (Rmult_comm (W * sqrt (1 - e * e) * cos x)). apply VEL; auto.
Qed.
