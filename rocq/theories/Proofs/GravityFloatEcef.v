From Coq Require Import Reals ZArith List Lra Lia Psatz.
From Flocq Require Import Core.
From Verif.Model Require Import Num Constants Linalg Functions Time Celestial Positions States TimeFloat AngleFloat ElementsFloat FrameFloat GroundFloat EarthFloat BodyFloat ForceFloat GravityFloat.
From Verif.Spec Require Import Geometry LibmAccuracy FrameFloat SiderealFloat EarthFloat GroundFloat.
From Verif.Spec Require Import GravityFloat.
From Verif.Proofs Require Import NumLemmas LinalgProofs TimeFloatProofs AngleFloatProofs ElementsFloatProofs StateFloatProofs ClockProofs PiDigits Analysis FrameFloatBasics GroundFloatProofs OrbitFloatAngles OrbitFloatProofs EarthFloatProofs.
From Verif.Proofs Require Import GravityFloatBasics GravityFloatAngles GravityFloatSums.
Local Notation near := ElementsFloatProofs.near.
Local Open Scope R_scope.

Lemma gb_ulps w s X k d q' q : unit_range w -> 0 < s -> 0 <= k -> near k q' q -> Rabs q <= X * s -> 1.25e-6 * (k * X) <= d -> gb w s X d q' q.
Proof.
  intros W S K N Q D. split; [exact Q|]. unfold near in N. unfold unit_range in W. eapply Rle_trans; [exact N|].
  assert (P := Rabs_pos q). apply Rle_trans with (k * 1e-16 * (X * s)); [apply Rmult_le_compat_l; lra|].
  assert (A : 1e-16 <= 1.25e-6 * w) by lra. assert (XS : 0 <= X * s) by lra.
  apply Rle_trans with (1.25e-6 * (k * X) * (w * s)).
  - replace (k * 1e-16 * (X * s)) with (k * (X * s) * 1e-16) by ring. replace (1.25e-6 * (k * X) * (w * s)) with (k * (X * s) * (1.25e-6 * w)) by ring. apply Rmult_le_compat_l; [apply Rmult_le_pos; lra|exact A].
  - apply Rmult_le_compat_r; [apply Rmult_le_pos; lra|exact D].
Qed.

Lemma norm_xyz a x y z S : 0 <= S -> Rabs (x3 a) <= x * S -> Rabs (y3 a) <= y * S -> Rabs (z3 a) <= z * S -> forall k, 0 <= k -> x * x + y * y + z * z <= k * k -> norm a <= k * S.
Proof.
  intros S0 A B C k K H. assert (P : forall u b, Rabs u <= b -> u * u <= b * b). { intros u b U. apply Rabs_le_inv in U. nra. }
  apply P in A, B, C. apply Rsqr_incr_0_var; [|apply Rmult_le_pos; lra]. unfold Rsqr. rewrite norm_sq3. unfold dot.
  replace (k * S * (k * S)) with (k * k * (S * S)) by ring. apply Rle_trans with ((x * x + y * y + z * z) * (S * S)); [|apply Rmult_le_compat_r; [apply Rle_0_sqr|exact H]]. lra.
Qed.

Lemma near_pow2 k x' x : 0 <= k <= 7 -> near k x' x -> near (2 * k + 0.01) (x' ^ 2) (x ^ 2).
Proof. intros K H. replace (x' ^ 2) with (x' * x') by ring. replace (x ^ 2) with (x * x) by ring. eapply near_weaken; [apply near_mul; [| |exact H|exact H]; lra|lra]. Qed.
Lemma near_pow3 k x' x : 0 <= k <= 7 -> near k x' x -> near (3 * k + 0.02) (x' ^ 3) (x ^ 3).
Proof. intros K H. replace (x' ^ 3) with (x' * x' ^ 2) by ring. replace (x ^ 3) with (x * x ^ 2) by ring. eapply near_weaken; [apply near_mul; [| |exact H|apply near_pow2; [|exact H]]; lra|lra]. Qed.
Lemma near_pow4 k x' x : 0 <= k <= 7 -> near k x' x -> near (4 * k + 0.03) (x' ^ 4) (x ^ 4).
Proof. intros K H. replace (x' ^ 4) with (x' * x' ^ 3) by ring. replace (x ^ 4) with (x * x ^ 3) by ring. eapply near_weaken; [apply near_mul; [| |exact H|apply near_pow3; [|exact H]]; lra|lra]. Qed.
Lemma near_after k l z y x : 0 <= k <= 100 -> near l z y -> near k y x -> 0 <= l <= 3 -> near (k + l + 0.01) z x.
Proof.
  intros K A B L. assert (U := near_upper _ _ _ K B). unfold near in *. assert (P := Rabs_pos x). assert (P' := Rabs_pos y).
  replace (z - x) with ((z - y) + (y - x)) by ring. eapply Rle_trans; [apply Rabs_triang|].
  assert (l * 1e-16 * Rabs y <= l * 1e-16 * ((1 + k * 1e-16) * Rabs x)) by (apply Rmult_le_compat_l; [lra|exact U]).
  assert (l * (k * Rabs x) <= 3 * (100 * Rabs x)) by (apply Rmult_le_compat; [lra|apply Rmult_le_pos; lra|lra|apply Rmult_le_compat_r; lra]). lra.
Qed.

Ltac scal := assumption.

Lemma ecef_close L tanf w R r' e' e : unit_range w -> accurate_circular L -> accurate_polar L -> accurate_tangent tanf -> accurate_power L ->
  6378.137 <= R <= 1e6 -> near 2.9 r' R -> norm (sub e' e) <= w * R -> 0.99999 * R <= norm e <= 1.00001 * R -> 0.1 * R <= hyp e ->
  exists a' a, gravity_ecef_b64 L tanf e' r' = Ok a' /\ gravity_ecef e R = Ok a /\
    let S := (Earth_RADIUS / R) ^ 2 * (Earth_MU / R) / R in norm (sub a' a) <= 3.04 * (w * S) /\ norm a <= 0.073 * S.
Proof.
  intros W AC AP AT AW RB NR V NE HE. assert (WU := W). unfold unit_range in WU.
  destruct (angles_close L tanf w R e' e W AC AP AT ltac:(lra) V NE HE) as (HD & CA & RA & GC & GS & GT).
  assert (M0 := multiple_gb L w 0 _ _ 14.41 1e-3 W AC ltac:(lia) CA RA ltac:(cbn [INR]; lra)).
  assert (M1 := multiple_gb L w 1 _ _ 14.41 1.4432e1 W AC ltac:(lia) CA RA ltac:(cbn [INR]; lra)).
  assert (M2 := multiple_gb L w 2 _ _ 14.41 2.8862e1 W AC ltac:(lia) CA RA ltac:(cbn [INR]; lra)).
  assert (M3 := multiple_gb L w 3 _ _ 14.41 4.3292e1 W AC ltac:(lia) CA RA ltac:(cbn [INR]; lra)).
  assert (M4 := multiple_gb L w 4 _ _ 14.41 5.7722e1 W AC ltac:(lia) CA RA ltac:(cbn [INR]; lra)).
  destruct M0 as [C0 S0], M1 as [C1 S1], M2 as [C2 S2], M3 as [C3 S3], M4 as [C4 S4].
  assert (RP := near_abs _ _ _ (ltac:(lra) : 0 <= R) NR).
  assert (WR : 0 < w * R <= 2.8e-8 * R) by (split; [apply Rmult_lt_0_compat; lra|apply Rmult_le_compat_r; lra]). assert (WL : 8e-11 * R <= w * R) by (apply Rmult_le_compat_r; lra).
  set (h := hyp e) in *. set (h' := hyp_b64 e') in *. assert (HB := Rabs_le_inv _ _ HD). assert (HU : h <= 1.00001 * R) by (assert (Z := hyp_le_norm e); fold h in Z; lra).
  assert (HP : 0.099 * R <= h' <= 1.0001 * R) by lra.
  unfold gravity_ecef_b64, gravity_ecef. fold (hyp e) h. change (b64 (sqrt (b64 (b64 (x3 e' * x3 e') + b64 (y3 e' * y3 e'))))) with h'.
  rewrite (div_ok 1 r') by lra. rewrite (pdiv_ok 1 R) by lra. cbn [bind]. rewrite (div_ok 1 h') by lra. rewrite (pdiv_ok 1 h) by lra. cbn [bind].
  (* reciprocals *)
  assert (IR : 0 < / R) by (apply Rinv_0_lt_compat; lra).
  assert (IB : / 1e6 <= / R <= / 6378.137) by (split; apply Rinv_le_contravar; lra).
  assert (OR : 1 / R = / R) by (unfold Rdiv; ring).
  assert (N1 : near 4.06 (b64 (1 / r')) (1 / R)).
  { eapply near_weaken; [apply (near_round 2.92); [lra| |]|lra]; [eapply near_weaken; [apply (near_div 0 2.9); [lra|lra|lra|apply near_refl|exact NR]|lra]|]. rewrite OR, Rabs_pos_eq; lra. }
  set (i := / R) in *. set (ri' := b64 (1 / r')) in *.
  assert (N2 : near 6.36 (b64 (MU_b64 * ri')) (Earth_MU * (1 / R))).
  { eapply near_weaken; [apply (near_round 5.2); [lra| |]|lra]; [eapply near_weaken; [apply (near_mul 1.13 4.06); [lra|lra|exact mu_near|exact N1]|lra]|]. rewrite OR, Rabs_pos_eq by (unfold Earth_MU; apply Rmult_le_pos; lra). unfold Earth_MU. lra. }
  assert (N3 : near 6.36 (b64 (b64 Earth_RADIUS * ri')) (Earth_RADIUS * (1 / R))).
  { eapply near_weaken; [apply (near_round 5.2); [lra| |]|lra]; [eapply near_weaken; [apply (near_mul 1.13 4.06); [lra|lra|apply b64_near_pos; unfold Earth_RADIUS; lra|exact N1]|lra]|]. rewrite OR, Rabs_pos_eq by (unfold Earth_RADIUS; apply Rmult_le_pos; lra). unfold Earth_RADIUS. lra. }
  set (rr' := b64 (b64 Earth_RADIUS * ri')) in *. set (rr := Earth_RADIUS * (1 / R)) in *. set (mu' := b64 (MU_b64 * ri')) in *. set (m := Earth_MU * (1 / R)) in *.
  assert (RI1 : R * i = 1) by (unfold i; apply Rinv_r; lra).
  assert (RRB : 0.006 <= rr <= 1). { unfold rr, Earth_RADIUS. rewrite OR. split; [|apply Rmult_le_reg_r with R; [lra|]; replace (6378.137 * i * R) with (6378.137 * (R * i)) by ring; rewrite RI1; lra]. lra. }
  assert (MB : 0.39 <= m <= 63) by (unfold m, Earth_MU; rewrite OR; lra).
  assert (MI : Earth_MU * / R = m) by (unfold m; rewrite OR; reflexivity).
  set (t := rr ^ 2).
  assert (TB : 3.6e-5 <= t <= 1). { unfold t. replace (rr ^ 2) with (rr * rr) by ring. split; [apply Rle_trans with (0.006 * 0.006); [lra|apply Rmult_le_compat; lra]|apply Rle_trans with (1 * 1); [apply Rmult_le_compat; lra|lra]]. }
  assert (RRP : near 6.36 rr' rr) by exact N3. assert (RR0 := near_abs _ _ _ (ltac:(lra) : 0 <= rr) RRP).
  assert (PW : forall n k d, (2 <= n <= 4)%nat -> near k (rr' ^ n) (rr ^ n) -> 0 <= k <= 26 -> 1.25e-6 * (k + 2.32) <= d -> gb w t 1 d (powf L rr' (of_nat n)) (npow rr n)).
  { intros n k d Hn Nk K D. unfold of_nat, npow. apply (gb_ulps w t 1 (k + 2.31)); [exact W|lra|lra| | |lra].
    - eapply near_weaken; [apply (near_after k 2.3 _ (rr' ^ n)); [lra| |exact Nk|lra]|lra]. unfold near. rewrite (Rabs_pos_eq (rr' ^ n)) by (apply pow_le; lra). eapply Rle_trans; [apply (AW rr' n); [lra|exact Hn]|]. apply Req_le. lra.
    - rewrite Rmult_1_l, Rabs_pos_eq by (apply pow_le; lra). replace n with (2 + (n - 2))%nat by lia. rewrite pow_add. fold t.
      rewrite <- (Rmult_1_r t) at 2. apply Rmult_le_compat_l; [lra|]. rewrite <- (pow1 (n - 2)). apply pow_incr. lra. }
  assert (E2 := PW 2%nat 12.73 2e-5 ltac:(lia) ltac:(eapply near_weaken; [apply near_pow2; [|exact RRP]; lra|lra]) ltac:(lra) ltac:(lra)).
  assert (E3 := PW 3%nat 19.1 4e-5 ltac:(lia) ltac:(eapply near_weaken; [apply near_pow3; [|exact RRP]; lra|lra]) ltac:(lra) ltac:(lra)).
  assert (E4 := PW 4%nat 25.47 6e-5 ltac:(lia) ltac:(eapply near_weaken; [apply near_pow4; [|exact RRP]; lra|lra]) ltac:(lra) ltac:(lra)).
  destruct (sums_close L tanf w t (spherical_from_cartesian_b64 L e') (spherical_from_cartesian e) rr' rr W ltac:(lra) GC GS GT C0 C1 C2 C3 C4 S0 S1 S2 S3 S4 E2 E3 E4) as (PR & PP & PL).
  clear GC GS GT C0 C1 C2 C3 C4 S0 S1 S2 S3 S4 E2 E3 E4 PW CA RA.
  cbv zeta. cbv zeta in PR, PP, PL.
  set (sm' := gravity_sums_b64 _ _ _ _ _) in *. set (sm := gravity_sums _ _ _) in *.
  set (sr' := partial_r sm') in *. set (sr := partial_r sm) in *. set (sp' := partial_phi sm') in *. set (sp := partial_phi sm) in *. set (sl' := partial_lamb sm') in *. set (sl := partial_lamb sm) in *.
  clearbody sr' sr sp' sp sl' sl.
  assert (RI : gb w i 1 1e-5 ri' (1 / R)) by (apply (gb_ulps w i 1 4.06); [exact W|lra|lra|exact N1|rewrite OR, Rabs_pos_eq; lra|lra]).
  assert (NRI := gopp _ _ _ _ _ _ RI).
  assert (MR : gb w m 1 1e-5 mu' m) by (apply (gb_ulps w m 1 6.36); [exact W|lra|lra|exact N2|rewrite Rabs_pos_eq; lra|lra]).
  (* distance from the axis *)
  assert (IH : Rabs (1 / h' - 1 / h) <= 101.5 * (w * i)).
  { replace (1 / h' - 1 / h) with ((h - h') * (/ h' * / h)) by (field; lra). rewrite Rabs_mult. rewrite (Rabs_minus_sym h h').
    assert (A1 : / h' <= / (0.099 * R)) by (apply Rinv_le_contravar; lra). assert (A2 : / h <= / (0.1 * R)) by (apply Rinv_le_contravar; lra).
    assert (A3 : 0 < / h') by (apply Rinv_0_lt_compat; lra). assert (A4 : 0 < / h) by (apply Rinv_0_lt_compat; lra).
    rewrite Rinv_mult in A1, A2 by lra. fold i in A1, A2.
    rewrite (Rabs_pos_eq (/ h' * / h)) by (apply Rmult_le_pos; lra).
    apply Rle_trans with (1.0001 * (w * R) * ((/ 0.099 * i) * (/ 0.1 * i))); [apply Rmult_le_compat; [apply Rabs_pos|apply Rmult_le_pos; lra|exact HD|apply Rmult_le_compat; lra]|].
    replace (1.0001 * (w * R) * (/ 0.099 * i * (/ 0.1 * i))) with (1.0001 * / 0.099 * / 0.1 * (w * i) * (R * i)) by ring. rewrite RI1.
    assert (0 < w * i) by (apply Rmult_lt_0_compat; lra). lra. }
  assert (IRT0 : gb w i 10 101.5 (1 / h') (1 / h)).
  { split; [|exact IH]. unfold Rdiv. rewrite Rmult_1_l, Rabs_pos_eq by (left; apply Rinv_0_lt_compat; lra). apply Rle_trans with (/ (0.1 * R)); [apply Rinv_le_contravar; lra|]. rewrite Rinv_mult by lra. fold i. lra. }
  assert (IRT := gb_round w i 10 101.5 101.6 _ _ W ltac:(lra) ltac:(lra) IRT0 ltac:(lra) ltac:(lra)).
  set (irt' := b64 (1 / h')) in *. set (irt := 1 / h) in *.
  assert (IP : 0 < irt) by (unfold irt; apply Rdiv_lt_0_compat; lra).
  assert (HI : / (1.0001 * R) <= / h') by (apply Rinv_le_contravar; lra).
  assert (NI : near 1.13 irt' (1 / h')).
  { apply b64_near_pos. unfold Rdiv. rewrite Rmult_1_l. rewrite Rinv_mult in HI by lra. fold i in HI. lra. }
  assert (IP' : 0 < irt').
  { assert (Q1 : 0 < 1 / h') by (apply Rdiv_lt_0_compat; lra). assert (Q2 := near_abs _ _ _ (Rlt_le _ _ Q1) NI). lra. }
  rewrite (div_ok 1 irt') by lra. rewrite (pdiv_ok 1 irt) by lra. cbn [bind].
  assert (DD : 1 / (1 / h') = h') by (field; lra).
  assert (N40 : near 1.15 (1 / irt') (1 / (1 / h'))).
  { eapply near_weaken; [apply (near_div 0 1.13); [lra|lra| |apply near_refl|exact NI]|lra]. apply Rgt_not_eq. apply Rdiv_lt_0_compat; lra. }
  rewrite DD in N40.
  assert (N4 : near 2.3 (b64 (1 / irt')) h') by (eapply near_weaken; [apply (near_round 1.15); [lra|exact N40|rewrite Rabs_pos_eq; lra]|lra]).
  assert (N5 := near_abs _ _ _ (ltac:(lra) : 0 <= h') N4).
  assert (ROOT : gb w R 1.00001 1.0003 (b64 (1 / irt')) (1 / irt)).
  { replace (1 / irt) with h by (unfold irt; field; lra). split; [rewrite Rabs_pos_eq; lra|]. apply Rabs_le. lra. }
  set (root' := b64 (1 / irt')) in *. set (root := 1 / irt) in *.
  destruct (norm_ge_xyz (sub e' e)) as (VX & VY & VZ). unfold sub in VX, VY, VZ. cbn [x3 y3 z3] in VX, VY, VZ. fold (sub e' e) in VX, VY, VZ. destruct (norm_ge_xyz e) as (UX & UY & UZ).
  assert (GX : gb w R 1.00001 1 (x3 e') (x3 e)) by (split; lra). assert (GY : gb w R 1.00001 1 (y3 e') (y3 e)) by (split; lra). assert (GZ : gb w R 1.00001 1 (z3 e') (z3 e)) by (split; lra).
  set (ri := 1 / R) in *. set (x' := x3 e') in *. set (x := x3 e) in *. set (y' := y3 e') in *. set (y := y3 e) in *. set (z' := z3 e') in *. set (z := z3 e) in *.
  eexists. eexists. split; [reflexivity|]. split; [reflexivity|].
  set (Q := i * (t * (i * m))). set (S0 := t * (m * i)).
  assert (SS : (Earth_RADIUS / R) ^ 2 * (Earth_MU / R) / R = S0). { unfold S0, t, rr, ri, Rdiv. rewrite Rmult_1_l. fold i. rewrite <- MI. fold i. ring. }
  cbv zeta. rewrite SS.
  assert (RB' : 0 < R) by lra. assert (IL : 1e-6 <= i) by lra.
  assert (K1 : 1e-30 <= R * i) by (rewrite RI1; lra).
  assert (K2 : 1e-30 <= 1 * i) by lra. assert (K3 : 1e-12 <= i * i) by (apply Rle_trans with (1e-6 * 1e-6); [lra|apply Rmult_le_compat; lra]).
  assert (K4 : 3e-7 <= i * m) by (apply Rle_trans with (1e-6 * 0.39); [lra|apply Rmult_le_compat; lra]).
  assert (K5 : 1e-12 <= t * (i * m)) by (apply Rle_trans with (3.6e-5 * 3e-7); [lra|apply Rmult_le_compat; lra]).
  assert (K6 : 1e-6 <= t * m) by (apply Rle_trans with (3.6e-5 * 0.39); [lra|apply Rmult_le_compat; lra]).
  assert (K7 : 1e-18 <= Q) by (unfold Q; apply Rle_trans with (1e-6 * 1e-12); [lra|apply Rmult_le_compat; lra]).
  assert (K8 : 1e-12 <= S0) by (unfold S0; rewrite (Rmult_comm m i); exact K5).
  assert (QR : Q * R = S0) by (unfold Q, S0; transitivity (t * (m * i) * (R * i)); [ring|rewrite RI1; ring]).
  assert (K9 : (i * i) * (t * m) = Q) by (unfold Q; ring). assert (K10 : i * (t * m) = S0) by (unfold S0; ring). assert (K11 : 1 * i = i) by ring. assert (K12 : i * (t * (i * m)) = Q) by reflexivity.
  clearbody S0 Q i ri ri' m mu' t rr rr' irt irt' root root' x x' y y' z z'. clear - W WU RB RB' RI NRI MR IRT ROOT GX GY GZ PR PP PL K1 K2 K3 K4 K5 K6 K7 K8 QR K9 K10 K11 K12 RI1 IL MB TB.
  assert (g1 := gmul w R i _ _ _ _ _ _ _ _ W ltac:(clear - RB' K1 K2 K3 K4 K5 K6 K7 K8 IL MB TB; lra) ltac:(clear - RB' K1 K2 K3 K4 K5 K6 K7 K8 IL MB TB; lra) ltac:(clear - RB' RI1 QR K9 K10 K12 K1 K2 K3 K4 K5 K6 K7 K8 IL MB TB; lra) GZ RI 1.0001e0 1.0001e0 ltac:(clear; lra) ltac:(clear; lra) ltac:(clear; lra) ltac:(clear; lra)).
  apply (gb_scale _ _ 1) in g1; [|first [exact RI1 | exact K9 | exact K10 | exact K11 | exact K12 | exact QR]].
  assert (g2 := gmul w 1 i _ _ _ _ _ _ _ _ W ltac:(clear - RB' K1 K2 K3 K4 K5 K6 K7 K8 IL MB TB; lra) ltac:(clear - RB' K1 K2 K3 K4 K5 K6 K7 K8 IL MB TB; lra) ltac:(clear - RB' RI1 QR K9 K10 K12 K1 K2 K3 K4 K5 K6 K7 K8 IL MB TB; lra) g1 RI 1.0002e0 1.0002e0 ltac:(clear; lra) ltac:(clear; lra) ltac:(clear; lra) ltac:(clear; lra)).
  apply (gb_scale _ _ i) in g2; [|first [exact RI1 | exact K9 | exact K10 | exact K11 | exact K12 | exact QR]].
  assert (g3 := gmul w i i _ _ _ _ _ _ _ _ W ltac:(clear - RB' K1 K2 K3 K4 K5 K6 K7 K8 IL MB TB; lra) ltac:(clear - RB' K1 K2 K3 K4 K5 K6 K7 K8 IL MB TB; lra) ltac:(clear - RB' RI1 QR K9 K10 K12 K1 K2 K3 K4 K5 K6 K7 K8 IL MB TB; lra) g2 IRT 1.0003e1 1.1163e2 ltac:(clear; lra) ltac:(clear; lra) ltac:(clear; lra) ltac:(clear; lra)).
  assert (g4 := gmul w i m _ _ _ _ _ _ _ _ W ltac:(clear - RB' K1 K2 K3 K4 K5 K6 K7 K8 IL MB TB; lra) ltac:(clear - RB' K1 K2 K3 K4 K5 K6 K7 K8 IL MB TB; lra) ltac:(clear - RB' RI1 QR K9 K10 K12 K1 K2 K3 K4 K5 K6 K7 K8 IL MB TB; lra) NRI MR 1.0001e0 2.1601e-5 ltac:(clear; lra) ltac:(clear; lra) ltac:(clear; lra) ltac:(clear; lra)).
  assert (g5 := gmul w t (i * m) _ _ _ _ _ _ _ _ W ltac:(clear - RB' K1 K2 K3 K4 K5 K6 K7 K8 IL MB TB; lra) ltac:(clear - RB' K1 K2 K3 K4 K5 K6 K7 K8 IL MB TB; lra) ltac:(clear - RB' RI1 QR K9 K10 K12 K1 K2 K3 K4 K5 K6 K7 K8 IL MB TB; lra) PR g4 3.7514e-3 2.5859e-2 ltac:(clear; lra) ltac:(clear; lra) ltac:(clear; lra) ltac:(clear; lra)).
  assert (g6 := gmul w t m _ _ _ _ _ _ _ _ W ltac:(clear - RB' K1 K2 K3 K4 K5 K6 K7 K8 IL MB TB; lra) ltac:(clear - RB' K1 K2 K3 K4 K5 K6 K7 K8 IL MB TB; lra) ltac:(clear - RB' RI1 QR K9 K10 K12 K1 K2 K3 K4 K5 K6 K7 K8 IL MB TB; lra) PP MR 3.2685e-3 9.1362e-2 ltac:(clear; lra) ltac:(clear; lra) ltac:(clear; lra) ltac:(clear; lra)).
  assert (g7 := gmul w t m _ _ _ _ _ _ _ _ W ltac:(clear - RB' K1 K2 K3 K4 K5 K6 K7 K8 IL MB TB; lra) ltac:(clear - RB' K1 K2 K3 K4 K5 K6 K7 K8 IL MB TB; lra) ltac:(clear - RB' RI1 QR K9 K10 K12 K1 K2 K3 K4 K5 K6 K7 K8 IL MB TB; lra) PL MR 1.4511e-4 4.8245e-3 ltac:(clear; lra) ltac:(clear; lra) ltac:(clear; lra) ltac:(clear; lra)).
  assert (g8 := gmul w i (t * (i * m)) _ _ _ _ _ _ _ _ W ltac:(clear - RB' K1 K2 K3 K4 K5 K6 K7 K8 IL MB TB; lra) ltac:(clear - RB' K1 K2 K3 K4 K5 K6 K7 K8 IL MB TB; lra) ltac:(clear - RB' RI1 QR K9 K10 K12 K1 K2 K3 K4 K5 K6 K7 K8 IL MB TB; lra) RI g5 3.7515e-3 2.5860e-2 ltac:(clear; lra) ltac:(clear; lra) ltac:(clear; lra) ltac:(clear; lra)).
  apply (gb_scale _ _ Q) in g8; [|first [exact RI1 | exact K9 | exact K10 | exact K11 | exact K12 | exact QR]].
  assert (g9 := gmul w (i * i) (t * m) _ _ _ _ _ _ _ _ W ltac:(clear - RB' K1 K2 K3 K4 K5 K6 K7 K8 IL MB TB; lra) ltac:(clear - RB' K1 K2 K3 K4 K5 K6 K7 K8 IL MB TB; lra) ltac:(clear - RB' RI1 QR K9 K10 K12 K1 K2 K3 K4 K5 K6 K7 K8 IL MB TB; lra) g3 g6 3.2695e-2 1.2788e0 ltac:(clear; lra) ltac:(clear; lra) ltac:(clear; lra) ltac:(clear; lra)).
  apply (gb_scale _ _ Q) in g9; [|first [exact RI1 | exact K9 | exact K10 | exact K11 | exact K12 | exact QR]].
  assert (g10 := gsub w Q _ _ _ _ _ _ _ _ W ltac:(clear - K7 K8; lra) g8 g9 3.6447e-2 1.3047e0 ltac:(clear; lra) ltac:(clear; lra) ltac:(clear; lra) ltac:(clear; lra)).
  assert (g11 := gmul w i i _ _ _ _ _ _ _ _ W ltac:(clear - RB' K1 K2 K3 K4 K5 K6 K7 K8 IL MB TB; lra) ltac:(clear - RB' K1 K2 K3 K4 K5 K6 K7 K8 IL MB TB; lra) ltac:(clear - RB' RI1 QR K9 K10 K12 K1 K2 K3 K4 K5 K6 K7 K8 IL MB TB; lra) IRT IRT 1.0001e2 2.0321e3 ltac:(clear; lra) ltac:(clear; lra) ltac:(clear; lra) ltac:(clear; lra)).
  assert (g12 := gmul w (i * i) (t * m) _ _ _ _ _ _ _ _ W ltac:(clear - RB' K1 K2 K3 K4 K5 K6 K7 K8 IL MB TB; lra) ltac:(clear - RB' K1 K2 K3 K4 K5 K6 K7 K8 IL MB TB; lra) ltac:(clear - RB' RI1 QR K9 K10 K12 K1 K2 K3 K4 K5 K6 K7 K8 IL MB TB; lra) g11 g7 1.4513e-2 7.7738e-1 ltac:(clear; lra) ltac:(clear; lra) ltac:(clear; lra) ltac:(clear; lra)).
  apply (gb_scale _ _ Q) in g12; [|first [exact RI1 | exact K9 | exact K10 | exact K11 | exact K12 | exact QR]].
  assert (g13 := gmul w Q R _ _ _ _ _ _ _ _ W ltac:(clear - RB' K1 K2 K3 K4 K5 K6 K7 K8 IL MB TB; lra) ltac:(clear - RB' K1 K2 K3 K4 K5 K6 K7 K8 IL MB TB; lra) ltac:(clear - RB' RI1 QR K9 K10 K12 K1 K2 K3 K4 K5 K6 K7 K8 IL MB TB; lra) g10 GX 3.6448e-2 1.3412e0 ltac:(clear; lra) ltac:(clear; lra) ltac:(clear; lra) ltac:(clear; lra)).
  apply (gb_scale _ _ S0) in g13; [|first [exact RI1 | exact K9 | exact K10 | exact K11 | exact K12 | exact QR]].
  assert (g14 := gmul w Q R _ _ _ _ _ _ _ _ W ltac:(clear - RB' K1 K2 K3 K4 K5 K6 K7 K8 IL MB TB; lra) ltac:(clear - RB' K1 K2 K3 K4 K5 K6 K7 K8 IL MB TB; lra) ltac:(clear - RB' RI1 QR K9 K10 K12 K1 K2 K3 K4 K5 K6 K7 K8 IL MB TB; lra) g12 GY 1.4514e-2 7.9191e-1 ltac:(clear; lra) ltac:(clear; lra) ltac:(clear; lra) ltac:(clear; lra)).
  apply (gb_scale _ _ S0) in g14; [|first [exact RI1 | exact K9 | exact K10 | exact K11 | exact K12 | exact QR]].
  assert (g15 := gsub w S0 _ _ _ _ _ _ _ _ W ltac:(clear - K7 K8; lra) g13 g14 5.0963e-2 2.1332e0 ltac:(clear; lra) ltac:(clear; lra) ltac:(clear; lra) ltac:(clear; lra)).
  assert (g16 := gmul w Q R _ _ _ _ _ _ _ _ W ltac:(clear - RB' K1 K2 K3 K4 K5 K6 K7 K8 IL MB TB; lra) ltac:(clear - RB' K1 K2 K3 K4 K5 K6 K7 K8 IL MB TB; lra) ltac:(clear - RB' RI1 QR K9 K10 K12 K1 K2 K3 K4 K5 K6 K7 K8 IL MB TB; lra) g10 GY 3.6448e-2 1.3412e0 ltac:(clear; lra) ltac:(clear; lra) ltac:(clear; lra) ltac:(clear; lra)).
  apply (gb_scale _ _ S0) in g16; [|first [exact RI1 | exact K9 | exact K10 | exact K11 | exact K12 | exact QR]].
  assert (g17 := gmul w Q R _ _ _ _ _ _ _ _ W ltac:(clear - RB' K1 K2 K3 K4 K5 K6 K7 K8 IL MB TB; lra) ltac:(clear - RB' K1 K2 K3 K4 K5 K6 K7 K8 IL MB TB; lra) ltac:(clear - RB' RI1 QR K9 K10 K12 K1 K2 K3 K4 K5 K6 K7 K8 IL MB TB; lra) g12 GX 1.4514e-2 7.9191e-1 ltac:(clear; lra) ltac:(clear; lra) ltac:(clear; lra) ltac:(clear; lra)).
  apply (gb_scale _ _ S0) in g17; [|first [exact RI1 | exact K9 | exact K10 | exact K11 | exact K12 | exact QR]].
  assert (g18 := gadd w S0 _ _ _ _ _ _ _ _ W ltac:(clear - K7 K8; lra) g16 g17 5.0963e-2 2.1332e0 ltac:(clear; lra) ltac:(clear; lra) ltac:(clear; lra) ltac:(clear; lra)).
  assert (g19 := gmul w Q R _ _ _ _ _ _ _ _ W ltac:(clear - RB' K1 K2 K3 K4 K5 K6 K7 K8 IL MB TB; lra) ltac:(clear - RB' K1 K2 K3 K4 K5 K6 K7 K8 IL MB TB; lra) ltac:(clear - RB' RI1 QR K9 K10 K12 K1 K2 K3 K4 K5 K6 K7 K8 IL MB TB; lra) g8 GZ 3.7516e-3 2.9612e-2 ltac:(clear; lra) ltac:(clear; lra) ltac:(clear; lra) ltac:(clear; lra)).
  apply (gb_scale _ _ S0) in g19; [|first [exact RI1 | exact K9 | exact K10 | exact K11 | exact K12 | exact QR]].
  assert (g20 := gmul w R i _ _ _ _ _ _ _ _ W ltac:(clear - RB' K1 K2 K3 K4 K5 K6 K7 K8 IL MB TB; lra) ltac:(clear - RB' K1 K2 K3 K4 K5 K6 K7 K8 IL MB TB; lra) ltac:(clear - RB' RI1 QR K9 K10 K12 K1 K2 K3 K4 K5 K6 K7 K8 IL MB TB; lra) ROOT RI 1.0001e0 1.0004e0 ltac:(clear; lra) ltac:(clear; lra) ltac:(clear; lra) ltac:(clear; lra)).
  apply (gb_scale _ _ 1) in g20; [|first [exact RI1 | exact K9 | exact K10 | exact K11 | exact K12 | exact QR]].
  assert (g21 := gmul w 1 i _ _ _ _ _ _ _ _ W ltac:(clear - RB' K1 K2 K3 K4 K5 K6 K7 K8 IL MB TB; lra) ltac:(clear - RB' K1 K2 K3 K4 K5 K6 K7 K8 IL MB TB; lra) ltac:(clear - RB' RI1 QR K9 K10 K12 K1 K2 K3 K4 K5 K6 K7 K8 IL MB TB; lra) g20 RI 1.0002e0 1.0005e0 ltac:(clear; lra) ltac:(clear; lra) ltac:(clear; lra) ltac:(clear; lra)).
  apply (gb_scale _ _ i) in g21; [|first [exact RI1 | exact K9 | exact K10 | exact K11 | exact K12 | exact QR]].
  assert (g22 := gmul w i (t * m) _ _ _ _ _ _ _ _ W ltac:(clear - RB' K1 K2 K3 K4 K5 K6 K7 K8 IL MB TB; lra) ltac:(clear - RB' K1 K2 K3 K4 K5 K6 K7 K8 IL MB TB; lra) ltac:(clear - RB' RI1 QR K9 K10 K12 K1 K2 K3 K4 K5 K6 K7 K8 IL MB TB; lra) g21 g6 3.2692e-3 9.4651e-2 ltac:(clear; lra) ltac:(clear; lra) ltac:(clear; lra) ltac:(clear; lra)).
  apply (gb_scale _ _ S0) in g22; [|first [exact RI1 | exact K9 | exact K10 | exact K11 | exact K12 | exact QR]].
  assert (g23 := gadd w S0 _ _ _ _ _ _ _ _ W ltac:(clear - K7 K8; lra) g19 g22 7.0209e-3 1.2427e-1 ltac:(clear; lra) ltac:(clear; lra) ltac:(clear; lra) ltac:(clear; lra)).
  assert (SP : 0 <= S0) by lra. assert (WSP : 0 <= w * S0) by (apply Rmult_le_pos; lra).
  destruct g15 as [A1 B1], g18 as [A2 B2], g23 as [A3 B3].
  split.
  - eapply (norm_xyz _ 2.14 2.14 0.13 (w * S0) WSP); [| | |clear; lra|clear; lra]; unfold sub; cbn [x3 y3 z3]; clear - A1 B1 A2 B2 A3 B3 WSP; lra.
  - eapply (norm_xyz _ 0.051 0.051 0.008 S0 SP); [| | |clear; lra|clear; lra]; cbn [x3 y3 z3]; clear - A1 B1 A2 B2 A3 B3 SP; lra.
Qed.
