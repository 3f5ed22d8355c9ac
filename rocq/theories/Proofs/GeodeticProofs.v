From Coq Require Import Reals Lra Lia Psatz Nsatz.
From Verif.Model Require Import Num Constants Linalg Functions Time Celestial Positions.
From Verif.Spec Require Import Geometry.
From Verif.Proofs Require Import NumLemmas LinalgProofs Analysis FunctionsProofs.
Local Open Scope R_scope.

(** The resolvent cubic: t = (1 + Q + 1/Q) / 6 solves 2 t^3 - t^2 = P / 27. *)
Lemma resolvent P : 0 <= P ->
  let Q := Rpower (sqrt (P + 1) + sqrt P) (2.0 / 3.0) in
  let t := (1.0 + Q + 1.0 / Q) / 6.0 in
  0 < Q /\ / 2 <= t /\ 2 * t ^ 3 - t ^ 2 = P / 27.
Proof.
  intros HP Q t.
  set (a := sqrt (P + 1)) in *. set (b := sqrt P) in *.
  assert (Ha : a * a = P + 1) by (apply sqrt_sqrt; lra).
  assert (Hb : b * b = P) by (apply sqrt_sqrt; lra).
  assert (A0 : 0 < a) by (apply sqrt_lt_R0; lra). assert (B0 : 0 <= b) by apply sqrt_pos.
  assert (Q0 : 0 < Q) by apply exp_pos.
  assert (Q3 : Q * Q * Q = (a + b) * (a + b)).
  { unfold Q. rewrite <- !Rpower_plus.
    replace (2.0 / 3.0 + 2.0 / 3.0 + 2.0 / 3.0) with (1 + 1) by lra.
    rewrite Rpower_plus, Rpower_1 by lra. reflexivity. }
  set (k := Q + / Q).
  assert (K2 : 2 <= k).
  { unfold k. assert (0 <= (Q - 1) * (Q - 1) / Q) by (apply Rmult_le_pos; [apply Rle_0_sqr|left; apply Rinv_0_lt_compat; auto]).
    replace ((Q - 1) * (Q - 1) / Q) with (Q + / Q - 2) in H by (field; lra). lra. }
  assert (Hk : k * k * k - 3 * k - 2 = 4 * P).
  { assert (I : (a - b) * (a + b) = 1) by lra.
    assert (J : / Q * / Q * / Q = (a - b) * (a - b)).
    { replace (/ Q * / Q * / Q) with (/ (Q * Q * Q)) by (field; lra). rewrite Q3.
      apply Rmult_eq_reg_l with ((a + b) * (a + b)); [|nra].
      rewrite Rinv_r by nra. transitivity ((a - b) * (a + b) * ((a - b) * (a + b))); [rewrite I; ring|ring]. }
    assert (L : Q * / Q = 1) by (apply Rinv_r; lra).
    unfold k. transitivity (Q * Q * Q + / Q * / Q * / Q + 3 * (Q * / Q - 1) * (Q + / Q) - 2); [ring|].
    rewrite L, Q3, J. lra. }
  assert (T : t = (1 + k) / 6) by (unfold t, k; replace (1.0 / Q) with (/ Q) by (unfold Rdiv; lra); lra).
  repeat split; auto.
  - rewrite T. lra.
  - rewrite T. replace P with ((k * k * k - 3 * k - 2) / 4) by lra. field.
Qed.

(** Ferrari's factorisation: the value computed by the algorithm is a
    non-negative root of  s d^2 = (p + d)^2 (b^2 - d^2). *)
Lemma ferrari p s b2 : 0 <= p -> 0 <= s -> 0 < b2 ->
  let q := p * p - b2 + s in 0 < q ->
  let u := p / sqrt q in
  let v := b2 * u * u / q in
  let P := 27.0 * v * s / q in
  let Q := Rpower (sqrt (P + 1) + sqrt P) (2.0 / 3.0) in
  let t := (1.0 + Q + 1.0 / Q) / 6.0 in
  let c := sqrt (u * u - 1.0 + 2.0 * t) in
  let w := (c - u) / 2.0 in
  let S := sqrt (t * t + v) in
  let base := S - u * w - t / 2.0 - 0.25 in
  let y := w + sqrt base in
  let d := sqrt q * y in
  0 <= v /\ 0 <= P /\ 0 < Q /\ 0 <= u * u - 1.0 + 2.0 * t /\ 0 <= t * t + v /\ 0 <= base /\
  0 <= d /\ (0 < p -> 0 < d) /\
  s * (d * d) = (p + d) * (p + d) * (b2 - d * d).
Proof.
  intros Hp Hs Hb q Hq u v P Q t c w S base y d.
  assert (R0 : 0 < sqrt q) by (apply sqrt_lt_R0; auto).
  assert (Rq : sqrt q * sqrt q = q) by (apply sqrt_sqrt; lra).
  set (r := sqrt q) in *.
  assert (U0 : 0 <= u) by (apply Rdiv_nonneg; lra).
  assert (Ur : u * r = p) by (unfold u; field; lra).
  set (g := b2 / q). assert (G0 : 0 < g) by (apply Rdiv_pos; auto).
  assert (Gq : g * q = b2) by (unfold g; field; lra).
  assert (Vg : v = g * (u * u)) by (unfold v, g; field; lra).
  assert (V0 : 0 <= v) by (rewrite Vg; apply Rmult_le_pos; [lra|apply Rle_0_sqr]).
  assert (P0 : 0 <= P) by (unfold P; apply Rdiv_nonneg; auto; apply Rmult_le_pos; [lra|auto]).
  destruct (resolvent P P0) as (Q0 & T0 & T3). fold Q in Q0. fold Q in T0, T3. fold t in T0, T3.
  assert (C0 : 0 <= u * u - 1.0 + 2.0 * t) by nra.
  assert (Cc : c * c = u * u - 1.0 + 2.0 * t) by (apply sqrt_sqrt; auto).
  assert (S0 : 0 <= t * t + v) by nra.
  assert (SS : S * S = t * t + v) by (apply sqrt_sqrt; auto).
  assert (c0 : 0 <= c) by apply sqrt_pos. assert (s0 : 0 <= S) by apply sqrt_pos.
  assert (Sq : s / q = 1 - u * u + g).
  { apply Rmult_eq_reg_r with q; [|lra]. replace (s / q * q) with s by (field; lra).
    rewrite !Rmult_plus_distr_r, Gq. replace ((1 - u * u) * q) with (q - (u * r) * (u * r)) by (rewrite <- Rq; ring).
    rewrite Ur. unfold q. ring. }
  assert (TP : 2 * t ^ 3 - t ^ 2 = v * (1 - u * u + g)).
  { rewrite T3, <- Sq. unfold P. qlit. field. lra. }
  assert (CS : c * S = u * t + g * u).
  { assert (0 <= u * t + g * u) by (apply Rplus_le_le_0_compat; apply Rmult_le_pos; lra).
    assert (0 <= c * S) by (apply Rmult_le_pos; auto).
    apply Rsqr_inj; auto. unfold Rsqr.
    replace (c * S * (c * S)) with ((c * c) * (S * S)) by ring. rewrite Cc, SS.
    replace ((u * u - 1.0 + 2.0 * t) * (t * t + v)) with ((2 * t ^ 3 - t ^ 2) + u * u * (t * t) + (u * u - 1 + 2 * t) * v).
    2:{ replace 1.0 with 1 by lra. replace 2.0 with 2 by lra. ring. }
    rewrite TP, Vg. ring. }
  assert (St : t <= S).
  { apply Rsqr_incr_0; [unfold Rsqr; rewrite SS; lra|lra|auto]. }
  assert (Bw : base = w * w + S - t).
  { unfold base, w. replace ((c - u) / 2.0 * ((c - u) / 2.0)) with (c * c / 4 - u * c / 2 + u * u / 4) by lra.
    rewrite Cc. lra. }
  assert (B0 : w * w <= base) by lra.
  assert (W2 : 0 <= w * w) by apply Rle_0_sqr.
  assert (B1 : 0 <= base) by lra.
  set (m := sqrt base) in *. assert (Mm : m * m = base) by (apply sqrt_sqrt; auto).
  assert (m0 : 0 <= m) by apply sqrt_pos.
  assert (Y0 : 0 <= y).
  { unfold y. assert (Rabs w <= m).
    { apply Rsqr_incr_0; [|apply Rabs_pos|auto]. rewrite <- Rsqr_abs. unfold Rsqr. lra. }
    unfold Rabs in H. destruct (Rcase_abs w); lra. }
  assert (F : y * y + (u - c) * y + t - S = 0).
  { unfold y. replace (u - c) with (- 2 * w) by (unfold w; lra).
    replace ((w + m) * (w + m) + -2 * w * (w + m) + t - S) with (m * m - w * w + t - S) by ring.
    rewrite Mm, Bw. ring. }
  assert (Quart : y * y * y * y + 2 * u * (y * y * y) + y * y - 2 * (g * u) * y - g * (u * u) = 0).
  { transitivity ((y * y + (u - c) * y + t - S) * (y * y + (u + c) * y + t + S)
      + (c * c - (u * u - 1.0 + 2.0 * t)) * (y * y) + 2 * (c * S - (u * t + g * u)) * y + (S * S - (t * t + v)) + (v - g * (u * u))).
    - replace 1.0 with 1 by lra. replace 2.0 with 2 by lra. ring.
    - rewrite F, Cc, CS, SS, Vg. ring. }
  assert (D0 : 0 <= d) by (apply Rmult_le_pos; lra).
  repeat split; auto.
  - intros Pp. assert (Up : 0 < u) by (apply Rdiv_pos; auto).
    assert (Vp : 0 < v) by (rewrite Vg; apply Rmult_lt_0_compat; [auto|apply Rmult_lt_0_compat; auto]).
    assert (t < S). { apply Rsqr_incrst_0; [unfold Rsqr; rewrite SS; lra|lra|auto]. }
    apply Rmult_lt_0_compat; auto. destruct Y0 as [Y0|Y0]; auto. rewrite <- Y0 in F. lra.
  - replace s with (q - p * p + b2) by (unfold q; ring).
    apply Rminus_diag_uniq. unfold d.
    transitivity (q * q * (y * y * y * y + 2 * u * (y * y * y) + y * y - 2 * (g * u) * y - g * (u * u))).
    + rewrite <- Gq, <- Ur, <- Rq. ring.
    + rewrite Quart. ring.
Qed.

(** the positive root is unique *)
Lemma root_unique p s b2 d d' : 0 < p -> 0 < d -> 0 < d' -> d * d <= b2 -> d' * d' <= b2 -> 
  s * (d * d) = (p + d) * (p + d) * (b2 - d * d) ->
  s * (d' * d') = (p + d') * (p + d') * (b2 - d' * d') -> d = d'.
Proof.
  assert (H : forall d d', 0 < p -> 0 < d -> d < d' -> d' * d' <= b2 ->
    s * (d * d) = (p + d) * (p + d) * (b2 - d * d) ->
    s * (d' * d') = (p + d') * (p + d') * (b2 - d' * d') -> False).
  { clear. intros d d' Hp Hd L B E E'.
    assert (X : (p + d) * (p + d) * (b2 - d * d) * (d' * d') = (p + d') * (p + d') * (b2 - d' * d') * (d * d)).
    { rewrite <- E, <- E'. ring. }
    assert (A : (p + d') * d < (p + d) * d') by nra.
    assert (A2 : ((p + d') * d) * ((p + d') * d) < ((p + d) * d') * ((p + d) * d')).
    { assert (0 < (p + d') * d) by (apply Rmult_lt_0_compat; lra). apply Rmult_le_0_lt_compat; lra. }
    assert (C : b2 - d' * d' < b2 - d * d) by nra.
    assert (0 <= b2 - d' * d') by lra.
    set (M := (p + d) * d' * ((p + d) * d')) in *. set (N := (p + d') * d * ((p + d') * d)) in *.
    assert (E2 : M * (b2 - d * d) = N * (b2 - d' * d')) by (unfold M, N; lra).
    assert (0 <= N) by (unfold N; apply Rle_0_sqr).
    assert (N * (b2 - d' * d') <= M * (b2 - d' * d')) by (apply Rmult_le_compat_r; lra).
    assert (M * (b2 - d' * d') < M * (b2 - d * d)) by (apply Rmult_lt_compat_l; lra). lra. }
  intros Hp Hd Hd' B B' E E'. destruct (Rtotal_order d d') as [L|[L|L]]; auto; exfalso.
  - apply (H d d'); auto.
  - apply (H d' d); auto.
Qed.

(** constants *)
Definition Ea : R := Earth_RADIUS.
Definition Eb : R := Earth_RADIUS - Earth_FLATTENING * Earth_RADIUS.
Lemma Eab : 0 < Eb < Ea.
Proof. unfold Ea, Eb, Earth_FLATTENING, Earth_RADIUS. lra. Qed.
Definition e2 : R := 1 - Eb * Eb / (Ea * Ea).
Definition eps2 : R := Ea * Ea / (Eb * Eb) - 1.0.
Lemma eps2_pos : 0 < eps2.
Proof.
  unfold eps2. assert (H := Eab).
  replace (Ea * Ea / (Eb * Eb) - 1.0) with ((Ea * Ea - Eb * Eb) / (Eb * Eb)) by (qlit; field; lra).
  apply Rdiv_pos; nra.
Qed.
Lemma e2_eps2 : e2 * (Ea * Ea) = eps2 * (Eb * Eb).
Proof. unfold e2, eps2. assert (H := Eab). qlit. field. lra. Qed.
Lemma eps2_b : eps2 * (Eb * Eb) = Ea * Ea - Eb * Eb.
Proof. unfold eps2. assert (H := Eab). qlit. field. lra. Qed.
Lemma e2_range : 0 < e2 < 1.
Proof.
  assert (H := Eab). assert (K := eps2_pos). assert (J := e2_eps2). assert (L := eps2_b).
  assert (0 < Ea * Ea) by nra. assert (0 < Eb * Eb) by nra. split.
  - apply Rmult_lt_reg_r with (Ea * Ea); auto. rewrite J, Rmult_0_l. apply Rmult_lt_0_compat; auto.
  - apply Rmult_lt_reg_r with (Ea * Ea); auto. lra.
Qed.
Lemma e2_flattening : Earth_FLATTENING * (2 - Earth_FLATTENING) = e2.
Proof. unfold e2, Ea, Eb. assert (H := Eab). unfold Ea in H. field. lra. Qed.

(** foot-point geometry, for the meridian half plane *)
Lemma foot_point rho z D (n := Ea * sqrt (1.0 + eps2 * D * D / (Eb * Eb))) (S := (eps2 + 1.0) * (D / n)) :
  0 <= rho -> D * D <= Eb * Eb ->
  (z = 0 -> D = 0) -> 0 <= z * D ->
  (rho * rho / (e2 * eps2)) * (D * D) = (z / eps2 + D) * (z / eps2 + D) * (Eb * Eb - D * D) ->
  0 < n /\ -1 <= S <= 1 /\
  let phi := asin S in
  let h := rho * cos phi + z * sin phi - Ea * Ea / n in
  sin phi = S /\ sqrt (1 - e2 * sin phi * sin phi) = Ea / n /\
  n * (1 - e2) * sin phi = D /\
  (n + h) * cos phi = rho /\ (n * (1 - e2) + h) * sin phi = z.
Proof.
  intros Hr HD Hz0 Hz Eq. assert (HE := Eab). assert (HP := eps2_pos). assert (HL := eps2_b). assert (HJ := e2_eps2).
  assert (He := e2_range).
  assert (Ha2 : 0 < Ea * Ea) by nra. assert (Hb2 : 0 < Eb * Eb) by nra.
  assert (D2 : 0 <= D * D) by apply Rle_0_sqr.
  assert (A0 : 0 < 1.0 + eps2 * D * D / (Eb * Eb)).
  { assert (0 <= eps2 * D * D / (Eb * Eb)); [|lra]. apply Rdiv_nonneg; auto. rewrite Rmult_assoc. apply Rmult_le_pos; lra. }
  assert (N0 : 0 < n) by (apply Rmult_lt_0_compat; [lra|apply sqrt_lt_R0; auto]).
  assert (N2 : n * n = Ea * Ea * (1 + eps2 * (D * D) / (Eb * Eb))).
  { unfold n. set (X := 1.0 + eps2 * D * D / (Eb * Eb)) in *.
    replace (Ea * sqrt X * (Ea * sqrt X)) with (Ea * Ea * (sqrt X * sqrt X)) by ring.
    rewrite sqrt_sqrt by lra. unfold X. qlit. field. lra. }
  clearbody n.
  assert (K : eps2 + 1 = Ea * Ea / (Eb * Eb)) by (unfold eps2; lra).
  assert (SN : S * n = Ea * Ea / (Eb * Eb) * D).
  { unfold S. replace (eps2 + 1.0) with (eps2 + 1) by lra. rewrite K. field. lra. }
  clearbody S. set (B2 := Eb * Eb) in *. set (A2 := Ea * Ea) in *.
  assert (SN2 : S * S * (n * n) = A2 * A2 / (B2 * B2) * (D * D)).
  { replace (S * S * (n * n)) with ((S * n) * (S * n)) by ring. rewrite SN. field. lra. }
  assert (C2N : (1 - S * S) * (n * n) = A2 * (1 - D * D / B2)).
  { rewrite Rmult_minus_distr_r, SN2, N2.
    replace eps2 with ((A2 - B2) / B2) by (rewrite <- HL; field; lra). field. lra. }
  assert (DB : 0 <= 1 - D * D / B2).
  { assert (D * D / B2 <= 1) by (apply Rmult_le_reg_r with B2; auto; replace (D * D / B2 * B2) with (D * D) by (field; lra); lra). lra. }
  assert (S1 : S * S <= 1).
  { assert (0 <= (1 - S * S) * (n * n)) by (rewrite C2N; apply Rmult_le_pos; lra).
    assert (0 < n * n) by nra. assert (0 <= 1 - S * S); [|lra].
    apply Rmult_le_reg_r with (n * n); auto. lra. }
  assert (SR : -1 <= S <= 1) by nra.
  split; auto. split; auto. intros phi h.
  assert (Es : sin phi = S) by (unfold phi; apply sin_asin; auto).
  assert (Ec : 0 <= cos phi).
  { unfold phi. rewrite cos_asin by auto. apply sqrt_pos. }
  assert (Ec2 : cos phi * cos phi = 1 - S * S) by (rewrite <- Es; generalize (sin2_cos2' phi); lra).
  set (C := cos phi) in *. rewrite Es in *. 
  assert (X1 : 1 - e2 * S * S = A2 / (n * n)).
  { apply Rmult_eq_reg_r with (n * n); [|nra]. replace (A2 / (n * n) * (n * n)) with A2 by (field; lra).
    replace ((1 - e2 * S * S) * (n * n)) with (n * n - e2 * (S * S * (n * n))) by ring.
    rewrite SN2, N2. replace e2 with (eps2 * B2 / A2) by (rewrite <- HJ; field; lra). field. lra. }
  assert (ND : n * (1 - e2) * S = D).
  { replace (n * (1 - e2) * S) with ((1 - e2) * (S * n)) by ring. rewrite SN.
    replace (1 - e2) with (B2 / A2) by (unfold e2, A2, B2; field; lra). field. lra. }
  assert (NN : A2 / n = n * (C * C) + D * S).
  { apply Rmult_eq_reg_r with n; [|lra]. replace (A2 / n * n) with A2 by (field; lra).
    replace ((n * (C * C) + D * S) * n) with ((C * C) * (n * n) + D * (S * n)) by ring.
    rewrite Ec2, C2N, SN. field. lra. }
  (* the normal line *)
  assert (Key : (z - D) * C = (rho - n * C) * S).
  { apply Rmult_eq_reg_r with n; [|lra].
    replace ((rho - n * C) * S * n) with ((rho - n * C) * (S * n)) by ring. rewrite SN.
    assert (G : n * C * (z + eps2 * D) = rho * (A2 / B2) * D).
    { assert (SQ : (n * C * (z + eps2 * D)) * (n * C * (z + eps2 * D)) = (rho * (A2 / B2) * D) * (rho * (A2 / B2) * D)).
      { replace (n * C * (z + eps2 * D) * (n * C * (z + eps2 * D))) with ((C * C) * (n * n) * ((z + eps2 * D) * (z + eps2 * D))) by ring.
        rewrite Ec2, C2N.
        replace (A2 * (1 - D * D / B2) * ((z + eps2 * D) * (z + eps2 * D)))
          with (A2 / B2 * (eps2 * eps2) * ((z / eps2 + D) * (z / eps2 + D) * (B2 - D * D))) by (field; lra).
        rewrite <- Eq. replace e2 with (eps2 * B2 / A2) by (rewrite <- HJ; field; lra). field. lra. }
      assert (0 <= n * C) by (apply Rmult_le_pos; lra).
      destruct (Rle_dec 0 D) as [d0|d0].
      - assert (0 <= z). { destruct (Rle_dec 0 z); auto. destruct d0 as [d0|d0]; [nra|]. 
          (* D = 0, z < 0 *) rewrite <- d0 in Eq. exfalso.
          assert (z / eps2 <> 0). { intros E. assert (z = 0); [|lra]. replace z with (z / eps2 * eps2) by (field; lra). rewrite E; ring. }
          assert (0 < (z / eps2 + 0) * (z / eps2 + 0)) by nra.
          assert (0 < (z / eps2 + 0) * (z / eps2 + 0) * (B2 - 0 * 0)) by (apply Rmult_lt_0_compat; lra). lra. }
        apply Rsqr_inj; unfold Rsqr; auto.
        + apply Rmult_le_pos; auto. assert (0 <= eps2 * D) by (apply Rmult_le_pos; lra). lra.
        + apply Rmult_le_pos; auto. apply Rmult_le_pos; auto. apply Rdiv_nonneg; lra.
      - assert (z <= 0) by nra.
        match goal with |- ?X = ?Y => assert (OE : - X = - Y); [|lra] end. apply Rsqr_inj; unfold Rsqr; [| |lra].
        + rewrite Ropp_mult_distr_r. apply Rmult_le_pos; auto. assert (eps2 * D <= 0) by nra. lra.
        + rewrite Ropp_mult_distr_r. apply Rmult_le_pos; [|lra]. apply Rmult_le_pos; auto. apply Rdiv_nonneg; lra. }
    replace eps2 with ((A2 - B2) / B2) in G by (rewrite <- HL; field; lra).
    apply Rminus_diag_uniq. transitivity (n * C * (z + (A2 - B2) / B2 * D) - rho * (A2 / B2) * D); [field; lra|lra]. }
  assert (SC : S * S + C * C = 1) by lra.
  split; auto. split.
  { rewrite X1. apply sqrt_eq; [apply Rdiv_nonneg; lra|]. unfold A2. field. lra. }
  split; auto.
  unfold h. rewrite NN, Es. clearbody C. clear h. split.
  - transitivity (rho + (1 - (S * S + C * C)) * (n * C - rho) * 1 + (S * S) * (n * C - rho) + (z - D) * C * S + 0).
    + replace ((n + (rho * C + z * S - (n * (C * C) + D * S))) * C) with (n * C + rho * (C * C) + z * S * C - n * C * (C * C) - D * S * C) by ring.
      assert (CE : C * C = 1 - S * S) by lra. rewrite CE. ring.
    + rewrite SC, Key. ring.
  - transitivity (D + (rho * C + z * S - (n * (C * C) + D * S)) * S); [rewrite Rmult_plus_distr_r, ND; reflexivity|].
    transitivity (z + (D - z) * (1 - S * S) + S * (C * (rho - n * C))); [ring|].
    replace (1 - S * S) with (C * C) by lra.
    replace (S * (C * (rho - n * C))) with (C * ((rho - n * C) * S)) by ring. rewrite <- Key. ring.
Qed.

Lemma sign_cases z : (z < 0 /\ sign z = -1) \/ (z = 0 /\ sign z = 0) \/ (0 < z /\ sign z = 1).
Proof.
  unfold sign. destruct (nlt_spec 0 z); [right; right; auto|]. destruct (nlt_spec z 0); [left; auto|].
  right; left; split; auto. lra.
Qed.
Lemma q_positive rho z : 0 <= rho -> 43 * 43 < rho * rho + z * z ->
  0 < (Rabs z / eps2) * (Rabs z / eps2) - Eb * Eb + rho * rho / (e2 * eps2).
Proof.
  intros Hr H. assert (HE := Eab). assert (HP := eps2_pos). assert (HL := eps2_b). assert (HJ := e2_eps2).
  assert (He := e2_range).
  assert (Ha2 : 0 < Ea * Ea) by nra. assert (Hb2 : 0 < Eb * Eb) by nra.
  assert (B : eps2 * Eb < 43).
  { apply Rmult_lt_reg_r with Eb; [lra|]. rewrite Rmult_assoc, HL.
    unfold Ea, Eb, Earth_FLATTENING, Earth_RADIUS. lra. }
  replace (Rabs z / eps2 * (Rabs z / eps2)) with (z * z / (eps2 * eps2)).
  2:{ replace (z * z) with (Rabs z * Rabs z) by (rewrite <- Rabs_mult; apply Rabs_pos_eq; apply Rle_0_sqr). field. lra. }
  assert (rho * rho / (eps2 * eps2) <= rho * rho / (e2 * eps2)).
  { apply Rmult_le_compat_l; [apply Rle_0_sqr|]. apply Rinv_le_contravar; [apply Rmult_lt_0_compat; lra|].
    apply Rmult_le_compat_r; [lra|]. apply Rmult_le_reg_r with (Eb * Eb); auto. rewrite <- HJ.
    apply Rmult_le_compat_l; [lra|]. apply Rmult_le_compat; lra. }
  assert (Eb * Eb < (rho * rho + z * z) / (eps2 * eps2)).
  { apply Rmult_lt_reg_r with (eps2 * eps2); [nra|].
    replace ((rho * rho + z * z) / (eps2 * eps2) * (eps2 * eps2)) with (rho * rho + z * z) by (field; lra).
    replace (Eb * Eb * (eps2 * eps2)) with (eps2 * Eb * (eps2 * Eb)) by ring.
    assert (0 < eps2 * Eb) by (apply Rmult_lt_0_compat; lra). nra. }
  replace ((rho * rho + z * z) / (eps2 * eps2)) with (rho * rho / (eps2 * eps2) + z * z / (eps2 * eps2)) in H1 by (field; lra).
  lra.
Qed.
Definition lla_of (D rho x y z : R) : lla :=
  let n := Ea * sqrt (1.0 + eps2 * D * D / (Eb * Eb)) in
  let phi := asin ((eps2 + 1.0) * (D / n)) in
  LLA phi (wrap (atan2 y x)) (rho * cos phi + z * sin phi - Ea * Ea / n).
Lemma itrf_to_lla_ok x y z (rho := sqrt (x * x + y * y)) : 43 < norm (V3 x y z) ->
  exists D, itrf_to_lla (V3 x y z) = Ok (lla_of D rho x y z) /\
  D * D <= Eb * Eb /\ (z = 0 -> D = 0) /\ 0 <= z * D /\ (z <> 0 -> 0 < z * D) /\
  (rho * rho / (e2 * eps2)) * (D * D) = (z / eps2 + D) * (z / eps2 + D) * (Eb * Eb - D * D).
Proof.
  intros Hn. assert (R0 : 0 <= rho) by apply sqrt_pos.
  assert (Rr : rho * rho = x * x + y * y) by (apply sqrt_sqrt; nra).
  assert (H43 : 43 * 43 < rho * rho + z * z).
  { rewrite Rr. assert (N := norm_sq (V3 x y z)). unfold dot in N; cbn [x3 y3 z3] in N. rewrite <- N.
    apply Rmult_le_0_lt_compat; lra. }
  assert (HE := Eab). assert (HP := eps2_pos). assert (He := e2_range).
  assert (Hb2 : 0 < Eb * Eb) by nra.
  assert (Hp : 0 <= Rabs z / eps2) by (apply Rdiv_nonneg; [apply Rabs_pos|auto]).
  assert (Hs : 0 <= rho * rho / (e2 * eps2)).
  { apply Rdiv_nonneg; [apply Rle_0_sqr|]. apply Rmult_lt_0_compat; lra. }
  assert (Hq := q_positive rho z R0 H43).
  assert (F := ferrari _ _ _ Hp Hs Hb2 Hq). cbv zeta in F.
  unfold itrf_to_lla. cbn [x3 y3 z3]. cbv zeta.
  change Earth_RADIUS with Ea. change (Ea - Earth_FLATTENING * Ea) with Eb.
  change (1 - Eb * Eb / (Ea * Ea)) with e2. change (Ea * Ea / (Eb * Eb) - 1.0) with eps2.
  change (sqrt (x * x + y * y)) with rho. change (nabs z) with (Rabs z).
  set (p := Rabs z / eps2) in *. set (s := rho * rho / (e2 * eps2)) in *.
  set (q := p * p - Eb * Eb + s) in *.
  assert (Q0 : sqrt q <> 0) by (assert (0 < sqrt q) by (apply sqrt_lt_R0; auto); lra).
  rewrite psqrt_ok by lra. cbn [bind]. rewrite pdiv_ok by auto. cbn [bind]. set (u := p / sqrt q) in *.
  rewrite pdiv_ok by lra. cbn [bind]. set (v := Eb * Eb * u * u / q) in *.
  rewrite pdiv_ok by lra. cbn [bind]. set (P := 27.0 * v * s / q) in *.
  destruct F as (F1 & F2 & F3 & F4 & F5 & F6 & F7 & F8 & F9).
  rewrite psqrt_ok by lra. cbn [bind]. rewrite psqrt_ok by lra. cbn [bind].
  rewrite ppow_pos. 2:{ assert (0 < sqrt (P + 1)) by (apply sqrt_lt_R0; lra). generalize (sqrt_pos P); lra. }
  cbn [bind]. set (Q := Rpower (sqrt (P + 1) + sqrt P) (2.0 / 3.0)) in *.
  rewrite pdiv_ok by lra. cbn [bind]. set (t := (1.0 + Q + 1.0 / Q) / 6.0) in *.
  rewrite psqrt_ok by auto. cbn [bind]. set (c := sqrt (u * u - 1.0 + 2.0 * t)) in *.
  rewrite psqrt_ok by auto. cbn [bind]. set (S := sqrt (t * t + v)) in *.
  set (base := S - u * ((c - u) / 2.0) - t / 2.0 - 0.25) in *.
  rewrite nlt_false by auto. rewrite psqrt_ok by auto. cbn [bind].
  set (yy := (c - u) / 2.0 + sqrt base) in *.
  set (D := sign z * sqrt q * yy).
  assert (DD : D * D = 0 /\ z = 0 \/ D * D = sqrt q * yy * (sqrt q * yy) /\ z <> 0).
  { unfold D. destruct (sign_cases z) as [[? ->]|[[? ->]|[? ->]]]; [right|left|right]; split; try ring; lra. }
  assert (C1 : D * D <= Eb * Eb).
  { destruct DD as [[-> _]|[-> Z]]; [lra|]. set (d := sqrt q * yy) in *.
    assert (0 < p) by (apply Rdiv_pos; auto; apply Rabs_pos_lt; auto).
    specialize (F8 H). assert (0 <= s * (d * d)) by (apply Rmult_le_pos; auto; apply Rle_0_sqr).
    assert (0 < (p + d) * (p + d)) by (apply Rmult_lt_0_compat; lra).
    rewrite F9 in H0. destruct (Rle_dec (d * d) (Eb * Eb)); auto. exfalso.
    assert ((p + d) * (p + d) * (d * d - Eb * Eb) > 0) by (apply Rmult_lt_0_compat; lra). lra. }
  assert (C2 : z = 0 -> D = 0).
  { intros ->. unfold D. destruct (sign_cases 0) as [[? ->]|[[? ->]|[? ->]]]; try lra; ring. }
  assert (C3 : z <> 0 -> 0 < z * D).
  { intros Z. assert (0 < p) by (apply Rdiv_pos; auto; apply Rabs_pos_lt; auto). specialize (F8 H).
    unfold D. destruct (sign_cases z) as [[? ->]|[[? ->]|[? ->]]]; [|lra|]; rewrite Rmult_assoc; nra. }
  assert (C4 : 0 <= z * D).
  { destruct (Req_dec z 0) as [->|Z]; [lra|]. left; auto. }
  assert (C5 : s * (D * D) = (z / eps2 + D) * (z / eps2 + D) * (Eb * Eb - D * D)).
  { destruct (sign_cases z) as [[Z Es]|[[Z Es]|[Z Es]]].
    - assert (D = - (sqrt q * yy)) by (unfold D; rewrite Es; ring). rewrite H.
      replace (z / eps2) with (- p) by (unfold p; rewrite Rabs_left by auto; field; lra).
      replace (- (sqrt q * yy) * - (sqrt q * yy)) with (sqrt q * yy * (sqrt q * yy)) by ring. rewrite F9. ring.
    - rewrite (C2 Z). rewrite Z. field. lra.
    - assert (D = sqrt q * yy) by (unfold D; rewrite Es; ring). rewrite H.
      replace (z / eps2) with p by (unfold p; rewrite Rabs_pos_eq by lra; auto). exact F9. }
  destruct (foot_point rho z D R0 C1 C2 C4 C5) as (N0 & S1 & _).
  assert (A0 : 0 <= 1.0 + eps2 * D * D / (Eb * Eb)).
  { assert (0 <= eps2 * D * D / (Eb * Eb)); [|lra]. apply Rdiv_nonneg; auto. rewrite Rmult_assoc. apply Rmult_le_pos; [lra|apply Rle_0_sqr]. }
  rewrite psqrt_ok by auto. cbn [bind]. set (n := Ea * sqrt (1.0 + eps2 * D * D / (Eb * Eb))) in *.
  rewrite pdiv_ok by lra. cbn [bind]. rewrite pasin_ok by auto. cbn [bind].
  rewrite pdiv_ok by lra. cbn [bind]. exists D. split; [|auto].
  apply f_equal. unfold lla_of. fold n. unfold wrap. replace (PI * 2.0) with (2 * PI) by lra. reflexivity.
Qed.
Lemma lla_to_itrf_ok lat lon alt (n := Ea / sqrt (1 - e2 * sin lat * sin lat)) :
  lla_to_itrf (LLA lat lon alt) = Ok (V3 ((n + alt) * cos lat * cos lon) ((n + alt) * cos lat * sin lon)
    ((n * (1 - e2) + alt) * sin lat)).
Proof.
  unfold lla_to_itrf. cbn [latitude longitude altitude]. cbv zeta.
  assert (He := e2_range). rewrite e2_flattening. rewrite psqrt_ok by lra. cbn [bind].
  rewrite sqrt_sqrt by lra.
  assert (0 < 1 - e2 * sin lat * sin lat).
  { generalize (sin2_cos2' lat); intros. assert (0 <= cos lat * cos lat) by apply Rle_0_sqr.
    assert (0 <= sin lat * sin lat) by apply Rle_0_sqr. nra. }
  rewrite psqrt_ok by lra. cbn [bind]. rewrite pdiv_ok. 2:{ assert (0 < sqrt (1 - e2 * sin lat * sin lat)) by (apply sqrt_lt_R0; auto). lra. }
  cbn [bind]. replace 1.0 with 1 by lra. reflexivity.
Qed.
Lemma itrf_lla_itrf p : 43 < norm p -> exists l, itrf_to_lla p = Ok l /\ lla_to_itrf l = Ok p /\
  - (PI / 2) <= latitude l <= PI / 2 /\ 0 <= longitude l < 2 * PI.
Proof.
  destruct p as [x y z]. intros H.
  assert (R0 : 0 <= sqrt (x * x + y * y)) by apply sqrt_pos.
  destruct (itrf_to_lla_ok x y z H) as (D & E & C1 & C2 & C4 & _ & C5).
  rewrite E. eexists; split; [reflexivity|].
  destruct (foot_point _ z D R0 C1 C2 C4 C5) as (N0 & S1 & G1 & G2 & G3 & G4 & G5). cbv zeta in *.
  unfold lla_of. set (n := Ea * sqrt (1.0 + eps2 * D * D / (Eb * Eb))) in *.
  set (S := (eps2 + 1.0) * (D / n)) in *. set (phi := asin S) in *.
  split.
  - rewrite lla_to_itrf_ok. rewrite G2. assert (HE := Eab).
    replace (Ea / (Ea / n)) with n by (field; lra). rewrite G4, G5.
    rewrite cos_wrap, sin_wrap.
    destruct (atan2_polar y x) as [Px Py]. rewrite <- Px, <- Py. reflexivity.
  - cbn. split; [apply asin_bound|apply wrap_range, atan2_range].
Qed.
Lemma lla_bounds lat alt (n := Ea / sqrt (1 - e2 * sin lat * sin lat)) : -6000 <= alt ->
  Ea <= n /\ 335 < n * (1 - e2) + alt /\ 378 < n + alt.
Proof.
  intros Ha. assert (He := e2_range). assert (HE := Eab).
  assert (S1 : 0 <= sin lat * sin lat <= 1).
  { generalize (sin2_cos2' lat); intros. assert (0 <= cos lat * cos lat) by apply Rle_0_sqr.
    assert (0 <= sin lat * sin lat) by apply Rle_0_sqr. lra. }
  assert (X : 0 < 1 - e2 * sin lat * sin lat <= 1) by (rewrite Rmult_assoc; nra).
  assert (Y : 0 < sqrt (1 - e2 * sin lat * sin lat) <= 1).
  { split; [apply sqrt_lt_R0; lra|]. rewrite <- sqrt_1 at 2. apply sqrt_le_1_alt. lra. }
  set (r := sqrt (1 - e2 * sin lat * sin lat)) in *.
  assert (N : Ea <= n).
  { unfold n. apply Rmult_le_reg_r with r; [lra|]. replace (Ea / r * r) with Ea by (field; lra). nra. }
  assert (E1 : 6335 < Ea * (1 - e2)) by (unfold e2, Ea, Eb, Earth_FLATTENING, Earth_RADIUS; lra).
  assert (E2 : 6378 < Ea) by (unfold Ea, Earth_RADIUS; lra).
  assert (Ea * (1 - e2) <= n * (1 - e2)) by (apply Rmult_le_compat_r; lra).
  repeat split; lra.
Qed.
Lemma sq_norm_gt a x y z : 0 <= a -> a * a < x * x + y * y + z * z -> a < norm (V3 x y z).
Proof.
  intros Ha H. unfold norm, dot; cbn [x3 y3 z3]. rewrite <- (sqrt_square a) by auto. apply sqrt_lt_1_alt. split; [apply Rle_0_sqr|auto].
Qed.
Lemma lla_itrf_lla lat lon alt : - (PI / 2) < lat < PI / 2 -> 0 <= lon < 2 * PI -> -6000 <= alt ->
  exists p, lla_to_itrf (LLA lat lon alt) = Ok p /\ itrf_to_lla p = Ok (LLA lat lon alt).
Proof.
  intros Hlat Hlon Halt. rewrite lla_to_itrf_ok. eexists; split; [reflexivity|].
  destruct (lla_bounds lat alt Halt) as (B1 & B2 & B3).
  assert (He := e2_range). assert (HE := Eab). assert (HP := eps2_pos). assert (HL := eps2_b). assert (HJ := e2_eps2).
  set (n := Ea / sqrt (1 - e2 * sin lat * sin lat)) in *.
  assert (C0 : 0 < cos lat) by (apply cos_gt_0; lra).
  set (C := cos lat) in *. set (S := sin lat) in *.
  assert (SC : S * S + C * C = 1) by apply sin2_cos2'.
  set (x := (n + alt) * C * cos lon). set (y := (n + alt) * C * sin lon). set (z := (n * (1 - e2) + alt) * S).
  set (rho := (n + alt) * C).
  assert (Hrho : 0 < rho) by (apply Rmult_lt_0_compat; lra).
  assert (Erho : sqrt (x * x + y * y) = rho).
  { apply sqrt_eq; [lra|]. unfold x, y, rho. generalize (sin2_cos2' lon); intros T.
    transitivity ((n + alt) * C * ((n + alt) * C) * (sin lon * sin lon + cos lon * cos lon)); [rewrite T; ring|ring]. }
  assert (Hn : 43 < norm (V3 x y z)).
  { apply sq_norm_gt; [lra|].
    assert (R2 : x * x + y * y = rho * rho) by (rewrite <- Erho; symmetry; apply sqrt_sqrt; nra). rewrite R2.
    set (m := n * (1 - e2) + alt) in *.
    assert (M : m <= n + alt) by (unfold m; nra).
    assert (m * m * (S * S) + m * m * (C * C) <= z * z + rho * rho).
    { unfold z, rho. fold m. assert (m * m <= (n + alt) * (n + alt)) by nra.
      assert (0 <= C * C) by apply Rle_0_sqr.
      assert (m * m * (C * C) <= (n + alt) * (n + alt) * (C * C)) by (apply Rmult_le_compat_r; auto). lra. }
    rewrite <- Rmult_plus_distr_l, SC in H. nra. }
  destruct (itrf_to_lla_ok x y z Hn) as (D & E & D1 & D2 & D3 & D4 & D5). rewrite Erho in *.
  rewrite E. apply f_equal.
  assert (R0 : 0 <= rho) by lra.
  destruct (foot_point rho z D R0 D1 D2 D3 D5) as (N0 & S1 & G1 & G2 & G3 & G4 & G5). cbv zeta in *.
  unfold lla_of. set (m := Ea * sqrt (1.0 + eps2 * D * D / (Eb * Eb))) in *.
  set (S' := (eps2 + 1.0) * (D / m)) in *. set (phi := asin S') in *.
  (* the true foot point also solves the equation *)
  set (D0 := n * (1 - e2) * S).
  assert (X0 : 0 < 1 - e2 * S * S) by (rewrite Rmult_assoc; nra).
  assert (NN : n * n * (1 - e2 * S * S) = Ea * Ea).
  { unfold n. set (W := 1 - e2 * S * S) in *. assert (0 < sqrt W) by (apply sqrt_lt_R0; auto).
    assert (sqrt W * sqrt W = W) by (apply sqrt_sqrt; lra). rewrite <- H0 at 3. field. lra. }
  assert (Hb2 : 0 < Eb * Eb) by nra. assert (Ha2 : 0 < Ea * Ea) by nra.
  assert (Eb2 : Eb * Eb = (1 - e2) * (Ea * Ea)) by lra.
  assert (F1 : Eb * Eb - D0 * D0 = (1 - e2) * (n * n) * (C * C)).
  { unfold D0. rewrite Eb2, <- NN. replace (C * C) with (1 - S * S) by lra. ring. }
  assert (F2 : D0 * D0 <= Eb * Eb).
  { assert (0 <= (1 - e2) * (n * n) * (C * C)); [|lra]. apply Rmult_le_pos; [apply Rmult_le_pos; [lra|apply Rle_0_sqr]|apply Rle_0_sqr]. }
  assert (eps_e : eps2 * (1 - e2) = e2).
  { apply Rmult_eq_reg_r with (Ea * Ea); [|lra]. rewrite HJ, Eb2. ring. }
  assert (F3 : rho * rho / (e2 * eps2) * (D0 * D0) = (z / eps2 + D0) * (z / eps2 + D0) * (Eb * Eb - D0 * D0)).
  { rewrite F1. assert (Z1 : z / eps2 + D0 = (n + alt) * S / eps2).
    { unfold z, D0. apply Rmult_eq_reg_r with eps2; [|lra].
      replace (((n * (1 - e2) + alt) * S / eps2 + n * (1 - e2) * S) * eps2) with ((n * (1 - e2) + alt) * S + n * S * (eps2 * (1 - e2))) by (field; lra).
      rewrite eps_e. field. lra. }
    rewrite Z1. unfold rho, D0. rewrite <- eps_e at 1. field. lra. }
  assert (DD : D = D0).
  { destruct (sign_cases z) as [[Z _]|[[Z _]|[Z _]]].
    - assert (S < 0) by (unfold z in Z; nra).
      assert (D < 0) by (specialize (D4 ltac:(lra)); nra).
      assert (D0 < 0) by (unfold D0; assert (0 < n * (1 - e2)) by (apply Rmult_lt_0_compat; lra); nra).
      assert (QQ : - D = - D0).
      { assert (Q1 : - D * - D = D * D) by ring. assert (Q2 : - D0 * - D0 = D0 * D0) by ring.
        apply (root_unique (- z / eps2) (rho * rho / (e2 * eps2)) (Eb * Eb) (- D) (- D0)); rewrite ?Q1, ?Q2; try lra.
        - apply Rdiv_pos; lra. }
      lra.
    - rewrite (D2 Z). assert (S = 0) by (unfold z in Z; apply Rmult_integral in Z; destruct Z; lra).
      unfold D0. rewrite H. ring.
    - assert (0 < S) by (unfold z in Z; nra).
      assert (0 < D) by (specialize (D4 ltac:(lra)); nra).
      assert (0 < D0) by (unfold D0; apply Rmult_lt_0_compat; auto; apply Rmult_lt_0_compat; lra).
      apply (root_unique (z / eps2) (rho * rho / (e2 * eps2)) (Eb * Eb)); try lra.
      apply Rdiv_pos; lra. }
  assert (Em : m = n).
  { unfold m. rewrite DD. assert (n0 : 0 < n) by lra.
    replace (1.0 + eps2 * D0 * D0 / (Eb * Eb)) with (n * n / (Ea * Ea)).
    - replace (n * n / (Ea * Ea)) with ((n / Ea) * (n / Ea)) by (field; lra). rewrite sqrt_square by (apply Rdiv_nonneg; lra). field. lra.
    - apply Rmult_eq_reg_r with (Ea * Ea); [|lra]. replace (n * n / (Ea * Ea) * (Ea * Ea)) with (n * n) by (field; lra).
      replace ((1.0 + eps2 * D0 * D0 / (Eb * Eb)) * (Ea * Ea)) with (Ea * Ea + eps2 * (D0 * D0) * (Ea * Ea) / (Eb * Eb)) by (qlit; field; lra).
      unfold D0. rewrite Eb2, <- NN.
      replace (eps2 * (n * (1 - e2) * S * (n * (1 - e2) * S)) * (n * n * (1 - e2 * S * S)) / ((1 - e2) * (n * n * (1 - e2 * S * S))))
        with ((eps2 * (1 - e2)) * (n * n * (S * S))) by (field; lra).
      rewrite eps_e. ring. }
  assert (ES : sin phi = S).
  { apply Rmult_eq_reg_l with (m * (1 - e2)); [|assert (0 < m * (1 - e2)) by (apply Rmult_lt_0_compat; lra); lra].
    rewrite G3, DD. unfold D0. rewrite Em. reflexivity. }
  assert (Ephi : phi = lat).
  { rewrite <- (asin_sin lat) by lra. rewrite <- (asin_sin phi). rewrite ES. reflexivity. unfold phi. apply asin_bound. }
  assert (EC : cos phi = C) by (rewrite Ephi; reflexivity).
  f_equal; auto.
  - unfold y, x. fold rho. apply (wrap_atan2_unique rho lon); auto.
  - rewrite EC in G4. set (h := rho * C + z * sin phi - Ea * Ea / m) in *. 
    assert (G6 : rho * cos phi + z * sin phi - Ea * Ea / m = h) by (unfold h; rewrite EC; reflexivity).
    rewrite G6. assert ((m + h) * C = (n + alt) * C) by (rewrite G4; reflexivity).
    apply Rmult_eq_reg_r in H; lra.
Qed.
