From Coq Require Import Reals ZArith Lra Lia Bool.
From Flocq Require Import Core.
From Verif.Model Require Import Num Constants Linalg Functions Celestial Positions TimeFloat AngleFloat ElementsFloat PositionsFloat.
From Verif.Spec Require Import Geometry.
From Verif.Proofs Require Import NumLemmas LinalgProofs TimeFloatProofs AngleFloatProofs ClockProofs.
From Verif.Proofs Require Import FloatEval FloatFailures ElementsFloatProofs.
Local Open Scope R_scope.

Lemma half : b64 (3 / 6) = / 2.
Proof.
  replace (3 / 6) with (/ 2) by lra. change (/ 2) with (bpow radix2 (-1)).
  apply round_generic; [apply valid_rnd_N|]. apply generic_format_bpow. vm_compute. discriminate.
Qed.
Lemma fourth : b64 (/ 4) = / 4.
Proof.
  change (/ 4) with (bpow radix2 (-2)). apply round_generic; [apply valid_rnd_N|]. apply generic_format_bpow. vm_compute. discriminate.
Qed.
Lemma halfb : b64 (/ 2) = / 2.
Proof. rewrite <- half. apply b64_idem. Qed.

(** [e < n / k] decided by computation *)
Lemma less_exact e k n : (Z.abs k <= 9007199254740992)%Z -> (Z.abs n <= 9007199254740992)%Z ->
  sgn (FSub (FMul e (FZ k)) (FZ n)) = Some Lt -> exact e * IZR k < IZR n.
Proof.
  intros K N H. assert (S := sgn_spec (FSub (FMul e (FZ k)) (FZ n))). rewrite H in S. cbn [exact] in S. rewrite !b64_IZR in S by auto.
  destruct (Rlt_dec (exact e * IZR k) (IZR n)) as [|G]; auto. assert (B := b64_mono _ _ (Rnot_lt_le _ _ G)). rewrite b64_IZR in B by auto.
  assert (C := b64_nonneg _ (Rge_le _ _ (Rge_minus _ _ (Rle_ge _ _ B)))). lra.
Qed.
Lemma more_exact e k n : (Z.abs k <= 9007199254740992)%Z -> (Z.abs n <= 9007199254740992)%Z ->
  sgn (FSub (FZ n) (FMul e (FZ k))) = Some Lt -> IZR n < exact e * IZR k.
Proof.
  intros K N H. assert (S := sgn_spec (FSub (FZ n) (FMul e (FZ k)))). rewrite H in S. cbn [exact] in S. rewrite !b64_IZR in S by auto.
  destruct (Rlt_dec (IZR n) (exact e * IZR k)) as [|G]; auto. assert (B := b64_mono _ _ (Rnot_lt_le _ _ G)). rewrite b64_IZR in B by auto.
  assert (C := b64_nonneg _ (Rge_le _ _ (Rge_minus _ _ (Rle_ge _ _ B)))). lra.
Qed.

Definition ea2 := FMul eR eR.
Definition eb := FSub eR (FMul eF eR).
Definition eb2 := FMul eb eb.
Definition ee2 := FSub (FZ 1) (FDiv eb2 ea2).
Definition eeps := FSub (FDiv ea2 eb2) (FZ 1).
Definition ees := FMul ee2 eeps.

Lemma b64_opp x : b64 (- x) = - b64 x.
Proof. unfold b64. apply round_NE_opp. Qed.

Lemma zdiv y : b64 (0 / y) = 0.
Proof. unfold Rdiv. rewrite Rmult_0_l. apply b64_0. Qed.

Ltac z := repeat (progress (rewrite ?Rmult_0_r, ?Rmult_0_l, ?Rplus_0_l, ?Rplus_0_r, ?Rminus_0_r, ?Rmult_1_r, ?b64_0, ?zdiv, ?b64_1, ?sqrt_0, ?sqrt_1)).

Lemma equator L x y : powf L 1 (b64 (2 / 3)) = 1 -> asinf L 0 = 0 -> cosf L 0 = 1 -> sinf L 0 = 0 -> 1000 <= norm (V3 x y 0) ->
  exists l, itrf_to_lla_b64 L (V3 x y 0) = Ok l /\ latitude l = 0 /\
    Rabs (altitude l - (norm (V3 x y 0) - Earth_RADIUS)) <= 1e-15 * (norm (V3 x y 0) + Earth_RADIUS).
Proof.
  unfold itrf_to_lla_b64. generalize (b64 (2 / 3)). intros c HP HA HC HS HR. cbn [x3 y3 z3].
  assert (AB : nabs 0 = 0) by (unfold nabs; apply Rabs_R0).
  assert (SG : sign 0 = 0) by (unfold sign, nlt; destruct (Rlt_dec 0 0); [lra|reflexivity]). rewrite AB, SG.
  assert (NR := mag_near (V3 x y 0) ltac:(lra)).
  assert (RH : v3_magnitude_b64 (V3 x y 0) = b64 (sqrt (b64 (b64 (x * x) + b64 (y * y))))).
  { unfold v3_magnitude_b64, v3_dot_b64. cbn [x3 y3 z3]. rewrite Rmult_0_l, b64_0, Rplus_0_r, b64_idem. reflexivity. }
  rewrite RH in NR. set (rho' := b64 (sqrt (b64 (b64 (x * x) + b64 (y * y))))) in *. set (rho := norm (V3 x y 0)) in *.
  assert (RI : b64 rho' = rho') by apply b64_idem.
  assert (NA : near 1.13 RADIUS_b64 Earth_RADIUS). { apply b64_near. unfold Earth_RADIUS. rewrite Rabs_pos_eq; lra. }
  assert (VA : Earth_RADIUS = 6378.137) by reflexivity.
  assert (NA2 : near 3.42 (b64 (RADIUS_b64 * RADIUS_b64)) (Earth_RADIUS * Earth_RADIUS)).
  { replace 3.42 with (2.28 + 1.14) by lra. apply near_round; [lra| |rewrite VA, Rabs_pos_eq; lra]. apply near_weaken with (1.13 + 1.13 + 0.01); [|lra]. apply near_mul; auto; lra. }
  assert (NQ : near 5.72 (b64 (b64 (RADIUS_b64 * RADIUS_b64) / RADIUS_b64)) Earth_RADIUS).
  { replace 5.72 with (4.58 + 1.14) by lra. replace Earth_RADIUS with (Earth_RADIUS * Earth_RADIUS / Earth_RADIUS) at 1 by (rewrite VA; lra).
    apply near_round; [lra| |]. 2:{ rewrite VA. rewrite Rabs_pos_eq; lra. } apply near_weaken with (3.42 + 1.13 + 0.02); [|lra]. apply near_div; auto; try lra. }
  assert (ZA : 0 <= Earth_RADIUS) by (rewrite VA; lra). assert (ZR : 0 <= rho) by lra.
  assert (BA := near_abs _ _ _ ZA NA).
  assert (CA : b64 (RADIUS_b64 * 1) = RADIUS_b64) by (rewrite Rmult_1_r; apply b64_idem).
  rewrite eF_ok. rewrite eR_ok in *. set (A' := exact eR) in *.
  change (b64 (A' * A')) with (exact ea2) in *. change (b64 (A' - b64 (exact eF * A'))) with (exact eb). change (b64 (exact eb * exact eb)) with (exact eb2).
  rewrite (div_exact eb2 ea2) by (vm_compute; reflexivity). cbn [bind]. rewrite (div_exact ea2 eb2) by (vm_compute; reflexivity). cbn [bind].
  replace (b64 (1 - exact (FDiv eb2 ea2))) with (exact ee2) by (unfold ee2; cbn [exact]; rewrite (b64_IZR 1) by lia; reflexivity).
  replace (b64 (exact (FDiv ea2 eb2) - 1)) with (exact eeps) by (unfold eeps; cbn [exact]; rewrite (b64_IZR 1) by lia; reflexivity).
  change (b64 (exact ee2 * exact eeps)) with (exact ees).
  assert (Pe : 6 < exact eeps * IZR 1000) by (apply (more_exact eeps 1000 6); [lia|lia|vm_compute; reflexivity]).
  assert (Ps : 4 < exact ees * IZR 100000) by (apply (more_exact ees 100000 4); [lia|lia|vm_compute; reflexivity]).
  assert (Us : exact ees * IZR 100000 < 5) by (apply (less_exact ees 100000 5); [lia|lia|vm_compute; reflexivity]).
  assert (Pb : 40000000 < exact eb2 * IZR 1) by (apply (more_exact eb2 1 40000000); [lia|lia|vm_compute; reflexivity]).
  assert (Ub : exact eb2 * IZR 1 < 41000000) by (apply (less_exact eb2 1 41000000); [lia|lia|vm_compute; reflexivity]).
  assert (Ib : b64 (exact eb2) = exact eb2) by (unfold eb2; cbn [exact]; apply b64_idem).
  set (B2 := exact eb2) in *. set (eps := exact eeps) in *. set (es := exact ees) in *.
  rewrite (div_ok 0 eps) by lra. cbn [bind]. rewrite zdiv.
  rewrite (div_ok _ es) by lra. cbn [bind].
  assert (NRl := near_abs _ _ _ ZR NR).
  assert (S1 : 990000 <= rho' * rho') by (assert (995 <= rho') by lra; nra).
  assert (S2 := b64_pos (rho' * rho') ltac:(lra)).
  assert (S3 : 1.9e10 <= b64 (rho' * rho') / es). { apply Rmult_le_reg_r with es; [lra|]. rewrite div_mul by lra. lra. }
  assert (S3' : 1e-39 <= b64 (rho' * rho') / es) by lra. assert (S4 := b64_pos _ S3'). set (s := b64 (b64 (rho' * rho') / es)) in *.
  rewrite Rmult_0_l, b64_0. replace (b64 (0 - B2)) with (- B2) by (rewrite Rminus_0_l, b64_opp, Ib; reflexivity).
  assert (S5 := b64_pos (- B2 + s) ltac:(lra)). set (q := b64 (- B2 + s)) in *.
  rewrite (sqrt_ok q) by lra. cbn [bind]. assert (Q1 : 1 <= sqrt q) by (rewrite <- sqrt_1; apply sqrt_le_1_alt; lra). assert (Q2 := b64_pos (sqrt q) ltac:(lra)).
  set (sq := b64 (sqrt q)) in *. rewrite (div_ok 0 sq) by lra. cbn [bind]. rewrite zdiv.
  z. rewrite (div_ok 0 q) by lra. cbn [bind]. z. rewrite (div_ok 0 q) by lra. cbn [bind]. z.
  rewrite (sqrt_ok 1), (sqrt_ok 0) by lra. cbn [bind]. z.
  assert (PW : ppow_b64 L 1 c = Ok 1).
  { unfold ppow_b64, nlt. destruct (Rlt_dec 0 1); [|lra]. rewrite HP. reflexivity. }
  rewrite PW. cbn [bind]. rewrite (div_ok 1 1) by lra. cbn [bind]. replace (1 / 1) with 1 by lra. z.
  replace (1 + 1) with 2 by lra. rewrite (b64_IZR 2) by lia. replace (2 + 1) with 3 by lra. rewrite (b64_IZR 3) by lia.
  rewrite (div_ok 3 6) by lra. cbn [bind]. rewrite half. replace (2 * / 2) with 1 by lra. z.
  replace (0 - 1) with (-1) by lra. rewrite (b64_IZR (-1)) by lia. replace (-1 + 1) with 0 by lra. z. rewrite (sqrt_ok 0) by lra. cbn [bind]. z.
  rewrite (div_ok 0 2) by lra. cbn [bind]. z.
  replace (/ 2 * / 2) with (/ 4) by lra. rewrite fourth. z. rewrite fourth. rewrite (sqrt_ok (/ 4)) by lra. cbn [bind].
  replace (sqrt (/ 4)) with (/ 2) by (symmetry; replace (/ 4) with (/ 2 * / 2) by lra; apply sqrt_square; lra). rewrite halfb, (div_ok (/ 2) 2) by lra. cbn [bind].
  replace (/ 2 / 2) with (/ 4) by lra. rewrite fourth. z. rewrite halfb. replace (/ 2 - / 4) with (/ 4) by lra. rewrite fourth. replace (/ 4 - 0.25) with 0 by lra. z.
  replace (if nlt 0 0 then 0 else 0) with 0 by (destruct (nlt 0 0); reflexivity). rewrite (sqrt_ok 0) by lra. cbn [bind]. z.
  rewrite (div_ok 0 B2) by lra. cbn [bind]. z. rewrite (sqrt_ok 1) by lra. cbn [bind]. z.
  replace (b64 A') with A' by (symmetry; rewrite Rmult_1_r in CA; exact CA). rewrite (div_ok 0 A') by lra. cbn [bind]. z.
  assert (PA : pasin_b64 L 0 = Ok 0). { unfold pasin_b64, nlt. destruct (Rlt_dec 0 (-1)); [lra|]. destruct (Rlt_dec 1 0); [lra|]. cbn. now rewrite HA. }
  rewrite PA. cbn [bind]. rewrite (div_ok _ A') by lra. cbn [bind]. eexists. split; [reflexivity|]. cbn [latitude altitude]. split; auto.
  rewrite HC, HS, Rmult_1_r, RI, (Rmult_0_l 0), b64_0, Rplus_0_r, RI.
  assert (BQ := near_abs _ _ _ ZA NQ). set (k := b64 (exact ea2 / A')) in *.
  assert (F := b64_fine (rho' - k)). assert (FF : Rabs (rho' - k) <= 1.01 * (rho + Earth_RADIUS)) by (apply Rabs_le; lra).
  assert (G : Rabs (b64 (rho' - k) - (rho' - k)) <= 1.14e-16 * (rho + Earth_RADIUS)) by lra.
  apply abs_split in G. apply abs_join. lra.
Qed.
