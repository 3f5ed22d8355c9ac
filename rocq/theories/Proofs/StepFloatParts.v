(** Division of a propagation into steps in binary64. *)
From Coq Require Import Reals ZArith Lia Lra Psatz.
From Flocq Require Import Core.
From Verif.Model Require Import Num Constants Inertial TimeFloat.
From Verif.Proofs Require Import NumLemmas TimeFloatProofs.
From Verif.Proofs Require ClockProofs ElementsFloatProofs GeodeticFloatProofs.
Local Open Scope R_scope.
Lemma prec53 : Prec_gt_0 53. Proof. reflexivity. Qed.
Local Existing Instance prec53.

Lemma format_of x : b64 x = x -> generic_format radix2 (FLT_exp (-1074) 53) x.
Proof. intros <-. apply generic_format_round; typeclasses eauto. Qed.

(** Epochs are at least 2^-39 days apart. *)
Lemma on_grid x : b64 x = x -> 8192 <= x -> exists m, x = IZR m * bpow radix2 (-39).
Proof.
  intros F G. apply format_of in F. unfold generic_format in F. set (c := cexp radix2 (FLT_exp (-1074) 53) x) in *.
  assert (C : (-39 <= c)%Z).
  { unfold c, cexp, FLT_exp. assert (M : (14 <= mag radix2 x)%Z); [|lia]. apply mag_ge_bpow. rewrite Rabs_pos_eq by lra. simpl. lra. }
  set (z := Ztrunc _) in F. exists (z * Zpower radix2 (c + 39))%Z. rewrite F at 1. unfold F2R. cbn [Fnum Fexp].
  rewrite mult_IZR, IZR_Zpower by lia. rewrite Rmult_assoc, <- bpow_plus. do 2 f_equal. lia.
Qed.
Lemma apart x y : b64 x = x -> b64 y = y -> 8192 <= x -> 8192 <= y -> x = y \/ 1e-12 <= Rabs (x - y).
Proof.
  intros FX FY GX GY. destruct (on_grid x FX GX) as (m & X). destruct (on_grid y FY GY) as (k & Y). destruct (Z.eq_dec m k) as [->|N]; [left; lra|right].
  rewrite X, Y, <- Rmult_minus_distr_r, <- minus_IZR, Rabs_mult, <- abs_IZR. assert (A : 1 <= IZR (Z.abs (m - k))) by (apply IZR_le; lia).
  assert (B : 1.8e-12 <= bpow radix2 (-39)) by (simpl; lra). rewrite (Rabs_pos_eq (bpow radix2 (-39))) by apply bpow_ge_0.
  assert (C : 1 * 1.8e-12 <= IZR (Z.abs (m - k)) * bpow radix2 (-39)) by (apply Rmult_le_compat; lra). lra.
Qed.

(** No step exceeds the largest one, although the quotient is rounded. *)
Lemma step_kept dt k : b64 dt = dt -> (1 <= k <= 1000000000000)%Z -> b64 (dt / 300) <= IZR k -> dt <= 300 * IZR k.
Proof.
  intros F HK B. destruct (Rle_or_lt dt (300 * IZR k)) as [|G]; [assumption|exfalso].
  assert (K1 : 1 <= IZR k) by (apply IZR_le; lia). set (f := FLT_exp (-1074) 53).
  assert (FK : generic_format radix2 f (IZR k)) by (apply format_of, b64_IZR; lia).
  assert (F3 : generic_format radix2 f (300 * IZR k)) by (rewrite <- mult_IZR; apply format_of, b64_IZR; lia).
  assert (S3 : succ radix2 f (300 * IZR k) <= dt) by (apply succ_le_lt; [typeclasses eauto|exact F3|apply format_of; exact F|exact G]).
  rewrite succ_eq_pos in S3 by lra.
  assert (U : 256 * ulp radix2 f (IZR k) <= ulp radix2 f (300 * IZR k)).
  { rewrite !ulp_neq_0 by lra. replace 256 with (bpow radix2 8) by (simpl; lra). rewrite <- bpow_plus. apply bpow_le. unfold cexp, f, FLT_exp.
    assert (M1 : (1 <= mag radix2 (IZR k))%Z) by (apply mag_ge_bpow; rewrite Rabs_pos_eq by lra; simpl; lra).
    assert (M2 : (mag radix2 (IZR k * bpow radix2 8) <= mag radix2 (300 * IZR k))%Z).
    { apply mag_le; [simpl; lra|simpl; lra]. }
    rewrite mag_mult_bpow in M2 by lra. lia. }
  assert (U0 : 0 < ulp radix2 f (IZR k)) by (rewrite ulp_neq_0 by lra; apply bpow_gt_0).
  assert (FS : generic_format radix2 f (succ radix2 f (IZR k))) by (apply generic_format_succ; [typeclasses eauto|exact FK]).
  assert (P : pred radix2 f (succ radix2 f (IZR k)) = IZR k) by (apply pred_succ; [typeclasses eauto|exact FK]).
  assert (Q : succ radix2 f (IZR k) <= b64 (dt / 300)).
  { unfold b64. apply round_N_ge_midp; [typeclasses eauto|exact FS|]. fold f. rewrite P, succ_eq_pos by lra. lra. }
  rewrite succ_eq_pos in Q by lra. lra.
Qed.
Lemma b64_Rabs x : Rabs (b64 x) = b64 (Rabs x).
Proof.
  destruct (Rle_or_lt 0 x) as [H|H].
  - assert (Z := b64_mono 0 x H). rewrite (b64_IZR 0) in Z by lia. rewrite !Rabs_pos_eq; auto.
  - assert (Z := b64_mono x 0 ltac:(lra)). rewrite (b64_IZR 0) in Z by lia. rewrite (Rabs_left1 (b64 x)), (Rabs_left x), GeodeticFloatProofs.b64_opp; auto.
Qed.
Lemma b64_rel x : 1e-40 <= Rabs x -> Rabs (b64 x - x) <= 1.13e-16 * Rabs x.
Proof. intros H. assert (Z := ElementsFloatProofs.b64_fine x). lra. Qed.

Lemma parts e t : b64 t = t -> b64 e = e -> 15000 <= t -> 15000 <= e -> let T := (e - t) * 86400 in T <> 0 -> Rabs T <= 7000000000 ->
  let dt := b64 (b64 (e - t) * 86400) in let n := nceil (nabs (b64 (dt / MAX_STEP))) in let h := b64 (dt / of_Z n) in
  (0 < n)%Z /\ IZR n <= Rabs T / 300 + 1.5 /\ Rabs h <= 300 /\ Rabs (IZR n * h - T) <= 4e-16 * Rabs T.
Proof.
  intros Ft Fe Gt Ge T T0 TB dt n h. destruct (apart e t Fe Ft ltac:(lra) ltac:(lra)) as [->|AP]; [exfalso; apply T0; unfold T; lra|].
  assert (TA : Rabs T = Rabs (e - t) * 86400) by (unfold T; rewrite Rabs_mult, (Rabs_pos_eq 86400) by lra; reflexivity).
  assert (D1 := b64_rel (e - t) ltac:(lra)). set (d := b64 (e - t)) in *.
  assert (D2 : Rabs (d * 86400 - T) <= 1.13e-16 * Rabs T). { rewrite TA. replace (d * 86400 - T) with ((d - (e - t)) * 86400) by (unfold T; ring). rewrite Rabs_mult, (Rabs_pos_eq 86400) by lra. lra. }
  assert (D3 : Rabs (d * 86400) <= 1.1 * Rabs T /\ 0.9 * Rabs T <= Rabs (d * 86400)).
  { assert (Z1 := Rabs_triang (d * 86400 - T) T). replace (d * 86400 - T + T) with (d * 86400) in Z1 by ring. assert (Z2 := Rabs_triang (T - d * 86400) (d * 86400)). replace (T - d * 86400 + d * 86400) with T in Z2 by ring. rewrite (Rabs_minus_sym T) in Z2. lra. }
  assert (D4 := b64_rel (d * 86400) ltac:(lra)). change (b64 (d * 86400)) with dt in D4.
  assert (D2' : Rabs (d * 86400) <= Rabs T + 1.13e-16 * Rabs T). { assert (Z1 := Rabs_triang (d * 86400 - T) T). replace (d * 86400 - T + T) with (d * 86400) in Z1 by ring. lra. }
  assert (D5 : Rabs (dt - T) <= 2.3e-16 * Rabs T). { assert (Z := Rabs_triang (dt - d * 86400) (d * 86400 - T)). replace (dt - d * 86400 + (d * 86400 - T)) with (dt - T) in Z by ring. lra. }
  assert (D6 : Rabs dt <= Rabs T + 2.3e-16 * Rabs T /\ 0.9 * Rabs T <= Rabs dt).
  { assert (Z1 := Rabs_triang (dt - T) T). replace (dt - T + T) with dt in Z1 by ring. assert (Z2 := Rabs_triang (T - dt) dt). replace (T - dt + dt) with T in Z2 by ring. rewrite (Rabs_minus_sym T) in Z2. lra. }
  assert (Fd : b64 dt = dt) by apply ClockProofs.b64_idem.
  assert (AD : Rabs (dt / 300) = Rabs dt / 300) by (unfold Rdiv; rewrite Rabs_mult, (Rabs_pos_eq (/ 300)) by lra; reflexivity).
  assert (D7 := b64_rel (dt / 300) ltac:(lra)). set (y := nabs (b64 (dt / MAX_STEP))) in *. change (Rabs (b64 (dt / 300) - dt / 300)) with (Rabs (b64 (dt / MAX_STEP) - dt / 300)) in D7.
  assert (Y : Rabs dt / 300 * 0.9 <= y <= Rabs dt / 300 + 0.01).
  { unfold y, nabs. rewrite <- AD. set (b := b64 (dt / MAX_STEP)) in *. set (c := dt / 300) in *. assert (Z1 := Rabs_triang (b - c) c). replace (b - c + c) with b in Z1 by ring. assert (Z2 := Rabs_triang (c - b) b). replace (c - b + b) with c in Z2 by ring. rewrite (Rabs_minus_sym c) in Z2. assert (Rabs c <= 30000000) by lra. lra. }
  assert (NC : IZR n - 1 < y <= IZR n) by (unfold n; apply nceil_bounds).
  assert (N0 : 0 < IZR n) by lra. assert (NZ : (0 < n)%Z) by (apply lt_IZR; lra). assert (N1 : 1 <= IZR n) by (apply IZR_le; lia).
  assert (NB : IZR n <= Rabs T / 300 + 1.5) by lra.
  assert (NB' : (n <= 1000000000)%Z) by (apply le_IZR; lra).
  split; [exact NZ|]. split; [exact NB|].
  assert (DK : Rabs dt <= 300 * IZR n).
  { apply step_kept; [rewrite <- b64_Rabs, Fd; reflexivity|lia|]. rewrite <- AD, <- b64_Rabs. apply NC. }
  assert (AQ : Rabs (dt / IZR n) = Rabs dt / IZR n) by (unfold Rdiv; rewrite Rabs_mult, Rabs_inv, (Rabs_pos_eq (IZR n)) by lra; reflexivity).
  change (of_Z n) with (IZR n) in h. split.
  - unfold h. rewrite b64_Rabs, AQ. rewrite <- (b64_IZR 300) by lia. apply b64_mono. assert (X : Rabs dt / IZR n * IZR n = Rabs dt) by (field; lra). apply Rmult_le_reg_r with (IZR n); lra.
  - assert (Q0 : 1e-40 <= Rabs (dt / IZR n)). { rewrite AQ. assert (X : Rabs dt / IZR n * IZR n = Rabs dt) by (field; lra). assert (IZR n <= 1000000000) by (apply IZR_le; lia). apply Rmult_le_reg_r with (IZR n); lra. }
    assert (D8 := b64_rel (dt / IZR n) Q0). fold h in D8.
    assert (D9 : Rabs (IZR n * h - dt) <= 1.13e-16 * Rabs dt).
    { replace (IZR n * h - dt) with (IZR n * (h - dt / IZR n)) by (field; lra). rewrite Rabs_mult, (Rabs_pos_eq (IZR n)) by lra.
      replace (Rabs dt) with (IZR n * Rabs (dt / IZR n)) by (rewrite AQ; field; lra). rewrite <- Rmult_assoc, (Rmult_comm 1.13e-16), Rmult_assoc. apply Rmult_le_compat_l; lra. }
    assert (Z := Rabs_triang (IZR n * h - dt) (dt - T)). replace (IZR n * h - dt + (dt - T)) with (IZR n * h - T) in Z by ring. lra.
Qed.
