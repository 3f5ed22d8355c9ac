From Coq Require Import Reals ZArith Lra Lia Bool Psatz.
From Flocq Require Import Core Relative.
From Verif.Model Require Import Num Constants Functions Time TimeFloat.
From Verif.Proofs Require Import NumLemmas TimeProofs.
Local Open Scope R_scope.

Lemma b64_error x : Rabs (b64 x - x) <= Rabs x * / 9007199254740992 + 1e-30.
Proof.
  unfold b64. destruct (error_N_FLT radix2 (-1074) 53 ltac:(lia) (fun z => negb (Z.even z)) x) as (eps & eta & He & Ht & _ & E).
  rewrite E. replace (x * (1 + eps) + eta - x) with (x * eps + eta) by ring.
  eapply Rle_trans; [apply Rabs_triang|]. rewrite Rabs_mult.
  apply Rplus_le_compat.
  - apply Rmult_le_compat_l; [apply Rabs_pos|]. eapply Rle_trans; [apply He|].
    change (-53 + 1)%Z with (-52)%Z. change (bpow radix2 (-52)) with (/ IZR (Z.pow_pos 2 52)).
    change (Z.pow_pos 2 52) with 4503599627370496%Z.
    replace (/ 9007199254740992) with (/ 2 * / 4503599627370496) by (field; lra). apply Rle_refl.
  - eapply Rle_trans; [apply Ht|].
    apply Rle_trans with (bpow radix2 (-1074)); [generalize (bpow_gt_0 radix2 (-1074)); lra|].
    apply Rle_trans with (bpow radix2 (-100)); [apply bpow_le; lia|].
    change (bpow radix2 (-100)) with (/ IZR (Z.pow_pos 2 100)).
    change (Z.pow_pos 2 100) with 1267650600228229401496703205376%Z. lra.
Qed.
Lemma b64_IZR z : (Z.abs z <= 9007199254740992)%Z -> b64 (IZR z) = IZR z.
Proof.
  intros H. unfold b64. apply round_generic; [apply valid_rnd_N|].
  apply generic_format_FLT.
  destruct (Z.eq_dec (Z.abs z) 9007199254740992) as [E|N].
  - exists (Float radix2 (z / 2) 1).
    + unfold F2R. simpl. rewrite <- mult_IZR. f_equal.
      destruct (Z.abs_eq_or_opp z) as [A|A]; rewrite A in E.
      * subst z. reflexivity.
      * replace z with (-9007199254740992)%Z by lia. reflexivity.
    + simpl. destruct (Z.abs_eq_or_opp z) as [A|A]; rewrite A in E.
      * subst z. reflexivity.
      * replace z with (-9007199254740992)%Z by lia. reflexivity.
    + simpl. lia.
  - exists (Float radix2 z 0).
    + unfold F2R. simpl. ring.
    + simpl. lia.
    + simpl. lia.
Qed.
Lemma b64_mono x y : x <= y -> b64 x <= b64 y.
Proof. intros H. unfold b64. apply round_le; auto. apply FLT_exp_valid. unfold Prec_gt_0. lia. apply valid_rnd_N. Qed.

(** a quotient by a small integer keeps its floor *)
Lemma b64_floor_div z d : (1 < d <= 400)%Z -> (Z.abs z <= 1099511627777)%Z ->
  nfloor (b64 (IZR z / IZR d)) = nfloor (IZR z / IZR d).
Proof.
  intros Hd Hz. rewrite nfloor_div by lia. apply nfloor_unique.
  assert (D0 : 1 < IZR d <= 400) by (split; [apply IZR_lt|apply IZR_le]; lia).
  assert (Q := Z_div_mod_eq_full z d). assert (B := Z.mod_pos_bound z d ltac:(lia)).
  set (q := (z / d)%Z) in *. set (r := (z mod d)%Z) in *.
  assert (Hq : (Z.abs q <= 1099511627777)%Z) by nia.
  assert (Ex : IZR z / IZR d = IZR q + IZR r / IZR d).
  { rewrite Q, plus_IZR, mult_IZR. field. lra. }
  assert (R0 : 0 <= IZR r) by (apply IZR_le; lia).
  assert (R1 : IZR r <= IZR d - 1) by (rewrite <- minus_IZR; apply IZR_le; lia).
  assert (F0 : 0 <= IZR r / IZR d) by (apply Rmult_le_pos; [lra|]; left; apply Rinv_0_lt_compat; lra).
  assert (F1 : IZR r / IZR d <= 1 - / 400).
  { replace (IZR r / IZR d) with (1 - (IZR d - IZR r) / IZR d) by (field; lra).
    assert (/ 400 <= (IZR d - IZR r) / IZR d); [|lra].
    apply Rle_trans with (1 / IZR d).
    - unfold Rdiv. rewrite Rmult_1_l. apply Rinv_le_contravar; lra.
    - apply Rmult_le_compat_r; [left; apply Rinv_0_lt_compat; lra|lra]. }
  split.
  - rewrite <- (b64_IZR q) by lia. apply b64_mono. rewrite Ex. lra.
  - assert (E := b64_error (IZR z / IZR d)). rewrite Ex in *.
    assert (Aq : Rabs (IZR q) <= 1099511627777) by (rewrite <- abs_IZR; apply IZR_le; lia).
    assert (Ax : Rabs (IZR q + IZR r / IZR d) <= 1099511627778).
    { eapply Rle_trans; [apply Rabs_triang|]. rewrite (Rabs_pos_eq (IZR r / IZR d)) by lra. lra. }
    apply Rabs_le_inv in E. lra.
Qed.
Lemma b64_floor_month k : (1 <= k <= 16)%Z ->
  nfloor (b64 (b64 30.6001 * IZR k)) = nfloor (30.6001 * IZR k).
Proof.
  intros Hk.
  assert (C : exists m, (k = m + 1)%Z) by (exists (k - 1)%Z; lia). destruct C as [m ->].
  change (IZR (m + 1)) with (of_Z (m + 1)) at 2. rewrite nfloor_month. unfold month_offset.
  set (k := (m + 1)%Z) in *. clearbody k.
  assert (E1 := b64_error 30.6001). rewrite (Rabs_pos_eq 30.6001) in E1 by lra.
  apply Rabs_le_inv in E1. set (c := b64 30.6001) in *. clearbody c.
  assert (K : 1 <= IZR k <= 16) by (split; apply IZR_le; lia).
  assert (Bx : Rabs (c * IZR k - 30.6001 * IZR k) <= 1e-12).
  { replace (c * IZR k - 30.6001 * IZR k) with ((c - 30.6001) * IZR k) by ring. rewrite Rabs_mult.
    rewrite (Rabs_pos_eq (IZR k)) by lra.
    apply Rle_trans with (1e-13 * 16 / 2); [|lra].
    apply Rle_trans with (5e-14 * IZR k); [|lra].
    apply Rmult_le_compat_r; [lra|]. apply Rabs_le. lra. }
  assert (E2 := b64_error (c * IZR k)). apply Rabs_le_inv in Bx.
  rewrite (Rabs_pos_eq (c * IZR k)) in E2 by lra. apply Rabs_le_inv in E2.
  apply nfloor_unique. set (f := b64 (c * IZR k)) in *. clearbody f.
  set (g := c * IZR k) in *. clearbody g.
  assert (k = 1 \/ k = 2 \/ k = 3 \/ k = 4 \/ k = 5 \/ k = 6 \/ k = 7 \/ k = 8 \/ k = 9 \/ k = 10 \/ k = 11 \/ k = 12 \/ k = 13 \/ k = 14 \/ k = 15 \/ k = 16)%Z as H by lia.
  repeat (destruct H as [H|H]); subst k;
  match goal with |- context [(?a / 10000)%Z] => let v := eval vm_compute in (a / 10000)%Z in change (a / 10000)%Z with v end; lra.
Qed.
Lemma gregorian_b64 y m d : (Z.abs y <= 1099511627776)%Z -> (1 <= m <= 12)%Z ->
  gregorian_mjd_b64 y m d = gregorian_mjd y m d.
Proof.
  intros Hy Hm. unfold gregorian_mjd_b64, gregorian_mjd, of_Z.
  destruct (Z.leb_spec m 2); rewrite !b64_floor_div, b64_floor_month by lia; reflexivity.
Qed.
(** the whole epoch value: rounding error *)
Lemma b64_abs x e : Rabs x <= e -> Rabs (b64 x) <= e + e * / 9007199254740992 + 1e-30.
Proof.
  intros H. assert (E := b64_error x).
  replace (b64 x) with ((b64 x - x) + x) by ring.
  eapply Rle_trans; [apply Rabs_triang|]. lra.
Qed.
Lemma from_gregorian_error y m d h mi s :
  (Z.abs y <= 1099511627776)%Z -> (1 <= m <= 12)%Z ->
  (0 <= h <= 24)%Z -> (0 <= mi <= 60)%Z -> 0 <= s <= 60 ->
  Rabs (from_gregorian_b64 y m d h mi s - value (from_gregorian y m d h mi s))
  <= Rabs (value (from_gregorian y m d h mi s)) / 2 ^ 53 + 1e-15.
Proof.
  intros Hy Hm Hh Hmi Hs. unfold from_gregorian_b64, from_gregorian. cbn [value].
  rewrite gregorian_b64 by auto. unfold hms_to_decimal_day, hms_to_decimal_day_b64, HOURS_IN_DAY, MINUTES_IN_DAY, SECONDS_IN_DAY, of_Z.
  assert (h' : 0 <= IZR h <= 24) by (split; apply IZR_le; lia).
  assert (mi' : 0 <= IZR mi <= 60) by (split; apply IZR_le; lia).
  set (H := IZR h) in *. set (M := IZR mi) in *. set (D := IZR (gregorian_mjd y m d)). clearbody H M D.
  assert (E1 := b64_error (H / 24)). assert (E2 := b64_error (M / 1440)). assert (E3 := b64_error (s / 86400)).
  rewrite (Rabs_pos_eq (H / 24)) in E1 by lra. rewrite (Rabs_pos_eq (M / 1440)) in E2 by lra.
  rewrite (Rabs_pos_eq (s / 86400)) in E3 by lra.
  apply Rabs_le_inv in E1. apply Rabs_le_inv in E2. apply Rabs_le_inv in E3.
  set (a := b64 (H / 24)) in *. set (b := b64 (M / 1440)) in *. set (c := b64 (s / 86400)) in *. clearbody a b c.
  assert (E4 := b64_error (a + b)). 
  assert (A4 : Rabs (a + b) <= 1.1) by (apply Rabs_le; lra). 
  assert (E4' : -1.3e-16 <= b64 (a + b) - (a + b) <= 1.3e-16) by (apply Rabs_le_inv in E4; lra).
  set (f := b64 (a + b)) in *. clearbody f.
  assert (E5 := b64_error (f + c)). 
  assert (A5 : Rabs (f + c) <= 1.1) by (apply Rabs_le; lra). 
  assert (E5' : -1.3e-16 <= b64 (f + c) - (f + c) <= 1.3e-16) by (apply Rabs_le_inv in E5; lra).
  set (g := b64 (f + c)) in *. clearbody g.
  assert (E6 := b64_error (D + g)).
  assert (G : Rabs (g - (H / 24 + M / 1440 + s / 86400)) <= 5e-16) by (apply Rabs_le; lra).
  set (T := H / 24 + M / 1440 + s / 86400) in *. clearbody T.
  replace (b64 (D + g) - (D + T)) with ((b64 (D + g) - (D + g)) + (g - T)) by ring.
  eapply Rle_trans; [apply Rabs_triang|].
  assert (Rabs (D + g) <= Rabs (D + T) + 5e-16).
  { replace (D + g) with ((D + T) + (g - T)) by ring. eapply Rle_trans; [apply Rabs_triang|]. lra. }
  simpl. lra.
Qed.
