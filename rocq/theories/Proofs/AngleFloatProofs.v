From Coq Require Import Reals ZArith Lra Lia Bool Psatz.
From Flocq Require Import Core Relative.
From Verif.Model Require Import Num Constants TimeFloat AngleFloat.
From Verif.Proofs Require Import NumLemmas Analysis TimeFloatProofs ClockProofs.
Local Open Scope R_scope.

Definition turn : R := 2 * math_pi.
Lemma turn_dyadic : turn = IZR 7074237752028440 * bpow radix2 (-50).
Proof. change (bpow radix2 (-50)) with (/ 1125899906842624). unfold turn, math_pi. lra. Qed.
Lemma turn_b64 : b64 turn = turn.
Proof. rewrite turn_dyadic. apply b64_dyadic; lia. Qed.
Lemma turn_range : 6 < turn < 7.
Proof. unfold turn, math_pi. lra. Qed.
Lemma b64_0 : b64 0 = 0.
Proof. change 0 with (IZR 0). apply b64_IZR. lia. Qed.

Lemma b64_nonneg x : 0 <= x -> 0 <= b64 x.
Proof. intros H. generalize (b64_mono 0 x H). rewrite b64_0. auto. Qed.
Lemma b64_below x y : b64 y = y -> x <= y -> b64 x <= y.
Proof. intros E H. generalize (b64_mono x y H). rewrite E. auto. Qed.

(** rounding between 4 and 8 *)
Lemma b64_binade4 x : 4 <= x < 8 -> b64 x = IZR (near (x * 1125899906842624)) / 1125899906842624.
Proof.
  intros H. unfold b64, round, scaled_mantissa, F2R, cexp. cbn [Fnum Fexp].
  rewrite (mag_unique_pos radix2 x 3).
  2:{ change (bpow radix2 (3 - 1)) with 4. change (bpow radix2 3) with 8. lra. }
  reflexivity.
Qed.
Lemma wrap_range x : - turn <= x < turn -> 0 <= wrap_b64 x <= turn.
Proof.
  intros H. unfold wrap_b64. fold turn. destruct (nlt_spec x 0); [|lra]. split.
  - apply b64_nonneg. lra.
  - apply b64_below; [exact turn_b64|lra].
Qed.
Lemma near_even_tie m x : Z.even m = true -> Rabs (x - IZR m) <= / 2 -> near x = m.
Proof.
  intros Ev H. apply Rabs_le_inv in H.
  destruct (Rlt_le_dec x (IZR m + / 2)) as [A|A].
  - destruct (Rlt_le_dec (IZR m - / 2) x) as [B|B].
    + apply Znearest_imp. apply Rabs_lt. lra.
    + replace x with (IZR (m - 1) + / 2) by (rewrite minus_IZR; lra). rewrite near_tie.
      replace (Z.even (m - 1)) with false; [lia|]. rewrite Z.even_sub, Ev. reflexivity.
  - replace x with (IZR m + / 2) by lra. rewrite near_tie, Ev. reflexivity.
Qed.
Lemma wrap_top x : - turn <= x < turn -> (wrap_b64 x = turn <-> - (/ 2251799813685248) <= x < 0).
Proof.
  intros H. assert (T := turn_range). unfold wrap_b64. fold turn. destruct (nlt_spec x 0) as [N|N].
  2:{ split; intros; lra. }
  split.
  - intros E. split; auto. destruct (Rle_lt_dec 4 (x + turn)) as [L|L].
    + rewrite b64_binade4 in E by lra. assert (Nh := near_half ((x + turn) * 1125899906842624)).
      apply Rabs_le_inv in Nh. lra.
    + exfalso. assert (A : b64 (x + turn) <= 4) by (apply b64_below; [apply (b64_IZR 4); lia|lra]). lra.
  - intros L. rewrite b64_binade4 by lra.
    replace (near ((x + turn) * 1125899906842624)) with 7074237752028440%Z.
    { unfold turn, math_pi. lra. }
    symmetry. apply near_even_tie; [reflexivity|]. unfold turn, math_pi. apply Rabs_le. lra.
Qed.
Lemma wrap_close x : - turn <= x < turn ->
  Rabs (wrap_b64 x - (if Rlt_dec x 0 then x + turn else x)) <= 4.5e-16.
Proof.
  intros H. assert (T := turn_range). unfold wrap_b64. fold turn. destruct (nlt_spec x 0) as [N|N]; destruct (Rlt_dec x 0); try lra.
  - destruct (Rle_lt_dec 4 (x + turn)) as [L|L].
    + rewrite b64_binade4 by lra. assert (Nh := near_half ((x + turn) * 1125899906842624)).
      apply Rabs_le_inv in Nh. apply Rabs_le. lra.
    + eapply Rle_trans; [apply (b64_err (x + turn) 4); apply Rabs_le; lra|]. unfold eps. lra.
  - rewrite Rminus_eq_0, Rabs_R0. lra.
Qed.

Lemma perigee_top : exists u nu, b64 u = u /\ b64 nu = nu /\ 0 <= u < turn /\ 0 <= nu < turn /\ W_from_u_nu_b64 u nu = turn.
Proof.
  exists 1, (1 + / 4503599627370496). assert (T := turn_range).
  assert (Hn : 1 + / 4503599627370496 = IZR 4503599627370497 * bpow radix2 (-52)).
  { change (bpow radix2 (-52)) with (/ 4503599627370496). lra. }
  split; [apply (b64_IZR 1); lia|]. split; [rewrite Hn; apply b64_dyadic; lia|]. split; [lra|]. split; [lra|].
  unfold W_from_u_nu_b64. replace (1 - (1 + / 4503599627370496)) with (IZR (-1) * bpow radix2 (-52)).
  2:{ change (bpow radix2 (-52)) with (/ 4503599627370496). lra. }
  rewrite b64_dyadic by lia. change (bpow radix2 (-52)) with (/ 4503599627370496).
  apply wrap_top; lra.
Qed.

(** * Remainders *)
Lemma fmod_small x y : 0 < y -> - y < x < y -> fmod x y = x.
Proof.
  intros Hy H. unfold fmod. replace (Ztrunc (x / y)) with 0%Z; [ring|]. symmetry.
  assert (B : -1 < x / y < 1).
  { split; apply Rmult_lt_reg_r with y; auto; replace (x / y * y) with x by (field; lra); lra. }
  unfold Ztrunc. destruct (Rlt_bool_spec (x / y) 0).
  - apply Zceil_imp. change (0 - 1)%Z with (-1)%Z. lra.
  - apply Zfloor_imp. change (0 + 1)%Z with 1%Z. lra.
Qed.
Lemma fmod_bound x y : 0 < y -> - y < fmod x y < y.
Proof.
  intros Hy. unfold fmod. replace (x - y * IZR (Ztrunc (x / y))) with ((x / y - IZR (Ztrunc (x / y))) * y) by (field; lra).
  assert (B : -1 < x / y - IZR (Ztrunc (x / y)) < 1).
  { unfold Ztrunc. destruct (Rlt_bool_spec (x / y) 0).
    - assert (A := Zceil_ub (x / y)). assert (C := Zceil_lb (x / y)). lra.
    - assert (A := Zfloor_lb (x / y)). assert (C := Zfloor_ub (x / y)). lra. }
  nra.
Qed.
Lemma fmod_nonneg x y : 0 < y -> 0 <= x -> fmod x y = x - y * IZR (nfloor (x / y)).
Proof.
  intros Hy Hx. unfold fmod. assert (0 <= x / y) by (apply Rmult_le_pos; [lra|left; apply Rinv_0_lt_compat; auto]).
  rewrite Ztrunc_floor by auto.
  rewrite (nfloor_unique (x / y) (Zfloor (x / y))); [reflexivity|split; [apply Zfloor_lb|apply Zfloor_ub]].
Qed.
Lemma pymod_exact x y : 0 < y -> 0 <= x -> pymod_b64 x y = nmod x y.
Proof.
  intros Hy Hx. unfold pymod_b64. rewrite fmod_nonneg by auto. unfold nmod.
  change (Int_part (x / y)) with (nfloor (x / y)). assert (R := nmod_range x y Hy). unfold nmod in R.
  change (Int_part (x / y)) with (nfloor (x / y)) in R. rewrite nlt_false by lra. reflexivity.
Qed.
Lemma pymod_range x y : 0 < y -> b64 y = y -> 0 <= pymod_b64 x y <= y.
Proof.
  intros Hy By. unfold pymod_b64. assert (F := fmod_bound x y Hy). destruct (nlt_spec (fmod x y) 0); [|lra]. split.
  - apply b64_nonneg. lra.
  - apply b64_below; [exact By|lra].
Qed.
Lemma b64_binade360 x : 256 <= x < 512 -> b64 x = IZR (near (x * 17592186044416)) / 17592186044416.
Proof.
  intros H. unfold b64, round, scaled_mantissa, F2R, cexp. cbn [Fnum Fexp].
  rewrite (mag_unique_pos radix2 x 9).
  2:{ change (bpow radix2 (9 - 1)) with 256. change (bpow radix2 9) with 512. lra. }
  reflexivity.
Qed.
Lemma pymod_top x : - (/ 35184372088832) <= x < 0 -> pymod_b64 x 360 = 360.
Proof.
  intros H. unfold pymod_b64. rewrite fmod_small by lra. rewrite nlt_true by lra. rewrite b64_binade360 by lra.
  rewrite (near_even_tie 6333186975989760); [lra|reflexivity|]. apply Rabs_le. lra.
Qed.
