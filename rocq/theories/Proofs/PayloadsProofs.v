(** Proofs about hardware/constraints.py and hardware/payloads.py. *)
From Coq Require Import Reals Lra Psatz.
From Verif.Model Require Import Num Constraints Payloads.
From Verif.Proofs Require Import NumLemmas Analysis FunctionsProofs.
Local Open Scope R_scope.

Lemma tan_pos x : 0 < x < PI / 2 -> 0 < tan x.
Proof. intros H. apply tan_gt_0; lra. Qed.

Lemma camera_ok px f : 0 < px -> 0 < f < PI / 2 -> Camera px f = Ok (mkCamera px f
  (mkOptical (PI / 3) (PI / 2) (PI / 18) (PI / 9) 15 f (2e-5 * px / tan f)) (1 / (2 * px))).
Proof.
  intros P H. assert (T := tan_pos f H). unfold Camera, OpticalConstraints. rewrite pdiv_ok by lra. cbn [bind].
  rewrite pdiv_ok by lra. cbn [bind]. apply f_equal.
  unfold DEFAULT_SUN_HARD, DEFAULT_SUN_SOFT, DEFAULT_MOON_LIMIT, DEFAULT_EARTH_LIMIT, DEFAULT_LIMITING_MAG, DEFAULT_FRAME_DAMP, DEFAULT_RESOLUTION_LIMIT, radians.
  replace (60 * (PI / 180)) with (PI / 3) by field. replace (90 * (PI / 180)) with (PI / 2) by field.
  replace (10 * (PI / 180)) with (PI / 18) by field. replace (20 * (PI / 180)) with (PI / 9) by field.
  replace (1 / px * 0.5) with (1 / (2 * px)) by (replace 0.5 with (1 / 2) by lra; field; lra).
  replace (1e-5 * 2 * px) with (2e-5 * px) by lra. rewrite Rmult_1_l. reflexivity.
Qed.
Lemma camera_zero_pixels f : exists e, Camera 0 f = Err e.
Proof.
  unfold Camera. destruct (OpticalConstraints 0 f) as [l|e]; cbn [bind]; [|eauto].
  rewrite pdiv_zero. cbn [bind]. eauto.
Qed.

Section Good.
  Context (px f : R) (c : camera) (P : 0 < px) (H : 0 < f < PI / 2) (E : Camera px f = Ok c).
  Lemma camera_is : c = mkCamera px f (mkOptical (PI / 3) (PI / 2) (PI / 18) (PI / 9) 15 f (2e-5 * px / tan f)) (1 / (2 * px)).
  Proof. rewrite camera_ok in E by auto. injection E. auto. Qed.
  Lemma resolution_is r : resolution c r = tan f * r / (2 * px).
  Proof. rewrite camera_is. unfold resolution; cbn. field. lra. Qed.
  Lemma resolution_limit r : resolution c r <= 1e-5 <-> r <= characterization (limits c).
  Proof.
    rewrite resolution_is, camera_is. cbn. assert (T := tan_pos f H). split; intros L.
    - apply Rmult_le_reg_r with (tan f); [auto|]. unfold Rdiv. rewrite Rmult_assoc, Rinv_l, Rmult_1_r by lra.
      apply Rmult_le_compat_r with (r := 2 * px) in L; [|lra]. unfold Rdiv in L. rewrite Rmult_assoc, Rinv_l in L by lra. lra.
    - apply Rmult_le_compat_r with (r := tan f) in L; [|lra]. unfold Rdiv in L. rewrite Rmult_assoc, Rinv_l, Rmult_1_r in L by lra.
      apply Rmult_le_reg_r with (2 * px); [lra|]. unfold Rdiv. rewrite Rmult_assoc, Rinv_l by lra. lra.
  Qed.
  Lemma range_error_is r d : d <> 0 -> range_error c r d = Ok (tan f * r ^ 2 / (2 * px * d)).
  Proof.
    intros D. unfold range_error. rewrite pdiv_ok by auto. cbn [bind]. apply f_equal. rewrite resolution_is. field. split; lra.
  Qed.
  Lemma tracking_is R : 0 < R -> exists d, tracking_minimum c R = Ok d /\ 0 < d /\ atan (R / d) = f.
  Proof.
    intros HR. assert (T := tan_pos f H). exists (R / tan f). rewrite camera_is. unfold tracking_minimum. cbn.
    rewrite pdiv_ok by lra. split; auto. split; [apply Rdiv_pos; auto|].
    replace (R / (R / tan f)) with (tan f) by (field; lra). apply atan_tan. lra.
  Qed.
End Good.
