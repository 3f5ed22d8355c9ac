(** Properties of hardware/payloads.py and hardware/constraints.py (C59). *)
From Coq Require Import Reals Lra Psatz.
From Verif.Model Require Import Num Constraints Payloads.
From Verif.Proofs Require Import NumLemmas Analysis FunctionsProofs PayloadsProofs.
Local Open Scope R_scope.

(** * C59 Resolution, characterization range and tracking minimum *)

(** Every camera with pixels and a field of view below a right angle can be
    built, with the documented limits. *)
Theorem C59_camera : forall px f, 0 < px -> 0 < f < PI / 2 -> exists c, Camera px f = Ok c /\
  pixels c = px /\ fov c = f /\
  sun_hard (limits c) = PI / 3 /\ sun_soft (limits c) = PI / 2 /\ lim_moon (limits c) = PI / 18 /\
  lim_earth (limits c) = PI / 9 /\ vismag (limits c) = 15 /\ bore (limits c) = f.
Proof. intros px f P H. eexists. split; [exact (camera_ok px f P H)|]. cbn. repeat split. Qed.
Print Assumptions C59_camera.

(** The characterization range is where a pixel covers one centimetre. *)
Theorem C59_characterization : forall px f c, 0 < px -> 0 < f < PI / 2 -> Camera px f = Ok c ->
  forall r, (resolution c r <= 1e-5 <-> r <= characterization (limits c)) /\
            (resolution c r = 1e-5 <-> r = characterization (limits c)).
Proof.
  intros px f c P H E r. split; [exact (resolution_limit px f c P H E r)|].
  rewrite (resolution_is px f c P H E), (camera_is px f c P H E). cbn. assert (T := tan_pos f H). split; intros L.
  - apply Rmult_eq_reg_r with (tan f); [|lra]. unfold Rdiv. rewrite Rmult_assoc, Rinv_l, Rmult_1_r by lra.
    apply (f_equal (fun x => x * (2 * px))) in L. unfold Rdiv in L. rewrite Rmult_assoc, Rinv_l in L by lra. lra.
  - rewrite L. apply Rmult_eq_reg_r with (2 * px); [|lra].
    replace (tan f * (2 / 100000 * px / tan f) / (2 * px) * (2 * px)) with (2 / 100000 * px) by (field; lra). lra.
Qed.
Print Assumptions C59_characterization.

(** The pixel footprint is proportional to the range and the range error to its
    square; both are positive. *)
Theorem C59_scaling : forall px f c, 0 < px -> 0 < f < PI / 2 -> Camera px f = Ok c ->
  forall r d, 0 < r -> 0 < d -> 0 < resolution c r /\
  (forall k, resolution c (k * r) = k * resolution c r) /\
  exists x, range_error c r d = Ok x /\ 0 < x /\
    (forall k, range_error c (k * r) d = Ok (k ^ 2 * x)) /\
    (forall k, 0 < k -> range_error c r (k * d) = Ok (x / k)).
Proof.
  intros px f c P H E r d R D. assert (T := tan_pos f H). assert (RS := resolution_is px f c P H E).
  assert (RE := range_error_is px f c P H E).
  split; [rewrite RS; apply Rdiv_pos; [apply Rmult_lt_0_compat|]; lra|]. split; [intros k; rewrite !RS; field; lra|].
  eexists. split; [apply RE; lra|]. split; [|split].
  - apply Rdiv_pos; [apply Rmult_lt_0_compat; [auto|apply pow_lt; auto]|apply Rmult_lt_0_compat; lra].
  - intros k. rewrite RE by lra. apply f_equal. field. lra.
  - intros k K. rewrite RE by (apply Rgt_not_eq, Rmult_lt_0_compat; auto). apply f_equal. field. lra.
Qed.
Print Assumptions C59_scaling.

(** A body of radius [R] at its tracking minimum subtends the field of view. *)
Theorem C59_tracking_minimum : forall px f c, 0 < px -> 0 < f < PI / 2 -> Camera px f = Ok c ->
  forall R, 0 < R -> exists d, tracking_minimum c R = Ok d /\ 0 < d /\ atan (R / d) = f.
Proof. exact tracking_is. Qed.
Print Assumptions C59_tracking_minimum.

(** A target of zero size cannot be ranged, nor a camera without pixels built. *)
Theorem C59_raises : (forall c r, range_error c r 0 = Err ZeroDivisionError) /\
  (forall f, exists e, Camera 0 f = Err e) /\ (forall px, Camera px 0 = Err ZeroDivisionError).
Proof.
  split; [|split].
  - intros c r. unfold range_error. rewrite pdiv_zero. reflexivity.
  - exact camera_zero_pixels.
  - intros px. unfold Camera, OpticalConstraints. rewrite tan_0, pdiv_zero. reflexivity.
Qed.
Print Assumptions C59_raises.

(** The two built-in cameras are covered. *)
Example C59_example : Camera_wfov = Camera 3072 (PI / 36) /\ Camera_nfov = Camera 3072 (PI / 1440) /\
  0 < PI / 36 < PI / 2 /\ 0 < PI / 1440 < PI / 2.
Proof.
  assert (P := PI_bounds). unfold Camera_wfov, Camera_nfov, DEFAULT_WIDE_PIXELS, DEFAULT_NARROW_PIXELS, DEFAULT_WFOV, DEFAULT_NFOV, radians.
  split; [f_equal; field|]. split; [f_equal; lra|]. lra.
Qed.
