From Coq Require Import Reals ZArith Lra.
From Verif.Model Require Import Num Time TimeFloat SiderealFloat.
From Verif.Spec Require Import SiderealFloat.
From Verif.Proofs Require Import SiderealFloatProofs.
Local Open Scope R_scope.

(** * C106 Sidereal time in floating point *)

(** [v] is the modified Julian date stored in the epoch, within a century of
    J2000: the computed angle is within 2.7e-8 rad of the exact one, *)
Theorem C106_accuracy : forall v, Rabs (v - 51544.5) <= 36525 ->
  close_angle 2.7e-8 (greenwich_hour_angle_b64 v) (greenwich_hour_angle (Epoch v)).
Proof. exact gha_round_any. Qed.
Print Assumptions C106_accuracy.

(** and within 8e-11 rad more than a microsecond away from UTC midnight. *)
Theorem C106_within_day : forall v, Rabs (v - 51544.5) <= 36525 ->
  (exists D : Z, IZR D + 1e-11 <= v - 69.184 / 86400 < IZR D + 1 - 1e-11) ->
  close_angle 8e-11 (greenwich_hour_angle_b64 v) (greenwich_hour_angle (Epoch v)).
Proof. exact gha_round. Qed.
Print Assumptions C106_within_day.

(** It is never negative nor over a turn. *)
Theorem C106_range : forall v, 0 <= greenwich_hour_angle_b64 v <= 6.2831853072.
Proof. exact gha_b64_range. Qed.
Print Assumptions C106_range.

Example C106_example : Rabs (58000.25 - 51544.5) <= 36525 /\
  exists D : Z, IZR D + 1e-11 <= 58000.25 - 69.184 / 86400 < IZR D + 1 - 1e-11.
Proof. split; [apply Rabs_le; lra|exists 58000%Z; lra]. Qed.
