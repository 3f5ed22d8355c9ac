(** Positions of the Sun and the Moon in binary64. *)
From Coq Require Import Reals ZArith Lra Lia Psatz.
From Verif.Model Require Import Num Linalg Time Celestial ElementsFloat BodyFloat.
From Verif.Spec Require Import Geometry Ecliptic FrameFloat BodyFloat.
From Verif.Proofs Require Import NumLemmas LinalgProofs ElementsFloatProofs FrameFloatBasics EarthFloatProofs BodyFloatProofs EclipticProofs EclipticMotion.
Local Open Scope R_scope.

(** * C118 The Sun and the Moon in binary64

    Epochs are given by the modified Julian date they store; J2000 is 51544.5.
    Nearly all of the error is that of the date: a Julian date near 2451545 is
    stored to 4e-5 s, in which the Sun moves a metre and the Moon 5 cm. *)
Theorem C118_sun : forall L v, accurate_far L -> Rabs (v - 51544.5) <= 36525 ->
  norm (sub (Sun_get_position_b64 L v) (Sun_get_position (Epoch v))) <= 1.82e-3.
Proof.
  intros L v A H. destruct (sun_close L v A H) as (X & Y & Z). apply Rle_trans with (1.7321 * 1.05e-3); [|lra]. apply norm_parts; [lra| | |]; unfold sub; cbn [x3 y3 z3]; assumption.
Qed.
Print Assumptions C118_sun.

Theorem C118_moon : forall L v, accurate_far L -> Rabs (v - 51544.5) <= 36525 ->
  exists p p', Moon_get_position (Epoch v) = Ok p /\ Moon_get_position_b64 L v = Ok p' /\ norm (sub p' p) <= 1.91e-4.
Proof.
  intros L v A H. destruct (moon_close L v A H) as (p & p' & E & E' & X & Y & Z). exists p, p'. split; [exact E|]. split; [exact E'|].
  apply Rle_trans with (1.7321 * 1.1e-4); [|lra]. apply norm_parts; [lra| | |]; unfold sub; cbn [x3 y3 z3]; assumption.
Qed.
Print Assumptions C118_moon.

(** So the computed bodies are where the orbits of C109 put them, in
    particular at a physical distance. *)
Theorem C118_track : forall L v, accurate_far L -> Rabs (v - 51544.5) <= 36525 ->
  (exists lon r, 147.099e6 <= r <= 152.097e6 /\ norm (sub (Sun_get_position_b64 L v) (ecliptic r lon 0)) <= 1.82e-3) /\
  (exists lon lat r p, Rabs lat <= 5.34 * degree /\ 356096 <= r <= 413904 /\
     Moon_get_position_b64 L v = Ok p /\ norm (sub p (ecliptic r lon lat)) <= 1.91e-4).
Proof.
  intros L v A H. split.
  - destruct sun_track as (lon & r & _ & T). destruct (T v) as [B E]. exists (lon v), (r v). assert (S := C118_sun L v A H). rewrite E in S. split; [exact B|exact S].
  - destruct (C118_moon L v A H) as (p & p' & E & E' & D). rewrite moon_ecliptic in E. exists (moon_lon v), (moon_lat v), (moon_range v), p'.
    split; [apply moon_lat_bounds|]. split; [apply moon_range_bounds|]. split; [exact E'|]. replace (ecliptic (moon_range v) (moon_lon v) (moon_lat v)) with p by congruence. exact D.
Qed.
Print Assumptions C118_track.

(** A library that returns the exact sine and cosine is accurate enough, and
    the first of January 2024 lies within the century. *)
Example C118_example : (exists L, accurate_far L) /\ Rabs (60310 - 51544.5) <= 36525.
Proof.
  split.
  - exists (Libm sin cos (fun x => x) (fun x _ => x) (fun x _ => x)). intros x _. cbn. rewrite !Rminus_diag_eq, Rabs_R0 by reflexivity. lra.
  - rewrite Rabs_pos_eq; lra.
Qed.
