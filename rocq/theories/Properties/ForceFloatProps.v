(** Accelerations in binary64. *)
From Coq Require Import Reals ZArith Lra Lia Psatz.
From Verif.Model Require Import Num Linalg Time Celestial States AngleFloat ElementsFloat BodyFloat ForceFloat.
From Verif.Spec Require Import Geometry Gravity Forces FrameFloat BodyFloat.
From Verif.Proofs Require Import NumLemmas LinalgProofs CelestialProofs StatesProofs ElementsFloatProofs FrameFloatBasics FrameFloatTrip EarthFloatProofs BodyFloatProofs.
From Verif.Proofs Require Import ForceFloatProofs.
Local Open Scope R_scope.

(** * C119 Accelerations in binary64

    [attraction] is Newton's law (Spec/Forces.v); lengths are in km and
    accelerations in km/s^2. *)

(** The central attraction keeps fourteen and a half digits at every
    position more than a kilometre from the centre. *)
Theorem C119_earth : forall s, let x := g_position s in 1 <= norm x <= 1e12 ->
  exists a, acceleration_from_earth_b64 s = Ok a /\
  norm (sub a (attraction 398600.4418 (sub zero3 x))) <= 1.5e-15 * norm (attraction 398600.4418 (sub zero3 x)).
Proof.
  intros s x B. subst x. destruct (earth_close s B) as (a & a' & E & E' & H & N). exists a'. split; [exact E'|].
  assert (X : g_position s <> zero3) by (intros Z; rewrite Z in B; assert (T := proj2 (norm_zero zero3) eq_refl); lra).
  rewrite (earth_ok s X) in E. unfold mu_earth in E. replace (attraction 398600.4418 (sub zero3 (g_position s))) with a by congruence. exact H.
Qed.
Print Assumptions C119_earth.

(** Outside the Moon its tidal acceleration is in error by what an error of
    twenty centimetres in the position of the Moon makes of it. *)
Theorem C119_moon : forall L s m, accurate_far L -> Rabs (value (g_epoch s) - 51544.5) <= 36525 ->
  Moon_get_position (g_epoch s) = Ok m -> 1737 <= norm (sub m (g_position s)) <= 1e9 ->
  exists a, acceleration_from_moon_b64 L s = Ok a /\
  norm (sub a (sub (attraction 4902.800305555 (sub m (g_position s))) (attraction 4902.800305555 m)))
    <= 3.9 * (/ norm (sub m (g_position s)) ^ 3 + / norm m ^ 3).
Proof.
  intros L s m A H EM R. destruct (g_epoch s) as [v] eqn:EP. cbn [value] in H.
  destruct (moon_force_close L v s m A H EP EM R) as (a & a' & E & E' & C). exists a'. split; [exact E'|].
  unfold acceleration_from_moon in E. rewrite EP, EM in E. cbn [bind] in E. destruct (Moon_norm (Epoch v)) as (q & Q & B). assert (q = m) by congruence. subst q.
  rewrite third_exact in E by lra. replace (sub (attraction _ _) _) with a by (unfold Moon_MU in E; congruence). exact C.
Qed.
Print Assumptions C119_moon.

(** The tidal acceleration of the Sun is good to 8e-16 km/s^2, less than a
    billionth of it in a geostationary orbit, anywhere within ten million km. *)
Theorem C119_sun : forall L s, accurate_far L -> Rabs (value (g_epoch s) - 51544.5) <= 36525 -> norm (g_position s) <= 1e7 ->
  let S := Sun_get_position (g_epoch s) in
  exists a, acceleration_from_sun_b64 L s = Ok a /\
  norm (sub a (sub (attraction 1.327124400419e11 (sub S (g_position s))) (attraction 1.327124400419e11 S))) <= 8e-16.
Proof.
  intros L s A H R S. destruct (g_epoch s) as [v] eqn:EP. cbn [value] in H. subst S.
  destruct (sun_force_close L v s A H EP R) as (a & a' & E & E' & C). exists a'. split; [exact E'|].
  rewrite (sun_ok s) in E by lra. rewrite EP in E. apply (ok_inj vec3) in E. unfold Sun_MU in E. rewrite E. exact C.
Qed.
Print Assumptions C119_sun.

(** Solar pressure keeps ten and a half digits. *)
Theorem C119_srp : forall L s, accurate_far L -> Rabs (value (g_epoch s) - 51544.5) <= 36525 -> norm (g_position s) <= 1e7 ->
  let d := sub (Sun_get_position (g_epoch s)) (g_position s) in
  let p := 4.56e-6 * g_srp_scalar s / 1000 in
  exists a, acceleration_from_srp_b64 L s = Ok a /\ norm (sub a (scale (- p / norm d) d)) <= 2.8e-11 * Rabs p + 3e-60.
Proof.
  intros L s A H R d p. destruct (g_epoch s) as [v] eqn:EP. cbn [value] in H.
  destruct (srp_close L v s A H EP R) as (a & a' & E & E' & C & N). exists a'. split; [exact E'|].
  rewrite (srp_ok s) in E by lra. rewrite EP in E. apply (ok_inj vec3) in E. change (scale (- p / norm d) d = a) in E. rewrite E.
  unfold verr in C. rewrite N in C. replace (Rabs p) with (4.56e-9 * Rabs (g_srp_scalar s)); [exact C|].
  unfold p. replace (4.56e-6 * g_srp_scalar s / 1000) with (4.56e-9 * g_srp_scalar s) by lra. rewrite Rabs_mult, (Rabs_pos_eq 4.56e-9) by lra. reflexivity.
Qed.
Print Assumptions C119_srp.

(** A geostationary satellite on the first of January 2024 meets all the
    hypotheses, whatever the position of the Moon. *)
Example C119_example : (exists L, accurate_far L) /\ Rabs (60310 - 51544.5) <= 36525 /\
  let x := V3 42164 0 0 in 1 <= norm x <= 1e7 /\
  exists m, Moon_get_position (Epoch 60310) = Ok m /\ 1737 <= norm (sub m x) <= 1e9.
Proof.
  split; [|split].
  - exists (Libm sin cos (fun x => x) (fun x _ => x) (fun x _ => x)). intros x _. cbn. rewrite !Rminus_diag_eq, Rabs_R0 by reflexivity. lra.
  - rewrite Rabs_pos_eq; lra.
  - intros x. assert (X : norm x = 42164). { unfold norm, dot, x. cbn [x3 y3 z3]. replace (42164 * 42164 + 0 * 0 + 0 * 0) with (42164 * 42164) by ring. apply sqrt_square. lra. }
    rewrite X. split; [lra|]. destruct (Moon_norm (Epoch 60310)) as (m & E & B). exists m. split; [exact E|]. split.
    + assert (T := norm_sub_ge m x). lra.
    + replace (sub m x) with (add m (scale (-1) x)) by (unfold sub, add, scale; cbn [x3 y3 z3]; f_equal; ring). eapply Rle_trans; [apply norm_triangle|]. rewrite norm_scale. replace (Rabs (-1)) with 1 by (rewrite Rabs_left; lra). lra.
Qed.
