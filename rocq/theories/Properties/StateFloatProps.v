(** C96: the state of a set of classical elements in floating point. *)
From Coq Require Import Reals ZArith Lra.
From Verif.Model Require Import Num Linalg Time States Elements TimeFloat AngleFloat ElementsFloat KeplerFloat.
From Verif.Spec Require Import Geometry Gravity Orbit LibmAccuracy.
From Verif.Proofs Require Import KeplerFloatProofs StateFloatProofs RoundTripProofs.
Local Open Scope R_scope.

(** Rounding every operation moves the position by at most
    6e-14 a / (1 - e) and the velocity by at most 1e-13 sqrt(mu / a) / (1 - e)^3,
    and neither computation raises or runs for ever. *)
Theorem C96_state : forall L el, accurate_trig L ->
  Rabs (inclination el) <= 8 -> Rabs (raan el) <= 8 -> Rabs (argument_of_perigee el) <= 8 ->
  1 <= semimajor_axis el <= 1e9 -> 0 <= eccentricity el <= 0.99 -> -3.14 <= mean_anomaly el <= 2 * math_pi ->
  exists n s s', (forall fuel, (n <= fuel)%nat -> elements_to_ijk fuel el = Ok s /\ elements_to_ijk_b64 L fuel el = Ok s') /\
    s_epoch s' = el_epoch el /\
    norm (sub (s_position s') (s_position s)) <= 6e-14 * / (1 - eccentricity el) * semimajor_axis el /\
    norm (sub (s_velocity s') (s_velocity s)) <= 1e-13 * / (1 - eccentricity el) ^ 3 * sqrt (mu_earth / semimajor_axis el).
Proof. intros L el HL Hi Ho Hw. exact (state_total L el HL (conj Hi (conj Ho Hw))). Qed.
Print Assumptions C96_state.

(** Elements to state and back, both rounded: the semi-major axis and the square
    of the eccentricity come back to a few parts in 1e13, or the way back raises
    ValueError, and that only for orbits that are circular to that accuracy. *)
Theorem C96_roundtrip : forall L el, accurate_trig L ->
  Rabs (inclination el) <= 8 -> Rabs (raan el) <= 8 -> Rabs (argument_of_perigee el) <= 8 ->
  1010 <= semimajor_axis el * (1 - eccentricity el) -> semimajor_axis el <= 9e6 ->
  0 <= eccentricity el <= 0.9 -> -3.14 <= mean_anomaly el <= 2 * math_pi ->
  exists n s, (forall fuel, (n <= fuel)%nat -> elements_to_ijk_b64 L fuel el = Ok s) /\
  ((exists el', elements_from_ijk_b64 L s = Ok el' /\ el_epoch el' = el_epoch el /\
      Rabs (semimajor_axis el' - semimajor_axis el) <= 5e-13 / (1 - eccentricity el) ^ 4 * semimajor_axis el /\
      Rabs (eccentricity el' ^ 2 - eccentricity el ^ 2) <= 1.2e-12 / (1 - eccentricity el) ^ 4) \/
   (elements_from_ijk_b64 L s = Err ValueError /\ eccentricity el ^ 2 <= 1.2e-12 / (1 - eccentricity el) ^ 4)).
Proof. intros L el HL Hi Ho Hw. exact (roundtrip_b64 L el HL (conj Hi (conj Ho Hw))). Qed.
Print Assumptions C96_roundtrip.

(** An eccentric transfer orbit and a library with correctly rounded sine and
    cosine: all hypotheses hold, and the way back cannot raise. *)
Example C96_example : exists L, accurate_trig L /\
  let el := Elements (Epoch 51544.5) 26560 0.7 1.1 2 4.7 3 in
  exists n s el', (forall fuel, (n <= fuel)%nat -> elements_to_ijk_b64 L fuel el = Ok s) /\ elements_from_ijk_b64 L s = Ok el' /\
    Rabs (semimajor_axis el' - 26560) <= 1e-5.
Proof.
  exists (Libm (fun x => b64 (sin x)) (fun x => b64 (cos x)) asin (fun x _ => x) Rpower).
  assert (A : accurate_trig (Libm (fun x => b64 (sin x)) (fun x => b64 (cos x)) asin (fun x _ => x) Rpower)) by (apply rounded_trig; reflexivity).
  split; [exact A|]. cbv zeta.
  destruct (C96_roundtrip _ (Elements (Epoch 51544.5) 26560 0.7 1.1 2 4.7 3) A) as (n & s & H1 & [(el' & H2 & _ & H3 & _)|(_ & H2)]);
    cbn [inclination raan argument_of_perigee semimajor_axis eccentricity mean_anomaly] in *; try (apply Rabs_le); try (unfold math_pi); try lra.
  exists n, s, el'. split; [exact H1|]. split; [exact H2|]. eapply Rle_trans; [exact H3|]. lra.
Qed.
Print Assumptions C96_example.
