(** C95: the iterative solution of Kepler's equation in floating point. *)
From Coq Require Import Reals ZArith Lra.
From Verif.Model Require Import Num TimeFloat AngleFloat ElementsFloat KeplerFloat.
From Verif.Spec Require Import LibmAccuracy.
From Verif.Proofs Require Import PiDigits KeplerFloatProofs.
Local Open Scope R_scope.

(** The loop, run in binary64, ends for every eccentricity up to 0.99 and every
    mean anomaly the library produces, and never divides by zero. *)
Theorem C95_terminates : forall L ma e, accurate_trig L -> 0 <= e <= 0.99 -> -3.14 <= ma <= 2 * math_pi ->
  exists n ea, forall fuel, (n <= fuel)%nat -> EA_from_ma_e_b64 L fuel ma e = Ok ea.
Proof. intros L ma e HL He Hm. destruct (solver_b64 L ma e HL He Hm) as (n & r & H & _). exists n, r. exact H. Qed.
Print Assumptions C95_terminates.

(** What it returns is an angle from zero to a turn (up to 5e-13) and is, up to a whole turn, within
    6e-15 / (1 - e) radians of the true solution of Kepler's equation. *)
Theorem C95_accuracy : forall L fuel ma e ea, accurate_trig L -> 0 <= e <= 0.99 -> -3.14 <= ma <= 2 * math_pi ->
  EA_from_ma_e_b64 L fuel ma e = Ok ea ->
  exists exact (turns : Z), exact - e * sin exact = ma /\ (turns = 0 \/ turns = 1)%Z /\
    Rabs (ea - (exact + 2 * PI * IZR turns)) <= 6e-15 / (1 - e) /\ 0 <= ea <= 2 * PI + 5e-13.
Proof. exact solver_value. Qed.
Print Assumptions C95_accuracy.

(** A library with correctly rounded sine and cosine meets the hypothesis, and
    so do the eccentricity and anomaly of an ordinary eccentric orbit. *)
Example C95_example : exists L, (forall x, sinf L x = b64 (sin x)) /\ (forall x, cosf L x = b64 (cos x)) /\ accurate_trig L /\
  0 <= 0.74 <= 0.99 /\ -3.14 <= 5.5 <= 2 * math_pi /\
  exists n ea, forall fuel, (n <= fuel)%nat -> EA_from_ma_e_b64 L fuel 5.5 0.74 = Ok ea.
Proof.
  exists (Libm (fun x => b64 (sin x)) (fun x => b64 (cos x)) asin (fun x _ => x) Rpower).
  assert (A : accurate_trig (Libm (fun x => b64 (sin x)) (fun x => b64 (cos x)) asin (fun x _ => x) Rpower)) by (apply rounded_trig; reflexivity).
  assert (M : -3.14 <= 5.5 <= 2 * math_pi) by (unfold math_pi; lra).
  repeat (split; [auto; lra|]). apply C95_terminates; auto; lra.
Qed.
Print Assumptions C95_example.
