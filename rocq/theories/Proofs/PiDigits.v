(** Seventeen digits of pi. *)
From Coq Require Import Reals Lra Machin.
From Verif.Model Require Import AngleFloat.
Local Open Scope R_scope.
Lemma PI_digits : 3.14159265358979323 < PI < 3.14159265358979325.
Proof.
  destruct (Machin.PI_2_3_7_ineq 9) as [H1 H2].
  unfold tg_alt, Machin.PI_2_3_7_tg, Ratan_seq in *. cbn [sum_f_R0 Nat.mul Nat.add pow INR] in *.
  split; lra.
Qed.
Lemma math_pi_close : math_pi < PI < math_pi + 1.4e-16.
Proof. assert (H := PI_digits). unfold math_pi. lra. Qed.
