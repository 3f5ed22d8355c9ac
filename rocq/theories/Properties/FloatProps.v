(** Properties C82-C84: what binary64 rounding does to clocks and angles. *)
From Coq Require Import Reals ZArith Lra Lia List.
From Verif.Model Require Import Num Constants Time States Inertial TimeFloat ClockFloat AngleFloat.
From Verif.Proofs Require Import NumLemmas TimeFloatProofs ClockProofs AngleFloatProofs.
Local Open Scope R_scope.

(** Epochs between 1949 and 2036 (MJD 33000 to 65000) are whole multiples of
    [tick] = 2^-37 day = 0.63 microseconds; [b64 x = x] says that [x] is a
    binary64 number. *)
Definition tick : R := / 137438953472.

(** * C82 Landing error of step_to_epoch in binary64 *)

(** The clock of this section is the epoch of the model of C41-C47 when nothing is rounded. *)
Theorem C82_same_clock : forall p e q, rk4_step_to_epoch p e = (q, Ok tt) ->
  value (g_epoch (rk_state q)) = clock_to (fun x => x) (value e) (value (g_epoch (rk_state p))).
Proof. exact exact_clock. Qed.
Print Assumptions C82_same_clock.

(** At most one tick (7.3e-12 day) per step is lost. *)
Theorem C82_landing : forall e v, b64 e = e -> b64 v = v -> 33000 <= e <= 65000 -> 33000 <= v <= 65000 ->
  Rabs (clock_to b64 e v - e) <= (288 * Rabs (e - v) + 2) * 7.3e-12 /\
  b64 (clock_to b64 e v) = clock_to b64 e v.
Proof. exact landing_error. Qed.
Print Assumptions C82_landing.

(** For a request of at most 300 seconds the landing is exact unless the clock
    stands on an even tick and the request is on an odd one; then it is off by
    exactly one tick. *)
Theorem C82_single_step : forall E V : Z,
  33000 <= IZR E * tick <= 65000 -> 33000 <= IZR V * tick <= 65000 ->
  Rabs (IZR E * tick - IZR V * tick) * 86400 <= 300 ->
  exists L : Z, clock_to b64 (IZR E * tick) (IZR V * tick) = IZR L * tick /\
  (L = E <-> Z.even V = false \/ Z.even E = true) /\ (L = E \/ Z.abs (L - E) = 1)%Z.
Proof. exact landing_single. Qed.
Print Assumptions C82_single_step.

(** So step_to_epoch does not always reach the epoch it was given. *)
Theorem C82_exact_landing_refuted : exists e v, b64 e = e /\ b64 v = v /\
  33000 <= e <= 65000 /\ 33000 <= v <= 65000 /\ clock_to b64 e v <> e.
Proof. exact landing_refuted. Qed.
Print Assumptions C82_exact_landing_refuted.
(** Noon and the next midnight; and two neighbouring ticks. *)
Example C82_example : b64 60000.5 = 60000.5 /\ b64 60001 = 60001 /\
  33000 <= 60000.5 <= 65000 /\ 33000 <= IZR 8246337208320001 * tick <= 65000 /\
  33000 <= IZR 8246337208320002 * tick <= 65000 /\
  Rabs (IZR 8246337208320001 * tick - IZR 8246337208320002 * tick) * 86400 <= 300.
Proof.
  split. { replace 60000.5 with (IZR 120001 * Flocq.Core.Raux.bpow Flocq.Core.Zaux.radix2 (-1)). apply b64_dyadic; lia.
    change (Flocq.Core.Raux.bpow Flocq.Core.Zaux.radix2 (-1)) with (/ 2). lra. }
  split; [apply (b64_IZR 60001); lia|]. split; [lra|]. unfold tick. split; [lra|]. split; [lra|].
  rewrite Rabs_left; lra.
Qed.

(** * C83 Tracking with rounded clocks *)

(** However the spacecraft track each other, the mutual clock updates of
    update_attitude come to an end. *)
Theorem C83_tracking_ends : forall target M c, (Z.of_nat M <= 300000)%Z ->
  (forall i j, (i < M)%nat -> target i = Some j -> (j < M)%nat) ->
  (forall k, (k < M)%nat -> b64 (c k) = c k /\ 33002 <= c k <= 64998) ->
  (forall k l, (k < M)%nat -> (l < M)%nat -> Rabs (c k - c l) <= 1) ->
  forall i, (i < M)%nat -> exists c', sync_clocks b64 target (3 * M + 3) i c = Some c'.
Proof. exact sync_total. Qed.
Print Assumptions C83_tracking_ends.
(** Three spacecraft in a ring with different clocks. *)
Example C83_example : let target := fun i => Some (Nat.modulo (S i) 3) in
  let c := fun k : nat => IZR (60000 * 2 + Z.of_nat k) * / 2 in
  (forall i j, (i < 3)%nat -> target i = Some j -> (j < 3)%nat) /\
  (forall k, (k < 3)%nat -> b64 (c k) = c k /\ 33002 <= c k <= 64998) /\
  (forall k l, (k < 3)%nat -> (l < 3)%nat -> Rabs (c k - c l) <= 1).
Proof.
  intros target c.
  assert (Hc : forall k, (k < 3)%nat -> 60000 <= c k <= 60001).
  { intros k Hk. unfold c. assert (120000 <= IZR (60000 * 2 + Z.of_nat k) <= 120002) by (split; apply IZR_le; lia). lra. }
  split; [|split].
  - intros i j Hi E. destruct i as [|[|[|i]]]; inversion E; lia.
  - intros k Hk. split; [|specialize (Hc k Hk); lra]. unfold c.
    change (/ 2) with (Flocq.Core.Raux.bpow Flocq.Core.Zaux.radix2 (-1)). apply b64_dyadic; lia.
  - intros k l Hk Hl. assert (A := Hc k Hk). assert (B := Hc l Hl). apply Rabs_le. lra.
Qed.

(** But a target is not always brought to the tracker's epoch: on an odd tick a
    target standing on an even one is missed, however often update_attitude is
    repeated. *)
Theorem C83_never_level : forall E V : Z, Z.even E = false -> Z.even V = true ->
  33001 <= IZR E * tick <= 64999 -> 33001 <= IZR V * tick <= 64999 ->
  Rabs (IZR E * tick - IZR V * tick) * 86400 <= 300 ->
  forall n, Nat.iter n (clock_to b64 (IZR E * tick)) (IZR V * tick) <> IZR E * tick.
Proof. exact never_level_ticks. Qed.
Print Assumptions C83_never_level.
Example C83_never_example : Z.even 8246337208320001 = false /\ Z.even 8246337208320002 = true /\
  33001 <= IZR 8246337208320001 * tick <= 64999 /\ 33001 <= IZR 8246337208320002 * tick <= 64999.
Proof. split; [reflexivity|]. split; [reflexivity|]. unfold tick. split; lra. Qed.

(** * C84 Angle reduction in binary64 *)

(** Reduced angles lie in the closed interval up to 2*math.pi, within 4.5e-16 of
    the exact reduction by that number. *)
Theorem C84_wrap : forall x, - (2 * math_pi) <= x < 2 * math_pi ->
  0 <= wrap_b64 x <= 2 * math_pi /\
  Rabs (wrap_b64 x - (if Rlt_dec x 0 then x + 2 * math_pi else x)) <= 4.5e-16.
Proof. intros x H. split; [apply wrap_range; exact H|apply wrap_close; exact H]. Qed.
Print Assumptions C84_wrap.

(** The upper end is returned exactly for the negative angles down to -2^-51. *)
Theorem C84_full_turn : forall x, - (2 * math_pi) <= x < 2 * math_pi ->
  (wrap_b64 x = 2 * math_pi <-> - (/ 2251799813685248) <= x < 0).
Proof. exact wrap_top. Qed.
Print Assumptions C84_full_turn.

(** In particular the argument of perigee is not always below 2*math.pi. *)
Theorem C84_perigee_refuted : exists u nu, b64 u = u /\ b64 nu = nu /\
  0 <= u < 2 * math_pi /\ 0 <= nu < 2 * math_pi /\ W_from_u_nu_b64 u nu = 2 * math_pi.
Proof. exact perigee_top. Qed.
Print Assumptions C84_perigee_refuted.

(** Remainders of non-negative numbers are exact; for others the modulus itself can come out. *)
Theorem C84_remainder_exact : forall x y, 0 < y -> 0 <= x -> pymod_b64 x y = nmod x y.
Proof. exact pymod_exact. Qed.
Print Assumptions C84_remainder_exact.
Theorem C84_remainder_range : forall x y, 0 < y -> b64 y = y -> 0 <= pymod_b64 x y <= y.
Proof. exact pymod_range. Qed.
Print Assumptions C84_remainder_range.
Theorem C84_remainder_top : forall x, - (/ 35184372088832) <= x < 0 -> pymod_b64 x 360 = 360.
Proof. exact pymod_top. Qed.
Print Assumptions C84_remainder_top.
Example C84_example : - (2 * math_pi) <= - (1e-17) < 2 * math_pi /\ - (/ 2251799813685248) <= - (1e-17) < 0 /\
  b64 360 = 360 /\ - (/ 35184372088832) <= - (1e-17) < 0.
Proof. unfold math_pi. split; [lra|]. split; [lra|]. split; [apply (b64_IZR 360); lia|lra]. Qed.
