(** Properties of estimation/iod.py (C58, C75, C76). *)
From Coq Require Import Reals Lra Psatz Lia.
From Verif.Model Require Import Num Constants Linalg Functions Time Elements Iod.
From Verif.Spec Require Import Geometry Gravity Gauss.
From Verif.Proofs Require Import NumLemmas LinalgProofs KeplerProofs IodProofs.
Local Open Scope R_scope.

(** * C58 The secant iteration of Gauss's method *)
(** [w_of_omega] is Gauss's W strictly between 0 and 1, divides by zero at both
    ends and is outside the domain of a square root or an arc sine elsewhere. *)
Theorem C58_w : forall w,
  (0 < w < 1 -> w_of_omega w = Ok (W w)) /\
  (w = 0 \/ w = 1 -> w_of_omega w = Err ZeroDivisionError) /\
  (w < 0 \/ 1 < w -> w_of_omega w = Err ValueError).
Proof.
  intros w. split; [apply w_ok|]. split; intros H; rewrite w_err by lra.
  - destruct (Req_EM_T w 0); auto. destruct (Req_EM_T w 1); auto. lra.
  - destruct (Req_EM_T w 0); [lra|]. destruct (Req_EM_T w 1); [lra|]. reflexivity.
Qed.
Print Assumptions C58_w.

Theorem C58_f : forall n m l,
  (n <> 0 -> 0 < m / n ^ 2 - l < 1 -> f_of_nu n m l = Ok (F m l n)) /\
  (n = 0 \/ m / n ^ 2 - l = 0 \/ m / n ^ 2 - l = 1 -> f_of_nu n m l = Err ZeroDivisionError) /\
  (n <> 0 -> m / n ^ 2 - l < 0 \/ 1 < m / n ^ 2 - l -> f_of_nu n m l = Err ValueError).
Proof.
  intros n m l. split; [intros; apply f_ok; split; auto|]. split.
  - intros H. destruct (Req_EM_T n 0) as [->|N].
    + rewrite f_err by (intros [A _]; auto). destruct (Req_EM_T 0 0); [reflexivity|congruence].
    + destruct H as [H|H]; [contradiction|]. rewrite f_err by (intros [_ A]; lra).
      destruct (Req_EM_T n 0); [contradiction|]. destruct (Req_EM_T (m / n ^ 2 - l) 0); auto.
      destruct (Req_EM_T (m / n ^ 2 - l) 1); auto. lra.
  - intros N H. rewrite f_err by (intros [_ A]; lra). destruct (Req_EM_T n 0); [contradiction|].
    destruct (Req_EM_T (m / n ^ 2 - l) 0); [lra|]. destruct (Req_EM_T (m / n ^ 2 - l) 1); [lra|]. reflexivity.
Qed.
Print Assumptions C58_f.

(** The loop returns exactly the results of secant runs that end in a
    correction below 1e-12. *)
Theorem C58_loop : forall fuel m l a b n,
  solve_nu fuel m l a b = Ok n <->
  exists k, (k < fuel)%nat /\ secant_run (F m l) (in_domain m l) 1e-12 k a b n.
Proof.
  intros. split; [apply solve_sound|]. intros (k & K & R). exact (solve_complete m l k a b n R fuel K).
Qed.
Print Assumptions C58_loop.

(** When it returns, the last correction and the residual before it are small. *)
Theorem C58_residual : forall fuel m l a b n, solve_nu fuel m l a b = Ok n ->
  exists p q, in_domain m l p /\ in_domain m l q /\ p <> q /\ n = secant (F m l) p q /\
    Rabs (n - q) < 1e-12 /\
    Rabs (F m l q) < 1e-12 * Rabs ((F m l q - F m l p) / (q - p)).
Proof.
  intros fuel m l a b n E. destruct (solve_sound fuel m l a b n E) as (k & _ & R). exact (run_residual _ _ _ _ _ _ _ R).
Qed.
Print Assumptions C58_residual.

(** A run of the loop from two different points that ends on an exact root. *)
Example C58_example : let b := 1 + PI in
  solve_nu 1 (b ^ 2) (1 / 2) (2 * b / sqrt 3) b = Ok b /\ F (b ^ 2) (1 / 2) b = 0.
Proof. apply (exact_run 1). lia. Qed.

(** * C75 The orbit of Gauss's method passes through both positions *)
Theorem C75_through : forall fuel ra rb t1 t2 el,
  coes_from_positions fuel ra rb t1 t2 = Ok el ->
  x3 (cross ra rb) <> 0 \/ y3 (cross ra rb) <> 0 ->
  el_epoch el = t1 /\ 0 < semimajor_axis el /\ 0 <= eccentricity el < 1 /\
  0 <= inclination el <= PI /\ 0 <= raan el < 2 * PI /\ - PI < argument_of_perigee el < 2 * PI /\
  exists xa xb, orbit_point el xa = ra /\ orbit_point el xb = rb /\
    mean_anomaly el = xa - eccentricity el * sin xa.
Proof.
  intros fuel ra rb t1 t2 el E N. apply coes_inv in E. destruct E as (ea & r0 & e0 & ta & p & n & m & l & n0 & G).
  destruct (gauss_through _ _ _ _ _ _ _ _ _ _ _ _ _ _ _ G) as (A & B & C & D & H & I & xa & xb & Ra & Rb & _ & _ & M & _); [tauto|].
  repeat (split; [auto|]). exists xa, xb. auto.
Qed.
Print Assumptions C75_through.

(** The flight along that orbit from the first to the second position, always
    the short way round, takes the measured time up to the residual of Gauss's
    equation at the ratio [n] the secant loop returned from Hansen's guess. *)
Theorem C75_flight : forall fuel ra rb t1 t2 el,
  coes_from_positions fuel ra rb t1 t2 = Ok el ->
  x3 (cross ra rb) <> 0 \/ y3 (cross ra rb) <> 0 ->
  let days := value t2 - value t1 in
  let m := gauss_m ra rb days in let l := gauss_l ra rb in
  exists n k, (k < fuel)%nat /\
    secant_run (F m l) (in_domain m l) 1e-12 k (hansen m l + 0.1) (hansen m l) n /\ in_domain m l n /\
    exists xa xb, orbit_point el xa = ra /\ orbit_point el xb = rb /\ xa < xb < xa + 2 * PI /\
      mean_anomaly el = xa - eccentricity el * sin xa /\
      flight_time el xa xb = Rabs days * 86400 * ((n + F m l n) / Rabs n).
Proof.
  intros fuel ra rb t1 t2 el E N days m l. apply coes_inv in E. destruct E as (ea & r0 & e0 & ta & p & n & m' & l' & n0 & G).
  assert (G' := G). destruct G.
  change m' with m' in gs_m. assert (EM : m' = m) by exact gs_m. assert (EL : l' = l) by exact gs_l. rewrite EM, EL in *.
  assert (EN : n0 = hansen m l) by exact gs_n0. rewrite EN in *.
  destruct (solve_sound _ _ _ _ _ _ gs_run) as (k & K & R).
  destruct (gauss_flight _ _ _ _ _ _ _ _ _ _ _ _ _ _ _ G') as (xa & xb & Ra & Rb & X & M & D & _ & T); [tauto|].
  exists n, k. split; [auto|]. split; [auto|]. split; [auto|]. exists xa, xb. repeat (split; [auto|]).
  rewrite T. unfold days. replace (F m l n + n) with (n + F m l n) by ring. reflexivity.
Qed.
Print Assumptions C75_flight.

(** Nothing comes back for collinear positions or equal times. *)
Theorem C75_distinct : forall fuel ra rb t1 t2, cross ra rb = zero3 \/ value t1 = value t2 ->
  exists err, coes_from_positions fuel ra rb t1 t2 = Err err.
Proof.
  intros fuel ra rb t1 t2 H. destruct (coes_from_positions fuel ra rb t1 t2) as [el|err] eqn:E; [|eauto].
  apply coes_distinct in E. destruct E, H; congruence.
Qed.
Print Assumptions C75_distinct.

(** A short arc on an inclined orbit of 7000 km for which the method succeeds. *)
Example C75_example : exists el,
  coes_from_positions 1 (arc_a 0.6 0.8) (arc_b 0.6 0.8) (Epoch 0) (Epoch arc_days) = Ok el /\
  y3 (cross (arc_a 0.6 0.8) (arc_b 0.6 0.8)) <> 0.
Proof.
  destruct (arc_coes 1 0.6 0.8) as [el E]; [lia|lra|]. exists el. split; auto.
  destruct arc_hs as [_ H]. unfold cross, arc_a, arc_b, arc_s. cbn [y3 x3 z3]. lra.
Qed.

(** * C76 Positions in the equatorial plane lose their longitude *)
(** Whatever the two positions, the orbit returned for an equatorial pair puts
    the satellite on the x axis at the first epoch. *)
Theorem C76_equatorial : forall fuel ra rb t1 t2 el,
  coes_from_positions fuel ra rb t1 t2 = Ok el ->
  x3 (cross ra rb) = 0 -> y3 (cross ra rb) = 0 ->
  forall x, mean_anomaly el = x - eccentricity el * sin x -> orbit_point el x = V3 (norm ra) 0 0.
Proof.
  intros fuel ra rb t1 t2 el E X Y x M. destruct (gauss_equatorial fuel ra rb t1 t2 el E X Y) as (xa & Ma & P).
  assert (x = xa).
  { apply (kf_inj (eccentricity el)); [exact (coes_ecc _ _ _ _ _ _ E)|]. unfold kf. lra. }
  subst x. exact P.
Qed.
Print Assumptions C76_equatorial.

Theorem C76_refuted : exists ra rb t1 t2 el, coes_from_positions 1 ra rb t1 t2 = Ok el /\
  forall x, mean_anomaly el = x - eccentricity el * sin x -> orbit_point el x <> ra.
Proof.
  destruct (arc_coes 1 1 0) as [el E]; [lia|lra|]. exists (arc_a 1 0), (arc_b 1 0), (Epoch 0), (Epoch arc_days), el. split; auto.
  intros x M P. assert (Q : orbit_point el x = V3 (norm (arc_a 1 0)) 0 0).
  { apply (C76_equatorial _ _ _ _ _ _ E); auto; unfold cross, arc_a, arc_b; cbn [x3 y3 z3]; ring. }
  rewrite P in Q. apply (f_equal y3) in Q. unfold arc_a, arc_s in Q. cbn [y3] in Q. lra.
Qed.
Print Assumptions C76_refuted.
