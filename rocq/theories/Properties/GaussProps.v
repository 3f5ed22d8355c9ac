(** Properties C90 and C91: when Gauss's method succeeds and when it refuses. *)
From Coq Require Import Reals Lra Lia.
From Verif.Model Require Import Num Constants Linalg Time Celestial Elements Iod.
From Verif.Spec Require Import Geometry Gravity Gauss.
From Verif.Proofs Require Import NumLemmas Analysis ElementsProofs IodProofs GaussProofs.
From Verif.Properties Require Import IodProps.
Local Open Scope R_scope.

(** * C90 Gauss's method succeeds on slow enough observations *)

(** The equation for the ratio of sector to triangle has at most one positive
    root in its domain. *)
Theorem C90_one_root : forall m l x y, 0 < m -> 0 < x -> 0 < y ->
  in_domain m l x -> in_domain m l y -> F m l x = 0 -> F m l y = 0 -> x = y.
Proof. exact root_unique. Qed.
Print Assumptions C90_one_root.

(** When the starting points are inside the domain the loop ends, close to the
    root, which Hansen's guess is never below. *)
Theorem C90_solver : forall m l, 0 < m -> 0 <= l -> let h := hansen m l in
  m <= 1 + l -> l * (h + 0.1) ^ 2 < m ->
  exists N n r, (forall fuel, (N <= fuel)%nat -> solve_nu fuel m l (h + 0.1) h = Ok n) /\
    1 < r <= h /\ in_domain m l r /\ F m l r = 0 /\ Rabs (n - r) <= Rabs (F m l n) /\
    (m <= 1 -> m <= l + 3 / 4 -> Rabs (n - r) < 1e-10).
Proof.
  intros m l Pm Pl h M1 M2.
  destruct (nu_found_short m l Pm Pl M1 M2) as (D1 & D0 & Du & U1). fold h in D1, D0, Du, U1.
  destruct (nu_found m l Pm Pl D1 D0 Du) as (_ & (r & Hr & Fr & _) & k & n & R & Hn & Dn & Rn). fold h in Hr, R, Hn, Rn.
  assert (Dr : in_domain m l r) by (apply (domain_between m l (h + F m l h) r h); auto; lra).
  exists (S k), n, r. split; [intros fuel Hf; apply (run_fuel fuel m l k); auto; lia|]. split; [lra|]. split; auto. split; auto.
  assert (Cl : Rabs (n - r) <= Rabs (F m l n)).
  { destruct (Rtotal_order n r) as [A|[A|A]].
    - assert (Fa := F_falling m l n r Pm ltac:(lra) ltac:(lra) Dn Dr). assert (X := falling_lt _ _ _ _ _ n r Fa ltac:(lra) A ltac:(lra)).
      rewrite Rabs_minus_sym, Rabs_pos_eq, Rabs_pos_eq by lra. lra.
    - rewrite A, Rminus_diag_eq, Rabs_R0 by auto. apply Rabs_pos.
    - assert (Fa := F_falling m l r n Pm ltac:(lra) ltac:(lra) Dr Dn). assert (X := falling_lt _ _ _ _ _ r n Fa ltac:(lra) A ltac:(lra)).
      rewrite Rabs_pos_eq by lra. rewrite <- Rabs_Ropp, Rabs_pos_eq by lra. lra. }
  split; auto. intros A B. assert (Sb := steep_bound m l (h + F m l h) ltac:(lra) B ltac:(lra) Du). lra.
Qed.
Print Assumptions C90_solver.

(** Two positions off one line, at different times, slow enough: an orbit comes
    back and its flight time is right to one part in 10^10.  In exact arithmetic
    the method stops with a division by zero for a first position exactly a
    quarter turn from perigee, where the orbit's parameter is the distance. *)
Theorem C90_success : forall ra rb t1 t2, cross ra rb <> zero3 -> value t2 <> value t1 ->
  let days := value t2 - value t1 in
  let m := gauss_m ra rb days in let l := gauss_l ra rb in
  m <= 1 -> m <= l + 3 / 4 -> l * (hansen m l + 0.1) ^ 2 < m ->
  exists N n, in_domain m l n /\ Rabs (F m l n) < 1e-10 /\ forall fuel, (N <= fuel)%nat ->
  (exists el, coes_from_positions fuel ra rb t1 t2 = Ok el /\
     (x3 (cross ra rb) <> 0 \/ y3 (cross ra rb) <> 0 ->
      exists xa xb, orbit_point el xa = ra /\ orbit_point el xb = rb /\ xa < xb < xa + 2 * PI /\
        mean_anomaly el = xa - eccentricity el * sin xa /\
        Rabs (flight_time el xa xb - Rabs days * 86400) <= 1e-10 * (Rabs days * 86400))) \/
  (coes_from_positions fuel ra rb t1 t2 = Err ZeroDivisionError /\
   (norm (cross ra rb) * n) ^ 2 / (mu_earth * (days * 86400) ^ 2) = norm ra).
Proof.
  intros ra rb t1 t2 NC NT days m l M1 M2 M3.
  assert (Pl := gauss_l_pos ra rb NC). fold l in Pl.
  destruct (gauss_succeeds ra rb t1 t2 NC NT) as (N & n & Run & N1 & Dn & _ & Acc); fold days m l; auto; try lra.
  fold days m l in Run, Dn, Acc. specialize (Acc M1 M2).
  exists N, n. split; auto. split; auto. intros fuel Hf. specialize (Run fuel Hf).
  destruct (coes_total fuel ra rb t1 t2 n NC NT Run Dn) as [(el & E & _)|[P E]]; [left|right].
  - exists el. split; auto. intros NE.
    destruct (C75_flight fuel ra rb t1 t2 el E NE) as (n' & k & K & R & Dn' & xa & xb & Ra & Rb & X & M & T).
    fold days m l in R, Dn', T. assert (n' = n).
    { assert (Q := run_fuel fuel m l k _ _ _ R K). rewrite Run in Q. injection Q as ->. reflexivity. }
    subst n'. exists xa, xb. repeat (split; [auto|]). rewrite T, (Rabs_pos_eq n) by lra.
    assert (D0 : 0 <= Rabs days * 86400) by (apply Rmult_le_pos; [apply Rabs_pos|lra]). set (D := Rabs days * 86400) in *.
    replace (D * ((n + F m l n) / n) - D) with (F m l n / n * D) by (field; lra).
    rewrite Rabs_mult, (Rabs_pos_eq D) by auto. apply Rmult_le_compat_r; auto.
    unfold Rdiv. rewrite Rabs_mult, (Rabs_pos_eq (/ n)) by (apply Rlt_le, Rinv_0_lt_compat; lra).
    assert (0 < / n < 1) by (split; [apply Rinv_0_lt_compat; lra|rewrite <- Rinv_1; apply Rinv_lt_contravar; lra]).
    assert (A := Rabs_pos (F m l n)). nra.
  - split; auto. rewrite <- P. fold days. assert (MP := mu_pos). assert (PM : 0 < sqrt Earth_MU) by apply sqrt_lt_R0, mu_pos.
    assert (MU : sqrt Earth_MU * sqrt Earth_MU = Earth_MU) by (apply sqrt_sqrt; lra).
    change mu_earth with Earth_MU. change SECONDS_IN_DAY with 86400. rewrite <- MU at 1.
    assert (days * 86400 <> 0) by (unfold days; lra). set (y := days * 86400) in *. field. split; lra.
Qed.
Print Assumptions C90_success.

(** Every nearly circular orbit seen twice within a radian is slow enough, and
    its size and shape come back to a part in 10^9. *)
Theorem C90_recovers : forall el xa xb t1 t2,
  0 < semimajor_axis el -> 0 <= eccentricity el <= 0.1 -> 0 < xb - xa <= 1 ->
  let ra := orbit_point el xa in let rb := orbit_point el xb in
  let p := semimajor_axis el * (1 - eccentricity el ^ 2) in
  (value t2 - value t1) * 86400 = flight_time el xa xb ->
  exists N, forall fuel, (N <= fuel)%nat ->
  (exists el', coes_from_positions fuel ra rb t1 t2 = Ok el' /\
     Rabs (semimajor_axis el' - semimajor_axis el) <= 1e-9 * semimajor_axis el /\
     Rabs (semimajor_axis el' * (1 - eccentricity el' ^ 2) - p) <= 1e-9 * p) \/
  (coes_from_positions fuel ra rb t1 t2 = Err ZeroDivisionError /\ Rabs (norm ra - p) <= 1e-9 * p).
Proof. exact recovered. Qed.
Print Assumptions C90_recovers.

(** A half-radian arc of an inclined orbit meets the conditions of all three. *)
Example C90_example : let el := Elements (Epoch 0) 7000 0.05 1 2 3 4 in
  let t2 := Epoch (flight_time el 0.3 0.8 / 86400) in
  let ra := orbit_point el 0.3 in let rb := orbit_point el 0.8 in
  let m := gauss_m ra rb (value t2 - value (Epoch 0)) in let l := gauss_l ra rb in
  cross ra rb <> zero3 /\ value t2 <> value (Epoch 0) /\ 0 < m <= 1 /\ 0 < l /\ m <= l + 3 / 4 /\
  l * (hansen m l + 0.1) ^ 2 < m.
Proof.
  intros el t2 ra rb m l.
  destruct (slow_enough el 0.3 0.8 (Epoch 0) t2) as (A & B & C & D); cbn [el semimajor_axis eccentricity]; try lra.
  { unfold t2. cbn [value]. lra. }
  fold ra rb in A, C, D. fold l in C, D. fold m in C, D.
  assert (0 < m) by (apply gauss_m_pos; auto; lra). assert (0 < l) by (apply gauss_l_pos; auto). repeat split; auto; lra.
Qed.

(** * C91 Gauss's method refuses fast observations (defect) *)

(** The second starting point lies a tenth above the first: when it is outside
    the domain of the equation the method raises, whatever the orbit. *)
Theorem C91_fast : forall fuel ra rb t1 t2, cross ra rb <> zero3 -> value t2 <> value t1 -> (0 < fuel)%nat ->
  let m := gauss_m ra rb (value t2 - value t1) in let l := gauss_l ra rb in
  m <= l * (hansen m l + 0.1) ^ 2 ->
  exists err, coes_from_positions fuel ra rb t1 t2 = Err err /\ (err = ValueError \/ err = ZeroDivisionError).
Proof. exact fast_refused. Qed.
Print Assumptions C91_fast.

(** No orbit of eccentricity 0.8 or more can be found from two exact positions
    placed evenly before and after perigee less than half a turn apart. *)
Theorem C91_perigee_refuted : forall fuel el x t1 t2, (0 < fuel)%nat ->
  0 < semimajor_axis el -> 0.8 <= eccentricity el < 1 -> 0 < x < PI -> eccentricity el < cos x ->
  (value t2 - value t1) * 86400 = flight_time el (- x) x ->
  exists err, coes_from_positions fuel (orbit_point el (- x)) (orbit_point el x) t1 t2 = Err err /\
    (err = ValueError \/ err = ZeroDivisionError).
Proof. intros fuel el x t1 t2 Hf Pa He Hx Hc Ht. apply (refused_perigee fuel el x t1 t2); auto; lra. Qed.
Print Assumptions C91_perigee_refuted.

(** An orbit of eccentricity 0.9 seen a tenth of a radian before and after perigee. *)
Example C91_example : let el := Elements (Epoch 0) 40000 0.9 1 2 3 4 in
  0 < semimajor_axis el /\ 0.8 <= eccentricity el < 1 /\ 0 < 0.1 < PI /\ eccentricity el < cos 0.1.
Proof.
  cbn [semimajor_axis eccentricity]. assert (P := Analysis.PI_bounds). repeat split; try lra.
  replace 0.1 with (2 * 0.05) by lra. rewrite cos_2a_sin.
  assert (0 < sin 0.05 < 0.05) by (split; [apply sin_gt_0; lra|apply sin_lt_x; lra]). nra.
Qed.
