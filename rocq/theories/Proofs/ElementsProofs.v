(** Proofs about coordinates/elements.py. *)
From Coq Require Import Reals Lra Psatz Lia.
From Coquelicot Require Import Coquelicot.
From Verif.Model Require Import Num Constants Linalg Functions Time Celestial Positions States Elements.
From Verif.Spec Require Import Geometry Gravity Orbit.
From Verif.Proofs Require Import NumLemmas LinalgProofs Analysis FunctionsProofs KeplerProofs.
Local Open Scope R_scope.

Lemma mu_pos : 0 < mu_earth. Proof. unfold mu_earth; lra. Qed.

(** Directions in the plane: towards the node and a quarter turn after it. *)
Definition node (o : R) : vec3 := V3 (cos o) (sin o) 0.
Definition across (o i : R) : vec3 := V3 (- sin o * cos i) (cos o * cos i) (sin i).
Definition along (o i u : R) : vec3 := add (scale (cos u) (node o)) (scale (sin u) (across o i)).
Definition ahead (o i u : R) : vec3 := add (scale (- sin u) (node o)) (scale (cos u) (across o i)).

Lemma node_across_dot o i : dot (node o) (across o i) = 0.
Proof. unfold dot; cbn. ring. Qed.
Lemma node_unit o : dot (node o) (node o) = 1.
Proof. unfold dot; cbn. generalize (sin2_cos2' o). lra. Qed.
Lemma across_unit o i : dot (across o i) (across o i) = 1.
Proof.
  unfold dot; cbn. assert (A := sin2_cos2' o). assert (B := sin2_cos2' i).
  replace (- sin o * cos i * (- sin o * cos i) + cos o * cos i * (cos o * cos i) + sin i * sin i)
    with ((sin o * sin o + cos o * cos o) * (cos i * cos i) + sin i * sin i) by ring. rewrite A. lra.
Qed.
Lemma node_cross o i : cross (node o) (across o i) = orbit_normal o i.
Proof.
  assert (A := sin2_cos2' o). veq; try ring.
  replace (cos o * (cos o * cos i) - sin o * (- sin o * cos i)) with ((sin o * sin o + cos o * cos o) * cos i) by ring.
  rewrite A. ring.
Qed.
Lemma comb_dot a b a' b' o i :
  dot (add (scale a (node o)) (scale b (across o i))) (add (scale a' (node o)) (scale b' (across o i))) = a * a' + b * b'.
Proof.
  transitivity (a * a' * dot (node o) (node o) + (a * b' + b * a') * dot (node o) (across o i)
    + b * b' * dot (across o i) (across o i)).
  - unfold dot, add, scale; cbn [x3 y3 z3]. ring.
  - rewrite node_across_dot, node_unit, across_unit. ring.
Qed.
Lemma comb_cross a b a' b' o i :
  cross (add (scale a (node o)) (scale b (across o i))) (add (scale a' (node o)) (scale b' (across o i)))
  = scale (a * b' - b * a') (orbit_normal o i).
Proof.
  rewrite <- node_cross. generalize (node o) (across o i). intros p q. veq; ring.
Qed.

Lemma along_unit o i u : dot (along o i u) (along o i u) = 1.
Proof. unfold along. rewrite comb_dot. generalize (sin2_cos2' u). lra. Qed.
Lemma along_ahead o i u : dot (along o i u) (ahead o i u) = 0.
Proof. unfold along, ahead. rewrite comb_dot. ring. Qed.
Lemma ahead_unit o i u : dot (ahead o i u) (ahead o i u) = 1.
Proof. unfold ahead. rewrite comb_dot. generalize (sin2_cos2' u). lra. Qed.
Lemma along_cross o i u : cross (along o i u) (ahead o i u) = orbit_normal o i.
Proof.
  unfold along, ahead. rewrite comb_cross. assert (A := sin2_cos2' u).
  replace (cos u * cos u - sin u * - sin u) with 1 by lra. veq; ring.
Qed.
Lemma along_shift o i w t :
  add (scale (cos t) (along o i w)) (scale (sin t) (ahead o i w)) = along o i (w + t) /\
  add (scale (- sin t) (along o i w)) (scale (cos t) (ahead o i w)) = ahead o i (w + t).
Proof.
  unfold along, ahead. rewrite cos_plus, sin_plus. generalize (node o) (across o i). intros p q.
  split; veq; ring.
Qed.
Lemma pq_dot a b a' b' o i w :
  dot (add (scale a (along o i w)) (scale b (ahead o i w))) (add (scale a' (along o i w)) (scale b' (ahead o i w))) = a * a' + b * b'.
Proof.
  transitivity (a * a' * dot (along o i w) (along o i w) + (a * b' + b * a') * dot (along o i w) (ahead o i w)
    + b * b' * dot (ahead o i w) (ahead o i w)).
  - unfold dot, add, scale; cbn [x3 y3 z3]. ring.
  - rewrite along_unit, along_ahead, ahead_unit. ring.
Qed.
Lemma pq_cross a b a' b' o i w :
  cross (add (scale a (along o i w)) (scale b (ahead o i w))) (add (scale a' (along o i w)) (scale b' (ahead o i w)))
  = scale (a * b' - b * a') (orbit_normal o i).
Proof. rewrite <- (along_cross o i w). generalize (along o i w) (ahead o i w). intros p q. veq; ring. Qed.

Lemma perigee_ok el : perigee_vector el = Ok (along (raan el) (inclination el) (argument_of_perigee el)).
Proof.
  unfold perigee_vector.
  match goal with |- v3_normalized ?v = _ => replace v with (along (raan el) (inclination el) (argument_of_perigee el)) end.
  2:{ unfold along. veq; ring. }
  set (v := along _ _ _). assert (D : dot v v = 1) by apply along_unit.
  assert (N : norm v = 1) by (unfold norm; rewrite D; apply sqrt_1).
  rewrite normalized_ok.
  - rewrite N, Rinv_1. apply f_equal. veq; ring.
  - intros E. rewrite E in D. unfold dot in D; cbn in D. lra.
Qed.
Lemma semilatus_ok el : semilatus_rectum_vector el = ahead (raan el) (inclination el) (argument_of_perigee el).
Proof. unfold semilatus_rectum_vector, ahead. veq; ring. Qed.

(** The state at eccentric anomaly [x]. *)
Definition place (el : elements) (x : R) : vec3 :=
  let a := semimajor_axis el in let e := eccentricity el in
  add (scale (a * (cos x - e)) (along (raan el) (inclination el) (argument_of_perigee el)))
      (scale (a * sqrt (1 - e * e) * sin x) (ahead (raan el) (inclination el) (argument_of_perigee el))).
Definition motion (el : elements) (x : R) : vec3 :=
  let a := semimajor_axis el in let e := eccentricity el in
  let k := sqrt (mu_earth / a) / (1 - e * cos x) in
  add (scale (- k * sin x) (along (raan el) (inclination el) (argument_of_perigee el)))
      (scale (k * sqrt (1 - e * e) * cos x) (ahead (raan el) (inclination el) (argument_of_perigee el))).

Lemma to_ijk_ok fuel el x : 0 < semimajor_axis el -> 0 <= eccentricity el < 1 ->
  eccentric_anomaly fuel el = Ok x ->
  elements_to_ijk fuel el = Ok (State (el_epoch el) (place el x) (motion el x)).
Proof.
  intros Ha He Hx. unfold elements_to_ijk. rewrite perigee_ok. cbn [bind]. rewrite Hx. cbn [bind].
  assert (D := one_minus_e_cos _ x He). assert (Q := one_minus_sq _ He).
  cbv zeta. rewrite pdiv_ok by (generalize (Rmult_lt_0_compat _ _ Ha D); lra). cbn [bind].
  rewrite pdiv_ok by lra. cbn [bind]. rewrite psqrt_ok.
  2:{ left. apply Rdiv_pos; auto. exact mu_pos. }
  cbn [bind]. rewrite psqrt_ok by lra. cbn [bind]. apply f_equal.
  rewrite semilatus_ok. change Earth_MU with mu_earth.
  set (p := along _ _ _). set (q := ahead _ _ _).
  f_equal.
  - unfold place. fold p q. rewrite !v3_scaled_scale. reflexivity.
  - unfold motion. fold p q. rewrite !v3_scaled_scale, v3_plus_add.
    set (k := sqrt (mu_earth / _)). set (sb := sqrt (1 - _)).
    set (a := semimajor_axis el) in *. set (e := eccentricity el) in *.
    f_equal; f_equal; field; lra.
Qed.
Lemma to_ijk_inv fuel el s : elements_to_ijk fuel el = Ok s -> exists x, eccentric_anomaly fuel el = Ok x.
Proof.
  intros H. unfold elements_to_ijk in H. rewrite perigee_ok in H. cbn [bind] in H.
  destruct (eccentric_anomaly fuel el) as [x|]; [exists x; auto|discriminate].
Qed.

Lemma place_sq el x : 0 <= eccentricity el < 1 ->
  dot (place el x) (place el x) = (semimajor_axis el * (1 - eccentricity el * cos x)) ^ 2.
Proof.
  intros He. unfold place. rewrite pq_dot. assert (T := sin2_cos2' x). assert (Q := one_minus_sq _ He).
  set (sb := sqrt _). assert (S : sb * sb = 1 - eccentricity el * eccentricity el) by (apply sqrt_sqrt; lra).
  set (a := semimajor_axis el). set (e := eccentricity el) in *. set (c := cos x) in *. set (t := sin x) in *.
  replace (a * (c - e) * (a * (c - e)) + a * sb * t * (a * sb * t))
    with (a * a * ((c - e) * (c - e) + sb * sb * (t * t))) by ring.
  rewrite S. replace (t * t) with (1 - c * c) by lra. ring.
Qed.
Lemma place_norm el x : 0 < semimajor_axis el -> 0 <= eccentricity el < 1 ->
  norm (place el x) = semimajor_axis el * (1 - eccentricity el * cos x).
Proof.
  intros Ha He. unfold norm. rewrite place_sq by auto. apply sqrt_eq; [|ring].
  left; apply Rmult_lt_0_compat; auto. apply one_minus_e_cos; auto.
Qed.
Lemma motion_sq el x : 0 < semimajor_axis el -> 0 <= eccentricity el < 1 ->
  dot (motion el x) (motion el x) =
  mu_earth / semimajor_axis el * (1 + eccentricity el * cos x) / (1 - eccentricity el * cos x).
Proof.
  intros Ha He. unfold motion. rewrite pq_dot. assert (T := sin2_cos2' x). assert (Q := one_minus_sq _ He).
  assert (D := one_minus_e_cos _ x He).
  set (sb := sqrt (1 - _)). assert (S : sb * sb = 1 - eccentricity el * eccentricity el) by (apply sqrt_sqrt; lra).
  set (k := sqrt (mu_earth / _)). assert (K : k * k = mu_earth / semimajor_axis el).
  { apply sqrt_sqrt. left. apply Rdiv_pos; auto. apply mu_pos. }
  rewrite <- K. clearbody k sb. clear K.
  set (a := semimajor_axis el) in *. set (e := eccentricity el) in *. set (c := cos x) in *. set (t := sin x) in *.
  replace (- (k / (1 - e * c)) * t * (- (k / (1 - e * c)) * t) + k / (1 - e * c) * sb * c * (k / (1 - e * c) * sb * c))
    with (k * k * (t * t + sb * sb * (c * c)) / ((1 - e * c) * (1 - e * c))) by (field; lra).
  rewrite S. replace (t * t) with (1 - c * c) by lra. field. lra.
Qed.
Lemma to_ijk_energy el x : 0 < semimajor_axis el -> 0 <= eccentricity el < 1 ->
  orbital_energy (place el x) (motion el x) = - mu_earth / (2 * semimajor_axis el).
Proof.
  intros Ha He. unfold orbital_energy. rewrite place_norm by auto. rewrite norm_sq, motion_sq by auto.
  assert (D := one_minus_e_cos _ x He). set (c := eccentricity el * cos x) in *. clearbody c. field. lra.
Qed.
Lemma to_ijk_momentum el x : 0 < semimajor_axis el -> 0 <= eccentricity el < 1 ->
  momentum (place el x) (motion el x) =
  scale (sqrt (mu_earth * semimajor_axis el * (1 - eccentricity el ^ 2))) (orbit_normal (raan el) (inclination el)).
Proof.
  intros Ha He. unfold momentum, place, motion. rewrite pq_cross. f_equal. symmetry.
  assert (T := sin2_cos2' x). assert (Q := one_minus_sq _ He). assert (D := one_minus_e_cos _ x He).
  assert (M := mu_pos).
  set (a := semimajor_axis el) in *. set (e := eccentricity el) in *.
  replace (mu_earth * a * (1 - e ^ 2)) with (mu_earth / a * (1 - e * e) * (a * a)) by (field; lra).
  assert (0 < mu_earth / a) by (apply Rdiv_pos; auto).
  rewrite sqrt_mult by nra. rewrite (sqrt_square a) by lra. rewrite sqrt_mult by lra.
  set (k := sqrt (mu_earth / a)). set (sb := sqrt (1 - e * e)). clearbody k sb.
  replace (sin x * sin x) with (1 - cos x * cos x) in T by lra.
  set (c := cos x) in *. set (t := sin x) in *.
  replace (a * (c - e) * (k / (1 - e * c) * sb * c) - a * sb * t * (- (k / (1 - e * c)) * t))
    with (a * k * sb * (c * (c - e) + t * t) / (1 - e * c)) by (field; lra).
  replace (t * t) with (1 - c * c) by (unfold t, c; generalize (sin2_cos2' x); lra). field. lra.
Qed.

(** * From a state *)
Lemma momentum_sq r v : dot (momentum r v) (momentum r v) = dot r r * dot v v - dot r v * dot r v.
Proof. unfold momentum, cross, dot; cbn [x3 y3 z3]. ring. Qed.
Lemma bound_nonzero r v : momentum r v <> zero3 -> r <> zero3.
Proof. intros H E. apply H. rewrite E. unfold momentum, cross, zero3; cbn [x3 y3 z3]. f_equal; ring. Qed.

(** What the scalar part of [from_ijk] computes. *)
Definition shape (r v : vec3) (a e x : R) : Prop :=
  0 < a /\ 0 <= e < 1 /\ 0 <= x < 2 * PI /\
  orbital_energy r v = - mu_earth / (2 * a) /\
  mu_earth * (a * (1 - e * e)) = dot (momentum r v) (momentum r v) /\
  norm r = a * (1 - e * cos x) /\
  dot r v = sqrt (mu_earth * a) * (e * sin x).

Lemma shape_exists r v : bound_orbit r v -> exists a e n x,
  A_from_mu_r_v Earth_MU (norm r) (norm v) = Ok a /\
  (let* p := P_from_mu_h Earth_MU (norm (momentum r v)) in E_from_a_p a p) = Ok e /\
  N_from_a_mu a Earth_MU = Ok n /\
  EA_from_rdv_r_a_n (dot r v) (norm r) a n = Ok x /\ shape r v a e x.
Proof.
  intros [En Hm]. assert (Hr := bound_nonzero _ _ Hm). apply norm_pos in Hr.
  assert (M := mu_pos). assert (Hq := momentum_sq r v).
  assert (Hp : 0 < dot (momentum r v) (momentum r v)).
  { generalize (dot_self_nonneg (momentum r v)). intros [|E]; auto. symmetry in E. apply dot_self_zero in E. contradiction. }
  change Earth_MU with mu_earth. unfold orbital_energy in En.
  rewrite <- (norm_sq r), <- (norm_sq v) in Hq.
  unfold shape, orbital_energy. unfold P_from_mu_h. rewrite norm_sq.
  set (rr := norm r) in *. set (vv := norm v) in *. set (d := dot r v) in *. set (hh := dot (momentum r v) (momentum r v)) in *.
  set (mu := mu_earth) in *. clearbody rr vv d hh mu.
  assert (Ka : 0 < 2 / rr - vv * vv / mu).
  { replace (2 / rr - vv * vv / mu) with (- (vv * vv / 2 - mu / rr) * (2 / mu)) by (field; lra).
    apply Rmult_lt_0_compat; [lra|apply Rdiv_pos; lra]. }
  set (a := 1 / (2 / rr - vv * vv / mu)).
  assert (Ha : 0 < a) by (apply Rdiv_pos; lra).
  assert (Ia : 2 / rr - vv * vv / mu = / a) by (unfold a; unfold Rdiv at 3; rewrite Rmult_1_l, Rinv_inv; reflexivity).
  assert (Vv : vv * vv = mu * (2 / rr - / a)) by (rewrite <- Ia; field; lra).
  clearbody a.
  assert (Ee : 1 - hh / mu / a = (1 - rr / a) * (1 - rr / a) + d * d / (mu * a)).
  { rewrite Hq, Vv. field. lra. }
  assert (Pd : 0 <= d * d / (mu * a)) by (apply Rdiv_nonneg; [nra|apply Rmult_lt_0_compat; auto]).
  assert (Ph : 0 < hh / mu / a) by (repeat apply Rdiv_pos; auto).
  assert (E0 : 0 <= 1 - hh / mu / a) by (rewrite Ee; generalize (Rle_0_sqr (1 - rr / a)); unfold Rsqr; lra).
  set (e := sqrt (1 - hh / mu / a)).
  assert (Es : e * e = 1 - hh / mu / a) by (apply sqrt_sqrt; auto).
  assert (He : 0 <= e < 1) by (split; [apply sqrt_pos|nra]).
  set (n := sqrt (mu / (a * a * a))).
  assert (C3 := cube_pos a Ha).
  assert (Hn : 0 < n) by (apply sqrt_lt_R0, Rdiv_pos; auto).
  assert (An : a * a * n = sqrt (mu * a)).
  { symmetry. apply sqrt_eq; [nra|]. replace (a * a * n * (a * a * n)) with (a * a * a * a * (n * n)) by ring.
    unfold n. rewrite sqrt_sqrt by (left; apply Rdiv_pos; auto). field. lra. }
  assert (Pn : 0 < a * a * n) by (apply Rmult_lt_0_compat; auto; nra).
  set (x := wrap (atan2 (d / (a * a * n)) (1 - rr / a))).
  exists a, e, n, x.
  split. { unfold A_from_mu_r_v. rewrite pdiv_ok by lra. cbn [bind]. rewrite pdiv_ok by lra. cbn [bind].
    rewrite Ia. rewrite pdiv_ok by (apply Rinv_neq_0_compat; lra). apply f_equal. field. lra. }
  split. { rewrite pdiv_ok by lra. cbn [bind]. unfold E_from_a_p. rewrite pdiv_ok by lra. cbn [bind].
    apply psqrt_ok. auto. }
  split. { rewrite N_ok; auto. }
  split. { unfold EA_from_rdv_r_a_n. rewrite pdiv_ok by lra. cbn [bind]. rewrite pdiv_ok by lra. reflexivity. }
  destruct (atan2_polar (d / (a * a * n)) (1 - rr / a)) as [P1 P2].
  assert (Hy : sqrt ((1 - rr / a) * (1 - rr / a) + d / (a * a * n) * (d / (a * a * n))) = e).
  { apply sqrt_eq; [lra|]. rewrite Es, Ee. f_equal.
    replace (d / (a * a * n) * (d / (a * a * n))) with (d * d / ((a * a * n) * (a * a * n))) by (field; lra).
    rewrite An, sqrt_sqrt; auto. nra. }
  rewrite Hy in P1, P2.
  split; [auto|]. split; [auto|]. split; [apply wrap_range, atan2_range|].
  split. { rewrite Vv. field. lra. }
  split. { rewrite Es. field. lra. }
  unfold x. rewrite cos_wrap, sin_wrap, <- P1, <- P2, <- An.
  split; field; lra.
Qed.

Definition made (s : state) (w : vec3) (a e x : R) : elements :=
  Elements (s_epoch s) a e (I_from_w w) (RAAN_from_w w)
    (W_from_u_nu (U_from_r_w (s_position s) w) (nu_of e x)) (MA_from_ea_e x e).

Lemma from_ijk_ok s : bound_orbit (s_position s) (s_velocity s) ->
  let h := momentum (s_position s) (s_velocity s) in
  exists a e x, shape (s_position s) (s_velocity s) a e x /\
  elements_from_ijk s = Ok (made s (scale (/ norm h) h) a e x).
Proof.
  intros B h. destruct (shape_exists _ _ B) as (a & e & n & x & H1 & H2 & H3 & H4 & Sh).
  exists a, e, x. split; auto. destruct B as [_ Hm]. unfold elements_from_ijk.
  change (H_from_r_v (s_position s) (s_velocity s)) with h. cbv zeta.
  rewrite (normalized_ok h) by exact Hm. cbn [bind]. change v3_magnitude with norm. rewrite H1. cbn [bind].
  apply bind_ok in H2. destruct H2 as [p [Hp H2]]. change (momentum (s_position s) (s_velocity s)) with h in Hp.
  rewrite Hp. cbn [bind]. rewrite H2. cbn [bind].
  rewrite H3. cbn [bind]. rewrite v3_dot_dot, H4. cbn [bind].
  rewrite NU_ok by apply Sh. reflexivity.
Qed.

(** Node and inclination of a unit normal. *)
Lemma normal_of_w w : dot w w = 1 -> orbit_normal (RAAN_from_w w) (I_from_w w) = w.
Proof.
  intros U. unfold dot in U. unfold orbit_normal, RAAN_from_w, I_from_w.
  change (if nlt (atan2 (x3 w) (- y3 w)) 0 then atan2 (x3 w) (- y3 w) + 2 * PI else atan2 (x3 w) (- y3 w))
    with (wrap (atan2 (x3 w) (- y3 w))). rewrite cos_wrap, sin_wrap.
  set (s := sqrt (x3 w * x3 w + y3 w * y3 w)).
  assert (Ss : s * s = x3 w * x3 w + y3 w * y3 w) by (apply sqrt_sqrt, sum_sq_nonneg2).
  destruct (atan2_polar s (z3 w)) as [P1 P2].
  replace (sqrt (z3 w * z3 w + s * s)) with 1 in P1, P2 by (symmetry; apply sqrt_eq; lra).
  destruct (atan2_polar (x3 w) (- y3 w)) as [Q1 Q2].
  replace (sqrt (- y3 w * - y3 w + x3 w * x3 w)) with s in Q1, Q2 by (unfold s; f_equal; ring).
  rewrite Rmult_1_l in P1, P2. rewrite <- P1, <- P2.
  apply vec3_eq; cbn [x3 y3 z3]; lra.
Qed.
Lemma sin_I w : dot w w = 1 -> sin (I_from_w w) = sqrt (x3 w * x3 w + y3 w * y3 w).
Proof.
  intros U. unfold dot in U. unfold I_from_w. set (s := sqrt (x3 w * x3 w + y3 w * y3 w)).
  assert (Ss : s * s = x3 w * x3 w + y3 w * y3 w) by (apply sqrt_sqrt, sum_sq_nonneg2).
  destruct (atan2_polar s (z3 w)) as [P1 P2].
  replace (sqrt (z3 w * z3 w + s * s)) with 1 in P1, P2 by (symmetry; apply sqrt_eq; lra). lra.
Qed.

(** For an inclined plane the argument of latitude locates the position. *)
Lemma latitude_spec r w : dot w w = 1 -> dot r w = 0 -> ~ (x3 w = 0 /\ y3 w = 0) ->
  r = scale (norm r) (along (RAAN_from_w w) (I_from_w w) (U_from_r_w r w)).
Proof.
  intros U P NE. assert (NW := normal_of_w w U). assert (SI := sin_I w U).
  set (o := RAAN_from_w w) in *. set (i := I_from_w w) in *.
  assert (Hs : 0 < sin i).
  { rewrite SI. apply sqrt_lt_R0. destruct (sum_sq_nonneg2 (x3 w) (y3 w)) as [|E]; auto. exfalso. apply NE.
    split; nra. }
  assert (Ni : across o i = cross w (node o)).
  { rewrite <- NW. assert (T := sin2_cos2' o). unfold across, orbit_normal, node, cross; cbn [x3 y3 z3].
    apply vec3_eq; cbn [x3 y3 z3]; [ring|ring|].
    replace (sin o * sin i * sin o - - cos o * sin i * cos o) with ((sin o * sin o + cos o * cos o) * sin i) by ring.
    rewrite T; ring. }
  assert (X : x3 w = sin o * sin i) by (rewrite <- NW at 1; reflexivity).
  assert (Y : y3 w = - cos o * sin i) by (rewrite <- NW at 1; reflexivity).
  assert (Z : z3 w = cos i) by (rewrite <- NW at 1; reflexivity).
  clearbody o i.
  assert (To := sin2_cos2' o). assert (Ti := sin2_cos2' i).
  set (al := dot r (node o)). set (be := dot r (across o i)).
  assert (Z1 : z3 r = sin i * be).
  { unfold be, dot, across; cbn [x3 y3 z3]. unfold dot in P. rewrite X, Y, Z in P.
    transitivity (z3 r * (sin i * sin i) + cos i * (z3 r * cos i)).
    { replace (z3 r * (sin i * sin i) + cos i * (z3 r * cos i)) with (z3 r * (sin i * sin i + cos i * cos i)) by ring.
      rewrite Ti. ring. }
    replace (z3 r * cos i) with (- (x3 r * (sin o * sin i) + y3 r * (- cos o * sin i))) by lra. ring. }
  assert (Z2 : - x3 r * y3 w + y3 r * x3 w = sin i * al).
  { unfold al, dot, node; cbn [x3 y3 z3]. rewrite X, Y. ring. }
  assert (Rr : r = add (scale al (node o)) (scale be (across o i))).
  { unfold al, be, dot, node, across, add, scale; cbn [x3 y3 z3]. unfold dot in P. rewrite X, Y, Z in P.
    apply vec3_eq; cbn [x3 y3 z3].
    - assert (E : (x3 r * (sin o * sin i) + y3 r * (- cos o * sin i) + z3 r * cos i) * (sin o * sin i) = 0) by (rewrite P; ring).
      replace (x3 r) with (x3 r * ((sin o * sin o + cos o * cos o) * (sin i * sin i + cos i * cos i)
         + (1 - (sin o * sin o + cos o * cos o)) * 0)) at 1 by (rewrite To, Ti; ring).
      assert (W : x3 r * cos o * cos o * (sin i * sin i + cos i * cos i) = x3 r * cos o * cos o) by (rewrite Ti; ring).
      assert (W2 : y3 r * cos o * sin o * (sin i * sin i + cos i * cos i) = y3 r * cos o * sin o) by (rewrite Ti; ring).
      lra.
    - assert (E : (x3 r * (sin o * sin i) + y3 r * (- cos o * sin i) + z3 r * cos i) * (- cos o * sin i) = 0) by (rewrite P; ring).
      replace (y3 r) with (y3 r * ((sin o * sin o + cos o * cos o) * (sin i * sin i + cos i * cos i))) at 1 by (rewrite To, Ti; ring).
      assert (W : x3 r * cos o * sin o * (sin i * sin i + cos i * cos i) = x3 r * cos o * sin o) by (rewrite Ti; ring).
      assert (W2 : y3 r * sin o * sin o * (sin i * sin i + cos i * cos i) = y3 r * sin o * sin o) by (rewrite Ti; ring).
      lra.
    - assert (E : (x3 r * (sin o * sin i) + y3 r * (- cos o * sin i) + z3 r * cos i) * cos i = 0) by (rewrite P; ring).
      replace (z3 r) with (z3 r * (sin i * sin i + cos i * cos i)) at 1 by (rewrite Ti; ring). lra. }
  assert (Nr : norm r = sqrt (al * al + be * be)).
  { unfold norm. rewrite Rr at 1 2. rewrite comb_dot. reflexivity. }
  unfold U_from_r_w. rewrite Z1, Z2.
  change (if nlt ?u 0 then ?u + 2 * PI else ?u) with (wrap u).
  rewrite atan2_scale by auto. unfold along.
  rewrite cos_wrap, sin_wrap.
  destruct (atan2_polar be al) as [A1 A2]. rewrite <- Nr in A1, A2.
  set (c := cos (atan2 be al)) in *. set (t := sin (atan2 be al)) in *. clearbody c t al be.
  rewrite Rr at 1. rewrite A1, A2. generalize (norm r) (node o) (across o i). intros; veq; ring.
Qed.

Lemma along_2pi o i u v : cos u = cos v -> sin u = sin v -> along o i u = along o i v /\ ahead o i u = ahead o i v.
Proof. intros C S. unfold along, ahead. rewrite C, S. auto. Qed.
Lemma W_cos_sin u nu : cos (W_from_u_nu u nu + nu) = cos u /\ sin (W_from_u_nu u nu + nu) = sin u.
Proof.
  change (W_from_u_nu u nu) with (wrap (u - nu)). rewrite cos_plus, sin_plus, cos_wrap, sin_wrap, cos_minus, sin_minus.
  assert (T := sin2_cos2' nu). split.
  - transitivity (cos u * (sin nu * sin nu + cos nu * cos nu)); [ring|rewrite T; ring].
  - transitivity (sin u * (sin nu * sin nu + cos nu * cos nu)); [ring|rewrite T; ring].
Qed.

(** With the exact eccentric anomaly the elements give back radius, radial and transverse speed. *)
Lemma made_place s w a e x : shape (s_position s) (s_velocity s) a e x ->
  place (made s w a e x) x =
  scale (norm (s_position s)) (along (RAAN_from_w w) (I_from_w w) (U_from_r_w (s_position s) w)).
Proof.
  intros (Ha & He & Hx & En & Hh & Hr & Hd). unfold place, made. cbn [semimajor_axis eccentricity raan inclination argument_of_perigee].
  set (o := RAAN_from_w w). set (i := I_from_w w). set (u := U_from_r_w (s_position s) w).
  destruct (W_cos_sin u (nu_of e x)) as [C S]. destruct (along_2pi o i _ _ C S) as [A _]. rewrite <- A.
  destruct (along_shift o i (W_from_u_nu u (nu_of e x)) (nu_of e x)) as [B _]. rewrite <- B.
  destruct (nu_of_spec e x He) as [N1 N2]. rewrite Hr.
  set (p := along _ _ _). set (q := ahead _ _ _). clearbody p q.
  assert (a * (cos x - e) = a * (1 - e * cos x) * cos (nu_of e x)) by (rewrite <- N1; ring).
  assert (a * sqrt (1 - e * e) * sin x = a * (1 - e * cos x) * sin (nu_of e x)).
  { rewrite (Rmult_assoc a), <- N2. ring. }
  rewrite H, H0. clear. generalize (cos (nu_of e x)) (sin (nu_of e x)) (a * (1 - e * cos x)). intros; veq; ring.
Qed.
Lemma made_motion s w a e x : shape (s_position s) (s_velocity s) a e x ->
  let r := s_position s in let v := s_velocity s in
  let o := RAAN_from_w w in let i := I_from_w w in let u := U_from_r_w r w in
  motion (made s w a e x) x =
  add (scale (dot r v / norm r) (along o i u)) (scale (norm (momentum r v) / norm r) (ahead o i u)).
Proof.
  intros (Ha & He & Hx & En & Hh & Hr & Hd) r v o i u. fold r v in En, Hh, Hr, Hd.
  unfold motion, made. cbn [semimajor_axis eccentricity raan inclination argument_of_perigee].
  fold o i u.
  destruct (W_cos_sin u (nu_of e x)) as [C S]. destruct (along_2pi o i _ _ C S) as [A1 A2]. rewrite <- A1, <- A2.
  destruct (along_shift o i (W_from_u_nu u (nu_of e x)) (nu_of e x)) as [B1 B2]. fold r u. rewrite <- B1, <- B2.
  destruct (nu_of_spec e x He) as [N1 N2]. assert (Q := one_minus_sq e He). assert (D := one_minus_e_cos e x He).
  assert (M := mu_pos).
  assert (Nh : norm (momentum r v) = sqrt (mu_earth / a) * a * sqrt (1 - e * e)).
  { unfold norm. apply sqrt_eq.
    - repeat apply Rmult_le_pos; try apply sqrt_pos; lra.
    - rewrite <- Hh. replace (sqrt (mu_earth / a) * a * sqrt (1 - e * e) * (sqrt (mu_earth / a) * a * sqrt (1 - e * e)))
        with ((sqrt (mu_earth / a) * sqrt (mu_earth / a)) * (a * a) * (sqrt (1 - e * e) * sqrt (1 - e * e))) by ring.
      rewrite !sqrt_sqrt; try lra. field. lra. left; apply Rdiv_pos; lra. }
  assert (Dv : dot r v = sqrt (mu_earth / a) * a * (e * sin x)).
  { rewrite Hd. f_equal. apply sqrt_eq.
    - apply Rmult_le_pos; [apply sqrt_pos|lra].
    - replace (sqrt (mu_earth / a) * a * (sqrt (mu_earth / a) * a)) with (sqrt (mu_earth / a) * sqrt (mu_earth / a) * (a * a)) by ring.
      rewrite sqrt_sqrt by (left; apply Rdiv_pos; lra). field. lra. }
  rewrite Nh, Dv, Hr. set (p := along _ _ _). set (q := ahead _ _ _). clearbody p q.
  set (k := sqrt (mu_earth / a)) in *. set (sb := sqrt (1 - e * e)) in *.
  assert (Sb : sb * sb = 1 - e * e) by (apply sqrt_sqrt; lra).
  assert (T := sin2_cos2' x). set (c := cos x) in *. set (t := sin x) in *.
  assert (C1 : cos (nu_of e x) = (c - e) / (1 - e * c)) by (rewrite <- N1; field; lra).
  assert (S1 : sin (nu_of e x) = sb * t / (1 - e * c)) by (rewrite <- N2; field; lra).
  rewrite C1, S1. clearbody k sb c t.
  assert (G1 : - (k / (1 - e * c)) * t = k * a * (e * t) / (a * (1 - e * c)) * ((c - e) / (1 - e * c)) - k * a * sb / (a * (1 - e * c)) * (sb * t / (1 - e * c))).
  { replace (k * a * sb / (a * (1 - e * c)) * (sb * t / (1 - e * c))) with (k * (sb * sb) * t / ((1 - e * c) * (1 - e * c))) by (field; lra).
    rewrite Sb. field. lra. }
  assert (G2 : k / (1 - e * c) * sb * c = k * a * (e * t) / (a * (1 - e * c)) * (sb * t / (1 - e * c)) + k * a * sb / (a * (1 - e * c)) * ((c - e) / (1 - e * c))).
  { replace (k * a * (e * t) / (a * (1 - e * c)) * (sb * t / (1 - e * c))) with (k * e * sb * (t * t) / ((1 - e * c) * (1 - e * c))) by (field; lra).
    replace (t * t) with (1 - c * c) by lra. field. lra. }
  rewrite G1, G2. clear.
  generalize (k * a * (e * t) / (a * (1 - e * c))) (k * a * sb / (a * (1 - e * c))) ((c - e) / (1 - e * c)) (sb * t / (1 - e * c)).
  intros; veq; ring.
Qed.

(** For an inclined plane that is the state itself. *)
Lemma made_exact s a e x : let r := s_position s in let v := s_velocity s in
  shape r v a e x -> momentum r v <> zero3 -> ~ equatorial r v ->
  let w := scale (/ norm (momentum r v)) (momentum r v) in
  place (made s w a e x) x = r /\ motion (made s w a e x) x = v.
Proof.
  intros r v Sh Hm Ne w. assert (Hn := norm_pos _ Hm).
  assert (Uw : dot w w = 1) by (apply unit_dot; auto).
  assert (Pw : dot r w = 0).
  { unfold w. transitivity (/ norm (momentum r v) * dot r (momentum r v)); [unfold dot, scale; cbn; ring|].
    replace (dot r (momentum r v)) with 0 by (unfold momentum, dot, cross; cbn; ring). ring. }
  assert (Nw : ~ (x3 w = 0 /\ y3 w = 0)).
  { intros [X Y]. apply Ne. unfold equatorial. unfold w, scale in X, Y. cbn [x3 y3] in X, Y.
    assert (/ norm (momentum r v) <> 0) by (apply Rinv_neq_0_compat; lra).
    apply Rmult_integral in X. apply Rmult_integral in Y. tauto. }
  assert (L := latitude_spec r w Uw Pw Nw).
  assert (Hr := norm_pos _ (bound_nonzero _ _ Hm)).
  split; [rewrite made_place by auto; symmetry; exact L|].
  rewrite made_motion by auto. fold r v.
  set (o := RAAN_from_w w) in *. set (i := I_from_w w) in *. set (u := U_from_r_w r w) in *.
  assert (Wn : orbit_normal o i = w) by (apply normal_of_w; auto).
  assert (Ah : ahead o i u = cross w (along o i u)).
  { rewrite <- Wn, <- (along_cross o i u). generalize (along_unit o i u) (along_ahead o i u).
    generalize (along o i u) (ahead o i u). intros p q D1 D2.
    transitivity (sub (scale (dot p p) q) (scale (dot p q) p)); [rewrite D1, D2; veq; ring|].
    unfold dot; veq; ring. }
  assert (Al : along o i u = scale (/ norm r) r).
  { rewrite L at 2. generalize (along o i u). intros p. veq; field; lra. }
  rewrite Ah, Al. unfold w.
  assert (V : scale (norm r * norm r) v = add (scale (dot r v) r) (cross (momentum r v) r)).
  { rewrite norm_sq. unfold momentum, dot. veq; ring. }
  transitivity (scale (/ (norm r * norm r)) (add (scale (dot r v) r) (cross (momentum r v) r))).
  - generalize dependent (norm r). generalize dependent (norm (momentum r v)). intros. generalize (dot r v) (momentum r v). intros. veq; field; lra.
  - rewrite <- V. generalize dependent (norm r). intros. veq; field; lra.
Qed.

(** * Sensitivity to the eccentric anomaly *)
Lemma chord x y : (cos y - cos x) * (cos y - cos x) + (sin y - sin x) * (sin y - sin x) <= (y - x) * (y - x).
Proof.
  assert (E : (cos y - cos x) * (cos y - cos x) + (sin y - sin x) * (sin y - sin x) = 2 - 2 * cos (y - x)).
  { rewrite cos_minus. generalize (sin2_cos2' x) (sin2_cos2' y). lra. }
  rewrite E. replace (y - x) with (2 * ((y - x) / 2)) at 1 by field. rewrite cos_2a_sin.
  assert (L := sin_lip ((y - x) / 2) 0). rewrite sin_0, !Rminus_0_r in L. apply Rsqr_le_abs_1 in L. unfold Rsqr in L. lra.
Qed.
Lemma place_close el x y : 0 < semimajor_axis el -> 0 <= eccentricity el < 1 ->
  norm (sub (place el y) (place el x)) <= semimajor_axis el * Rabs (y - x).
Proof.
  intros Ha He. assert (Q := one_minus_sq _ He).
  rewrite <- (Rabs_pos_eq (semimajor_axis el)) by lra. rewrite <- Rabs_mult.
  rewrite <- sqrt_Rsqr_abs. unfold norm. apply sqrt_le_1_alt. unfold Rsqr.
  set (a := semimajor_axis el) in *. set (e := eccentricity el) in *.
  assert (S : sub (place el y) (place el x) =
    add (scale (a * (cos y - cos x)) (along (raan el) (inclination el) (argument_of_perigee el)))
        (scale (a * sqrt (1 - e * e) * (sin y - sin x)) (ahead (raan el) (inclination el) (argument_of_perigee el)))).
  { unfold place. fold a e. generalize (along (raan el) (inclination el) (argument_of_perigee el))
      (ahead (raan el) (inclination el) (argument_of_perigee el)). intros; veq; ring. }
  rewrite S, pq_dot. assert (C := chord x y).
  set (sb := sqrt (1 - e * e)). assert (Sb : sb * sb = 1 - e * e) by (apply sqrt_sqrt; lra).
  set (dc := cos y - cos x) in *. set (ds := sin y - sin x) in *. clearbody dc ds.
  replace (a * dc * (a * dc) + a * sb * ds * (a * sb * ds)) with (a * a * (dc * dc + sb * sb * (ds * ds))) by ring.
  replace (a * (y - x) * (a * (y - x))) with (a * a * ((y - x) * (y - x))) by ring.
  apply Rmult_le_compat_l; [nra|]. rewrite Sb. assert (0 <= e * e * (ds * ds)) by (apply Rmult_le_pos; nra). lra.
Qed.

Lemma lip (f f' : R -> R) k : (forall c, derivable_pt_lim f c (f' c)) -> (forall c, Rabs (f' c) <= k) ->
  forall x y, Rabs (f y - f x) <= k * Rabs (y - x).
Proof.
  intros D B x y. destruct (Rle_dec x y).
  - rewrite (Rabs_pos_eq (y - x)) by lra. apply (deriv_bound f f'); auto.
  - rewrite Rabs_minus_sym, (Rabs_minus_sym y x), (Rabs_pos_eq (x - y)) by lra.
    apply (deriv_bound f f'); auto. lra.
Qed.
Lemma speed_bound e c n : 0 <= e < 1 -> n * n <= (1 - e * cos c) * (1 - e * cos c) ->
  Rabs (n / ((1 - e * cos c) * (1 - e * cos c))) <= / (1 - e).
Proof.
  intros He Hn. assert (D := one_minus_e_cos e c He). assert (B := COS_bound c).
  set (d := 1 - e * cos c) in *. assert (1 - e <= d) by (unfold d; nra).
  assert (Rabs n <= d).
  { rewrite <- (Rabs_pos_eq d) by lra. apply Rsqr_le_abs_0. exact Hn. }
  unfold Rdiv. rewrite Rabs_mult, (Rabs_pos_eq (/ (d * d))) by (left; apply Rinv_0_lt_compat; nra).
  apply Rle_trans with (d * / (d * d)).
  - apply Rmult_le_compat_r; auto. left; apply Rinv_0_lt_compat; nra.
  - replace (d * / (d * d)) with (/ d) by (field; lra). apply Rinv_le_contravar; lra.
Qed.
Lemma speed_sin e x y : 0 <= e < 1 ->
  Rabs (sin y / (1 - e * cos y) - sin x / (1 - e * cos x)) <= / (1 - e) * Rabs (y - x).
Proof.
  intros He. apply (lip (fun t => sin t / (1 - e * cos t)) (fun t => (cos t - e) / ((1 - e * cos t) * (1 - e * cos t)))).
  - intros c. assert (D := one_minus_e_cos e c He). apply is_derive_Reals. auto_derive; [lra|].
    assert (T := sin2_cos2' c). field_simplify_eq; [|lra].
    replace (sin c ^ 2) with (1 - cos c ^ 2) by lra. ring.
  - intros c. apply speed_bound; auto. assert (B := COS_bound c).
    assert (0 <= (1 - e * e) * (1 - cos c * cos c)) by (apply Rmult_le_pos; nra). lra.
Qed.
Lemma speed_cos e x y : 0 <= e < 1 ->
  Rabs (sqrt (1 - e * e) * cos y / (1 - e * cos y) - sqrt (1 - e * e) * cos x / (1 - e * cos x)) <= / (1 - e) * Rabs (y - x).
Proof.
  intros He. assert (Q := one_minus_sq e He). set (sb := sqrt (1 - e * e)).
  assert (Sb : sb * sb = 1 - e * e) by (apply sqrt_sqrt; lra). clearbody sb.
  apply (lip (fun t => sb * cos t / (1 - e * cos t)) (fun t => - (sb * sin t) / ((1 - e * cos t) * (1 - e * cos t)))).
  - intros c. assert (D := one_minus_e_cos e c He). apply is_derive_Reals. auto_derive; [lra|]. field. lra.
  - intros c. apply speed_bound; auto. replace (- (sb * sin c) * - (sb * sin c)) with (sb * sb * (sin c * sin c)) by ring.
    rewrite Sb. assert (T := sin2_cos2' c). replace (sin c * sin c) with (1 - cos c * cos c) by lra.
    generalize (Rle_0_sqr (cos c - e)). unfold Rsqr. lra.
Qed.
Lemma motion_close el x y : 0 < semimajor_axis el -> 0 <= eccentricity el < 1 ->
  norm (sub (motion el y) (motion el x)) <=
  2 * (sqrt (mu_earth / semimajor_axis el) * (/ (1 - eccentricity el) * Rabs (y - x))).
Proof.
  intros Ha He. set (a := semimajor_axis el) in *. set (e := eccentricity el) in *.
  assert (S1 := speed_sin e x y He). assert (S2 := speed_cos e x y He).
  set (K := / (1 - e) * Rabs (y - x)) in *. set (k := sqrt (mu_earth / a)).
  assert (Dx := one_minus_e_cos e x He). assert (Dy := one_minus_e_cos e y He).
  set (f := sin y / (1 - e * cos y) - sin x / (1 - e * cos x)) in *.
  set (g := sqrt (1 - e * e) * cos y / (1 - e * cos y) - sqrt (1 - e * e) * cos x / (1 - e * cos x)) in *.
  assert (S : sub (motion el y) (motion el x) =
    add (scale (- k * f) (along (raan el) (inclination el) (argument_of_perigee el)))
        (scale (k * g) (ahead (raan el) (inclination el) (argument_of_perigee el)))).
  { unfold motion. fold a e. fold k. generalize (along (raan el) (inclination el) (argument_of_perigee el))
      (ahead (raan el) (inclination el) (argument_of_perigee el)). intros; unfold f, g; veq; field; lra. }
  assert (K0 : 0 <= K) by (generalize (Rabs_pos f); lra).
  assert (k0 : 0 <= k) by apply sqrt_pos.
  rewrite S. unfold norm. rewrite pq_dot.
  assert (f * f <= K * K /\ g * g <= K * K).
  { rewrite <- (Rabs_pos_eq K) in S1, S2 by auto. apply Rsqr_le_abs_1 in S1. apply Rsqr_le_abs_1 in S2. unfold Rsqr in *. auto. }
  replace (2 * (k * K)) with (sqrt (2 * (k * K) * (2 * (k * K)))) by (apply sqrt_square; assert (0 <= k * K) by (apply Rmult_le_pos; auto); lra).
  apply sqrt_le_1_alt. replace (- k * f * (- k * f) + k * g * (k * g)) with (k * k * (f * f + g * g)) by ring.
  replace (2 * (k * K) * (2 * (k * K))) with (k * k * (4 * (K * K))) by ring. apply Rmult_le_compat_l; [nra|].
  assert (0 <= K * K) by nra. lra.
Qed.

(** * The properties *)
Lemma from_ijk_spec s : let r := s_position s in let v := s_velocity s in bound_orbit r v ->
  exists el x, elements_from_ijk s = Ok el /\ el_epoch el = s_epoch s /\
    0 < semimajor_axis el /\ 0 <= eccentricity el < 1 /\
    orbital_energy r v = - mu_earth / (2 * semimajor_axis el) /\
    semimajor_axis el * (1 - eccentricity el ^ 2) = norm (momentum r v) ^ 2 / mu_earth /\
    momentum r v = scale (norm (momentum r v)) (orbit_normal (raan el) (inclination el)) /\
    0 <= inclination el <= PI /\ 0 <= raan el < 2 * PI /\
    0 <= argument_of_perigee el < 2 * PI /\ 0 <= mean_anomaly el < 2 * PI /\
    mean_anomaly el = x - eccentricity el * sin x /\
    norm r = semimajor_axis el * (1 - eccentricity el * cos x) /\
    dot r v = sqrt (mu_earth * semimajor_axis el) * (eccentricity el * sin x).
Proof.
  intros r v B. destruct (from_ijk_ok s B) as (a & e & x & Sh & E). fold r v in E, Sh.
  destruct B as [B1 B2]. set (h := momentum r v) in *. set (w := scale (/ norm h) h) in *.
  exists (made s w a e x), x. destruct Sh as (Ha & He & Hx & En & Hh & Hr & Hd). assert (M := mu_pos).
  cbn [made el_epoch semimajor_axis eccentricity raan inclination argument_of_perigee mean_anomaly].
  split; [exact E|]. split; [reflexivity|]. split; [auto|]. split; [auto|]. split; [auto|].
  split. { replace (norm h ^ 2) with (norm h * norm h) by ring. rewrite norm_sq. fold h in Hh. rewrite <- Hh. field. lra. }
  split. { rewrite normal_of_w by (apply unit_dot; auto). symmetry. apply unit_scale_back; auto. }
  split; [apply I_range|]. split; [apply RAAN_range|].
  split; [apply W_range; [apply U_range|apply wrap_range, atan2_range]|].
  split; [apply MA_range; auto|].
  split; [|auto].
  unfold MA_from_ea_e. assert (Bx := e_sin_bound e x He ltac:(lra)). rewrite nlt_false by lra. reflexivity.
Qed.

Lemma from_ijk_rectilinear s : momentum (s_position s) (s_velocity s) = zero3 ->
  elements_from_ijk s = Err ZeroDivisionError.
Proof.
  intros H. unfold elements_from_ijk. cbv zeta. change (H_from_r_v (s_position s) (s_velocity s)) with (momentum (s_position s) (s_velocity s)).
  rewrite H, normalized_zero. reflexivity.
Qed.
Lemma from_ijk_unbound s : let r := s_position s in let v := s_velocity s in
  momentum r v <> zero3 -> 0 <= orbital_energy r v ->
  elements_from_ijk s = Err (if Req_EM_T (orbital_energy r v) 0 then ZeroDivisionError else ValueError).
Proof.
  intros r v Hm En. assert (Hr := norm_pos _ (bound_nonzero _ _ Hm)). assert (M := mu_pos).
  unfold elements_from_ijk. cbv zeta. change (H_from_r_v (s_position s) (s_velocity s)) with (momentum r v).
  rewrite (normalized_ok _ Hm). cbn [bind]. change v3_magnitude with norm. fold r v. change Earth_MU with mu_earth.
  assert (Hp : 0 < dot (momentum r v) (momentum r v)).
  { generalize (dot_self_nonneg (momentum r v)). intros [|E]; auto. symmetry in E. apply dot_self_zero in E. contradiction. }
  unfold A_from_mu_r_v. rewrite pdiv_ok by lra. cbn [bind]. rewrite pdiv_ok by lra. cbn [bind].
  unfold orbital_energy in *. set (rr := norm r) in *. set (vv := norm v) in *.
  assert (K : 2 / rr - vv * vv / mu_earth = - (vv * vv / 2 - mu_earth / rr) * (2 / mu_earth)) by (field; lra).
  assert (P2 : 0 < 2 / mu_earth) by (apply Rdiv_pos; lra).
  destruct (Req_EM_T (vv * vv / 2 - mu_earth / rr) 0) as [Z|Z].
  - rewrite K, Z, Ropp_0, Rmult_0_l, pdiv_zero. reflexivity.
  - assert (Kn : 2 / rr - vv * vv / mu_earth < 0).
    { rewrite K. assert (0 < vv * vv / 2 - mu_earth / rr) by lra.
      assert (0 < (vv * vv / 2 - mu_earth / rr) * (2 / mu_earth)) by (apply Rmult_lt_0_compat; auto). lra. }
    rewrite pdiv_ok by lra. cbn [bind]. set (a := 1 / _).
    assert (An : a < 0).
    { unfold a. unfold Rdiv at 1. rewrite Rmult_1_l. apply Rinv_lt_0_compat; auto. }
    clearbody a. unfold P_from_mu_h. rewrite pdiv_ok by lra. cbn [bind].
    unfold E_from_a_p. rewrite pdiv_ok by lra. cbn [bind]. rewrite psqrt_ok.
    2:{ rewrite norm_sq. assert (0 < dot (momentum r v) (momentum r v) / mu_earth) by (apply Rdiv_pos; auto).
        assert (dot (momentum r v) (momentum r v) / mu_earth / a < 0); [|lra].
        assert (/ a < 0) by (apply Rinv_lt_0_compat; auto). unfold Rdiv at 1. nra. }
    cbn [bind]. unfold N_from_a_mu. assert (a * a * a < 0) by (generalize (cube_pos (- a) ltac:(lra)); lra). rewrite pdiv_ok by lra. cbn [bind].
    rewrite psqrt_neg; [reflexivity|]. assert (/ (a * a * a) < 0) by (apply Rinv_lt_0_compat; auto). unfold Rdiv. clear - M H0. nra.
Qed.

Lemma to_ijk_spec fuel el s : 0 < semimajor_axis el -> 0 <= eccentricity el < 1 ->
  elements_to_ijk fuel el = Ok s ->
  s_epoch s = el_epoch el /\
  orbital_energy (s_position s) (s_velocity s) = - mu_earth / (2 * semimajor_axis el) /\
  momentum (s_position s) (s_velocity s) =
    scale (sqrt (mu_earth * semimajor_axis el * (1 - eccentricity el ^ 2))) (orbit_normal (raan el) (inclination el)) /\
  semimajor_axis el * (1 - eccentricity el) <= norm (s_position s) <= semimajor_axis el * (1 + eccentricity el).
Proof.
  intros Ha He H. destruct (to_ijk_inv _ _ _ H) as [x Hx].
  rewrite (to_ijk_ok _ _ _ Ha He Hx) in H. inversion H. cbn [s_epoch s_position s_velocity].
  split; [reflexivity|]. split; [apply to_ijk_energy; auto|]. split; [apply to_ijk_momentum; auto|].
  rewrite place_norm by auto. assert (B := COS_bound x). split; apply Rmult_le_compat_l; nra.
Qed.
Lemma to_ijk_total el : 0 < semimajor_axis el -> 0 <= eccentricity el < 1 -> - PI < mean_anomaly el <= 2 * PI ->
  exists n s, forall fuel, (n <= fuel)%nat -> elements_to_ijk fuel el = Ok s.
Proof.
  intros Ha He Hm. destruct (EA_terminates _ _ He Hm) as (n & x & H). exists n. eexists.
  intros fuel L. apply to_ijk_ok; auto. apply H; auto.
Qed.
(** Kepler's equation is solved to the tolerance. *)
Lemma to_ijk_anomaly fuel el s : 0 < semimajor_axis el -> 0 <= eccentricity el < 1 -> 0 <= mean_anomaly el < 2 * PI ->
  elements_to_ijk fuel el = Ok s -> exists x,
  x - eccentricity el * sin x = mean_anomaly el /\
  norm (sub (s_position s) (place el x)) <= 1e-24 * semimajor_axis el / (1 - eccentricity el) /\
  norm (sub (s_velocity s) (motion el x)) <= 1e-24 * sqrt (mu_earth / semimajor_axis el) / (1 - eccentricity el) ^ 2.
Proof.
  intros Ha He Hm H. destruct (to_ijk_inv _ _ _ H) as [y Hy].
  rewrite (to_ijk_ok _ _ _ Ha He Hy) in H. inversion H. subst; clear H. cbn [s_position s_velocity].
  unfold eccentric_anomaly in Hy. apply EA_error in Hy; auto. destruct Hy as (x & k & _ & Ex & B).
  exists x. split; auto.
  assert (C : cos y = cos (y - 2 * PI * IZR k)) by (rewrite <- (cos_shift_Z (y - 2 * PI * IZR k) k); f_equal; ring).
  assert (S : sin y = sin (y - 2 * PI * IZR k)) by (rewrite <- (sin_shift_Z (y - 2 * PI * IZR k) k); f_equal; ring).
  assert (P : place el y = place el (y - 2 * PI * IZR k)) by (unfold place; rewrite C, S; reflexivity).
  assert (Mo : motion el y = motion el (y - 2 * PI * IZR k)) by (unfold motion; rewrite C, S; reflexivity).
  rewrite P, Mo. replace (y - (x + 2 * PI * IZR k)) with (y - 2 * PI * IZR k - x) in B by ring.
  set (z := y - 2 * PI * IZR k) in *. clearbody z.
  assert (A1 := place_close el x z Ha He). assert (A2 := motion_close el x z Ha He).
  set (a := semimajor_axis el) in *. set (e := eccentricity el) in *.
  assert (De : 0 < / (1 - e)) by (apply Rinv_0_lt_compat; lra). change (5e-25 / (1 - e)) with (5e-25 * / (1 - e)) in B.
  split.
  - eapply Rle_trans; [exact A1|]. change (1e-24 * a / (1 - e)) with (1e-24 * a * / (1 - e)).
    replace (1e-24 * a * / (1 - e)) with (a * (1e-24 * / (1 - e))) by (generalize 1e-24; intros; ring).
    apply Rmult_le_compat_l; [lra|]. lra.
  - eapply Rle_trans; [exact A2|]. set (k0 := sqrt _). assert (0 <= k0) by apply sqrt_pos.
    replace (1e-24 * k0 / (1 - e) ^ 2) with (2 * (k0 * (/ (1 - e) * (5e-25 * / (1 - e))))).
    2:{ qlit. field. lra. }
    repeat (apply Rmult_le_compat_l; [lra|]). lra.
Qed.

Lemma round_trip s : let r := s_position s in let v := s_velocity s in bound_orbit r v -> ~ equatorial r v ->
  exists el n s', elements_from_ijk s = Ok el /\
    (forall fuel, (n <= fuel)%nat -> elements_to_ijk fuel el = Ok s') /\
    s_epoch s' = s_epoch s /\
    norm (sub (s_position s') r) <= 1e-24 * semimajor_axis el / (1 - eccentricity el) /\
    norm (sub (s_velocity s') v) <= 1e-24 * sqrt (mu_earth / semimajor_axis el) / (1 - eccentricity el) ^ 2.
Proof.
  intros r v B Ne. destruct (from_ijk_ok s B) as (a & e & x & Sh & E). fold r v in E, Sh.
  set (w := scale _ _) in *. set (el := made s w a e x) in *. assert (Sh' := Sh).
  destruct Sh' as (Ha & He & Hx & _).
  assert (Hm : 0 <= mean_anomaly el < 2 * PI) by (apply MA_range; auto).
  destruct (to_ijk_total el) as (n & s' & T); auto. { assert (P := PI_pos). lra. }
  exists el, n, s'. split; [auto|]. split; [auto|].
  assert (T' := T n (le_n _)).
  split. { apply (to_ijk_spec n el s'); auto. }
  destruct (to_ijk_anomaly n el s') as (y & Ky & P1 & P2); auto.
  assert (y = x).
  { assert (Mx : mean_anomaly el = x - e * sin x).
    { unfold el, made. cbn. unfold MA_from_ea_e. assert (Bx := e_sin_bound e x He ltac:(lra)). rewrite nlt_false by lra. reflexivity. }
    destruct (kepler_unique e (mean_anomaly el) He) as (z & _ & U). rewrite <- (U y), <- (U x); auto. }
  subst y. destruct (made_exact s a e x Sh (proj2 B) Ne) as [X1 X2]. fold r v in X1, X2. fold w in X1, X2. fold el in X1, X2.
  rewrite X1 in P1. rewrite X2 in P2. auto.
Qed.

(** * Equatorial orbits *)
Lemma atan2_00 : atan2 0 0 = 0.
Proof. unfold atan2. rewrite !nlt_false by lra. reflexivity. Qed.
Lemma U_equatorial r w : x3 w = 0 -> y3 w = 0 -> z3 r = 0 -> U_from_r_w r w = 0.
Proof.
  intros X Y Z. unfold U_from_r_w. rewrite X, Y, Z. replace (- x3 r * 0 + y3 r * 0) with 0 by ring.
  cbv zeta. rewrite atan2_00, nlt_false; auto; lra.
Qed.
Lemma RAAN_equatorial w : x3 w = 0 -> y3 w = 0 -> RAAN_from_w w = 0.
Proof.
  intros X Y. unfold RAAN_from_w. rewrite X, Y, Ropp_0. cbv zeta. rewrite atan2_00, nlt_false; auto; lra.
Qed.
Lemma equatorial_flat r v : momentum r v <> zero3 -> equatorial r v -> z3 r = 0.
Proof.
  intros Hm [X Y]. assert (P : dot r (momentum r v) = 0) by (unfold momentum, dot, cross; cbn; ring).
  unfold dot in P. rewrite X, Y in P.
  destruct (Req_dec (z3 (momentum r v)) 0) as [Z|Z].
  - exfalso. apply Hm. apply vec3_eq; auto.
  - assert (z3 r * z3 (momentum r v) = 0) by lra. apply Rmult_integral in H. tauto.
Qed.
Lemma equatorial_unit r v : equatorial r v ->
  let w := scale (/ norm (momentum r v)) (momentum r v) in x3 w = 0 /\ y3 w = 0.
Proof. intros [X Y] w. unfold w, scale; cbn [x3 y3]. rewrite X, Y. split; ring. Qed.

(** Only radius, speed, radial motion and momentum are kept. *)
Lemma equatorial_same s1 s2 :
  let r1 := s_position s1 in let v1 := s_velocity s1 in let r2 := s_position s2 in let v2 := s_velocity s2 in
  s_epoch s1 = s_epoch s2 -> momentum r1 v1 <> zero3 -> equatorial r1 v1 ->
  norm r1 = norm r2 -> norm v1 = norm v2 -> dot r1 v1 = dot r2 v2 -> momentum r1 v1 = momentum r2 v2 ->
  elements_from_ijk s1 = elements_from_ijk s2.
Proof.
  intros r1 v1 r2 v2 Ep Hm Eq Hr Hv Hd Hh. assert (Z1 := equatorial_flat _ _ Hm Eq).
  assert (Z2 : z3 r2 = 0). { apply (equatorial_flat r2 v2); [rewrite <- Hh; auto|]. unfold equatorial. rewrite <- Hh. exact Eq. }
  destruct (equatorial_unit _ _ Eq) as [X Y].
  unfold elements_from_ijk. change v3_magnitude with norm. change v3_dot with dot. change H_from_r_v with momentum.
  fold r1 v1 r2 v2. rewrite <- Hr, <- Hv, <- Hd, <- Hh, <- Ep. cbv zeta.
  rewrite (normalized_ok _ Hm). cbn [bind]. rewrite !(U_equatorial _ _ X Y) by auto. reflexivity.
Qed.
(** A state turned about the polar axis. *)
Definition turned (t : R) (s : state) : state :=
  State (s_epoch s) (rodrigues (V3 0 0 1) (s_position s) t) (rodrigues (V3 0 0 1) (s_velocity s) t).
Lemma equatorial_turned s t :
  momentum (s_position s) (s_velocity s) <> zero3 -> equatorial (s_position s) (s_velocity s) ->
  elements_from_ijk (turned t s) = elements_from_ijk s.
Proof.
  intros Hm Eq. assert (U : dot (V3 0 0 1) (V3 0 0 1) = 1) by (unfold dot; cbn; ring).
  symmetry. apply equatorial_same; cbn [turned s_epoch s_position s_velocity]; auto.
  - unfold norm. rewrite rodrigues_dot by auto. reflexivity.
  - unfold norm. rewrite rodrigues_dot by auto. reflexivity.
  - rewrite rodrigues_dot by auto. reflexivity.
  - unfold momentum in *. rewrite <- rodrigues_cross by auto.
    destruct Eq as [X Y]. unfold momentum in X, Y. set (h := cross _ _) in *.
    replace h with (scale (z3 h) (V3 0 0 1)) by (apply vec3_eq; cbn [scale x3 y3 z3]; lra).
    rewrite rodrigues_axis; auto.
Qed.
Lemma equatorial_position s : let r := s_position s in let v := s_velocity s in
  bound_orbit r v -> equatorial r v -> exists el n s', elements_from_ijk s = Ok el /\
    (forall fuel, (n <= fuel)%nat -> elements_to_ijk fuel el = Ok s') /\
    raan el = 0 /\
    norm (sub (s_position s') (V3 (norm r) 0 0)) <= 1e-24 * semimajor_axis el / (1 - eccentricity el).
Proof.
  intros r v B Eq. destruct (from_ijk_ok s B) as (a & e & x & Sh & E). fold r v in E, Sh.
  destruct (equatorial_unit _ _ Eq) as [X Y].
  set (w := scale _ _) in *. set (el := made s w a e x) in *. assert (Sh' := Sh).
  destruct Sh' as (Ha & He & Hx & _).
  assert (Hm : 0 <= mean_anomaly el < 2 * PI) by (apply MA_range; auto).
  destruct (to_ijk_total el) as (n & s' & T); auto. { assert (P := PI_pos). lra. }
  exists el, n, s'. split; [auto|]. split; [auto|].
  split. { apply RAAN_equatorial; auto. }
  assert (T' := T n (le_n _)).
  destruct (to_ijk_anomaly n el s') as (y & Ky & P1 & P2); auto.
  assert (y = x).
  { assert (Mx : mean_anomaly el = x - e * sin x).
    { unfold el, made. cbn. unfold MA_from_ea_e. assert (Bx := e_sin_bound e x He ltac:(lra)). rewrite nlt_false by lra. reflexivity. }
    destruct (kepler_unique e (mean_anomaly el) He) as (z & _ & U). rewrite <- (U y), <- (U x); auto. }
  subst y. unfold el in P1 at 1. rewrite made_place in P1 by auto. fold r in P1.
  rewrite RAAN_equatorial, U_equatorial in P1 by (auto; apply (equatorial_flat r v); auto; apply B).
  replace (V3 (norm r) 0 0) with (scale (norm r) (along 0 (I_from_w w) 0)); auto.
  unfold along, node, across. rewrite cos_0, sin_0. veq; ring.
Qed.
