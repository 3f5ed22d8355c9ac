(** Proofs about detection, brightness and the manoeuvres of bodies/artificial.py. *)
From Coq Require Import Reals Lra Psatz Lia List Arith ZArith Bool.
From Coquelicot Require Import Coquelicot.
From Verif.Model Require Import Num Constants Linalg Functions Time Celestial Positions States
  Inertial Relative Obs Filtering Constraints Payloads Artificial.
From Verif.Spec Require Import Geometry Operations Sensing.
From Verif.Proofs Require Import NumLemmas LinalgProofs FunctionsProofs CelestialProofs StatesProofs InertialProofs ArtificialProofs.
Import ListNotations.
Local Open Scope R_scope.

(** * Brightness *)
Lemma lit_pos s : 0 < s <= PI -> 0 < sin s - s * cos s.
Proof.
  intros H. destruct (MVT_cor2 (fun x => sin x - x * cos x) (fun x => x * sin x) 0 s ltac:(lra)) as (c & E & C).
  { intros c Hc. apply is_derive_Reals. auto_derive; auto. ring. }
  cbv beta in E. rewrite sin_0, cos_0 in E. assert (0 < sin c) by (apply sin_gt_0; lra).
  assert (0 < c * sin c) by nra. assert (0 < c * sin c * (s - 0)) by nra. lra.
Qed.
Lemma lit_phase s : sin (PI - s) + (PI - (PI - s)) * cos (PI - s) = sin s - s * cos s.
Proof. rewrite sin_PI_x. rewrite Rtrigo_facts.cos_pi_minus. ring. Qed.

Section Pair.
  Variables c t : craft.
  Let d := sub (place_of t) (place_of c).
  Let e := g_epoch (rk_state (propagator c)).
  Let sun := sub (Sun_get_position e) (place_of c).
  Lemma target_vector_is : target_vector c t = d.
  Proof. unfold d. veq; unfold place_of; reflexivity. Qed.
  Lemma sun_vector_is : sc_sun_vector c = sun.
  Proof. reflexivity. Qed.
  Hypothesis Hd : d <> zero3.
  Hypothesis Hs : sun <> zero3.
  Lemma sun_angle_is : exists s, sun_angle c t = Ok s /\ angle_between sun d s.
  Proof.
    unfold sun_angle. rewrite target_vector_is, sun_vector_is. destruct (angle_spec sun d Hs Hd) as (s & E & R & C & _).
    exists s. repeat split; tauto.
  Qed.
  Lemma magnitude_is s : sun_angle c t = Ok s -> 0 < albedo (sc_params c) -> body_radius (sc_params c) <> 0 -> 0 <= s <= PI ->
    (s <> 0 -> visual_magnitude c t = Ok (diffuse_magnitude (albedo (sc_params c)) (body_radius (sc_params c)) (norm d) (PI - s))) /\
    (s = 0 -> visual_magnitude c t = Err ValueError).
  Proof.
    intros E Ha Hr Hs0. unfold visual_magnitude. cbv zeta. rewrite E. cbn [bind]. unfold sc_range. rewrite target_vector_is.
    change (v3_magnitude d) with (norm d). assert (N := norm_pos _ Hd). assert (P := PI_RGT_0).
    set (a := albedo (sc_params c)) in *. set (r := body_radius (sc_params c)) in *. set (n := norm d) in *. clearbody a r n.
    assert (R2 : 0 < r * r) by nra.
    assert (K : 0 < PI * n * n) by (apply Rmult_lt_0_compat; [apply Rmult_lt_0_compat|]; auto).
    rewrite pdiv_ok by lra. cbn [bind]. rewrite lit_phase.
    assert (Q : 0 < 2 / 3 * a * r * r / (PI * n * n)).
    { apply Rdiv_pos; auto. rewrite (Rmult_assoc (2 / 3 * a)). apply Rmult_lt_0_compat; auto. lra. }
    split.
    - intros Ns. assert (L := lit_pos s ltac:(lra)). unfold plog10. destruct (nle_spec (2 / 3 * a * r * r / (PI * n * n) * (sin s - s * cos s)) 0) as [X|X].
      { exfalso. assert (0 < 2 / 3 * a * r * r / (PI * n * n) * (sin s - s * cos s)) by (apply Rmult_lt_0_compat; auto). lra. }
      cbn [bind]. apply f_equal. unfold diffuse_magnitude, log10. rewrite lit_phase.
      replace (2 / 3 * a * r ^ 2 / (PI * n ^ 2)) with (2 / 3 * a * r * r / (PI * n * n)) by (field; lra). reflexivity.
    - intros ->. rewrite sin_0, cos_0. unfold plog10. replace (2 / 3 * a * r * r / (PI * n * n) * (0 - 0 * 1)) with 0 by ring.
      destruct (nle_spec 0 0); [reflexivity|lra].
  Qed.
End Pair.

Lemma magnitude_fades a r n k phi : 0 < a -> r <> 0 -> 0 < n -> 0 < k -> 0 <= phi < PI ->
  diffuse_magnitude a r (k * n) phi = diffuse_magnitude a r n phi + 5 * log10 k.
Proof.
  intros Ha Hr Hn Hk Hp. unfold diffuse_magnitude, log10. assert (P := PI_RGT_0).
  assert (L := lit_pos (PI - phi) ltac:(lra)). rewrite <- lit_phase in L. replace (PI - (PI - phi)) with phi in L by ring.
  set (q := sin phi + (PI - phi) * cos phi) in *. clearbody q. assert (R2 : 0 < r * r) by nra.
  assert (N2 : 0 < n * n) by nra. assert (K2 : 0 < k * k) by nra.
  assert (B : 0 < 2 / 3 * a * r ^ 2 / (PI * n ^ 2) * q).
  { apply Rmult_lt_0_compat; auto. apply Rdiv_pos; [|apply Rmult_lt_0_compat; [auto|nra]].
    replace (2 / 3 * a * r ^ 2) with (2 / 3 * a * (r * r)) by ring. apply Rmult_lt_0_compat; lra. }
  replace (2 / 3 * a * r ^ 2 / (PI * (k * n) ^ 2) * q) with (2 / 3 * a * r ^ 2 / (PI * n ^ 2) * q * / (k * k)) by (field; lra).
  rewrite ln_mult; [|exact B|apply Rinv_0_lt_compat; exact K2]. rewrite ln_Rinv by auto. rewrite (ln_mult k k) by auto.
  assert (0 < ln 10) by (rewrite <- ln_1; apply ln_increasing; lra).
  generalize dependent (ln (2 / 3 * a * r ^ 2 / (PI * n ^ 2) * q)). intros x. generalize (ln k). intros y.
  generalize dependent (ln 10). intros z Hz. replace ((x + - (y + y)) / z) with (x / z - 2 * (y / z)) by (field; lra). lra.
Qed.

(** * Detection *)
Lemma detect_spec c t : let e := g_epoch (rk_state (propagator c)) in let p := place_of c in let d := sub (place_of t) p in
  let L := limits (wfov c) in
  p <> zero3 -> norm p < 356096 -> d <> zero3 -> body_z c <> zero3 ->
  0 < albedo (sc_params c) -> body_radius (sc_params c) <> 0 -> 0 < sun_soft L ->
  exists moon s ea m ba b, Moon_get_position e = Ok moon /\
    angle_between (sub (Sun_get_position e) p) d s /\ angle_between (sub zero3 p) d ea /\
    angle_between (sub moon p) d m /\ angle_between (body_z c) d ba /\
    detect c t = Ok b /\
    (b = true <-> sun_soft L <= s /\ lim_earth L <= ea /\ lim_moon L <= m /\
       diffuse_magnitude (albedo (sc_params c)) (body_radius (sc_params c)) (norm d) (PI - s) <= vismag L /\ ba <= bore L).
Proof.
  intros e p d L Hp Hn Hd Hz Ha Hr Hs.
  assert (Dt : target_vector c t = d) by (unfold d, p; veq; reflexivity).
  destruct (Sun_norm e) as [Bs _]. destruct (apart _ _ p Bs ltac:(lra)) as [_ Ns].
  destruct (Moon_norm e) as (moon & Em & Bm). destruct (apart _ _ p (proj1 Bm) Hn) as [_ Nm].
  assert (Ne : sub zero3 p <> zero3).
  { intros X. apply Hp. assert (Y := f_equal (scale (-1)) X). transitivity (scale (-1) (sub zero3 p)); [veq; ring|rewrite Y; veq; ring]. }
  destruct (sun_angle_is c t Hd Ns) as (s & Es & As).
  destruct (angle_spec (sub zero3 p) d Ne Hd) as (ea & Ee & Re & Ce & _).
  destruct (angle_spec (sub moon p) d Nm Hd) as (m & Emm & Rm & Cm & _).
  destruct (angle_spec (body_z c) d Hz Hd) as (ba & Eb & Rb & Cb & _).
  exists moon, s, ea, m, ba.
  destruct (magnitude_is c t Hd s Es Ha Hr (proj1 As)) as [Mg _].
  fold e p d in As. fold p d in Mg.
  set (mag := diffuse_magnitude _ _ _ _) in *.
  set (b := andb (negb (nlt s (sun_soft L))) (andb (negb (nlt ea (lim_earth L))) (andb (negb (nlt m (lim_moon L)))
       (andb (negb (nlt (vismag L) mag)) (negb (nlt (bore L) ba)))))).
  exists b. split; [exact Em|]. split; [exact As|]. split; [split; [exact Re|exact Ce]|]. split; [split; [exact Rm|exact Cm]|]. split; [split; [exact Rb|exact Cb]|].
  split.
  - unfold detect. cbv zeta. fold L. rewrite Es. cbn [bind]. unfold b. destruct (nlt_spec s (sun_soft L)) as [X|X]; [reflexivity|]. cbn [negb andb].
    unfold earth_angle. replace (earth_vector c) with (sub zero3 p) by (unfold earth_vector; rewrite v3_scaled_scale; unfold p; veq; unfold place_of; cbn; ring).
    rewrite Dt, Ee. cbn [bind]. destruct (nlt ea (lim_earth L)); [reflexivity|]. cbn [negb andb].
    unfold moon_angle, sc_moon_vector, gcrf_moon_vector. change (g_epoch (current_state c)) with e. rewrite Em. cbn [bind].
    change (v3_minus moon (g_position (current_state c))) with (sub moon p). rewrite Dt, Emm. cbn [bind].
    destruct (nlt m (lim_moon L)); [reflexivity|]. cbn [negb andb].
    rewrite Mg by lra. cbn [bind]. destruct (nlt (vismag L) mag); [reflexivity|]. cbn [negb andb].
    rewrite Eb. cbn [bind]. destruct (nlt (bore L) ba); reflexivity.
  - unfold b. rewrite !andb_true_iff, !negb_true_iff.
    assert (N : forall x y, nlt x y = false <-> y <= x) by (intros x y; destruct (nlt_spec x y); split; intros; try discriminate; auto; lra).
    rewrite !N. tauto.
Qed.

(** * Impulsive manoeuvres *)
Lemma frame_components o u : ~ radial_orbit o -> ric_components (g_position o) (g_velocity o) u (apply3 (transposed (frame o)) u).
Proof.
  intros N. assert (Hp := nonradial_pos o N). assert (Np := norm_pos _ Hp). assert (Nh := norm_pos _ N).
  unfold ric_components, frame, radial_orbit in *. cbv zeta. set (r := g_position o) in *. set (v := g_velocity o) in *.
  assert (O : dot r (cross r v) = 0) by (vunf; ring).
  set (h := cross r v) in *. assert (Sr := norm_sq r). assert (Sh := norm_sq h).
  assert (Nt : norm (cross h r) = norm h * norm r).
  { apply sqrt_eq; [nra|]. replace (dot (cross h r) (cross h r)) with (dot h h * dot r r - dot r h * dot r h) by (vunf; ring).
    rewrite O, <- Sr, <- Sh. ring. }
  assert (a1 : / norm r * norm r = 1) by (field; lra). assert (b1 : / norm h * norm h = 1) by (field; lra).
  rewrite Nt. set (a := / norm r) in *. set (b := / norm h) in *. set (nr := norm r) in *. set (nh := norm h) in *.
  clearbody a b nr nh h. repeat split.
  - transitivity (x3 u * a * dot r r + z3 u * b * dot r h); [vunf; ring|]. rewrite O, <- Sr. transitivity (x3 u * nr * (a * nr)); [ring|rewrite a1; ring].
  - transitivity (y3 u * a * b * (dot h h * dot r r - dot r h * dot r h)); [vunf; ring|]. rewrite O, <- Sr, <- Sh.
    transitivity (y3 u * (nh * nr) * (a * nr) * (b * nh)); [ring|rewrite a1, b1; ring].
  - transitivity (x3 u * a * dot r h + z3 u * b * dot h h); [vunf; ring|]. rewrite O, <- Sh. transitivity (z3 u * nh * (b * nh)); [ring|rewrite b1; ring].
Qed.
Lemma components_unique r v u d1 d2 : cross r v <> zero3 -> ric_components r v u d1 -> ric_components r v u d2 -> d1 = d2.
Proof.
  intros N (A1 & A2 & A3) (B1 & B2 & B3). assert (Hr : r <> zero3) by (intros ->; apply N; veq; ring).
  rewrite <- B1 in A1. rewrite <- B2 in A2. rewrite <- B3 in A3. set (h := cross r v) in *.
  assert (O : dot r h = 0) by (unfold h; vunf; ring). clearbody h.
  assert (Nr := norm_pos _ Hr). assert (Nh := norm_pos _ N). assert (Sr := norm_sq r). assert (Sh := norm_sq h).
  set (d := sub d1 d2). assert (D1 : dot d r = 0) by (unfold d; vunf; lra). assert (D2 : dot d (cross h r) = 0) by (unfold d; vunf; lra).
  assert (D3 : dot d h = 0) by (unfold d; vunf; lra).
  assert (Z : d = zero3).
  { apply dot_self_zero. clearbody d. clear -D1 D2 D3 O Nr Nh Sr Sh.
    assert (E : dot d d * (dot h h * dot r r - dot r h * dot r h) = dot d (cross h r) * dot d (cross h r) + dot d h * dot d h * dot r r + dot d r * dot d r * dot h h - 2 * dot d h * dot d r * dot r h).
    { destruct d, h, r. vunf. ring. }
    rewrite D1, D2, D3, O, <- Sr, <- Sh in E. assert (0 < (norm h * norm h) * (norm r * norm r)) by (apply Rmult_lt_0_compat; nra). nra. }
  unfold d in Z. clear - Z. destruct d1, d2. vunf. injection Z as Z1 Z2 Z3. f_equal; lra.
Qed.
Lemma hcw_zero e u o : ~ radial_orbit o ->
  hcw_to_gcrf (State e zero3 u) o = Ok (GCRF (g_epoch o) (g_position o) (add (g_velocity o) (apply3 (transposed (frame o)) u))).
Proof.
  intros N. rewrite hcw_to_gcrf_ok by exact N. cbv zeta. cbn [s_position s_velocity zero3 x3 y3 z3].
  assert (Np := norm_pos _ (nonradial_pos _ N)). assert (Fp := frame_position o N). assert (Fv := frame_velocity o N).
  assert (R := frame_rotation o N).
  assert (Ip : apply3 (transposed (frame o)) (apply3 (frame o) (g_position o)) = g_position o) by (apply transposed_inverse; auto).
  assert (Iv : apply3 (transposed (frame o)) (apply3 (frame o) (g_velocity o)) = g_velocity o) by (apply transposed_inverse; auto).
  set (r := norm (g_position o)) in *. replace (0 / r) with 0 by (field; lra). rewrite sin_0, cos_0.
  replace (V3 (1 * (r + 0) * 1) (1 * (r + 0) * 0) (0 * (r + 0))) with (apply3 (frame o) (g_position o)) by (rewrite Fp; veq; ring).
  rewrite Ip. apply f_equal, f_equal.
  transitivity (add (apply3 (transposed (frame o)) (apply3 (frame o) (g_velocity o))) (apply3 (transposed (frame o)) u)); [|rewrite Iv; reflexivity].
  rewrite Fv. cbn [x3 y3 z3].
  set (M := transposed (frame o)) in *. clearbody M. clear - Np. clearbody r.
  generalize dependent (dot (g_position o) (g_velocity o) / r). intros p.
  generalize dependent (norm (cross (g_position o) (g_velocity o)) / r). intros q.
  destruct M as [[? ? ?] [? ? ?] [? ? ?]], u as [ux uy uz].
  unfold rsw_sez_matrix. veq; field; lra.
Qed.
Lemma impulse_ok i u w c : nth_error w i = Some c -> cross (place_of c) (motion_of c) <> zero3 -> exists dv,
  ric_components (place_of c) (motion_of c) u dv /\
  impulsive_maneuver i u w = (set_nth w i (set_propagator c (RK4 (GCRF (g_epoch (rk_state (propagator c))) (place_of c) (add (motion_of c) dv)))), Ok tt).
Proof.
  intros E N. exists (apply3 (transposed (frame (current_state c))) u).
  assert (N' : ~ radial_orbit (current_state c)) by exact N.
  split; [apply (frame_components (current_state c)); auto|].
  unfold impulsive_maneuver. rewrite E. change (V3 0 0 0) with zero3. rewrite hcw_zero by exact N'. reflexivity.
Qed.
Lemma hcw_radial h o : radial_orbit o -> hcw_to_gcrf h o = Err ZeroDivisionError.
Proof. intros H. unfold hcw_to_gcrf. rewrite frame_err by auto. reflexivity. Qed.
Lemma impulse_err i u w c : nth_error w i = Some c -> cross (place_of c) (motion_of c) = zero3 ->
  impulsive_maneuver i u w = (w, Err ZeroDivisionError).
Proof. intros E N. unfold impulsive_maneuver. rewrite E, hcw_radial by exact N. reflexivity. Qed.

(** * Finite manoeuvres *)
Lemma finite_direction c u T : cross (place_of c) (motion_of c) <> zero3 ->
  burn_duration (norm u) (sc_m_dot (sc_params c)) (total_mass (sc_params c)) (sc_isp (sc_params c)) = Ok T ->
  thrust_direction (propagator (fst (craft_finite_maneuver c u))) = apply3 (frame (current_state c)) u.
Proof.
  intros N B. assert (N' : ~ radial_orbit (current_state c)) by exact N. assert (R := frame_rotation _ N').
  unfold craft_finite_maneuver. rewrite frame_ok by exact N'. cbv zeta. spec_ops. set (d := apply3 _ u).
  assert (Nd : norm d = norm u) by (apply rotation_norm; auto).
  unfold rk4_maneuver. change v3_magnitude with norm. rewrite Nd, B.
  match goal with |- context [rk4_step_to_epoch ?p ?e] => set (p0 := p) end.
  assert (D : thrust_direction p0 = d) by (unfold p0; cbn [thrust_direction set_thruster]; apply v3_copy_id).
  destruct (rk4_step_to_epoch p0 _) as [q [[]|x]] eqn:S.
  - apply step_to_epoch_lands in S. destruct S as [_ S]. cbv iota.
    destruct (finite_dt _ _ _ _); cbn [fst propagator set_params set_propagator set_thruster_off thrust_direction]; rewrite <- D; symmetry; apply S.
  - apply step_to_epoch_err in S. cbn [fst propagator set_propagator]. rewrite <- D.
    destruct S as (n & k & r & _ & _ & S). cbv zeta in S. apply S.
Qed.

Lemma finite_dt_opposite dv md m i : finite_dt dv md m i = match burn_duration dv md m i with Ok T => Ok (- T) | Err e => Err e end.
Proof.
  unfold finite_dt, burn_duration. unfold pdiv at 1 4. destruct (neq m 0); [reflexivity|]. cbn [bind].
  set (k := md / m). unfold pdiv at 1 3. destruct (neq k 0); [reflexivity|]. cbn [bind].
  destruct (pdiv (k * dv) _) as [ex|x]; [|reflexivity]. cbn [bind]. apply f_equal. generalize (nexp ex). intros y. unfold Rdiv. ring.
Qed.
Lemma finite_ok c u c' : craft_finite_maneuver c u = (c', Ok tt) ->
  exists T, burn_duration (norm u) (sc_m_dot (sc_params c)) (total_mass (sc_params c)) (sc_isp (sc_params c)) = Ok T /\
    value (g_epoch (rk_state (propagator c'))) = value (g_epoch (rk_state (propagator c))) + T / 86400 /\
    propellant_mass (sc_params c') = propellant_mass (sc_params c) + sc_m_dot (sc_params c) * T /\
    dry_mass (sc_params c') = dry_mass (sc_params c) /\ cross (place_of c) (motion_of c) <> zero3.
Proof.
  unfold craft_finite_maneuver. intros H. destruct (vec3_zero_dec (cross (place_of c) (motion_of c))) as [Z|N].
  { exfalso. rewrite frame_err in H by exact Z. discriminate. }
  assert (N' : ~ radial_orbit (current_state c)) by exact N. rewrite frame_ok in H by exact N'. cbv zeta in H.
  assert (Nd : norm (apply3 (frame (current_state c)) u) = norm u) by (apply rotation_norm, frame_rotation; auto).
  change m3_multiply_vector with apply3 in H. change v3_magnitude with norm in H. rewrite Nd in H.
  destruct (rk4_maneuver _ _ _ _ _) as [p [[]|x]] eqn:M; [|discriminate].
  apply maneuver_ok in M. destruct M as (T & B & V & _). rewrite Nd in B.
  rewrite finite_dt_opposite, B in H. injection H as <-. exists T. repeat split; auto.
  cbn [sc_params set_params set_propagator set_propellant propellant_mass]. ring.
Qed.
