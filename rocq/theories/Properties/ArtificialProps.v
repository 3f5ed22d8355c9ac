(** Properties of bodies/artificial.py (C35, C60 - C69). *)
From Coq Require Import Reals Lra Psatz Lia List Arith.
From Verif.Model Require Import Num Constants Linalg Functions Time Celestial Positions States
  Inertial Relative Constraints Payloads Artificial.
From Verif.Spec Require Import Geometry Operations Sensing.
From Verif.Proofs Require Import NumLemmas LinalgProofs CelestialProofs StatesProofs InertialProofs SafeStep
  ArtificialProofs SensorProofs TrackingProofs.
Import ListNotations.
Local Open Scope R_scope.

(** * C35 Solar radiation pressure is never applied to a spacecraft *)

(** Whatever was done, and whether it returned or raised, the propagated state
    of every spacecraft has scalar 0, and the SRP acceleration is null. *)
Theorem C35_srp_never_applied : forall w i c, reachable w -> nth_error w i = Some c ->
  g_srp_scalar (rk_state (propagator c)) = 0 /\
  (forall a, acceleration_from_srp (rk_state (propagator c)) = Ok a -> a = zero3).
Proof.
  intros w i c R E. assert (F := reachable_keeps _ w no_srp_closed R). assert (H := nth_forall _ w i c F E).
  split; [exact H|]. intros a. apply srp_zero. exact H.
Qed.
Print Assumptions C35_srp_never_applied.

(** although the scalar of a craft with positive mass is computed as 1 + albedo
    times the cross-section in square metres over the mass in kilograms, *)
Theorem C35_scalar : forall p, 0 < dry_mass p + propellant_mass p -> exists k, srp_scalar p = Ok k /\
  k * (dry_mass p + propellant_mass p) = (1 + albedo p) * (PI * (1000 * body_radius p) ^ 2).
Proof.
  intros p H. unfold srp_scalar, total_mass. rewrite pdiv_ok by lra. eexists. split; [reflexivity|].
  unfold area, BASE_IN_KILO. field. lra.
Qed.
Print Assumptions C35_scalar.

(** and stored by the constructor: 1.3 times a disc of 5 m over 800 kg. *)
Theorem C35_scalar_computed : forall s c, Spacecraft s = Ok c -> 0 < g_srp_scalar (initial_state c) /\
  g_srp_scalar (initial_state c) * 800 = 1.3 * (PI * 5 ^ 2).
Proof.
  intros s c H. assert (K := H). apply Spacecraft_inv in H. destruct H as (k & w & n & _ & _ & P & ->). split; [exact P|].
  unfold Spacecraft in K. destruct Camera_wfov as [w'|]; [|discriminate]. destruct Camera_nfov as [n'|]; [|discriminate]. cbn [bind] in K.
  match type of K with context [srp_scalar ?p] => destruct (C35_scalar p) as [k' [E V]]; [cbn; unfold DEFAULT_MASS, DEFAULT_PROP_MASS; lra|] end.
  rewrite E in K. cbn [bind] in K. unfold update_slew, attitude_lvlh, set_body in K. cbn [slewing initial_state] in K. injection K. intros.
  cbn. replace k with k' by congruence. cbn in V. unfold DEFAULT_MASS, DEFAULT_PROP_MASS, DEFAULT_ALBEDO, DEFAULT_RADIUS in V. assert (PD := PI_RGT_0). lra.
Qed.
Print Assumptions C35_scalar_computed.

(** Albedo, radius, mass and every other scalar attribute have no influence on
    how any number of spacecraft move, on the exceptions raised, or on their
    attitude. *)
Theorem C35_size_ignored : forall fuel i w v, same_but_params w v ->
  (forall w' r, sc_step fuel i w = (w', r) -> exists v', sc_step fuel i v = (v', r) /\ same_but_params w' v') /\
  (forall e w' r, sc_step_to_epoch fuel i e w = (w', r) -> exists v', sc_step_to_epoch fuel i e v = (v', r) /\ same_but_params w' v').
Proof. intros fuel i w v H. split; [intros w' r; exact (step_twin fuel i w v w' r H)|intros e w' r; exact (step_to_twin fuel i e w v w' r H)]. Qed.
Print Assumptions C35_size_ignored.

(** a reachable world with a spacecraft, a constructed spacecraft, and a pair of
    stores differing in the masses *)
Example C35_example : exists c, let s := GCRF j2000 (V3 42164 0 0) (V3 0 3.07 0) in
  reachable [c] /\ Spacecraft s = Ok c /\ same_but_params [c] [set_params c (Params 1 1 1 1 1 1 1 1)].
Proof.
  destruct (Spacecraft_ok (GCRF j2000 (V3 42164 0 0) (V3 0 3.07 0))) as (c & E & _). exists c. cbv zeta. split; [|split; [exact E|]].
  - apply (reach_op 0 (New (GCRF j2000 (V3 42164 0 0) (V3 0 3.07 0))) [] [c] (Ok tt)); [constructor|]. cbn [run_op]. rewrite E. reflexivity.
  - constructor; [reflexivity|constructor].
Qed.

(** * C60 Detection is the conjunction of the sensor constraints and never raises *)
Theorem C60_detection : forall c t,
  let e := g_epoch (rk_state (propagator c)) in let p := place_of c in let d := sub (place_of t) p in
  let L := limits (wfov c) in
  p <> zero3 -> norm p < 356096 -> d <> zero3 -> body_z c <> zero3 ->
  0 < albedo (sc_params c) -> body_radius (sc_params c) <> 0 -> 0 < sun_soft L ->
  exists moon sun_a earth_a moon_a bore_a b, Moon_get_position e = Ok moon /\
    angle_between (sub (Sun_get_position e) p) d sun_a /\ angle_between (sub zero3 p) d earth_a /\
    angle_between (sub moon p) d moon_a /\ angle_between (body_z c) d bore_a /\
    detect c t = Ok b /\
    (b = true <-> sun_soft L <= sun_a /\ lim_earth L <= earth_a /\ lim_moon L <= moon_a /\
       diffuse_magnitude (albedo (sc_params c)) (body_radius (sc_params c)) (norm d) (PI - sun_a) <= vismag L /\
       bore_a <= bore L).
Proof. exact detect_spec. Qed.
Print Assumptions C60_detection.

(** For spacecraft with the attributes the constructor gives them, only the
    positions matter. *)
Theorem C60_never_raises : forall s1 s2 c t, Spacecraft s1 = Ok c -> Spacecraft s2 = Ok t ->
  g_position s1 <> zero3 -> norm (g_position s1) < 356096 -> g_position s2 <> g_position s1 ->
  exists b, detect c t = Ok b.
Proof.
  intros s1 s2 c t E1 E2 N L D.
  destruct (Spacecraft_ok s1) as (c' & E1' & P1 & _ & _ & _ & _ & Z & Q & S). rewrite E1 in E1'. injection E1' as <-.
  destruct (Spacecraft_ok s2) as (t' & E2' & P2 & _). rewrite E2 in E2'. injection E2' as <-.
  assert (p1 : place_of c = g_position s1) by (unfold place_of; rewrite P1; reflexivity).
  assert (p2 : place_of t = g_position s2) by (unfold place_of; rewrite P2; reflexivity).
  assert (K := detect_spec c t). cbv zeta in K. rewrite p1, p2, Z, Q, S in K. cbn [albedo body_radius] in K.
  destruct K as (m & a1 & a2 & a3 & a4 & b & _ & _ & _ & _ & _ & K & _); eauto; try lra.
  - intros X. apply D. assert (Y := f_equal (add (g_position s1)) X). transitivity (add (g_position s1) (sub (g_position s2) (g_position s1))); [veq; ring|]. rewrite Y. veq; ring.
  - intros X. apply N. assert (Y := f_equal (scale (-1)) X). transitivity (scale (-1) (sub zero3 (g_position s1))); [veq; ring|]. rewrite Y. veq; ring.
  - assert (P := PI_RGT_0). lra.
Qed.
Print Assumptions C60_never_raises.
Example C60_example : exists c t, let s := GCRF j2000 (V3 42164 0 0) (V3 0 3.07 0) in let s' := GCRF j2000 (V3 42164 1000 0) (V3 0 3.07 0) in
  Spacecraft s = Ok c /\ Spacecraft s' = Ok t /\ g_position s <> zero3 /\ norm (g_position s) < 356096 /\ g_position s' <> g_position s /\
  body_z c <> zero3 /\ 0 < albedo (sc_params c) /\ body_radius (sc_params c) <> 0 /\ 0 < sun_soft (limits (wfov c)).
Proof.
  destruct (Spacecraft_ok (GCRF j2000 (V3 42164 0 0) (V3 0 3.07 0))) as (c & E & _ & _ & _ & _ & _ & Z & Q & S).
  destruct (Spacecraft_ok (GCRF j2000 (V3 42164 1000 0) (V3 0 3.07 0))) as (t & E' & _).
  exists c, t. cbv zeta. cbn [GCRF g_position]. rewrite Z, Q, S, norm_x by lra. assert (P := PI_RGT_0). cbn [albedo body_radius].
  repeat split; auto; try lra; try (intros X; vunf; inversion X; lra).
Qed.

(** * C61 Visual magnitude *)

(** Defined exactly when the target is not exactly towards the Sun; it is then
    the magnitude of a diffuse sphere of the *observer's* size. *)
Theorem C61_defined : forall c t s,
  let e := g_epoch (rk_state (propagator c)) in let d := sub (place_of t) (place_of c) in
  let sun := sub (Sun_get_position e) (place_of c) in
  d <> zero3 -> sun <> zero3 -> angle_between sun d s ->
  0 < albedo (sc_params c) -> body_radius (sc_params c) <> 0 ->
  (s <> 0 -> visual_magnitude c t = Ok (diffuse_magnitude (albedo (sc_params c)) (body_radius (sc_params c)) (norm d) (PI - s))) /\
  (s = 0 -> visual_magnitude c t = Err ValueError).
Proof.
  intros c t s e d sun Hd Hs A Ha Hr. destruct (sun_angle_is c t Hd Hs) as (s' & E & A').
  fold e d sun in A'.
  assert (s' = s).
  { destruct A as [R C], A' as [R' C']. assert (N1 := norm_pos _ Hd). assert (N2 := norm_pos _ Hs).
    assert (K : 0 < norm sun * norm d) by nra. rewrite <- C in C'. apply Rmult_eq_reg_l in C'; [|lra]. apply cos_inj; auto. }
  subst s'. exact (magnitude_is c t Hd s E Ha Hr (proj1 A)).
Qed.
Print Assumptions C61_defined.

(** At [k] times the range, in the same direction, it is [5 log10 k] fainter. *)
Theorem C61_fades : forall c t t' k, let e := g_epoch (rk_state (propagator c)) in
  let d := sub (place_of t) (place_of c) in let sun := sub (Sun_get_position e) (place_of c) in
  d <> zero3 -> sun <> zero3 -> 0 < k -> sub (place_of t') (place_of c) = scale k d ->
  0 < albedo (sc_params c) -> body_radius (sc_params c) <> 0 ->
  forall m, visual_magnitude c t = Ok m -> visual_magnitude c t' = Ok (m + 5 * log10 k).
Proof.
  intros c t t' k e d sun Hd Hs Hk Ht Ha Hr m Hm. assert (Nd := norm_pos _ Hd).
  destruct (angle_spec sun d Hs Hd) as (s & _ & Rs & Cs & _).
  assert (Nk : norm (scale k d) = k * norm d) by (rewrite norm_scale, Rabs_pos_eq; lra).
  assert (Hd' : sub (place_of t') (place_of c) <> zero3). { rewrite Ht. intros X. apply norm_zero in X. rewrite Nk in X. nra. }
  destruct (C61_defined c t s) as [A1 A2]; auto; [split; auto|].
  destruct (C61_defined c t' s) as [B1 _]; auto.
  { split; auto. fold e sun. rewrite Ht, Nk. transitivity (k * dot sun d); [rewrite <- Cs; ring|vunf; ring]. }
  fold d in A1. destruct (Req_dec s 0) as [->|N]; [rewrite A2 in Hm by auto; discriminate|].
  rewrite A1 in Hm by auto. rewrite B1 by auto. injection Hm as <-. rewrite Ht, Nk. apply f_equal. apply magnitude_fades; auto. lra.
Qed.
Print Assumptions C61_fades.

(** It never depends on the target's radius, albedo or any other attribute of
    the target but its position. *)
Theorem C61_target_ignored : forall c t t', place_of t' = place_of t -> visual_magnitude c t' = visual_magnitude c t.
Proof.
  intros c t t' H. assert (D : target_vector c t' = target_vector c t).
  { unfold target_vector, sc_position. rewrite !v3_copy_id. change (g_position (current_state t')) with (place_of t'). rewrite H. reflexivity. }
  unfold visual_magnitude, sc_range, sun_angle. rewrite D. reflexivity.
Qed.
Print Assumptions C61_target_ignored.

(** The observer's own radius is used instead: a larger observer sees every
    target brighter. *)
Theorem C61_observer_radius : forall c t p m, albedo p = albedo (sc_params c) ->
  0 < albedo p -> 0 < body_radius (sc_params c) < body_radius p ->
  visual_magnitude c t = Ok m -> exists m', visual_magnitude (set_params c p) t = Ok m' /\ m' < m.
Proof.
  intros c t p m Ea Ha Hr H. unfold visual_magnitude in *. cbv zeta in *. change (sun_angle (set_params c p) t) with (sun_angle c t).
  change (sc_range (set_params c p) t) with (sc_range c t). cbn [sc_params set_params]. rewrite Ea in *.
  apply bind_ok in H. destruct H as (s & -> & H). cbn [bind]. apply bind_ok in H. destruct H as (q & Q & H).
  apply pdiv_inv in Q. destruct Q as [N ->]. rewrite pdiv_ok by auto. cbn [bind].
  apply bind_ok in H. destruct H as (lg & G & H). injection H as <-.
  set (a := albedo (sc_params c)) in *. set (r := body_radius (sc_params c)) in *. set (r' := body_radius p) in *.
  set (x := PI * sc_range c t * sc_range c t) in *. set (f := sin _ + _) in *.
  assert (P : 0 < x). { unfold x in *. assert (P := PI_RGT_0). assert (0 <= sc_range c t * sc_range c t) by nra. rewrite Rmult_assoc in *. nra. }
  clearbody a r r' x f. unfold plog10 in *.
  assert (L10 : 0 < ln 10) by (rewrite <- ln_1; apply ln_increasing; lra).
  destruct (nle_spec (2 / 3 * a * r * r / x * f) 0) as [Y|Y]; [discriminate|]. injection G as <-.
  assert (W : 2 / 3 * a * r' * r' / x * f = (r' * r') / (r * r) * (2 / 3 * a * r * r / x * f)) by (field; split; nra).
  assert (K : 1 < r' * r' / (r * r)). { apply Rmult_lt_reg_r with (r * r); [nra|]. unfold Rdiv. rewrite Rmult_assoc, Rinv_l by nra. nra. }
  rewrite W. set (y := 2 / 3 * a * r * r / x * f) in *. set (k := r' * r' / (r * r)) in *. clearbody y k.
  destruct (nle_spec (k * y) 0) as [Z|Z]; [nra|]. cbn [bind]. eexists. split; [reflexivity|].
  assert (ln y < ln (k * y)) by (apply ln_increasing; nra).
  assert (ln y / ln 10 < ln (k * y) / ln 10) by (apply Rmult_lt_compat_r; [apply Rinv_0_lt_compat; auto|auto]). lra.
Qed.
Print Assumptions C61_observer_radius.

(** a spacecraft with the default attributes and a target at a right angle to
    the Sun: the hypotheses of the theorems above hold *)
Example C61_example : exists c t t' s m, let e := g_epoch (rk_state (propagator c)) in
  let d := sub (place_of t) (place_of c) in let sun := sub (Sun_get_position e) (place_of c) in
  d <> zero3 /\ sun <> zero3 /\ angle_between sun d s /\ s <> 0 /\ 0 < albedo (sc_params c) /\ body_radius (sc_params c) <> 0 /\
  sub (place_of t') (place_of c) = scale 2 d /\ visual_magnitude c t = Ok m.
Proof.
  set (p := V3 42164 0 0). set (sun := sub (Sun_get_position j2000) p).
  assert (Hs : sun <> zero3).
  { destruct (Sun_norm j2000) as [Bs _]. apply (apart _ _ p Bs). unfold p. rewrite norm_x by lra. lra. }
  set (d := scale (-1) sun). assert (Ns := norm_pos _ Hs).
  assert (Hd : d <> zero3). { intros X. apply Hs. transitivity (scale (-1) d); [unfold d; veq; ring|rewrite X; veq; ring]. }
  destruct (Spacecraft_ok (GCRF j2000 p (V3 0 3.07 0))) as (c & _ & P & _ & _ & _ & _ & _ & Q & _).
  destruct (Spacecraft_ok (GCRF j2000 (add p d) (V3 0 3.07 0))) as (t & _ & P' & _).
  destruct (Spacecraft_ok (GCRF j2000 (add p (scale 2 d)) (V3 0 3.07 0))) as (t' & _ & P'' & _).
  assert (p1 : place_of c = p) by (unfold place_of; rewrite P; reflexivity).
  assert (p2 : place_of t = add p d) by (unfold place_of; rewrite P'; reflexivity).
  assert (p3 : place_of t' = add p (scale 2 d)) by (unfold place_of; rewrite P''; reflexivity).
  assert (e1 : g_epoch (rk_state (propagator c)) = j2000) by (rewrite P; reflexivity).
  assert (D1 : sub (place_of t) (place_of c) = d) by (rewrite p1, p2; veq; ring).
  assert (A : angle_between sun d PI).
  { split; [assert (X := PI_RGT_0); lra|]. unfold d. rewrite norm_scale, cos_PI. replace (Rabs (-1)) with 1 by (rewrite Rabs_left; lra).
    transitivity (- (norm sun * norm sun)); [ring|]. rewrite norm_sq. vunf; ring. }
  exists c, t, t', PI. cbv zeta. rewrite e1, D1, p1, p3. fold sun.
  destruct (C61_defined c t PI) as [M _]; rewrite ?e1, ?D1, ?p1; auto; try (rewrite Q; cbn [albedo body_radius]; lra).
  eexists. repeat split; auto; try (rewrite Q; cbn [albedo body_radius]; lra); try apply A.
  - assert (X := PI_RGT_0). lra.
  - veq; ring.
  - apply M. assert (X := PI_RGT_0). lra.
Qed.

(** * C62 Attitude axes *)
Theorem C62_axes : forall w i c, reachable w -> nth_error w i = Some c -> axes_ok c.
Proof. intros w i c R E. exact (nth_forall _ w i c (reachable_keeps _ w axes_closed R) E). Qed.
Print Assumptions C62_axes.

(** After every completed call of one of the methods that update the attitude,
    the boresight points where the steering mode says. *)
Theorem C62_points : forall fuel o i w w', run_op fuel o w = (w', Ok tt) ->
  (o = Step i \/ (exists e, o = StepTo i e) \/ o = TrackLvlh i \/ o = TrackSun i \/ (exists j, o = TrackState i j) \/
   o = UpdateAttitude i \/ (exists j, o = Acquire i j)) ->
  exists c, nth_error w' i = Some c /\ points w' c.
Proof.
  assert (Up : forall fuel i w w', update_attitude fuel i w = (w', Ok tt) -> exists c, nth_error w' i = Some c /\ points w' c).
  { intros fuel i w w' U. destruct (nth_error w i) as [c|] eqn:E.
    - destruct (update_spec fuel i w c w' (Ok tt) E U) as [[_ _ _ _ D] _]. destruct (D eq_refl) as (c' & E' & _ & P & _). eauto.
    - destruct fuel; cbn in U; rewrite ?E in U; discriminate. }
  assert (St : forall fuel i w cr w', store_and_update fuel i w cr = (w', Ok tt) -> exists c, nth_error w' i = Some c /\ points w' c).
  { intros fuel i w [c [u|x]] w' U; [eapply Up; exact U|discriminate]. }
  assert (Ts : forall fuel i j w w', track_state fuel i j w = (w', Ok tt) -> exists c, nth_error w' i = Some c /\ points w' c).
  { intros fuel i j w w' U. unfold track_state in U. destruct (nth_error w i); [|discriminate]. destruct (nth_error w j); [|discriminate]. eapply St; exact U. }
  intros fuel o i w w' U [->|[[e ->]|[->|[->|[[j ->]|[->|[j ->]]]]]]]; cbn [run_op] in U.
  - unfold sc_step in U. destruct (nth_error w i) as [c|]; [|discriminate]. destruct (rk4_step (propagator c)) as [p [u|x]]; [|discriminate]. eapply Up; exact U.
  - unfold sc_step_to_epoch in U. destruct (nth_error w i) as [c|]; [|discriminate]. destruct (rk4_step_to_epoch (propagator c) e) as [p [u|x]]; [|discriminate]. eapply Up; exact U.
  - unfold track_lvlh in U. destruct (nth_error w i) as [c|]; [|discriminate]. eapply St; exact U.
  - unfold track_sun in U. destruct (nth_error w i) as [c|]; [|discriminate]. eapply St; exact U.
  - eapply Ts; exact U.
  - eapply Up; exact U.
  - unfold acquire in U. destruct (nth_error w i) as [c|]; [|discriminate]. destruct (nth_error w j) as [t|]; [|discriminate].
    destruct (make_filter c t) as [k|x]; [|discriminate]. eapply Ts; exact U.
Qed.
Print Assumptions C62_points.
(** two spacecraft tracking each other, one of them propagated *)
Example C62_example : exists a b w', run_op 3 (StepTo 0 (Epoch (51544.5 + 60 / 86400))) [a; b] = (w', Ok tt) /\ steering a = Target.
Proof. destruct mutual as (a & b & w' & _ & _ & S & _ & _ & _ & E). exists a, b, w'. split; [exact E|exact S]. Qed.

(** * C63 Slew flag follows the slew clock *)

(** A mode change starts a slew from the current epoch, lasting the angle
    between the old boresight and the new pointing direction times
    [slew_scalar] (days per radian). *)
Theorem C63_start_lvlh : forall fuel i w c w', nth_error w i = Some c -> steering c <> Lvlh -> body_z c <> zero3 ->
  place_of c <> zero3 -> 0 <= slew_scalar (sc_params c) -> track_lvlh fuel i w = (w', Ok tt) ->
  exists c' th, nth_error w' i = Some c' /\ angle_between (body_z c) (sub zero3 (place_of c)) th /\
    steering c' = Lvlh /\ points w' c' /\ slewing c' = true /\
    slew_stop c' = Some (Epoch (clock c + th * slew_scalar (sc_params c))).
Proof.
  intros fuel i w c w' E M Hz Hp Hs U. unfold track_lvlh in U. rewrite E in U.
  assert (X : mode_eqb (steering c) Lvlh = false) by (destruct (steering c); auto; contradiction). rewrite X in U. cbv zeta in U.
  set (c1 := set_slewing _ true) in *.
  replace (v3_scaled (sc_position c1) (-1)) with (sub zero3 (place_of c)) in U.
  2: { rewrite v3_scaled_scale. unfold sc_position. rewrite v3_copy_id. change (g_position (current_state c1)) with (place_of c). veq; ring. }
  destruct (mode_change fuel i w c c1 (sub zero3 (place_of c)) w') as (c' & th & A1 & A2 & _ & A3 & _ & A4 & A5 & A6); auto.
  - intros Z. apply Hp. transitivity (scale (-1) (sub zero3 (place_of c))); [veq; ring|rewrite Z; veq; ring].
  - exists c', th. repeat split; auto; apply A2.
Qed.
Print Assumptions C63_start_lvlh.

Theorem C63_start_sun : forall fuel i w c w', nth_error w i = Some c -> steering c <> Solar -> body_z c <> zero3 ->
  let away := sub (place_of c) (Sun_get_position (g_epoch (rk_state (propagator c)))) in
  away <> zero3 -> 0 <= slew_scalar (sc_params c) -> track_sun fuel i w = (w', Ok tt) ->
  exists c' th, nth_error w' i = Some c' /\ angle_between (body_z c) away th /\
    steering c' = Solar /\ points w' c' /\ slewing c' = true /\
    slew_stop c' = Some (Epoch (clock c + th * slew_scalar (sc_params c))).
Proof.
  intros fuel i w c w' E M Hz away Hp Hs U. unfold track_sun in U. rewrite E in U.
  assert (X : mode_eqb (steering c) Solar = false) by (destruct (steering c); auto; contradiction). rewrite X in U. cbv zeta in U.
  set (c1 := set_slewing _ true) in *.
  replace (v3_scaled (sc_sun_vector c1) (-1)) with away in U.
  2: { rewrite v3_scaled_scale. unfold sc_sun_vector, gcrf_sun_vector, away. change (g_position (current_state c1)) with (place_of c).
       change (g_epoch (current_state c1)) with (g_epoch (rk_state (propagator c))).
       generalize (Sun_get_position (g_epoch (rk_state (propagator c)))); intros s. veq; ring. }
  destruct (mode_change fuel i w c c1 away w') as (c' & th & A1 & A2 & _ & A3 & _ & A4 & A5 & A6); auto.
  exists c', th. repeat split; auto; apply A2.
Qed.
Print Assumptions C63_start_sun.

Theorem C63_start_target : forall fuel i j w c t w', nth_error w i = Some c -> nth_error w j = Some t ->
  steering c <> Target -> body_z c <> zero3 -> place_of t <> place_of c -> 0 <= slew_scalar (sc_params c) ->
  track_state fuel i j w = (w', Ok tt) ->
  exists c' th, nth_error w' i = Some c' /\ angle_between (body_z c) (sub (place_of t) (place_of c)) th /\
    steering c' = Target /\ tracked_target c' = Some j /\ points w' c' /\ slewing c' = true /\
    slew_stop c' = Some (Epoch (clock c + th * slew_scalar (sc_params c))).
Proof.
  intros fuel i j w c t w' E Et M Hz Hp Hs U. unfold track_state in U. rewrite E, Et in U.
  assert (X : mode_eqb (steering c) Target = false) by (destruct (steering c); auto; contradiction). rewrite X in U. cbv zeta in U.
  set (c1 := set_slewing _ true) in *.
  replace (target_vector c1 t) with (sub (place_of t) (place_of c)) in U.
  2: { unfold target_vector, sc_position. rewrite !v3_copy_id. reflexivity. }
  destruct (mode_change fuel i w c c1 (sub (place_of t) (place_of c)) w') as (c' & th & A1 & A2 & _ & A3 & A3' & A4 & A5 & A6); auto.
  - intros Z. apply Hp. transitivity (add (place_of c) (sub (place_of t) (place_of c))); [veq; ring|rewrite Z; veq; ring].
  - exists c', th. repeat split; auto; apply A2.
Qed.
Print Assumptions C63_start_target.

(** The rate the constructor sets is half a degree per second. *)
Theorem C63_rate : forall s c, Spacecraft s = Ok c -> forall th, th * slew_scalar (sc_params c) * 86400 = th * (180 / PI) / 0.5.
Proof.
  intros s c E th. apply Spacecraft_inv in E. destruct E as (k & w & n & _ & _ & _ & ->). cbn [sc_params attitude_lvlh set_body slew_scalar].
  unfold DEFAULT_SLEW_SCALE, radians, SECONDS_IN_DAY. assert (P := PI_RGT_0).
  replace 0.5 with (1 / 2) by lra. replace (86400.0) with 86400 by lra. field. lra.
Qed.
Print Assumptions C63_rate.

(** After a completed step the flag is set exactly when it was set and the slew
    end is not yet past; the slew end is not changed. *)
Theorem C63_cleared : forall fuel i e w c w', nth_error w i = Some c -> sc_step_to_epoch fuel i e w = (w', Ok tt) ->
  exists c', nth_error w' i = Some c' /\ clock c' = value e /\ slew_stop c' = slew_stop c /\
    (slewing c' = true <-> slewing c = true /\ exists s, slew_stop c = Some s /\ value e <= value s).
Proof.
  intros fuel i e w c w' E U. unfold sc_step_to_epoch in U. rewrite E in U.
  destruct (rk4_step_to_epoch (propagator c) e) as [p [[]|x]] eqn:R; [|discriminate]. apply step_to_epoch_lands in R. destruct R as [R _].
  assert (T : clock (set_propagator c p) = value e) by (unfold clock; cbn [propagator set_propagator]; rewrite R; reflexivity).
  destruct (propagated fuel i w c p w' (Ok tt) (value e) E T U) as (_ & _ & _ & H). destruct (H eq_refl) as [(c' & A1 & A2 & _ & _ & _ & A3 & A4) _].
  exists c'. split; [exact A1|]. split; [unfold clock; rewrite A2, R; reflexivity|]. split; [exact A3|exact A4].
Qed.
Print Assumptions C63_cleared.

(** Commanding the current mode again is a mere attitude update: it never
    restarts the slew. *)
Theorem C63_no_restart : forall fuel i j w c t, nth_error w i = Some c -> nth_error w j = Some t ->
  (steering c = Lvlh -> track_lvlh fuel i w = update_attitude fuel i w) /\
  (steering c = Solar -> track_sun fuel i w = update_attitude fuel i w) /\
  (steering c = Target -> track_state fuel i j w = update_attitude fuel i w) /\
  (forall w', update_attitude fuel i w = (w', Ok tt) -> exists c', nth_error w' i = Some c' /\ slew_stop c' = slew_stop c /\
     (slewing c' = true -> slewing c = true)).
Proof.
  intros fuel i j w c t E Et. split; [|split; [|split]].
  - intros M. unfold track_lvlh. rewrite E, M. cbn [mode_eqb store_and_update]. rewrite set_nth_self by auto. reflexivity.
  - intros M. unfold track_sun. rewrite E, M. cbn [mode_eqb store_and_update]. rewrite set_nth_self by auto. reflexivity.
  - intros M. eapply track_state_target; eauto.
  - intros w' U. destruct (update_spec fuel i w c w' (Ok tt) E U) as [[_ _ _ _ D] _]. destruct (D eq_refl) as (c' & E' & (_ & _ & _ & _ & K) & _ & [Sl _]).
    exists c'. repeat split; auto. intros X. apply Sl; auto.
Qed.
Print Assumptions C63_no_restart.

(** In every history of completed operations other than finite burns, a
    spacecraft that is slewing has a slew end, and it is not past. *)
Theorem C63_invariant : forall w i c, orderly w -> nth_error w i = Some c -> slewing c = true ->
  exists s, slew_stop c = Some s /\ clock c <= value s.
Proof. intros w i c O E. exact (nth_forall _ w i c (orderly_on_time w O) E). Qed.
Print Assumptions C63_invariant.

(** a new spacecraft commanded to point away from the Sun *)
Example C63_example : exists c c', orderly [c] /\ orderly [c'] /\ steering c = Lvlh /\ body_z c <> zero3 /\ place_of c <> zero3 /\
  0 <= slew_scalar (sc_params c) /\ track_sun 1 0 [c] = ([c'], Ok tt) /\ slewing c' = true.
Proof.
  set (s := GCRF j2000 (V3 42164 0 0) (V3 0 3.07 0)).
  destruct (Spacecraft_ok s) as (c & E & P & M & S & _ & _ & Z & Q & _).
  assert (p1 : place_of c = V3 42164 0 0) by (unfold place_of; rewrite P; reflexivity).
  assert (Hz : body_z c <> zero3) by (rewrite Z; cbn; intros X; inversion X; lra).
  assert (O : orderly [c]).
  { apply (orderly_op 0 (New s) [] [c]); [constructor|discriminate|]. cbn [run_op]. rewrite E. reflexivity. }
  assert (Hs : 0 <= slew_scalar (sc_params c)).
  { rewrite Q. cbn [slew_scalar]. unfold DEFAULT_SLEW_SCALE, radians, SECONDS_IN_DAY. assert (X := PI_RGT_0).
    apply Rlt_le, Rdiv_lt_0_compat; lra. }
  assert (e1 : g_epoch (rk_state (propagator c)) = j2000) by (rewrite P; reflexivity).
  set (away := sub (place_of c) (Sun_get_position (g_epoch (rk_state (propagator c))))).
  assert (Ha : away <> zero3).
  { unfold away. rewrite p1, e1. destruct (Sun_norm j2000) as [Bs _].
    destruct (apart _ _ (V3 42164 0 0) Bs) as [_ X]; [rewrite norm_x; lra|]. intros Y. apply X.
    transitivity (scale (-1) (sub (V3 42164 0 0) (Sun_get_position j2000))); [generalize (Sun_get_position j2000); intros; veq; ring|rewrite Y; veq; ring]. }
  assert (T : exists c', track_sun 1 0 [c] = ([c'], Ok tt)).
  { unfold track_sun. cbn [nth_error]. rewrite M. cbn [mode_eqb]. cbv zeta. set (c1 := set_slewing _ true).
    replace (v3_scaled (sc_sun_vector c1) (-1)) with away.
    2: { rewrite v3_scaled_scale. unfold sc_sun_vector, gcrf_sun_vector, away. change (g_position (current_state c1)) with (place_of c).
       change (g_epoch (current_state c1)) with (g_epoch (rk_state (propagator c))).
       generalize (Sun_get_position (g_epoch (rk_state (propagator c)))); intros x. veq; ring. }
    destruct (angle_spec (body_z c) away Hz Ha) as (th & Et & _). rewrite (start_slew_ok c1 away th) by auto.
    cbn [store_and_update set_nth]. rewrite update_unfold. cbn [nth_error]. unfold aim, finish. set (c2 := set_slew_stop c1 _).
    change (steering c2) with Solar. cbn [nth_error set_nth]. unfold update_slew. cbn [slewing slew_stop attitude_solar set_body c2 set_slew_stop].
    change (slewing c1) with true. cbv iota. eexists. reflexivity. }
  destruct T as (c' & T). exists c, c'.
  assert (O' : orderly [c']) by (apply (orderly_op 1 (TrackSun 0) [c] [c']); [auto|discriminate|exact T]).
  destruct (C63_start_sun 1 0 [c] c [c'] eq_refl) as (x & th & X & _ & _ & _ & Sl & _); auto; [rewrite M; discriminate|].
  cbn in X. injection X as <-. repeat split; auto. rewrite p1. intros Y. inversion Y. lra.
Qed.

(** * C64 Re-targeting while tracking is ignored *)
Theorem C64_retarget_ignored : forall fuel i a b w c t w', nth_error w i = Some c -> nth_error w b = Some t ->
  steering c = Target -> tracked_target c = Some a -> track_state fuel i b w = (w', Ok tt) ->
  exists c' ta, nth_error w' i = Some c' /\ steering c' = Target /\ tracked_target c' = Some a /\
    nth_error w' a = Some ta /\ body_z c' = sub (place_of ta) (place_of c').
Proof.
  intros fuel i a b w c t w' E Et M Tr U. rewrite (track_state_target fuel i b w c t E Et M) in U.
  destruct (update_spec fuel i w c w' (Ok tt) E U) as [[_ _ _ _ D] _]. destruct (D eq_refl) as (c' & E' & (_ & K2 & K3 & _) & P & _).
  unfold points in P. rewrite K2, M, K3, Tr in P. destruct P as (j & ta & J & Ea & Z & _). injection J as <-.
  exists c', ta. repeat split; congruence.
Qed.
Print Assumptions C64_retarget_ignored.

(** the same for a whole history: track [a], then track [b] *)
Theorem C64_history : forall f1 f2 i a b w w1 w2 c, nth_error w i = Some c -> steering c <> Target ->
  track_state f1 i a w = (w1, Ok tt) -> track_state f2 i b w1 = (w2, Ok tt) ->
  exists c2 ta, nth_error w2 i = Some c2 /\ tracked_target c2 = Some a /\ nth_error w2 a = Some ta /\
    body_z c2 = sub (place_of ta) (place_of c2).
Proof.
  intros f1 f2 i a b w w1 w2 c E M U1 U2.
  assert (X : exists c1, nth_error w1 i = Some c1 /\ steering c1 = Target /\ tracked_target c1 = Some a).
  { unfold track_state in U1. rewrite E in U1. destruct (nth_error w a) as [t|]; [|discriminate].
    assert (Y : mode_eqb (steering c) Target = false) by (destruct (steering c); auto; contradiction). rewrite Y in U1. cbv zeta in U1.
    unfold start_slew in U1. destruct (v3_angle _ _) as [th|x]; [|discriminate]. cbn [store_and_update] in U1.
    match type of U1 with update_attitude _ _ (set_nth _ _ ?d) = _ => destruct (update_spec f1 i _ d w1 (Ok tt) (set_nth_same w i d c E) U1) as [[_ _ _ _ D] _] end.
    destruct (D eq_refl) as (c' & E' & (_ & K2 & K3 & _) & _). exists c'. auto. }
  destruct X as (c1 & E1 & M1 & T1). assert (Y : exists t, nth_error w1 b = Some t).
  { unfold track_state in U2. rewrite E1 in U2. destruct (nth_error w1 b) as [t|]; [eauto|discriminate]. }
  destruct Y as (t & Et). destruct (C64_retarget_ignored f2 i a b w1 c1 t w2) as (c2 & ta & A1 & _ & A2 & A3 & A4); auto. eauto 8.
Qed.
Print Assumptions C64_history.
(** a spacecraft, re-targeted from spacecraft 1 to itself *)
Example C64_example : exists c w', nth_error [c; c] 0 = Some c /\ steering c = Target /\ tracked_target c = Some 1%nat /\
  track_state 1 0 0 [c; c] = (w', Ok tt).
Proof.
  destruct (Spacecraft_ok (GCRF j2000 (V3 42164 0 0) (V3 0 3.07 0))) as (c0 & _ & _ & _ & S & _).
  set (c := set_tracked (set_steering c0 Target) 1). exists c. rewrite (track_state_target 1 0 0 [c; c] c c) by auto.
  rewrite update_unfold. cbn [nth_error]. unfold aim, sync. change (steering c) with Target. change (tracked_target c) with (Some 1%nat). cbv iota. cbn [nth_error].
  rewrite neq_true by auto. cbn [nth_error set_nth]. unfold finish. cbn [nth_error]. unfold update_slew.
  change (slewing (attitude_target c c)) with (slewing c0). rewrite S. eexists. repeat split.
Qed.

(** * C65 Tracking keeps targets synchronised and terminates *)

(** [chain w t i k]: [k] is reached from [i] by tracking links, each to a
    spacecraft whose clock is not yet [t].  Stepping [i] to [e] touches exactly
    [i] and that chain, never loops, and brings all of them to [e] pointing as
    their modes say. *)
Theorem C65_synchronised : forall fuel i e w c w' r, nth_error w i = Some c -> sc_step_to_epoch fuel i e w = (w', r) ->
  length w' = length w /\
  ((length w < fuel)%nat -> r <> Err OutOfFuel) /\
  (forall k, k <> i -> ~ chain w (value e) i k -> nth_error w' k = nth_error w k) /\
  (r = Ok tt -> (exists c', nth_error w' i = Some c' /\ clock c' = value e /\ points w' c') /\
    forall k, k <> i -> chain w (value e) i k -> exists d, nth_error w' k = Some d /\ clock d = value e /\ points w' d).
Proof.
  intros fuel i e w c w' r E U. unfold sc_step_to_epoch in U. rewrite E in U.
  destruct (rk4_step_to_epoch (propagator c) e) as [p [[]|x]] eqn:R.
  - assert (L := proj1 (step_to_epoch_lands _ _ _ R)).
    assert (T : clock (set_propagator c p) = value e) by (unfold clock; cbn [propagator set_propagator]; rewrite L; reflexivity).
    destruct (propagated fuel i w c p w' r (value e) E T U) as (A1 & A2 & A3 & A4).
    split; [exact A1|]. split; [exact A2|]. split; [exact A3|]. intros H. split; [|exact (proj2 (A4 H))].
    destruct (A4 H) as [(c' & B1 & B2 & _ & _ & B3 & _) _]. exists c'. split; [exact B1|]. split; [unfold clock; rewrite B2, L; reflexivity|exact B3].
  - injection U as <- <-. split; [apply set_nth_length|]. split; [|split].
    + intros _. assert (X := calm_to (propagator c) e). rewrite R in X. exact X.
    + intros k N _. apply set_nth_other; auto.
    + discriminate.
Qed.
Print Assumptions C65_synchronised.

(** The same for a single step of the current step size. *)
Theorem C65_synchronised_step : forall fuel i w c w' r, nth_error w i = Some c -> sc_step fuel i w = (w', r) ->
  let t := clock c + step_size (propagator c) / 86400 in
  length w' = length w /\
  ((length w < fuel)%nat -> r <> Err OutOfFuel) /\
  (forall k, k <> i -> ~ chain w t i k -> nth_error w' k = nth_error w k) /\
  (r = Ok tt -> (exists c', nth_error w' i = Some c' /\ clock c' = t /\ points w' c') /\
    forall k, k <> i -> chain w t i k -> exists d, nth_error w' k = Some d /\ clock d = t /\ points w' d).
Proof.
  intros fuel i w c w' r E U t. unfold sc_step in U. rewrite E in U.
  destruct (rk4_step (propagator c)) as [p [[]|x]] eqn:R.
  - assert (L := step_inv _ _ R). assert (T : clock (set_propagator c p) = t).
    { unfold clock, t. cbn [propagator set_propagator]. unfold clock. destruct L as (_ & L & _). rewrite L. cbn [value]. reflexivity. }
    destruct (propagated fuel i w c p w' r t E T U) as (A1 & A2 & A3 & A4).
    split; [exact A1|]. split; [exact A2|]. split; [exact A3|]. intros H. split; [|exact (proj2 (A4 H))].
    destruct (A4 H) as [(c' & B1 & B2 & _ & _ & B3 & _) _]. exists c'. split; [exact B1|]. split; [unfold clock; rewrite B2; exact T|exact B3].
  - injection U as <- <-. split; [apply set_nth_length|]. split; [|split].
    + intros _. assert (X := calm_step (propagator c)). rewrite R in X. exact X.
    + intros k N _. apply set_nth_other; auto.
    + discriminate.
Qed.
Print Assumptions C65_synchronised_step.

(** The chain stops at the first target that is already there: spacecraft
    behind it stay behind, even when they are tracked. *)
Theorem C65_in_sync_link_stops : forall fuel i j e w c d w' r, nth_error w i = Some c -> tracked_target c = Some j ->
  nth_error w j = Some d -> clock d = value e -> sc_step_to_epoch fuel i e w = (w', r) ->
  forall k, k <> i -> nth_error w' k = nth_error w k.
Proof.
  intros fuel i j e w c d w' r E Tr Ej Cd U k N. destruct (C65_synchronised fuel i e w c w' r E U) as (_ & _ & H & _). apply H; auto.
  intros C. inversion C; congruence.
Qed.
Print Assumptions C65_in_sync_link_stops.
(** two spacecraft tracking each other (a cycle): each is in the other's chain,
    and the call completes *)
Example C65_example : exists a b w', let e := Epoch (51544.5 + 60 / 86400) in
  chain [a; b] (value e) 0 1 /\ chain [a; b] (value e) 0 0 /\ sc_step_to_epoch 3 0 e [a; b] = (w', Ok tt).
Proof.
  destruct mutual as (a & b & w' & Pa & Pb & Sa & Sb & Ta & Tb & E). exists a, b, w'. cbv zeta in *.
  assert (Ca : clock a <> value (Epoch (51544.5 + 60 / 86400))) by (unfold clock; rewrite Pa; cbn; lra).
  assert (Cb : clock b <> value (Epoch (51544.5 + 60 / 86400))) by (unfold clock; rewrite Pb; cbn; lra).
  split; [|split; [|exact E]].
  - eapply chain_one; [reflexivity|exact Sa|exact Ta|reflexivity|exact Cb].
  - eapply chain_more; [reflexivity|exact Sa|exact Ta|reflexivity|exact Cb|].
    eapply chain_one; [reflexivity|exact Sb|exact Tb|reflexivity|exact Ca].
Qed.

(** * C66 A failed mode change leaves the spacecraft unusable *)
Theorem C66_failed_track : forall fuel i j w c t, nth_error w i = Some c -> nth_error w j = Some t -> steering c <> Target ->
  place_of t = place_of c -> exists w', track_state fuel i j w = (w', Err ZeroDivisionError) /\
  (slew_stop c = None -> stuck w' i).
Proof.
  intros fuel i j w c t E Et M P. eexists. split; [apply (track_coincident fuel i j w c t); auto|].
  intros S. eexists. split; [eapply set_nth_same; eauto|]. repeat split. exact S.
Qed.
Print Assumptions C66_failed_track.

(** From then on every step, update, re-track or acquisition of it raises, and
    nothing done to any spacecraft repairs it except commanding another mode. *)
Theorem C66_stuck : forall fuel o w w' r i, stuck w i -> run_op fuel o w = (w', r) ->
  o <> TrackLvlh i -> o <> TrackSun i ->
  stuck w' i /\
  (o = Step i \/ (exists e, o = StepTo i e) \/ o = UpdateAttitude i \/ (exists j, o = TrackState i j) \/ (exists j, o = Acquire i j) ->
   r <> Ok tt).
Proof.
  intros fuel o w w' r i S E N1 N2. split; [eapply run_stuck; eauto|].
  intros H. eapply run_stuck_raises; eauto. destruct H as [->|[[e ->]|[->|[[j ->]|[j ->]]]]]; reflexivity.
Qed.
Print Assumptions C66_stuck.
(** two new spacecraft at the same place *)
Example C66_example : exists c w', reachable [c; c] /\ steering c <> Target /\ slew_stop c = None /\
  track_state 1 0 1 [c; c] = (w', Err ZeroDivisionError) /\ stuck w' 0.
Proof.
  set (s := GCRF j2000 (V3 42164 0 0) (V3 0 3.07 0)).
  destruct (Spacecraft_ok s) as (c & E & _ & M & _ & SS & _).
  destruct (C66_failed_track 1 0 1 [c; c] c c) as (w' & T & S); auto; [rewrite M; discriminate|].
  exists c, w'. repeat split; auto; [|rewrite M; discriminate].
  apply (reach_op 0 (New s) [c] [c; c] (Ok tt)); [|cbn [run_op]; rewrite E; reflexivity].
  apply (reach_op 0 (New s) [] [c] (Ok tt)); [constructor|cbn [run_op]; rewrite E; reflexivity].
Qed.

(** * C67 An impulsive maneuver changes velocity only *)
Theorem C67_impulsive : forall i burn w c, nth_error w i = Some c -> cross (place_of c) (motion_of c) <> zero3 ->
  exists w' c' dv, impulsive_maneuver i burn w = (w', Ok tt) /\ nth_error w' i = Some c' /\
    g_epoch (rk_state (propagator c')) = g_epoch (rk_state (propagator c)) /\
    place_of c' = place_of c /\ motion_of c' = add (motion_of c) dv /\
    ric_components (place_of c) (motion_of c) burn dv /\
    (forall dv', ric_components (place_of c) (motion_of c) burn dv' -> dv' = dv) /\
    (body_x c' = body_x c /\ body_y c' = body_y c /\ body_z c' = body_z c /\ sc_params c' = sc_params c /\
     steering c' = steering c /\ tracked_target c' = tracked_target c /\ slewing c' = slewing c /\ slew_stop c' = slew_stop c) /\
    (forall k, k <> i -> nth_error w' k = nth_error w k).
Proof.
  intros i burn w c E N. destruct (impulse_ok i burn w c E N) as (dv & R & I).
  do 2 eexists. exists dv. split; [exact I|]. split; [eapply set_nth_same; eauto|].
  repeat (split; [first [reflexivity | exact R | intros dv' R'; eapply components_unique; eauto | destruct (motion_of c); reflexivity | repeat split]|]).
  intros k Nk. apply set_nth_other; auto.
Qed.
Print Assumptions C67_impulsive.

(** On a radial orbit (or at rest) it raises and nothing changes. *)
Theorem C67_radial : forall i burn w c, nth_error w i = Some c -> cross (place_of c) (motion_of c) = zero3 ->
  impulsive_maneuver i burn w = (w, Err ZeroDivisionError).
Proof. exact impulse_err. Qed.
Print Assumptions C67_radial.
Example C67_example : exists c, reachable [c] /\ cross (place_of c) (motion_of c) <> zero3.
Proof.
  set (s := GCRF j2000 (V3 42164 0 0) (V3 0 3.07 0)). destruct (Spacecraft_ok s) as (c & E & P & _). exists c. split.
  - apply (reach_op 0 (New s) [] [c] (Ok tt)); [constructor|cbn [run_op]; rewrite E; reflexivity].
  - unfold place_of, motion_of. rewrite P. cbn. vunf. intros X. inversion X. lra.
Qed.

(** * C68 A finite maneuver thrusts in the wrong direction *)

(** For every non-radial state the rotation is applied backwards: the commanded
    [dv] is taken for an inertial vector, and its radial, in-track and
    cross-track components are used as the inertial thrust direction.  (Right
    would be [ric_components .. dv engine], as for the impulse of C67.)  The
    magnitude is right. *)
Theorem C68_direction : forall c dv T, cross (place_of c) (motion_of c) <> zero3 ->
  burn_duration (norm dv) (sc_m_dot (sc_params c)) (total_mass (sc_params c)) (sc_isp (sc_params c)) = Ok T ->
  let engine := thrust_direction (propagator (fst (craft_finite_maneuver c dv))) in
  norm engine = norm dv /\ ric_components (place_of c) (motion_of c) engine dv.
Proof.
  intros c dv T N B. assert (N' : ~ radial_orbit (current_state c)) by exact N. assert (Rf := frame_rotation _ N').
  cbv zeta. rewrite (finite_direction c dv T N B). split; [apply rotation_norm; auto|].
  assert (R' := frame_components (current_state c) (apply3 (frame (current_state c)) dv) N').
  rewrite transposed_inverse in R' by auto. exact R'.
Qed.
Print Assumptions C68_direction.

(** A quarter orbit after the x axis, on every equatorial orbit with horizontal
    velocity, an in-track burn thrusts exactly backwards. *)
Theorem C68_backwards_refuted : forall c R V y T, 0 < R -> 0 < V -> place_of c = V3 0 R 0 -> motion_of c = V3 (- V) 0 0 ->
  burn_duration (norm (V3 0 y 0)) (sc_m_dot (sc_params c)) (total_mass (sc_params c)) (sc_isp (sc_params c)) = Ok T ->
  exists right, ric_components (place_of c) (motion_of c) (V3 0 y 0) right /\ right = V3 (- y) 0 0 /\
    thrust_direction (propagator (fst (craft_finite_maneuver c (V3 0 y 0)))) = scale (-1) right.
Proof.
  intros c R V y T HR HV Er Ev B.
  assert (N : cross (place_of c) (motion_of c) <> zero3). { rewrite Er, Ev. vunf. intros X. inversion X. nra. }
  assert (F : frame (current_state c) = M3 (V3 0 1 0) (V3 (-1) 0 0) (V3 0 0 1)).
  { apply (quarter_frame _ R V); auto. }
  assert (N' : ~ radial_orbit (current_state c)) by exact N.
  exists (V3 (- y) 0 0). split; [|split; [reflexivity|]].
  - assert (K := frame_components (current_state c) (V3 0 y 0) N'). rewrite F in K.
    replace (V3 (- y) 0 0) with (apply3 (transposed (M3 (V3 0 1 0) (V3 (-1) 0 0) (V3 0 0 1))) (V3 0 y 0)) by (veq; ring). exact K.
  - rewrite (finite_direction c _ T N B), F. veq; ring.
Qed.
Print Assumptions C68_backwards_refuted.
(** On every prograde equatorial state at right ascension [t], an in-plane burn
    is thrust at [2 t] from the right direction; it is right only on the x
    axis. *)
Theorem C68_equatorial : forall c R t a b x y T, 0 < R -> 0 < cos t * b - sin t * a ->
  place_of c = V3 (R * cos t) (R * sin t) 0 -> motion_of c = V3 a b 0 ->
  burn_duration (norm (V3 x y 0)) (sc_m_dot (sc_params c)) (total_mass (sc_params c)) (sc_isp (sc_params c)) = Ok T ->
  exists right, ric_components (place_of c) (motion_of c) (V3 x y 0) right /\ let engine := thrust_direction (propagator (fst (craft_finite_maneuver c (V3 x y 0)))) in
    dot right engine = norm right * norm engine * cos (2 * t) /\ (V3 x y 0 <> zero3 -> engine = right -> sin t = 0).
Proof.
  intros c R t a b x y T HR HV Er Ev B.
  assert (N : cross (place_of c) (motion_of c) <> zero3). { rewrite Er, Ev. vunf. intros X. inversion X. nra. }
  assert (N' : ~ radial_orbit (current_state c)) by exact N.
  assert (F : frame (current_state c) = M3 (V3 (cos t) (sin t) 0) (V3 (- sin t) (cos t) 0) (V3 0 0 1)) by (apply (equatorial_frame _ R t a b); auto).
  assert (Rf := frame_rotation _ N').
  exists (apply3 (transposed (frame (current_state c))) (V3 x y 0)).
  split; [exact (frame_components (current_state c) (V3 x y 0) N')|]. cbv zeta. rewrite (finite_direction c _ T N B).
  assert (M1 := rotation_norm _ (V3 x y 0) Rf). assert (M2 := rotation_norm _ (V3 x y 0) (transposed_rotation _ Rf)).
  split.
  - rewrite M1, M2, norm_sq, F, cos_2a. assert (U := sin2_cos2 t). vunf. ring.
  - rewrite F. intros Nz E. assert (E1 := f_equal x3 E). assert (E2 := f_equal y3 E). cbn in E1, E2.
    destruct (Req_dec (sin t) 0) as [Z|Z]; [exact Z|]. exfalso. apply Nz.
    unfold dot in E1, E2. cbn [x3 y3 z3] in E1, E2. assert (sin t * y = 0) by lra. assert (sin t * x = 0) by lra. unfold zero3; f_equal; try (apply Rmult_eq_reg_l with (sin t); lra); reflexivity.
Qed.
Print Assumptions C68_equatorial.
Example C68_example : exists c T, place_of c = V3 0 42164 0 /\ motion_of c = V3 (- (3.07)) 0 0 /\
  burn_duration (norm (V3 0 0.1 0)) (sc_m_dot (sc_params c)) (total_mass (sc_params c)) (sc_isp (sc_params c)) = Ok T.
Proof.
  destruct (Spacecraft_ok (GCRF j2000 (V3 0 42164 0) (V3 (- (3.07)) 0 0))) as (c & E & P & _ & _ & _ & _ & _ & Q & _). exists c. eexists.
  unfold place_of, motion_of. rewrite P. split; [reflexivity|]. split; [reflexivity|]. rewrite Q. unfold total_mass. cbn [sc_m_dot dry_mass propellant_mass sc_isp].
  apply burn_ok; lra.
Qed.

(** * C69 A finite maneuver increases the propellant mass *)
Theorem C69_propellant_grows : forall i dv w c w', nth_error w i = Some c ->
  0 < sc_m_dot (sc_params c) -> 0 < total_mass (sc_params c) -> 0 < sc_isp (sc_params c) ->
  finite_maneuver i dv w = (w', Ok tt) ->
  exists c' T, nth_error w' i = Some c' /\ 0 <= T /\ (dv <> zero3 -> 0 < T) /\
    (* the rocket equation for the true burn duration T *)
    sc_isp (sc_params c) * 0.00981 * ln (total_mass (sc_params c) / (total_mass (sc_params c) - sc_m_dot (sc_params c) * T)) = norm dv /\
    clock c' = clock c + T / 86400 /\
    propellant_mass (sc_params c') = propellant_mass (sc_params c) + sc_m_dot (sc_params c) * T.
Proof.
  intros i dv w c w' E H1 H2 H3 U. unfold finite_maneuver in U. rewrite E in U.
  destruct (craft_finite_maneuver c dv) as [c' r] eqn:F. injection U as <- ->. apply finite_ok in F. destruct F as (T & B & V & Pm & _ & _).
  destruct (burn_rocket (norm dv) _ _ _ (norm_nonneg dv) H1 H2 H3) as (T' & B' & R1 & R2 & R3). rewrite B in B'. injection B' as <-.
  exists c', T. split; [eapply set_nth_same; eauto|]. split; [lra|]. split.
  - intros Nd. apply norm_pos in Nd. destruct (Req_dec T 0) as [Z|Z]; [apply R2 in Z; lra|lra].
  - split; [exact R3|]. split; [exact V|exact Pm].
Qed.
Print Assumptions C69_propellant_grows.
(** a 100 m/s in-track burn of a geostationary spacecraft (0.1 kg/s, 1000 kg,
    300 s) completes *)
Example C69_example : exists c w', 0 < sc_m_dot (sc_params c) /\ 0 < total_mass (sc_params c) /\ 0 < sc_isp (sc_params c) /\
  finite_maneuver 0 (V3 0 0.1 0) [c] = (w', Ok tt).
Proof.
  destruct (Spacecraft_ok (GCRF j2000 (V3 42164 0 0) (V3 0 3.07 0))) as (c0 & _ & P & _).
  set (c := set_params c0 (Params 0.3 0.005 1 1e-5 0.1 300 500 500)). exists c.
  destruct long_burn as (T & B & _ & q & Q).
  assert (M : total_mass (sc_params c) = 1000) by (unfold total_mass; cbn; lra).
  assert (X : exists c', craft_finite_maneuver c (V3 0 0.1 0) = (c', Ok tt)).
  { unfold craft_finite_maneuver. change (current_state c) with (current_state c0). unfold current_state. rewrite P.
    assert (G : g_position (gcrf_copy (rk_state geo)) = V3 42164 0 0) by reflexivity.
    assert (N : ~ radial_orbit (gcrf_copy (rk_state geo))) by (unfold radial_orbit; cbn; vunf; intros X; inversion X; lra).
    change (RK4 _) with geo in *. rewrite frame_ok by exact N.
    assert (F : m3_multiply_vector (frame (gcrf_copy (rk_state geo))) (V3 0 0.1 0) = V3 0 0.1 0).
    { change m3_multiply_vector with apply3. unfold frame. cbn [gcrf_copy rk_state geo RK4 GCRF g_position g_velocity]. cbv zeta. 
      assert (H : cross (V3 42164 0 0) (V3 0 3.07 0) = V3 0 0 (42164 * 3.07)) by (veq; ring).
      rewrite H, norm_x by lra.
      assert (N2 : norm (V3 0 0 (42164 * 3.07)) = 42164 * 3.07) by (unfold norm; apply NumLemmas.sqrt_eq; [lra|unfold dot; cbn [x3 y3 z3]; ring]).
      rewrite N2. set (k := 42164 * 3.07). assert (0 < k) by (unfold k; lra). clearbody k. generalize 0.1. intros y. veq; field; lra. }
    rewrite F. cbv zeta. rewrite M. change (propagator c) with (propagator c0). rewrite P. change (RK4 _) with geo.
    change (sc_m_dot (sc_params c)) with 0.1. change (sc_isp (sc_params c)) with 300. rewrite Q.
    change v3_magnitude with norm. rewrite finite_dt_opposite, B. eexists. reflexivity. }
  destruct X as (c' & X). exists [c']. repeat split; try (cbn; lra). { rewrite M. lra. }
  unfold finite_maneuver. cbn [nth_error]. rewrite X. reflexivity.
Qed.
