(** Proofs about bodies/artificial.py: the store, histories and tracking. *)
From Coq Require Import Reals Lra Psatz Lia List Arith ZArith.
From Verif.Model Require Import Num Constants Linalg Functions Time Celestial Positions States
  Inertial Relative Obs Filtering Constraints Payloads Artificial.
From Verif.Spec Require Import Geometry Operations.
From Verif.Proofs Require Import NumLemmas LinalgProofs FunctionsProofs CelestialProofs StatesProofs InertialProofs.
Import ListNotations.
Local Open Scope R_scope.

(** * The store *)
Lemma set_nth_length w : forall i c, length (set_nth w i c) = length w.
Proof. induction w as [|d w IH]; intros [|i] c; cbn; auto. Qed.
Lemma set_nth_same w : forall i c d, nth_error w i = Some d -> nth_error (set_nth w i c) i = Some c.
Proof. induction w as [|e w IH]; intros [|i] c d H; cbn in *; try discriminate; auto. eapply IH; eauto. Qed.
Lemma set_nth_other w : forall i k c, k <> i -> nth_error (set_nth w i c) k = nth_error w k.
Proof. induction w as [|e w IH]; intros [|i] [|k] c H; cbn; auto; try congruence. Qed.
Lemma set_nth_outside w : forall i c, nth_error w i = None -> set_nth w i c = w.
Proof. induction w as [|e w IH]; intros [|i] c H; cbn in *; try discriminate; auto. rewrite IH; auto. Qed.
Lemma set_nth_forall (P : craft -> Prop) w i c : Forall P w -> P c -> Forall P (set_nth w i c).
Proof.
  intros H. revert i. induction H as [|d w Hd Hw IH]; intros [|i] Hc; cbn; auto.
Qed.
Lemma nth_forall (P : craft -> Prop) w i c : Forall P w -> nth_error w i = Some c -> P c.
Proof. intros H E. rewrite Forall_forall in H. apply H. eapply nth_error_In; eauto. Qed.

(** * update_attitude in two parts *)
Definition finish (i : nat) (wr : world * res unit) : world * res unit :=
  match wr with
  | (w, Err e) => (w, Err e)
  | (w, Ok _) =>
      match nth_error w i with
      | None => (w, Err AttributeError)
      | Some c =>
          match update_slew c with
          | Err e => (w, Err e)
          | Ok c => (set_nth w i c, Ok tt)
          end
      end
  end.
Definition sync (fuel j : nat) (e : epoch) (t : craft) (w : world) : world * res unit :=
  if neq (value (current_epoch t)) (value e) then (w, Ok tt)
  else
    match rk4_step_to_epoch (propagator t) e with
    | (p, Err e) => (set_nth w j (set_propagator t p), Err e)
    | (p, Ok _) => update_attitude fuel j (set_nth w j (set_propagator t p))
    end.
Definition aim (fuel i : nat) (c : craft) (w : world) : world * res unit :=
  match steering c with
  | Lvlh => (set_nth w i (attitude_lvlh c), Ok tt)
  | Solar => (set_nth w i (attitude_solar c), Ok tt)
  | Target =>
      match tracked_target c with
      | None => (w, Err AttributeError)
      | Some j =>
          match nth_error w j with
          | None => (w, Err AttributeError)
          | Some t =>
              match sync fuel j (current_epoch c) t w with
              | (w, Err e) => (w, Err e)
              | (w, Ok _) =>
                  match nth_error w i, nth_error w j with
                  | Some c, Some t => (set_nth w i (attitude_target c t), Ok tt)
                  | _, _ => (w, Err AttributeError)
                  end
              end
          end
      end
  end.
Lemma update_unfold fuel i w : update_attitude (S fuel) i w =
  match nth_error w i with None => (w, Err AttributeError) | Some c => finish i (aim fuel i c w) end.
Proof.
  reflexivity.
Qed.

(** * Invariants of every history *)
Record closed (P : craft -> Prop) : Prop := {
  cl_lvlh : forall c, P c -> P (attitude_lvlh c);
  cl_solar : forall c, P c -> P (attitude_solar c);
  cl_target : forall c t, P c -> P (attitude_target c t);
  cl_slew : forall c b, P c -> P (set_slewing c b);
  cl_stop : forall c e, P c -> P (set_slew_stop c e);
  cl_mode : forall c m, P c -> P (set_steering c m);
  cl_tracked : forall c j, P c -> P (set_tracked c j);
  cl_filter : forall c k, P c -> P (set_filter c k);
  cl_params : forall c p, P c -> P (set_params c p);
  cl_step : forall c p r, rk4_step (propagator c) = (p, r) -> P c -> P (set_propagator c p);
  cl_to : forall c e p r, rk4_step_to_epoch (propagator c) e = (p, r) -> P c -> P (set_propagator c p);
  cl_burn : forall c d a b e p r, rk4_maneuver (propagator c) d a b e = (p, r) -> P c -> P (set_propagator c p);
  cl_new : forall c g, P c -> P (set_propagator c (RK4 g));
  cl_create : forall s c, Spacecraft s = Ok c -> P c }.

Lemma slew_keeps P c d : closed P -> P c -> update_slew c = Ok d -> P d.
Proof.
  intros C H E. unfold update_slew in E. destruct (slewing c); [|injection E as <-; auto].
  destruct (slew_stop c) as [e|]; [|discriminate]. injection E as <-. destruct (nlt _ _); auto. apply (cl_slew P C); auto.
Qed.
Lemma finish_keeps P i w r w' r' : closed P -> Forall P w -> finish i (w, r) = (w', r') -> Forall P w'.
Proof.
  intros C H E. unfold finish in E. destruct r as [u|e]; [|injection E as <- _; auto].
  destruct (nth_error w i) as [c|] eqn:Ei; [|injection E as <- _; auto].
  destruct (update_slew c) as [d|e] eqn:Es; injection E as <- _; auto.
  apply set_nth_forall; auto. eapply slew_keeps; eauto. eapply nth_forall; eauto.
Qed.
Lemma update_keeps P : closed P -> forall fuel i w w' r, Forall P w -> update_attitude fuel i w = (w', r) -> Forall P w'.
Proof.
  intros C. induction fuel as [|fuel IH]; intros i w w' r H E.
  { cbn in E. injection E as <- _. auto. }
  rewrite update_unfold in E. destruct (nth_error w i) as [c|] eqn:Ei; [|injection E as <- _; auto].
  assert (Pc := nth_forall P w i c H Ei).
  destruct (aim fuel i c w) as [w1 r1] eqn:Ea. apply (finish_keeps P i w1 r1 w' r C); auto. clear E.
  unfold aim in Ea. destruct (steering c).
  - injection Ea as <- _. apply set_nth_forall; auto. apply (cl_lvlh P C); auto.
  - injection Ea as <- _. apply set_nth_forall; auto. apply (cl_solar P C); auto.
  - destruct (tracked_target c) as [j|]; [|injection Ea as <- _; auto].
    destruct (nth_error w j) as [t|] eqn:Ej; [|injection Ea as <- _; auto].
    assert (Pt := nth_forall P w j t H Ej).
    destruct (sync fuel j (current_epoch c) t w) as [w2 r2] eqn:Es.
    assert (H2 : Forall P w2).
    { unfold sync in Es. destruct (neq _ _); [injection Es as <- _; auto|].
      destruct (rk4_step_to_epoch (propagator t) (current_epoch c)) as [p [u|e]] eqn:Er.
      - eapply IH; [|exact Es]. apply set_nth_forall; auto. eapply (cl_to P C); eauto.
      - injection Es as <- _. apply set_nth_forall; auto. eapply (cl_to P C); eauto. }
    destruct r2 as [u|e]; [|injection Ea as <- _; auto].
    destruct (nth_error w2 i) as [c2|] eqn:E1; [|injection Ea as <- _; auto].
    destruct (nth_error w2 j) as [t2|]; [|injection Ea as <- _; auto].
    injection Ea as <- _. apply set_nth_forall; auto. apply (cl_target P C). eapply nth_forall; eauto.
Qed.
Lemma start_slew_keeps P c d c' r : closed P -> P c -> start_slew c d = (c', r) -> P c'.
Proof.
  intros C H E. unfold start_slew in E. destruct (v3_angle (body_z c) d); injection E as <- _; auto. apply (cl_stop P C); auto.
Qed.
Lemma store_keeps P fuel i w c r0 w' r : closed P -> Forall P w -> P c -> store_and_update fuel i w (c, r0) = (w', r) -> Forall P w'.
Proof.
  intros C H Pc E. unfold store_and_update in E. destruct r0 as [u|e].
  - eapply update_keeps; [exact C| |exact E]. apply set_nth_forall; auto.
  - injection E as <- _. apply set_nth_forall; auto.
Qed.
Lemma track_state_keeps P fuel i j w w' r : closed P -> Forall P w -> track_state fuel i j w = (w', r) -> Forall P w'.
Proof.
  intros C H E. unfold track_state in E. destruct (nth_error w i) as [c|] eqn:Ei; [|injection E as <- _; auto].
  destruct (nth_error w j) as [t|] eqn:Ej; [|injection E as <- _; auto]. assert (Pc := nth_forall P w i c H Ei).
  cbv zeta in E. destruct (mode_eqb (steering c) Target).
  - eapply store_keeps; [exact C|exact H| |exact E]; auto.
  - destruct (start_slew _ _) as [c' r0] eqn:Es. eapply store_keeps; [exact C|exact H| |exact E].
    eapply start_slew_keeps; [exact C| |exact Es]. apply (cl_slew P C), (cl_tracked P C), (cl_mode P C); auto.
Qed.
Lemma run_keeps P fuel o w w' r : closed P -> Forall P w -> run_op fuel o w = (w', r) -> Forall P w'.
Proof.
  intros C H E. destruct o as [s|i p|i|i e|i|i|i j|i|i b|i dv|i j|z1 z2 u i j|z1 z2 u i j]; cbn [run_op] in E.
  - destruct (Spacecraft s) as [c|e] eqn:Es; injection E as <- _; auto.
    apply Forall_app. split; auto. constructor; auto. eapply (cl_create P C); eauto.
  - destruct (nth_error w i) as [c|] eqn:Ei; injection E as <- _; auto.
    apply set_nth_forall; auto. apply (cl_params P C). eapply nth_forall; eauto.
  - unfold sc_step in E. destruct (nth_error w i) as [c|] eqn:Ei; [|injection E as <- _; auto].
    assert (Pc := nth_forall P w i c H Ei).
    destruct (rk4_step (propagator c)) as [p [u|e]] eqn:Er.
    + eapply update_keeps; [exact C| |exact E]. apply set_nth_forall; auto. eapply (cl_step P C); eauto.
    + injection E as <- _. apply set_nth_forall; auto. eapply (cl_step P C); eauto.
  - unfold sc_step_to_epoch in E. destruct (nth_error w i) as [c|] eqn:Ei; [|injection E as <- _; auto].
    assert (Pc := nth_forall P w i c H Ei).
    destruct (rk4_step_to_epoch (propagator c) e) as [p [u|x]] eqn:Er.
    + eapply update_keeps; [exact C| |exact E]. apply set_nth_forall; auto. eapply (cl_to P C); eauto.
    + injection E as <- _. apply set_nth_forall; auto. eapply (cl_to P C); eauto.
  - unfold track_lvlh in E. destruct (nth_error w i) as [c|] eqn:Ei; [|injection E as <- _; auto].
    assert (Pc := nth_forall P w i c H Ei). cbv zeta in E. destruct (mode_eqb (steering c) Lvlh).
    + eapply store_keeps; [exact C|exact H| |exact E]; auto.
    + destruct (start_slew _ _) as [c' r0] eqn:Es. eapply store_keeps; [exact C|exact H| |exact E].
      eapply start_slew_keeps; [exact C| |exact Es]. apply (cl_slew P C), (cl_mode P C); auto.
  - unfold track_sun in E. destruct (nth_error w i) as [c|] eqn:Ei; [|injection E as <- _; auto].
    assert (Pc := nth_forall P w i c H Ei). cbv zeta in E. destruct (mode_eqb (steering c) Solar).
    + eapply store_keeps; [exact C|exact H| |exact E]; auto.
    + destruct (start_slew _ _) as [c' r0] eqn:Es. eapply store_keeps; [exact C|exact H| |exact E].
      eapply start_slew_keeps; [exact C| |exact Es]. apply (cl_slew P C), (cl_mode P C); auto.
  - eapply track_state_keeps; eauto.
  - eapply update_keeps; eauto.
  - unfold impulsive_maneuver in E. destruct (nth_error w i) as [c|] eqn:Ei; [|injection E as <- _; auto].
    destruct (hcw_to_gcrf _ _) as [g|e]; injection E as <- _; auto.
    apply set_nth_forall; auto. apply (cl_new P C). eapply nth_forall; eauto.
  - unfold finite_maneuver in E. destruct (nth_error w i) as [c|] eqn:Ei; [|injection E as <- _; auto].
    assert (Pc := nth_forall P w i c H Ei). destruct (craft_finite_maneuver c dv) as [c' r0] eqn:Ef. injection E as <- _.
    apply set_nth_forall; auto. unfold craft_finite_maneuver in Ef. destruct (HCW_frame_matrix (current_state c)) as [fm|e]; [|injection Ef as <- _; auto].
    cbv zeta in Ef. destruct (rk4_maneuver _ _ _ _ _) as [p [u|e]] eqn:Er.
    + assert (Pp : P (set_propagator c p)) by (eapply (cl_burn P C); eauto).
      destruct (finite_dt _ _ _ _); injection Ef as <- _; auto. apply (cl_params P C); auto.
    + injection Ef as <- _. eapply (cl_burn P C); eauto.
  - unfold acquire in E. destruct (nth_error w i) as [c|] eqn:Ei; [|injection E as <- _; auto].
    destruct (nth_error w j) as [t|] eqn:Ej; [|injection E as <- _; auto].
    destruct (make_filter c t) as [k|e]; [|injection E as <- _; auto].
    eapply track_state_keeps; [exact C| |exact E]. apply set_nth_forall; auto. apply (cl_filter P C). eapply nth_forall; eauto.
  - unfold process_wfov, process in E. destruct (nth_error w i) as [c|] eqn:Ei; [|injection E as <- _; auto].
    destruct (nth_error w j) as [t|] eqn:Ej; [|injection E as <- _; auto].
    destruct (observe wfov z1 z2 u c t) as [ob|e]; [|injection E as <- _; auto].
    destruct (sc_filter c) as [k|]; [|injection E as <- _; auto]. destruct (kalman_process k ob) as [k' r'].
    injection E as <- _. apply set_nth_forall; auto. apply (cl_filter P C). eapply nth_forall; eauto.
  - unfold process_nfov, process in E. destruct (nth_error w i) as [c|] eqn:Ei; [|injection E as <- _; auto].
    destruct (nth_error w j) as [t|] eqn:Ej; [|injection E as <- _; auto].
    destruct (observe nfov z1 z2 u c t) as [ob|e]; [|injection E as <- _; auto].
    destruct (sc_filter c) as [k|]; [|injection E as <- _; auto]. destruct (kalman_process k ob) as [k' r'].
    injection E as <- _. apply set_nth_forall; auto. apply (cl_filter P C). eapply nth_forall; eauto.
Qed.
Lemma reachable_keeps P w : closed P -> reachable w -> Forall P w.
Proof. intros C R. induction R as [|fuel o w w' r R IH E]; [constructor|]. eapply run_keeps; eauto. Qed.

(** * The propagated state has no srp scalar *)
Definition no_srp (p : rk4) : Prop := g_srp_scalar (rk_state p) = 0.
Lemma step_no_srp p q r : rk4_step p = (q, r) -> no_srp p -> no_srp q.
Proof.
  unfold rk4_step, no_srp. intros E H. destruct (thrust_vector p 0) as [t|e]; [|injection E as <- _; auto].
  cbv zeta in E. destruct (step_result _) as [s|e] eqn:Es; injection E as <- _; [|exact H].
  cbn [rk_state set_rk_state]. unfold step_result in Es.
  destruct (gcrf_vector_list _) as [rr vv]. repeat (apply bind_ok in Es; destruct Es as [? [_ Es]]).
  injection Es as <-. reflexivity.
Qed.
Lemma steps_no_srp n : forall p q r, rk4_steps n p = (q, r) -> no_srp p -> no_srp q.
Proof.
  induction n as [|n IH]; intros p q r E H; cbn [rk4_steps] in E; [injection E as <- _; auto|].
  destruct (rk4_step p) as [p1 [u|e]] eqn:Es; [|injection E as <- _; eapply step_no_srp; eauto].
  eapply IH; eauto. eapply step_no_srp; eauto.
Qed.
Lemma to_no_srp p e q r : rk4_step_to_epoch p e = (q, r) -> no_srp p -> no_srp q.
Proof.
  unfold rk4_step_to_epoch. cbv zeta. intros E H.
  destruct (rk4_steps _ _) as [p1 r1] eqn:Es.
  assert (no_srp p1) by (eapply steps_no_srp; [exact Es|]; destruct (0 <? _)%Z; exact H).
  destruct r1; injection E as <- _; auto.
Qed.
Lemma burn_no_srp p d a b i q r : rk4_maneuver p d a b i = (q, r) -> no_srp p -> no_srp q.
Proof.
  unfold rk4_maneuver. intros E H. destruct (burn_duration _ _ _ _) as [T|e]; [|injection E as <- _; auto].
  cbv zeta in E. destruct (rk4_step_to_epoch _ _) as [p1 r1] eqn:Es.
  assert (no_srp p1) by (eapply to_no_srp; [exact Es|exact H]). destruct r1; injection E as <- _; auto.
Qed.
Lemma Spacecraft_inv s c : Spacecraft s = Ok c -> exists k w n,
  Camera_wfov = Ok w /\ Camera_nfov = Ok n /\ 0 < k /\
  let init := Gcrf (g_epoch s) (g_position s) (g_velocity s) zero3 k true in
  c = attitude_lvlh (Craft init (Params DEFAULT_ALBEDO DEFAULT_RADIUS DEFAULT_SLEW_SCALE DEFAULT_POINTING_ACCURACY
         DEFAULT_M_DOT DEFAULT_ISP DEFAULT_MASS DEFAULT_PROP_MASS) w n None Lvlh None false None (RK4 init) zero3 zero3 zero3).
Proof.
  unfold Spacecraft. cbv zeta. intros E. apply bind_ok in E. destruct E as [w [Ew E]].
  apply bind_ok in E. destruct E as [n [En E]]. apply bind_ok in E. destruct E as [k [Ek E]].
  exists k, w, n. repeat split; auto.
  - unfold srp_scalar, total_mass, area in Ek. cbn [albedo body_radius dry_mass propellant_mass] in Ek.
    unfold DEFAULT_MASS, DEFAULT_PROP_MASS in Ek. rewrite pdiv_ok in Ek by lra. injection Ek as <-.
    apply Rdiv_pos; [|lra]. unfold DEFAULT_ALBEDO, DEFAULT_RADIUS, BASE_IN_KILO. assert (H := PI_RGT_0).
    generalize dependent PI. intros x H. lra.
  - cbv zeta. unfold update_slew in E. cbn [slewing attitude_lvlh set_body] in E. injection E as <-. reflexivity.
Qed.
Lemma no_srp_closed : closed (fun c => no_srp (propagator c)).
Proof.
  constructor; intros; cbn [propagator attitude_lvlh attitude_solar attitude_target set_body set_slewing set_slew_stop
    set_steering set_tracked set_filter set_params set_propagator]; auto.
  - eapply step_no_srp; eauto.
  - eapply to_no_srp; eauto.
  - eapply burn_no_srp; eauto.
  - reflexivity.
  - apply Spacecraft_inv in H. destruct H as (k & w & n & _ & _ & _ & ->). reflexivity.
Qed.
Lemma srp_zero s a : g_srp_scalar s = 0 -> acceleration_from_srp s = Ok a -> a = zero3.
Proof.
  unfold acceleration_from_srp. intros H E. cbv zeta in E.
  apply bind_ok in E. destruct E as [u [_ E]]. apply bind_ok in E. destruct E as [k [Ek E]]. injection E as <-.
  apply pdiv_inv in Ek. destruct Ek as [N ->]. rewrite H. rewrite v3_scaled_scale.
  rewrite Rmult_0_r. unfold Rdiv. rewrite Rmult_0_l. veq; ring.
Qed.

(** * The stored axes *)
Lemma axes_lvlh c : axes_ok (attitude_lvlh c).
Proof.
  unfold axes_ok, attitude_lvlh. cbn [body_x body_y body_z set_body]. set (r := sc_position c). set (v := sc_velocity c).
  unfold earth_vector. fold r. change v3_cross with cross.
  repeat split.
  - vunf; ring.
  - vunf; ring.
  - vunf; ring.
  - exists (dot (cross r v) (cross r v)). split; [apply dot_self_nonneg|]. veq; ring.
Qed.
Lemma axes_solar c : axes_ok (attitude_solar c).
Proof.
  unfold axes_ok, attitude_solar. cbn [body_x body_y body_z set_body]. set (z := v3_scaled (sc_sun_vector c) (-1)). clearbody z.
  change v3_cross with cross. repeat split.
  - vunf; ring.
  - vunf; ring.
  - vunf; ring.
  - exists (dot (cross z (V3 0 0 1)) (cross z (V3 0 0 1))). split; [apply dot_self_nonneg|]. veq; ring.
Qed.
Lemma axes_target c t : axes_ok (attitude_target c t).
Proof.
  unfold axes_ok, attitude_target. cbn [body_x body_y body_z set_body]. set (z := target_vector c t). set (s := sc_sun_vector c). clearbody z s.
  change v3_cross with cross. repeat split.
  - vunf; ring.
  - vunf; ring.
  - vunf; ring.
  - exists (dot (cross z s) (cross z s)). split; [apply dot_self_nonneg|]. veq; ring.
Qed.
Lemma axes_closed : closed axes_ok.
Proof.
  constructor; intros; auto using axes_lvlh, axes_solar, axes_target.
  apply Spacecraft_inv in H. destruct H as (k & w & n & _ & _ & _ & ->). apply axes_lvlh.
Qed.

(** * No error of the propagator is the model's own fuel error *)
Definition calm {A} (r : res A) : Prop := r <> Err OutOfFuel.
Lemma calm_ok A (a : A) : calm (Ok a). Proof. discriminate. Qed.
Lemma calm_bind A B (r : res A) (f : A -> res B) : calm r -> (forall a, calm (f a)) -> calm (bind r f).
Proof. unfold calm. destruct r; cbn; auto. congruence. Qed.
Lemma calm_pdiv x y : calm (pdiv x y).
Proof. unfold calm, pdiv. destruct (neq y 0); discriminate. Qed.
Lemma calm_psqrt x : calm (psqrt x).
Proof. unfold calm, psqrt. destruct (nlt x 0); discriminate. Qed.
Lemma calm_plog x : calm (plog x).
Proof. unfold calm, plog. destruct (nle x 0); discriminate. Qed.
Lemma calm_normalized a : calm (v3_normalized a).
Proof. unfold v3_normalized. repeat (apply calm_bind; [apply calm_pdiv|intros]). apply calm_ok. Qed.
Create HintDb calm.
Global Hint Resolve calm_ok calm_pdiv calm_psqrt calm_plog calm_normalized : calm.
Ltac calming := repeat first [apply calm_ok | apply calm_pdiv | apply calm_plog | apply calm_normalized
  | apply calm_bind; [|intros] | progress cbv zeta].
Lemma calm_rotation e : calm (Earth_rotation e).
Proof. unfold Earth_rotation, v3_rotation_matrix. cbv zeta. calming. Qed.
Lemma calm_to_itrf v e : calm (gcrf_to_itrf v e).
Proof. unfold gcrf_to_itrf. apply calm_bind; [apply calm_rotation|intros; apply calm_ok]. Qed.
Lemma calm_to_gcrf v e : calm (itrf_to_gcrf v e).
Proof. unfold itrf_to_gcrf, itrf_to_mod, itrf_to_tod. calming. Qed.
Lemma calm_gravity s : calm (acceleration_from_gravity s).
Proof.
  unfold acceleration_from_gravity, gravity_ecef. apply calm_bind; [apply calm_to_itrf|intros].
  apply calm_bind; [|intros; apply calm_to_gcrf]. calming.
Qed.
Lemma calm_third m a b : calm (third_body m a b).
Proof. unfold third_body. calming. Qed.
Lemma calm_moon e : calm (Moon_get_position e).
Proof. destruct (Moon_norm e) as [m [E _]]. rewrite E. apply calm_ok. Qed.
Lemma calm_derivative s : calm (derivative s).
Proof.
  unfold derivative, acceleration_from_earth, acceleration_from_moon, acceleration_from_sun, acceleration_from_srp. cbv zeta.
  apply calm_bind; [calming|intros]. apply calm_bind; [|intros; apply calm_ok].
  destruct (g_use_perturbations s); [|apply calm_ok].
  apply calm_bind; [|intros]. { apply calm_bind; [|intros; apply calm_third]. apply calm_moon. }
  apply calm_bind; [apply calm_third|intros]. apply calm_bind; [calming|intros].
  apply calm_bind; [apply calm_gravity|intros; apply calm_ok].
Qed.
Lemma calm_thrust p t : calm (thrust_vector p t).
Proof.
  unfold thrust_vector. destruct (neq _ _); [apply calm_ok|]. destruct (neq _ _); calming.
Qed.
Lemma calm_stage p e r v k a b : calm (stage p e r v k a b).
Proof. unfold stage. cbv zeta. apply calm_bind; [apply calm_thrust|intros; apply calm_ok]. Qed.
Lemma calm_step p : calm (snd (rk4_step p)).
Proof.
  unfold rk4_step. assert (T := calm_thrust p 0). destruct (thrust_vector p 0); [|intros E; apply T; cbn in E; congruence].
  cbv zeta. assert (C : calm (step_result (set_rk_state p (set_thrust (rk_state p) a)))).
  { unfold step_result. cbv zeta. destruct (gcrf_vector_list _) as [r v].
    repeat (apply calm_bind; [apply calm_derivative || apply calm_stage|intros]). apply calm_ok. }
  destruct (step_result _); [discriminate|]. intros E; apply C; cbn in E; congruence.
Qed.
Lemma calm_steps n : forall p, calm (snd (rk4_steps n p)).
Proof.
  induction n as [|n IH]; intros p; cbn [rk4_steps]; [discriminate|].
  assert (C := calm_step p). destruct (rk4_step p) as [q [u|e]]; [apply IH|exact C].
Qed.
Lemma calm_to p e : calm (snd (rk4_step_to_epoch p e)).
Proof.
  unfold rk4_step_to_epoch. cbv zeta. match goal with |- context [rk4_steps ?n ?q] => assert (C := calm_steps n q) end.
  destruct (rk4_steps _ _) as [q [u|x]]; [discriminate|exact C].
Qed.

(** * Synchronisation of tracked targets *)
Definition kept (c d : craft) : Prop :=
  propagator d = propagator c /\ steering d = steering c /\ tracked_target d = tracked_target c /\
  sc_params d = sc_params c /\ slew_stop d = slew_stop c.
Lemma kept_refl c : kept c c. Proof. repeat split. Qed.
Lemma kept_trans a b c : kept a b -> kept b c -> kept a c.
Proof. intros (A1 & A2 & A3 & A4 & A5) (B1 & B2 & B3 & B4 & B5). repeat split; congruence. Qed.
Lemma kept_clock c d : kept c d -> clock d = clock c /\ place_of d = place_of c /\ motion_of d = motion_of c.
Proof. intros (A & _). unfold clock, place_of, motion_of. rewrite A. auto. Qed.

(** The number of spacecraft whose clock is not [t]. *)
Definition late (t : R) (w : world) : nat := length (filter (fun c => negb (neq (clock c) t)) w).
Lemma late_set w : forall t j c d, nth_error w j = Some c -> clock c <> t -> clock d = t -> (S (late t (set_nth w j d)) = late t w)%nat.
Proof.
  unfold late. induction w as [|e w IH]; intros t [|j] c d E N H; cbn in E; try discriminate.
  - injection E as ->. cbn. rewrite (neq_false (clock c)) by auto. rewrite (neq_true (clock d)) by auto. reflexivity.
  - cbn. destruct (negb (neq (clock e) t)); cbn; rewrite <- (IH t j c d E N H); auto.
Qed.

Lemma chain_before w t j c d : nth_error w j = Some c -> kept (set_propagator c (propagator d)) d -> clock d = t ->
  forall x k, chain (set_nth w j d) t x k -> chain w t x k.
Proof.
  intros E (_ & K1 & K2 & _) T x k H. cbn in K1, K2.
  assert (L : forall x a, nth_error (set_nth w j d) x = Some a -> exists b, nth_error w x = Some b /\ steering b = steering a /\ tracked_target b = tracked_target a /\ (clock a <> t -> b = a)).
  { intros y a Ha. destruct (Nat.eq_dec y j) as [->|N].
    - rewrite (set_nth_same w j d c E) in Ha. injection Ha as <-. exists c. repeat split; auto. intros X. contradiction.
    - rewrite set_nth_other in Ha by auto. exists a. auto. }
  induction H as [x y a b Ea S Tr Eb N | x y z a b Ea S Tr Eb N H IH].
  - destruct (L _ _ Ea) as (a' & Ea' & S' & T' & _). destruct (L _ _ Eb) as (b' & Eb' & _ & _ & B). rewrite (B N) in Eb'.
    eapply chain_one; eauto; congruence.
  - destruct (L _ _ Ea) as (a' & Ea' & S' & T' & _). destruct (L _ _ Eb) as (b' & Eb' & _ & _ & B). rewrite (B N) in Eb'.
    eapply chain_more; eauto; congruence.
Qed.
Lemma chain_after w t j c d : nth_error w j = Some c -> kept (set_propagator c (propagator d)) d -> clock d = t ->
  forall x k, chain w t x k -> k = j \/ chain (set_nth w j d) t x k \/ chain (set_nth w j d) t j k.
Proof.
  intros E (_ & K1 & K2 & _) T x k H. cbn in K1, K2.
  assert (L : forall x a, nth_error w x = Some a -> exists b, nth_error (set_nth w j d) x = Some b /\ steering b = steering a /\ tracked_target b = tracked_target a).
  { intros y a Ha. destruct (Nat.eq_dec y j) as [->|N].
    - rewrite E in Ha. injection Ha as <-. exists d. repeat split; auto. eapply set_nth_same; eauto.
    - exists a. rewrite set_nth_other by auto. auto. }
  induction H as [x y a b Ea S Tr Eb N | x y z a b Ea S Tr Eb N H IH].
  - destruct (Nat.eq_dec y j) as [->|Ny]; [left; auto|]. right; left.
    destruct (L _ _ Ea) as (a' & Ea' & S' & T'). eapply (chain_one _ _ x y a' b); try congruence. rewrite set_nth_other; auto.
  - destruct IH as [->|[IH|IH]]; auto.
    destruct (Nat.eq_dec y j) as [->|Ny]; [auto|]. right; left.
    destruct (L _ _ Ea) as (a' & Ea' & S' & T'). eapply (chain_more _ _ x y z a' b); try congruence. rewrite set_nth_other; auto.
Qed.
Lemma chain_late w t x k : chain w t x k -> exists d, nth_error w k = Some d /\ clock d <> t.
Proof. induction 1; eauto. Qed.

Lemma slew_kept c d : update_slew c = Ok d -> kept c d /\ body_x d = body_x c /\ body_y d = body_y c /\ body_z d = body_z c /\
  (slewing d = true <-> slewing c = true /\ exists e, slew_stop c = Some e /\ clock c <= value e).
Proof.
  unfold update_slew. destruct (slewing c) eqn:S.
  - destruct (slew_stop c) as [e|] eqn:E; [|discriminate].
    change (value (current_epoch c)) with (clock c). destruct (nlt_spec (value e) (clock c)); intros H; injection H as <-.
    + split; [repeat split|]. do 3 (split; [reflexivity|]). cbn. split; [discriminate|]. intros [_ (e' & Ee & L)]. injection Ee as <-. lra.
    + split; [repeat split|]. do 3 (split; [reflexivity|]). split; auto. intros _. split; auto. exists e. split; auto. lra.
  - intros H. injection H as <-. split; [repeat split|]. do 3 (split; [reflexivity|]). split; [congruence|intros [X _]; congruence].
Qed.
Lemma points_kept w w' c d : kept c d -> body_y d = body_y c -> body_z d = body_z c ->
  (forall k a, nth_error w k = Some a -> exists b, nth_error w' k = Some b /\ propagator b = propagator a) ->
  points w c -> points w' d.
Proof.
  intros K By Bz H P. destruct (kept_clock _ _ K) as (Kc & Kp & Km). destruct K as (K0 & K1 & K2 & _). unfold points in *.
  rewrite K1, Kp, Km, By, Bz, K0. destruct (steering c); auto.
  destruct P as (j & t & T & E & Z & Cl). destruct (H _ _ E) as (b & Eb & Pb). exists j, b.
  unfold place_of at 1, clock. rewrite Pb, K2. repeat split; auto. rewrite K0. exact Cl.
Qed.

(** What an update of [i] did. *)
Record updated (i : nat) (c : craft) (w w' : world) (r : res unit) : Prop := {
  up_len : length w' = length w;
  up_rest : forall k, k <> i -> ~ chain w (clock c) i k -> nth_error w' k = nth_error w k;
  up_synced : r = Ok tt -> forall k, chain w (clock c) i k -> exists d d', nth_error w k = Some d /\ nth_error w' k = Some d' /\
    clock d' = clock c /\ points w' d' /\ steering d' = steering d /\ tracked_target d' = tracked_target d /\
    sc_params d' = sc_params d /\ slew_stop d' = slew_stop d /\
    (slewing d' = true <-> slewing d = true /\ exists e, slew_stop d = Some e /\ clock c <= value e);
  up_own : exists c', nth_error w' i = Some c' /\ kept c c';
  up_done : r = Ok tt -> exists c', nth_error w' i = Some c' /\ kept c c' /\ points w' c' /\
    (slewing c' = true <-> slewing c = true /\ exists e, slew_stop c = Some e /\ clock c <= value e) }.

Lemma finish_done i w c d r w' r' : nth_error w i = Some c -> finish i (set_nth w i d, r) = (w', r') ->
  kept c d -> slewing d = slewing c ->
  (w' = set_nth w i d /\ (r' <> Ok tt) /\ (r = Ok tt -> exists e, update_slew d = Err e)) \/
  (exists e, r = Ok tt /\ r' = Ok tt /\ w' = set_nth w i e /\ update_slew d = Ok e).
Proof.
  intros E F K S. unfold finish in F. destruct r as [[]|x].
  2: { injection F as <- <-. left. repeat split; [discriminate|discriminate]. }
  rewrite (set_nth_same w i d c E) in F. destruct (update_slew d) as [e|x].
  2: { injection F as <- <-. left. repeat split; [discriminate|eauto]. }
  injection F as <- <-. right. exists e. repeat split; auto.
  clear. revert i. induction w as [|a w IH]; intros [|i]; cbn; auto. rewrite IH; auto.
Qed.
Lemma unit_tt (r : res unit) u : r = Ok u -> r = Ok tt. Proof. destruct u; auto. Qed.

Lemma finished i c w w1 d (r' : res unit) w' :
  (* w1: the world after targets were synchronised; d: i with its new axes *)
  nth_error w i = Some c -> length w1 = length w -> nth_error w1 i = Some c -> kept c d -> slewing d = slewing c ->
  points (set_nth w1 i d) d ->
  (forall k, k <> i -> ~ chain w (clock c) i k -> nth_error w1 k = nth_error w k) ->
  (forall k, chain w (clock c) i k -> exists a a', nth_error w k = Some a /\ nth_error w1 k = Some a' /\
    clock a' = clock c /\ points w1 a' /\ steering a' = steering a /\ tracked_target a' = tracked_target a /\
    sc_params a' = sc_params a /\ slew_stop a' = slew_stop a /\
    (slewing a' = true <-> slewing a = true /\ exists e, slew_stop a = Some e /\ clock c <= value e)) ->
  finish i (set_nth w1 i d, Ok tt) = (w', r') -> updated i c w w' r'.
Proof.
  intros E L E1 K S P Rest Sync F.
  assert (NC : ~ chain w (clock c) i i).
  { intros H. apply chain_late in H. destruct H as (a & Ea & N). rewrite E in Ea. injection Ea as <-. auto. }
  assert (Stay : forall x, propagator x = propagator c -> forall k a, nth_error w1 k = Some a -> exists b, nth_error (set_nth w1 i x) k = Some b /\ propagator b = propagator a).
  { intros x Px k a Ea. destruct (Nat.eq_dec k i) as [->|N].
    - exists x. rewrite E1 in Ea. injection Ea as <-. split; auto. eapply set_nth_same; eauto.
    - exists a. rewrite set_nth_other by auto. auto. }
  destruct (finish_done i w1 c d (Ok tt) w' r' E1 F K S) as [(-> & N & _) | (e & _ & -> & -> & U)].
  - constructor.
    + rewrite set_nth_length. auto.
    + intros k Nk Ck. rewrite set_nth_other by auto. auto.
    + intros X. contradiction.
    + exists d. split; auto. eapply set_nth_same; eauto.
    + intros X. contradiction.
  - destruct (slew_kept _ _ U) as (Ke & Bx & By & Bz & Sl).
    assert (Kce := kept_trans _ _ _ K Ke). assert (Pe := proj1 Kce).
    constructor.
    + rewrite set_nth_length. auto.
    + intros k Nk Ck. rewrite set_nth_other by auto. auto.
    + intros _ k Ck. destruct (Sync k Ck) as (a & a' & A1 & A2 & A3 & A4 & A5). exists a, a'.
      assert (k <> i) by (intros ->; auto). rewrite set_nth_other by auto. split; auto; split; auto; split; auto; split; [|tauto].
      apply (points_kept w1 _ a' a'); auto using kept_refl.
    + exists e. split; auto. eapply set_nth_same; eauto.
    + intros _. exists e. split; [eapply set_nth_same; eauto|]. split; auto. split.
      * apply (points_kept (set_nth w1 i d) _ d e); auto. intros k a Ea. destruct (Nat.eq_dec k i) as [->|Nk].
        -- exists e. split; [eapply set_nth_same; eauto|]. rewrite (set_nth_same w1 i d c E1) in Ea. injection Ea as <-. apply Ke.
        -- exists a. rewrite set_nth_other in * by auto. auto.
      * rewrite Sl, S. destruct (kept_clock _ _ K) as (-> & _). destruct K as (_ & _ & _ & _ & ->). tauto.
Qed.
Lemma updated_same i c w r : nth_error w i = Some c -> r <> Ok tt -> updated i c w w r.
Proof.
  intros E N. constructor; auto; try contradiction. exists c. split; auto. apply kept_refl.
Qed.

Lemma update_spec : forall fuel i w c w' r, nth_error w i = Some c -> update_attitude fuel i w = (w', r) ->
  updated i c w w' r /\ ((late (clock c) w < fuel)%nat -> calm r).
Proof.
  induction fuel as [|fuel IH]; intros i w c w' r E U.
  { cbn in U. injection U as <- <-. split; [apply updated_same; [auto|discriminate]|lia]. }
  rewrite update_unfold, E in U.
  assert (NC : ~ chain w (clock c) i i).
  { intros H. apply chain_late in H. destruct H as (a & Ea & N). rewrite E in Ea. injection Ea as <-. auto. }
  assert (CF : forall x y, fst (finish i x) = y -> calm (snd x) -> calm (snd (finish i x))).
  { intros [x rx] y _ Cx. unfold finish. destruct rx; [|exact Cx]. destruct (nth_error x i) as [a0|]; [|discriminate].
    unfold update_slew. destruct (slewing a0); [destruct (slew_stop a0); discriminate|discriminate]. }
  assert (CU : forall x, finish i x = (w', r) -> calm (snd x) -> calm r).
  { intros x Fx Cx. assert (Y := CF x _ eq_refl Cx). rewrite Fx in Y. exact Y. }
  unfold aim in U. destruct (steering c) eqn:M.
  - split; [|intros _; eapply CU; [exact U|discriminate]].
    eapply (finished i c w w (attitude_lvlh c)); eauto; [repeat split| |intros k Ck; exfalso].
    + unfold points. replace (steering (attitude_lvlh c)) with Lvlh by (symmetry; exact M). split; [|reflexivity].
      unfold attitude_lvlh, earth_vector. cbn [body_z set_body]. rewrite v3_scaled_scale. veq; unfold place_of; cbn; ring.
    + inversion Ck; subst; congruence.
  - split; [|intros _; eapply CU; [exact U|discriminate]].
    eapply (finished i c w w (attitude_solar c)); eauto; [repeat split| |intros k Ck; exfalso].
    + unfold points. replace (steering (attitude_solar c)) with Solar by (symmetry; exact M).
      unfold attitude_solar, sc_sun_vector, gcrf_sun_vector. cbn [body_z set_body]. rewrite v3_scaled_scale.
      change (g_epoch (rk_state (propagator (set_body _ _ _ _)))) with (g_epoch (rk_state (propagator c))).
      change (g_epoch (current_state c)) with (g_epoch (rk_state (propagator c))).
      generalize (Sun_get_position (g_epoch (rk_state (propagator c)))); intros s. veq; unfold place_of; cbn; ring.
    + inversion Ck; subst; congruence.
  - destruct (tracked_target c) as [j|] eqn:Tr.
    2: { split; [|intros _; eapply CU; [exact U|discriminate]]. injection U as <- <-. apply updated_same; [auto|discriminate]. }
    destruct (nth_error w j) as [t|] eqn:Ej.
    2: { split; [|intros _; eapply CU; [exact U|discriminate]]. injection U as <- <-. apply updated_same; [auto|discriminate]. }
    unfold sync in U. change (value (current_epoch t)) with (clock t) in U. change (value (current_epoch c)) with (clock c) in U.
    assert (Aim : forall w1 t1 w' r, length w1 = length w -> nth_error w1 i = Some c -> nth_error w1 j = Some t1 -> clock t1 = clock c ->
       (forall k, k <> i -> ~ chain w (clock c) i k -> nth_error w1 k = nth_error w k) ->
       (forall k, chain w (clock c) i k -> exists a a', nth_error w k = Some a /\ nth_error w1 k = Some a' /\
          clock a' = clock c /\ points w1 a' /\ steering a' = steering a /\ tracked_target a' = tracked_target a /\
          sc_params a' = sc_params a /\ slew_stop a' = slew_stop a /\
          (slewing a' = true <-> slewing a = true /\ exists e, slew_stop a = Some e /\ clock c <= value e)) ->
       finish i (set_nth w1 i (attitude_target c t1), Ok tt) = (w', r) -> updated i c w w' r).
    { intros w1 t1 w2 r2 L1 E1 Ej1 T1 R1 S1 F1. eapply (finished i c w w1 (attitude_target c t1)); eauto; [repeat split|].
      unfold points. replace (steering (attitude_target c t1)) with Target by (symmetry; exact M).
      destruct (Nat.eq_dec j i) as [->|Nj].
      - exists i, (attitude_target c t1). rewrite E1 in Ej1. injection Ej1 as <-. repeat split; auto.
        + eapply set_nth_same; eauto.
      - exists j, t1. rewrite set_nth_other by auto. repeat split; auto. }
    destruct (neq_spec (clock t) (clock c)) as [Eq|Ne].
    + rewrite E, Ej in U. split; [|intros _; eapply CU; [exact U|discriminate]].
      eapply Aim; eauto. intros k Ck. exfalso. inversion Ck; subst; congruence.
    + assert (Nij : j <> i) by (intros ->; rewrite E in Ej; injection Ej as <-; auto).
      destruct (rk4_step_to_epoch (propagator t) (current_epoch c)) as [p rp] eqn:Ep.
      set (t' := set_propagator t p) in *. assert (Et : nth_error (set_nth w j t') j = Some t') by (eapply set_nth_same; eauto).
      assert (Ei : nth_error (set_nth w j t') i = Some c) by (rewrite set_nth_other by auto; auto).
      destruct rp as [[]|x].
      2: { cbn in U. injection U as <- <-. split.
        - constructor; try discriminate.
          + apply set_nth_length.
          + intros k Nk Ck. apply set_nth_other. intros ->. apply Ck. eapply chain_one; eauto.
          + exists c. split; auto. apply kept_refl.
        - intros _. assert (Y := calm_to (propagator t) (current_epoch c)). rewrite Ep in Y. exact Y. }
      assert (Ct : clock t' = clock c).
      { apply step_to_epoch_lands in Ep. destruct Ep as [Ep _]. unfold clock, t'. cbn [propagator set_propagator]. rewrite Ep. reflexivity. }
      destruct (update_attitude fuel j (set_nth w j t')) as [w2 r2] eqn:U2.
      destruct (IH j (set_nth w j t') t' w2 r2 Et U2) as [[ul ur us uo ud] uc]. rewrite Ct in *.
      assert (Kt : kept (set_propagator t (propagator t')) t') by apply kept_refl.
      assert (Ai : nth_error w2 i = Some c).
      { rewrite ur; auto. intros H. apply chain_late in H. destruct H as (a & Ea & N). rewrite Ei in Ea. injection Ea as <-. auto. }
      assert (Lt : (late (clock c) w < S fuel)%nat -> (late (clock c) (set_nth w j t') < fuel)%nat).
      { intros H. assert (Y := late_set w (clock c) j t t' Ej Ne Ct). lia. }
      assert (Rest : forall k, k <> i -> ~ chain w (clock c) i k -> nth_error w2 k = nth_error w k).
      { intros k Nk Ck. assert (Nkj : k <> j) by (intros ->; apply Ck; eapply chain_one; eauto).
        rewrite ur; auto. - apply set_nth_other; auto.
        - intros H. apply Ck. eapply chain_more; eauto. eapply chain_before; eauto. }
      destruct r2 as [[]|x].
      2: { cbn in U. injection U as <- <-. split; [|intros H; apply uc; auto].
        constructor; try discriminate; auto.
        - rewrite ul. apply set_nth_length.
        - exists c. split; auto. apply kept_refl. }
      destruct (ud eq_refl) as (t2 & Et2 & Kt2 & Pt2 & St2). rewrite Ai, Et2 in U.
      destruct (kept_clock _ _ Kt2) as (Ct2 & _).
      split; [|intros H; eapply CU; [exact U|discriminate]].
      eapply (Aim w2 t2); eauto; [rewrite ul; apply set_nth_length|congruence|].
      intros k Ck. assert (Cs : k = j \/ chain (set_nth w j t') (clock c) j k).
      { inversion Ck as [x y a b Ea Sa Ta Eb Nb | x y z a b Ea Sa Ta Eb Nb H']; subst.
        - left. rewrite E in Ea. injection Ea as <-. congruence.
        - rewrite E in Ea. injection Ea as <-. rewrite Tr in Ta. injection Ta as <-.
          destruct (chain_after w (clock c) j t t' Ej Kt Ct _ _ H') as [?|[?|?]]; auto. }
      destruct (Nat.eq_dec k j) as [->|Nkj].
      * exists t, t2. destruct Kt2 as (B1 & B2 & B3 & B4 & B5). 
        split; [exact Ej|]. split; [exact Et2|]. split; [congruence|]. split; [exact Pt2|]. split; [exact B2|].
        split; [exact B3|]. split; [exact B4|]. split; [exact B5|]. exact St2.
      * destruct Cs as [?|Cs]; [contradiction|]. destruct (us eq_refl k Cs) as (a & a' & A1 & A2 & A3 & A4).
        exists a, a'. rewrite set_nth_other in A1 by auto. tauto.
Qed.
