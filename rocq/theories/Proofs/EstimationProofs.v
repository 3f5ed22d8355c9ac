(** Simulated observations and the filter of a spacecraft. *)
From Coq Require Import Reals Lra Lia List Nsatz.
From Verif.Model Require Import Num Constants Linalg Functions Time Celestial Positions States Inertial Relative Obs Filtering Constraints Payloads Artificial.
From Verif.Spec Require Import Geometry Gravity Covariance Operations Sensing Acquisition.
From Verif.Proofs Require Import NumLemmas LinalgProofs FunctionsProofs StatesProofs PositionsProofs RelativeProofs FilteringProofs PayloadsProofs AccelerationProofs ArtificialProofs TrackingProofs.
Local Open Scope R_scope.

Lemma target_vector_is c t : target_vector c t = sub (place_of t) (place_of c).
Proof. unfold target_vector, sc_position, place_of, current_state. rewrite !v3_copy_id. reflexivity. Qed.
Lemma off_pole d : ~ (x3 d = 0 /\ y3 d = 0) -> d <> zero3.
Proof. intros H ->. apply H. cbn. auto. Qed.

Lemma same_vector v w : norm w = norm v -> dot v w = norm v * norm v -> w = v.
Proof.
  intros N D. assert (Z : norm (sub w v) = 0).
  { apply Rsqr_0_uniq. unfold Rsqr. rewrite norm_sq.
    replace (dot (sub w v) (sub w v)) with (dot w w - 2 * dot v w + dot v v) by (unfold dot, sub; cbn; ring).
    rewrite <- !norm_sq, N, D. ring. }
  apply norm_zero in Z. apply (f_equal (fun u => add u v)) in Z.
  destruct v as [a b c], w as [a' b' c']. unfold add, sub, zero3 in Z. cbn in Z. injection Z as Z1 Z2 Z3. f_equal; lra.
Qed.
Lemma noise_free u v re ae : ~ (x3 v = 0 /\ y3 v = 0) -> v3_with_noise 0 0 u v re ae = Ok v.
Proof.
  intros H. assert (Nz := norm_pos v (off_pole v H)).
  destruct (with_noise_spec 0 0 u v re ae H) as (w & E & N & D); [unfold gauss; lra|].
  rewrite E. f_equal. unfold gauss in *. rewrite ?Rmult_0_l, ?Rplus_0_r, ?cos_0 in *.
  apply same_vector; [rewrite N, Rabs_pos_eq; lra|lra].
Qed.

(** what with_noise raises *)
Lemma with_noise_error z1 z2 u v re ae x : v3_with_noise z1 z2 u v re ae = Err x <->
  x = ZeroDivisionError /\ ((x3 v = 0 /\ y3 v = 0) \/ norm v + z1 * re = 0).
Proof.
  destruct (vec3_zero_dec v) as [->|Nv].
  - unfold v3_with_noise, v3_with_magnitude_noise. replace (v3_normalized zero3) with (@Err vec3 ZeroDivisionError).
    + cbn [bind]. split; [intros E; injection E as <-; split; auto; left; cbn; auto|intros [-> _]; reflexivity].
    + symmetry. apply normalized_error_iff. auto.
  - destruct (magnitude_noise_spec z1 v re Nv) as (w & E & n & N1 & V & W). rewrite (with_noise_compose _ _ _ _ _ _ _ E).
    rewrite angular_noise_error_iff. unfold gauss in W. assert (P := norm_pos v Nv).
    assert (X : (x3 w = 0 /\ y3 w = 0) <-> ((x3 v = 0 /\ y3 v = 0) \/ norm v + z1 * re = 0)).
    { rewrite W. cbn [scale x3 y3]. assert (Xv : x3 v = norm v * x3 n) by (rewrite V at 1; reflexivity).
      assert (Yv : y3 v = norm v * y3 n) by (rewrite V at 1; reflexivity). rewrite Xv, Yv. split.
      - intros [A B]. destruct (Req_dec (norm v + z1 * re) 0) as [Z|Z]; [auto|left].
        apply Rmult_integral in A. apply Rmult_integral in B. destruct A as [A|A]; [lra|]. destruct B as [B|B]; [lra|]. rewrite A, B. lra.
      - intros [[A B]|Z].
        + apply Rmult_integral in A. apply Rmult_integral in B. destruct A as [A|A]; [lra|]. destruct B as [B|B]; [lra|]. rewrite A, B. lra.
        + rewrite Z. lra. }
    tauto.
Qed.

(** * Observations *)
Lemma range_error_of px f cam r b : 0 < px -> 0 < f < PI / 2 -> Camera px f = Ok cam -> b <> 0 ->
  range_error cam r (b * 2) = Ok (sensor_error px f b r).
Proof.
  intros P F E B. rewrite (range_error_is px f cam P F E) by lra. f_equal. unfold sensor_error. field. lra.
Qed.
Lemma spherical_radius d : radius (spherical_from_cartesian d) = norm d.
Proof. destruct (sph_ranges d) as (D & _). exact D. Qed.
Lemma observe_ok (cam : craft -> camera) px f z1 z2 u c t : 0 < px -> 0 < f < PI / 2 -> Camera px f = Ok (cam c) -> body_radius (sc_params t) <> 0 ->
  let d := sub (place_of t) (place_of c) in let re := sensor_error px f (body_radius (sc_params t)) (norm d) in
  ~ (x3 d = 0 /\ y3 d = 0) -> norm d + z1 * re <> 0 ->
  exists ob, observe cam z1 z2 u c t = Ok ob /\
    g_epoch (so_observer_state ob) = g_epoch (rk_state (propagator c)) /\
    g_position (so_observer_state ob) = place_of c /\ g_velocity (so_observer_state ob) = motion_of c /\
    norm (so_observed_direction ob) = Rabs (norm d + z1 * re) /\
    dot d (so_observed_direction ob) = norm d * (norm d + z1 * re) * cos (z2 * pointing_accuracy (sc_params c)) /\
    so_range ob = Rabs (norm d + z1 * re) /\
    so_range_error ob = re /\ so_angular_error ob = pointing_accuracy (sc_params c).
Proof.
  intros P F E B d re H G. unfold observe. cbv zeta. rewrite target_vector_is. fold d. rewrite v3_magnitude_norm.
  rewrite (range_error_of px f (cam c) (norm d) _ P F E B). fold re. cbn [bind].
  destruct (with_noise_spec z1 z2 u d re (pointing_accuracy (sc_params c)) H G) as (w & W & N & D). rewrite W. cbn [bind].
  eexists. split; [reflexivity|]. unfold SpaceObservation. cbv zeta.
  cbn [so_observer_state so_observed_direction so_range so_range_error so_angular_error]. rewrite v3_copy_id, spherical_radius.
  unfold gauss in *. rewrite Rplus_0_l in D.
  unfold current_state, place_of, motion_of. destruct (rk_state (propagator c)) as [e p v th sr nt]. unfold gcrf_copy, GCRF. cbn [g_epoch g_position g_velocity].
  split; [unfold epoch_copy; destruct e; reflexivity|]. repeat split; auto.
Qed.
Lemma observe_raises (cam : craft -> camera) px f z1 z2 u c t x : 0 < px -> 0 < f < PI / 2 -> Camera px f = Ok (cam c) ->
  let d := sub (place_of t) (place_of c) in
  observe cam z1 z2 u c t = Err x <-> x = ZeroDivisionError /\
    (body_radius (sc_params t) = 0 \/ (x3 d = 0 /\ y3 d = 0) \/
     norm d + z1 * sensor_error px f (body_radius (sc_params t)) (norm d) = 0).
Proof.
  intros P F E d. unfold observe. cbv zeta. rewrite target_vector_is. fold d. rewrite v3_magnitude_norm.
  destruct (Req_dec (body_radius (sc_params t)) 0) as [Z|Z].
  - rewrite Z. unfold range_error. rewrite Rmult_0_l, pdiv_zero. cbn [bind]. split; [intros X; injection X as <-; auto|intros [-> _]; reflexivity].
  - rewrite (range_error_of px f (cam c) (norm d) _ P F E Z). cbn [bind].
    destruct (v3_with_noise z1 z2 u d _ _) as [w|y] eqn:W; cbn [bind].
    + split; [discriminate|]. intros [-> [Q|Q]]; [contradiction|]. exfalso.
      assert (K := proj2 (with_noise_error z1 z2 u d (sensor_error px f (body_radius (sc_params t)) (norm d)) (pointing_accuracy (sc_params c)) ZeroDivisionError) (conj eq_refl Q)).
      congruence.
    + apply with_noise_error in W. destruct W as [-> Q]. split; [intros X; injection X as <-; auto|intros [-> _]; reflexivity].
Qed.
Lemma observe_exact (cam : craft -> camera) px f u c t : 0 < px -> 0 < f < PI / 2 -> Camera px f = Ok (cam c) -> body_radius (sc_params t) <> 0 ->
  let d := sub (place_of t) (place_of c) in ~ (x3 d = 0 /\ y3 d = 0) ->
  observe cam 0 0 u c t = Ok (SpaceObservation (current_state c) d (sensor_error px f (body_radius (sc_params t)) (norm d)) (pointing_accuracy (sc_params c))).
Proof.
  intros P F E B d H. unfold observe. cbv zeta. rewrite target_vector_is. fold d. rewrite v3_magnitude_norm.
  rewrite (range_error_of px f (cam c) (norm d) _ P F E B). cbn [bind]. rewrite noise_free by auto. reflexivity.
Qed.

(** * The measurement of a noise-free observation *)
Lemma hcw_place o s s' : g_position s = g_position s' ->
  match gcrf_to_hcw o s with Ok h => Ok (s_position h) | Err e => Err e end =
  match gcrf_to_hcw o s' with Ok h => Ok (s_position h) | Err e => Err e end.
Proof.
  intros E. destruct (vec3_zero_dec (cross (g_position o) (g_velocity o))) as [Z|N].
  - unfold gcrf_to_hcw. cbv zeta. rewrite frame_err by exact Z. reflexivity.
  - destruct (Req_dec (x3 (apply3 (frame o) (g_position s))) 0) as [X|X]; [destruct (Req_dec (y3 (apply3 (frame o) (g_position s))) 0) as [Y|Y]|].
    + rewrite (gcrf_to_hcw_axis o s N X Y). rewrite E in X, Y. rewrite (gcrf_to_hcw_axis o s' N X Y). reflexivity.
    + rewrite (gcrf_to_hcw_ok o s N (or_intror Y)). rewrite E in Y. rewrite (gcrf_to_hcw_ok o s' N (or_intror Y)). cbn [s_position]. rewrite E. reflexivity.
    + rewrite (gcrf_to_hcw_ok o s N (or_introl X)). rewrite E in X. rewrite (gcrf_to_hcw_ok o s' N (or_introl X)). cbn [s_position]. rewrite E. reflexivity.
Qed.
Lemma current_state_is c : g_epoch (current_state c) = g_epoch (rk_state (propagator c)) /\ g_position (current_state c) = place_of c /\
  g_velocity (current_state c) = motion_of c.
Proof.
  unfold current_state, place_of, motion_of. destruct (rk_state (propagator c)) as [e p v th sr nt].
  unfold gcrf_copy, GCRF, epoch_copy. cbn [g_epoch g_position g_velocity]. destruct e. repeat split.
Qed.
Lemma hill_position_place c t s : g_position s = place_of t ->
  hill_position c t = match gcrf_to_hcw (current_state c) s with Ok h => Ok (s_position h) | Err e => Err e end.
Proof.
  intros E. unfold hill_position. rewrite (hcw_place (current_state c) s (current_state t)).
  - destruct (gcrf_to_hcw _ (current_state t)); reflexivity.
  - rewrite E. symmetry. apply (current_state_is t).
Qed.
Lemma exact_measurement (cam : craft -> camera) px f u c t k k' : good k -> 0 < px -> 0 < f < PI / 2 -> Camera px f = Ok (cam c) -> body_radius (sc_params t) <> 0 ->
  let d := sub (place_of t) (place_of c) in ~ (x3 d = 0 /\ y3 d = 0) ->
  forall ob, observe cam 0 0 u c t = Ok ob -> kalman_process k ob = (k', Ok tt) ->
  exists z, k_z k' = Some z /\ hill_position c t = Ok z.
Proof.
  intros G P F E B d H ob O K. rewrite (observe_exact cam px f u c t P F E B H) in O. injection O as <-.
  destruct (process_accepted _ _ _ G K) as (_ & hz & he & ff & g & p & Z & _ & _ & _ & _ & _ & ->). cbn [k_z].
  exists (s_position hz). split; [reflexivity|].
  fold d in Z. match type of Z with context [so_epoch ?a] => set (ob := a) in * end.
  assert (So : so_observer_state ob = current_state c) by reflexivity.
  assert (Sd : so_observed_direction ob = d) by reflexivity.
  rewrite (hill_position_place c t (GCRF (so_epoch ob) (seen ob) (g_velocity (so_observer_state ob)))).
  - rewrite So in Z. rewrite So, Z. reflexivity.
  - unfold GCRF. cbn [g_position]. unfold seen. rewrite So, Sd. destruct (current_state_is c) as (_ & -> & _).
    unfold d, add, sub. destruct (place_of t), (place_of c). cbn. f_equal; ring.
Qed.

(** * The filter a spacecraft starts with *)
Lemma sma_cases c : place_of c <> zero3 -> let w := 2 / norm (place_of c) - norm (motion_of c) ^ 2 / mu_earth in
  (w <> 0 /\ sc_sma c = Ok (1 / w)) \/ (w = 0 /\ sc_sma c = Err ZeroDivisionError).
Proof.
  intros N w. assert (Np := norm_pos _ N). unfold sc_sma, A_from_mu_r_v, sc_position, sc_velocity. rewrite !v3_copy_id, !v3_magnitude_norm.
  destruct (current_state_is c) as (_ & -> & _). fold (motion_of c). change Earth_MU with mu_earth.
  rewrite pdiv_ok by lra. cbn [bind]. rewrite pdiv_ok by (unfold mu_earth; lra). cbn [bind].
  rewrite (v3_magnitude_norm (motion_of c)). replace (norm (motion_of c) * norm (motion_of c)) with (norm (motion_of c) ^ 2) by ring. unfold w. clear w.
  generalize (2 / norm (place_of c) - norm (motion_of c) ^ 2 / mu_earth). intros w.
  destruct (Req_dec w 0) as [Z|Z]; [right|left]; (split; [exact Z|]); [rewrite Z; apply pdiv_zero|apply pdiv_ok; auto].
Qed.
Lemma energy_is c : place_of c <> zero3 -> 2 / norm (place_of c) - norm (motion_of c) ^ 2 / mu_earth = - 2 * energy c / mu_earth.
Proof. intros N. assert (Np := norm_pos _ N). unfold energy. assert (M : mu_earth <> 0) by (unfold mu_earth; lra). generalize dependent mu_earth. intros m M. field. lra. Qed.
Lemma quotient_neg a b : (0 < a /\ b < 0) \/ (a < 0 /\ 0 < b) -> a / b < 0.
Proof.
  intros [[A B]|[A B]].
  - assert (P := Rdiv_pos a (- b) A ltac:(lra)). replace (a / b) with (- (a / - b)) by (field; lra). lra.
  - assert (P := Rdiv_pos (- a) b ltac:(lra) B). replace (a / b) with (- (- a / b)) by (field; lra). lra.
Qed.
Lemma make_filter_ok c t : cross (place_of c) (motion_of c) <> zero3 -> cross (place_of t) (cross (place_of c) (motion_of c)) <> zero3 ->
  energy c < 0 -> exists k h, make_filter c t = Ok k /\
    RelativeKalman (g_epoch (rk_state (propagator c))) h = Ok k /\
    hcw_to_gcrf (hl_state h) (current_state c) = Ok (GCRF (g_epoch (rk_state (propagator c))) (place_of t) (motion_of t)) /\
    hl_sma h = - mu_earth / (2 * energy c) /\ 0 < hl_n h /\ hl_n h ^ 2 * hl_sma h ^ 3 = mu_earth.
Proof.
  intros N A En. destruct (current_state_is c) as (Ce & Cp & Cv). destruct (current_state_is t) as (Te & Tp & Tv).
  assert (P0 : place_of c <> zero3) by (intros Z; apply N; rewrite Z; unfold cross, zero3; cbn; f_equal; ring).
  unfold make_filter. destruct (hcw_cases (current_state c) (current_state t)) as [(_ & _ & h & H & B)|([R|R] & _)].
  2:{ exfalso. unfold radial_orbit in R. rewrite Cp, Cv in R. contradiction. }
  2:{ exfalso. rewrite Tp, Cp, Cv in R. contradiction. }
  rewrite H. cbn [bind]. assert (M : 0 < mu_earth) by (unfold mu_earth; lra).
  assert (W : 0 < - 2 * energy c / mu_earth) by (apply Rdiv_pos; lra).
  destruct (sma_cases c P0) as [(Z & S)|(Z & S)]; rewrite (energy_is c P0) in *; [|lra]. rewrite S. cbn [bind].
  destruct (Hill_ok h (1 / (- 2 * energy c / mu_earth))) as (hl & L & Ln & Le & Ls & La & Lt); [apply Rdiv_pos; lra|].
  rewrite L. cbn [bind]. unfold current_epoch. rewrite Ce.
  destruct (start_ok (g_epoch (rk_state (propagator c))) hl) as (k & K); [lra|].
  exists k, hl. assert (Ec : epoch_copy (g_epoch (rk_state (propagator c))) = g_epoch (rk_state (propagator c))) by (unfold epoch_copy; destruct (g_epoch _); reflexivity).
  rewrite Ec. split; [exact K|]. split; [exact K|]. rewrite Ls. split; [rewrite B, Ce, Tp, Tv; reflexivity|].
  split; [rewrite La; clear - M En; generalize dependent mu_earth; intros; field; lra|]. split; [exact Ln|]. rewrite La. exact Le.
Qed.
Lemma make_filter_err c t x : make_filter c t = Err x <->
  (x = ZeroDivisionError /\ (cross (place_of c) (motion_of c) = zero3 \/ cross (place_of t) (cross (place_of c) (motion_of c)) = zero3 \/ energy c = 0)) \/
  (x = ValueError /\ cross (place_of c) (motion_of c) <> zero3 /\ cross (place_of t) (cross (place_of c) (motion_of c)) <> zero3 /\ 0 < energy c).
Proof.
  destruct (current_state_is c) as (Ce & Cp & Cv). destruct (current_state_is t) as (Te & Tp & Tv). assert (M : 0 < mu_earth) by (unfold mu_earth; lra).
  destruct (hcw_cases (current_state c) (current_state t)) as [(R & A & h & H & _)|(R & H)]; unfold radial_orbit in R; rewrite ?Tp, ?Cp, ?Cv in *.
  - assert (P0 : place_of c <> zero3) by (intros Z; apply R; rewrite Z; unfold cross, zero3; cbn; f_equal; ring).
    destruct (Rtotal_order (energy c) 0) as [L|[Z|G]].
    + destruct (make_filter_ok c t R A L) as (k & hl & K & _). rewrite K. split; [discriminate|]. intros [(_ & [Q|[Q|Q]])|(_ & _ & _ & Q)]; try contradiction; lra.
    + unfold make_filter. rewrite H. cbn [bind]. destruct (sma_cases c P0) as [(Q & S)|(Q & S)]; rewrite (energy_is c P0) in *.
      * exfalso. apply Q. rewrite Z. lra.
      * rewrite S. cbn [bind]. split; [intros X; injection X as <-; auto|]. intros [(-> & _)|(_ & _ & _ & X)]; [reflexivity|lra].
    + unfold make_filter. rewrite H. cbn [bind]. assert (W : - 2 * energy c / mu_earth < 0) by (apply quotient_neg; right; split; lra).
      destruct (sma_cases c P0) as [(Q & S)|(Q & S)]; rewrite (energy_is c P0) in *; [|lra]. rewrite S. cbn [bind].
      assert (X : 1 / (- 2 * energy c / mu_earth) < 0) by (apply quotient_neg; left; split; lra).
      rewrite Hill_err by lra. destruct (Req_EM_T _ 0) as [Y|Y]; [lra|]. cbn [bind].
      split; [intros Z; injection Z as <-; auto|]. intros [(_ & [Z|[Z|Z]])|(-> & _)]; try contradiction; [lra|reflexivity].
  - unfold make_filter. rewrite H. cbn [bind]. split; [intros X; injection X as <-; tauto|]. intros [(-> & _)|(_ & X & Y & _)]; [reflexivity|tauto].
Qed.

(** * Which operations change a filter *)
Definition filters (w : world) : list (option kalman) := map sc_filter w.
Lemma filters_set w : forall i c d, nth_error w i = Some d -> sc_filter c = sc_filter d -> filters (set_nth w i c) = filters w.
Proof. unfold filters. induction w as [|a w IH]; intros [|i] c d E F; cbn in *; try discriminate; [injection E as <-; congruence|]. f_equal. eapply IH; eauto. Qed.
Lemma filters_nth w w' i c : filters w' = filters w -> nth_error w i = Some c -> exists c', nth_error w' i = Some c' /\ sc_filter c' = sc_filter c.
Proof.
  intros F E. assert (X : nth_error (filters w') i = nth_error (filters w) i) by congruence. unfold filters in X. rewrite !nth_error_map, E in X. cbn in X.
  destruct (nth_error w' i) as [c'|]; [|discriminate]. cbn in X. injection X as X. eauto.
Qed.
Lemma finish_filters i w r w' r' : finish i (w, r) = (w', r') -> filters w' = filters w.
Proof.
  intros E. unfold finish in E. destruct r as [u|e]; [|injection E as <- _; auto].
  destruct (nth_error w i) as [c|] eqn:Ei; [|injection E as <- _; auto].
  destruct (update_slew c) as [d|e] eqn:S; injection E as <- _; auto. eapply filters_set; [exact Ei|].
  unfold update_slew in S. destruct (slewing c); [|injection S as <-; auto]. destruct (slew_stop c); [|discriminate]. injection S as <-. destruct (nlt _ _); reflexivity.
Qed.
Lemma update_filters : forall fuel i w w' r, update_attitude fuel i w = (w', r) -> filters w' = filters w.
Proof.
  induction fuel as [|fuel IH]; intros i w w' r E.
  { cbn in E. injection E as <- _. auto. }
  rewrite update_unfold in E. destruct (nth_error w i) as [c|] eqn:Ei; [|injection E as <- _; auto].
  destruct (aim fuel i c w) as [w1 r1] eqn:Ea. apply finish_filters in E. rewrite E. clear E.
  unfold aim in Ea. destruct (steering c).
  - injection Ea as <- _. eapply filters_set; [exact Ei|reflexivity].
  - injection Ea as <- _. eapply filters_set; [exact Ei|reflexivity].
  - destruct (tracked_target c) as [j|]; [|injection Ea as <- _; auto].
    destruct (nth_error w j) as [t|] eqn:Ej; [|injection Ea as <- _; auto].
    destruct (sync fuel j (current_epoch c) t w) as [w2 r2] eqn:Es.
    assert (H2 : filters w2 = filters w).
    { unfold sync in Es. destruct (neq _ _); [injection Es as <- _; auto|].
      destruct (rk4_step_to_epoch (propagator t) (current_epoch c)) as [p [u|e]] eqn:Er.
      - rewrite (IH _ _ _ _ Es). eapply filters_set; [exact Ej|reflexivity].
      - injection Es as <- _. eapply filters_set; [exact Ej|reflexivity]. }
    destruct r2 as [u|e]; [|injection Ea as <- _; auto].
    destruct (nth_error w2 i) as [c2|] eqn:E1; [|injection Ea as <- _; auto].
    destruct (nth_error w2 j) as [t2|]; [|injection Ea as <- _; auto].
    injection Ea as <- _. rewrite <- H2. eapply filters_set; [exact E1|reflexivity].
Qed.
Lemma store_filters fuel i w d c r0 w' r : nth_error w i = Some d -> sc_filter c = sc_filter d -> store_and_update fuel i w (c, r0) = (w', r) -> filters w' = filters w.
Proof.
  intros Ei F E. unfold store_and_update in E. destruct r0 as [u|e].
  - rewrite (update_filters _ _ _ _ _ E). eapply filters_set; eauto.
  - injection E as <- _. eapply filters_set; eauto.
Qed.
Lemma slew_filters c v c' r : start_slew c v = (c', r) -> sc_filter c' = sc_filter c.
Proof. unfold start_slew. destruct (v3_angle (body_z c) v); intros E; injection E as <- _; reflexivity. Qed.
Lemma track_state_filters fuel i j w w' r : track_state fuel i j w = (w', r) -> filters w' = filters w.
Proof.
  intros E. unfold track_state in E. destruct (nth_error w i) as [c|] eqn:Ei; [|injection E as <- _; auto].
  destruct (nth_error w j) as [t|] eqn:Ej; [|injection E as <- _; auto]. cbv zeta in E. destruct (mode_eqb (steering c) Target).
  - eapply store_filters; [exact Ei| |exact E]; auto.
  - destruct (start_slew _ _) as [c' r0] eqn:Es. eapply store_filters; [exact Ei| |exact E]. rewrite (slew_filters _ _ _ _ Es). reflexivity.
Qed.
Lemma process_filters cam z1 z2 u i j w w' r k : process cam z1 z2 u i j w = (w', r) -> k <> i -> nth_error w' k = nth_error w k.
Proof.
  intros E N. unfold process in E. destruct (nth_error w i) as [c|] eqn:Ei; [|injection E as <- _; auto].
  destruct (nth_error w j) as [t|] eqn:Ej; [|injection E as <- _; auto].
  destruct (observe cam z1 z2 u c t) as [ob|e]; [|injection E as <- _; auto].
  destruct (sc_filter c) as [f|]; [|injection E as <- _; auto]. destruct (kalman_process f ob) as [k' r'].
  injection E as <- _. apply set_nth_other. exact N.
Qed.
(** [plain o]: neither a new spacecraft nor an acquisition nor a simulated observation *)
Definition plain (o : op) : Prop :=
  match o with New _ | Acquire _ _ | ProcessWide _ _ _ _ _ | ProcessNarrow _ _ _ _ _ => False | _ => True end.
Lemma plain_filters fuel o w w' r : run_op fuel o w = (w', r) -> plain o -> filters w' = filters w.
Proof.
  intros E N. destruct o as [s|a p|a|a e|a|a|a j|a|a b|a dv|a j|z1 z2 u a j|z1 z2 u a j]; cbn [run_op] in E; cbn [plain] in N; try contradiction.
  - destruct (nth_error w a) as [d|] eqn:Ei; injection E as <- _; [|reflexivity]. eapply filters_set; [exact Ei|reflexivity].
  - unfold sc_step in E. destruct (nth_error w a) as [d|] eqn:Ei; [|injection E as <- _; auto].
    destruct (rk4_step (propagator d)) as [p [u|x]] eqn:Er; [rewrite (update_filters _ _ _ _ _ E)|injection E as <- _]; (eapply filters_set; [exact Ei|reflexivity]).
  - unfold sc_step_to_epoch in E. destruct (nth_error w a) as [d|] eqn:Ei; [|injection E as <- _; auto].
    destruct (rk4_step_to_epoch (propagator d) e) as [p [u|x]] eqn:Er; [rewrite (update_filters _ _ _ _ _ E)|injection E as <- _]; (eapply filters_set; [exact Ei|reflexivity]).
  - unfold track_lvlh in E. destruct (nth_error w a) as [d|] eqn:Ei; [|injection E as <- _; auto]. cbv zeta in E. destruct (mode_eqb (steering d) Lvlh).
    + eapply store_filters; [exact Ei| |exact E]; auto.
    + destruct (start_slew _ _) as [c' r0] eqn:Es. eapply store_filters; [exact Ei| |exact E]. rewrite (slew_filters _ _ _ _ Es). reflexivity.
  - unfold track_sun in E. destruct (nth_error w a) as [d|] eqn:Ei; [|injection E as <- _; auto]. cbv zeta in E. destruct (mode_eqb (steering d) Solar).
    + eapply store_filters; [exact Ei| |exact E]; auto.
    + destruct (start_slew _ _) as [c' r0] eqn:Es. eapply store_filters; [exact Ei| |exact E]. rewrite (slew_filters _ _ _ _ Es). reflexivity.
  - eapply track_state_filters; eauto.
  - eapply update_filters; eauto.
  - unfold impulsive_maneuver in E. destruct (nth_error w a) as [d|] eqn:Ei; [|injection E as <- _; auto].
    destruct (hcw_to_gcrf _ _) as [g|e]; injection E as <- _; auto. eapply filters_set; [exact Ei|reflexivity].
  - unfold finite_maneuver in E. destruct (nth_error w a) as [d|] eqn:Ei; [|injection E as <- _; auto].
    destruct (craft_finite_maneuver d dv) as [c' r0] eqn:Ef. injection E as <- _. eapply filters_set; [exact Ei|].
    unfold craft_finite_maneuver in Ef. destruct (HCW_frame_matrix (current_state d)) as [fm|e]; [|injection Ef as <- _; auto].
    cbv zeta in Ef. destruct (rk4_maneuver _ _ _ _ _) as [p [u|e]] eqn:Er; [|injection Ef as <- _; auto].
    destruct (finite_dt _ _ _ _); injection Ef as <- _; auto.
Qed.
Lemma run_filters fuel o w w' r i c : run_op fuel o w = (w', r) -> ~ estimates i o -> nth_error w i = Some c ->
  exists c', nth_error w' i = Some c' /\ sc_filter c' = sc_filter c.
Proof.
  intros E N Ec. assert (K : plain o -> exists c', nth_error w' i = Some c' /\ sc_filter c' = sc_filter c) by (intros F; apply (filters_nth w w' i c); [exact (plain_filters fuel o w w' r E F)|exact Ec]).
  destruct o as [s|a p|a|a e|a|a|a j|a|a b|a dv|a j|z1 z2 u a j|z1 z2 u a j]; try (apply K; exact I); clear K; cbn [run_op] in E; cbn [estimates] in N.
  - destruct (Spacecraft s) as [d|e] eqn:Es; injection E as <- _; [|eauto]. exists c. split; auto. rewrite nth_error_app1; auto. apply nth_error_Some. congruence.
  - unfold acquire in E. destruct (nth_error w a) as [d|] eqn:Ei; [|injection E as <- _; eauto].
    destruct (nth_error w j) as [t|] eqn:Ej; [|injection E as <- _; eauto].
    destruct (make_filter d t) as [k|e]; [|injection E as <- _; eauto].
    apply track_state_filters in E. assert (X : nth_error (set_nth w a (set_filter d k)) i = Some c) by (rewrite set_nth_other; auto).
    destruct (filters_nth _ _ i c E X) as (c' & A & B). eauto.
  - rewrite <- (process_filters _ _ _ _ _ _ _ _ _ i E) in Ec by auto. eauto.
  - rewrite <- (process_filters _ _ _ _ _ _ _ _ _ i E) in Ec by auto. eauto.
Qed.
Lemma process_ok cam z1 z2 u i j w w' r c t k : nth_error w i = Some c -> nth_error w j = Some t -> sc_filter c = Some k ->
  process cam z1 z2 u i j w = (w', r) ->
  (exists ob, observe cam z1 z2 u c t = Ok ob /\ w' = set_nth w i (set_filter c (fst (kalman_process k ob))) /\ r = snd (kalman_process k ob)) \/
  (exists e, observe cam z1 z2 u c t = Err e /\ w' = w /\ r = Err e).
Proof.
  intros Ei Ej Ek E. unfold process in E. rewrite Ei, Ej in E. destruct (observe cam z1 z2 u c t) as [ob|e].
  - rewrite Ek in E. left. exists ob. split; auto. destruct (kalman_process k ob). injection E as <- <-. auto.
  - right. injection E as <- <-. eauto.
Qed.
Lemma process_none cam z1 z2 u i j w c t : nth_error w i = Some c -> nth_error w j = Some t -> sc_filter c = None ->
  fst (process cam z1 z2 u i j w) = w /\ snd (process cam z1 z2 u i j w) <> Ok tt.
Proof.
  intros Ei Ej Ek. unfold process. rewrite Ei, Ej. destruct (observe cam z1 z2 u c t) as [ob|e]; [rewrite Ek|]; split; auto; discriminate.
Qed.
Lemma acquire_ok fuel i j w w' r c t k : nth_error w i = Some c -> nth_error w j = Some t -> make_filter c t = Ok k ->
  acquire fuel i j w = (w', r) -> exists c', nth_error w' i = Some c' /\ sc_filter c' = Some k.
Proof.
  intros Ei Ej Ek E. unfold acquire in E. rewrite Ei, Ej, Ek in E. apply track_state_filters in E.
  destruct (filters_nth _ _ i (set_filter c k) E (set_nth_same w i _ c Ei)) as (c' & A & B). eauto.
Qed.
Lemma make_filter_kalman c t k : make_filter c t = Ok k -> exists e h, RelativeKalman e h = Ok k /\ 0 < hl_n h.
Proof.
  intros E. destruct (vec3_zero_dec (cross (place_of c) (motion_of c))) as [Z|Z].
  { assert (X := proj2 (make_filter_err c t ZeroDivisionError) ltac:(tauto)). congruence. }
  destruct (vec3_zero_dec (cross (place_of t) (cross (place_of c) (motion_of c)))) as [Y|Y].
  { assert (X := proj2 (make_filter_err c t ZeroDivisionError) ltac:(tauto)). congruence. }
  destruct (Rtotal_order (energy c) 0) as [L|[L|L]].
  - destruct (make_filter_ok c t Z Y L) as (k' & h & K & R & _ & _ & N & _). assert (k' = k) by congruence. subst. eauto.
  - assert (X := proj2 (make_filter_err c t ZeroDivisionError) ltac:(tauto)). congruence.
  - assert (X := proj2 (make_filter_err c t ValueError) ltac:(tauto)). congruence.
Qed.
Definition sound_filter (c : craft) : Prop := forall k, sc_filter c = Some k ->
  exists e h k0 l, RelativeKalman e h = Ok k0 /\ 0 < hl_n h /\ k = observe_all l k0.
Lemma estimates_dec i o : estimates i o \/ ~ estimates i o.
Proof. destruct o; cbn; auto; apply Nat.eq_decidable. Qed.
Lemma process_length cam z1 z2 u i j w w' r : process cam z1 z2 u i j w = (w', r) -> length w' = length w.
Proof.
  unfold process. destruct (nth_error w i) as [c|]; [|intros E; injection E as <- _; auto].
  destruct (nth_error w j) as [t|]; [|intros E; injection E as <- _; auto].
  destruct (observe cam z1 z2 u c t) as [ob|e]; [|intros E; injection E as <- _; auto].
  destruct (sc_filter c) as [f|]; [|intros E; injection E as <- _; auto]. destruct (kalman_process f ob).
  intros E; injection E as <- _. apply set_nth_length.
Qed.
Lemma process_sound cam z1 z2 u i j w w' r c' : process cam z1 z2 u i j w = (w', r) -> (forall c, nth_error w i = Some c -> sound_filter c) ->
  nth_error w' i = Some c' -> sound_filter c'.
Proof.
  intros E S H. unfold process in E. destruct (nth_error w i) as [c|] eqn:Ei; [|injection E as <- _; congruence].
  destruct (nth_error w j) as [t|]; [|injection E as <- _; apply S; congruence].
  destruct (observe cam z1 z2 u c t) as [ob|e]; [|injection E as <- _; apply S; congruence].
  destruct (sc_filter c) as [f|] eqn:F; [|injection E as <- _; apply S; congruence]. destruct (kalman_process f ob) as [f' r'] eqn:P.
  injection E as <- _. rewrite (set_nth_same w i _ c Ei) in H. injection H as <-. intros k K. cbn in K. injection K as <-.
  destruct (S c eq_refl f F) as (e & h & k0 & l & A & B & D). exists e, h, k0, (l ++ ob :: nil). split; [exact A|]. split; [exact B|].
  unfold observe_all. rewrite fold_left_app. cbn [fold_left]. change (fold_left _ l k0) with (observe_all l k0). rewrite <- D, P. reflexivity.
Qed.
Lemma run_sound fuel o w w' r : run_op fuel o w = (w', r) -> (forall i c, nth_error w i = Some c -> sound_filter c) ->
  forall i c, nth_error w' i = Some c -> sound_filter c.
Proof.
  intros E S i c' H. destruct (estimates_dec i o) as [X|X].
  - destruct o; cbn [estimates run_op] in X, E; try contradiction; subst.
    + unfold acquire in E. destruct (nth_error w i) as [c|] eqn:Ei; [|injection E as <- _; congruence].
      destruct (nth_error w j) as [t|] eqn:Ej; [|injection E as <- _; apply (S i); congruence].
      destruct (make_filter c t) as [k|e] eqn:M; [|injection E as <- _; apply (S i); congruence].
      apply track_state_filters in E. destruct (filters_nth _ _ i (set_filter c k) E (set_nth_same w i _ c Ei)) as (c2 & A & B).
      assert (c2 = c') by congruence. subst. intros k' K. rewrite B in K. cbn in K. injection K as <-.
      destruct (make_filter_kalman c t k M) as (e & h & R & N). exists e, h, k, nil. auto.
    + eapply process_sound; eauto.
    + eapply process_sound; eauto.
  - destruct (nth_error w i) as [c|] eqn:Ei.
    + destruct (run_filters fuel o w w' r i c E X Ei) as (c2 & A & B). assert (c2 = c') by congruence. subst. intros k K. apply (S i c Ei). congruence.
    + assert (L : (length w <= i)%nat) by (apply nth_error_None; auto). assert (L' : (i < length w')%nat) by (apply nth_error_Some; congruence).
      intros k K. exfalso. clear S X.
      assert (Pl : plain o -> False).
      { intros Pl. assert (F := plain_filters fuel o w w' r E Pl). apply (f_equal (@length _)) in F. unfold filters in F. rewrite !map_length in F. lia. }
      destruct o as [s|a p|a|a e|a|a|a j|a|a b|a dv|a j|z1 z2 u a j|z1 z2 u a j]; try (apply Pl; exact I); cbn [run_op] in E; clear Pl.
      * destruct (Spacecraft s) as [d|e] eqn:Es; injection E as <- _; [|lia]. rewrite nth_error_app2 in H by auto.
        rewrite app_length in L'. cbn in L'. replace (i - length w)%nat with 0%nat in H by lia. cbn in H. injection H as <-.
        destruct (Spacecraft_inv s d Es) as (q1 & q2 & q3 & _ & _ & _ & Q). cbv zeta in Q. rewrite Q in K. discriminate.
      * unfold acquire in E. destruct (nth_error w a) as [d|] eqn:Ea; [|injection E as <- _; lia].
        destruct (nth_error w j) as [t|] eqn:Ej; [|injection E as <- _; lia].
        destruct (make_filter d t) as [f|e]; [|injection E as <- _; lia].
        apply track_state_filters in E. apply (f_equal (@length _)) in E. unfold filters in E. rewrite !map_length, set_nth_length in E. lia.
      * apply process_length in E. lia.
      * apply process_length in E. lia.
Qed.
Lemma reachable_sound w : reachable w -> forall i c, nth_error w i = Some c -> sound_filter c.
Proof.
  induction 1 as [|fuel o w w' r R IH E]; intros i c H; [destruct i; discriminate|]. exact (run_sound fuel o w w' r E IH i c H).
Qed.

(** * Observations the filter accepts *)
Lemma sphere_norm r a b : norm (V3 (r * (cos a * cos b)) (r * (cos a * sin b)) (r * sin a)) = Rabs r.
Proof.
  rewrite <- sqrt_Rsqr_abs. unfold norm. f_equal. unfold dot, Rsqr. cbn [x3 y3 z3].
  assert (A := sin2_cos2 a). assert (B := sin2_cos2 b). unfold Rsqr in *. nsatz.
Qed.
Lemma near_accepted e h k0 l ob : RelativeKalman e h = Ok k0 -> momentum ob <> zero3 -> 0 <= so_range_error ob ->
  so_range ob = norm (so_observed_direction ob) ->
  2 * norm (so_observed_direction ob) + so_range_error ob < norm (g_position (so_observer_state ob)) ->
  snd (kalman_process (observe_all l k0) ob) = Ok tt.
Proof.
  intros E M Re Rg B. assert (G := reachable_good e h k0 l E). assert (N := norm_nonneg (so_observed_direction ob)).
  destruct (process_cases _ ob G) as [(O & k' & P & _)|(O & _)]; [rewrite P; reflexivity|]. exfalso. apply O. split; [exact M|].
  split; apply near_off_axis; auto.
  - replace (sub (seen ob) _) with (so_observed_direction ob); [lra|]. unfold seen, sub, add. destruct (so_observed_direction ob), (g_position _). cbn. f_equal; ring.
  - unfold displaced. cbv zeta.
    match goal with |- norm (sub (add ?r (sub ?v ?d)) ?r) < _ => replace (sub (add r (sub v d)) r) with (sub v d) by (unfold sub, add; destruct r, d; cbn; f_equal; ring) end.
    eapply Rle_lt_trans; [apply norm_sub_le|]. rewrite sphere_norm, Rabs_pos_eq by lra. lra.
Qed.
Lemma near_processed (cam : craft -> camera) px f z1 z2 u i j w c t k : reachable w -> nth_error w i = Some c -> nth_error w j = Some t -> sc_filter c = Some k ->
  0 < px -> 0 < f < PI / 2 -> Camera px f = Ok (cam c) -> 0 < body_radius (sc_params t) ->
  let d := sub (place_of t) (place_of c) in let re := sensor_error px f (body_radius (sc_params t)) (norm d) in
  ~ (x3 d = 0 /\ y3 d = 0) -> norm d + z1 * re <> 0 -> cross (place_of c) (motion_of c) <> zero3 ->
  2 * Rabs (norm d + z1 * re) + re < norm (place_of c) ->
  snd (process cam z1 z2 u i j w) = Ok tt.
Proof.
  intros R Ei Ej Ek P F E B d re H H1 M L. destruct (observe_ok cam px f z1 z2 u c t P F E ltac:(lra) H H1) as (ob & O & _ & Op & Ov & On & _ & Or & Oe & _).
  fold d re in On, Or, Oe. unfold process. rewrite Ei, Ej, O, Ek.
  destruct (reachable_sound w R i c Ei k Ek) as (e & h & k0 & l & A & _ & D).
  assert (Re : 0 <= re).
  { unfold re, sensor_error. assert (T := tan_pos f F). assert (Q := pow2_ge_0 (norm d)).
    assert (0 < 4 * px * body_radius (sc_params t)) by (apply Rmult_lt_0_compat; lra).
    apply Rmult_le_pos; [apply Rmult_le_pos; lra|]. left. apply Rinv_0_lt_compat. auto. }
  assert (X := near_accepted e h k0 l ob A). rewrite <- D in X.
  destruct (kalman_process k ob) as [k' r] eqn:K. cbn [snd] in *. apply X.
  - unfold momentum. rewrite Op, Ov. exact M.
  - rewrite Oe. exact Re.
  - congruence.
  - rewrite On, Oe, Op. exact L.
Qed.

(** * Tracking a target whose clock agrees *)
Lemma set_nth_twice w : forall i a b, set_nth (set_nth w i a) i b = set_nth w i b.
Proof. induction w as [|d w IH]; intros [|i] a b; cbn; auto. f_equal. apply IH. Qed.
Lemma track_in_sync fuel i j w c t : nth_error w i = Some c -> nth_error w j = Some t -> i <> j -> steering c <> Target ->
  body_z c <> zero3 -> place_of t <> place_of c -> clock t = clock c -> exists c', track_state (S fuel) i j w = (set_nth w i c', Ok tt) /\
  propagator c' = propagator c /\ sc_filter c' = sc_filter c /\ sc_params c' = sc_params c /\ wfov c' = wfov c /\ steering c' = Target /\ tracked_target c' = Some j /\ slew_stop c' <> None.
Proof.
  intros Ei Ej N M Hz D C. unfold track_state. rewrite Ei, Ej.
  assert (Y : mode_eqb (steering c) Target = false) by (destruct (steering c); auto; contradiction). rewrite Y. cbv zeta.
  set (c1 := set_slewing _ true). rewrite target_vector_is. change (place_of c1) with (place_of c).
  assert (Hd : sub (place_of t) (place_of c) <> zero3).
  { intros X. apply D. destruct (place_of t), (place_of c). unfold sub, zero3 in X. cbn in X. injection X as X1 X2 X3. f_equal; lra. }
  destruct (angle_spec (body_z c) _ Hz Hd) as (th & Et & _). rewrite (start_slew_ok c1 _ th) by auto.
  cbn [store_and_update]. set (c2 := set_slew_stop c1 _). rewrite update_unfold, (set_nth_same w i c2 c Ei).
  unfold aim. change (steering c2) with Target. change (tracked_target c2) with (Some j). cbv iota.
  rewrite (set_nth_other w i j c2) by auto. rewrite Ej. unfold sync.
  assert (Q : neq (value (current_epoch t)) (value (current_epoch c2)) = true).
  { apply neq_true. unfold current_epoch, epoch_copy. cbn [value]. rewrite (proj1 (current_state_is t)), (proj1 (current_state_is c2)). exact C. }
  rewrite Q, (set_nth_same w i c2 c Ei), (set_nth_other w i j c2), Ej by auto. unfold finish.
  rewrite (set_nth_same (set_nth w i c2) i _ c2) by (eapply set_nth_same; eauto). unfold update_slew.
  change (slewing (attitude_target c2 t)) with true. cbv iota. change (slew_stop (attitude_target c2 t)) with (slew_stop c2).
  assert (Ss : slew_stop c2 = Some (Epoch (clock c1 + th * slew_scalar (sc_params c1)))) by reflexivity. rewrite Ss, !set_nth_twice.
  eexists. split; [reflexivity|]. destruct (nlt _ _); repeat split; change (slew_stop c2 <> None); rewrite Ss; discriminate.
Qed.
Lemma update_in_sync fuel i j w c t : nth_error w i = Some c -> nth_error w j = Some t -> steering c = Target -> tracked_target c = Some j ->
  slew_stop c <> None -> clock t = clock c -> exists w', update_attitude (S fuel) i w = (w', Ok tt).
Proof.
  intros Ei Ej M Tr Ss C. rewrite update_unfold, Ei. unfold aim. rewrite M, Tr, Ej. unfold sync.
  assert (Q : neq (value (current_epoch t)) (value (current_epoch c)) = true).
  { apply neq_true. unfold current_epoch, epoch_copy. cbn [value]. rewrite (proj1 (current_state_is t)), (proj1 (current_state_is c)). exact C. }
  rewrite Q, Ei, Ej. unfold finish. rewrite (set_nth_same w i _ c Ei). unfold update_slew.
  change (slewing (attitude_target c t)) with (slewing c). change (slew_stop (attitude_target c t)) with (slew_stop c).
  destruct (slewing c); [|eexists; reflexivity]. destruct (slew_stop c); [eexists; reflexivity|contradiction].
Qed.
