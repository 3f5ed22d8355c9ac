(** Proofs about observations and ground sites. *)
From Coq Require Import Reals Lra Lia.
From Verif.Model Require Import Num Constants Linalg Functions Time Celestial Positions States Obs Artificial Terrestrial.
From Verif.Spec Require Import Geometry.
From Verif.Proofs Require Import NumLemmas LinalgProofs TimeProofs CelestialProofs GeodeticProofs PositionsProofs StatesProofs.
Local Open Scope R_scope.

Lemma angles_round_trip o az el r re ae : 0 <= az < 2 * PI -> - (PI / 2) < el < PI / 2 -> 0 < r ->
  let ob := from_angles_and_range o az el r re ae in
  go_azimuth ob = az /\ go_elevation ob = el /\ go_range ob = r /\
  go_observed_direction ob = V3 (r * (cos el * sin az)) (r * (cos el * cos az)) (r * sin el) /\
  go_observer_state ob = o /\ go_range_error ob = re /\ go_angular_error ob = ae.
Proof.
  intros Az El Hr. unfold from_angles_and_range, GroundObservation. cbv zeta.
  cbn [go_azimuth go_elevation go_range go_observed_direction go_observer_state go_range_error go_angular_error x3 y3 z3 v3_copy].
  set (nez := spherical_to_cartesian (Spherical r az el)).
  assert (E : V3 (x3 nez) (y3 nez) (z3 nez) = nez) by (destruct nez; reflexivity). rewrite E.
  unfold nez. rewrite sph_cart_sph by auto. cbn [radius right_ascension declination].
  do 3 (split; [reflexivity|]). split; [|split; [destruct o as [[e] [a b c] [d f g]]; reflexivity|auto]].
  unfold spherical_to_cartesian, v3_scaled, v3_copy. cbn [x3 y3 z3 radius right_ascension declination]. f_equal; ring.
Qed.

(** Longitudes that differ by whole turns give the same site and frame. *)
Lemma longitude_mod lat lon alt : exists lon', 0 <= lon' < 2 * PI /\
  lla_to_itrf (LLA lat lon alt) = lla_to_itrf (LLA lat lon' alt) /\ ENZ_matrix lon lat = ENZ_matrix lon' lat.
Proof.
  exists (nmod lon (2 * PI)). generalize PI_RGT_0; intros. split; [apply nmod_range; lra|].
  destruct (nmod_eq lon (2 * PI)) as (k & E).
  assert (S : sin lon = sin (nmod lon (2 * PI)) /\ cos lon = cos (nmod lon (2 * PI))).
  { rewrite E. replace (lon - 2 * PI * IZR k) with (lon + 2 * PI * IZR (- k)) by (rewrite opp_IZR; ring).
    rewrite sin_shift_Z, cos_shift_Z. auto. }
  destruct S as [S C]. split.
  - unfold lla_to_itrf. cbn [latitude longitude altitude]. rewrite S, C. reflexivity.
  - unfold ENZ_matrix. rewrite S, C. reflexivity.
Qed.

Lemma enz_back lat lon p q : add (enz_to_itrf (LLA lat lon 0) (apply3 (ENZ_matrix lon lat) (sub q p))) p = q.
Proof.
  unfold enz_to_itrf. cbn [latitude longitude]. change m3_multiply_vector with apply3. change m3_transpose with transposed.
  rewrite transposed_inverse by apply ENZ_rotation. unfold add, sub. destruct q. cbn. f_equal; ring.
Qed.

Lemma spherical_direction d : d = let s := spherical_from_cartesian (V3 (y3 d) (x3 d) (z3 d)) in
  V3 (radius s * (cos (declination s) * sin (right_ascension s)))
     (radius s * (cos (declination s) * cos (right_ascension s))) (radius s * sin (declination s)).
Proof.
  cbv zeta. assert (C := cart_sph_cart (V3 (y3 d) (x3 d) (z3 d))). set (s := spherical_from_cartesian _) in *. clearbody s.
  unfold spherical_to_cartesian, v3_scaled in C. cbn [x3 y3 z3] in C. injection C as C1 C2 C3.
  destruct d as [a b c]. cbn [x3 y3 z3] in *. f_equal; rewrite Rmult_comm; symmetry; auto.
Qed.
Lemma swap_norm d : norm (V3 (y3 d) (x3 d) (z3 d)) = norm d.
Proof. unfold norm, dot. cbn [x3 y3 z3]. f_equal. ring. Qed.

Lemma GroundSite_ok l : exists p, lla_to_itrf l = Ok p /\
  GroundSite l = Ok (mkSite p (latitude l) (longitude l) (ENZ_matrix (longitude l) (latitude l))).
Proof. destruct l as [lat lon alt]. exists (geo_pos lat lon alt). split; [apply lla_to_itrf_geo|]. unfold GroundSite. rewrite lla_to_itrf_geo. reflexivity. Qed.

Lemma site_observes lat lon alt target : - (PI / 2) < lat < PI / 2 -> -6000 <= alt ->
  exists s site tgt ob,
  lla_to_itrf (LLA lat lon alt) = Ok site /\ GroundSite (LLA lat lon alt) = Ok s /\
  gcrf_to_itrf (sc_position target) (current_epoch target) = Ok tgt /\
  angles_and_range s target = Ok ob /\ go_itrf_ob ob = Ok tgt /\
  go_epoch ob = current_epoch target /\ s_position (go_observer_state ob) = site /\
  go_observed_direction ob = apply3 (ENZ_matrix lon lat) (sub tgt site) /\
  go_range ob = norm (sub tgt site) /\
  apply3 (ENZ_matrix lon lat) (sub tgt site) =
    V3 (go_range ob * (cos (go_elevation ob) * sin (go_azimuth ob)))
       (go_range ob * (cos (go_elevation ob) * cos (go_azimuth ob))) (go_range ob * sin (go_elevation ob)) /\
  0 <= go_azimuth ob < 2 * PI /\ - (PI / 2) <= go_elevation ob <= PI / 2.
Proof.
  intros Hlat Halt. destruct (GroundSite_ok (LLA lat lon alt)) as (site & P & G). cbn [latitude longitude] in G.
  destruct (gcrf_round_trip (sc_position target) (current_epoch target)) as (tgt & _ & T & _).
  eexists. exists site, tgt. eexists. split; [auto|]. split; [exact G|]. split; [auto|].
  unfold angles_and_range. rewrite T. cbn [bind]. split; [reflexivity|].
  destruct (longitude_mod lat lon alt) as (lon' & L & PE & ME).
  unfold enz_position. cbn [enz_matrix itrf_position]. change m3_multiply_vector with apply3. change v3_minus with sub.
  set (d := apply3 (ENZ_matrix lon lat) (sub tgt site)).
  unfold GroundObservation. cbv zeta. cbn [go_observer_state go_observed_direction go_range go_azimuth go_elevation go_epoch s_epoch s_position state_copy ITRF_from_fixed].
  assert (CD : v3_copy d = d) by (destruct d; reflexivity).
  assert (CS : v3_copy site = site) by (destruct site; reflexivity).
  split.
  { unfold go_itrf_ob. cbn [go_observer_state go_observed_direction s_position state_copy ITRF_from_fixed]. rewrite CD, ?CS.
    destruct (lla_itrf_lla lat lon' alt Hlat L Halt) as (p & P' & Q). rewrite <- PE, P in P'. injection P' as <-. rewrite Q. cbn [bind].
    apply f_equal. change v3_plus with add. unfold d. rewrite ME. apply (enz_back lat lon' site tgt). }
  split; [unfold current_epoch, epoch_copy; reflexivity|]. split; [first [exact CS|reflexivity]|]. split; [exact CD|].
  destruct (sph_ranges (V3 (y3 d) (x3 d) (z3 d))) as (R & A & D). rewrite R, swap_norm.
  split; [unfold d; apply rotation_norm, ENZ_rotation|]. split; [|auto].
  assert (SD := spherical_direction d). cbv zeta in SD. rewrite R, swap_norm in SD. exact SD.
Qed.

Lemma ground_positions ob tgt : go_itrf_ob ob = Ok tgt ->
  go_ijk_position ob = itrf_to_ijk tgt (go_epoch ob) /\ go_gcrf_position ob = itrf_to_gcrf tgt (go_epoch ob).
Proof. intros E. unfold go_ijk_position, go_gcrf_position. rewrite E. auto. Qed.
