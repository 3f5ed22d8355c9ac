(** Properties of estimation/obs.py and bodies/terrestrial.py (C56, C57). *)
From Coq Require Import Reals Lra Lia.
From Verif.Model Require Import Num Constants Linalg Functions Time Celestial Positions States Obs Artificial Terrestrial.
From Verif.Spec Require Import Geometry Axes.
From Verif.Proofs Require Import NumLemmas LinalgProofs TimeProofs CelestialProofs GeodeticProofs PositionsProofs StatesProofs Analysis ObsProofs.
Local Open Scope R_scope.

(** * C56 Ground observation angles round-trip *)
Theorem C56_angles : forall o az el r re ae, 0 <= az < 2 * PI -> - (PI / 2) < el < PI / 2 -> 0 < r ->
  let ob := from_angles_and_range o az el r re ae in
  go_azimuth ob = az /\ go_elevation ob = el /\ go_range ob = r /\
  go_observed_direction ob = V3 (r * (cos el * sin az)) (r * (cos el * cos az)) (r * sin el) /\
  go_observer_state ob = o /\ go_range_error ob = re /\ go_angular_error ob = ae.
Proof. exact angles_round_trip. Qed.
Print Assumptions C56_angles.

Example C56_example : 0 <= 5 < 2 * PI /\ - (PI / 2) < 1.5 < PI / 2 /\ 0 < 900.
Proof. generalize PI_bounds; intros; lra. Qed.

(** The angles of a space observation describe its direction, with the right
    ascension in [0, 2 pi). *)
Theorem C56_space_angles : forall o d re ae, let ob := SpaceObservation o d re ae in
  so_range ob = norm d /\
  d = V3 (so_range ob * (cos (so_declination ob) * cos (so_right_ascension ob)))
         (so_range ob * (cos (so_declination ob) * sin (so_right_ascension ob)))
         (so_range ob * sin (so_declination ob)) /\
  0 <= so_right_ascension ob < 2 * PI /\ - (PI / 2) <= so_declination ob <= PI / 2.
Proof.
  intros o d re ae. cbv zeta. unfold SpaceObservation. cbv zeta. cbn [so_range so_declination so_right_ascension].
  destruct (sph_ranges d) as (R & A & D). split; [exact R|]. split; [|auto].
  assert (C := cart_sph_cart d). set (s := spherical_from_cartesian d) in *. clearbody s.
  unfold spherical_to_cartesian, v3_scaled in C. cbn [x3 y3 z3] in C. rewrite <- C. f_equal; ring.
Qed.
Print Assumptions C56_space_angles.

(** * C57 A ground site's observation points back at the target *)

(** The observation is complete: taking the site's position, and the angles and
    the range along the local east, north and zenith axes, gives back the
    Earth-fixed position of the target. *)
Theorem C57_angles_and_range : forall lat lon alt target, - (PI / 2) < lat < PI / 2 -> -6000 <= alt ->
  exists s site tgt ob,
  lla_to_itrf (LLA lat lon alt) = Ok site /\ GroundSite (LLA lat lon alt) = Ok s /\
  gcrf_to_itrf (sc_position target) (current_epoch target) = Ok tgt /\ angles_and_range s target = Ok ob /\
  go_epoch ob = current_epoch target /\ go_range ob = norm (sub tgt site) /\
  let m := ENZ_matrix lon lat in
  sub tgt site = scale (go_range ob)
    (add (add (scale (cos (go_elevation ob) * sin (go_azimuth ob)) (m3_row1 m))
              (scale (cos (go_elevation ob) * cos (go_azimuth ob)) (m3_row2 m)))
         (scale (sin (go_elevation ob)) (m3_row3 m))) /\
  0 <= go_azimuth ob < 2 * PI /\ - (PI / 2) <= go_elevation ob <= PI / 2.
Proof.
  intros lat lon alt target Hl Ha. destruct (site_observes lat lon alt target Hl Ha) as (s & site & tgt & ob & P & G & T & A & I & E & S & D & R & V & Az & El).
  exists s, site, tgt, ob. do 6 (split; [assumption|]). split; [|auto]. cbv zeta.
  rewrite <- (transposed_inverse (ENZ_matrix lon lat) (sub tgt site)) at 1 by apply ENZ_rotation. rewrite V.
  set (m := ENZ_matrix lon lat). destruct m as [[a b c] [d e f] [g h i]]. unfold apply3, transposed, dot, scale, add. cbn. f_equal; ring.
Qed.
Print Assumptions C57_angles_and_range.

(** ijk_position() is the target's position in the ijk frame at its epoch, and
    gcrf_position() is the target's GCRF position up to 1.1e-8. *)
Theorem C57_points_back : forall lat lon alt target, - (PI / 2) < lat < PI / 2 -> -6000 <= alt ->
  exists s ob ijk gcrf, GroundSite (LLA lat lon alt) = Ok s /\ angles_and_range s target = Ok ob /\
  gcrf_to_ijk (sc_position target) (current_epoch target) = Ok ijk /\ go_ijk_position ob = Ok ijk /\
  go_gcrf_position ob = Ok gcrf /\ norm (sub gcrf (sc_position target)) <= 1.1e-8 * norm (sc_position target).
Proof.
  intros lat lon alt target Hl Ha. destruct (site_observes lat lon alt target Hl Ha) as (s & site & tgt & ob & P & G & T & A & I & E & S & D & R & V & Az & El).
  destruct (ground_positions ob tgt I) as [J K]. rewrite E in J, K.
  destruct (gcrf_round_trip (sc_position target) (current_epoch target)) as (q & p' & Q & Q' & B & _). rewrite T in Q. injection Q as <-.
  exists s, ob, (rodrigues (scale (/ norm (V3 0 0 1)) (V3 0 0 1)) tgt (greenwich_hour_angle (current_epoch target))), p'.
  assert (W : itrf_to_ijk tgt (current_epoch target) = Ok (rodrigues (scale (/ norm (V3 0 0 1)) (V3 0 0 1)) tgt (greenwich_hour_angle (current_epoch target)))).
  { unfold itrf_to_ijk. apply rotation_ok. intros X. inversion X. lra. }
  split; [auto|]. split; [auto|]. split; [unfold gcrf_to_ijk; rewrite T; exact W|]. split; [rewrite J; exact W|]. split; [rewrite K; auto|auto].
Qed.
Print Assumptions C57_points_back.

(** A site built from an Earth-fixed position stands there. *)
Theorem C57_site_from_position : forall p, 43 < norm p -> exists s, site_from_itrf_position p = Ok s /\
  itrf_position s = p /\ enz_matrix s = ENZ_matrix (site_longitude s) (site_latitude s) /\
  lla_to_itrf (LLA (site_latitude s) (site_longitude s) (altitude (match itrf_to_lla p with Ok l => l | Err _ => LLA 0 0 0 end))) = Ok p.
Proof.
  intros p N. destruct (itrf_lla_itrf p N) as (l & L & B & _). unfold site_from_itrf_position, GroundSite. rewrite L. cbn [bind]. rewrite B. cbn [bind].
  eexists. split; [reflexivity|]. cbn [itrf_position enz_matrix site_longitude site_latitude]. split; [auto|]. split; [auto|]. destruct l; exact B.
Qed.
Print Assumptions C57_site_from_position.

Example C57_example : - (PI / 2) < 0.6 < PI / 2 /\ -6000 <= 0.3 /\ 43 < norm (V3 (-4000) 3000 4500).
Proof. generalize PI_bounds; intros. split; [lra|]. split; [lra|]. apply sq_norm_gt; lra. Qed.
