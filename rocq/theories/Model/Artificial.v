(** Model of src/openspace/bodies/artificial.py.

    Spacecraft refer to each other ([tracked_target]); they live in a store
    ([world]) and are named by their position in it.  Methods that change the
    store are functions [world -> world * res A], so the store left behind by
    an exception is visible. *)
From Verif.Model Require Import Num Constants Linalg Functions Time Celestial Positions States
  Inertial Relative Obs Filtering Constraints Payloads.
Local Open Scope R_scope.

(** artificial.py:26 STEERING_MODES *)
Inductive mode := Lvlh | Solar | Target.

Definition mode_eqb (a b : mode) : bool :=
  match a, b with Lvlh, Lvlh | Solar, Solar | Target, Target => true | _, _ => false end.

(** artificial.py:20-44 *)
Definition DEFAULT_RADIUS : num := 0.005.
Definition DEFAULT_ALBEDO : num := 0.3.
Definition DEFAULT_SLEW_SCALE : num := 1 / (radians 0.5 * SECONDS_IN_DAY).
Definition DEFAULT_POINTING_ACCURACY : num := 1e-5.
Definition DEFAULT_MASS : num := 600.
Definition DEFAULT_PROP_MASS : num := 200.
Definition DEFAULT_M_DOT : num := 0.003.
Definition DEFAULT_ISP : num := 350.

(** artificial.py:46-106: the scalar settings of a spacecraft *)
Record params := Params {
  albedo : num; body_radius : num; slew_scalar : num; pointing_accuracy : num;
  sc_m_dot : num; sc_isp : num; dry_mass : num; propellant_mass : num }.

(** artificial.py:17-106 class Spacecraft.  [filter], [tracked_target] and
    [slew_stop] are only declared by the constructor, hence options. *)
Record craft := Craft {
  initial_state : gcrf; sc_params : params; wfov : camera; nfov : camera;
  sc_filter : option kalman; steering : mode; tracked_target : option nat;
  slewing : bool; slew_stop : option epoch; propagator : rk4;
  body_x : vec3; body_y : vec3; body_z : vec3 }.

(** Attribute assignments. *)
Definition set_params (c : craft) (p : params) : craft :=
  Craft (initial_state c) p (wfov c) (nfov c) (sc_filter c) (steering c) (tracked_target c)
    (slewing c) (slew_stop c) (propagator c) (body_x c) (body_y c) (body_z c).
Definition set_filter (c : craft) (k : kalman) : craft :=
  Craft (initial_state c) (sc_params c) (wfov c) (nfov c) (Some k) (steering c) (tracked_target c)
    (slewing c) (slew_stop c) (propagator c) (body_x c) (body_y c) (body_z c).
Definition set_steering (c : craft) (m : mode) : craft :=
  Craft (initial_state c) (sc_params c) (wfov c) (nfov c) (sc_filter c) m (tracked_target c)
    (slewing c) (slew_stop c) (propagator c) (body_x c) (body_y c) (body_z c).
Definition set_tracked (c : craft) (j : nat) : craft :=
  Craft (initial_state c) (sc_params c) (wfov c) (nfov c) (sc_filter c) (steering c) (Some j)
    (slewing c) (slew_stop c) (propagator c) (body_x c) (body_y c) (body_z c).
Definition set_slewing (c : craft) (b : bool) : craft :=
  Craft (initial_state c) (sc_params c) (wfov c) (nfov c) (sc_filter c) (steering c)
    (tracked_target c) b (slew_stop c) (propagator c) (body_x c) (body_y c) (body_z c).
Definition set_slew_stop (c : craft) (e : epoch) : craft :=
  Craft (initial_state c) (sc_params c) (wfov c) (nfov c) (sc_filter c) (steering c)
    (tracked_target c) (slewing c) (Some e) (propagator c) (body_x c) (body_y c) (body_z c).
Definition set_propagator (c : craft) (p : rk4) : craft :=
  Craft (initial_state c) (sc_params c) (wfov c) (nfov c) (sc_filter c) (steering c)
    (tracked_target c) (slewing c) (slew_stop c) p (body_x c) (body_y c) (body_z c).
Definition set_body (c : craft) (x y z : vec3) : craft :=
  Craft (initial_state c) (sc_params c) (wfov c) (nfov c) (sc_filter c) (steering c)
    (tracked_target c) (slewing c) (slew_stop c) (propagator c) x y z.
Definition set_propellant (p : params) (m : num) : params :=
  Params (albedo p) (body_radius p) (slew_scalar p) (pointing_accuracy p) (sc_m_dot p) (sc_isp p)
    (dry_mass p) m.

(** ** Methods that read only *)

(** artificial.py:108-114 *)
Definition area (p : params) : num := PI * body_radius p * body_radius p.
(** artificial.py:124-130 *)
Definition total_mass (p : params) : num := dry_mass p + propellant_mass p.
(** artificial.py:116-122 *)
Definition srp_scalar (p : params) : res num :=
  pdiv ((albedo p + 1) * area p * BASE_IN_KILO * BASE_IN_KILO) (total_mass p).
(** artificial.py:472-478 *)
Definition current_state (c : craft) : gcrf := gcrf_copy (rk_state (propagator c)).
(** artificial.py:480-486 *)
Definition current_epoch (c : craft) : epoch := epoch_copy (g_epoch (current_state c)).
(** artificial.py:406-412 *)
Definition sc_position (c : craft) : vec3 := v3_copy (g_position (current_state c)).
(** artificial.py:316-322 *)
Definition sc_velocity (c : craft) : vec3 := v3_copy (g_velocity (rk_state (propagator c))).
(** artificial.py:161-167 *)
Definition sc_sma (c : craft) : res num :=
  A_from_mu_r_v Earth_MU (v3_magnitude (sc_position c)) (v3_magnitude (sc_velocity c)).
(** artificial.py:428-434 *)
Definition sc_sun_vector (c : craft) : vec3 := gcrf_sun_vector (current_state c).
(** artificial.py:436-442 *)
Definition sc_moon_vector (c : craft) : res vec3 := gcrf_moon_vector (current_state c).
(** artificial.py:444-450 *)
Definition earth_vector (c : craft) : vec3 := v3_scaled (sc_position c) (-1).
(** artificial.py:452-460 *)
Definition target_vector (c t : craft) : vec3 := v3_minus (sc_position t) (sc_position c).
(** artificial.py:396-404 *)
Definition sc_range (c t : craft) : num := v3_magnitude (target_vector c t).
(** artificial.py:366-374 *)
Definition sun_angle (c t : craft) : res num := v3_angle (sc_sun_vector c) (target_vector c t).
(** artificial.py:376-384 *)
Definition moon_angle (c t : craft) : res num :=
  let* m := sc_moon_vector c in
  v3_angle m (target_vector c t).
(** artificial.py:386-394 *)
Definition earth_angle (c t : craft) : res num := v3_angle (earth_vector c) (target_vector c t).
(** artificial.py:462-470 *)
Definition hill_position (c t : craft) : res vec3 :=
  let* h := gcrf_to_hcw (current_state c) (current_state t) in
  Ok (s_position h).

(** artificial.py:345-364 *)
Definition visual_magnitude (c t : craft) : res num :=
  let r := body_radius (sc_params c) in
  let dist := sc_range c t in
  let* sa := sun_angle c t in
  let phi := PI - sa in
  let* q := pdiv ((2 / 3) * albedo (sc_params c) * r * r) (PI * dist * dist) in
  let fdiff := q * (sin phi + (PI - phi) * cos phi) in
  let* lg := plog10 fdiff in
  Ok (-26.74 - 2.5 * lg).

(** artificial.py:324-343 *)
Definition detect (c t : craft) : res bool :=
  let lim := limits (wfov c) in
  let* sa := sun_angle c t in
  if nlt sa (sun_soft lim) then Ok false else
  let* ea := earth_angle c t in
  if nlt ea (lim_earth lim) then Ok false else
  let* ma := moon_angle c t in
  if nlt ma (lim_moon lim) then Ok false else
  let* vm := visual_magnitude c t in
  if nlt (vismag lim) vm then Ok false else
  let* ba := v3_angle (body_z c) (target_vector c t) in
  if nlt (bore lim) ba then Ok false else
  Ok true.

(** artificial.py:181-215: [cam] is [self.wfov] (observe_wfov) or [self.nfov]
    (observe_nfov); [z1], [z2], [u] are the random draws of [with_noise] *)
Definition observe (cam : craft -> camera) (z1 z2 u : num) (c t : craft) : res space_obs :=
  let truth_vector := target_vector c t in
  let truth_range := v3_magnitude truth_vector in
  let* re := range_error (cam c) truth_range (body_radius (sc_params t) * 2) in
  let* dir := v3_with_noise z1 z2 u truth_vector re (pointing_accuracy (sc_params c)) in
  Ok (SpaceObservation (current_state c) dir re (pointing_accuracy (sc_params c))).
Definition observe_wfov := observe wfov.
Definition observe_nfov := observe nfov.

(** ** Attitude laws: artificial.py:237-272, the three branches without the
    synchronisation of the tracked target *)
Definition attitude_lvlh (c : craft) : craft :=
  let bz := earth_vector c in
  let by_ := v3_cross (sc_position c) (sc_velocity c) in
  let bx := v3_cross by_ bz in
  set_body c bx by_ bz.
Definition attitude_solar (c : craft) : craft :=
  let bz := v3_scaled (sc_sun_vector c) (-1) in
  let bx := v3_cross bz (V3 0 0 1) in
  let by_ := v3_cross bz bx in
  set_body c bx by_ bz.
Definition attitude_target (c t : craft) : craft :=
  let bz := target_vector c t in
  let by_ := v3_cross bz (sc_sun_vector c) in
  let bx := v3_cross by_ bz in
  set_body c bx by_ bz.

(** artificial.py:274-276 *)
Definition update_slew (c : craft) : res craft :=
  if slewing c then
    match slew_stop c with
    | None => Err AttributeError
    | Some stop =>
        Ok (if nlt (value stop) (value (current_epoch c)) then set_slewing c false else c)
    end
  else Ok c.

(** artificial.py:46-106.  The constructor's call of [update_attitude] takes the
    lvlh branch, and [slewing] is False. *)
Definition Spacecraft (s : gcrf) : res craft :=
  let init := gcrf_copy s in
  let* w := Camera_wfov in
  let* n := Camera_nfov in
  let prm := Params DEFAULT_ALBEDO DEFAULT_RADIUS DEFAULT_SLEW_SCALE DEFAULT_POINTING_ACCURACY
               DEFAULT_M_DOT DEFAULT_ISP DEFAULT_MASS DEFAULT_PROP_MASS in
  let* k := srp_scalar prm in
  let init := set_srp_scalar init k in
  let c := Craft init prm w n None Lvlh None false None (RK4 init) (V3 0 0 0) (V3 0 0 0) (V3 0 0 0) in
  update_slew (attitude_lvlh c).

(** ** The store *)
Definition world := list craft.

Fixpoint set_nth (w : world) (i : nat) (c : craft) : world :=
  match w, i with
  | [], _ => []
  | _ :: w, O => c :: w
  | d :: w, S i => d :: set_nth w i c
  end.

(** artificial.py:235-276 [update_attitude] and 419-426 [step_to_epoch], which
    call each other; the fuel bounds the recursion depth.  An index outside the
    store stands for an unset [tracked_target] (AttributeError). *)
Fixpoint update_attitude (fuel : nat) (i : nat) (w : world) : world * res unit :=
  match fuel with
  | O => (w, Err OutOfFuel)
  | S fuel =>
      match nth_error w i with
      | None => (w, Err AttributeError)
      | Some c =>
          let '(w, r) :=
            match steering c with
            | Lvlh => (set_nth w i (attitude_lvlh c), Ok tt)
            | Solar => (set_nth w i (attitude_solar c), Ok tt)
            | Target =>
                match tracked_target c with
                | None => (w, Err AttributeError)
                | Some j =>
                    match nth_error w j with
                    | None => (w, Err AttributeError)
                    | Some t =>
                        let '(w, r) :=
                          if neq (value (current_epoch t)) (value (current_epoch c))
                          then (w, Ok tt)
                          else
                            (* self.tracked_target.step_to_epoch(self.current_epoch()) *)
                            match rk4_step_to_epoch (propagator t) (current_epoch c) with
                            | (p, Err e) => (set_nth w j (set_propagator t p), Err e)
                            | (p, Ok _) => update_attitude fuel j (set_nth w j (set_propagator t p))
                            end in
                        match r with
                        | Err e => (w, Err e)
                        | Ok _ =>
                            match nth_error w i, nth_error w j with
                            | Some c, Some t => (set_nth w i (attitude_target c t), Ok tt)
                            | _, _ => (w, Err AttributeError)
                            end
                        end
                    end
                end
            end in
          match r with
          | Err e => (w, Err e)
          | Ok _ =>
              match nth_error w i with
              | None => (w, Err AttributeError)
              | Some c =>
                  match update_slew c with
                  | Err e => (w, Err e)
                  | Ok c => (set_nth w i c, Ok tt)
                  end
              end
          end
      end
  end.

(** artificial.py:419-426 *)
Definition sc_step_to_epoch (fuel i : nat) (e : epoch) (w : world) : world * res unit :=
  match nth_error w i with
  | None => (w, Err AttributeError)
  | Some c =>
      match rk4_step_to_epoch (propagator c) e with
      | (p, Err err) => (set_nth w i (set_propagator c p), Err err)
      | (p, Ok _) => update_attitude fuel i (set_nth w i (set_propagator c p))
      end
  end.

(** artificial.py:414-417 *)
Definition sc_step (fuel i : nat) (w : world) : world * res unit :=
  match nth_error w i with
  | None => (w, Err AttributeError)
  | Some c =>
      match rk4_step (propagator c) with
      | (p, Err err) => (set_nth w i (set_propagator c p), Err err)
      | (p, Ok _) => update_attitude fuel i (set_nth w i (set_propagator c p))
      end
  end.

(** artificial.py:284-285, 295-296, 311-312: the slew time, from the previous
    boresight to the new pointing direction; on an exception the assignments
    made before it stay *)
Definition start_slew (c : craft) (direction : vec3) : craft * res unit :=
  match v3_angle (body_z c) direction with
  | Err e => (c, Err e)
  | Ok ang =>
      let t := ang * slew_scalar (sc_params c) in
      (set_slew_stop c (plus_days (current_epoch c) t), Ok tt)
  end.

(** Shared tail of the three [track_*] methods: store the object and, unless an
    exception was raised, call [update_attitude]. *)
Definition store_and_update (fuel i : nat) (w : world) (cr : craft * res unit) : world * res unit :=
  match cr with
  | (c, Err e) => (set_nth w i c, Err e)
  | (c, Ok _) => update_attitude fuel i (set_nth w i c)
  end.

(** artificial.py:278-287 *)
Definition track_lvlh (fuel i : nat) (w : world) : world * res unit :=
  match nth_error w i with
  | None => (w, Err AttributeError)
  | Some c =>
      store_and_update fuel i w
        (if mode_eqb (steering c) Lvlh then (c, Ok tt)
         else
           let c := set_slewing (set_steering c Lvlh) true in
           start_slew c (v3_scaled (sc_position c) (-1)))
  end.

(** artificial.py:289-298 *)
Definition track_sun (fuel i : nat) (w : world) : world * res unit :=
  match nth_error w i with
  | None => (w, Err AttributeError)
  | Some c =>
      store_and_update fuel i w
        (if mode_eqb (steering c) Solar then (c, Ok tt)
         else
           let c := set_slewing (set_steering c Solar) true in
           start_slew c (v3_scaled (sc_sun_vector c) (-1)))
  end.

(** artificial.py:300-314 *)
Definition track_state (fuel i j : nat) (w : world) : world * res unit :=
  match nth_error w i, nth_error w j with
  | Some c, Some t =>
      store_and_update fuel i w
        (if mode_eqb (steering c) Target then (c, Ok tt)
         else
           let c := set_slewing (set_tracked (set_steering c Target) j) true in
           start_slew c (target_vector c t))
  | _, _ => (w, Err AttributeError)
  end.

(** ** Manoeuvres *)

(** artificial.py:132-140 *)
Definition impulsive_maneuver (i : nat) (ric_burn : vec3) (w : world) : world * res unit :=
  match nth_error w i with
  | None => (w, Err AttributeError)
  | Some c =>
      match hcw_to_gcrf (State (current_epoch c) (V3 0 0 0) ric_burn) (current_state c) with
      | Err e => (w, Err e)
      | Ok g => (set_nth w i (set_propagator c (RK4 g)), Ok tt)
      end
  end.

(** artificial.py:157-158 *)
Definition finite_dt (dv m_dot mass isp : num) : res num :=
  let* m_spec := pdiv m_dot mass in
  let* k := pdiv (-1) m_spec in
  let* ex := pdiv (m_spec * dv) (- isp * m_spec * SEA_LEVEL_G) in
  Ok (k * (1 - nexp ex)).

(** artificial.py:142-159, on one spacecraft *)
Definition craft_finite_maneuver (c : craft) (ric_dv : vec3) : craft * res unit :=
  match HCW_frame_matrix (current_state c) with
  | Err e => (c, Err e)
  | Ok fm =>
      let gcrf_thrust := m3_multiply_vector fm ric_dv in
      let prm := sc_params c in
      match rk4_maneuver (propagator c) gcrf_thrust (sc_m_dot prm) (total_mass prm) (sc_isp prm) with
      | (p, Err e) => (set_propagator c p, Err e)
      | (p, Ok _) =>
          let c := set_propagator c p in
          match finite_dt (v3_magnitude gcrf_thrust) (sc_m_dot prm) (total_mass prm) (sc_isp prm) with
          | Err e => (c, Err e)
          | Ok dt => (set_params c (set_propellant prm (propellant_mass prm - sc_m_dot prm * dt)), Ok tt)
          end
      end
  end.

Definition finite_maneuver (i : nat) (ric_dv : vec3) (w : world) : world * res unit :=
  match nth_error w i with
  | None => (w, Err AttributeError)
  | Some c => let '(c, r) := craft_finite_maneuver c ric_dv in (set_nth w i c, r)
  end.

(** ** Estimation *)

(** artificial.py:176-178 *)
Definition make_filter (c seed : craft) : res kalman :=
  let* h := gcrf_to_hcw (current_state c) (current_state seed) in
  let* a := sc_sma c in
  let* hl := Hill h a in
  RelativeKalman (current_epoch c) hl.

(** artificial.py:169-179 *)
Definition acquire (fuel i j : nat) (w : world) : world * res unit :=
  match nth_error w i, nth_error w j with
  | Some c, Some seed =>
      match make_filter c seed with
      | Err e => (w, Err e)
      | Ok k => track_state fuel i j (set_nth w i (set_filter c k))
      end
  | _, _ => (w, Err AttributeError)
  end.

(** artificial.py:217-233: process_wfov and process_nfov *)
Definition process (cam : craft -> camera) (z1 z2 u : num) (i j : nat) (w : world) : world * res unit :=
  match nth_error w i, nth_error w j with
  | Some c, Some t =>
      match observe cam z1 z2 u c t with
      | Err e => (w, Err e)
      | Ok ob =>
          match sc_filter c with
          | None => (w, Err AttributeError)
          | Some k =>
              let '(k, r) := kalman_process k ob in
              (set_nth w i (set_filter c k), r)
          end
      end
  | _, _ => (w, Err AttributeError)
  end.
Definition process_wfov := process wfov.
Definition process_nfov := process nfov.
