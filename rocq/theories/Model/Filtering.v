(** Model of src/openspace/estimation/filtering.py. *)
From Verif.Model Require Import Num Constants Linalg Functions Time Celestial Positions States
  Relative Obs.
Local Open Scope R_scope.

(** filtering.py:13-20 *)
Definition DEFAULT_COVARIANCE : mat66 :=
  M66 (V6 0.5 0 0 0 0 0)
      (V6 0 0.5 0 0 0 0)
      (V6 0 0 0.5 0 0 0)
      (V6 0 0 0 5e-5 0 0)
      (V6 0 0 0 0 5e-5 0)
      (V6 0 0 0 0 0 5e-5).

(** filtering.py:23-30 *)
Definition DEFAULT_NOISE : mat66 :=
  M66 (V6 1e-16 0 0 0 0 0)
      (V6 0 1e-16 0 0 0 0)
      (V6 0 0 1e-16 0 0 0)
      (V6 0 0 0 1e-16 0 0)
      (V6 0 0 0 0 1e-16 0)
      (V6 0 0 0 0 0 1e-16).

(** filtering.py:33-37 *)
Definition KH : mat36 :=
  M36 (V6 1 0 0 0 0 0)
      (V6 0 1 0 0 0 0)
      (V6 0 0 1 0 0 0).

(** filtering.py:40 *)
Definition KHT : mat63 := m36_transpose KH.

(** filtering.py:43 *)
Definition KI : mat66 := m66_identity.

(** filtering.py:10-90 class RelativeKalman; attributes that the constructor
    only declares are [option]s. *)
Record kalman := mkKalman {
  k_epoch : epoch; k_propagator : hill;
  k_x00 : vec6; k_x10 : option vec6;
  k_p00 : mat66; k_p10 : option mat66;
  k_q : mat66; k_f : mat66; k_k : option mat63; k_z : option vec3;
  k_range_error : num; k_angular_error : num; k_r : option mat3 }.

(** filtering.py:45-90 *)
Definition RelativeKalman (e : epoch) (prop : hill) : res kalman :=
  let* f := system_matrix prop 0 in
  Ok (mkKalman (epoch_copy e) prop (v6_copy (state_vector (hl_state prop))) None
        DEFAULT_COVARIANCE None DEFAULT_NOISE f None None 0 0 None).

(** Attribute assignments. *)
Definition set_k_epoch (k : kalman) (e : epoch) : kalman :=
  mkKalman e (k_propagator k) (k_x00 k) (k_x10 k) (k_p00 k) (k_p10 k) (k_q k) (k_f k)
    (k_k k) (k_z k) (k_range_error k) (k_angular_error k) (k_r k).
Definition set_k_z (k : kalman) (z : vec3) : kalman :=
  mkKalman (k_epoch k) (k_propagator k) (k_x00 k) (k_x10 k) (k_p00 k) (k_p10 k) (k_q k) (k_f k)
    (k_k k) (Some z) (k_range_error k) (k_angular_error k) (k_r k).
Definition set_k_r (k : kalman) (r : mat3) : kalman :=
  mkKalman (k_epoch k) (k_propagator k) (k_x00 k) (k_x10 k) (k_p00 k) (k_p10 k) (k_q k) (k_f k)
    (k_k k) (k_z k) (k_range_error k) (k_angular_error k) (Some r).
Definition set_k_errors (k : kalman) (re ae : num) : kalman :=
  mkKalman (k_epoch k) (k_propagator k) (k_x00 k) (k_x10 k) (k_p00 k) (k_p10 k) (k_q k) (k_f k)
    (k_k k) (k_z k) re ae (k_r k).
Definition set_k_predicted (k : kalman) (f : mat66) (x10 : vec6) : kalman :=
  mkKalman (k_epoch k) (k_propagator k) (k_x00 k) (Some x10) (k_p00 k) (k_p10 k) (k_q k) f
    (k_k k) (k_z k) (k_range_error k) (k_angular_error k) (k_r k).
Definition set_k_p10 (k : kalman) (p10 : mat66) : kalman :=
  mkKalman (k_epoch k) (k_propagator k) (k_x00 k) (k_x10 k) (k_p00 k) (Some p10) (k_q k) (k_f k)
    (k_k k) (k_z k) (k_range_error k) (k_angular_error k) (k_r k).
Definition set_k_gain (k : kalman) (g : mat63) : kalman :=
  mkKalman (k_epoch k) (k_propagator k) (k_x00 k) (k_x10 k) (k_p00 k) (k_p10 k) (k_q k) (k_f k)
    (Some g) (k_z k) (k_range_error k) (k_angular_error k) (k_r k).
Definition set_k_state (k : kalman) (x00 : vec6) (s : state) : kalman :=
  mkKalman (k_epoch k) (set_hl_state (k_propagator k) s) x00 (k_x10 k) (k_p00 k) (k_p10 k) (k_q k)
    (k_f k) (k_k k) (k_z k) (k_range_error k) (k_angular_error k) (k_r k).
Definition set_k_p00 (k : kalman) (p00 : mat66) : kalman :=
  mkKalman (k_epoch k) (k_propagator k) (k_x00 k) (k_x10 k) p00 (k_p10 k) (k_q k) (k_f k)
    (k_k k) (k_z k) (k_range_error k) (k_angular_error k) (k_r k).

(** filtering.py:94 *)
Definition predicted_covariance (f p00 q : mat66) : mat66 :=
  m66_plus (m66_multiply_matrix f (m66_multiply_matrix p00 (m66_transpose f))) q.

(** filtering.py:98-99 *)
Definition kalman_gain (p10 : mat66) (r : mat3) : res mat63 :=
  let hph := m36_multiply_matrix_6by3 KH (m66_multiply_matrix_6by3 p10 KHT) in
  let* inv := m3_inverse (m3_plus hph r) in
  Ok (m66_multiply_matrix_6by3 p10 (m63_multiply KHT inv)).

(** filtering.py:112 *)
Definition updated_state (x10 : vec6) (k : mat63) (z : vec3) : vec6 :=
  v6_plus x10 (m63_multiply_vector k (v3_minus z (m36_multiply_vector KH x10))).

(** filtering.py:117-119 *)
Definition updated_covariance (p10 : mat66) (k : mat63) (r : mat3) : mat66 :=
  let m1 := m66_minus KI (m63_multiply_matrix3by6 k KH) in
  let m2 := m63_multiply_matrix3by6 k (m3_multiply_matrix3by6 r (m63_transpose k)) in
  m66_plus (m66_multiply_matrix m1 (m66_multiply_matrix p10 (m66_transpose m1))) m2.

(** filtering.py:145-146, 148: the cartesian offset of the observation displaced
    by its errors *)
Definition observation_errors (ob : space_obs) : vec3 :=
  let spherical_ob := Spherical (so_range ob + so_range_error ob)
                        (so_right_ascension ob + so_angular_error ob)
                        (so_declination ob + so_angular_error ob) in
  v3_minus (spherical_to_cartesian spherical_ob) (so_observed_direction ob).

(** filtering.py:152-168 *)
Definition measurement_noise (hill_errors : vec3) : mat3 :=
  M3 (V3 (x3 hill_errors * x3 hill_errors) 0 0)
     (V3 0 (y3 hill_errors * y3 hill_errors) 0)
     (V3 0 0 (z3 hill_errors * z3 hill_errors)).

(** filtering.py:132-172, with [predict] (121-124: 107, 108, 94) and [update]
    (126-130: 98-99, 112-113, 117-119) inlined; every assignment to an
    attribute happens in the order of the Python text and survives a later
    exception. *)
Definition kalman_process (k : kalman) (ob : space_obs) : kalman * res unit :=
  let obs_state := so_observer_state ob in
  let dt := (value (g_epoch obs_state) - value (k_epoch k)) * SECONDS_IN_DAY in
  let k := set_k_epoch k (epoch_copy (g_epoch obs_state)) in
  let gcrf_ob := GCRF (k_epoch k) (v3_plus (g_position obs_state) (so_observed_direction ob))
                   (g_velocity obs_state) in
  match gcrf_to_hcw obs_state gcrf_ob with
  | Err e => (k, Err e)
  | Ok hz =>
      let z := s_position hz in
      let k := set_k_z k z in
      let gcrf_errors := GCRF (k_epoch k) (v3_plus (g_position obs_state) (observation_errors ob))
                           (g_velocity obs_state) in
      match gcrf_to_hcw obs_state gcrf_errors with
      | Err e => (k, Err e)
      | Ok he =>
          let r := measurement_noise (s_position he) in
          let k := set_k_r k r in
          let k := set_k_errors k (so_range_error ob) (so_angular_error ob) in
          (* predict *)
          match system_matrix (k_propagator k) dt with
          | Err e => (k, Err e)
          | Ok f =>
              let x10 := m66_multiply_vector f (k_x00 k) in
              let k := set_k_predicted k f x10 in
              let p10 := predicted_covariance f (k_p00 k) (k_q k) in
              let k := set_k_p10 k p10 in
              (* update *)
              match kalman_gain p10 r with
              | Err e => (k, Err e)
              | Ok g =>
                  let k := set_k_gain k g in
                  let x00 := updated_state x10 g z in
                  let k := set_k_state k x00 (HCW_from_state_vector x00) in
                  let k := set_k_p00 k (updated_covariance p10 g r) in
                  (k, Ok tt)
              end
          end
      end
  end.
