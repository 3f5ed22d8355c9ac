(** Model of src/openspace/propagators/inertial.py.

    Methods return the object they leave behind together with the outcome, so
    the effect of an exception in the middle of a method is visible. *)
From Verif.Model Require Import Num Constants Linalg Functions Time Celestial Positions States.
Local Open Scope R_scope.

(** inertial.py:10-37 class RK4 *)
Record rk4 := Rk4 {
  rk_state : gcrf; step_size : num; m_dot : num; m0 : num;
  thrust_direction : vec3; isp : num }.

(** inertial.py:13 *)
Definition MAX_STEP : num := 300.

(** inertial.py:15-37 *)
Definition RK4 (s : gcrf) : rk4 := Rk4 (gcrf_copy s) MAX_STEP 0 0 (V3 0 0 0) 0.

(** Attribute assignments. *)
Definition set_rk_state (p : rk4) (s : gcrf) : rk4 :=
  Rk4 s (step_size p) (m_dot p) (m0 p) (thrust_direction p) (isp p).
Definition set_step_size (p : rk4) (h : num) : rk4 :=
  Rk4 (rk_state p) h (m_dot p) (m0 p) (thrust_direction p) (isp p).
Definition set_thruster (p : rk4) (dir : vec3) (m0' m_dot' isp' : num) : rk4 :=
  Rk4 (rk_state p) (step_size p) m_dot' m0' dir isp'.
Definition set_thruster_off (p : rk4) : rk4 :=
  Rk4 (rk_state p) (step_size p) 0 0 (thrust_direction p) (isp p).

(** inertial.py:129-148 *)
Definition thrust_vector (p : rk4) (dt : num) : res vec3 :=
  if neq (m_dot p) 0 then Ok (V3 0 0 0)
  else if neq dt 0 then
    let* dir := v3_normalized (thrust_direction p) in
    let* k := pdiv (m_dot p * isp p * SEA_LEVEL_G) (m0 p) in
    Ok (v3_scaled dir k)
  else
    let* q := pdiv (m_dot p * dt) (m0 p) in
    let* ln := plog (1 - q) in
    let mt := m0 p - m_dot p * dt in
    let f := m_dot p * isp p * SEA_LEVEL_G in
    let* dir := v3_normalized (thrust_direction p) in
    let* fm := pdiv (- f) (m_dot p) in
    let dv := v3_scaled dir (fm * ln) in
    let* rate := pdiv (m_dot p) mt in
    let* q' := pdiv (m_dot p * dt) (m0 p) in
    let* ln' := plog (1 - q') in
    let* recip := pdiv 1 (- ln') in
    Ok (v3_scaled dv (rate * recip)).

(** inertial.py:53-54, 57-58, 62-63: an intermediate state with its thrust *)
Definition stage (p : rk4) (e : epoch) (r v : vec3) (k : vec3 * vec3) (dt t_thrust : num)
  : res gcrf :=
  let y := GCRF e (v3_plus r (v3_scaled (fst k) dt)) (v3_plus v (v3_scaled (snd k) dt)) in
  let* t := thrust_vector p t_thrust in
  Ok (set_thrust y t).

(** inertial.py:67-68: [k1 + (2 k2 + (2 k3 + k4))], times 1/6 *)
Definition rk_average (k1 k2 k3 k4 : vec3) : vec3 :=
  v3_scaled (v3_plus k1 (v3_plus (v3_scaled k2 2) (v3_plus (v3_scaled k3 2) k4))) (1 / 6).

(** inertial.py:46-74: the part of [step] after the assignment of line 45,
    up to the value assigned to [self.state] *)
Definition step_result (p : rk4) : res gcrf :=
  let h := step_size p in
  let epoch_0 := epoch_copy (g_epoch (rk_state p)) in
  let '(r, v) := gcrf_vector_list (rk_state p) in
  let* k1 := derivative (rk_state p) in
  let dsecs := h / 2 in
  let ddays := dsecs / SECONDS_IN_DAY in
  let epoch_1 := plus_days epoch_0 ddays in
  let* y1 := stage p epoch_1 r v k1 dsecs dsecs in
  let* k2 := derivative y1 in
  let* y2 := stage p epoch_1 r v k2 dsecs dsecs in
  let* k3 := derivative y2 in
  let epoch_2 := plus_days epoch_1 ddays in
  let* y3 := stage p epoch_2 r v k3 h (dsecs * 2) in
  let* k4 := derivative y3 in
  let dv := rk_average (fst k1) (fst k2) (fst k3) (fst k4) in
  let da := rk_average (snd k1) (snd k2) (snd k3) (snd k4) in
  Ok (GCRF epoch_2
        (v3_plus (g_position (rk_state p)) (v3_scaled dv h))
        (v3_plus (g_velocity (rk_state p)) (v3_scaled da h))).

(** inertial.py:39-74 *)
Definition rk4_step (p : rk4) : rk4 * res unit :=
  match thrust_vector p 0 with
  | Err e => (p, Err e)
  | Ok t0 =>
      let p := set_rk_state p (set_thrust (rk_state p) t0) in
      match step_result p with
      | Err e => (p, Err e)
      | Ok s => (set_rk_state p s, Ok tt)
      end
  end.

(** inertial.py:121-124: [num_steps] calls of [step], stopping at an exception *)
Fixpoint rk4_steps (num_steps : nat) (p : rk4) : rk4 * res unit :=
  match num_steps with
  | O => (p, Ok tt)
  | S n =>
      match rk4_step p with
      | (p, Err e) => (p, Err e)
      | (p, Ok _) => rk4_steps n p
      end
  end.

(** inertial.py:100-127 *)
Definition rk4_step_to_epoch (p : rk4) (e : epoch) : rk4 * res unit :=
  let dt := (value e - value (g_epoch (rk_state p))) * SECONDS_IN_DAY in
  let num_steps := nceil (nabs (dt / MAX_STEP)) in
  let old_step := step_size p in
  let p := if (0 <? num_steps)%Z then set_step_size p (dt / of_Z num_steps) else p in
  match rk4_steps (Z.to_nat num_steps) p with
  | (p, Err err) => (p, Err err)
  | (p, Ok _) => (set_step_size p old_step, Ok tt)
  end.

(** inertial.py:88-91: the burn duration in seconds *)
Definition burn_duration (dv m_dot m0 isp : num) : res num :=
  let* m_spec := pdiv m_dot m0 in
  let* recip := pdiv 1 m_spec in
  let* ex := pdiv (m_spec * dv) (- isp * m_spec * SEA_LEVEL_G) in
  Ok (recip * (1 - nexp ex)).

(** inertial.py:76-98 *)
Definition rk4_maneuver (p : rk4) (gcrf_thrust : vec3) (m_dot m0 isp : num) : rk4 * res unit :=
  match burn_duration (v3_magnitude gcrf_thrust) m_dot m0 isp with
  | Err e => (p, Err e)
  | Ok dv_duration =>
      let p := set_thruster p (v3_copy gcrf_thrust) m0 m_dot isp in
      match rk4_step_to_epoch p (plus_days (g_epoch (rk_state p)) (dv_duration / SECONDS_IN_DAY)) with
      | (p, Err e) => (p, Err e)
      | (p, Ok _) => (set_thruster_off p, Ok tt)
      end
  end.
