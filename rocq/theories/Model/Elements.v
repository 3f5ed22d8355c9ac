(** Model of src/openspace/coordinates/elements.py. *)
From Verif.Model Require Import Num Constants Linalg Functions Time Celestial Positions States.
Local Open Scope R_scope.

(** elements.py:10-48 class ClassicalElements *)
Record elements := Elements {
  el_epoch : epoch; semimajor_axis : num; eccentricity : num; inclination : num;
  raan : num; argument_of_perigee : num; mean_anomaly : num }.

(** elements.py:50-69 *)
Definition elements_from_ijk (s : state) : res elements :=
  let r := v3_magnitude (s_position s) in
  let v := v3_magnitude (s_velocity s) in
  let rdv := v3_dot (s_position s) (s_velocity s) in
  let h := H_from_r_v (s_position s) (s_velocity s) in
  let* w := v3_normalized h in
  let i := I_from_w w in
  let raan := RAAN_from_w w in
  let* a := A_from_mu_r_v Earth_MU r v in
  let* p := P_from_mu_h Earth_MU (v3_magnitude h) in
  let* e := E_from_a_p a p in
  let* n := N_from_a_mu a Earth_MU in
  let* ea := EA_from_rdv_r_a_n rdv r a n in
  let ma := MA_from_ea_e ea e in
  let u := U_from_r_w (s_position s) w in
  let* nu := NU_from_e_ea e ea in
  let aop := W_from_u_nu u nu in
  Ok (Elements (s_epoch s) a e i raan aop ma).

(** elements.py:71-77; the fuel bounds the Kepler loop *)
Definition eccentric_anomaly (fuel : nat) (el : elements) : res num :=
  EA_from_ma_e fuel (mean_anomaly el) (eccentricity el).

(** elements.py:79-90 *)
Definition perigee_vector (el : elements) : res vec3 :=
  let cw := cos (argument_of_perigee el) in
  let c0 := cos (raan el) in
  let sw := sin (argument_of_perigee el) in
  let s0 := sin (raan el) in
  let ci := cos (inclination el) in
  v3_normalized (V3 (cw * c0 - sw * ci * s0) (cw * s0 + sw * ci * c0)
                    (sw * sin (inclination el))).

(** elements.py:92-105 *)
Definition semilatus_rectum_vector (el : elements) : vec3 :=
  let cw := cos (argument_of_perigee el) in
  let c0 := cos (raan el) in
  let sw := sin (argument_of_perigee el) in
  let s0 := sin (raan el) in
  let ci := cos (inclination el) in
  V3 (- sw * c0 - cw * ci * s0) (- sw * s0 + cw * ci * c0) (cw * sin (inclination el)).

(** elements.py:107-131 *)
Definition elements_to_ijk (fuel : nat) (el : elements) : res state :=
  let* p := perigee_vector el in
  let q := semilatus_rectum_vector el in
  let* ea := eccentric_anomaly fuel el in
  let cea := cos ea in
  let sea := sin ea in
  let a := semimajor_axis el in
  let e := eccentricity el in
  let r := a * (1 - e * cea) in
  let* recip_r := pdiv 1 r in
  let* mu_a := pdiv Earth_MU a in
  let* root := psqrt mu_a in
  let ea_dot := recip_r * root in
  let* sb := psqrt (1 - e * e) in
  let b := a * sb in
  let x_bar := a * (cea - e) in
  let y_bar := b * sea in
  let x_bar_dot := - a * ea_dot * sea in
  let y_bar_dot := b * ea_dot * cea in
  Ok (State (el_epoch el)
        (v3_plus (v3_scaled p x_bar) (v3_scaled q y_bar))
        (v3_plus (v3_scaled p x_bar_dot) (v3_scaled q y_bar_dot))).
