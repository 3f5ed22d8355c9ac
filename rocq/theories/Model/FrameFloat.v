(** Conversions between the inertial and the Hill frame with IEEE-754 binary64
    rounding of every operation (round to nearest even, gradual underflow;
    overflow is not modelled). *)
From Coq Require Import Reals.
From Verif.Model Require Import Num Linalg Time States TimeFloat ElementsFloat PositionsFloat.
Local Open Scope R_scope.

(** linalg.py:380-388, three rounded dot products *)
Definition m3_multiply_vector_b64 (m : mat3) (v : vec3) : vec3 :=
  V3 (v3_dot_b64 (m3_row1 m) v) (v3_dot_b64 (m3_row2 m) v) (v3_dot_b64 (m3_row3 m) v).

(** states.py:103-115 *)
Definition HCW_frame_matrix_b64 (origin : gcrf) : res mat3 :=
  let* r := v3_normalized_b64 (g_position origin) in
  let* c := v3_normalized_b64 (v3_cross_b64 (g_position origin) (g_velocity origin)) in
  let i := v3_cross_b64 c r in
  Ok (M3 r i c).

(** states.py:330-334 and 374-378 *)
Definition rsw_sez_matrix_b64 (sinphi cosphi sinlambda coslambda : R) : mat3 :=
  M3 (V3 (b64 (sinphi * coslambda)) (b64 (sinphi * sinlambda)) (- cosphi))
     (V3 (- sinlambda) coslambda 0)
     (V3 (b64 (cosphi * coslambda)) (b64 (cosphi * sinlambda)) sinphi).

(** states.py:302-346 *)
Definition gcrf_to_hcw_b64 (L : libm) (origin st : gcrf) : res state :=
  let magrtgt := v3_magnitude_b64 (g_position origin) in
  let magrint := v3_magnitude_b64 (g_position st) in
  let* rot_eci_rsw := HCW_frame_matrix_b64 origin in
  let vtgtrsw := m3_multiply_vector_b64 rot_eci_rsw (g_velocity origin) in
  let rintrsw := m3_multiply_vector_b64 rot_eci_rsw (g_position st) in
  let vintrsw := m3_multiply_vector_b64 rot_eci_rsw (g_velocity st) in
  let* sinphiint := pdiv_b64 (z3 rintrsw) magrint in
  let* phiint := pasin_b64 L sinphiint in
  let cosphiint := cosf L phiint in
  let lambdaint := atan2f L (y3 rintrsw) (x3 rintrsw) in
  let sinlambdaint := sinf L lambdaint in
  let coslambdaint := cosf L lambdaint in
  let* lambdadottgt := pdiv_b64 (y3 vtgtrsw) magrtgt in
  let r_hcw := V3 (b64 (magrint - magrtgt)) (b64 (lambdaint * magrtgt)) (b64 (phiint * magrtgt)) in
  let rot_rsw_sez := rsw_sez_matrix_b64 sinphiint cosphiint sinlambdaint coslambdaint in
  let vintsez := m3_multiply_vector_b64 rot_rsw_sez vintrsw in
  let* phidotint := pdiv_b64 (- x3 vintsez) magrint in
  let* lambdadotint := pdiv_b64 (y3 vintsez) (b64 (magrint * cosphiint)) in
  let v_hcw := V3 (b64 (z3 vintsez - x3 vtgtrsw))
                  (b64 (magrtgt * b64 (lambdadotint - lambdadottgt)))
                  (b64 (magrtgt * phidotint)) in
  Ok (State (g_epoch origin) r_hcw v_hcw).

(** states.py:352-395 *)
Definition hcw_to_gcrf_b64 (L : libm) (st : state) (origin : gcrf) : res gcrf :=
  let magrtgt := v3_magnitude_b64 (g_position origin) in
  let magrint := b64 (magrtgt + x3 (s_position st)) in
  let* rot_eci_rsw := HCW_frame_matrix_b64 origin in
  let vtgtrsw := m3_multiply_vector_b64 rot_eci_rsw (g_velocity origin) in
  let* lambdadottgt := pdiv_b64 (y3 vtgtrsw) magrtgt in
  let* lambdaint := pdiv_b64 (y3 (s_position st)) magrtgt in
  let* phiint := pdiv_b64 (z3 (s_position st)) magrtgt in
  let sinphiint := sinf L phiint in
  let cosphiint := cosf L phiint in
  let sinlambdaint := sinf L lambdaint in
  let coslambdaint := cosf L lambdaint in
  let rot_rsw_sez := rsw_sez_matrix_b64 sinphiint cosphiint sinlambdaint coslambdaint in
  let rdotint := b64 (x3 (s_velocity st) + x3 vtgtrsw) in
  let* ydot := pdiv_b64 (y3 (s_velocity st)) magrtgt in
  let lambdadotint := b64 (ydot + lambdadottgt) in
  let* phidotint := pdiv_b64 (z3 (s_velocity st)) magrtgt in
  let vintsez := V3 (b64 (- magrint * phidotint)) (b64 (b64 (magrint * lambdadotint) * cosphiint)) rdotint in
  let vintrsw := m3_multiply_vector_b64 (m3_transpose rot_rsw_sez) vintsez in
  let vinteci := m3_multiply_vector_b64 (m3_transpose rot_eci_rsw) vintrsw in
  let rintrsw := V3 (b64 (b64 (cosphiint * magrint) * coslambdaint))
                    (b64 (b64 (cosphiint * magrint) * sinlambdaint))
                    (b64 (sinphiint * magrint)) in
  let rinteci := m3_multiply_vector_b64 (m3_transpose rot_eci_rsw) rintrsw in
  Ok (GCRF (g_epoch origin) rinteci vinteci).
