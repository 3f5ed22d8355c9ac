(** Classical elements from a state with IEEE-754 binary64 rounding of every
    operation (round to nearest even, gradual underflow; overflow is not
    modelled).  [sqrt] is correctly rounded as the standard requires; the
    functions of the C library that need not be are a parameter. *)
From Coq Require Import Reals.
From Verif.Model Require Import Num Constants Linalg Time Celestial States Elements TimeFloat AngleFloat.
Local Open Scope R_scope.

(** [math.sin], [math.cos], [math.asin], [math.atan2] and [pow], whatever they
    return where they return *)
Record libm := Libm { sinf : R -> R; cosf : R -> R; asinf : R -> R; atan2f : R -> R -> R; powf : R -> R -> R }.

(** Python's [/] and [math.sqrt] on floats *)
Definition pdiv_b64 (x y : R) : res R := let* q := pdiv x y in Ok (b64 q).
Definition psqrt_b64 (x : R) : res R := let* q := psqrt x in Ok (b64 q).

(** linalg.py:215-223 *)
Definition v3_dot_b64 (a b : vec3) : R :=
  b64 (b64 (b64 (x3 a * x3 b) + b64 (y3 a * y3 b)) + b64 (z3 a * z3 b)).

(** linalg.py:225-237 *)
Definition v3_cross_b64 (a b : vec3) : vec3 :=
  V3 (b64 (b64 (y3 a * z3 b) - b64 (z3 a * y3 b)))
     (b64 (b64 (z3 a * x3 b) - b64 (x3 a * z3 b)))
     (b64 (b64 (x3 a * y3 b) - b64 (y3 a * x3 b))).

(** linalg.py:239-245; the sum of squares is never negative *)
Definition v3_magnitude_b64 (a : vec3) : R := b64 (sqrt (v3_dot_b64 a a)).

(** linalg.py:247-265 scaled and normalized *)
Definition v3_normalized_b64 (a : vec3) : res vec3 :=
  let* k := pdiv_b64 1 (v3_magnitude_b64 a) in
  Ok (V3 (b64 (x3 a * k)) (b64 (y3 a * k)) (b64 (z3 a * k))).

(** celestial.py:58, the literal as Python stores it *)
Definition MU_b64 : R := b64 Earth_MU.

(** functions.py:248-264 *)
Definition A_from_mu_r_v_b64 (mu r v : R) : res R :=
  let* q1 := pdiv_b64 2 r in
  let* q2 := pdiv_b64 (b64 (v * v)) mu in
  pdiv_b64 1 (b64 (q1 - q2)).

(** functions.py:334-348 *)
Definition P_from_mu_h_b64 (mu h : R) : res R := pdiv_b64 (b64 (h * h)) mu.

(** functions.py:156-176 *)
Definition E_from_a_p_b64 (a p : R) : res R :=
  let* q := pdiv_b64 p a in psqrt_b64 (b64 (1 - q)).

(** functions.py:656-670 *)
Definition N_from_a_mu_b64 (a mu : R) : res R :=
  let* q := pdiv_b64 mu (b64 (b64 (a * a) * a)) in psqrt_b64 q.

(** functions.py:742-763 *)
Definition EA_from_rdv_r_a_n_b64 (L : libm) (rdv r a n : R) : res R :=
  let* q1 := pdiv_b64 rdv (b64 (b64 (a * a) * n)) in
  let* q2 := pdiv_b64 r a in
  Ok (wrap_b64 (atan2f L q1 (b64 (1 - q2)))).

(** functions.py:862-879 *)
Definition MA_from_ea_e_b64 (L : libm) (ea e : R) : R := wrap_b64 (b64 (ea - b64 (e * sinf L ea))).

(** functions.py:775-792 *)
Definition NU_from_e_ea_b64 (L : libm) (e ea : R) : res R :=
  let* s := psqrt_b64 (b64 (1 - b64 (e * e))) in
  Ok (wrap_b64 (atan2f L (b64 (s * sinf L ea)) (b64 (cosf L ea - e)))).

(** functions.py:833-850 *)
Definition U_from_r_w_b64 (L : libm) (r w : vec3) : R :=
  wrap_b64 (atan2f L (z3 r) (b64 (b64 (- x3 r * y3 w) + b64 (y3 r * x3 w)))).

(** functions.py:454-480 *)
Definition I_from_w_b64 (L : libm) (w : vec3) : R :=
  atan2f L (b64 (sqrt (b64 (b64 (x3 w * x3 w) + b64 (y3 w * y3 w))))) (z3 w).

(** functions.py:423-442 *)
Definition RAAN_from_w_b64 (L : libm) (w : vec3) : R := wrap_b64 (atan2f L (x3 w) (- y3 w)).

(** elements.py:50-69 *)
Definition elements_from_ijk_b64 (L : libm) (s : state) : res elements :=
  let r := v3_magnitude_b64 (s_position s) in
  let v := v3_magnitude_b64 (s_velocity s) in
  let rdv := v3_dot_b64 (s_position s) (s_velocity s) in
  let h := v3_cross_b64 (s_position s) (s_velocity s) in
  let* w := v3_normalized_b64 h in
  let i := I_from_w_b64 L w in
  let raan := RAAN_from_w_b64 L w in
  let* a := A_from_mu_r_v_b64 MU_b64 r v in
  let* p := P_from_mu_h_b64 MU_b64 (v3_magnitude_b64 h) in
  let* e := E_from_a_p_b64 a p in
  let* n := N_from_a_mu_b64 a MU_b64 in
  let* ea := EA_from_rdv_r_a_n_b64 L rdv r a n in
  let ma := MA_from_ea_e_b64 L ea e in
  let u := U_from_r_w_b64 L (s_position s) w in
  let* nu := NU_from_e_ea_b64 L e ea in
  let aop := W_from_u_nu_b64 u nu in
  Ok (Elements (s_epoch s) a e i raan aop ma).
