(** Hill propagation with IEEE-754 binary64 rounding of every operation (round
    to nearest even, gradual underflow; overflow is not modelled). *)
From Coq Require Import Reals List.
From Verif.Model Require Import Num Constants Linalg Time Celestial States Relative TimeFloat AngleFloat ElementsFloat.
Local Open Scope R_scope.

(** linalg.py:61-76 *)
Definition v6_dot_b64 (a b : vec6) : R :=
  b64 (b64 (b64 (b64 (b64 (b64 (x6 a * x6 b) + b64 (y6 a * y6 b)) + b64 (z6 a * z6 b))
    + b64 (vx6 a * vx6 b)) + b64 (vy6 a * vy6 b)) + b64 (vz6 a * vz6 b)).

(** linalg.py:895-910 *)
Definition m66_multiply_vector_b64 (m : mat66) (v : vec6) : vec6 :=
  V6 (v6_dot_b64 (m66_row1 m) v) (v6_dot_b64 (m66_row2 m) v) (v6_dot_b64 (m66_row3 m) v)
     (v6_dot_b64 (m66_row4 m) v) (v6_dot_b64 (m66_row5 m) v) (v6_dot_b64 (m66_row6 m) v).

(** relative.py:13-31 *)
Definition Hill_b64 (s : state) (sma : R) : res hill :=
  let* q := pdiv_b64 MU_b64 (b64 (b64 (sma * sma) * sma)) in
  let* n := psqrt_b64 q in
  Ok (mkHill (state_copy s) sma n DEFAULT_STEP_SIZE).

(** relative.py:33-63 *)
Definition system_matrix_b64 (L : libm) (h : hill) (t : R) : res mat66 :=
  let n := hl_n h in
  let* n_inv := pdiv_b64 1 n in
  let sn := sinf L (b64 (n * t)) in
  let cs := cosf L (b64 (n * t)) in
  Ok (M66
        (V6 (b64 (4 - b64 (3 * cs))) 0 0 (b64 (sn * n_inv)) (b64 (b64 (2 * b64 (1 - cs)) * n_inv)) 0)
        (V6 (b64 (6 * b64 (sn - b64 (n * t)))) 1 0 (b64 (b64 (-2 * b64 (1 - cs)) * n_inv))
            (b64 (b64 (b64 (4 * sn) - b64 (b64 (3 * n) * t)) * n_inv)) 0)
        (V6 0 0 cs 0 0 (b64 (sn * n_inv)))
        (V6 (b64 (b64 (3 * n) * sn)) 0 0 cs (b64 (2 * sn)) 0)
        (V6 (b64 (b64 (-6 * n) * b64 (1 - cs))) 0 0 (b64 (-2 * sn)) (b64 (b64 (4 * cs) - 3)) 0)
        (V6 0 0 (b64 (- n * sn)) 0 0 cs)).

(** relative.py:65-71 *)
Definition hill_step_by_seconds_b64 (L : libm) (h : hill) (t : R) : res hill :=
  let* m := system_matrix_b64 L h t in
  Ok (set_hl_state h (HCW_from_state_vector (m66_multiply_vector_b64 m (state_vector (hl_state h))))).

(** relative.py:73-75 *)
Definition hill_step_b64 (L : libm) (h : hill) : res hill := hill_step_by_seconds_b64 L h (hl_step_size h).
