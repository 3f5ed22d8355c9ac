(** Model of src/openspace/propagators/relative.py. *)
From Verif.Model Require Import Num Constants Linalg Functions Time Celestial Positions States.
Local Open Scope R_scope.

(** relative.py:8-31 class Hill *)
Record hill := mkHill { hl_state : state; hl_sma : num; hl_n : num; hl_step_size : num }.

(** relative.py:11 *)
Definition DEFAULT_STEP_SIZE : num := 600.

(** relative.py:13-31 *)
Definition Hill (s : state) (sma : num) : res hill :=
  let* q := pdiv Earth_MU (sma * sma * sma) in
  let* n := psqrt q in
  Ok (mkHill (state_copy s) sma n DEFAULT_STEP_SIZE).

Definition set_hl_state (h : hill) (s : state) : hill :=
  mkHill s (hl_sma h) (hl_n h) (hl_step_size h).

(** relative.py:33-63 *)
Definition system_matrix (h : hill) (t : num) : res mat66 :=
  let n := hl_n h in
  let* n_inv := pdiv 1 n in
  let sn := sin (n * t) in
  let cs := cos (n * t) in
  Ok (M66
        (V6 (4 - 3 * cs) 0 0 (sn * n_inv) (2 * (1 - cs) * n_inv) 0)
        (V6 (6 * (sn - n * t)) 1 0 (-2 * (1 - cs) * n_inv) ((4 * sn - 3 * n * t) * n_inv) 0)
        (V6 0 0 cs 0 0 (sn * n_inv))
        (V6 (3 * n * sn) 0 0 cs (2 * sn) 0)
        (V6 (-6 * n * (1 - cs)) 0 0 (-2 * sn) (4 * cs - 3) 0)
        (V6 0 0 (- n * sn) 0 0 cs)).

(** relative.py:65-71 *)
Definition hill_step_by_seconds (h : hill) (t : num) : res hill :=
  let* m := system_matrix h t in
  Ok (set_hl_state h (HCW_from_state_vector (m66_multiply_vector m (state_vector (hl_state h))))).

(** relative.py:73-75 *)
Definition hill_step (h : hill) : res hill := hill_step_by_seconds h (hl_step_size h).
