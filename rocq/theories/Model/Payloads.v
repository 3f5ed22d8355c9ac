(** Model of src/openspace/hardware/payloads.py. *)
From Verif.Model Require Import Num Constraints.
Local Open Scope R_scope.

(** payloads.py:9-18 *)
Definition DEFAULT_WIDE_PIXELS : num := 3072.
Definition DEFAULT_NARROW_PIXELS : num := 3072.
Definition DEFAULT_NFOV : num := radians 0.125.
Definition DEFAULT_WFOV : num := radians 5.

(** payloads.py:6-39 class Camera *)
Record camera := mkCamera { pixels : num; fov : num; limits : optical; resolution_factor : num }.

(** payloads.py:20-39 *)
Definition Camera (pixels fov : num) : res camera :=
  let* lim := OpticalConstraints pixels fov in
  let* q := pdiv 1 pixels in
  Ok (mkCamera pixels fov lim (q * 0.5)).

(** payloads.py:41-48 *)
Definition Camera_wfov : res camera := Camera DEFAULT_WIDE_PIXELS DEFAULT_WFOV.
(** payloads.py:50-57 *)
Definition Camera_nfov : res camera := Camera DEFAULT_NARROW_PIXELS DEFAULT_NFOV.

(** payloads.py:59-67 *)
Definition resolution (c : camera) (r : num) : num := tan (fov c) * r * resolution_factor c.

(** payloads.py:69-79 *)
Definition range_error (c : camera) (r d : num) : res num :=
  let* q := pdiv (resolution c r) d in
  Ok (q * r).

(** payloads.py:81-89 *)
Definition tracking_minimum (c : camera) (body_r : num) : res num := pdiv body_r (tan (fov c)).
