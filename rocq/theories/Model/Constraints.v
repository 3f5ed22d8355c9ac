(** Model of src/openspace/hardware/constraints.py. *)
From Verif.Model Require Import Num.
Local Open Scope R_scope.

(** constraints.py:7-25 *)
Definition DEFAULT_SUN_HARD : num := radians 60.
Definition DEFAULT_SUN_SOFT : num := radians 90.
Definition DEFAULT_MOON_LIMIT : num := radians 10.
Definition DEFAULT_EARTH_LIMIT : num := radians 20.
Definition DEFAULT_LIMITING_MAG : num := 15.
Definition DEFAULT_RESOLUTION_LIMIT : num := 1e-5.
Definition DEFAULT_FRAME_DAMP : num := 1.

(** constraints.py:4-56 class OpticalConstraints *)
Record optical := mkOptical {
  sun_hard : num; sun_soft : num; lim_moon : num; lim_earth : num;
  vismag : num; bore : num; characterization : num }.

(** constraints.py:27-56 *)
Definition OpticalConstraints (pixels fov : num) : res optical :=
  let clos := DEFAULT_RESOLUTION_LIMIT * 2 * pixels in
  let* ch := pdiv clos (tan fov) in
  Ok (mkOptical DEFAULT_SUN_HARD DEFAULT_SUN_SOFT DEFAULT_MOON_LIMIT DEFAULT_EARTH_LIMIT
        DEFAULT_LIMITING_MAG (DEFAULT_FRAME_DAMP * fov) ch).
