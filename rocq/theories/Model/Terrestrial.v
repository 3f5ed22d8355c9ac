(** Model of src/openspace/bodies/terrestrial.py. *)
From Verif.Model Require Import Num Constants Linalg Functions Time Celestial Positions States Obs
  Artificial.
Local Open Scope R_scope.

(** terrestrial.py:8-24 class GroundSite *)
Record site := mkSite { itrf_position : vec3; site_latitude : num; site_longitude : num;
                        enz_matrix : mat3 }.

(** terrestrial.py:9-24 *)
Definition GroundSite (l : lla) : res site :=
  let* p := lla_to_itrf l in
  Ok (mkSite p (latitude l) (longitude l) (ENZ_matrix (longitude l) (latitude l))).

(** terrestrial.py:26-35 *)
Definition site_from_itrf_position (itrf : vec3) : res site :=
  let* l := itrf_to_lla itrf in
  GroundSite l.

(** terrestrial.py:37-45 *)
Definition enz_position (s : site) (obj_itrf : vec3) : vec3 :=
  m3_multiply_vector (enz_matrix s) (v3_minus obj_itrf (itrf_position s)).

(** terrestrial.py:47-61 *)
Definition angles_and_range (s : site) (target : craft) : res ground_obs :=
  let* tgt := gcrf_to_itrf (sc_position target) (current_epoch target) in
  Ok (GroundObservation
        (ITRF_from_fixed (current_epoch target) (itrf_position s))
        (enz_position s tgt) 0 0).
