(** Model of src/openspace/math/constants.py. *)
From Verif.Model Require Import Num.
Local Open Scope R_scope.

(** constants.py:2 *)
Definition SECONDS_IN_DAY : num := 86400.
(** constants.py:5 *)
Definition HOURS_IN_DAY : num := 24.
(** constants.py:8 *)
Definition MINUTES_IN_DAY : num := 1440.
(** constants.py:11 *)
Definition MINUTES_IN_HOUR : num := 60.
(** constants.py:14 *)
Definition SECONDS_IN_HOUR : num := 3600.
(** constants.py:17 *)
Definition SECONDS_IN_MINUTE : num := 60.
(** constants.py:20 *)
Definition DEGREES_IN_HOUR : num := 15.
(** constants.py:23 *)
Definition SEA_LEVEL_G : num := 0.00981.
(** constants.py:26 *)
Definition BASE_IN_KILO : num := 1000.
(** constants.py:29 *)
Definition SECONDS_IN_SIDEREAL_DAY : num := 86164.090518.
