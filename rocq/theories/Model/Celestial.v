(** Model of src/openspace/bodies/celestial.py. *)
From Verif.Model Require Import Num Constants Linalg Functions Time.
Local Open Scope R_scope.

(** ** Earth *)

(** celestial.py:15-32 *)
Definition Earth_C : list (list num) :=
  [ [1];
    [0; 0];
    [ -0.484165143790815e-3 / sqrt 0.2; -0.206615509074176e-9 / sqrt 0.6;
      0.243938357328313e-5 / sqrt 2.4 ];
    [ 0.957161207093473e-6 / sqrt (1 / 7);
      0.203046201047864e-5 / sqrt (6 / 7);
      0.904787894809528e-6 / sqrt (60 / 7);
      0.721321757121568e-6 / sqrt (360 / 7) ];
    [ 0.539965866638991e-6 / sqrt (24 / 216);
      -0.536157389388867e-6 / sqrt (10 / 9);
      0.350501623962649e-6 / sqrt 20;
      0.990856766672321e-6 / sqrt 280;
      -0.188519633023033e-6 / sqrt 2240 ] ].

(** celestial.py:35-52 *)
Definition Earth_S : list (list num) :=
  [ [0];
    [0; 0];
    [0; 0.138441389137979e-8 / sqrt 0.6; -0.140027370385934e-5 / sqrt 2.4];
    [ 0;
      0.248200415856872e-6 / sqrt (6 / 7);
      -0.619005475177618e-6 / sqrt (60 / 7);
      0.141434926192941e-5 / sqrt (360 / 7) ];
    [ 0;
      -0.473567346518086e-6 / sqrt (10 / 9);
      0.662480026275829e-6 / sqrt 20;
      -0.200956723567452e-6 / sqrt 280;
      0.308803882149194e-6 / sqrt 2240 ] ].

(** celestial.py:55 *)
Definition Earth_DEGREE_AND_ORDER : nat := length Earth_S.
(** celestial.py:58 *)
Definition Earth_MU : num := 398600.4418.
(** celestial.py:61 *)
Definition Earth_RADIUS : num := 6378.137.
(** celestial.py:64 *)
Definition Earth_FLATTENING : num := 1 / 298.2572235.
(** celestial.py:67 *)
Definition Earth_OBLIQUITY_OF_ECLIPTIC : num := radians 23.43929111.

(** celestial.py:72-89 *)
Definition obliquity_of_ecliptic_at_epoch (e : epoch) : num :=
  let t := julian_centuries_past_j2000 e in
  let a := dms_to_radians 0 0 46.815 in
  let b := dms_to_radians 0 0 0.00059 in
  let c := dms_to_radians 0 0 0.001813 in
  Earth_OBLIQUITY_OF_ECLIPTIC - a * t - b * t * t + c * t * t * t.

(** celestial.py:91-98 *)
Definition geo_radius : res num := A_from_mu_tau Earth_MU SECONDS_IN_SIDEREAL_DAY.

(** celestial.py:100-118 *)
Definition Earth_rotation (e : epoch) : res mat3 :=
  let d := julian_value e - J2000_JULIAN_DATE in
  let arg1 := radians (125.0 - 0.05295 * d) in
  let arg2 := radians (200.9 + 1.97129 * d) in
  let a := radians (-0.0048) in
  let b := radians 0.0004 in
  let dpsi := a * sin arg1 - b * sin arg2 in
  let eps := obliquity_of_ecliptic_at_epoch e in
  let gmst := greenwich_hour_angle e in
  let gast := dpsi * cos eps + gmst in
  v3_rotation_matrix (V3 0 0 1) (- gast).

(** celestial.py:120-155 *)
Definition Earth_precession (e : epoch) : mat3 :=
  let t := julian_centuries_past_j2000 e in
  let a := dms_to_radians 0 0 2306.2181 in
  let b := dms_to_radians 0 0 0.30188 in
  let c := dms_to_radians 0 0 0.017998 in
  let x := a * t + b * t * t + c * t * t * t in
  let a := dms_to_radians 0 0 2004.3109 in
  let b := dms_to_radians 0 0 0.42665 in
  let c := dms_to_radians 0 0 0.041833 in
  let y := a * t - b * t * t - c * t * t * t in
  let a := dms_to_radians 0 0 0.7928 in
  let b := dms_to_radians 0 0 0.000205 in
  let z := x + a * t * t + b * t * t * t in
  let sz := sin z in
  let sy := sin y in
  let sx := sin x in
  let cz := cos z in
  let cy := cos y in
  let cx := cos x in
  M3 (V3 (- sz * sx + cz * cy * cx) (- sz * cx - cz * cy * sx) (- cz * sy))
     (V3 (cz * sx + sz * cy * cx) (cz * cx - sz * cy * sx) (- sz * sy))
     (V3 (sy * cx) (- sy * sx) cy).

(** celestial.py:157-184 *)
Definition Earth_nutation (e : epoch) : mat3 :=
  let d := julian_value e - J2000_JULIAN_DATE in
  let arg1 := radians (125.0 - 0.05295 * d) in
  let arg2 := radians (200.9 + 1.97129 * d) in
  let a := radians (-0.0048) in
  let b := radians 0.0004 in
  let dpsi := a * sin arg1 - b * sin arg2 in
  let a := radians 0.0026 in
  let b := radians 0.0002 in
  let deps := a * cos arg1 + b * cos arg2 in
  let eps := obliquity_of_ecliptic_at_epoch e in
  let ce := cos eps in
  let se := sin eps in
  M3 (V3 1.0 (- dpsi * ce) (- dpsi * se))
     (V3 (dpsi * ce) 1.0 (- deps))
     (V3 (dpsi * se) deps 1.0).

(** ** Sun *)

(** celestial.py:192 *)
Definition Sun_W_PLUS_W : num := radians 282.94.
(** celestial.py:195 *)
Definition Sun_COS_OBLIQUITY : num := cos Earth_OBLIQUITY_OF_ECLIPTIC.
(** celestial.py:198 *)
Definition Sun_SIN_OBLIQUITY : num := sin Earth_OBLIQUITY_OF_ECLIPTIC.
(** celestial.py:201 *)
Definition Sun_MU : num := 1.327124400419e11.
(** celestial.py:204 *)
Definition Sun_P : num := 4.56e-6.
(** celestial.py:207 *)
Definition Sun_AU : num := 149597870.691.

(** celestial.py:209-238 *)
Definition Sun_get_position (e : epoch) : vec3 :=
  let a := dms_to_radians 0 0 6892 in
  let b := dms_to_radians 0 0 72 in
  let t := julian_centuries_past_j2000 e in
  let ma := radians (357.5256 + 35999.049 * t) in
  let sma := sin ma in
  let cma := cos ma in
  let c2ma := cos (2 * ma) in
  let lam := Sun_W_PLUS_W + ma + a * sma + b * 2 * sma * cma in
  let r := (149.619 - 2.499 * cma - 0.021 * c2ma) * 1e6 in
  let x := r * cos lam in
  let slam := sin lam in
  let y := r * slam * Sun_COS_OBLIQUITY in
  let z := r * slam * Sun_SIN_OBLIQUITY in
  V3 x y z.

(** ** Moon *)

(** celestial.py:245 *)
Definition Moon_MU : num := 4902.800305555.
(** celestial.py:248 *)
Definition Moon_RADIUS : num := 1737.4000.

(** celestial.py:250-346 *)
Definition Moon_get_position (e : epoch) : res vec3 :=
  let t := julian_centuries_past_j2000 e in
  let l0 := radians (218.31617 + 481267.88088 * t - 1.3972 * t) in
  let l := radians (134.96292 + 477198.86753 * t) in
  let lp := radians (357.52543 + 35999.04944 * t) in
  let f := radians (93.27283 + 483202.01873 * t) in
  let d := radians (297.85027 + 445267.11135 * t) in
  let a0 := dms_to_radians 0 0 22640.0 in
  let a1 := dms_to_radians 0 0 769.0 in
  let a2 := dms_to_radians 0 0 4586.0 in
  let a3 := dms_to_radians 0 0 2370.0 in
  let a4 := dms_to_radians 0 0 668.0 in
  let a5 := dms_to_radians 0 0 412.0 in
  let a6 := dms_to_radians 0 0 212.0 in
  let a7 := dms_to_radians 0 0 206.0 in
  let a8 := dms_to_radians 0 0 192.0 in
  let a9 := dms_to_radians 0 0 165.0 in
  let a10 := dms_to_radians 0 0 148.0 in
  let a11 := dms_to_radians 0 0 125.0 in
  let a12 := dms_to_radians 0 0 110.0 in
  let a13 := dms_to_radians 0 0 55.0 in
  let lam :=
    l0
    + a0 * sin l
    + a1 * sin (2 * l)
    - a2 * sin (l - 2.0 * d)
    + a3 * sin (2.0 * d)
    - a4 * sin lp
    - a5 * sin (2.0 * f)
    - a6 * sin (2.0 * l - 2.0 * d)
    - a7 * sin (l + lp - 2.0 * d)
    + a8 * sin (l + 2.0 * d)
    - a9 * sin (lp - 2.0 * d)
    + a10 * sin (l - lp)
    - a11 * sin d
    - a12 * sin (l + lp)
    - a13 * sin (2.0 * f - 2.0 * d) in
  let a0 := dms_to_radians 0 0 18520.0 in
  let a1 := dms_to_radians 0 0 412.0 in
  let a2 := dms_to_radians 0 0 541.0 in
  let a3 := dms_to_radians 0 0 526.0 in
  let a4 := dms_to_radians 0 0 44.0 in
  let a5 := dms_to_radians 0 0 31.0 in
  let a6 := dms_to_radians 0 0 25.0 in
  let a7 := dms_to_radians 0 0 23.0 in
  let a8 := dms_to_radians 0 0 21.0 in
  let a9 := dms_to_radians 0 0 11.0 in
  let beta :=
    a0 * sin (f + lam - l0 + a1 * sin (2.0 * f + a2 * sin lp))
    - a3 * sin (f - 2.0 * d)
    + a4 * sin (l + f - 2.0 * d)
    - a5 * sin (- l + f - 2.0 * d)
    - a6 * sin (-2.0 * l + f)
    - a7 * sin (lp + f - 2.0 * d)
    + a8 * sin (- l + f)
    + a9 * sin (- lp + f - 2.0 * d) in
  let r :=
    385000.0
    - 20905.0 * cos l
    - 3699.0 * cos (2.0 * d - l)
    - 2956.0 * cos (2.0 * d)
    - 570.0 * cos (2.0 * l)
    + 246.0 * cos (2.0 * l - 2.0 * d)
    - 205.0 * cos (lp - 2.0 * d)
    - 171.0 * cos (l + 2.0 * d)
    - 152.0 * cos (l + lp - 2.0 * d) in
  let x := r * cos lam * cos beta in
  let y := r * sin lam * cos beta in
  let z := r * sin beta in
  let eps := Earth_OBLIQUITY_OF_ECLIPTIC in
  v3_rotation_about_axis (V3 x y z) (V3 1 0 0) eps.
