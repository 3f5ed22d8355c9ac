(** Model of src/openspace/coordinates/positions.py. *)
From Verif.Model Require Import Num Constants Linalg Functions Time Celestial.
Local Open Scope R_scope.

(** positions.py:9-27 class SphericalPosition *)
Record spherical := Spherical { radius : num; right_ascension : num; declination : num }.

(** positions.py:29-42; the sqrt argument is a sum of squares *)
Definition spherical_from_cartesian (pos : vec3) : spherical :=
  let ra := atan2 (y3 pos) (x3 pos) in
  let ra := if nlt ra 0 then ra + 2 * PI else ra in
  let dec := atan2 (z3 pos) (sqrt (x3 pos * x3 pos + y3 pos * y3 pos)) in
  Spherical (v3_magnitude pos) ra dec.

(** positions.py:44-53 *)
Definition spherical_to_cartesian (s : spherical) : vec3 :=
  let cd := cos (declination s) in
  v3_scaled (V3 (cd * cos (right_ascension s)) (cd * sin (right_ascension s))
                (sin (declination s)))
            (radius s).

(** positions.py:57-77 *)
Definition ENZ_matrix (lamb psi : num) : mat3 :=
  let slamb := sin lamb in
  let clamb := cos lamb in
  let spsi := sin psi in
  let cpsi := cos psi in
  M3 (V3 (- slamb) clamb 0.0)
     (V3 (- spsi * clamb) (- spsi * slamb) cpsi)
     (V3 (cpsi * clamb) (cpsi * slamb) spsi).

(** positions.py:80-98 class LLA *)
Record lla := LLA { latitude : num; longitude : num; altitude : num }.

(** positions.py:100-106 *)
Definition lla_copy (l : lla) : lla := LLA (latitude l) (longitude l) (altitude l).

(** ** From GCRF *)

(** positions.py:138-149 *)
Definition gcrf_to_mod (pos : vec3) (e : epoch) : vec3 :=
  m3_multiply_vector (Earth_precession e) pos.

(** positions.py:125-136 *)
Definition gcrf_to_tod (pos : vec3) (e : epoch) : vec3 :=
  m3_multiply_vector (Earth_nutation e) (gcrf_to_mod pos e).

(** positions.py:112-123 *)
Definition gcrf_to_itrf (pos : vec3) (e : epoch) : res vec3 :=
  let* rot := Earth_rotation e in
  Ok (m3_multiply_vector rot (gcrf_to_tod pos e)).

(** ** From ITRF *)

(** positions.py:181-192 *)
Definition itrf_to_tod (pos : vec3) (e : epoch) : res vec3 :=
  let* rot := Earth_rotation e in
  Ok (m3_multiply_vector (m3_transpose rot) pos).

(** positions.py:194-205 *)
Definition itrf_to_mod (pos : vec3) (e : epoch) : res vec3 :=
  let* tod := itrf_to_tod pos e in
  Ok (m3_multiply_vector (m3_transpose (Earth_nutation e)) tod).

(** positions.py:168-179 *)
Definition itrf_to_gcrf (pos : vec3) (e : epoch) : res vec3 :=
  let* md := itrf_to_mod pos e in
  Ok (m3_multiply_vector (m3_transpose (Earth_precession e)) md).

(** positions.py:207-264; divisions by the constants [a2], [b2], [e2 * eps2],
    [eps2] (non-zero) are total.  [sqrt (x*x + y*y)] is a sum of squares. *)
Definition itrf_to_lla (pos : vec3) : res lla :=
  let x := x3 pos in
  let y := y3 pos in
  let z := z3 pos in
  let a := Earth_RADIUS in
  let a2 := a * a in
  let f := Earth_FLATTENING in
  let b := a - f * a in
  let b2 := b * b in
  let e2 := 1 - b2 / a2 in
  let eps2 := a2 / b2 - 1.0 in
  let rho := sqrt (x * x + y * y) in
  let p := nabs z / eps2 in
  let s := rho * rho / (e2 * eps2) in
  let q := p * p - b2 + s in
  let* sqrt_q := psqrt q in
  let* u := pdiv p sqrt_q in
  let* v := pdiv (b2 * u * u) q in
  let* cap_p := pdiv (27.0 * v * s) q in
  let* sp1 := psqrt (cap_p + 1) in
  let* sp := psqrt cap_p in
  let* cap_q := ppow (sp1 + sp) (2.0 / 3.0) in
  let* recip_q := pdiv 1.0 cap_q in
  let t := (1.0 + cap_q + recip_q) / 6.0 in
  let* c := psqrt (u * u - 1.0 + 2.0 * t) in
  let w := (c - u) / 2.0 in
  let* root := psqrt (t * t + v) in
  let base := root - u * w - t / 2.0 - 0.25 in
  let base := if nlt base 0 then 0 else base in
  let* sqrt_base := psqrt base in
  let arg := w + sqrt_base in
  let d := sign z * sqrt_q * arg in
  let* sn := psqrt (1.0 + eps2 * d * d / b2) in
  let n := a * sn in
  let* dn := pdiv d n in
  let arg := (eps2 + 1.0) * dn in
  let* lamb := pasin arg in
  let* a2n := pdiv a2 n in
  let h := rho * cos lamb + z * sin lamb - a2n in
  let phi := atan2 y x in
  let phi := if nlt phi 0 then phi + PI * 2.0 else phi in
  Ok (LLA lamb phi h).

(** positions.py:266-277 *)
Definition itrf_to_ijk (pos : vec3) (e : epoch) : res vec3 :=
  v3_rotation_about_axis pos (V3 0 0 1) (greenwich_hour_angle e).

(** positions.py:151-162 *)
Definition gcrf_to_ijk (pos : vec3) (e : epoch) : res vec3 :=
  let* i := gcrf_to_itrf pos e in
  itrf_to_ijk i e.

(** ** From LLA: positions.py:283-304 *)
Definition lla_to_itrf (l : lla) : res vec3 :=
  let lat := latitude l in
  let longit := longitude l in
  let alt := altitude l in
  let f := Earth_FLATTENING in
  let* e := psqrt (f * (2 - f)) in
  let slat := sin lat in
  let clat := cos lat in
  let* root := psqrt (1 - e * e * slat * slat) in
  let* n := pdiv Earth_RADIUS root in
  Ok (V3 ((n + alt) * clat * cos longit)
         ((n + alt) * clat * sin longit)
         ((n * (1.0 - e * e) + alt) * slat)).

(** ** From ENZ: positions.py:310-321 *)
Definition enz_to_itrf (l : lla) (enz : vec3) : vec3 :=
  m3_multiply_vector (m3_transpose (ENZ_matrix (longitude l) (latitude l))) enz.
