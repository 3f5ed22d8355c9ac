(** Geodetic coordinates with IEEE-754 binary64 rounding of every operation
    (round to nearest even, gradual underflow; overflow is not modelled). *)
From Coq Require Import Reals.
From Verif.Model Require Import Num Constants Linalg Functions Celestial Positions TimeFloat AngleFloat ElementsFloat.
Local Open Scope R_scope.

(** celestial.py:61, the literal as Python stores it *)
Definition RADIUS_b64 : R := b64 Earth_RADIUS.
(** celestial.py:64 *)
Definition FLATTENING_b64 : R := b64 (1 / b64 298.2572235).

(** [math.asin] and [**] on floats: the domain checks are Python's, the values the C library's *)
Definition pasin_b64 (L : libm) (x : R) : res R :=
  if orb (nlt x (-1)) (nlt 1 x) then Err ValueError else Ok (asinf L x).
Definition ppow_b64 (L : libm) (x y : R) : res R :=
  if nlt 0 x then Ok (powf L x y)
  else if neq x 0 then (if nlt y 0 then Err ZeroDivisionError else Ok 0)
  else Err ComplexResult.

(** positions.py:207-264 to_lla; the sum of squares under [rho] is never negative *)
Definition itrf_to_lla_b64 (L : libm) (pos : vec3) : res lla :=
  let x := x3 pos in
  let y := y3 pos in
  let z := z3 pos in
  let a := RADIUS_b64 in
  let a2 := b64 (a * a) in
  let f := FLATTENING_b64 in
  let b := b64 (a - b64 (f * a)) in
  let b2 := b64 (b * b) in
  let* ba := pdiv_b64 b2 a2 in
  let e2 := b64 (1 - ba) in
  let* ab := pdiv_b64 a2 b2 in
  let eps2 := b64 (ab - 1) in
  let rho := b64 (sqrt (b64 (b64 (x * x) + b64 (y * y)))) in
  let* p := pdiv_b64 (nabs z) eps2 in
  let* s := pdiv_b64 (b64 (rho * rho)) (b64 (e2 * eps2)) in
  let q := b64 (b64 (b64 (p * p) - b2) + s) in
  let* sqrt_q := psqrt_b64 q in
  let* u := pdiv_b64 p sqrt_q in
  let* v := pdiv_b64 (b64 (b64 (b2 * u) * u)) q in
  let* cap_p := pdiv_b64 (b64 (b64 (27 * v) * s)) q in
  let* sp1 := psqrt_b64 (b64 (cap_p + 1)) in
  let* sp := psqrt_b64 cap_p in
  let* cap_q := ppow_b64 L (b64 (sp1 + sp)) (b64 (2 / 3)) in
  let* recip_q := pdiv_b64 1 cap_q in
  let* t := pdiv_b64 (b64 (b64 (1 + cap_q) + recip_q)) 6 in
  let* c := psqrt_b64 (b64 (b64 (b64 (u * u) - 1) + b64 (2 * t))) in
  let* w := pdiv_b64 (b64 (c - u)) 2 in
  let* root := psqrt_b64 (b64 (b64 (t * t) + v)) in
  let* t2 := pdiv_b64 t 2 in
  let base := b64 (b64 (b64 (root - b64 (u * w)) - t2) - 0.25) in
  let base := if nlt base 0 then 0 else base in
  let* sqrt_base := psqrt_b64 base in
  let arg := b64 (w + sqrt_base) in
  let d := b64 (b64 (sign z * sqrt_q) * arg) in
  let* db := pdiv_b64 (b64 (b64 (eps2 * d) * d)) b2 in
  let* sn := psqrt_b64 (b64 (1 + db)) in
  let n := b64 (a * sn) in
  let* dn := pdiv_b64 d n in
  let* lamb := pasin_b64 L (b64 (b64 (eps2 + 1) * dn)) in
  let* a2n := pdiv_b64 a2 n in
  let h := b64 (b64 (b64 (rho * cosf L lamb) + b64 (z * sinf L lamb)) - a2n) in
  Ok (LLA lamb (wrap_b64 (atan2f L y x)) h).
