(** Model of src/openspace/math/functions.py. *)
From Verif.Model Require Import Num Constants Linalg.
Local Open Scope R_scope.

(** functions.py:15-28; all divisors are non-zero constants *)
Definition hms_to_decimal_day (hr m s : num) : num :=
  hr / HOURS_IN_DAY + m / MINUTES_IN_DAY + s / SECONDS_IN_DAY.

(** functions.py:30-43 *)
Definition dms_to_radians (d m s : num) : num :=
  radians (d + m / MINUTES_IN_HOUR + s / SECONDS_IN_HOUR).

(** functions.py:46-59 *)
Definition sign (x : num) : num :=
  if nlt 0 x then 1 else if nlt x 0 then -1 else 0.

(** functions.py:62-99 LegendrePolynomial(phi).p *)
Definition LegendrePolynomial (phi : num) : list (list num) :=
  let cos_phi := cos phi in
  let sin_phi := sin phi in
  let cos_phi_squared := cos_phi * cos_phi in
  let sin_phi_squared := sin_phi * sin_phi in
  [ [1; 0];
    [sin_phi; cos_phi; 0];
    [ (3 * sin_phi_squared - 1) * 0.5;
      3 * sin_phi * cos_phi;
      3 * cos_phi_squared;
      0 ];
    [ sin_phi * (5 * sin_phi_squared - 3) * 0.5;
      (15 * sin_phi_squared - 3) * cos_phi * 0.5;
      15 * sin_phi * cos_phi_squared;
      15 * cos_phi_squared * cos_phi;
      0 ];
    [ 0.125 * (35 * sin_phi_squared * sin_phi_squared - 30 * sin_phi_squared + 3);
      2.5 * (7 * sin_phi_squared * sin_phi - 3 * sin_phi) * cos_phi;
      (7 * sin_phi_squared - 1) * cos_phi_squared * 7.5;
      105 * cos_phi * cos_phi_squared * sin_phi;
      105 * cos_phi_squared * cos_phi_squared;
      0 ] ].

(** ** Eccentricity *)
(** functions.py:109-130 *)
Definition E_from_a_c (a c : num) : res num := pdiv c a.
(** functions.py:132-153 *)
Definition E_from_a_b (a b : num) : res num :=
  let* s := psqrt (a * a - b * b) in
  pdiv s a.
(** functions.py:155-176 *)
Definition E_from_a_p (a p : num) : res num :=
  let* q := pdiv p a in
  psqrt (1 - q).

(** ** Flattening *)
(** functions.py:186-201 *)
Definition F_from_a_b (a b : num) : res num := pdiv (a - b) a.

(** ** Semi-major axis *)
(** functions.py:212-227 *)
Definition A_from_mu_n (mu n : num) : res num :=
  let* q := pdiv mu (n * n) in
  ppow q (1 / 3).
(** functions.py:229-245 *)
Definition A_from_mu_tau (mu tau : num) : res num :=
  let base := tau / (2 * PI) in
  ppow (mu * base * base) (1 / 3).
(** functions.py:247-264 *)
Definition A_from_mu_r_v (mu r v : num) : res num :=
  let* q1 := pdiv 2 r in
  let* q2 := pdiv (v * v) mu in
  pdiv 1 (q1 - q2).

(** ** Semi-minor axis *)
(** functions.py:274-289 *)
Definition B_from_a_e (a e : num) : res num :=
  let* s := psqrt (1 - e * e) in
  Ok (a * s).

(** ** Semi-parameter *)
(** functions.py:299-314 *)
Definition P_from_a_b (a b : num) : res num := pdiv (b * b) a.
(** functions.py:316-331 *)
Definition P_from_a_e (a e : num) : num := a * (1 - e * e).
(** functions.py:333-348 *)
Definition P_from_mu_h (mu h : num) : res num := pdiv (h * h) mu.

(** ** Areal velocity *)
(** functions.py:360-377 *)
Definition H_from_r_v_phi (r v phi : num) : num := r * v * cos phi.
(** functions.py:379-394 *)
Definition H_from_mu_p (mu p : num) : res num := psqrt (mu * p).
(** functions.py:396-411 *)
Definition H_from_r_v (r v : vec3) : vec3 := v3_cross r v.

(** ** Right ascension of the ascending node: functions.py:422-442 *)
Definition RAAN_from_w (w : vec3) : num :=
  let raan := atan2 (x3 w) (- y3 w) in
  if nlt raan 0 then raan + 2 * PI else raan.

(** ** Inclination: functions.py:453-480; the sqrt argument is a sum of squares *)
Definition I_from_w (w : vec3) : num :=
  atan2 (sqrt (x3 w * x3 w + y3 w * y3 w)) (z3 w).

(** ** Radius: functions.py:491-508 *)
Definition Radius_from_p_e_nu (p e nu : num) : res num := pdiv p (1 + e * cos nu).

(** ** Specific mechanical energy *)
(** functions.py:519-536 *)
Definition XI_from_mu_r_v (mu r v : num) : res num :=
  let* q := pdiv mu r in
  Ok (v * v * 0.5 - q).
(** functions.py:538-553 *)
Definition XI_from_mu_a (mu a : num) : res num := pdiv (-0.5 * mu) a.

(** ** Vis-viva velocity *)
(** functions.py:564-581 *)
Definition V_from_a_mu_r (a mu r : num) : res num :=
  let* q1 := pdiv 2 r in
  let* q2 := pdiv 1 a in
  psqrt (mu * (q1 - q2)).
(** functions.py:583-599 *)
Definition V_from_mu_r_xi (mu r xi : num) : res num :=
  let* q := pdiv mu r in
  psqrt (2 * (q + xi)).
(** functions.py:601-620 *)
Definition V_from_mu_r_e_nu (mu r e nu : num) : res num :=
  let* q := pdiv mu r in
  let* s := pdiv (1 - e * e) (1 + e * cos nu) in
  psqrt (q * (2 - s)).

(** ** Period: functions.py:630-645 *)
Definition TAU_from_a_mu (a mu : num) : res num :=
  let* q := pdiv (a * a * a) mu in
  let* s := psqrt q in
  Ok (2 * PI * s).

(** ** Mean motion *)
(** functions.py:655-670 *)
Definition N_from_a_mu (a mu : num) : res num :=
  let* q := pdiv mu (a * a * a) in
  psqrt q.
(** functions.py:672-685 *)
Definition N_from_tau (tau : num) : res num := pdiv (2 * PI) tau.

(** ** Eccentric anomaly *)
(** functions.py:696 *)
Definition EA_TOLERANCE : num := 1e-12.

(** functions.py:725-728: the starting value *)
Definition EA_start (ma e : num) : num :=
  if orb (andb (nlt (- PI) ma) (nlt ma 0)) (nlt PI ma) then ma - e else ma + e.

(** functions.py:730-735: the while loop; returns the last [ean] *)
Fixpoint EA_loop (fuel : nat) (ma e ea0 : num) : res num :=
  match fuel with
  | O => Err OutOfFuel
  | S fuel =>
      let* q := pdiv (ma - ea0 + e * sin ea0) (1 - e * cos ea0) in
      let ean := ea0 + q in
      if nlt (nabs (ean - ea0)) EA_TOLERANCE then Ok ean
      else EA_loop fuel ma e ean
  end.

(** functions.py:698-739 *)
Definition EA_from_ma_e (fuel : nat) (ma e : num) : res num :=
  let* ean := EA_loop fuel ma e (EA_start ma e) in
  Ok (if nlt ean 0 then ean + 2 * PI else ean).

(** functions.py:741-763 *)
Definition EA_from_rdv_r_a_n (r_dot_v r a n : num) : res num :=
  let* q1 := pdiv r_dot_v (a * a * n) in
  let* q2 := pdiv r a in
  let ea := atan2 q1 (1 - q2) in
  Ok (if nlt ea 0 then ea + 2 * PI else ea).

(** ** True anomaly: functions.py:774-792 *)
Definition NU_from_e_ea (e ea : num) : res num :=
  let* s := psqrt (1 - e * e) in
  let ta := atan2 (s * sin ea) (cos ea - e) in
  Ok (if nlt ta 0 then ta + 2 * PI else ta).

(** ** Argument of perigee: functions.py:803-821 *)
Definition W_from_u_nu (u nu : num) : num :=
  let w := u - nu in
  if nlt w 0 then w + 2 * PI else w.

(** ** Argument of latitude: functions.py:832-850 *)
Definition U_from_r_w (r w : vec3) : num :=
  let u := atan2 (z3 r) (- x3 r * y3 w + y3 r * x3 w) in
  if nlt u 0 then u + 2 * PI else u.

(** ** Mean anomaly: functions.py:861-879 *)
Definition MA_from_ea_e (ea e : num) : num :=
  let ma := ea - e * sin ea in
  if nlt ma 0 then ma + 2 * PI else ma.
