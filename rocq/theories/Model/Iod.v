(** Model of src/openspace/estimation/iod.py. *)
From Verif.Model Require Import Num Constants Linalg Functions Time Celestial Positions States
  Elements Obs.
Local Open Scope R_scope.

(** iod.py:12 *)
Definition NU_TOLERANCE : num := 1e-12.

(** iod.py:137-148 *)
Definition w_of_omega (w : num) : res num :=
  let* sw := psqrt w in
  let* asw := pasin sw in
  let g := 2 * asw in
  let sg := sin g in
  pdiv (2 * g - sin (2 * g)) (sg * sg * sg).

(** iod.py:121-135 *)
Definition f_of_nu (n m l : num) : res num :=
  let* m_over_nu_squared := pdiv m (n * n) in
  let* w := w_of_omega (m_over_nu_squared - l) in
  Ok (1 - n + m_over_nu_squared * w).

(** iod.py:92-119; the while loop with fuel *)
Fixpoint solve_nu (fuel : nat) (m l n0 n1 : num) : res num :=
  match fuel with
  | O => Err OutOfFuel
  | S fuel =>
      let* f1 := f_of_nu n1 m l in
      let* f0 := f_of_nu n0 m l in
      let* q := pdiv (f1 * (n1 - n0)) (f1 - f0) in
      let n2 := n1 - q in
      if nlt (nabs (n2 - n1)) NU_TOLERANCE then Ok n2
      else solve_nu fuel m l n1 n2
  end.

(** iod.py:14-90, on the two positions and epochs (ijk_position() and epoch()
    of the two observations) *)
Definition coes_from_positions (fuel : nat) (ra rb : vec3) (ob1_epoch ob2_epoch : epoch)
  : res elements :=
  let ra_mag := v3_magnitude ra in
  let rb_mag := v3_magnitude rb in
  let* ea := v3_normalized ra in
  let r0 := v3_minus rb (v3_scaled ea (v3_dot rb ea)) in
  let r0_mag := v3_magnitude r0 in
  let* e0 := v3_normalized r0 in
  let w := v3_cross ea e0 in
  let ua := atan2 (z3 ra) (- x3 ra * y3 w + y3 ra * x3 w) in
  let inc := atan2 (sqrt (x3 w * x3 w + y3 w * y3 w)) (z3 w) in
  let raan := atan2 (x3 w) (- y3 w) in
  let inc := if nlt inc 0 then inc + 2 * PI else inc in
  let raan := if nlt raan 0 then raan + 2 * PI else raan in
  let tau := sqrt Earth_MU * (value ob2_epoch - value ob1_epoch) * SECONDS_IN_DAY in
  let base := 2 * (ra_mag * rb_mag + v3_dot ra rb) in
  let* bp := ppow base (-1.5) in
  let m := tau * tau * bp in
  let* sb := psqrt base in
  let* lq := pdiv (ra_mag + rb_mag) (2 * sb) in
  let l := lq - 0.5 in
  let* mq := pdiv m (l + 5 / 6) in
  let* sn := psqrt (1 + (44 / 9) * mq) in
  let n0 := 12 / 22 + 10 / 22 * sn in
  let n1 := n0 + 0.1 in
  let n2 := n0 in
  let* n := solve_nu fuel m l n1 n2 in
  let* base := pdiv (ra_mag * r0_mag * n) tau in
  let p := base * base in
  let* pa := pdiv p ra_mag in
  let ecosva := pa - 1 in
  let* pb := pdiv p rb_mag in
  let ecosvb := pb - 1 in
  let* cb := pdiv (v3_dot rb ea) rb_mag in
  let* sb := pdiv r0_mag rb_mag in
  let* esinva := pdiv (ecosva * cb - ecosvb) sb in
  let ta := atan2 esinva ecosva in
  let ta := if nlt ta 0 then ta + 2 * PI else ta in
  let* e := pdiv ecosva (cos ta) in
  let aop := ua - ta in
  let aop := if nlt aop 0 then aop + 2 * PI else aop in
  let* sma := pdiv p (1 - e * e) in
  let* se := psqrt (1 - e * e) in
  let e_anom := atan2 (se * sin ta) (cos ta + e) in
  let ma := e_anom - e * sin e_anom in
  Ok (Elements ob1_epoch sma e inc raan aop ma).

(** obs.py:7-20 Observation: an observation of either kind, through the two
    methods iod.py calls *)
Inductive observation := Space (o : space_obs) | Ground (o : ground_obs).
Definition observation_ijk (o : observation) : res vec3 :=
  match o with Space o => so_ijk_position o | Ground o => go_ijk_position o end.
Definition observation_epoch (o : observation) : epoch :=
  match o with Space o => so_epoch o | Ground o => go_epoch o end.

(** iod.py:14-90 as called, on two observations (iod.py:26-27, 51) *)
Definition coes_from_observations (fuel : nat) (ob1 ob2 : observation) : res elements :=
  let* ra := observation_ijk ob1 in
  let* rb := observation_ijk ob2 in
  coes_from_positions fuel ra rb (observation_epoch ob1) (observation_epoch ob2).
