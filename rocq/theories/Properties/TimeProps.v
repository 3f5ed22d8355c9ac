(** Calendar, epoch and sidereal-time properties (C17-C20, C70, C71). *)
From Coq Require Import Reals ZArith Lra Lia.
From Verif.Model Require Import Num Time TimeFloat.
From Verif.Spec Require Import Calendar.
From Verif.Proofs Require Import NumLemmas TimeProofs TimeFloatProofs.
Local Open Scope R_scope.

(** C17: the day number of a civil date is the signed number of days between
    1858-11-17 and that date, counted one calendar day at a time. *)
Theorem C17_day_number : forall d, valid_date d ->
  (exists n, days_after n mjd_origin = d /\
     value (from_gregorian (dy d) (dm d) (dd d) 0 0 0) = INR n)
  \/ (exists n, days_after n d = mjd_origin /\
     value (from_gregorian (dy d) (dm d) (dd d) 0 0 0) = - INR n).
Proof. exact calendar_days. Qed.
Print Assumptions C17_day_number.

Example C17_valid : valid_date (Date 2000 2 29) /\ valid_date (Date (-4712) 1 1) /\
  ~ valid_date (Date 1900 2 29).
Proof. unfold valid_date; cbn; lia. Qed.

Theorem C17_consecutive : forall d, valid_date d ->
  valid_date (next_day d) /\
  value (from_gregorian (dy (next_day d)) (dm (next_day d)) (dd (next_day d)) 0 0 0)
  = value (from_gregorian (dy d) (dm d) (dd d) 0 0 0) + 1.
Proof. exact calendar_next. Qed.
Print Assumptions C17_consecutive.

Theorem C17_origin : value (from_gregorian 1858 11 17 0 0 0) = 0.
Proof. exact origin_value. Qed.
Print Assumptions C17_origin.

(** C18 *)
Theorem C18_increasing : forall a b, valid_civil a -> valid_civil b -> civil_lt a b ->
  value (from_gregorian (dy (cdate a)) (dm (cdate a)) (dd (cdate a)) (chour a) (cminute a) (csecond a))
  < value (from_gregorian (dy (cdate b)) (dm (cdate b)) (dd (cdate b)) (chour b) (cminute b) (csecond b)).
Proof. exact civil_monotone. Qed.
Print Assumptions C18_increasing.

Theorem C18_injective : forall a b, valid_civil a -> valid_civil b ->
  value (from_gregorian (dy (cdate a)) (dm (cdate a)) (dd (cdate a)) (chour a) (cminute a) (csecond a))
  = value (from_gregorian (dy (cdate b)) (dm (cdate b)) (dd (cdate b)) (chour b) (cminute b) (csecond b))
  -> a = b.
Proof. exact civil_injective. Qed.
Print Assumptions C18_injective.

Example C18_instance :
  let a := Civil (Date 2016 12 31) 23 59 59.5 in
  let b := Civil (Date 2017 1 1) 0 0 0 in
  valid_civil a /\ valid_civil b /\ civil_lt a b.
Proof.
  cbv zeta. unfold valid_civil, valid_date, civil_lt, date_lt; cbn.
  repeat split; try lia; try lra.
Qed.

(** C18, quantitatively: epoch differences are elapsed calendar time. *)
Theorem C18_elapsed : forall d h mi s,
  value (from_gregorian (dy d) (dm d) (dd d) h mi s)
  = value (from_gregorian (dy d) (dm d) (dd d) 0 0 0)
    + (IZR h * 3600 + IZR mi * 60 + s) / 86400.
Proof. exact civil_elapsed. Qed.
Print Assumptions C18_elapsed.

(** C19 *)
Theorem C19_floors_exact : forall y m d,
  (Z.abs y <= 2 ^ 40)%Z -> (1 <= m <= 12)%Z ->
  gregorian_mjd_b64 y m d = gregorian_mjd y m d.
Proof. exact gregorian_b64. Qed.
Print Assumptions C19_floors_exact.

Theorem C19_epoch_error : forall y m d h mi s,
  (Z.abs y <= 2 ^ 40)%Z -> (1 <= m <= 12)%Z ->
  (0 <= h <= 24)%Z -> (0 <= mi <= 60)%Z -> 0 <= s <= 60 ->
  Rabs (from_gregorian_b64 y m d h mi s - value (from_gregorian y m d h mi s))
  <= Rabs (value (from_gregorian y m d h mi s)) / 2 ^ 53 + 1e-15.
Proof. exact from_gregorian_error. Qed.
Print Assumptions C19_epoch_error.

Example C19_instance : (Z.abs (-123456789) <= 2 ^ 40)%Z /\ (1 <= 3 <= 12)%Z.
Proof. split; [vm_compute; discriminate|lia]. Qed.

(** C20 *)
Theorem C20_range : forall e, 0 <= greenwich_hour_angle e < 2 * PI.
Proof. exact gha_range. Qed.
Print Assumptions C20_range.

(** [u] is the UTC modified Julian date, [D] its day number, [j] the Julian
    centuries from J2000 to 0h UTC. *)
Theorem C20_polynomial : forall e,
  exists D k : Z,
    let u := value e - 69.184 / 86400 in
    let j := (IZR D + 2400000.5 - 2451545) / 36525 in
    IZR D <= u < IZR D + 1 /\
    greenwich_hour_angle e
    = (100.4606184 + 36000.77004 * j + 0.000387933 * j ^ 2
       + 360.98564724 * (u - IZR D)) * (PI / 180) - 2 * PI * IZR k.
Proof. exact gha_polynomial. Qed.
Print Assumptions C20_polynomial.

Theorem C20_rate : forall (D : Z) e1 e2,
  IZR D <= value e1 - 69.184 / 86400 < IZR D + 1 ->
  IZR D <= value e2 - 69.184 / 86400 < IZR D + 1 ->
  exists k : Z, greenwich_hour_angle e2
    = greenwich_hour_angle e1 + 360.98564724 * (value e2 - value e1) * (PI / 180)
      + 2 * PI * IZR k.
Proof. exact gha_rate'. Qed.
Print Assumptions C20_rate.

Example C20_instance : IZR 58000 <= 58000.25 - 69.184 / 86400 < IZR 58000 + 1.
Proof. lra. Qed.

(** C70: across UTC midnight the angle is continuous up to 1.5 microdegrees. *)
Theorem C70_midnight : forall (D : Z) e,
  Rabs (IZR D - 51544) <= 146100 ->
  value e - 69.184 / 86400 = IZR D + 1 ->
  exists err : R, Rabs err <= 1.5e-6 /\
    forall e', IZR D <= value e' - 69.184 / 86400 < IZR D + 1 ->
    exists k : Z,
    greenwich_hour_angle e
    = greenwich_hour_angle e' + (360.98564724 * (value e - value e') + err) * (PI / 180)
      + 2 * PI * IZR k.
Proof. exact gha_midnight. Qed.
Print Assumptions C70_midnight.

Example C70_instance : Rabs (IZR 60000 - 51544) <= 146100.
Proof. rewrite Rabs_pos_eq; lra. Qed.

(** C71: day arithmetic on epochs is an action of the real line. *)
Theorem C71_plus_days : forall e s t,
  plus_days (plus_days e s) t = plus_days e (s + t) /\ plus_days e 0 = e /\
  value (plus_days e t) - value e = t /\
  julian_centuries_past_j2000 (plus_days e t) = julian_centuries_past_j2000 e + t / 36525.
Proof. exact plus_days_action. Qed.
Print Assumptions C71_plus_days.
