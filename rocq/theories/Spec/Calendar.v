(** The proleptic Gregorian calendar. *)
From Coq Require Import ZArith Bool Reals.
Local Open Scope Z_scope.

Definition leap (y : Z) : bool :=
  ((y mod 4 =? 0) && negb (y mod 100 =? 0)) || (y mod 400 =? 0).

Definition days_in_month (y m : Z) : Z :=
  if m =? 2 then (if leap y then 29 else 28)
  else if (m =? 4) || (m =? 6) || (m =? 9) || (m =? 11) then 30 else 31.

Record date := Date { dy : Z; dm : Z; dd : Z }.

Definition valid_date (d : date) : Prop :=
  1 <= dm d <= 12 /\ 1 <= dd d <= days_in_month (dy d) (dm d).

Definition next_day (d : date) : date :=
  if dd d <? days_in_month (dy d) (dm d) then Date (dy d) (dm d) (dd d + 1)
  else if dm d <? 12 then Date (dy d) (dm d + 1) 1
  else Date (dy d + 1) 1 1.

(** the date [n] days after [d] *)
Fixpoint days_after (n : nat) (d : date) : date :=
  match n with O => d | S n => next_day (days_after n d) end.

(** the origin of the modified Julian date *)
Definition mjd_origin : date := Date 1858 11 17.

(** A civil date-time and its lexicographic order. *)
Record civil := Civil { cdate : date; chour : Z; cminute : Z; csecond : R }.

Definition valid_civil (c : civil) : Prop :=
  valid_date (cdate c) /\ 0 <= chour c <= 23 /\ 0 <= cminute c <= 59 /\
  (0 <= csecond c < 60)%R.

Definition date_lt (a b : date) : Prop :=
  dy a < dy b \/ (dy a = dy b /\ (dm a < dm b \/ (dm a = dm b /\ dd a < dd b))).

Definition civil_lt (a b : civil) : Prop :=
  date_lt (cdate a) (cdate b) \/
  (cdate a = cdate b /\
   (chour a < chour b \/ (chour a = chour b /\
    (cminute a < cminute b \/ (cminute a = cminute b /\ (csecond a < csecond b)%R))))).
