From Coq Require Import Reals ZArith Lra Lia Bool Psatz ZifyBool.
From Verif.Model Require Import Num Constants Functions Time.
From Verif.Spec Require Import Calendar.
From Verif.Proofs Require Import NumLemmas.
Local Open Scope Z_scope.

(** closed integer form *)
Definition month_offset (m : Z) : Z := (306001 * (m + 1)) / 10000.

Lemma nfloor_month m : nfloor (30.6001 * of_Z (m + 1))%R = month_offset m.
Proof.
  unfold month_offset, of_Z. rewrite <- nfloor_div by lia. f_equal. rewrite mult_IZR. qlit. field.
Qed.
Definition mjd (y m d : Z) : Z :=
  let y' := if m <=? 2 then y - 1 else y in
  let m' := if m <=? 2 then m + 12 else m in
  365 * y' - 679004 + (y' / 400 - y' / 100 + y' / 4) + month_offset m' + d.
Lemma gregorian_mjd_eq y m d : gregorian_mjd y m d = mjd y m d.
Proof.
  unfold gregorian_mjd, mjd. destruct (m <=? 2); rewrite nfloor_month; unfold of_Z;
  rewrite !nfloor_div by lia; reflexivity.
Qed.
Lemma div_pred y n : 0 < n -> y / n - (y - 1) / n = if y mod n =? 0 then 1 else 0.
Proof.
  intros Hn. assert (E := Z_div_mod_eq_full y n). assert (B := Z.mod_pos_bound y n Hn).
  destruct (Z.eqb_spec (y mod n) 0) as [Z0|Z0].
  - assert ((y - 1) / n = y / n - 1); [|lia].
    symmetry. apply Z.div_unique with (n - 1); nia.
  - assert ((y - 1) / n = y / n); [|lia].
    symmetry. apply Z.div_unique with (y mod n - 1); nia.
Qed.
Lemma leap_count y : (y / 400 - y / 100 + y / 4) - ((y - 1) / 400 - (y - 1) / 100 + (y - 1) / 4)
  = if leap y then 1 else 0.
Proof.
  assert (H4 := div_pred y 4 ltac:(lia)). assert (H100 := div_pred y 100 ltac:(lia)).
  assert (H400 := div_pred y 400 ltac:(lia)). unfold leap.
  assert (M1 : y mod 400 = 0 -> y mod 100 = 0).
  { intros M. apply Z.mod_divide in M; [|lia]. destruct M as [k ->]. replace (k * 400) with (k * 4 * 100) by ring.
    apply Z.mod_mul; lia. }
  assert (M2 : y mod 100 = 0 -> y mod 4 = 0).
  { intros M. apply Z.mod_divide in M; [|lia]. destruct M as [k ->]. replace (k * 100) with (k * 25 * 4) by ring.
    apply Z.mod_mul; lia. }
  destruct (Z.eqb_spec (y mod 4) 0), (Z.eqb_spec (y mod 100) 0), (Z.eqb_spec (y mod 400) 0); simpl; lia.
Qed.
Ltac month_cases m :=
  assert (m = 1 \/ m = 2 \/ m = 3 \/ m = 4 \/ m = 5 \/ m = 6 \/ m = 7 \/ m = 8 \/ m = 9 \/ m = 10 \/ m = 11 \/ m = 12) as Hm12 by lia;
  repeat (destruct Hm12 as [Hm12|Hm12]); subst m.

(** first of the next month *)
Lemma mjd_month y m : 1 <= m <= 11 -> mjd y (m + 1) 1 = mjd y m 1 + days_in_month y m.
Proof.
  intros Hm. assert (L := leap_count y). unfold mjd, days_in_month.
  month_cases m; try lia; cbn [Z.leb Z.eqb Z.compare Pos.compare Pos.compare_cont Z.add Pos.add Pos.succ orb Pos.eqb];
    repeat match goal with |- context [month_offset ?k] =>
      let v := eval vm_compute in (month_offset k) in change (month_offset k) with v end;
    generalize dependent ((y - 1) / 400 - (y - 1) / 100 + (y - 1) / 4);
    generalize (y / 400 - y / 100 + y / 4); intros; destruct (leap y); lia.
Qed.
Lemma mjd_year y : mjd (y + 1) 1 1 = mjd y 12 1 + 31.
Proof.
  unfold mjd. cbn [Z.leb Z.compare Pos.compare Pos.compare_cont].
  replace (y + 1 - 1) with y by ring.
  change (month_offset (1 + 12)) with 428. change (month_offset 12) with 397. lia.
Qed.
Lemma mjd_day y m d : mjd y m d = mjd y m 1 + (d - 1).
Proof. unfold mjd. ring. Qed.
Lemma dim_pos y m : 28 <= days_in_month y m <= 31.
Proof. unfold days_in_month. destruct (_ =? 2); [destruct (leap y); lia|]. destruct (_ || _); lia. Qed.

Definition dmjd (d : date) : Z := mjd (dy d) (dm d) (dd d).

Lemma next_day_mjd d : valid_date d -> valid_date (next_day d) /\ dmjd (next_day d) = dmjd d + 1.
Proof.
  destruct d as [y m d]. unfold valid_date, next_day, dmjd. simpl. intros [Hm Hd].
  destruct (Z.ltb_spec d (days_in_month y m)); simpl.
  - split; [lia|]. rewrite (mjd_day _ _ (d + 1)), (mjd_day _ _ d). lia.
  - destruct (Z.ltb_spec m 12); simpl.
    + split. { generalize (dim_pos y (m + 1)); lia. }
      rewrite mjd_month by lia. rewrite (mjd_day _ _ d). lia.
    + split. { generalize (dim_pos (y + 1) 1); lia. }
      assert (m = 12) by lia. subst m. rewrite mjd_year, (mjd_day _ _ d).
      change (days_in_month y 12) with 31 in *. lia.
Qed.

(** month starts are increasing *)
Lemma mjd_month_le y m m' : 1 <= m <= m' -> m' <= 12 -> mjd y m 1 <= mjd y m' 1.
Proof.
  intros [H1 H2] H3.
  replace m' with (m + Z.of_nat (Z.to_nat (m' - m))) in * by lia.
  induction (Z.to_nat (m' - m)) as [|n IH]; [rewrite Z.add_0_r; lia|].
  replace (m + Z.of_nat (S n)) with ((m + Z.of_nat n) + 1) by lia.
  rewrite mjd_month by lia. generalize (dim_pos y (m + Z.of_nat n)). specialize (IH ltac:(lia) ltac:(lia)). lia.
Qed.
Lemma mjd_year_le y y' : y <= y' -> mjd y 1 1 <= mjd y' 1 1.
Proof.
  intros H. replace y' with (y + Z.of_nat (Z.to_nat (y' - y))) by lia.
  induction (Z.to_nat (y' - y)) as [|n IH]; [rewrite Z.add_0_r; lia|].
  replace (y + Z.of_nat (S n)) with ((y + Z.of_nat n) + 1) by lia. rewrite mjd_year.
  assert (L := mjd_month_le (y + Z.of_nat n) 1 12 ltac:(lia) ltac:(lia)). lia.
Qed.
Lemma dmjd_lt a b : valid_date a -> valid_date b -> date_lt a b -> dmjd a < dmjd b.
Proof.
  destruct a as [y m d], b as [y' m' d']. unfold valid_date, date_lt, dmjd. simpl.
  intros [Hm Hd] [Hm' Hd'] H.
  rewrite (mjd_day y m d), (mjd_day y' m' d').
  destruct H as [H|[-> [H|[-> H]]]]; [| |lia].
  - assert (L1 := mjd_year_le (y + 1) y' ltac:(lia)). rewrite mjd_year in L1.
    assert (L2 := mjd_month_le y' 1 m' ltac:(lia) ltac:(lia)).
    assert (L3 : mjd y m 1 + days_in_month y m <= mjd y 12 1 + 31).
    { destruct (Z.eq_dec m 12) as [->|N]. change (days_in_month y 12) with 31. lia.
      rewrite <- mjd_month by lia. assert (L := mjd_month_le y (m + 1) 12 ltac:(lia) ltac:(lia)). lia. }
    lia.
  - assert (L := mjd_month_le y' (m + 1) m' ltac:(lia) ltac:(lia)). rewrite mjd_month in L by lia. lia.
Qed.
Lemma date_trichotomy a b : date_lt a b \/ a = b \/ date_lt b a.
Proof.
  destruct a as [y m d], b as [y' m' d']. unfold date_lt; simpl.
  destruct (Z.lt_trichotomy y y') as [|[->|]]; [left; lia| |right; right; lia].
  destruct (Z.lt_trichotomy m m') as [|[->|]]; [left; lia| |right; right; lia].
  destruct (Z.lt_trichotomy d d') as [|[->|]]; [left; lia| |right; right; lia]. auto.
Qed.
Lemma dmjd_inj a b : valid_date a -> valid_date b -> dmjd a = dmjd b -> a = b.
Proof.
  intros Ha Hb E. destruct (date_trichotomy a b) as [H|[H|H]]; auto.
  - apply dmjd_lt in H; auto; lia.
  - apply dmjd_lt in H; auto; lia.
Qed.
Lemma days_after_mjd n d : valid_date d -> valid_date (days_after n d) /\ dmjd (days_after n d) = dmjd d + Z.of_nat n.
Proof.
  intros H. induction n as [|n [IH1 IH2]]; [simpl; split; auto; lia|].
  cbn [days_after]. destruct (next_day_mjd _ IH1) as [H1 H2]. split; auto. lia.
Qed.
Lemma origin_valid : valid_date mjd_origin /\ dmjd mjd_origin = 0.
Proof. split; [unfold valid_date; simpl; split; [lia|vm_compute; split; discriminate]|reflexivity]. Qed.
Lemma from_gregorian_midnight y m d : value (from_gregorian y m d 0 0 0) = IZR (mjd y m d).
Proof.
  unfold from_gregorian. rewrite gregorian_mjd_eq. simpl.
  unfold hms_to_decimal_day, of_Z. unfold Rdiv. rewrite !Rmult_0_l. ring.
Qed.
Lemma calendar_days d : valid_date d ->
  (exists n, days_after n mjd_origin = d /\ value (from_gregorian (dy d) (dm d) (dd d) 0 0 0) = INR n)
  \/ (exists n, days_after n d = mjd_origin /\ value (from_gregorian (dy d) (dm d) (dd d) 0 0 0) = (- INR n)%R).
Proof.
  intros H. destruct origin_valid as [O1 O2]. rewrite from_gregorian_midnight. fold (dmjd d).
  destruct (Z_le_gt_dec 0 (dmjd d)).
  - left. exists (Z.to_nat (dmjd d)). split.
    + destruct (days_after_mjd (Z.to_nat (dmjd d)) mjd_origin O1) as [V E]. apply dmjd_inj; auto. lia.
    + rewrite INR_IZR_INZ. f_equal. lia.
  - right. exists (Z.to_nat (- dmjd d)). split.
    + destruct (days_after_mjd (Z.to_nat (- dmjd d)) d H) as [V E]. apply dmjd_inj; auto. lia.
    + rewrite INR_IZR_INZ, <- opp_IZR. f_equal. lia.
Qed.
Lemma calendar_next d : valid_date d ->
  valid_date (next_day d) /\
  value (from_gregorian (dy (next_day d)) (dm (next_day d)) (dd (next_day d)) 0 0 0)
  = (value (from_gregorian (dy d) (dm d) (dd d) 0 0 0) + 1)%R.
Proof.
  intros H. destruct (next_day_mjd d H) as [V E]. split; auto. rewrite !from_gregorian_midnight.
  unfold dmjd in E. rewrite E, plus_IZR. reflexivity.
Qed.
Lemma origin_value : value (from_gregorian 1858 11 17 0 0 0) = 0%R.
Proof. rewrite from_gregorian_midnight. reflexivity. Qed.

Local Open Scope R_scope.
Definition civil_value (c : civil) : R :=
  value (from_gregorian (dy (cdate c)) (dm (cdate c)) (dd (cdate c)) (chour c) (cminute c) (csecond c)).
Definition seconds_of_day (c : civil) : R :=
  IZR (chour c) * 3600 + IZR (cminute c) * 60 + csecond c.
Lemma civil_value_eq c : civil_value c = IZR (dmjd (cdate c)) + seconds_of_day c / 86400.
Proof.
  unfold civil_value, from_gregorian, seconds_of_day. rewrite gregorian_mjd_eq. simpl.
  unfold hms_to_decimal_day, HOURS_IN_DAY, MINUTES_IN_DAY, SECONDS_IN_DAY, of_Z, dmjd. field.
Qed.
Lemma seconds_range c : valid_civil c -> 0 <= seconds_of_day c < 86400.
Proof.
  intros (_ & Hh & Hm & Hs). unfold seconds_of_day.
  assert (0 <= IZR (chour c) <= 23) by (split; apply IZR_le; lia).
  assert (0 <= IZR (cminute c) <= 59) by (split; apply IZR_le; lia). lra.
Qed.
Lemma civil_monotone a b : valid_civil a -> valid_civil b -> civil_lt a b ->
  civil_value a < civil_value b.
Proof.
  intros Va Vb H. rewrite !civil_value_eq. assert (Sa := seconds_range a Va). assert (Sb := seconds_range b Vb).
  destruct Va as (Da & Ha & Ma & Ca). destruct Vb as (Db & Hb & Mb & Cb).
  destruct H as [H|[E H]].
  - apply dmjd_lt in H; auto. assert (L : (dmjd (cdate a) + 1 <= dmjd (cdate b))%Z) by lia.
    apply IZR_le in L. rewrite plus_IZR in L. lra.
  - rewrite E. assert (seconds_of_day a < seconds_of_day b); [|lra]. unfold seconds_of_day.
    assert (0 <= IZR (cminute a) <= 59) by (split; apply IZR_le; lia).
    assert (0 <= IZR (cminute b) <= 59) by (split; apply IZR_le; lia).
    destruct H as [H|[-> [H|[-> H]]]]; [| |lra].
    + assert (L : (chour a + 1 <= chour b)%Z) by lia. apply IZR_le in L. rewrite plus_IZR in L. lra.
    + assert (L : (cminute a + 1 <= cminute b)%Z) by lia. apply IZR_le in L. rewrite plus_IZR in L. lra.
Qed.
Lemma civil_trichotomy a b : civil_lt a b \/ a = b \/ civil_lt b a.
Proof.
  destruct a as [d h m s], b as [d' h' m' s']. unfold civil_lt; simpl.
  destruct (date_trichotomy d d') as [|[->|]]; auto 12.
  destruct (Z.lt_trichotomy h h') as [|[->|]]; auto 12.
  destruct (Z.lt_trichotomy m m') as [|[->|]]; [left; right; auto 12| |right; right; right; auto 12].
  destruct (Rtotal_order s s') as [Hs|[->|Hs]]; [left|auto|right; right];
    right; split; auto; right; split; auto 12.
Qed.
Lemma civil_injective a b : valid_civil a -> valid_civil b -> civil_value a = civil_value b -> a = b.
Proof.
  intros Va Vb E. destruct (civil_trichotomy a b) as [H|[H|H]]; auto.
  - apply civil_monotone in H; auto; lra.
  - apply civil_monotone in H; auto; lra.
Qed.

(** Greenwich hour angle *)
Lemma radians_lt x : 0 <= x < 360 -> 0 <= radians x < 2 * PI.
Proof. intros H. unfold radians. assert (P := PI_RGT_0). split; [apply Rmult_le_pos; lra|].
  replace (2 * PI) with (360 * (PI / 180)) by field. apply Rmult_lt_compat_r; lra. Qed.
Lemma gha_range e : 0 <= greenwich_hour_angle e < 2 * PI.
Proof. unfold greenwich_hour_angle. apply radians_lt. apply nmod_range; lra. Qed.
Lemma nmod_1 x : nmod x 1 = x - IZR (nfloor x).
Proof.
  apply nmod_unique with (nfloor x); [lra| |lra]. generalize (nfloor_bounds x); lra.
Qed.
(** degrees of the polynomial, from day number D and day fraction f *)
Definition gmst_degrees (D : Z) (f : R) : R :=
  let j := (IZR D + 2400000.5 - 2451545) / 36525 in
  100.4606184 + 36000.77004 * j + 0.000387933 * j ^ 2 + 360.98564724 * f.
Lemma gha_value e : let u := value e - UTC_TDT_OFFSET in
  exists k : Z, greenwich_hour_angle e
    = gmst_degrees (nfloor u) (u - IZR (nfloor u)) * (PI / 180) - 2 * PI * IZR k.
Proof.
  intros u. unfold greenwich_hour_angle. fold u. cbn [value].
  rewrite nmod_1. unfold julian_value, J2000_JULIAN_DATE, JULIAN_CENTURY, MJD_ZERO. cbn [value].
  set (D := nfloor u).
  replace (u + 2400000.5 - (u - IZR D) - 2451545) with (IZR D + 2400000.5 - 2451545) by ring.
  match goal with |- context [nmod ?t 360] => set (T := t) end.
  destruct (nmod_eq T 360) as [k E]. exists k. rewrite E. unfold radians.
  replace T with (gmst_degrees D (u - IZR D)) by (unfold gmst_degrees, T; qlit; field).
  field.
Qed.
Lemma gha_rate e1 e2 :
  nfloor (value e1 - UTC_TDT_OFFSET) = nfloor (value e2 - UTC_TDT_OFFSET) ->
  exists k : Z, greenwich_hour_angle e2
    = greenwich_hour_angle e1 + 360.98564724 * (value e2 - value e1) * (PI / 180) + 2 * PI * IZR k.
Proof.
  intros H. destruct (gha_value e1) as [k1 E1]. destruct (gha_value e2) as [k2 E2]. cbv zeta in *.
  exists (k1 - k2)%Z. rewrite E1, E2, H, minus_IZR. unfold gmst_degrees. ring.
Qed.
(** at UTC midnight the polynomial jumps by less than 0.2 microdegrees per
    day, within four centuries of J2000 *)
Lemma Rabs_le_inv' a b : Rabs a <= b -> - b <= a <= b.
Proof. unfold Rabs. destruct (Rcase_abs a); lra. Qed.
Lemma gmst_midnight D : Rabs (IZR D - 51544) <= 146100 ->
  Rabs (gmst_degrees (D + 1) 0 + 360 - gmst_degrees D 1) <= 1.5e-6.
Proof.
  intros H. apply Rabs_le_inv' in H. apply Rabs_le. unfold gmst_degrees. rewrite plus_IZR.
  set (d := IZR D) in *. 
  replace (100.4606184 + 36000.77004 * ((d + 1 + 2400000.5 - 2451545) / 36525) + 0.000387933 * ((d + 1 + 2400000.5 - 2451545) / 36525) ^ 2 +
      360.98564724 * 0 + 360 - (100.4606184 + 36000.77004 * ((d + 2400000.5 - 2451545) / 36525) + 0.000387933 * ((d + 2400000.5 - 2451545) / 36525) ^ 2 + 360.98564724 * 1))
   with (36000.77004 / 36525 + 360 - 360.98564724 + 0.000387933 * (2 * (d - 51544.5) + 1) / 36525 / 36525) by (qlit; field).
  lra.
Qed.
Lemma civil_elapsed d h mi s :
  value (from_gregorian (dy d) (dm d) (dd d) h mi s)
  = value (from_gregorian (dy d) (dm d) (dd d) 0 0 0)
    + (IZR h * 3600 + IZR mi * 60 + s) / 86400.
Proof.
  rewrite from_gregorian_midnight. generalize (civil_value_eq (Civil d h mi s)).
  unfold civil_value, seconds_of_day, dmjd. simpl. auto.
Qed.
Lemma offset_eq : UTC_TDT_OFFSET = 69.184 / 86400.
Proof. reflexivity. Qed.
Lemma gha_polynomial e :
  exists D k : Z,
    let u := value e - 69.184 / 86400 in
    let j := (IZR D + 2400000.5 - 2451545) / 36525 in
    IZR D <= u < IZR D + 1 /\
    greenwich_hour_angle e
    = (100.4606184 + 36000.77004 * j + 0.000387933 * j ^ 2
       + 360.98564724 * (u - IZR D)) * (PI / 180) - 2 * PI * IZR k.
Proof.
  destruct (gha_value e) as [k E]. exists (nfloor (value e - UTC_TDT_OFFSET)), k.
  split; [apply nfloor_bounds|exact E].
Qed.
Lemma gha_rate' (D : Z) e1 e2 :
  IZR D <= value e1 - 69.184 / 86400 < IZR D + 1 ->
  IZR D <= value e2 - 69.184 / 86400 < IZR D + 1 ->
  exists k : Z, greenwich_hour_angle e2
    = greenwich_hour_angle e1 + 360.98564724 * (value e2 - value e1) * (PI / 180)
      + 2 * PI * IZR k.
Proof.
  rewrite <- offset_eq. intros H1 H2. apply gha_rate.
  rewrite (nfloor_unique _ _ H1), (nfloor_unique _ _ H2). reflexivity.
Qed.
Lemma gha_midnight (D : Z) e :
  Rabs (IZR D - 51544) <= 146100 ->
  value e - 69.184 / 86400 = IZR D + 1 ->
  exists err : R, Rabs err <= 1.5e-6 /\
    forall e', IZR D <= value e' - 69.184 / 86400 < IZR D + 1 ->
    exists k : Z,
    greenwich_hour_angle e
    = greenwich_hour_angle e' + (360.98564724 * (value e - value e') + err) * (PI / 180)
      + 2 * PI * IZR k.
Proof.
  intros HD He. assert (J := gmst_midnight D HD).
  exists (gmst_degrees (D + 1) 0 + 360 - gmst_degrees D 1). split; [exact J|].
  intros e' He'. destruct (gha_value e) as [k E]. destruct (gha_value e') as [k' E']. cbv zeta in *.
  rewrite <- offset_eq in *.
  rewrite (nfloor_unique (value e' - UTC_TDT_OFFSET) D) in E' by lra.
  rewrite (nfloor_unique (value e - UTC_TDT_OFFSET) (D + 1)) in E by (rewrite plus_IZR; lra).
  exists (k' - k - 1)%Z. rewrite E, E', !minus_IZR, plus_IZR.
  replace (value e - UTC_TDT_OFFSET - (IZR D + 1)) with 0 by lra.
  replace (value e - value e') with (1 - (value e' - UTC_TDT_OFFSET - IZR D)) by lra.
  set (f := value e' - UTC_TDT_OFFSET - IZR D).
  replace (gmst_degrees D f) with (gmst_degrees D 1 - 360.98564724 * (1 - f)) by (unfold gmst_degrees; ring).
  field.
Qed.
Lemma plus_days_action e s t :
  plus_days (plus_days e s) t = plus_days e (s + t) /\ plus_days e 0 = e /\
  value (plus_days e t) - value e = t /\
  julian_centuries_past_j2000 (plus_days e t) = julian_centuries_past_j2000 e + t / 36525.
Proof.
  destruct e as [v]. unfold plus_days, julian_centuries_past_j2000, julian_value, JULIAN_CENTURY; cbn [value].
  repeat split; [f_equal; ring|f_equal; ring|ring|field].
Qed.
