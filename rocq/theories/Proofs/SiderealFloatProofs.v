From Coq Require Import Reals ZArith Lra Lia Bool.
From Flocq Require Import Core.
From Verif.Model Require Import Num Constants Time TimeFloat AngleFloat.
From Verif.Proofs Require Import NumLemmas TimeProofs TimeFloatProofs AngleFloatProofs ElementsFloatProofs StateFloatProofs PiDigits.
From Verif.Model Require Import SiderealFloat.
From Verif.Spec Require Import SiderealFloat.
Local Open Scope R_scope.

Lemma err_refl d x : 0 <= d -> err d x x.
Proof. intros H. unfold err. rewrite Rminus_eq_0, Rabs_R0. auto. Qed.
Lemma err_const c C : Rabs c <= C -> err (1.12e-16 * C + 1e-60) (b64 c) c.
Proof. intros H. unfold err. assert (F := b64_fine c). lra. Qed.

Lemma offset_round : Rabs (UTC_TDT_OFFSET_b64 - UTC_TDT_OFFSET) <= 1e-16.
Proof.
  unfold UTC_TDT_OFFSET_b64, UTC_TDT_OFFSET, SECONDS_IN_DAY. assert (A := b64_fine 69.184). rewrite (Rabs_pos_eq 69.184) in A by lra.
  apply Rabs_le_inv in A. assert (B := b64_fine (b64 69.184 / 86400)). set (c := b64 69.184) in *. clearbody c.
  rewrite (Rabs_pos_eq (c / 86400)) in B by lra. apply Rabs_le_inv in B. apply Rabs_le. lra.
Qed.

Lemma utc_round v : Rabs (v - 51544.5) <= 36525 -> Rabs (b64 (v - UTC_TDT_OFFSET_b64) - (v - UTC_TDT_OFFSET)) <= 9.9e-12.
Proof.
  intros H. apply Rabs_le_inv in H. assert (O := offset_round). apply Rabs_le_inv in O. assert (T : UTC_TDT_OFFSET = 69.184 / 86400) by reflexivity.
  assert (F := b64_fine (v - UTC_TDT_OFFSET_b64)). rewrite (Rabs_pos_eq (v - _)) in F by lra. apply Rabs_le_inv in F. apply Rabs_le. lra.
Qed.

Lemma pymod_360 x : exists k : Z, 0 <= pymod_b64 x 360 <= 360 /\ Rabs (pymod_b64 x 360 - (x - 360 * IZR k)) <= 4.1e-14.
Proof.
  assert (B := pymod_range x 360 ltac:(lra) (b64_IZR 360 ltac:(lia))). unfold pymod_b64 in *.
  assert (F := fmod_bound x 360 ltac:(lra)). destruct (nlt_spec (fmod x 360) 0).
  - exists (Ztrunc (x / 360) - 1)%Z. split; auto. assert (G := b64_fine (fmod x 360 + 360)). rewrite (Rabs_pos_eq (fmod x 360 + 360)) in G by lra.
    apply Rabs_le_inv in G. rewrite minus_IZR. unfold fmod in *. apply Rabs_le. lra.
  - exists (Ztrunc (x / 360)). split; auto. unfold fmod. rewrite Rminus_eq_0, Rabs_R0. lra.
Qed.

Lemma radians_round m : 0 <= m <= 360 -> Rabs (radians_b64 m - m * (PI / 180)) <= 3e-15.
Proof.
  intros H. unfold radians_b64. assert (P := math_pi_close). assert (PD := PI_digits).
  assert (A := b64_fine (math_pi / 180)). rewrite (Rabs_pos_eq (math_pi / 180)) in A by lra. apply Rabs_le_inv in A. set (c := b64 (math_pi / 180)) in *.
  assert (C : Rabs (c - PI / 180) <= 4e-18) by (apply Rabs_le; lra). clearbody c.
  assert (E : err (360 * 4e-18) (m * c) (m * (PI / 180))).
  { unfold err. replace (m * c - m * (PI / 180)) with (m * (c - PI / 180)) by ring. rewrite Rabs_mult, (Rabs_pos_eq m) by lra. apply Rmult_le_compat; auto; try lra. apply Rabs_pos. }
  apply (err_round _ _ _ 7 3e-15 E); [|lra]. rewrite Rabs_pos_eq; [|apply Rmult_le_pos; lra].
  apply Rle_trans with (360 * (PI / 180)); [apply Rmult_le_compat_r; lra|lra].
Qed.

(** * The polynomial *)
Lemma total_round u : 15000 <= u <= 88100 -> let D := nfloor u in let f := u - IZR D in
  let dec_day := pymod_b64 u 1 in
  let j0 := b64 (b64 (u + MJD_ZERO) - dec_day) in
  let j := b64 (b64 (j0 - J2000_JULIAN_DATE) / JULIAN_CENTURY) in
  let theta0 := b64 (b64 (b64 100.4606184 + b64 (b64 36000.77004 * j)) + b64 (b64 (b64 0.000387933 * j) * j)) in
  let total_deg := b64 (theta0 + b64 (b64 360.98564724 * dec_day)) in
  Rabs (total_deg - gmst_degrees D f) <= 6.6e-10.
Proof.
  intros U D f dd. assert (E : dd = f). { unfold dd, f. rewrite pymod_exact by lra. apply nmod_1. }
  clearbody dd. subst dd. assert (FB := nfloor_bounds u). fold D in FB. assert (F : 0 <= f < 1) by (unfold f; lra).
  intros j0 j theta0 total. unfold MJD_ZERO, J2000_JULIAN_DATE, JULIAN_CENTURY in *.
  assert (E0 : err 5.7e-10 j0 (IZR D + 2400000.5)).
  { unfold j0. replace (IZR D + 2400000.5) with (u + 2400000.5 - f) by (unfold f; ring).
    apply (err_subr 2.81e-10 0 _ _ _ _ 2.5e6); [|apply err_refl; lra|apply Rabs_le; unfold f; lra|lra].
    apply (err_round 0 _ _ 2.5e6); [apply err_refl; lra|apply Rabs_le; lra|lra]. }
  set (y := (IZR D + 2400000.5 - 2451545) / 36525).
  assert (Y : Rabs y <= 1.001) by (unfold y; apply Rabs_le; lra).
  assert (EJ : err 1.6e-14 j y).
  { unfold j. assert (E1 : err 5.8e-10 (b64 (j0 - 2451545)) (IZR D + 2400000.5 - 2451545)).
    { apply (err_subr 5.7e-10 0 _ _ _ _ 36600); [exact E0|apply err_refl; lra|apply Rabs_le; lra|lra]. }
    set (w := b64 (j0 - 2451545)) in *. clearbody w.
    apply (err_round (5.8e-10 / 36525) _ _ 1.001); [|exact Y|lra]. unfold err in *. unfold y.
    replace (w / 36525 - (IZR D + 2400000.5 - 2451545) / 36525) with ((w - (IZR D + 2400000.5 - 2451545)) * / 36525) by field.
    rewrite Rabs_mult, (Rabs_pos_eq (/ 36525)) by lra. apply Rmult_le_compat_r with (r := / 36525) in E1; [|lra]. lra. }
  clearbody j0. clearbody j. clear E0.
  assert (E1 : err 6.0e-10 (b64 (b64 36000.77004 * j)) (36000.77004 * y)).
  { apply (err_mulr 4.1e-12 1.6e-14 _ _ _ _ 36001 1.001); auto; [|rewrite Rabs_pos_eq; lra|lra].
    apply err_weaken with (1.12e-16 * 36001 + 1e-60); [apply err_const; rewrite Rabs_pos_eq; lra|lra]. }
  assert (E2 : err 6.2e-10 (b64 (b64 100.4606184 + b64 (b64 36000.77004 * j))) (100.4606184 + 36000.77004 * y)).
  { apply (err_addr 1.2e-14 6.0e-10 _ _ _ _ 36500); auto; [| |lra].
    - apply err_weaken with (1.12e-16 * 101 + 1e-60); [apply err_const; rewrite Rabs_pos_eq; lra|lra].
    - apply Rabs_le_inv in Y. apply Rabs_le. lra. }
  assert (E3 : err 1e-17 (b64 (b64 0.000387933 * j)) (0.000387933 * y)).
  { apply (err_mulr 5e-20 1.6e-14 _ _ _ _ 0.0004 1.001); auto; [|rewrite Rabs_pos_eq; lra|lra].
    apply err_weaken with (1.12e-16 * 0.0004 + 1e-60); [apply err_const; rewrite Rabs_pos_eq; lra|lra]. }
  assert (E4 : err 1e-16 (b64 (b64 (b64 0.000387933 * j) * j)) (0.000387933 * y * y)).
  { apply (err_mulr 1e-17 1.6e-14 _ _ _ _ 0.0005 1.001); auto; [|lra].
    apply Rabs_le_inv in Y. apply Rabs_le. lra. }
  assert (E5 : err 6.4e-10 theta0 (100.4606184 + 36000.77004 * y + 0.000387933 * y * y)).
  { unfold theta0. apply (err_addr 6.2e-10 1e-16 _ _ _ _ 36500); auto; [|lra].
    assert (Rabs (0.000387933 * y * y) <= 0.001).
    { rewrite !Rabs_mult, (Rabs_pos_eq 0.000387933) by lra. assert (P := Rabs_pos y). 
      assert (0.000387933 * Rabs y * Rabs y <= 0.000387933 * 1.001 * 1.001); [|lra]. apply Rmult_le_compat; try lra; try (apply Rmult_le_pos; lra). }
    apply Rabs_le_inv in Y. apply Rabs_le_inv in H. apply Rabs_le. lra. }
  assert (E6 : err 1e-13 (b64 (b64 360.98564724 * f)) (360.98564724 * f)).
  { apply (err_mulr 4.1e-14 0 _ _ _ _ 361 1); [|apply err_refl; lra|rewrite Rabs_pos_eq; lra|rewrite Rabs_pos_eq; lra|lra].
    apply err_weaken with (1.12e-16 * 361 + 1e-60); [apply err_const; rewrite Rabs_pos_eq; lra|lra]. }
  assert (G : gmst_degrees D f = 100.4606184 + 36000.77004 * y + 0.000387933 * y * y + 360.98564724 * f).
  { unfold gmst_degrees. fold y. ring. }
  rewrite G. unfold total. apply (err_addr 6.4e-10 1e-13 _ _ _ _ 37000); auto; [|lra].
  assert (Rabs (0.000387933 * y * y) <= 0.001).
  { rewrite !Rabs_mult, (Rabs_pos_eq 0.000387933) by lra. assert (P := Rabs_pos y). 
    assert (0.000387933 * Rabs y * Rabs y <= 0.000387933 * 1.001 * 1.001); [|lra]. apply Rmult_le_compat; try lra; try (apply Rmult_le_pos; lra). }
  apply Rabs_le_inv in Y. apply Rabs_le_inv in H. apply Rabs_le. lra.
Qed.


Lemma gha_of_rounded v : Rabs (v - 51544.5) <= 36525 -> let u := b64 (v - UTC_TDT_OFFSET_b64) in
  close_angle 1.2e-11 (greenwich_hour_angle_b64 v) (greenwich_hour_angle (Epoch (u + UTC_TDT_OFFSET))).
Proof.
  intros H u. assert (R := utc_round v H). fold u in R. assert (O : UTC_TDT_OFFSET = 69.184 / 86400) by reflexivity.
  assert (U : 15000 <= u <= 88100) by (apply Rabs_le_inv in R; apply Rabs_le_inv in H; lra).
  assert (T := total_round u U). cbv zeta in T. unfold greenwich_hour_angle_b64. fold u. cbv zeta.
  match type of T with Rabs (?t - _) <= _ => set (total := t) in * end. clearbody total.
  destruct (gha_value (Epoch (u + UTC_TDT_OFFSET))) as [k G]. cbn [value] in G. replace (u + UTC_TDT_OFFSET - UTC_TDT_OFFSET) with u in G by ring.
  rewrite G. destruct (pymod_360 total) as [k' [M1 M2]]. assert (Q := radians_round _ M1). set (m := pymod_b64 total 360) in *. clearbody m.
  set (g := gmst_degrees (nfloor u) (u - IZR (nfloor u))) in *. clearbody g. exists (k - k')%Z. rewrite minus_IZR.
  assert (PD := PI_digits).
  replace (radians_b64 m - (g * (PI / 180) - 2 * PI * IZR k) - 2 * PI * (IZR k - IZR k')) with
    ((radians_b64 m - m * (PI / 180)) + ((m - (total - 360 * IZR k')) + (total - g)) * (PI / 180)) by field.
  eapply Rle_trans; [apply Rabs_triang|]. rewrite Rabs_mult, (Rabs_pos_eq (PI / 180)) by lra.
  assert (A : Rabs (m - (total - 360 * IZR k') + (total - g)) <= 6.601e-10) by (eapply Rle_trans; [apply Rabs_triang|]; lra).
  assert (B : Rabs (m - (total - 360 * IZR k') + (total - g)) * (PI / 180) <= 6.601e-10 * (3.2 / 180)) by (apply Rmult_le_compat; [apply Rabs_pos|lra|auto|lra]). lra.
Qed.

Lemma gha_round v : Rabs (v - 51544.5) <= 36525 -> (exists D : Z, IZR D + 1e-11 <= v - 69.184 / 86400 < IZR D + 1 - 1e-11) ->
  close_angle 8e-11 (greenwich_hour_angle_b64 v) (greenwich_hour_angle (Epoch v)).
Proof.
  intros H [D Day]. assert (R := utc_round v H). destruct (gha_of_rounded v H) as [k1 G]. set (u := b64 (v - UTC_TDT_OFFSET_b64)) in *.
  unfold UTC_TDT_OFFSET, SECONDS_IN_DAY in *. apply Rabs_le_inv in R.
  destruct (gha_rate' D (Epoch v) (Epoch (u + 69.184 / 86400))) as [k2 E]; cbn [value]; [lra|lra|]. cbn [value] in E. rewrite E in G.
  exists (k1 + k2)%Z. rewrite plus_IZR. set (h := greenwich_hour_angle (Epoch v)) in *. set (w := 360.98564724 * (u + 69.184 / 86400 - v) * (PI / 180)) in *.
  replace (greenwich_hour_angle_b64 v - h - 2 * PI * (IZR k1 + IZR k2)) with ((greenwich_hour_angle_b64 v - (h + w + 2 * PI * IZR k2) - 2 * PI * IZR k1) + w) by ring.
  eapply Rle_trans; [apply Rabs_triang|]. assert (PD := PI_digits).
  assert (W : Rabs w <= 361 * 9.9e-12 * (3.1416 / 180)).
  { unfold w. rewrite !Rabs_mult, (Rabs_pos_eq (PI / 180)), (Rabs_pos_eq 360.98564724) by lra. 
    apply Rmult_le_compat; try lra; [apply Rmult_le_pos; [lra|apply Rabs_pos]|]. apply Rmult_le_compat; try lra. apply Rabs_pos. apply Rabs_le. lra. }
  lra.
Qed.

Lemma gha_cross (D : Z) (e1 e2 : epoch) : Rabs (IZR D - 51544) <= 146100 ->
  IZR D <= value e1 - 69.184 / 86400 < IZR D + 1 -> IZR D + 1 <= value e2 - 69.184 / 86400 < IZR D + 1 + 1 -> exists err (k : Z), Rabs err <= 1.5e-6 /\
  greenwich_hour_angle e2 = greenwich_hour_angle e1 + (360.98564724 * (value e2 - value e1) + err) * (PI / 180) + 2 * PI * IZR k.
Proof.
  intros HD H1 H2. set (em := Epoch (IZR D + 1 + 69.184 / 86400)).
  destruct (gha_midnight D em HD) as [er [Er G]]; [cbn [em value]; ring|]. destruct (G e1 H1) as [k1 G1].
  destruct (gha_rate' (D + 1) em e2) as [k2 G2]; [rewrite plus_IZR; cbn [em value]; lra|rewrite plus_IZR; lra|].
  exists er, (k1 + k2)%Z. split; auto. rewrite G2, G1, plus_IZR. ring.
Qed.

Lemma gha_round_any v : Rabs (v - 51544.5) <= 36525 -> close_angle 2.7e-8 (greenwich_hour_angle_b64 v) (greenwich_hour_angle (Epoch v)).
Proof.
  intros H. assert (R := utc_round v H). destruct (gha_of_rounded v H) as [k1 G]. set (u := b64 (v - UTC_TDT_OFFSET_b64)) in *.
  unfold UTC_TDT_OFFSET, SECONDS_IN_DAY in *. apply Rabs_le_inv in R. apply Rabs_le_inv in H.
  set (e := Epoch v). set (e' := Epoch (u + 69.184 / 86400)) in *.
  assert (E : exists er (k : Z), Rabs er <= 1.5e-6 /\ greenwich_hour_angle e' = greenwich_hour_angle e + (360.98564724 * (value e' - value e) + er) * (PI / 180) + 2 * PI * IZR k).
  { assert (F1 := nfloor_bounds (v - 69.184 / 86400)). assert (F2 := nfloor_bounds u). set (D := nfloor (v - 69.184 / 86400)) in *. set (D' := nfloor u) in *.
    assert (DB : (-1 <= D' - D <= 1)%Z).
    { assert (IZR (D' - D) < IZR 2) by (rewrite minus_IZR; lra). assert (IZR (-2) < IZR (D' - D)) by (rewrite minus_IZR; lra).
      apply lt_IZR in H0. apply lt_IZR in H1. lia. }
    assert (C : D' = D \/ D' = (D + 1)%Z \/ D = (D' + 1)%Z) by lia. destruct C as [C|[C|C]].
    - exists 0. destruct (gha_rate' D e e') as [k K]; [cbn [e value]; lra|cbn [e' value]; rewrite <- C; lra|]. exists k. split; [rewrite Rabs_R0; lra|]. rewrite K. ring.
    - destruct (gha_cross D e e') as [er [k [A B]]]; [apply Rabs_le; lra|cbn [e value]; lra|cbn [e' value]; rewrite C, plus_IZR in F2; lra|]. exists er, k. auto.
    - destruct (gha_cross D' e' e) as [er [k [A B]]]; [apply Rabs_le; lra|cbn [e' value]; lra|cbn [e value]; rewrite C, plus_IZR in F1; lra|].
      exists (- er), (- k)%Z. split; [rewrite Rabs_Ropp; auto|]. rewrite B, opp_IZR. ring. }
  destruct E as [er [k2 [Er E]]]. rewrite E in G. exists (k1 + k2)%Z. rewrite plus_IZR. set (h := greenwich_hour_angle e) in *. cbn [e e' value] in *.
  set (w := (360.98564724 * (u + 69.184 / 86400 - v) + er) * (PI / 180)) in *.
  replace (greenwich_hour_angle_b64 v - h - 2 * PI * (IZR k1 + IZR k2)) with ((greenwich_hour_angle_b64 v - (h + w + 2 * PI * IZR k2) - 2 * PI * IZR k1) + w) by ring.
  eapply Rle_trans; [apply Rabs_triang|]. assert (PD := PI_digits).
  assert (W : Rabs w <= (361 * 9.9e-12 + 1.5e-6) * (3.1416 / 180)).
  { unfold w. rewrite Rabs_mult, (Rabs_pos_eq (PI / 180)) by lra. apply Rmult_le_compat; try lra; [apply Rabs_pos|].
    eapply Rle_trans; [apply Rabs_triang|]. apply Rplus_le_compat; auto. rewrite Rabs_mult, (Rabs_pos_eq 360.98564724) by lra.
    apply Rmult_le_compat; try lra. apply Rabs_pos. apply Rabs_le. lra. }
  lra.
Qed.

Lemma gha_b64_range v : 0 <= greenwich_hour_angle_b64 v <= 6.2831853072.
Proof.
  unfold greenwich_hour_angle_b64. cbv zeta. match goal with |- context [pymod_b64 ?t 360] => destruct (pymod_360 t) as [k [A _]]; set (m := pymod_b64 t 360) in * end. clearbody m.
  assert (Q := radians_round _ A). assert (PD := PI_digits). apply Rabs_le_inv in Q.
  assert (m * (PI / 180) <= 360 * (PI / 180)) by (apply Rmult_le_compat_r; lra). split.
  - unfold radians_b64. rewrite <- (b64_0). apply b64_mono. apply Rmult_le_pos; [tauto|]. rewrite <- (b64_0). apply b64_mono. unfold math_pi. lra.
  - lra.
Qed.
