(** The modelled forces are bounded and Lipschitz functions of time, position and
    day number on the region where they are defined. *)
From Coq Require Import Reals Lra Psatz Lia List.
From Verif.Model Require Import Num Constants Linalg Functions Time Celestial Positions States.
From Verif.Spec Require Import Geometry Earth Gravity Forces Propagation.
From Verif.Proofs Require Import NumLemmas LinalgProofs MatrixProofs Analysis FunctionsProofs TimeProofs LegendreProofs CelestialProofs GravityProofs StatesProofs AccelerationProofs Calm.
Local Open Scope R_scope.

(** * Functions of time, position and day number *)
Record pt := Pt { pt_t : R; pt_r : vec3; pt_k : R }.
Definition dist (p q : pt) : R :=
  Rabs (pt_t p - pt_t q) + Rabs (x3 (pt_r p) - x3 (pt_r q)) + Rabs (y3 (pt_r p) - y3 (pt_r q))
  + Rabs (z3 (pt_r p) - z3 (pt_r q)) + Rabs (pt_k p - pt_k q).
Definition day_of (t : R) : R := IZR (nfloor (t - UTC_TDT_OFFSET)).
Definition flying (p : pt) : Prop := flyable (Epoch (pt_t p)) (pt_r p) /\ pt_k p = day_of (pt_t p).

(** Functions composed of the coordinates by the operations the force model uses,
    with divisors and radicands bounded away from zero while flying. *)
Inductive LB : (pt -> R) -> Prop :=
| LB_const c : LB (fun _ => c)
| LB_t : LB pt_t
| LB_k : LB pt_k
| LB_x : LB (fun p => x3 (pt_r p))
| LB_y : LB (fun p => y3 (pt_r p))
| LB_z : LB (fun p => z3 (pt_r p))
| LB_plus f g : LB f -> LB g -> LB (fun p => f p + g p)
| LB_opp f : LB f -> LB (fun p => - f p)
| LB_mult f g : LB f -> LB g -> LB (fun p => f p * g p)
| LB_inv c f : 0 < c -> (forall p, flying p -> c <= Rabs (f p)) -> LB f -> LB (fun p => / f p)
| LB_sqrt c f : 0 < c -> (forall p, flying p -> c <= f p) -> LB f -> LB (fun p => sqrt (f p))
| LB_sin f : LB f -> LB (fun p => sin (f p))
| LB_cos f : LB f -> LB (fun p => cos (f p))
| LB_ext f g : (forall p, flying p -> f p = g p) -> LB f -> LB g.

(** Such a function is as smooth as its coordinates, along any family of points. *)
Lemma LB_smooth X n (at_pt : carrier X -> pt) : (forall x, dom X x -> flying (at_pt x)) ->
  smooth X n (fun x => pt_t (at_pt x)) -> smooth X n (fun x => pt_k (at_pt x)) ->
  smooth X n (fun x => x3 (pt_r (at_pt x))) -> smooth X n (fun x => y3 (pt_r (at_pt x))) -> smooth X n (fun x => z3 (pt_r (at_pt x))) ->
  forall f, LB f -> smooth X n (fun x => f (at_pt x)).
Proof.
  intros D T K Hx Hy Hz f H. induction H; auto.
  - apply smooth_const.
  - apply (smooth_plus X n (fun x => f (at_pt x))); auto.
  - apply (smooth_opp X n (fun x => f (at_pt x))); auto.
  - apply (smooth_mult X n (fun x => f (at_pt x))); auto.
  - apply (smooth_inv X c n (fun x => f (at_pt x))); auto.
  - apply (smooth_sqrt X c n (fun x => f (at_pt x))); auto.
  - apply (smooth_trig X n (fun x => f (at_pt x))); auto.
  - apply (smooth_trig X n (fun x => f (at_pt x))); auto.
  - apply (smooth_ext X n (fun x => f (at_pt x))); auto.
Qed.

Lemma dist_pos p q : 0 <= dist p q.
Proof. unfold dist. repeat apply Rplus_le_le_0_compat; apply Rabs_pos. Qed.
Lemma abs_x_norm v : Rabs (x3 v) <= norm v.
Proof. apply abs_of_sq; [apply norm_nonneg|]. rewrite norm_sq. unfold dot. nra. Qed.
Lemma abs_y_norm v : Rabs (y3 v) <= norm v.
Proof. apply abs_of_sq; [apply norm_nonneg|]. rewrite norm_sq. unfold dot. nra. Qed.
(** The flying points themselves, with the changes of all five coordinates. *)
Definition coordinate (i : nat) (p : pt) : R :=
  match i with 0 => pt_t p | 1 => x3 (pt_r p) | 2 => y3 (pt_r p) | 3 => z3 (pt_r p) | _ => pt_k p end%nat.
Definition points : space := Space pt flying (fun _ _ => True) dist dist_pos 5 (fun i p q => coordinate i q - coordinate i p).
Lemma coordinate_calm i : calm points (coordinate i).
Proof.
  assert (L : forall p q, Rabs (coordinate i q - coordinate i p) <= 1 * dist p q).
  { intros p q. unfold dist. rewrite (Rabs_minus_sym (pt_t p)), (Rabs_minus_sym (x3 (pt_r p))), (Rabs_minus_sym (y3 (pt_r p))),
      (Rabs_minus_sym (z3 (pt_r p))), (Rabs_minus_sym (pt_k p)).
    generalize (Rabs_pos (pt_t q - pt_t p)) (Rabs_pos (x3 (pt_r q) - x3 (pt_r p))) (Rabs_pos (y3 (pt_r q) - y3 (pt_r p)))
     (Rabs_pos (z3 (pt_r q) - z3 (pt_r p))) (Rabs_pos (pt_k q - pt_k p)).
    destruct i as [|[|[|[|i]]]]; cbn [coordinate]; lra. }
  apply (calm_intro points _ 300000 1); [|intros; apply L].
  intros p ((H & (_ & N) & _) & K). cbn [value] in H.
  destruct i as [|[|[|[|i]]]]; cbn [coordinate].
  - unfold Rabs in *. repeat destruct Rcase_abs; lra.
  - eapply Rle_trans; [apply abs_x_norm|auto].
  - eapply Rle_trans; [apply abs_y_norm|auto].
  - eapply Rle_trans; [apply abs_z_norm|auto].
  - rewrite K. unfold day_of. generalize (nfloor_bounds (pt_t p - UTC_TDT_OFFSET)).
    unfold UTC_TDT_OFFSET, SECONDS_IN_DAY. generalize (nfloor (pt_t p - 69.184 / 86400)). intros. unfold Rabs in *. repeat destruct Rcase_abs; lra.
Qed.
Lemma coordinate_smooth i n : (i < 5)%nat -> smooth points n (coordinate i).
Proof.
  intros Hi. destruct n; split; auto using coordinate_calm.
  exists (fun j _ => if Nat.eqb j i then 1 else 0). split; [intros j; apply smooth_const|].
  apply (grows_intro points _ _ 0). intros p q _ _ _. unfold lin. cbn [dims points inc].
  replace (coordinate i q - coordinate i p - _) with 0; [rewrite Rabs_R0; lra|].
  destruct i as [|[|[|[|[|i]]]]]; try lia; cbn; ring.
Qed.
Lemma LB_points f n : LB f -> smooth points n f.
Proof.
  apply (LB_smooth points n (fun p => p)); auto.
  - apply (coordinate_smooth 0); lia.
  - apply (coordinate_smooth 4); lia.
  - apply (coordinate_smooth 1); lia.
  - apply (coordinate_smooth 2); lia.
  - apply (coordinate_smooth 3); lia.
Qed.
Lemma LB_calm f : LB f -> exists M, 0 <= M /\ (forall p, flying p -> Rabs (f p) <= M) /\
  (forall p q, flying p -> flying q -> Rabs (f p - f q) <= M * dist p q).
Proof.
  intros H. destruct (smooth_calm _ _ _ (LB_points f 0 H)) as (M & M0 & B & L). exists M. split; auto. split; auto.
  intros p q Hp Hq. rewrite Rabs_minus_sym. apply L; auto. exact I.
Qed.
Lemma LB_coords : LB (fun p => x3 (pt_r p)) /\ LB (fun p => y3 (pt_r p)) /\ LB (fun p => z3 (pt_r p)).
Proof. split; [apply LB_x|split; [apply LB_y|apply LB_z]]. Qed.
Lemma LB_minus f g : LB f -> LB g -> LB (fun p => f p - g p).
Proof. intros H K. apply (LB_plus f (fun p => - g p)); auto using LB_opp. Qed.
Lemma LB_div c f g : 0 < c -> (forall p, flying p -> c <= Rabs (g p)) -> LB f -> LB g -> LB (fun p => f p / g p).
Proof. intros Hc H Hf Hg. apply (LB_mult f (fun p => / g p)); auto. eapply LB_inv; eauto. Qed.
Lemma LB_pow f n : LB f -> LB (fun p => f p ^ n).
Proof. intros H. induction n; simpl; [apply LB_const|]. apply (LB_mult f (fun p => f p ^ n)); auto. Qed.
Lemma LB_sum k (f : nat -> pt -> R) : (forall i, (i < k)%nat -> LB (f i)) -> LB (fun p => sum k (fun i => f i p)).
Proof.
  induction k; intros H; simpl; [apply LB_const|].
  apply (LB_plus (fun p => sum k (fun i => f i p)) (f k)); auto.
Qed.

(** Vector functions *)
Definition LBv (F : pt -> vec3) : Prop :=
  LB (fun p => x3 (F p)) /\ LB (fun p => y3 (F p)) /\ LB (fun p => z3 (F p)).
Lemma LBv_ext F G : (forall p, flying p -> F p = G p) -> LBv F -> LBv G.
Proof.
  intros E (A & B & C). split; [|split]; [apply (LB_ext _ _) with (2 := A)|apply (LB_ext _ _) with (2 := B)|apply (LB_ext _ _) with (2 := C)];
  intros p Hp; cbv beta; rewrite E; auto.
Qed.
Lemma LBv_r : LBv pt_r. Proof. exact LB_coords. Qed.
Lemma LBv_const v : LBv (fun _ => v). Proof. repeat split; apply LB_const. Qed.
Lemma LBv_mk f g h : LB f -> LB g -> LB h -> LBv (fun p => V3 (f p) (g p) (h p)).
Proof. intros. repeat split; auto. Qed.
Lemma LBv_add F G : LBv F -> LBv G -> LBv (fun p => add (F p) (G p)).
Proof. intros (A & B & C) (A' & B' & C'). repeat split; cbn; apply LB_plus; auto. Qed.
Lemma LBv_sub F G : LBv F -> LBv G -> LBv (fun p => sub (F p) (G p)).
Proof. intros (A & B & C) (A' & B' & C'). repeat split; cbn; apply LB_minus; auto. Qed.
Lemma LBv_scale f F : LB f -> LBv F -> LBv (fun p => scale (f p) (F p)).
Proof. intros H (A & B & C). repeat split; cbn; apply LB_mult; auto. Qed.
Lemma LB_dot F G : LBv F -> LBv G -> LB (fun p => dot (F p) (G p)).
Proof.
  intros (A & B & C) (A' & B' & C'). unfold dot.
  apply (LB_plus (fun p => x3 (F p) * x3 (G p) + y3 (F p) * y3 (G p)) (fun p => z3 (F p) * z3 (G p))).
  apply (LB_plus (fun p => x3 (F p) * x3 (G p)) (fun p => y3 (F p) * y3 (G p))).
  all: apply LB_mult; auto.
Qed.
Lemma LBv_cross F G : LBv F -> LBv G -> LBv (fun p => cross (F p) (G p)).
Proof.
  intros (A & B & C) (A' & B' & C'). repeat split; cbn.
  - apply (LB_minus (fun p => y3 (F p) * z3 (G p)) (fun p => z3 (F p) * y3 (G p))); apply LB_mult; auto.
  - apply (LB_minus (fun p => z3 (F p) * x3 (G p)) (fun p => x3 (F p) * z3 (G p))); apply LB_mult; auto.
  - apply (LB_minus (fun p => x3 (F p) * y3 (G p)) (fun p => y3 (F p) * x3 (G p))); apply LB_mult; auto.
Qed.
Lemma LB_norm c F : 0 < c -> (forall p, flying p -> c <= norm (F p)) -> LBv F -> LB (fun p => norm (F p)).
Proof.
  intros Hc H HF. unfold norm. apply (LB_sqrt (c * c) (fun p => dot (F p) (F p))); [nra| |apply LB_dot; auto].
  intros p Hp. rewrite <- norm_sq. assert (K := H p Hp). nra.
Qed.
Definition LBm (A : pt -> mat3) : Prop :=
  LBv (fun p => m3_row1 (A p)) /\ LBv (fun p => m3_row2 (A p)) /\ LBv (fun p => m3_row3 (A p)).
Lemma LBv_apply A F : LBm A -> LBv F -> LBv (fun p => apply3 (A p) (F p)).
Proof. intros (H1 & H2 & H3) HF. apply LBv_mk; apply LB_dot; auto. Qed.
Lemma LBm_transposed A : LBm A -> LBm (fun p => transposed (A p)).
Proof.
  intros ((a & b & c) & (d & e & f) & (g & h & i)). repeat split; assumption.
Qed.

(** Decomposes a composite expression. *)
Ltac lb :=
  match goal with
  | H : LB ?f |- LB ?f => exact H
  | |- LB (fun _ => ?c) => apply (LB_const c)
  | H : LB ?f |- LB (fun p => @?g p) => exact H
  | |- LB (fun p => @?f p + @?g p) => apply (LB_plus f g); lb
  | |- LB (fun p => @?f p - @?g p) => apply (LB_minus f g); lb
  | |- LB (fun p => @?f p * @?g p) => apply (LB_mult f g); lb
  | |- LB (fun p => - @?f p) => apply (LB_opp f); lb
  | |- LB (fun p => sin (@?f p)) => apply (LB_sin f); lb
  | |- LB (fun p => cos (@?f p)) => apply (LB_cos f); lb
  | |- LB (fun p => (@?f p) ^ ?n) => apply (LB_pow f n); lb
  | |- LB (fun p => @?f p / ?c) => apply (LB_mult f (fun _ => / c)); [lb|apply LB_const]
  | |- LB _ => idtac
  end.

(** * Rotation, nutation, precession and the bodies *)
Definition ep (p : pt) : epoch := Epoch (pt_t p).
Lemma LB_centuries : LB (fun p => julian_centuries_past_j2000 (ep p)).
Proof.
  assert (T := LB_t). unfold julian_centuries_past_j2000, julian_value, ep. cbn [value]. lb.
Qed.
Lemma LB_obliquity : LB (fun p => obliquity_of_ecliptic_at_epoch (ep p)).
Proof. assert (T := LB_centuries). unfold obliquity_of_ecliptic_at_epoch. cbv zeta. lb. Qed.
Lemma LB_days : LB (fun p => days_j2000 (ep p)).
Proof. assert (T := LB_t). unfold days_j2000, ep. cbn [value]. lb. Qed.
Lemma LB_dpsi : LB (fun p => nutation_longitude (ep p)).
Proof. assert (T := LB_days). unfold nutation_longitude, deg. lb. Qed.
Lemma LB_deps : LB (fun p => nutation_obliquity (ep p)).
Proof. assert (T := LB_days). unfold nutation_obliquity, deg. lb. Qed.
Lemma LBv_nut : LBv (fun p => nut_vector (ep p)).
Proof.
  assert (A := LB_obliquity). assert (B := LB_dpsi). assert (C := LB_deps). unfold nut_vector. cbv zeta.
  apply LBv_mk; lb.
Qed.
Lemma LBm_precession : LBm (fun p => Earth_precession (ep p)).
Proof.
  assert (T := LB_centuries). unfold Earth_precession. cbv zeta. repeat split; cbn [m3_row1 m3_row2 m3_row3 x3 y3 z3]; lb.
Qed.
(** The sidereal angle without the reductions modulo a turn. *)
Definition angle_of (p : pt) : R :=
  nutation_longitude (ep p) * cos (obliquity_of_ecliptic_at_epoch (ep p))
  + (100.4606184 + 36000.77004 * ((pt_k p + 2400000.5 - 2451545) / 36525)
     + 0.000387933 * ((pt_k p + 2400000.5 - 2451545) / 36525) ^ 2
     + 360.98564724 * (pt_t p - UTC_TDT_OFFSET - pt_k p)) * (PI / 180).
Lemma gast_angle p : flying p -> exists k : Z, gast (ep p) = angle_of p - 2 * PI * IZR k.
Proof.
  intros (_ & K). destruct (gha_value (ep p)) as (k & E). exists k. unfold gast, angle_of. rewrite E, K.
  unfold gmst_degrees, day_of, ep. cbn [value]. ring.
Qed.
Lemma LBm_rotz : LBm (fun p => rotz (- gast (ep p))).
Proof.
  assert (A := LB_obliquity). assert (B := LB_dpsi). assert (T := LB_t). assert (K := LB_k).
  assert (G : LB angle_of) by (unfold angle_of; lb).
  assert (C : LB (fun p => cos (- gast (ep p)))).
  { apply (LB_ext (fun p => cos (angle_of p))); [|lb]. intros p Hp. destruct (gast_angle p Hp) as (k & ->).
    rewrite cos_neg. replace (angle_of p - 2 * PI * IZR k) with (angle_of p + 2 * PI * IZR (- k)) by (rewrite opp_IZR; ring).
    symmetry. apply cos_shift_Z. }
  assert (S : LB (fun p => sin (- gast (ep p)))).
  { apply (LB_ext (fun p => - sin (angle_of p))); [|lb]. intros p Hp. destruct (gast_angle p Hp) as (k & ->).
    rewrite sin_neg. replace (angle_of p - 2 * PI * IZR k) with (angle_of p + 2 * PI * IZR (- k)) by (rewrite opp_IZR; ring).
    rewrite sin_shift_Z. reflexivity. }
  unfold rotz. repeat split; cbn [m3_row1 m3_row2 m3_row3 x3 y3 z3]; lb.
Qed.
Definition ecef (p : pt) : vec3 :=
  apply3 (rotz (- gast (ep p))) (add (apply3 (Earth_precession (ep p)) (pt_r p))
    (cross (nut_vector (ep p)) (apply3 (Earth_precession (ep p)) (pt_r p)))).
Lemma ecef_eq p : gcrf_to_itrf (pt_r p) (ep p) = Ok (ecef p).
Proof. rewrite gcrf_to_itrf_ok, nutation_apply. reflexivity. Qed.
Lemma LBv_ecef : LBv ecef.
Proof.
  assert (A := LBv_apply _ _ LBm_precession LBv_r). apply LBv_apply; [exact LBm_rotz|].
  apply (LBv_add (fun p => apply3 (Earth_precession (ep p)) (pt_r p))
     (fun p => cross (nut_vector (ep p)) (apply3 (Earth_precession (ep p)) (pt_r p)))); auto.
  apply (LBv_cross (fun p => nut_vector (ep p))); auto using LBv_nut.
Qed.
Definition to_inertial (p : pt) (v : vec3) : vec3 :=
  apply3 (transposed (Earth_precession (ep p)))
    (sub (apply3 (transposed (rotz (- gast (ep p)))) v) (cross (nut_vector (ep p)) (apply3 (transposed (rotz (- gast (ep p)))) v))).
Lemma to_inertial_eq p v : itrf_to_gcrf v (ep p) = Ok (to_inertial p v).
Proof. rewrite itrf_to_gcrf_ok, nutation_transposed. reflexivity. Qed.
Lemma LBv_inertial F : LBv F -> LBv (fun p => to_inertial p (F p)).
Proof.
  intros H. assert (A := LBv_apply _ _ (LBm_transposed _ LBm_rotz) H).
  apply LBv_apply; [exact (LBm_transposed _ LBm_precession)|].
  apply (LBv_sub (fun p => apply3 (transposed (rotz (- gast (ep p)))) (F p))
     (fun p => cross (nut_vector (ep p)) (apply3 (transposed (rotz (- gast (ep p)))) (F p)))); auto.
  apply (LBv_cross (fun p => nut_vector (ep p))); auto using LBv_nut.
Qed.
Lemma LBv_sun : LBv (fun p => Sun_get_position (ep p)).
Proof. assert (T := LB_centuries). unfold Sun_get_position, radians. cbv zeta. apply LBv_mk; lb. Qed.
Definition moon (p : pt) : vec3 := match Moon_get_position (ep p) with Ok m => m | Err _ => zero3 end.
Lemma LBv_moon : LBv moon.
Proof.
  assert (T := LB_centuries). unfold moon, Moon_get_position. cbv zeta.
  eapply LBv_ext; [intros p Hp; rewrite rotation_x; reflexivity|].
  unfold radians. repeat split; cbn [x3 y3 z3]; unfold apply3, dot; cbn [x3 y3 z3 m3_row1 m3_row2 m3_row3]; lb.
Qed.
(** * Point masses *)
Lemma LBv_attraction mu c F : 0 < c -> (forall p, flying p -> c <= norm (F p)) -> LBv F -> LBv (fun p => attraction mu (F p)).
Proof.
  intros Hc H HF. unfold attraction. assert (N := LB_norm c F Hc H HF).
  apply (LBv_scale (fun p => mu / (norm (F p) * norm (F p) * norm (F p)))); auto.
  apply (LB_div (c * c * c) (fun _ => mu) (fun p => norm (F p) * norm (F p) * norm (F p))); [repeat apply Rmult_lt_0_compat; auto| |apply LB_const|lb].
  intros p Hp. assert (K := H p Hp). rewrite Rabs_pos_eq by (repeat apply Rmult_le_pos; lra).
  apply Rmult_le_compat; try nra.
Qed.
Definition tide (mu : R) (s r : vec3) : vec3 := sub (attraction mu (sub s r)) (attraction mu s).
Lemma LBv_tide mu c F : 0 < c -> (forall p, flying p -> c + norm (pt_r p) <= norm (F p)) -> LBv F ->
  LBv (fun p => tide mu (F p) (pt_r p)).
Proof.
  intros Hc H HF. unfold tide. apply LBv_sub; eapply LBv_attraction; eauto.
  - intros p Hp. assert (K := H p Hp). assert (T := norm_sub_ge (F p) (pt_r p)). lra.
  - apply (LBv_sub F pt_r); auto using LBv_r.
  - intros p Hp. assert (K := H p Hp). generalize (norm_nonneg (pt_r p)). lra.
Qed.
Lemma flying_bounds p : flying p -> 6500 <= norm (pt_r p) <= 300000 /\ 6500 <= norm (ecef p) /\
  650 <= sqrt (x3 (ecef p) * x3 (ecef p) + y3 (ecef p) * y3 (ecef p)) /\
  422500 <= x3 (ecef p) * x3 (ecef p) + y3 (ecef p) * y3 (ecef p).
Proof.
  intros (F & _). destruct (flyable_axis _ _ F) as (q & E & A & B). destruct F as (_ & Hr & _).
  change (Epoch (pt_t p)) with (ep p) in E. rewrite ecef_eq in E. inversion E; subst q. clear E.
  destruct (gcrf_round_trip (pt_r p) (ep p)) as (q & p' & E' & _ & _ & S1 & S2).
  rewrite ecef_eq in E'. inversion E'; subst q. clear E'.
  assert (S0 : 0 <= x3 (ecef p) * x3 (ecef p) + y3 (ecef p) * y3 (ecef p)) by nra.
  assert (Q := sqrt_sqrt _ S0). set (w := sqrt _) in *. split; [auto|]. split; [lra|]. split; [lra|]. nra.
Qed.

(** * The geopotential *)
Definition rho_of (p : pt) : R := sqrt (x3 (ecef p) * x3 (ecef p) + y3 (ecef p) * y3 (ecef p)).
Definition r_of (p : pt) : R := sqrt (x3 (ecef p) * x3 (ecef p) + y3 (ecef p) * y3 (ecef p) + z3 (ecef p) * z3 (ecef p)).
Lemma r_of_norm p : r_of p = norm (ecef p).
Proof. unfold r_of, norm, dot. f_equal. Qed.
Lemma LB_rho : LB rho_of.
Proof.
  destruct LBv_ecef as (X & Y & Z). unfold rho_of.
  apply (LB_sqrt 422500 (fun p => x3 (ecef p) * x3 (ecef p) + y3 (ecef p) * y3 (ecef p))); [lra| |lb].
  intros p Hp. apply flying_bounds; auto.
Qed.
Lemma LB_r_of : LB r_of.
Proof.
  apply (LB_ext (fun p => norm (ecef p))); [intros; symmetry; apply r_of_norm|].
  apply (LB_norm 6500 ecef); [lra| |exact LBv_ecef]. intros p Hp. apply flying_bounds; auto.
Qed.
Lemma rho_low p : flying p -> 650 <= Rabs (rho_of p).
Proof. intros H. eapply Rle_trans; [|apply Rle_abs]. apply flying_bounds; auto. Qed.
Lemma r_low p : flying p -> 6500 <= Rabs (r_of p).
Proof. intros H. rewrite r_of_norm. eapply Rle_trans; [|apply Rle_abs]. apply flying_bounds; auto. Qed.
Definition phi_of (p : pt) : R := atan (z3 (ecef p) / rho_of p).
Definition lam_of (p : pt) : R := atan2 (y3 (ecef p)) (x3 (ecef p)).
Lemma phi_trig p : flying p -> sin (phi_of p) = z3 (ecef p) / r_of p /\ cos (phi_of p) = rho_of p / r_of p /\
  tan (phi_of p) = z3 (ecef p) / rho_of p.
Proof.
  intros Hp. destruct (flying_bounds p Hp) as (_ & B & C & D). fold (rho_of p) in C. rewrite <- r_of_norm in B.
  unfold phi_of. assert (Q : rho_of p * rho_of p = x3 (ecef p) * x3 (ecef p) + y3 (ecef p) * y3 (ecef p)) by (apply sqrt_sqrt; lra).
  assert (Z2 : 0 <= z3 (ecef p) * z3 (ecef p)) by apply Rle_0_sqr.
  assert (S : r_of p * r_of p = rho_of p * rho_of p + z3 (ecef p) * z3 (ecef p)) by (rewrite Q; apply sqrt_sqrt; lra).
  set (z := z3 (ecef p)) in *. set (rho := rho_of p) in *. set (r := r_of p) in *. clearbody z rho r.
  assert (E : sqrt (1 + z / rho * (z / rho)) = r / rho).
  { apply sqrt_eq; [apply Rdiv_nonneg; lra|]. replace (r / rho * (r / rho)) with (r * r / (rho * rho)) by (field; lra).
    rewrite S. field. lra. }
  split; [|split].
  - rewrite sin_atan', E. field. lra.
  - rewrite cos_atan. unfold Rsqr. rewrite E. field. lra.
  - apply atan_right_inv.
Qed.
Lemma lam_trig p : flying p -> cos (lam_of p) = x3 (ecef p) / rho_of p /\ sin (lam_of p) = y3 (ecef p) / rho_of p.
Proof.
  intros Hp. destruct (flying_bounds p Hp) as (_ & B & C & D). fold (rho_of p) in C. unfold lam_of.
  assert (O : x3 (ecef p) <> 0 \/ y3 (ecef p) <> 0).
  { destruct (Req_dec (x3 (ecef p)) 0) as [E|]; auto. destruct (Req_dec (y3 (ecef p)) 0) as [E'|]; auto. rewrite E, E' in D. lra. }
  destruct (atan2_polar (y3 (ecef p)) (x3 (ecef p))) as (E1 & E2); auto. fold (rho_of p) in E1, E2.
  split; [rewrite E1 at 2|rewrite E2 at 2]; field; lra.
Qed.
Lemma LB_lam m : LB (fun p => cos (INR m * lam_of p)) /\ LB (fun p => sin (INR m * lam_of p)).
Proof.
  assert (C : LB (fun p => cos (lam_of p))).
  { apply (LB_ext (fun p => x3 (ecef p) / rho_of p)); [intros; symmetry; apply lam_trig; auto|].
    apply (LB_div 650 (fun p => x3 (ecef p)) rho_of); [lra|apply rho_low|apply LBv_ecef|apply LB_rho]. }
  assert (S : LB (fun p => sin (lam_of p))).
  { apply (LB_ext (fun p => y3 (ecef p) / rho_of p)); [intros; symmetry; apply lam_trig; auto|].
    apply (LB_div 650 (fun p => y3 (ecef p)) rho_of); [lra|apply rho_low|apply LBv_ecef|apply LB_rho]. }
  induction m as [|m [IC IS]].
  - simpl. split; [apply (LB_ext (fun _ => 1))|apply (LB_ext (fun _ => 0))]; try apply LB_const; intros; rewrite Rmult_0_l; [rewrite cos_0|rewrite sin_0]; auto.
  - split.
    + apply (LB_ext (fun p => cos (INR m * lam_of p) * cos (lam_of p) - sin (INR m * lam_of p) * sin (lam_of p))).
      * intros p _. rewrite S_INR. replace ((INR m + 1) * lam_of p) with (INR m * lam_of p + lam_of p) by ring. rewrite cos_plus. auto.
      * apply (LB_minus (fun p => cos (INR m * lam_of p) * cos (lam_of p)) (fun p => sin (INR m * lam_of p) * sin (lam_of p))); apply LB_mult; auto.
    + apply (LB_ext (fun p => sin (INR m * lam_of p) * cos (lam_of p) + cos (INR m * lam_of p) * sin (lam_of p))).
      * intros p _. rewrite S_INR. replace ((INR m + 1) * lam_of p) with (INR m * lam_of p + lam_of p) by ring. rewrite sin_plus. auto.
      * apply (LB_plus (fun p => sin (INR m * lam_of p) * cos (lam_of p)) (fun p => cos (INR m * lam_of p) * sin (lam_of p))); apply LB_mult; auto.
Qed.
Lemma LB_phi : LB (fun p => sin (phi_of p)) /\ LB (fun p => cos (phi_of p)) /\ LB (fun p => tan (phi_of p)).
Proof.
  split; [|split].
  - apply (LB_ext (fun p => z3 (ecef p) / r_of p)); [intros; symmetry; apply phi_trig; auto|].
    apply (LB_div 6500 (fun p => z3 (ecef p)) r_of); [lra|apply r_low|apply LBv_ecef|apply LB_r_of].
  - apply (LB_ext (fun p => rho_of p / r_of p)); [intros; symmetry; apply phi_trig; auto|].
    apply (LB_div 6500 rho_of r_of); [lra|apply r_low|apply LB_rho|apply LB_r_of].
  - apply (LB_ext (fun p => z3 (ecef p) / rho_of p)); [intros; symmetry; apply phi_trig; auto|].
    apply (LB_div 650 (fun p => z3 (ecef p)) rho_of); [lra|apply rho_low|apply LBv_ecef|apply LB_rho].
Qed.
Lemma LB_table n m : (n <= 4)%nat -> (m <= n + 1)%nat -> LB (fun p => table (phi_of p) n m).
Proof.
  intros Hn Hm. destruct LB_phi as (S & C & _). unfold table.
  destruct n as [|[|[|[|[|n]]]]]; try lia; destruct m as [|[|[|[|[|[|m]]]]]]; try lia; cbn [nth LegendrePolynomial]; lb.
Qed.
Lemma LB_surf n : (n <= 4)%nat -> LB (fun p => surf n (phi_of p) (lam_of p)) /\
  LB (fun p => surf_phi n (phi_of p) (lam_of p)) /\ LB (fun p => surf_lam n (phi_of p) (lam_of p)).
Proof.
  intros Hn. destruct LB_phi as (_ & _ & T). unfold surf, surf_phi, surf_lam.
  split; [|split].
  - apply (LB_sum (n + 1) (fun m p => table (phi_of p) n m * (c_coefficient n m * cos (INR m * lam_of p) + s_coefficient n m * sin (INR m * lam_of p)))).
    intros m Hm. assert (A := LB_table n m Hn ltac:(lia)). destruct (LB_lam m) as (B & C).
    apply (LB_mult (fun p => table (phi_of p) n m)); auto.
    apply (LB_plus (fun p => c_coefficient n m * cos (INR m * lam_of p)) (fun p => s_coefficient n m * sin (INR m * lam_of p)));
    apply LB_mult; auto using LB_const.
  - apply (LB_sum (n + 1) (fun m p => (table (phi_of p) n (m + 1) - INR m * tan (phi_of p) * table (phi_of p) n m) * (c_coefficient n m * cos (INR m * lam_of p) + s_coefficient n m * sin (INR m * lam_of p)))).
    intros m Hm. assert (A := LB_table n m Hn ltac:(lia)). assert (A' := LB_table n (m + 1) Hn ltac:(lia)). destruct (LB_lam m) as (B & C).
    apply (LB_mult (fun p => table (phi_of p) n (m + 1) - INR m * tan (phi_of p) * table (phi_of p) n m)).
    + apply (LB_minus (fun p => table (phi_of p) n (m + 1)) (fun p => INR m * tan (phi_of p) * table (phi_of p) n m)); auto.
      apply (LB_mult (fun p => INR m * tan (phi_of p))); auto. apply (LB_mult (fun _ => INR m)); auto using LB_const.
    + apply (LB_plus (fun p => c_coefficient n m * cos (INR m * lam_of p)) (fun p => s_coefficient n m * sin (INR m * lam_of p)));
      apply LB_mult; auto using LB_const.
  - apply (LB_sum (n + 1) (fun m p => INR m * table (phi_of p) n m * (s_coefficient n m * cos (INR m * lam_of p) - c_coefficient n m * sin (INR m * lam_of p)))).
    intros m Hm. assert (A := LB_table n m Hn ltac:(lia)). destruct (LB_lam m) as (B & C).
    apply (LB_mult (fun p => INR m * table (phi_of p) n m)).
    + apply (LB_mult (fun _ => INR m)); auto using LB_const.
    + apply (LB_minus (fun p => s_coefficient n m * cos (INR m * lam_of p)) (fun p => c_coefficient n m * sin (INR m * lam_of p)));
      apply LB_mult; auto using LB_const.
Qed.
Lemma LB_over_r f : LB f -> LB (fun p => f p / r_of p).
Proof. intros H. apply (LB_div 6500 f r_of); [lra|apply r_low|auto|apply LB_r_of]. Qed.
Lemma LB_over_rho f : LB f -> LB (fun p => f p / rho_of p).
Proof. intros H. apply (LB_div 650 f rho_of); [lra|apply rho_low|auto|apply LB_rho]. Qed.
Lemma LB_radial n : LB (fun p => radial n (r_of p)).
Proof.
  unfold radial. apply (LB_mult (fun p => mu_earth / r_of p)); [apply (LB_over_r (fun _ => mu_earth)), LB_const|].
  apply (LB_pow (fun p => radius_earth / r_of p)), (LB_over_r (fun _ => radius_earth)), LB_const.
Qed.
Definition at_ecef {A} (F : R -> R -> R -> A) (p : pt) : A := F (x3 (ecef p)) (y3 (ecef p)) (z3 (ecef p)).
Lemma LBv_meridional n : (n <= 4)%nat -> LBv (at_ecef (fun x y z => meridional x y z n)).
Proof.
  intros Hn. destruct (LB_surf n Hn) as (A & B & _). assert (D := LB_radial n). destruct LBv_ecef as (X & Y & Z).
  assert (Rh := LB_rho).
  apply (LBv_ext (fun p => add
     (scale (- (INR n + 1) / r_of p * radial n (r_of p) * surf n (phi_of p) (lam_of p) / r_of p) (V3 (x3 (ecef p)) (y3 (ecef p)) (z3 (ecef p))))
     (scale (radial n (r_of p) * surf_phi n (phi_of p) (lam_of p) / r_of p / r_of p)
        (V3 (- (z3 (ecef p) * x3 (ecef p)) / rho_of p) (- (z3 (ecef p) * y3 (ecef p)) / rho_of p) (rho_of p))))).
  { intros p Hp. unfold at_ecef, meridional. cbv zeta. fold (rho_of p). fold (r_of p). fold (phi_of p). fold (lam_of p).
    f_equal. f_equal. assert (Q := r_low p Hp). assert (r_of p <> 0) by (intros E; rewrite E, Rabs_R0 in Q; lra). field. auto. }
  apply (LBv_add (fun p => scale (- (INR n + 1) / r_of p * radial n (r_of p) * surf n (phi_of p) (lam_of p) / r_of p) (V3 (x3 (ecef p)) (y3 (ecef p)) (z3 (ecef p))))
   (fun p => scale (radial n (r_of p) * surf_phi n (phi_of p) (lam_of p) / r_of p / r_of p)
        (V3 (- (z3 (ecef p) * x3 (ecef p)) / rho_of p) (- (z3 (ecef p) * y3 (ecef p)) / rho_of p) (rho_of p)))).
  - apply (LBv_scale (fun p => - (INR n + 1) / r_of p * radial n (r_of p) * surf n (phi_of p) (lam_of p) / r_of p)); [|apply LBv_mk; auto].
    apply (LB_over_r (fun p => - (INR n + 1) / r_of p * radial n (r_of p) * surf n (phi_of p) (lam_of p))).
    assert (E := LB_over_r (fun _ => - (INR n + 1)) (LB_const _)). 
    apply (LB_mult (fun p => - (INR n + 1) / r_of p * radial n (r_of p))); auto.
    apply (LB_mult (fun p => - (INR n + 1) / r_of p)); auto.
  - apply (LBv_scale (fun p => radial n (r_of p) * surf_phi n (phi_of p) (lam_of p) / r_of p / r_of p)).
    + apply (LB_over_r (fun p => radial n (r_of p) * surf_phi n (phi_of p) (lam_of p) / r_of p)).
      apply (LB_over_r (fun p => radial n (r_of p) * surf_phi n (phi_of p) (lam_of p))). apply LB_mult; auto.
    + apply LBv_mk; auto.
      * apply (LB_over_rho (fun p => - (z3 (ecef p) * x3 (ecef p)))). lb.
      * apply (LB_over_rho (fun p => - (z3 (ecef p) * y3 (ecef p)))). lb.
Qed.
Lemma LBv_zonal n : (n <= 4)%nat -> LBv (at_ecef (fun x y z => zonal x y z n)).
Proof.
  intros Hn. destruct (LB_surf n Hn) as (_ & _ & A). assert (D := LB_radial n). destruct LBv_ecef as (X & Y & Z).
  apply (LBv_ext (fun p => scale (radial n (r_of p) * surf_lam n (phi_of p) (lam_of p) / rho_of p / rho_of p) (V3 (- y3 (ecef p)) (x3 (ecef p)) 0))).
  { intros p Hp. unfold at_ecef, zonal. fold (rho_of p). fold (r_of p). fold (phi_of p). fold (lam_of p).
    f_equal. assert (Q := rho_low p Hp). assert (rho_of p <> 0) by (intros E; rewrite E, Rabs_R0 in Q; lra). field. auto. }
  apply (LBv_scale (fun p => radial n (r_of p) * surf_lam n (phi_of p) (lam_of p) / rho_of p / rho_of p)).
  - apply (LB_over_rho (fun p => radial n (r_of p) * surf_lam n (phi_of p) (lam_of p) / rho_of p)).
    apply (LB_over_rho (fun p => radial n (r_of p) * surf_lam n (phi_of p) (lam_of p))). apply LB_mult; auto.
  - apply LBv_mk; auto using LB_const. lb.
Qed.
Definition stretch (p : pt) : R := norm (ecef p) / norm (pt_r p).
Lemma LB_stretch : LB stretch.
Proof.
  unfold stretch. assert (H : forall p, flying p -> 6500 <= norm (pt_r p)) by (intros p Hp; apply flying_bounds; auto).
  apply (LB_div 6500 (fun p => norm (ecef p)) (fun p => norm (pt_r p))); [lra| | |].
  - intros p Hp. rewrite Rabs_pos_eq by apply norm_nonneg. auto.
  - apply (LB_norm 6500 ecef); [lra| |exact LBv_ecef]. intros p Hp. apply flying_bounds; auto.
  - apply (LB_norm 6500 pt_r); [lra|auto|exact LBv_r].
Qed.
Definition degree_of n (p : pt) : vec3 := degree_part (x3 (ecef p)) (y3 (ecef p)) (z3 (ecef p)) (stretch p) n.
Lemma LBv_degree n : (n <= 4)%nat -> LBv (degree_of n).
Proof.
  intros Hn. assert (K := LB_stretch). unfold degree_of, degree_part.
  apply (LBv_add (fun p => scale (stretch p ^ (n + 3)) (at_ecef (fun x y z => meridional x y z n) p))
    (fun p => scale (stretch p ^ (n + 1)) (at_ecef (fun x y z => zonal x y z n) p))).
  - apply (LBv_scale (fun p => stretch p ^ (n + 3))); [lb|apply LBv_meridional; auto].
  - apply (LBv_scale (fun p => stretch p ^ (n + 1))); [lb|apply LBv_zonal; auto].
Qed.
Definition field_of (p : pt) : vec3 := to_inertial p (add (add (degree_of 2 p) (degree_of 3 p)) (degree_of 4 p)).
Lemma LBv_field : LBv field_of.
Proof.
  unfold field_of. apply (LBv_inertial (fun p => add (add (degree_of 2 p) (degree_of 3 p)) (degree_of 4 p))).
  apply (LBv_add (fun p => add (degree_of 2 p) (degree_of 3 p)) (degree_of 4)); [|apply LBv_degree; lia].
  apply LBv_add; apply LBv_degree; lia.
Qed.

(** * The whole acceleration *)
Definition total_acc (p : pt) : vec3 :=
  add (add (add (attraction mu_earth (sub zero3 (pt_r p))) (tide Moon_MU (moon p) (pt_r p)))
    (tide Sun_MU (Sun_get_position (ep p)) (pt_r p))) (field_of p).
Lemma LBv_total : LBv total_acc.
Proof.
  assert (H : forall p, flying p -> 6500 <= norm (pt_r p) <= 300000) by (intros p Hp; apply flying_bounds; auto).
  unfold total_acc.
  apply (LBv_add (fun p => add (add (attraction mu_earth (sub zero3 (pt_r p))) (tide Moon_MU (moon p) (pt_r p)))
    (tide Sun_MU (Sun_get_position (ep p)) (pt_r p))) field_of); [|exact LBv_field].
  apply (LBv_add (fun p => add (attraction mu_earth (sub zero3 (pt_r p))) (tide Moon_MU (moon p) (pt_r p)))
    (fun p => tide Sun_MU (Sun_get_position (ep p)) (pt_r p))).
  apply (LBv_add (fun p => attraction mu_earth (sub zero3 (pt_r p))) (fun p => tide Moon_MU (moon p) (pt_r p))).
  - apply (LBv_attraction mu_earth 6500 (fun p => sub zero3 (pt_r p))); [lra| |apply (LBv_sub (fun _ => zero3) pt_r); [apply LBv_const|exact LBv_r]].
    intros p Hp. replace (sub zero3 (pt_r p)) with (scale (-1) (pt_r p)) by (veq; ring). rewrite norm_opp. apply H; auto.
  - apply (LBv_tide Moon_MU 56000 moon); [lra| |exact LBv_moon]. intros p Hp. assert (K := H p Hp).
    unfold moon. destruct (Moon_norm (ep p)) as (m & -> & B). lra.
  - apply (LBv_tide Sun_MU 140e6 (fun p => Sun_get_position (ep p))); [lra| |exact LBv_sun]. intros p Hp. assert (K := H p Hp).
    assert (B := Sun_norm (ep p)). lra.
Qed.
Lemma derivative_total p v : flying p -> derivative (GCRF (ep p) (pt_r p) v) = Ok (v, total_acc p).
Proof.
  intros Hp. destruct (flying_bounds p Hp) as (A & B & C & D). set (s := GCRF (ep p) (pt_r p) v).
  destruct (derivative_perturbed s eq_refl) as (am & asn & ap & ag & A1 & A2 & A3 & A4 & Dv); [cbn; lra| |].
  { exists (ecef p). split; [apply ecef_eq|]. destruct (Req_dec (x3 (ecef p)) 0) as [E|]; auto. right. intros E'. rewrite E, E' in D. lra. }
  rewrite Dv. unfold total_acc. cbn [s GCRF g_velocity g_thrust g_position].
  destruct (moon_ok s) as (m & Em & Am); [cbn; lra|]. rewrite A1 in Am. inversion Am; subst am. clear Am.
  assert (As := sun_ok s ltac:(cbn; lra)). cbv zeta in As. rewrite A2 in As. inversion As; subst asn. clear As.
  assert (Ap := srp_ok s ltac:(cbn; lra)). cbv zeta in Ap. rewrite A3 in Ap. inversion Ap; subst ap. clear Ap.
  assert (Ag : ag = field_of p).
  { assert (Eg : acceleration_from_gravity s = Ok (field_of p)); [|rewrite A4 in Eg; inversion Eg; auto].
    unfold acceleration_from_gravity. cbn [s GCRF g_position g_epoch]. rewrite ecef_eq. cbn [bind]. rewrite v3_magnitude_norm.
    assert (G := gravity_ecef_ok (x3 (ecef p)) (y3 (ecef p)) (z3 (ecef p)) (norm (pt_r p)) ltac:(lra) ltac:(lra)). cbv zeta in G.
    replace (V3 (x3 (ecef p)) (y3 (ecef p)) (z3 (ecef p))) with (ecef p) in G by (destruct (ecef p); auto).
    rewrite G. cbn [bind]. rewrite to_inertial_eq. reflexivity. }
  rewrite Ag. cbn [s GCRF g_epoch g_position g_srp_scalar] in *. unfold tide, moon. rewrite Em.
  assert (Z : forall n, - (Sun_P * 0 / 1000) / n = 0).
  { intros n. replace (- (Sun_P * 0 / 1000)) with 0 by (unfold Rdiv; ring). apply Rmult_0_l. }
  rewrite Z. apply f_equal, f_equal. veq; ring.
Qed.

(** * The statement used by the convergence proof *)
Lemma forces_lipschitz : exists L, 0 < L /\ forall p q, flying p -> flying q ->
  norm (total_acc p) <= L /\
  norm (sub (total_acc p) (total_acc q)) <= L * (Rabs (pt_t p - pt_t q) + norm (sub (pt_r p) (pt_r q)) + Rabs (pt_k p - pt_k q)).
Proof.
  destruct LBv_total as (T1 & T2 & T3).
  destruct (LB_calm _ T1) as (M1 & P1 & B1 & L1). destruct (LB_calm _ T2) as (M2 & P2 & B2 & L2). destruct (LB_calm _ T3) as (M3 & P3 & B3 & L3).
  exists (3 * (M1 + M2 + M3) + 1). split; [lra|]. intros p q Hp Hq.
  assert (N : forall v, norm v <= Rabs (x3 v) + Rabs (y3 v) + Rabs (z3 v)).
  { intros v. assert (X := Rabs_pos (x3 v)). assert (Y := Rabs_pos (y3 v)). assert (Z := Rabs_pos (z3 v)).
    unfold norm. rewrite <- (sqrt_square (Rabs (x3 v) + Rabs (y3 v) + Rabs (z3 v))) by lra. apply sqrt_le_1_alt. unfold dot.
    rewrite <- (Rabs_sq (x3 v)), <- (Rabs_sq (y3 v)), <- (Rabs_sq (z3 v)). nra. }
  split.
  - eapply Rle_trans; [apply N|]. generalize (B1 p Hp) (B2 p Hp) (B3 p Hp). lra.
  - eapply Rle_trans; [apply N|]. cbn [sub x3 y3 z3].
    assert (D : dist p q <= 3 * (Rabs (pt_t p - pt_t q) + norm (sub (pt_r p) (pt_r q)) + Rabs (pt_k p - pt_k q))).
    { unfold dist. assert (X := abs_x_norm (sub (pt_r p) (pt_r q))). assert (Y := abs_y_norm (sub (pt_r p) (pt_r q))).
      assert (Z := abs_z_norm (sub (pt_r p) (pt_r q))). cbn [sub x3 y3 z3] in X, Y, Z.
      generalize (Rabs_pos (pt_t p - pt_t q)) (Rabs_pos (pt_k p - pt_k q)). lra. }
    assert (D0 := dist_pos p q). generalize (L1 p q Hp Hq) (L2 p q Hp Hq) (L3 p q Hp Hq). intros.
    set (w := Rabs (pt_t p - pt_t q) + norm (sub (pt_r p) (pt_r q)) + Rabs (pt_k p - pt_k q)) in *.
    apply Rle_trans with ((M1 + M2 + M3) * dist p q); [lra|].
    apply Rle_trans with ((M1 + M2 + M3) * (3 * w)); [apply Rmult_le_compat_l; lra|]. lra.
Qed.
