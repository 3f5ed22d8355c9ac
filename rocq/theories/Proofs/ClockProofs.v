(** Epoch arithmetic of the propagators in binary64. *)
From Coq Require Import Reals ZArith Lra Lia Bool Psatz List.
From Flocq Require Import Core Relative.
From Verif.Model Require Import Num Constants Linalg Time States Inertial TimeFloat ClockFloat.
From Verif.Proofs Require Import NumLemmas TimeFloatProofs.
Local Open Scope R_scope.

Definition U : R := 137438953472.  (* ticks per day, 2^37 *)
Lemma U_bpow : bpow radix2 (-37) = / U.
Proof. change (bpow radix2 (-37)) with (/ IZR (Z.pow_pos 2 37)). unfold U. f_equal. Qed.
Lemma U_pos : 0 < U.
Proof. unfold U. lra. Qed.

Lemma b64_dyadic m k : (Z.abs m < 9007199254740992)%Z -> (-1074 <= k)%Z ->
  b64 (IZR m * bpow radix2 k) = IZR m * bpow radix2 k.
Proof.
  intros H K. unfold b64. apply round_generic; [apply valid_rnd_N|].
  apply generic_format_FLT. exists (Float radix2 m k); [reflexivity| |]; cbn [Fnum Fexp]; auto.
Qed.

(** rounding in the binade of current epochs *)
Definition near (x : R) : Z := ZnearestE x.
Lemma b64_binade x : 32768 <= x < 65536 -> b64 x = IZR (near (x * U)) / U.
Proof.
  intros H. unfold b64, round, scaled_mantissa, F2R, cexp. cbn [Fnum Fexp].
  rewrite (mag_unique_pos radix2 x 16).
  2:{ change (bpow radix2 (16 - 1)) with 32768. change (bpow radix2 16) with 65536. lra. }
  change (FLT_exp (-1074) 53 16) with (-37)%Z. change (- -37)%Z with 37%Z.
  rewrite U_bpow. change (bpow radix2 37) with U. unfold near. reflexivity.
Qed.
Lemma near_IZR m : near (IZR m) = m.
Proof. apply Znearest_imp. rewrite Rminus_eq_0, Rabs_R0. lra. Qed.
Lemma near_half x : Rabs (IZR (near x) - x) <= / 2.
Proof. rewrite Rabs_minus_sym. apply (Znearest_half (fun z => negb (Z.even z)) x). Qed.
Lemma near_tie m : near (IZR m + / 2) = if Z.even m then m else (m + 1)%Z.
Proof.
  unfold near, Znearest.
  assert (F : Zfloor (IZR m + / 2) = m) by (apply Zfloor_imp; rewrite plus_IZR; lra).
  assert (C : Zceil (IZR m + / 2) = (m + 1)%Z).
  { apply Zceil_imp. rewrite plus_IZR. replace (m + 1 - 1)%Z with m by lia. lra. }
  rewrite F, C. rewrite Rcompare_Eq by lra. destruct (Z.even m); reflexivity.
Qed.
Lemma grid x : b64 x = x -> 32768 <= x < 65536 -> exists m, x = IZR m / U.
Proof. intros H R. rewrite <- H, b64_binade by auto. eauto. Qed.
Lemma b64_grid m : (Z.abs m < 9007199254740992)%Z -> b64 (IZR m / U) = IZR m / U.
Proof. intros H. unfold Rdiv. rewrite <- U_bpow. apply b64_dyadic; lia. Qed.

(** * One step *)
(** half of an integer, ties to even *)
Definition half_even (t : Z) : Z := near (IZR t / 2).
Lemma half_even_even m : half_even (2 * m) = m.
Proof. unfold half_even. rewrite mult_IZR. replace (2 * IZR m / 2) with (IZR m) by field. apply near_IZR. Qed.
Lemma half_even_odd m : half_even (2 * m + 1) = if Z.even m then m else (m + 1)%Z.
Proof.
  unfold half_even. rewrite plus_IZR, mult_IZR. replace ((2 * IZR m + 1) / 2) with (IZR m + / 2) by field. apply near_tie.
Qed.
(** the tick on which a single step from [V] towards [E] lands *)
Definition land (E V : Z) : Z := half_even (2 * half_even (V + E) + (E - V)).
Lemma land_spec E V :
  land E V = E \/ (Z.even V = true /\ Z.even E = false /\ Z.even (land E V) = true /\ (Z.abs (land E V - E) = 1)%Z).
Proof.
  unfold land. destruct (Z.Even_or_Odd (E - V)) as [[k K]|[k K]].
  - left. replace (V + E)%Z with (2 * (V + k))%Z by lia. rewrite half_even_even.
    replace (2 * (V + k) + (E - V))%Z with (2 * E)%Z by lia. apply half_even_even.
  - replace (V + E)%Z with (2 * (V + k) + 1)%Z by lia. rewrite half_even_odd.
    assert (EV : E = (V + 2 * k + 1)%Z) by lia.
    destruct (Z.even (V + k)) eqn:P.
    + replace (2 * (V + k) + (E - V))%Z with (2 * (V + 2 * k) + 1)%Z by lia. rewrite half_even_odd.
      replace (V + 2 * k)%Z with (E - 1)%Z by lia. replace (E - 1 + 1)%Z with E by lia.
      destruct (Z.even (E - 1)) eqn:Q; [right|left; auto].
      split; [|split; [|split; [auto|lia]]].
      * rewrite EV in Q. replace (V + 2 * k + 1 - 1)%Z with (V + 2 * k)%Z in Q by lia. rewrite Z.even_add_mul_2 in Q. auto.
      * replace E with ((E - 1) + 1)%Z by lia. rewrite Z.even_add, Q. reflexivity.
    + replace (2 * (V + k + 1) + (E - V))%Z with (2 * E + 1)%Z by lia. rewrite half_even_odd.
      destruct (Z.even E) eqn:Q; [left; auto|right].
      split; [|split; [auto|split; [rewrite Z.even_add, Q; reflexivity|lia]]].
      rewrite EV in Q. rewrite Z.even_add, Z.even_add_mul_2 in Q. destruct (Z.even V); auto.
Qed.
Lemma land_moves E V : Z.even V = true -> Z.even E = false -> land E V <> E.
Proof.
  unfold land. intros Hv He. destruct (Z.Even_or_Odd (E - V)) as [[k K]|[k K]].
  - exfalso. assert (Z.even E = Z.even (V + 2 * k)) by (f_equal; lia). rewrite Z.even_add_mul_2 in H. congruence.
  - replace (V + E)%Z with (2 * (V + k) + 1)%Z by lia. rewrite half_even_odd. destruct (Z.even (V + k)).
    + replace (2 * (V + k) + (E - V))%Z with (2 * (E - 1) + 1)%Z by lia. rewrite half_even_odd.
      replace (Z.even (E - 1)) with true; [lia|]. replace (E - 1)%Z with (V + 2 * k)%Z by lia. rewrite Z.even_add_mul_2; auto.
    + replace (2 * (V + k + 1) + (E - V))%Z with (2 * E + 1)%Z by lia. rewrite half_even_odd, He. lia.
Qed.

Lemma U_range m : 33000 <= IZR m / U <= 65000 -> 33000 * U <= IZR m <= 65000 * U.
Proof.
  assert (P := U_pos). intros [A B]. split.
  - apply Rmult_le_reg_r with (/ U); [apply Rinv_0_lt_compat; auto|]. replace (33000 * U * / U) with 33000 by (field; lra). exact A.
  - apply Rmult_le_reg_r with (/ U); [apply Rinv_0_lt_compat; auto|]. replace (65000 * U * / U) with 65000 by (field; lra). exact B.
Qed.

(** a single sixth-hour step or less *)
Definition short : Z := 477218588.
Lemma clock_to_short E V : (4535485464576000 <= E <= 8933531975680000)%Z -> (4535485464576000 <= V <= 8933531975680000)%Z ->
  (Z.abs (E - V) <= short)%Z -> clock_to b64 (IZR E / U) (IZR V / U) = IZR (land E V) / U.
Proof.
  intros HE HV HK. assert (P := U_pos). unfold clock_to. set (K := (E - V)%Z) in *. unfold short in HK.
  replace (IZR E / U - IZR V / U) with (IZR K / U) by (unfold K; rewrite minus_IZR; field; lra).
  rewrite b64_grid by lia.
  replace (IZR K / U * SECONDS_IN_DAY) with (IZR (K * 675) * bpow radix2 (-30)).
  2:{ change (bpow radix2 (-30)) with (/ 1073741824). unfold SECONDS_IN_DAY, U. rewrite mult_IZR. field. }
  rewrite b64_dyadic by lia.
  set (dt := IZR (K * 675) * bpow radix2 (-30)).
  assert (Dt : dt = IZR K * 675 / 1073741824).
  { unfold dt. change (bpow radix2 (-30)) with (/ 1073741824). rewrite mult_IZR. reflexivity. }
  destruct (Z.eq_dec K 0) as [K0|K0].
  { assert (dt = 0) by (rewrite Dt, K0; field). rewrite H. replace (0 / MAX_STEP) with 0 by (unfold MAX_STEP; field).
    change 0 with (IZR 0) at 1 2. rewrite b64_IZR by lia. unfold nabs. rewrite Rabs_R0.
    assert (nceil 0 = 0%Z). { unfold nceil. rewrite Ropp_0. change (Int_part 0) with (nfloor (IZR 0)). rewrite nfloor_IZR. reflexivity. }
    rewrite H0. cbn [Z.to_nat clock_steps]. unfold land. fold K. rewrite K0.
    replace (V + E)%Z with (2 * V)%Z by lia. rewrite half_even_even. rewrite Z.add_0_r, half_even_even. reflexivity. }
  assert (N1 : nceil (nabs (b64 (dt / MAX_STEP))) = 1%Z).
  { assert (B : IZR 1 * bpow radix2 (-40) <= nabs (b64 (dt / MAX_STEP)) <= 1).
    { unfold nabs. assert (Hb : b64 (IZR 1 * bpow radix2 (-40)) = IZR 1 * bpow radix2 (-40)) by (apply b64_dyadic; lia).
      assert (H1 := b64_IZR 1 ltac:(lia)). assert (Hm1 := b64_IZR (-1) ltac:(lia)).
      assert (Hb' : b64 (IZR (-1) * bpow radix2 (-40)) = IZR (-1) * bpow radix2 (-40)) by (apply b64_dyadic; lia).
      assert (Eb : bpow radix2 (-40) = / 1099511627776) by reflexivity. rewrite Eb in *.
      destruct (Z_lt_le_dec K 0) as [L|L].
      - assert (IZR K <= -1) by (apply IZR_le; lia). assert (-477218588 <= IZR K) by (apply IZR_le; lia).
        assert (A1 : b64 (dt / MAX_STEP) <= b64 (IZR (-1) * / 1099511627776)) by (apply b64_mono; rewrite Dt; unfold MAX_STEP; lra).
        assert (A2 : b64 (IZR (-1)) <= b64 (dt / MAX_STEP)) by (apply b64_mono; rewrite Dt; unfold MAX_STEP; lra).
        rewrite Hb' in A1. rewrite Hm1 in A2. rewrite Rabs_left by lra. lra.
      - assert (1 <= IZR K) by (apply IZR_le; lia). assert (IZR K <= 477218588) by (apply IZR_le; lia).
        assert (A1 : b64 (IZR 1 * / 1099511627776) <= b64 (dt / MAX_STEP)) by (apply b64_mono; rewrite Dt; unfold MAX_STEP; lra).
        assert (A2 : b64 (dt / MAX_STEP) <= b64 (IZR 1)) by (apply b64_mono; rewrite Dt; unfold MAX_STEP; lra).
        rewrite Hb in A1. rewrite H1 in A2. rewrite Rabs_pos_eq by lra. lra. }
    assert (Eb : bpow radix2 (-40) = / 1099511627776) by reflexivity. rewrite Eb in B.
    unfold nceil. change (Int_part (- nabs (b64 (dt / MAX_STEP)))) with (nfloor (- nabs (b64 (dt / MAX_STEP)))).
    replace (nfloor (- nabs (b64 (dt / MAX_STEP)))) with (-1)%Z; [reflexivity|]. symmetry. apply nfloor_unique; lra. }
  rewrite N1. change (Z.to_nat 1) with 1%nat. cbn [clock_steps]. unfold clock_step.
  replace (dt / of_Z 1) with dt by (unfold of_Z; field).
  assert (Bd : b64 dt = dt) by (unfold dt; apply b64_dyadic; lia). rewrite Bd.
  replace (dt / 2) with (IZR (K * 675) * bpow radix2 (-31)).
  2:{ rewrite Dt. change (bpow radix2 (-31)) with (/ 2147483648). rewrite mult_IZR. field. }
  rewrite b64_dyadic by lia.
  replace (IZR (K * 675) * bpow radix2 (-31) / SECONDS_IN_DAY) with (IZR K * bpow radix2 (-38)).
  2:{ change (bpow radix2 (-31)) with (/ 2147483648). change (bpow radix2 (-38)) with (/ 274877906944).
      unfold SECONDS_IN_DAY. rewrite mult_IZR. field. }
  rewrite b64_dyadic by lia.
  replace (IZR K * bpow radix2 (-38)) with (IZR K / 2 / U).
  2:{ change (bpow radix2 (-38)) with (/ 274877906944). unfold U. field. }
  assert (RV : 4535485464576000 <= IZR V <= 8933531975680000) by (split; apply IZR_le; lia).
  assert (RE : 4535485464576000 <= IZR E <= 8933531975680000) by (split; apply IZR_le; lia).
  assert (RK : IZR K = IZR E - IZR V) by (unfold K; apply minus_IZR).
  assert (T1 : (IZR V / U + IZR K / 2 / U) * U = IZR (V + E) / 2).
  { rewrite RK, plus_IZR. field. lra. }
  rewrite (b64_binade (IZR V / U + IZR K / 2 / U)).
  2:{ replace (IZR V / U + IZR K / 2 / U) with ((IZR V + IZR E) / 2 / U) by (rewrite RK; field; lra). unfold U. lra. }
  rewrite T1. fold (half_even (V + E)). set (m := half_even (V + E)).
  assert (Hm : Rabs (IZR m - (IZR V + IZR E) / 2) <= / 2).
  { unfold m, half_even. rewrite plus_IZR. apply near_half. }
  assert (Hm' := proj1 (Rabs_le_inv _ _ Hm)). assert (Hm'' := proj2 (Rabs_le_inv _ _ Hm)).
  rewrite b64_binade.
  2:{ replace (IZR m / U + IZR K / 2 / U) with ((IZR m + IZR K / 2) / U) by (field; lra). rewrite RK. unfold U. lra. }
  unfold land. fold m K. f_equal. f_equal. unfold half_even. f_equal. rewrite plus_IZR, mult_IZR. field. lra.
Qed.

(** * Any number of steps *)
Lemma b64_idem x : b64 (b64 x) = b64 x.
Proof.
  unfold b64. apply round_generic; [apply valid_rnd_N|]. apply generic_format_round.
  apply FLT_exp_valid. unfold Prec_gt_0. lia. apply valid_rnd_N.
Qed.
Definition eps : R := / 9007199254740992.
Lemma b64_err x b : Rabs x <= b -> Rabs (b64 x - x) <= b * eps + 1e-30.
Proof.
  intros H. eapply Rle_trans; [apply b64_error|]. apply Rplus_le_compat_r. apply Rmult_le_compat_r; auto.
  left. apply Rinv_0_lt_compat. lra.
Qed.
Lemma half_day_err h : Rabs h <= 301 ->
  Rabs (2 * b64 (b64 (h / 2) / SECONDS_IN_DAY) - h / SECONDS_IN_DAY) <= 1e-18.
Proof.
  intros H. apply Rabs_le_inv in H. unfold SECONDS_IN_DAY.
  assert (A := b64_err (h / 2) 151 ltac:(apply Rabs_le; lra)). apply Rabs_le_inv in A.
  set (x := b64 (h / 2)) in *. clearbody x. unfold eps in A.
  assert (B := b64_err (x / 86400) 0.0018 ltac:(apply Rabs_le; lra)). apply Rabs_le_inv in B.
  set (y := b64 (x / 86400)) in *. clearbody y. unfold eps in B. apply Rabs_le. lra.
Qed.
Lemma binade_err x : 32768 <= x < 65536 -> Rabs (b64 x - x) <= / U / 2.
Proof.
  intros H. rewrite b64_binade by auto. assert (N := near_half (x * U)). assert (P := U_pos).
  replace (IZR (near (x * U)) / U - x) with ((IZR (near (x * U)) - x * U) * / U) by (field; lra).
  rewrite Rabs_mult, (Rabs_pos_eq (/ U)) by (left; apply Rinv_0_lt_compat; auto).
  replace (/ U / 2) with (/ 2 * / U) by (field; lra). apply Rmult_le_compat_r; auto. left. apply Rinv_0_lt_compat; auto.
Qed.
Lemma clock_step_err h v : Rabs h <= 301 -> 32800 <= v <= 65200 ->
  Rabs (clock_step b64 h v - (v + h / SECONDS_IN_DAY)) <= / U + 1e-18.
Proof.
  intros H V. unfold clock_step. assert (D := half_day_err h H). apply Rabs_le_inv in H. apply Rabs_le_inv in D.
  set (d := b64 (b64 (h / 2) / SECONDS_IN_DAY)) in *. clearbody d. unfold SECONDS_IN_DAY in *.
  assert (Hu : 0 < / U < 1e-11) by (unfold U; lra).
  assert (A := binade_err (v + d) ltac:(lra)). apply Rabs_le_inv in A. set (x := b64 (v + d)) in *. clearbody x.
  assert (B := binade_err (x + d) ltac:(lra)). apply Rabs_le_inv in B. set (y := b64 (x + d)) in *. clearbody y.
  apply Rabs_le. lra.
Qed.
Lemma clock_steps_err h : Rabs h <= 301 -> forall n v w B,
  Rabs (v - w) <= B -> B + INR n * (/ U + 1e-18) <= 1 ->
  32900 <= w <= 65100 -> 32900 <= w + INR n * (h / SECONDS_IN_DAY) <= 65100 ->
  Rabs (clock_steps b64 n h v - (w + INR n * (h / SECONDS_IN_DAY))) <= B + INR n * (/ U + 1e-18).
Proof.
  intros H. set (x := h / SECONDS_IN_DAY). assert (Hu : 0 < / U < 1e-11) by (unfold U; lra).
  assert (Hx : Rabs x <= 0.004). { apply Rabs_le_inv in H. apply Rabs_le. unfold x, SECONDS_IN_DAY. lra. }
  induction n as [|n IH]; intros v w B Hv Hb Hw Hn.
  - cbn [INR clock_steps]. replace (w + 0 * x) with w by ring. lra.
  - cbn [clock_steps]. rewrite S_INR in *. assert (P := pos_INR n). apply Rabs_le_inv in Hv.
    assert (0 <= INR n * (/ U + 1e-18)) by (apply Rmult_le_pos; lra).
    assert (E := clock_step_err h v H ltac:(lra)). fold x in E. apply Rabs_le_inv in E.
    replace (w + (INR n + 1) * x) with ((w + x) + INR n * x) by ring.
    replace (B + (INR n + 1) * (/ U + 1e-18)) with ((B + (/ U + 1e-18)) + INR n * (/ U + 1e-18)) by ring.
    apply IH.
    + apply Rabs_le. lra.
    + lra.
    + apply Rabs_le_inv in Hx.
      destruct (Rle_lt_dec 0 x).
      * assert (0 <= INR n * x) by (apply Rmult_le_pos; lra). lra.
      * assert (0 <= INR n * - x) by (apply Rmult_le_pos; lra). lra.
    + replace ((w + x) + INR n * x) with (w + (INR n + 1) * x) by ring. exact Hn.
Qed.

Lemma nceil_bounds x : x <= IZR (nceil x) < x + 1.
Proof.
  unfold nceil. change (Int_part (- x)) with (nfloor (- x)). assert (B := nfloor_bounds (- x)).
  rewrite opp_IZR. lra.
Qed.
Lemma nceil_nonneg x : 0 <= x -> (0 <= nceil x)%Z.
Proof. intros H. assert (B := nceil_bounds x). apply le_IZR. lra. Qed.

Lemma clock_to_err E V : (4535485464576000 <= E <= 8933531975680000)%Z -> (4535485464576000 <= V <= 8933531975680000)%Z ->
  let e := IZR E / U in let v := IZR V / U in
  Rabs (clock_to b64 e v - e) <= (288 * Rabs (e - v) + 2) * 7.3e-12 /\
  b64 (clock_to b64 e v) = clock_to b64 e v.
Proof.
  intros HE HV e v. assert (P := U_pos).
  assert (RV : 4535485464576000 <= IZR V <= 8933531975680000) by (split; apply IZR_le; lia).
  assert (RE : 4535485464576000 <= IZR E <= 8933531975680000) by (split; apply IZR_le; lia).
  assert (Re : 33000 <= e <= 65000) by (unfold e, U; lra).
  assert (Rv : 33000 <= v <= 65000) by (unfold v, U; lra).
  destruct (Z_le_gt_dec (Z.abs (E - V)) short) as [Sh|Sh].
  { assert (C := clock_to_short E V HE HV Sh). fold e v in C. rewrite C.
    assert (Hl : (Z.abs (land E V - E) <= 1)%Z).
    { destruct (land_spec E V) as [->|(_ & _ & _ & ->)]; lia. }
    split.
    - replace (IZR (land E V) / U - e) with (IZR (land E V - E) / U) by (unfold e; rewrite minus_IZR; field; lra).
      unfold Rdiv. rewrite Rabs_mult, (Rabs_pos_eq (/ U)) by (left; apply Rinv_0_lt_compat; auto).
      rewrite <- abs_IZR. assert (0 <= IZR (Z.abs (land E V - E)) <= 1) by (split; apply IZR_le; lia).
      assert (0 <= Rabs (e - v)) by apply Rabs_pos. unfold U. lra.
    - apply b64_grid. lia. }
  assert (Df : Rabs (e - v) <= 32000) by (apply Rabs_le; lra).
  assert (Lf : 0.0034 <= Rabs (e - v)).
  { replace (e - v) with (IZR (E - V) / U) by (unfold e, v; rewrite minus_IZR; field; lra).
    unfold Rdiv. rewrite Rabs_mult, (Rabs_pos_eq (/ U)) by (left; apply Rinv_0_lt_compat; auto).
    rewrite <- abs_IZR. unfold short in Sh. assert (477218588 <= IZR (Z.abs (E - V))) by (apply IZR_le; lia). unfold U. lra. }
  unfold clock_to.
  replace (b64 (e - v)) with (e - v).
  2:{ symmetry. replace (e - v) with (IZR (E - V) / U) by (unfold e, v; rewrite minus_IZR; field; lra). apply b64_grid. lia. }
  set (D := e - v) in *. set (a := Rabs D) in *.
  assert (Rd := b64_error (D * SECONDS_IN_DAY)).
  set (dt := b64 (D * SECONDS_IN_DAY)) in *.
  assert (Rq := b64_error (dt / MAX_STEP)).
  set (q := b64 (dt / MAX_STEP)) in *. unfold nabs, of_Z.
  assert (Cn := nceil_bounds (Rabs q)). assert (Nn := nceil_nonneg (Rabs q) (Rabs_pos q)).
  set (N := nceil (Rabs q)) in *.
  assert (Rh := b64_error (dt / IZR N)). set (h := b64 (dt / IZR N)) in *.
  clearbody dt q N h.
  rewrite Rabs_mult in Rd. rewrite (Rabs_pos_eq SECONDS_IN_DAY) in Rd by (unfold SECONDS_IN_DAY; lra). fold a in Rd.
  assert (Adt : Rabs (Rabs dt - a * 86400) <= a * 1e-11 + 1e-30).
  { replace (a * 86400) with (Rabs (D * SECONDS_IN_DAY)) by (rewrite Rabs_mult, (Rabs_pos_eq SECONDS_IN_DAY) by (unfold SECONDS_IN_DAY; lra); reflexivity).
    eapply Rle_trans; [apply Rabs_triang_inv2|]. eapply Rle_trans; [exact Rd|]. unfold SECONDS_IN_DAY. lra. }
  apply Rabs_le_inv in Adt. set (b := Rabs dt) in *.
  assert (Hm : Rabs (dt / MAX_STEP) = b / 300).
  { unfold Rdiv, MAX_STEP. rewrite Rabs_mult, (Rabs_pos_eq (/ 300)) by lra. reflexivity. }
  rewrite Hm in Rq.
  assert (Aq : Rabs (Rabs q - b / 300) <= b / 300 * / 9007199254740992 + 1e-30).
  { rewrite <- Hm at 1. eapply Rle_trans; [apply Rabs_triang_inv2|]. exact Rq. }
  apply Rabs_le_inv in Aq. set (aq := Rabs q) in *.
  assert (N1 : 0.9 < IZR N) by lra.
  assert (N1z : (1 <= N)%Z) by (assert (0 < N)%Z by (apply lt_IZR; lra); lia).
  assert (N1' : 1 <= IZR N) by (apply IZR_le; auto).
  assert (IN : INR (Z.to_nat N) = IZR N) by (rewrite INR_IZR_INZ, Z2Nat.id by lia; reflexivity).
  assert (Hdn : Rabs (dt / IZR N) = b / IZR N).
  { unfold Rdiv. rewrite Rabs_mult, (Rabs_pos_eq (/ IZR N)); [reflexivity|]. left. apply Rinv_0_lt_compat. lra. }
  rewrite Hdn in Rh.
  assert (Bn : b / IZR N <= 300.5).
  { apply Rmult_le_reg_r with (IZR N); [lra|]. replace (b / IZR N * IZR N) with b by (field; lra). lra. }
  assert (Hh : Rabs h <= 301).
  { replace h with ((h - dt / IZR N) + dt / IZR N) by ring. eapply Rle_trans; [apply Rabs_triang|]. rewrite Hdn. lra. }
  assert (Tot : Rabs (IZR N * (h / 86400) - D) <= IZR N * 1e-17).
  { replace (IZR N * (h / 86400) - D) with (IZR N * (h - dt / IZR N) / 86400 + (dt - D * 86400) / 86400) by (field; lra).
    eapply Rle_trans; [apply Rabs_triang|].
    assert (T1 : Rabs (IZR N * (h - dt / IZR N) / 86400) <= IZR N * 1e-18).
    { unfold Rdiv at 1. rewrite !Rabs_mult, (Rabs_pos_eq (IZR N)), (Rabs_pos_eq (/ 86400)) by lra.
      rewrite Rmult_assoc. apply Rmult_le_compat_l; lra. }
    assert (T2 : Rabs ((dt - D * 86400) / 86400) <= IZR N * 1e-18).
    { unfold Rdiv. rewrite Rabs_mult, (Rabs_pos_eq (/ 86400)) by lra. unfold SECONDS_IN_DAY in Rd.
      apply Rle_trans with (a * 2e-16); lra. }
    lra. }
  assert (Ev : v + D = e) by (unfold D; ring). apply Rabs_le_inv in Tot.
  assert (Hu : 0 < / U < 7.28e-12) by (unfold U; lra).
  assert (Nb : IZR N <= 10000000) by lra.
  assert (St := clock_steps_err h Hh (Z.to_nat N) v v 0).
  rewrite IN in St. unfold SECONDS_IN_DAY in St.
  assert (G : Rabs (clock_steps b64 (Z.to_nat N) h v - (v + IZR N * (h / 86400))) <= 0 + IZR N * (/ U + 1e-18)).
  { apply St.
    - rewrite Rminus_eq_0, Rabs_R0. lra.
    - assert (IZR N * (/ U + 1e-18) <= 10000000 * (1e-11)) by (apply Rmult_le_compat; lra). lra.
    - lra.
    - lra. }
  split.
  - apply Rabs_le_inv in G. assert (IZR N * (/ U + 1e-18) <= IZR N * 7.29e-12) by (apply Rmult_le_compat_l; lra).
    apply Rabs_le. split; lra.
  - destruct (Z.to_nat N) as [|k] eqn:Hk; [lia|]. clear.
    cut (forall n v, b64 (clock_steps b64 (S n) h v) = clock_steps b64 (S n) h v); [intros C; apply C|].
    induction n as [|n IH]; intros u.
    + cbn [clock_steps]. unfold clock_step. apply b64_idem.
    + apply (IH (clock_step b64 h u)).
Qed.

(** * Clocks on ticks *)
Definition epoch_tick (m : Z) : Prop := (4535485464576000 <= m <= 8933531975680000)%Z.
Definition lnd (E V : Z) : Z := near (clock_to b64 (IZR E / U) (IZR V / U) * U).
Lemma lnd_bound E V : epoch_tick E -> epoch_tick V ->
  clock_to b64 (IZR E / U) (IZR V / U) = IZR (lnd E V) / U /\
  Rabs (IZR (lnd E V) / U - IZR E / U) <= (288 * Rabs (IZR E / U - IZR V / U) + 2) * 7.3e-12.
Proof.
  intros HE HV. destruct (clock_to_err E V HE HV) as [A B]. unfold epoch_tick in *.
  assert (RV : 4535485464576000 <= IZR V <= 8933531975680000) by (split; apply IZR_le; lia).
  assert (RE : 4535485464576000 <= IZR E <= 8933531975680000) by (split; apply IZR_le; lia).
  assert (G : clock_to b64 (IZR E / U) (IZR V / U) = IZR (lnd E V) / U).
  { unfold lnd. rewrite <- B at 1. apply b64_binade.
    assert (Rabs (IZR E / U - IZR V / U) <= 32000) by (apply Rabs_le; unfold U; lra).
    apply Rabs_le_inv in A. assert (33000 <= IZR E / U <= 65000) by (unfold U; lra). lra. }
  split; auto. rewrite <- G. exact A.
Qed.
Lemma lnd_close E V : epoch_tick E -> epoch_tick V -> (Z.abs (E - V) <= 274877906944)%Z ->
  (Z.abs (lnd E V - E) <= 600)%Z.
Proof.
  intros HE HV HK. destruct (lnd_bound E V HE HV) as [_ B]. assert (P := U_pos).
  replace (IZR (lnd E V) / U - IZR E / U) with (IZR (lnd E V - E) / U) in B by (rewrite minus_IZR; field; lra).
  replace (IZR E / U - IZR V / U) with (IZR (E - V) / U) in B by (rewrite minus_IZR; field; lra).
  unfold Rdiv in B. rewrite !Rabs_mult, (Rabs_pos_eq (/ U)) in B by (left; apply Rinv_0_lt_compat; auto).
  rewrite <- !abs_IZR in B.
  assert (IZR (Z.abs (E - V)) <= 274877906944) by (apply IZR_le; auto).
  apply Z.lt_succ_r, lt_IZR. unfold U in B. rewrite succ_IZR. lra.
Qed.
Lemma lnd_short E V : epoch_tick E -> epoch_tick V -> (Z.abs (E - V) <= short)%Z -> lnd E V = land E V.
Proof.
  intros HE HV HK. unfold lnd. rewrite clock_to_short by auto. assert (P := U_pos).
  replace (IZR (land E V) / U * U) with (IZR (land E V)) by (field; lra). apply near_IZR.
Qed.

(** the same recursion on ticks, giving up outside the range considered *)
Definition tickb (m : Z) : bool := (4535485464576000 <=? m)%Z && (m <=? 8933531975680000)%Z.
Lemma tickb_true m : epoch_tick m -> tickb m = true.
Proof. unfold epoch_tick, tickb. intros [A B]. apply Z.leb_le in A. apply Z.leb_le in B. rewrite A, B. reflexivity. Qed.
Lemma tickb_tick m : tickb m = true -> epoch_tick m.
Proof. unfold epoch_tick, tickb. intros H. apply andb_true_iff in H. destruct H as [A B]. apply Z.leb_le in A. apply Z.leb_le in B. auto. Qed.
Definition put (z : nat -> Z) (j : nat) (x : Z) : nat -> Z := fun k => if Nat.eqb k j then x else z k.
Fixpoint zsync (target : nat -> option nat) (fuel : nat) (i : nat) (z : nat -> Z) : option (nat -> Z) :=
  match fuel with
  | O => None
  | S fuel =>
      match target i with
      | None => Some z
      | Some j => if Z.eq_dec (z j) (z i) then Some z
                  else if tickb (lnd (z i) (z j)) then zsync target fuel j (put z j (lnd (z i) (z j))) else None
      end
  end.

(** number of the first [n] spacecraft with a given property *)
Fixpoint count (p : nat -> bool) (n : nat) : nat :=
  match n with O => O | S n => ((if p n then 1 else 0) + count p n)%nat end.
Lemma count_le p n : (count p n <= n)%nat.
Proof. induction n; cbn [count]; [lia|]. destruct (p n); lia. Qed.
Lemma count_mono p q n : (forall k, (k < n)%nat -> p k = true -> q k = true) -> (count p n <= count q n)%nat.
Proof.
  induction n; intros H; cbn [count]; [lia|]. assert (A := IHn ltac:(intros; apply H; auto)).
  assert (B := H n ltac:(lia)). destruct (p n); [rewrite B by auto; lia|]. destruct (q n); lia.
Qed.
Lemma count_drop p q n j : (forall k, (k < n)%nat -> p k = true -> q k = true) -> (j < n)%nat ->
  p j = false -> q j = true -> (S (count p n) <= count q n)%nat.
Proof.
  induction n; intros H L P Q; [lia|]. cbn [count]. destruct (Nat.eq_dec j n) as [->|N].
  - rewrite P, Q. assert (A := count_mono p q n ltac:(intros; apply H; auto)). lia.
  - assert (A := IHn ltac:(intros; apply H; auto) ltac:(lia) P Q).
    assert (B := H n ltac:(lia)). destruct (p n); [rewrite B by auto; lia|]. destruct (q n); lia.
Qed.
Definition differs (vis : nat -> bool) (z : nat -> Z) (E : Z) (k : nat) : bool := vis k && negb (Z.eqb (z k) E).
Lemma put_same z j x : put z j x j = x.
Proof. unfold put. rewrite Nat.eqb_refl. reflexivity. Qed.
Lemma put_other z j x k : k <> j -> put z j x k = z k.
Proof. intros H. unfold put. apply Nat.eqb_neq in H. rewrite H. reflexivity. Qed.

(** everybody who is reached again sits within a short step *)
Lemma sync_even target M vis : (forall i, vis i = true -> (i < M)%nat) ->
  (forall i j, vis i = true -> target i = Some j -> vis j = true) ->
  forall n i z, vis i = true -> Z.even (z i) = true ->
  (forall k, vis k = true -> epoch_tick (z k)) ->
  (forall k, vis k = true -> (Z.abs (z k - z i) <= short)%Z) ->
  (count (differs vis z (z i)) M < n)%nat -> exists z', zsync target n i z = Some z'.
Proof.
  intros Hv Hc. induction n as [|n IH]; intros i z Vi Ev Rg Cl Cn; [lia|]. cbn [zsync].
  destruct (target i) as [j|] eqn:T; [|eauto]. destruct (Z.eq_dec (z j) (z i)) as [Q|Q]; [eauto|].
  assert (Vj := Hc i j Vi T).
  assert (L : lnd (z i) (z j) = z i).
  { rewrite lnd_short by (auto; rewrite <- Z.abs_opp; replace (- (z i - z j))%Z with (z j - z i)%Z by lia; auto).
    destruct (land_spec (z i) (z j)) as [|(_ & O & _)]; auto. congruence. }
  rewrite L, tickb_true by auto. assert (Pj : forall k, put z j (z i) k = if Nat.eqb k j then z i else z k) by reflexivity.
  apply (IH j (put z j (z i)) Vj).
  - rewrite put_same. exact Ev.
  - intros k Vk. rewrite Pj. destruct (Nat.eqb k j); auto.
  - intros k Vk. rewrite put_same, Pj. destruct (Nat.eqb k j); [rewrite Z.sub_diag; cbn; unfold short; lia|auto].
  - rewrite put_same. eapply Nat.lt_le_trans; [|apply Nat.lt_succ_r; exact Cn].
    apply (count_drop _ _ M j); auto.
    + intros k _. unfold differs. rewrite Pj. destruct (Nat.eqb k j); auto. rewrite Z.eqb_refl, andb_false_r. discriminate.
    + unfold differs. rewrite put_same, Z.eqb_refl, andb_false_r. reflexivity.
    + unfold differs. rewrite Vj. apply Z.eqb_neq in Q. rewrite Q. reflexivity.
Qed.
Lemma sync_close target M vis : (forall i, vis i = true -> (i < M)%nat) ->
  (forall i j, vis i = true -> target i = Some j -> vis j = true) ->
  forall n i z, vis i = true ->
  (forall k, vis k = true -> (4535485464576001 <= z k <= 8933531975679999)%Z) ->
  (forall k, vis k = true -> (Z.abs (z k - z i) <= short - 1)%Z) ->
  (count (differs vis z (z i)) M + M + 1 < n)%nat -> exists z', zsync target n i z = Some z'.
Proof.
  intros Hv Hc. induction n as [|n IH]; intros i z Vi Rg Cl Cn; [lia|].
  destruct (Z.even (z i)) eqn:Ev.
  { apply (sync_even target M vis Hv Hc (S n) i z Vi Ev).
    - intros k Vk. specialize (Rg k Vk). unfold epoch_tick. lia.
    - intros k Vk. specialize (Cl k Vk). lia.
    - lia. }
  cbn [zsync].
  destruct (target i) as [j|] eqn:T; [|eauto]. destruct (Z.eq_dec (z j) (z i)) as [Q|Q]; [eauto|].
  assert (Vj := Hc i j Vi T).
  assert (Ri := Rg i Vi). assert (Rj := Rg j Vj). assert (Cj := Cl j Vj).
  assert (L : lnd (z i) (z j) = land (z i) (z j)) by (apply lnd_short; unfold epoch_tick; lia).
  rewrite L. set (x := land (z i) (z j)) in *.
  rewrite tickb_true.
  2:{ unfold epoch_tick, x. destruct (land_spec (z i) (z j)) as [->|(_ & _ & _ & D)]; lia. }
  assert (Pj : forall k, put z j x k = if Nat.eqb k j then x else z k) by reflexivity.
  destruct (land_spec (z i) (z j)) as [Sx|(Evj & _ & Ev' & D)].
  - (* lands exactly *)
    fold x in Sx. apply (IH j (put z j x) Vj).
    + intros k Vk. rewrite Pj. destruct (Nat.eqb k j); auto. rewrite Sx. auto.
    + intros k Vk. rewrite put_same, Pj. destruct (Nat.eqb k j); [rewrite Z.sub_diag; cbn; unfold short; lia|rewrite Sx; auto].
    + rewrite put_same, Sx. assert (A := count_drop (differs vis (put z j (z i)) (z i)) (differs vis z (z i)) M j).
      assert (Hd : (S (count (differs vis (put z j (z i)) (z i)) M) <= count (differs vis z (z i)) M)%nat).
      { apply A; auto.
        - intros k _. unfold differs, put. destruct (Nat.eqb k j); auto. rewrite Z.eqb_refl, andb_false_r. discriminate.
        - unfold differs. rewrite put_same, Z.eqb_refl, andb_false_r. reflexivity.
        - unfold differs. rewrite Vj. apply Z.eqb_neq in Q. rewrite Q. reflexivity. }
      lia.
  - (* lands on an even tick *)
    fold x in Ev', D. apply (sync_even target M vis Hv Hc n j (put z j x) Vj).
    + rewrite put_same. exact Ev'.
    + intros k Vk. rewrite Pj. specialize (Rg k Vk). unfold epoch_tick. destruct (Nat.eqb k j); lia.
    + intros k Vk. rewrite put_same, Pj. specialize (Cl k Vk). destruct (Nat.eqb k j); lia.
    + assert (A := count_le (differs vis (put z j x) (put z j x j)) M). lia.
Qed.

(** the first visits *)
Lemma sync_first target M : (Z.of_nat M <= 300000)%Z ->
  (forall i j, (i < M)%nat -> target i = Some j -> (j < M)%nat) ->
  forall E0, (4535485464576000 + 137438953472 <= E0 <= 8933531975680000 - 137438953472)%Z ->
  forall u n i z vis, (i < M)%nat -> vis i = true -> (forall k, vis k = true -> (k < M)%nat) ->
  count (fun k => negb (vis k)) M = u ->
  (forall k j, vis k = true -> k <> i -> target k = Some j -> vis j = true) ->
  (forall k, (k < M)%nat -> vis k = false -> (4535485464576001 <= z k <= 8933531975679999)%Z /\ (Z.abs (z k - E0) <= 137438953472)%Z) ->
  (forall k, vis k = true -> (Z.abs (z k - E0) <= 600 * Z.of_nat (M - u))%Z) ->
  (u + 2 * M + 1 < n)%nat -> exists z', zsync target n i z = Some z'.
Proof.
  intros HM Ht E0 HE. induction u as [|u IH]; intros n i z vis Hi Vi Vm Cu Cl Un Vs Hn.
  - (* everybody is visited *)
    assert (All : forall k, (k < M)%nat -> vis k = true).
    { intros k Lk. destruct (vis k) eqn:V; auto. exfalso.
      assert (A := count_drop (fun _ => false) (fun k => negb (vis k)) M k). cbv beta in A. rewrite V in A.
      specialize (A ltac:(discriminate) Lk eq_refl eq_refl). lia. }
    apply (sync_close target M vis Vm) with (n := n) (i := i) (z := z); [| exact Vi | | |].
    + intros k j Vk T. apply All. apply (Ht k); auto.
    + intros k Vk. specialize (Vs k Vk). lia.
    + intros k Vk. assert (A := Vs k Vk). assert (B := Vs i Vi). unfold short. lia.
    + assert (A := count_le (differs vis z (z i)) M). lia.
  - assert (Hu : (S u <= M)%nat) by (rewrite <- Cu; apply count_le).
    destruct (target i) as [j|] eqn:T; [|destruct n; [lia|]; cbn [zsync]; rewrite T; eauto].
    destruct (vis j) eqn:Vj.
    + (* the visited ones are closed *)
      apply (sync_close target M vis Vm) with (n := n) (i := i) (z := z); [| exact Vi | | |].
      * intros k l Vk Tk. destruct (Nat.eq_dec k i) as [->|N]; [congruence|]. apply (Cl k); auto.
      * intros k Vk. specialize (Vs k Vk). lia.
      * intros k Vk. assert (A := Vs k Vk). assert (B := Vs i Vi). unfold short. lia.
      * assert (A := count_le (differs vis z (z i)) M). lia.
    + destruct n as [|n]; [lia|]. cbn [zsync]. rewrite T. destruct (Z.eq_dec (z j) (z i)) as [Q|Q]; [eauto|].
      assert (Lj := Ht i j Hi T). destruct (Un j Lj Vj) as [Rj Dj]. assert (Di := Vs i Vi).
      assert (X : (Z.abs (lnd (z i) (z j) - z i) <= 600)%Z) by (apply lnd_close; unfold epoch_tick; lia).
      set (x := lnd (z i) (z j)) in *. clearbody x. rewrite tickb_true by (unfold epoch_tick; lia).
      assert (Pj : forall k, put z j x k = if Nat.eqb k j then x else z k) by reflexivity.
      apply (IH n j (put z j x) (fun k => Nat.eqb k j || vis k) Lj).
      * rewrite Nat.eqb_refl. reflexivity.
      * intros k. destruct (Nat.eqb_spec k j) as [->|]; auto.
      * assert (A := count_drop (fun k => negb (Nat.eqb k j || vis k)) (fun k => negb (vis k)) M j).
        cbv beta in A. rewrite Nat.eqb_refl, Vj in A.
        specialize (A ltac:(intros k _; destruct (Nat.eqb k j), (vis k); auto) Lj eq_refl eq_refl).
        assert (B : (count (fun k => negb (vis k)) M <= S (count (fun k => negb (Nat.eqb k j || vis k)) M))%nat).
        { clear. induction M as [|M IH]; cbn [count]; [lia|]. destruct (Nat.eqb_spec M j) as [->|N].
          - cbn [orb negb]. assert (E : count (fun k => negb (vis k)) j = count (fun k => negb (Nat.eqb k j || vis k)) j).
            { assert (G : forall m, (m <= j)%nat -> count (fun k => negb (vis k)) m = count (fun k => negb (Nat.eqb k j || vis k)) m).
              { induction m; intros; cbn [count]; auto. rewrite IHm by lia. destruct (Nat.eqb_spec m j); [lia|]. reflexivity. }
              apply G. lia. }
            rewrite E. destruct (vis j); cbn; lia.
          - cbn [orb]. destruct (vis M); cbn [negb]; lia. }
        lia.
      * intros k l. destruct (Nat.eqb_spec k j) as [->|N]; [intros _ C; congruence|]. cbn [orb]. intros Vk _ Tk.
        destruct (Nat.eq_dec k i) as [->|N']; [assert (l = j) by congruence; subst l; rewrite Nat.eqb_refl; auto|].
        rewrite (Cl k l Vk N' Tk). apply orb_true_r.
      * intros k Lk. rewrite Pj. destruct (Nat.eqb_spec k j); [discriminate|]. cbn [orb]. auto.
      * intros k. rewrite Pj. destruct (Nat.eqb_spec k j) as [->|N]; [intros _; lia|]. cbn [orb]. intros Vk. specialize (Vs k Vk). lia.
      * lia.
Qed.
Lemma zsync_total target M z E0 : (Z.of_nat M <= 300000)%Z ->
  (forall i j, (i < M)%nat -> target i = Some j -> (j < M)%nat) ->
  (4535485464576000 + 137438953472 <= E0 <= 8933531975680000 - 137438953472)%Z ->
  (forall k, (k < M)%nat -> (4535485464576001 <= z k <= 8933531975679999)%Z /\ (Z.abs (z k - E0) <= 137438953472)%Z) ->
  forall i, (i < M)%nat -> z i = E0 -> exists z', zsync target (3 * M + 3) i z = Some z'.
Proof.
  intros HM Ht HE Hz i Hi Zi.
  assert (Hc : count (fun k => negb (Nat.eqb k i)) M = (M - 1)%nat).
  { clear - Hi. assert (G : forall m, count (fun k => negb (Nat.eqb k i)) m = if (i <? m)%nat then (m - 1)%nat else m).
    { induction m; cbn [count]; auto. rewrite IHm. destruct (Nat.eqb_spec m i) as [->|N]; cbn [negb].
      - rewrite Nat.ltb_irrefl. destruct (Nat.ltb_spec i (S i)); lia.
      - destruct (Nat.ltb_spec i m), (Nat.ltb_spec i (S m)); lia. }
    rewrite G. apply Nat.ltb_lt in Hi. rewrite Hi. reflexivity. }
  apply (sync_first target M HM Ht E0 HE (M - 1) _ i z (fun k => Nat.eqb k i) Hi).
  - apply Nat.eqb_refl.
  - intros k K. apply Nat.eqb_eq in K. subst. auto.
  - exact Hc.
  - intros k j K N. apply Nat.eqb_eq in K. congruence.
  - intros k Lk _. exact (Hz k Lk).
  - intros k K. apply Nat.eqb_eq in K. subst k. rewrite Zi, Z.sub_diag. change (Z.abs 0) with 0%Z. lia.
  - lia.
Qed.

(** back to the clocks *)
Lemma tick_inj a b : IZR a / U = IZR b / U -> a = b.
Proof.
  intros H. assert (P := U_pos). apply eq_IZR. apply Rmult_eq_reg_r with (/ U); [exact H|]. apply Rinv_neq_0_compat. lra.
Qed.
Lemma sync_ticks target M : (forall i j, (i < M)%nat -> target i = Some j -> (j < M)%nat) ->
  forall fuel i z c z', (i < M)%nat -> (forall k, (k < M)%nat -> epoch_tick (z k) /\ c k = IZR (z k) / U) ->
  zsync target fuel i z = Some z' ->
  exists c', sync_clocks b64 target fuel i c = Some c'.
Proof.
  intros Ht. induction fuel as [|fuel IH]; intros i z c z' Hi Hc; [discriminate|]. cbn [zsync sync_clocks].
  destruct (target i) as [j|] eqn:T; [|eauto]. assert (Hj := Ht i j Hi T).
  destruct (Hc i Hi) as [Ti Ci], (Hc j Hj) as [Tj Cj].
  destruct (Z.eq_dec (z j) (z i)) as [Q|Q].
  - intros _. destruct (Req_EM_T (c j) (c i)) as [|N]; [eauto|]. exfalso. apply N. rewrite Ci, Cj, Q. reflexivity.
  - destruct (Req_EM_T (c j) (c i)) as [E|_]; [eauto|].
    destruct (tickb (lnd (z i) (z j))) eqn:Tb; [|discriminate]. apply tickb_tick in Tb.
    apply IH; auto. intros k Hk. unfold put. destruct (Nat.eqb_spec k j) as [->|]; auto.
    split; auto. rewrite Ci, Cj. apply lnd_bound; auto.
Qed.

Lemma tick_range x : b64 x = x -> 33000 <= x <= 65000 -> exists m, epoch_tick m /\ x = IZR m / U.
Proof.
  intros H R. destruct (grid x H ltac:(lra)) as [m E]. exists m. split; auto.
  rewrite E in R. apply U_range in R. unfold U in R. unfold epoch_tick. split; apply le_IZR; lra.
Qed.
Lemma near_tick m : near (IZR m / U * U) = m.
Proof. assert (P := U_pos). replace (IZR m / U * U) with (IZR m) by (field; lra). apply near_IZR. Qed.

Lemma sync_total target M c : (Z.of_nat M <= 300000)%Z ->
  (forall i j, (i < M)%nat -> target i = Some j -> (j < M)%nat) ->
  (forall k, (k < M)%nat -> b64 (c k) = c k /\ 33002 <= c k <= 64998) ->
  (forall k l, (k < M)%nat -> (l < M)%nat -> Rabs (c k - c l) <= 1) ->
  forall i, (i < M)%nat -> exists c', sync_clocks b64 target (3 * M + 3) i c = Some c'.
Proof.
  intros HM Ht Hc Hd i Hi. assert (P := U_pos).
  set (z := fun k => near (c k * U)).
  assert (Hz : forall k, (k < M)%nat -> c k = IZR (z k) / U /\ (4535760342482944 <= z k <= 8933257097773056)%Z).
  { intros k Hk. destruct (Hc k Hk) as [B R]. destruct (tick_range (c k) B ltac:(lra)) as (m & _ & E).
    unfold z. rewrite E, near_tick. split; auto. rewrite E in R. unfold U in R. split; apply le_IZR; lra. }
  destruct (zsync_total target M z (z i) HM Ht) with (i := i) as [z' Z]; auto.
  - destruct (Hz i Hi). lia.
  - intros k Hk. destruct (Hz k Hk) as [Ck Rk], (Hz i Hi) as [Ci Ri]. split; [lia|].
    assert (D := Hd k i Hk Hi). rewrite Ck, Ci in D. apply Rabs_le_inv in D. 
    assert (D1 : - 137438953472 <= IZR (z k) - IZR (z i) <= 137438953472) by (unfold U in D; lra).
    rewrite <- minus_IZR in D1. apply Z.abs_le. split; apply le_IZR; rewrite ?opp_IZR; lra.
  - apply (sync_ticks target M Ht (3 * M + 3) i z c z' Hi); auto.
    intros k Hk. destruct (Hz k Hk) as [Ck Rk]. split; auto. unfold epoch_tick. lia.
Qed.

(** * Statements on clocks *)
Lemma landing_error e v : b64 e = e -> b64 v = v -> 33000 <= e <= 65000 -> 33000 <= v <= 65000 ->
  Rabs (clock_to b64 e v - e) <= (288 * Rabs (e - v) + 2) * 7.3e-12 /\ b64 (clock_to b64 e v) = clock_to b64 e v.
Proof.
  intros He Hv Re Rv. destruct (tick_range e He Re) as (E & TE & ->). destruct (tick_range v Hv Rv) as (V & TV & ->).
  apply clock_to_err; auto.
Qed.
Lemma landing_short E V : epoch_tick E -> epoch_tick V -> (Z.abs (E - V) <= short)%Z ->
  exists L, clock_to b64 (IZR E / U) (IZR V / U) = IZR L / U /\
  (L = E <-> Z.even V = false \/ Z.even E = true) /\ (L = E \/ Z.abs (L - E) = 1)%Z.
Proof.
  intros HE HV HK. exists (land E V). split; [apply clock_to_short; auto|].
  destruct (land_spec E V) as [S|(A & B & C & D)].
  - split; [|auto]. split; auto. intros _. destruct (Z.even V) eqn:Hv; auto. destruct (Z.even E) eqn:He; auto.
    exfalso. apply (land_moves E V); auto.
  - split; [|auto]. split; [intros X; lia|]. intros [X|X]; congruence.
Qed.

(** exact arithmetic: the epoch of the real-number model *)
Lemma steps_clock n p q : rk4_steps n p = (q, Ok tt) ->
  value (g_epoch (rk_state q)) = clock_steps (fun x => x) n (step_size p) (value (g_epoch (rk_state p))).
Proof.
  revert p. induction n as [|n IH]; intros p H; cbn [rk4_steps clock_steps] in *.
  - inversion H. reflexivity.
  - unfold rk4_step in H. destruct (thrust_vector p 0) as [t0|]; [|discriminate].
    set (p1 := set_rk_state p (set_thrust (rk_state p) t0)) in *.
    destruct (step_result p1) as [s|] eqn:S; [|discriminate]. apply IH in H. rewrite H.
    assert (E : value (g_epoch s) = clock_step (fun x => x) (step_size p) (value (g_epoch (rk_state p)))).
    { clear - S. unfold step_result in S. cbn [gcrf_vector_list] in S.
      repeat match type of S with
      | bind ?m _ = Ok _ => destruct m eqn:?; cbn [bind] in S; [|discriminate]
      end.
      inversion S. reflexivity. }
    cbn [set_rk_state rk_state step_size] in *. rewrite E. reflexivity.
Qed.
Lemma exact_clock p e q : rk4_step_to_epoch p e = (q, Ok tt) ->
  value (g_epoch (rk_state q)) = clock_to (fun x => x) (value e) (value (g_epoch (rk_state p))).
Proof.
  unfold rk4_step_to_epoch, clock_to. set (dt := (value e - _) * SECONDS_IN_DAY). set (n := nceil (nabs (dt / MAX_STEP))).
  intros H. destruct (0 <? n)%Z eqn:Hn.
  - destruct (rk4_steps (Z.to_nat n) (set_step_size p (dt / of_Z n))) as [p1 [[]|]] eqn:S; [|discriminate].
    apply steps_clock in S. cbn [set_step_size step_size rk_state] in S. inversion H. exact S.
  - apply Z.ltb_ge in Hn. replace (Z.to_nat n) with O in * by lia. cbn [rk4_steps] in H. inversion H. reflexivity.
Qed.

(** a target that does not track back is never caught on an odd tick *)
Lemma never_level E V : epoch_tick (E - 1) -> epoch_tick (E + 1) -> epoch_tick V -> (Z.abs (E - V) <= short)%Z ->
  Z.even E = false -> Z.even V = true -> forall n, Nat.iter n (clock_to b64 (IZR E / U)) (IZR V / U) <> IZR E / U.
Proof.
  unfold epoch_tick. intros H1 H2 HV HK OE EV n.
  assert (G : exists L, Nat.iter n (clock_to b64 (IZR E / U)) (IZR V / U) = IZR L / U /\ epoch_tick L /\ Z.even L = true /\ (Z.abs (E - L) <= short)%Z).
  { induction n as [|n (L & R & TL & EL & KL)].
    - exists V. auto.
    - change (Nat.iter (S n) (clock_to b64 (IZR E / U)) (IZR V / U)) with (clock_to b64 (IZR E / U) (Nat.iter n (clock_to b64 (IZR E / U)) (IZR V / U))). rewrite R, clock_to_short by (unfold epoch_tick in *; auto; lia). exists (land E L). split; auto.
      destruct (land_spec E L) as [S|(_ & _ & Ev & D)]; [exfalso; apply (land_moves E L); auto|].
      unfold epoch_tick, short in *. split; [lia|]. split; [auto|lia]. }
  destruct G as (L & -> & _ & EL & _). intros Q. apply tick_inj in Q. congruence.
Qed.
Lemma tick_sep E V : Rabs (IZR E * / U - IZR V * / U) * 86400 <= 300 -> (Z.abs (E - V) <= short)%Z.
Proof.
  intros H. assert (P := U_pos). assert (D : Rabs (IZR E * / U - IZR V * / U) <= 300 / 86400) by lra.
  apply Rabs_le_inv in D. unfold U in D. unfold short.
  assert (A : -477218589 < IZR (E - V) < 477218589) by (rewrite minus_IZR; lra). destruct A as [A B].
  apply lt_IZR in A. apply lt_IZR in B. lia.
Qed.
Lemma tick_epoch m a b : (4535485464576000 <= a)%Z -> (b <= 8933531975680000)%Z -> IZR a / U <= IZR m * / U <= IZR b / U ->
  (a <= m <= b)%Z.
Proof.
  intros _ _ [A B]. assert (P := Rinv_0_lt_compat _ U_pos). split; apply le_IZR; apply Rmult_le_reg_r with (/ U); auto.
Qed.
Lemma landing_single E V :
  33000 <= IZR E * / 137438953472 <= 65000 -> 33000 <= IZR V * / 137438953472 <= 65000 ->
  Rabs (IZR E * / 137438953472 - IZR V * / 137438953472) * 86400 <= 300 ->
  exists L : Z, clock_to b64 (IZR E * / 137438953472) (IZR V * / 137438953472) = IZR L * / 137438953472 /\
  (L = E <-> Z.even V = false \/ Z.even E = true) /\ (L = E \/ Z.abs (L - E) = 1)%Z.
Proof.
  intros HE HV HK. apply landing_short.
  - unfold epoch_tick. split; apply le_IZR; lra.
  - unfold epoch_tick. split; apply le_IZR; lra.
  - apply tick_sep. exact HK.
Qed.
Lemma never_level_ticks E V : Z.even E = false -> Z.even V = true ->
  33001 <= IZR E * / 137438953472 <= 64999 -> 33001 <= IZR V * / 137438953472 <= 64999 ->
  Rabs (IZR E * / 137438953472 - IZR V * / 137438953472) * 86400 <= 300 ->
  forall n, Nat.iter n (clock_to b64 (IZR E * / 137438953472)) (IZR V * / 137438953472) <> IZR E * / 137438953472.
Proof.
  intros OE EV HE HV HK. apply (never_level E V); auto.
  - unfold epoch_tick. split; apply le_IZR; rewrite minus_IZR; lra.
  - unfold epoch_tick. split; apply le_IZR; rewrite plus_IZR; lra.
  - unfold epoch_tick. split; apply le_IZR; lra.
  - apply tick_sep. exact HK.
Qed.
Lemma landing_refuted : exists e v, b64 e = e /\ b64 v = v /\
  33000 <= e <= 65000 /\ 33000 <= v <= 65000 /\ clock_to b64 e v <> e.
Proof.
  exists (IZR 8246337208320001 / U), (IZR 8246337208320002 / U).
  split; [apply b64_grid; lia|]. split; [apply b64_grid; lia|]. split; [unfold U; lra|]. split; [unfold U; lra|].
  apply (never_level 8246337208320001 8246337208320002) with (n := 1%nat); try reflexivity; unfold epoch_tick, short; lia.
Qed.
