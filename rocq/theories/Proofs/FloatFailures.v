From Coq Require Import Reals ZArith Lra Lia Bool.
From Flocq Require Import Core.
From Verif.Model Require Import Num Constants Linalg Functions Time Celestial Positions States Elements TimeFloat AngleFloat ElementsFloat PositionsFloat.
From Verif.Proofs Require Import NumLemmas TimeFloatProofs AngleFloatProofs.
From Verif.Proofs Require Import FloatEval.
Local Open Scope R_scope.

Lemma div_exact a b : sgn b = Some Gt -> pdiv_b64 (exact a) (exact b) = Ok (exact (FDiv a b)).
Proof. intros H. assert (S := sgn_spec b). rewrite H in S. unfold pdiv_b64, pdiv, neq. destruct (Req_EM_T (exact b) 0); [lra|reflexivity]. Qed.
Lemma sqrt_raises a : sgn a = Some Lt -> psqrt_b64 (exact a) = Err ValueError.
Proof. intros H. assert (S := sgn_spec a). rewrite H in S. unfold psqrt_b64, psqrt, nlt. destruct (Rlt_dec (exact a) 0); [reflexivity|lra]. Qed.

Record evec := EV { ex : fexpr; ey : fexpr; ez : fexpr }.
Definition ev (a : evec) : vec3 := V3 (exact (ex a)) (exact (ey a)) (exact (ez a)).
Definition edot (a b : evec) := FAdd (FAdd (FMul (ex a) (ex b)) (FMul (ey a) (ey b))) (FMul (ez a) (ez b)).
Definition ecross (a b : evec) := EV (FSub (FMul (ey a) (ez b)) (FMul (ez a) (ey b)))
  (FSub (FMul (ez a) (ex b)) (FMul (ex a) (ez b))) (FSub (FMul (ex a) (ey b)) (FMul (ey a) (ex b))).
Definition emag (a : evec) := FSqrt (edot a a).
Definition emu := FDiv (FZ 3986004418) (FZ 10000).
Lemma exact_Z z : (Z.abs z <= 9007199254740992)%Z -> exact (FZ z) = IZR z.
Proof. apply b64_IZR. Qed.
Lemma emu_ok : exact emu = MU_b64.
Proof.
  unfold emu, MU_b64. change (exact (FDiv (FZ 3986004418) (FZ 10000))) with (b64 (exact (FZ 3986004418) / exact (FZ 10000))).
  rewrite !exact_Z by lia. reflexivity.
Qed.
Lemma emag_ok a : v3_magnitude_b64 (ev a) = exact (emag a).
Proof. reflexivity. Qed.
Lemma ecross_ok a b : v3_cross_b64 (ev a) (ev b) = ev (ecross a b).
Proof. reflexivity. Qed.

Definition eD r v := FSub (FDiv (FZ 2) (emag r)) (FDiv (FMul (emag v) (emag v)) emu).
Definition eA r v := FDiv (FZ 1) (eD r v).
Definition eP r v := FDiv (FMul (emag (ecross r v)) (emag (ecross r v))) emu.
Definition eArg r v := FSub (FZ 1) (FDiv (eP r v) (eA r v)).

Lemma circular_raises L t r v : 
  sgn (emag (ecross r v)) = Some Gt -> sgn (emag r) = Some Gt -> sgn emu = Some Gt ->
  sgn (eD r v) = Some Gt -> sgn (eA r v) = Some Gt -> sgn (eArg r v) = Some Lt ->
  elements_from_ijk_b64 L (State t (ev r) (ev v)) = Err ValueError.
Proof.
  intros Hh Hr Hm HD HA HE. unfold elements_from_ijk_b64. cbn [s_position s_velocity].
  rewrite ecross_ok. unfold v3_normalized_b64. rewrite !emag_ok.
  rewrite <- (exact_Z 1) at 1 by lia. rewrite div_exact by auto. cbn [bind].
  unfold A_from_mu_r_v_b64, P_from_mu_h_b64, E_from_a_p_b64. rewrite <- emu_ok.
  rewrite <- (exact_Z 2) at 1 by lia. rewrite div_exact by auto. cbn [bind].
  change (b64 (exact (emag v) * exact (emag v))) with (exact (FMul (emag v) (emag v))). rewrite div_exact by auto. cbn [bind].
  change (b64 (exact (FDiv (FZ 2) (emag r)) - exact (FDiv (FMul (emag v) (emag v)) emu))) with (exact (eD r v)).
  rewrite <- (exact_Z 1) at 1 by lia. rewrite div_exact by auto. cbn [bind].
  match goal with |- context [pdiv_b64 (b64 (exact ?m * exact ?m)) _] => change (b64 (exact m * exact m)) with (exact (FMul m m)) end.
  rewrite div_exact by auto. cbn [bind]. fold (eA r v) (eP r v). rewrite (div_exact (eP r v) (eA r v)) by auto. cbn [bind].
  rewrite <- (exact_Z 1) at 1 by lia.
  change (b64 (exact (FZ 1) - exact (FDiv (eP r v) (eA r v)))) with (exact (eArg r v)). rewrite sqrt_raises by auto. reflexivity.
Qed.

Definition circ (z : Z) : evec * evec := (EV (FZ z) (FZ 0) (FZ 0), EV (FZ 0) (FSqrt (FDiv emu (FZ z))) (FZ 0)).
Lemma circular z L t : (Z.abs z <= 9007199254740992)%Z ->
  let r := fst (circ z) in let v := snd (circ z) in
  sgn (emag (ecross r v)) = Some Gt -> sgn (emag r) = Some Gt -> sgn emu = Some Gt ->
  sgn (eD r v) = Some Gt -> sgn (eA r v) = Some Gt -> sgn (eArg r v) = Some Lt ->
  elements_from_ijk_b64 L (State t (V3 (IZR z) 0 0) (V3 0 (b64 (sqrt (b64 (MU_b64 / IZR z)))) 0)) = Err ValueError.
Proof.
  intros Hz r v H1 H2 H3 H4 H5 H6. rewrite <- (circular_raises L t r v) by auto. f_equal.
  unfold r, v, circ, fst, snd, ev. cbn [ex ey ez].
  change (exact (FSqrt (FDiv emu (FZ z)))) with (b64 (sqrt (b64 (exact emu / exact (FZ z))))).
  rewrite emu_ok, !exact_Z by (auto; lia). reflexivity.
Qed.
Lemma circular_7000 L t : elements_from_ijk_b64 L (State t (V3 7000 0 0) (V3 0 (b64 (sqrt (b64 (MU_b64 / 7000)))) 0)) = Err ValueError.
Proof. apply (circular 7000); [lia|vm_compute; reflexivity..]. Qed.
Lemma circular_42164 L t : elements_from_ijk_b64 L (State t (V3 42164 0 0) (V3 0 (b64 (sqrt (b64 (MU_b64 / 42164)))) 0)) = Err ValueError.
Proof. apply (circular 42164); [lia|vm_compute; reflexivity..]. Qed.
Lemma sqrt_exact a : match sgn a with Some Lt | None => false | _ => true end = true -> psqrt_b64 (exact a) = Ok (exact (FSqrt a)).
Proof.
  intros H. assert (S := sgn_spec a). unfold psqrt_b64, psqrt, nlt. destruct (Rlt_dec (exact a) 0); [|reflexivity].
  destruct (sgn a) as [[| |]|]; try discriminate; lra.
Qed.
Lemma above_exact a : sgn (FSub a (FZ 1)) = Some Gt -> 1 < exact a.
Proof.
  intros H. assert (S := sgn_spec (FSub a (FZ 1))). rewrite H in S. cbn [exact] in S. change (b64 (IZR 1)) with (exact (FZ 1)) in S. rewrite exact_Z in S by lia.
  destruct (Rlt_dec 1 (exact a)); auto. assert (B := b64_mono (exact a - 1) 0 ltac:(lra)). rewrite b64_0 in B. lra.
Qed.

Lemma keep_exact b : match sgn b with Some Lt | None => false | _ => true end = true ->
  (if nlt (exact b) (exact (FZ 0)) then exact (FZ 0) else exact b) = exact b.
Proof.
  intros H. assert (S := sgn_spec b). unfold nlt. destruct (Rlt_dec (exact b) (exact (FZ 0))) as [D|D]; auto. rewrite exact_Z in D by lia.
  destruct (sgn b) as [[| |]|]; try discriminate; lra.
Qed.

Definition eR := FDiv (FZ 6378137) (FZ 1000).
Definition eF := FDiv (FZ 1) (FDiv (FZ 2982572235) (FZ 10000000)).
Lemma eR_ok : RADIUS_b64 = exact eR.
Proof. unfold eR. change (exact (FDiv (FZ 6378137) (FZ 1000))) with (b64 (exact (FZ 6378137) / exact (FZ 1000))). rewrite !exact_Z by lia. reflexivity. Qed.
Lemma eF_ok : FLATTENING_b64 = exact eF.
Proof.
  unfold eF. change (exact (FDiv (FZ 1) (FDiv (FZ 2982572235) (FZ 10000000)))) with (b64 (exact (FZ 1) / b64 (exact (FZ 2982572235) / exact (FZ 10000000)))).
  rewrite !exact_Z by lia. reflexivity.
Qed.
Lemma quarter : 0.25 = exact (FDiv (FZ 1) (FZ 4)).
Proof.
  change (exact (FDiv (FZ 1) (FZ 4))) with (b64 (exact (FZ 1) / exact (FZ 4))). rewrite !exact_Z by lia.
  symmetry. replace (1 / 4) with (/ 4) by lra. replace 0.25 with (/ 4) by lra. change (/ 4) with (bpow radix2 (-2)).
  apply round_generic; [apply valid_rnd_N|]. apply generic_format_bpow. vm_compute. discriminate.
Qed.

Ltac reif := repeat match goal with
  | |- context [b64 (exact ?a + exact ?b)] => change (b64 (exact a + exact b)) with (exact (FAdd a b))
  | |- context [b64 (exact ?a - exact ?b)] => change (b64 (exact a - exact b)) with (exact (FSub a b))
  | |- context [b64 (exact ?a * exact ?b)] => change (b64 (exact a * exact b)) with (exact (FMul a b))
  | |- context [b64 (sqrt (exact ?a))] => change (b64 (sqrt (exact a))) with (exact (FSqrt a))
  end.
Ltac step := reif; match goal with
  | |- bind (pdiv_b64 (exact ?a) (exact ?b)) _ = _ => rewrite (div_exact a b) by (vm_compute; reflexivity); let n := fresh "e" in set (n := FDiv a b)
  | |- bind (psqrt_b64 (exact ?a)) _ = _ => rewrite (sqrt_exact a) by (vm_compute; reflexivity); let n := fresh "e" in set (n := FSqrt a)
  end; cbn [bind].

Lemma pole_7000 L : powf L 1 (b64 (2 / 3)) = 1 -> itrf_to_lla_b64 L (V3 0 0 7000) = Err ValueError.
Proof.
  unfold itrf_to_lla_b64. generalize (b64 (2 / 3)). intros c HP. cbn [x3 y3 z3].
  assert (AB : nabs 7000 = 7000) by (unfold nabs; apply Rabs_pos_eq; lra).
  assert (SG : sign 7000 = 1) by (unfold sign, nlt; destruct (Rlt_dec 0 7000); [reflexivity|lra]). rewrite AB, SG, eR_ok, eF_ok, quarter.
  rewrite <- (exact_Z 0), <- (exact_Z 1), <- (exact_Z 2), <- (exact_Z 6), <- (exact_Z 7000), <- (exact_Z 27) by lia.
  step. step. step. step. step. step. step. step. step. step. reif.
  match goal with |- bind (ppow_b64 _ (exact ?a) _) _ = _ => assert (E1 : exact a = 1) by (rewrite <- (exact_Z 1) by lia; apply feq_spec; vm_compute; reflexivity); rewrite E1 end.
  assert (PW : ppow_b64 L 1 c = Ok (exact (FZ 1))).
  { unfold ppow_b64, nlt. destruct (Rlt_dec 0 1); [|lra]. rewrite HP, exact_Z by lia. reflexivity. }
  rewrite PW. cbn [bind]. step. step. step. step. step. step. reif.
  match goal with |- context [if nlt (exact ?b) ?o then ?o else exact ?b] => rewrite (keep_exact b) by (vm_compute; reflexivity) end.
  step. step. step. step. reif.
  match goal with |- bind (pasin_b64 _ (exact ?a)) _ = _ => assert (G : 1 < exact a) by (apply above_exact; vm_compute; reflexivity);
    unfold pasin_b64, nlt; destruct (Rlt_dec 1 (exact a)); [|contradiction] end.
  rewrite orb_true_r. reflexivity.
Qed.
Lemma pole_42000 L : powf L 1 (b64 (2 / 3)) = 1 -> itrf_to_lla_b64 L (V3 0 0 42000) = Err ValueError.
Proof.
  unfold itrf_to_lla_b64. generalize (b64 (2 / 3)). intros c HP. cbn [x3 y3 z3].
  assert (AB : nabs 42000 = 42000) by (unfold nabs; apply Rabs_pos_eq; lra).
  assert (SG : sign 42000 = 1) by (unfold sign, nlt; destruct (Rlt_dec 0 42000); [reflexivity|lra]). rewrite AB, SG, eR_ok, eF_ok, quarter.
  rewrite <- (exact_Z 0), <- (exact_Z 1), <- (exact_Z 2), <- (exact_Z 6), <- (exact_Z 42000), <- (exact_Z 27) by lia.
  step. step. step. step. step. step. step. step. step. step. reif.
  match goal with |- bind (ppow_b64 _ (exact ?a) _) _ = _ => assert (E1 : exact a = 1) by (rewrite <- (exact_Z 1) by lia; apply feq_spec; vm_compute; reflexivity); rewrite E1 end.
  assert (PW : ppow_b64 L 1 c = Ok (exact (FZ 1))).
  { unfold ppow_b64, nlt. destruct (Rlt_dec 0 1); [|lra]. rewrite HP, exact_Z by lia. reflexivity. }
  rewrite PW. cbn [bind]. step. step. step. step. step. step. reif.
  match goal with |- context [if nlt (exact ?b) ?o then ?o else exact ?b] => rewrite (keep_exact b) by (vm_compute; reflexivity) end.
  step. step. step. step. reif.
  match goal with |- bind (pasin_b64 _ (exact ?a)) _ = _ => assert (G : 1 < exact a) by (apply above_exact; vm_compute; reflexivity);
    unfold pasin_b64, nlt; destruct (Rlt_dec 1 (exact a)); [|contradiction] end.
  rewrite orb_true_r. reflexivity.
Qed.
