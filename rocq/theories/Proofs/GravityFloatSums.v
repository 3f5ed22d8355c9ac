From Coq Require Import Reals ZArith List Lra Lia Psatz.
From Flocq Require Import Core.
From Verif.Model Require Import Num Constants Linalg Functions Time Celestial Positions States TimeFloat AngleFloat ElementsFloat FrameFloat GroundFloat EarthFloat BodyFloat ForceFloat GravityFloat.
From Verif.Spec Require Import Geometry LibmAccuracy FrameFloat SiderealFloat EarthFloat GroundFloat.
From Verif.Proofs Require Import NumLemmas ElementsFloatProofs.
From Verif.Proofs Require Import GravityFloatBasics.
Local Open Scope R_scope.

Lemma sums_close L tanf w t sphr' sphr rr' rr : unit_range w -> 1e-30 <= t -> gb w 1 1 1.47 (cosf L (declination sphr')) (cos (declination sphr)) -> gb w 1 1 1.47 (sinf L (declination sphr')) (sin (declination sphr)) -> gb w 1 10.03 207 (tanf (declination sphr')) (tan (declination sphr)) -> gb w 1 1 1e-3 (cosf L (b64 (of_nat 0 * right_ascension sphr'))) (cos (of_nat 0 * right_ascension sphr)) -> gb w 1 1 1.4432e1 (cosf L (b64 (of_nat 1 * right_ascension sphr'))) (cos (of_nat 1 * right_ascension sphr)) -> gb w 1 1 2.8862e1 (cosf L (b64 (of_nat 2 * right_ascension sphr'))) (cos (of_nat 2 * right_ascension sphr)) -> gb w 1 1 4.3292e1 (cosf L (b64 (of_nat 3 * right_ascension sphr'))) (cos (of_nat 3 * right_ascension sphr)) -> gb w 1 1 5.7722e1 (cosf L (b64 (of_nat 4 * right_ascension sphr'))) (cos (of_nat 4 * right_ascension sphr)) -> gb w 1 1 1e-3 (sinf L (b64 (of_nat 0 * right_ascension sphr'))) (sin (of_nat 0 * right_ascension sphr)) -> gb w 1 1 1.4432e1 (sinf L (b64 (of_nat 1 * right_ascension sphr'))) (sin (of_nat 1 * right_ascension sphr)) -> gb w 1 1 2.8862e1 (sinf L (b64 (of_nat 2 * right_ascension sphr'))) (sin (of_nat 2 * right_ascension sphr)) -> gb w 1 1 4.3292e1 (sinf L (b64 (of_nat 3 * right_ascension sphr'))) (sin (of_nat 3 * right_ascension sphr)) -> gb w 1 1 5.7722e1 (sinf L (b64 (of_nat 4 * right_ascension sphr'))) (sin (of_nat 4 * right_ascension sphr)) -> gb w t 1 2e-5 (powf L rr' (of_nat 2)) (npow rr 2) -> gb w t 1 4e-5 (powf L rr' (of_nat 3)) (npow rr 3) -> gb w t 1 6e-5 (powf L rr' (of_nat 4)) (npow rr 4) ->
  let s' := gravity_sums_b64 L tanf sphr' (LegendrePolynomial_b64 L (declination sphr')) rr' in
  let s := gravity_sums sphr (LegendrePolynomial (declination sphr)) rr in
  gb w t 3.7510e-3 2.5856e-2 (partial_r s') (partial_r s) /\ gb w t 3.2684e-3 9.1361e-2 (partial_phi s') (partial_phi s) /\
  gb w t 1.4510e-4 4.8244e-3 (partial_lamb s') (partial_lamb s).
Proof.
  intros W T HC HS HT HC0 HC1 HC2 HC3 HC4 HS0 HS1 HS2 HS3 HS4 HE2 HE3 HE4 s' s. subst s' s.
  assert (k1 := glit w 0.5 W ltac:(lra)).
  assert (k2 := glit w 1 W ltac:(lra)).
  assert (k3 := glit w 3 W ltac:(lra)).
  assert (k4 := glit w 5 W ltac:(lra)).
  assert (k5 := glit w 15 W ltac:(lra)).
  assert (k6 := glit w 35 W ltac:(lra)).
  assert (k7 := glit w 30 W ltac:(lra)).
  assert (k8 := glit w 7 W ltac:(lra)).
  assert (k9 := glit w 2.5 W ltac:(lra)).
  assert (k10 := glit w 7.5 W ltac:(lra)).
  assert (k11 := glit w 105 W ltac:(lra)).
  assert (k12 := glit w 0.125 W ltac:(lra)).
  assert (h13 := gmul_1 w _ _ _ _ _ _ _ _ W HC HC 1.0001e0 2.9401e0 ltac:(clear; lra) ltac:(clear; lra) ltac:(clear; lra) ltac:(clear; lra)).
  assert (h14 := gmul_1 w _ _ _ _ _ _ _ _ W HS HS 1.0001e0 2.9401e0 ltac:(clear; lra) ltac:(clear; lra) ltac:(clear; lra) ltac:(clear; lra)).
  assert (TR := sin2_cos2 (declination sphr)). unfold Rsqr in TR. set (co := cos (declination sphr)) in *. set (si := sin (declination sphr)) in *.
  assert (h15 := gmul_1 w _ _ _ _ _ _ _ _ W k3 h14 3.0004e0 8.8204e0 ltac:(clear; lra) ltac:(clear; lra) ltac:(clear; lra) ltac:(clear; lra)).
  assert (h16 := gsub w 1 _ _ _ _ _ _ _ _ W one_ok h15 k2 4.0005e0 8.8205e0 ltac:(clear; lra) ltac:(clear; lra) ltac:(clear; lra) ltac:(clear; lra)).
  assert (h17 := gmul_1 w _ _ _ _ _ _ _ _ W h16 k1 2.0003e0 4.4103e0 ltac:(clear; lra) ltac:(clear; lra) ltac:(clear; lra) ltac:(clear; lra)).
  assert (h18 := gb_tight _ _ _ 1 _ _ _ h17 ltac:(clearbody co si; rewrite Rmult_1_r; apply Rabs_le; clear - TR; split; nra)).
  assert (h19 := gmul_1 w _ _ _ _ _ _ _ _ W k3 HS 3.0001e0 4.4101e0 ltac:(clear; lra) ltac:(clear; lra) ltac:(clear; lra) ltac:(clear; lra)).
  assert (h20 := gmul_1 w _ _ _ _ _ _ _ _ W h19 HC 3.0002e0 8.8203e0 ltac:(clear; lra) ltac:(clear; lra) ltac:(clear; lra) ltac:(clear; lra)).
  assert (h21 := gb_tight _ _ _ 1.5 _ _ _ h20 ltac:(clearbody co si; rewrite Rmult_1_r; apply Rabs_le; clear - TR; assert (Z1 := Rle_0_sqr (si + co)); assert (Z2 := Rle_0_sqr (si - co)); unfold Rsqr in *; lra)).
  assert (h22 := gmul_1 w _ _ _ _ _ _ _ _ W k3 h13 3.0004e0 8.8204e0 ltac:(clear; lra) ltac:(clear; lra) ltac:(clear; lra) ltac:(clear; lra)).
  assert (h23 := gmul_1 w _ _ _ _ _ _ _ _ W k4 h14 5.0006e0 1.4701e1 ltac:(clear; lra) ltac:(clear; lra) ltac:(clear; lra) ltac:(clear; lra)).
  assert (h24 := gsub w 1 _ _ _ _ _ _ _ _ W one_ok h23 k3 8.0007e0 1.4702e1 ltac:(clear; lra) ltac:(clear; lra) ltac:(clear; lra) ltac:(clear; lra)).
  assert (h25 := gmul_1 w _ _ _ _ _ _ _ _ W HS h24 8.0008e0 2.6464e1 ltac:(clear; lra) ltac:(clear; lra) ltac:(clear; lra) ltac:(clear; lra)).
  assert (h26 := gmul_1 w _ _ _ _ _ _ _ _ W h25 k1 4.0005e0 1.3233e1 ltac:(clear; lra) ltac:(clear; lra) ltac:(clear; lra) ltac:(clear; lra)).
  assert (h27 := gmul_1 w _ _ _ _ _ _ _ _ W k5 h14 1.5002e1 4.4102e1 ltac:(clear; lra) ltac:(clear; lra) ltac:(clear; lra) ltac:(clear; lra)).
  assert (h28 := gsub w 1 _ _ _ _ _ _ _ _ W one_ok h27 k3 1.8003e1 4.4103e1 ltac:(clear; lra) ltac:(clear; lra) ltac:(clear; lra) ltac:(clear; lra)).
  assert (h29 := gmul_1 w _ _ _ _ _ _ _ _ W h28 HC 1.8004e1 7.0568e1 ltac:(clear; lra) ltac:(clear; lra) ltac:(clear; lra) ltac:(clear; lra)).
  assert (h30 := gmul_1 w _ _ _ _ _ _ _ _ W h29 k1 9.0021e0 3.5285e1 ltac:(clear; lra) ltac:(clear; lra) ltac:(clear; lra) ltac:(clear; lra)).
  assert (h31 := gmul_1 w _ _ _ _ _ _ _ _ W k5 HS 1.5001e1 2.2051e1 ltac:(clear; lra) ltac:(clear; lra) ltac:(clear; lra) ltac:(clear; lra)).
  assert (h32 := gmul_1 w _ _ _ _ _ _ _ _ W h31 h13 1.5003e1 6.6158e1 ltac:(clear; lra) ltac:(clear; lra) ltac:(clear; lra) ltac:(clear; lra)).
  assert (h33 := gmul_1 w _ _ _ _ _ _ _ _ W k5 h13 1.5002e1 4.4102e1 ltac:(clear; lra) ltac:(clear; lra) ltac:(clear; lra) ltac:(clear; lra)).
  assert (h34 := gmul_1 w _ _ _ _ _ _ _ _ W h33 HC 1.5003e1 6.6155e1 ltac:(clear; lra) ltac:(clear; lra) ltac:(clear; lra) ltac:(clear; lra)).
  assert (h35 := gmul_1 w _ _ _ _ _ _ _ _ W k6 h14 3.5004e1 1.0291e2 ltac:(clear; lra) ltac:(clear; lra) ltac:(clear; lra) ltac:(clear; lra)).
  assert (h36 := gmul_1 w _ _ _ _ _ _ _ _ W h35 h14 3.5008e1 2.0584e2 ltac:(clear; lra) ltac:(clear; lra) ltac:(clear; lra) ltac:(clear; lra)).
  assert (h37 := gmul_1 w _ _ _ _ _ _ _ _ W k7 h14 3.0004e1 8.8204e1 ltac:(clear; lra) ltac:(clear; lra) ltac:(clear; lra) ltac:(clear; lra)).
  assert (h38 := gsub w 1 _ _ _ _ _ _ _ _ W one_ok h36 h37 6.5013e1 2.9405e2 ltac:(clear; lra) ltac:(clear; lra) ltac:(clear; lra) ltac:(clear; lra)).
  assert (h39 := gadd w 1 _ _ _ _ _ _ _ _ W one_ok h38 k3 6.8014e1 2.9406e2 ltac:(clear; lra) ltac:(clear; lra) ltac:(clear; lra) ltac:(clear; lra)).
  assert (h40 := gmul_1 w _ _ _ _ _ _ _ _ W k12 h39 8.5018e0 3.6758e1 ltac:(clear; lra) ltac:(clear; lra) ltac:(clear; lra) ltac:(clear; lra)).
  assert (h41 := gmul_1 w _ _ _ _ _ _ _ _ W k8 h14 7.0008e0 2.0581e1 ltac:(clear; lra) ltac:(clear; lra) ltac:(clear; lra) ltac:(clear; lra)).
  assert (h42 := gmul_1 w _ _ _ _ _ _ _ _ W h41 HS 7.0009e0 3.0873e1 ltac:(clear; lra) ltac:(clear; lra) ltac:(clear; lra) ltac:(clear; lra)).
  assert (h43 := gmul_1 w _ _ _ _ _ _ _ _ W k3 HS 3.0001e0 4.4101e0 ltac:(clear; lra) ltac:(clear; lra) ltac:(clear; lra) ltac:(clear; lra)).
  assert (h44 := gsub w 1 _ _ _ _ _ _ _ _ W one_ok h42 h43 1.0002e1 3.5284e1 ltac:(clear; lra) ltac:(clear; lra) ltac:(clear; lra) ltac:(clear; lra)).
  assert (h45 := gmul_1 w _ _ _ _ _ _ _ _ W k9 h44 2.5006e1 8.8211e1 ltac:(clear; lra) ltac:(clear; lra) ltac:(clear; lra) ltac:(clear; lra)).
  assert (h46 := gmul_1 w _ _ _ _ _ _ _ _ W h45 HC 2.5007e1 1.2497e2 ltac:(clear; lra) ltac:(clear; lra) ltac:(clear; lra) ltac:(clear; lra)).
  assert (h47 := gmul_1 w _ _ _ _ _ _ _ _ W k8 h14 7.0008e0 2.0581e1 ltac:(clear; lra) ltac:(clear; lra) ltac:(clear; lra) ltac:(clear; lra)).
  assert (h48 := gsub w 1 _ _ _ _ _ _ _ _ W one_ok h47 k2 8.0009e0 2.0582e1 ltac:(clear; lra) ltac:(clear; lra) ltac:(clear; lra) ltac:(clear; lra)).
  assert (h49 := gmul_1 w _ _ _ _ _ _ _ _ W h48 h13 8.0018e0 4.4108e1 ltac:(clear; lra) ltac:(clear; lra) ltac:(clear; lra) ltac:(clear; lra)).
  assert (h50 := gmul_1 w _ _ _ _ _ _ _ _ W h49 k10 6.0014e1 3.3082e2 ltac:(clear; lra) ltac:(clear; lra) ltac:(clear; lra) ltac:(clear; lra)).
  assert (h51 := gmul_1 w _ _ _ _ _ _ _ _ W k11 HC 1.0501e2 1.5436e2 ltac:(clear; lra) ltac:(clear; lra) ltac:(clear; lra) ltac:(clear; lra)).
  assert (h52 := gmul_1 w _ _ _ _ _ _ _ _ W h51 h13 1.0503e2 4.6312e2 ltac:(clear; lra) ltac:(clear; lra) ltac:(clear; lra) ltac:(clear; lra)).
  assert (h53 := gmul_1 w _ _ _ _ _ _ _ _ W h52 HS 1.0504e2 6.1752e2 ltac:(clear; lra) ltac:(clear; lra) ltac:(clear; lra) ltac:(clear; lra)).
  assert (h54 := gmul_1 w _ _ _ _ _ _ _ _ W k11 h13 1.0502e2 3.0872e2 ltac:(clear; lra) ltac:(clear; lra) ltac:(clear; lra) ltac:(clear; lra)).
  assert (h55 := gmul_1 w _ _ _ _ _ _ _ _ W h54 h13 1.0504e2 6.1753e2 ltac:(clear; lra) ltac:(clear; lra) ltac:(clear; lra) ltac:(clear; lra)).
  assert (k56 : gb w 1 1e-6 0 0 0) by (apply gb_exact; [exact W|lra|rewrite Rabs_R0; lra]).
  assert (k57 : gb w t 1e-6 0 0 0) by (apply gb_exact; [exact W|lra|rewrite Rabs_R0; lra]).
  assert (k58 : gb w 1 1e-9 0 0 0) by (apply gb_exact; [exact W|lra|rewrite Rabs_R0; lra]).
  assert (k59 : gb w 1 1e-6 0 (of_nat 0) (of_nat 0)) by (apply gb_exact; [exact W|lra|rewrite (Rabs_pos_eq (of_nat 0)); cbn; lra]).
  assert (k60 : gb w 1 1 0 (of_nat 1) (of_nat 1)) by (apply gb_exact; [exact W|lra|rewrite (Rabs_pos_eq (of_nat 1)); cbn; lra]).
  assert (k61 : gb w 1 2 0 (of_nat 2) (of_nat 2)) by (apply gb_exact; [exact W|lra|rewrite (Rabs_pos_eq (of_nat 2)); cbn; lra]).
  assert (k62 : gb w 1 3 0 (of_nat 3) (of_nat 3)) by (apply gb_exact; [exact W|lra|rewrite (Rabs_pos_eq (of_nat 3)); cbn; lra]).
  assert (k63 : gb w 1 4 0 (of_nat 4) (of_nat 4)) by (apply gb_exact; [exact W|lra|rewrite (Rabs_pos_eq (of_nat 4)); cbn; lra]).
  assert (k64 : gb w 1 3 0 (of_nat 2 + 1) (of_nat 2 + 1)) by (apply gb_exact; [exact W|lra|rewrite (Rabs_pos_eq (of_nat 2 + 1)); cbn; lra]).
  assert (k65 : gb w 1 4 0 (of_nat 3 + 1) (of_nat 3 + 1)) by (apply gb_exact; [exact W|lra|rewrite (Rabs_pos_eq (of_nat 3 + 1)); cbn; lra]).
  assert (k66 : gb w 1 5 0 (of_nat 4 + 1) (of_nat 4 + 1)) by (apply gb_exact; [exact W|lra|rewrite (Rabs_pos_eq (of_nat 4 + 1)); cbn; lra]).
  assert (k67 : gb w 1 1.0827e-3 1.4076e-8 (coefficient_b64 (-0.484165143790815e-3) (b64 0.2)) (-0.484165143790815e-3 / sqrt 0.2)) by (apply (coef_gb_d w (-0.484165143790815e-3) 0.2 (b64 0.2) 0.44721 1.0827e-3 1.4076e-8); [exact W|exact (b64_near_pos 0.2 ltac:(lra))|lra|lra|lra|abs_lit|abs_lit|lra|lra]).
  assert (h68 := gmul_1 w _ _ _ _ _ _ _ _ W k67 HC0 1.0828e-3 1.0986e-6 ltac:(clear; lra) ltac:(clear; lra) ltac:(clear; lra) ltac:(clear; lra)).
  assert (h69 := gmul_1 w _ _ _ _ _ _ _ _ W k58 HS0 1.0001e-9 1.0017e-12 ltac:(clear; lra) ltac:(clear; lra) ltac:(clear; lra) ltac:(clear; lra)).
  assert (h70 := gadd w 1 _ _ _ _ _ _ _ _ W one_ok h68 h69 1.0829e-3 1.1004e-6 ltac:(clear; lra) ltac:(clear; lra) ltac:(clear; lra) ltac:(clear; lra)).
  assert (h71 := gmul_1 w _ _ _ _ _ _ _ _ W k58 HC0 1.0001e-9 1.0017e-12 ltac:(clear; lra) ltac:(clear; lra) ltac:(clear; lra) ltac:(clear; lra)).
  assert (h72 := gmul_1 w _ _ _ _ _ _ _ _ W k67 HS0 1.0828e-3 1.0986e-6 ltac:(clear; lra) ltac:(clear; lra) ltac:(clear; lra) ltac:(clear; lra)).
  assert (h73 := gsub w 1 _ _ _ _ _ _ _ _ W one_ok h71 h72 1.0829e-3 1.1004e-6 ltac:(clear; lra) ltac:(clear; lra) ltac:(clear; lra) ltac:(clear; lra)).
  assert (h74 := gmul_l w t _ _ _ _ _ _ _ _ W T HE2 k64 3.0001e0 6.4801e-5 ltac:(clear; lra) ltac:(clear; lra) ltac:(clear; lra) ltac:(clear; lra)).
  assert (h75 := gmul_l w t _ _ _ _ _ _ _ _ W T h74 h18 3.0002e0 1.3232e1 ltac:(clear; lra) ltac:(clear; lra) ltac:(clear; lra) ltac:(clear; lra)).
  assert (h76 := gmul_l w t _ _ _ _ _ _ _ _ W T h75 h70 3.2490e-3 1.4333e-2 ltac:(clear; lra) ltac:(clear; lra) ltac:(clear; lra) ltac:(clear; lra)).
  assert (h77 := gadd w t _ _ _ _ _ _ _ _ W T k57 h76 3.2501e-3 1.4334e-2 ltac:(clear; lra) ltac:(clear; lra) ltac:(clear; lra) ltac:(clear; lra)).
  assert (h78 := gmul_1 w _ _ _ _ _ _ _ _ W k59 HT 1.0031e-5 2.0701e-4 ltac:(clear; lra) ltac:(clear; lra) ltac:(clear; lra) ltac:(clear; lra)).
  assert (h79 := gmul_1 w _ _ _ _ _ _ _ _ W h78 h18 1.0032e-5 2.5125e-4 ltac:(clear; lra) ltac:(clear; lra) ltac:(clear; lra) ltac:(clear; lra)).
  assert (h80 := gsub w 1 _ _ _ _ _ _ _ _ W one_ok h21 h79 1.5001e0 8.8206e0 ltac:(clear; lra) ltac:(clear; lra) ltac:(clear; lra) ltac:(clear; lra)).
  assert (h81 := gmul_l w t _ _ _ _ _ _ _ _ W T HE2 h80 1.5002e0 8.8207e0 ltac:(clear; lra) ltac:(clear; lra) ltac:(clear; lra) ltac:(clear; lra)).
  assert (h82 := gmul_l w t _ _ _ _ _ _ _ _ W T h81 h70 1.6246e-3 9.5536e-3 ltac:(clear; lra) ltac:(clear; lra) ltac:(clear; lra) ltac:(clear; lra)).
  assert (h83 := gadd w t _ _ _ _ _ _ _ _ W T k57 h82 1.6257e-3 9.5537e-3 ltac:(clear; lra) ltac:(clear; lra) ltac:(clear; lra) ltac:(clear; lra)).
  assert (h84 := gmul_l w t _ _ _ _ _ _ _ _ W T HE2 k59 1.0001e-6 2.1601e-11 ltac:(clear; lra) ltac:(clear; lra) ltac:(clear; lra) ltac:(clear; lra)).
  assert (h85 := gmul_l w t _ _ _ _ _ _ _ _ W T h84 h18 1.0002e-6 4.4108e-6 ltac:(clear; lra) ltac:(clear; lra) ltac:(clear; lra) ltac:(clear; lra)).
  assert (h86 := gmul_l w t _ _ _ _ _ _ _ _ W T h85 h73 1.0832e-9 4.7776e-9 ltac:(clear; lra) ltac:(clear; lra) ltac:(clear; lra) ltac:(clear; lra)).
  assert (h87 := gadd w t _ _ _ _ _ _ _ _ W T k57 h86 1.0011e-6 4.7793e-9 ltac:(clear; lra) ltac:(clear; lra) ltac:(clear; lra) ltac:(clear; lra)).
  assert (k88 : gb w 1 2.6675e-10 3.4678e-15 (coefficient_b64 (-0.206615509074176e-9) (b64 0.6)) (-0.206615509074176e-9 / sqrt 0.6)) by (apply (coef_gb_d w (-0.206615509074176e-9) 0.6 (b64 0.6) 0.77459 2.6675e-10 3.4678e-15); [exact W|exact (b64_near_pos 0.6 ltac:(lra))|lra|lra|lra|abs_lit|abs_lit|lra|lra]).
  assert (k89 : gb w 1 1.7873e-9 2.3235e-14 (coefficient_b64 0.138441389137979e-8 (b64 0.6)) (0.138441389137979e-8 / sqrt 0.6)) by (apply (coef_gb_d w 0.138441389137979e-8 0.6 (b64 0.6) 0.77459 1.7873e-9 2.3235e-14); [exact W|exact (b64_near_pos 0.6 ltac:(lra))|lra|lra|lra|abs_lit|abs_lit|lra|lra]).
  assert (h90 := gmul_1 w _ _ _ _ _ _ _ _ W k88 HC1 2.6676e-10 3.8498e-9 ltac:(clear; lra) ltac:(clear; lra) ltac:(clear; lra) ltac:(clear; lra)).
  assert (h91 := gmul_1 w _ _ _ _ _ _ _ _ W k89 HS1 1.7874e-9 2.5795e-8 ltac:(clear; lra) ltac:(clear; lra) ltac:(clear; lra) ltac:(clear; lra)).
  assert (h92 := gadd w 1 _ _ _ _ _ _ _ _ W one_ok h90 h91 2.0542e-9 2.9645e-8 ltac:(clear; lra) ltac:(clear; lra) ltac:(clear; lra) ltac:(clear; lra)).
  assert (h93 := gmul_1 w _ _ _ _ _ _ _ _ W k89 HC1 1.7874e-9 2.5795e-8 ltac:(clear; lra) ltac:(clear; lra) ltac:(clear; lra) ltac:(clear; lra)).
  assert (h94 := gmul_1 w _ _ _ _ _ _ _ _ W k88 HS1 2.6676e-10 3.8498e-9 ltac:(clear; lra) ltac:(clear; lra) ltac:(clear; lra) ltac:(clear; lra)).
  assert (h95 := gsub w 1 _ _ _ _ _ _ _ _ W one_ok h93 h94 2.0542e-9 2.9645e-8 ltac:(clear; lra) ltac:(clear; lra) ltac:(clear; lra) ltac:(clear; lra)).
  assert (h96 := gmul_l w t _ _ _ _ _ _ _ _ W T HE2 k64 3.0001e0 6.4801e-5 ltac:(clear; lra) ltac:(clear; lra) ltac:(clear; lra) ltac:(clear; lra)).
  assert (h97 := gmul_l w t _ _ _ _ _ _ _ _ W T h96 h21 4.5002e0 2.6462e1 ltac:(clear; lra) ltac:(clear; lra) ltac:(clear; lra) ltac:(clear; lra)).
  assert (h98 := gmul_l w t _ _ _ _ _ _ _ _ W T h97 h92 9.2444e-9 1.8777e-7 ltac:(clear; lra) ltac:(clear; lra) ltac:(clear; lra) ltac:(clear; lra)).
  assert (h99 := gadd w t _ _ _ _ _ _ _ _ W T h77 h98 3.2502e-3 1.4335e-2 ltac:(clear; lra) ltac:(clear; lra) ltac:(clear; lra) ltac:(clear; lra)).
  assert (h100 := gmul_1 w _ _ _ _ _ _ _ _ W k60 HT 1.0031e1 2.0701e2 ltac:(clear; lra) ltac:(clear; lra) ltac:(clear; lra) ltac:(clear; lra)).
  assert (h101 := gmul_1 w _ _ _ _ _ _ _ _ W h100 h21 1.5047e1 3.9900e2 ltac:(clear; lra) ltac:(clear; lra) ltac:(clear; lra) ltac:(clear; lra)).
  assert (h102 := gsub w 1 _ _ _ _ _ _ _ _ W one_ok h22 h101 1.8048e1 4.0783e2 ltac:(clear; lra) ltac:(clear; lra) ltac:(clear; lra) ltac:(clear; lra)).
  assert (h103 := gmul_l w t _ _ _ _ _ _ _ _ W T HE2 h102 1.8049e1 4.0784e2 ltac:(clear; lra) ltac:(clear; lra) ltac:(clear; lra) ltac:(clear; lra)).
  assert (h104 := gmul_l w t _ _ _ _ _ _ _ _ W T h103 h92 3.7077e-8 1.3729e-6 ltac:(clear; lra) ltac:(clear; lra) ltac:(clear; lra) ltac:(clear; lra)).
  assert (h105 := gadd w t _ _ _ _ _ _ _ _ W T h83 h104 1.6258e-3 9.5551e-3 ltac:(clear; lra) ltac:(clear; lra) ltac:(clear; lra) ltac:(clear; lra)).
  assert (h106 := gmul_l w t _ _ _ _ _ _ _ _ W T HE2 k60 1.0001e0 2.1601e-5 ltac:(clear; lra) ltac:(clear; lra) ltac:(clear; lra) ltac:(clear; lra)).
  assert (h107 := gmul_l w t _ _ _ _ _ _ _ _ W T h106 h21 1.5002e0 8.8213e0 ltac:(clear; lra) ltac:(clear; lra) ltac:(clear; lra) ltac:(clear; lra)).
  assert (h108 := gmul_l w t _ _ _ _ _ _ _ _ W T h107 h95 3.0818e-9 6.2595e-8 ltac:(clear; lra) ltac:(clear; lra) ltac:(clear; lra) ltac:(clear; lra)).
  assert (h109 := gadd w t _ _ _ _ _ _ _ _ W T h87 h108 1.0042e-6 6.7376e-8 ltac:(clear; lra) ltac:(clear; lra) ltac:(clear; lra) ltac:(clear; lra)).
  assert (k110 : gb w 1 1.5747e-6 2.0472e-11 (coefficient_b64 0.243938357328313e-5 (b64 2.4)) (0.243938357328313e-5 / sqrt 2.4)) by (apply (coef_gb_d w 0.243938357328313e-5 2.4 (b64 2.4) 1.54919 1.5747e-6 2.0472e-11); [exact W|exact (b64_near_pos 2.4 ltac:(lra))|lra|lra|lra|abs_lit|abs_lit|lra|lra]).
  assert (k111 : gb w 1 9.0388e-7 1.1751e-11 (coefficient_b64 (-0.140027370385934e-5) (b64 2.4)) (-0.140027370385934e-5 / sqrt 2.4)) by (apply (coef_gb_d w (-0.140027370385934e-5) 2.4 (b64 2.4) 1.54919 9.0388e-7 1.1751e-11); [exact W|exact (b64_near_pos 2.4 ltac:(lra))|lra|lra|lra|abs_lit|abs_lit|lra|lra]).
  assert (h112 := gmul_1 w _ _ _ _ _ _ _ _ W k110 HC2 1.5748e-6 4.5450e-5 ltac:(clear; lra) ltac:(clear; lra) ltac:(clear; lra) ltac:(clear; lra)).
  assert (h113 := gmul_1 w _ _ _ _ _ _ _ _ W k111 HS2 9.0389e-7 2.6088e-5 ltac:(clear; lra) ltac:(clear; lra) ltac:(clear; lra) ltac:(clear; lra)).
  assert (h114 := gadd w 1 _ _ _ _ _ _ _ _ W one_ok h112 h113 2.4787e-6 7.1539e-5 ltac:(clear; lra) ltac:(clear; lra) ltac:(clear; lra) ltac:(clear; lra)).
  assert (h115 := gmul_1 w _ _ _ _ _ _ _ _ W k111 HC2 9.0389e-7 2.6088e-5 ltac:(clear; lra) ltac:(clear; lra) ltac:(clear; lra) ltac:(clear; lra)).
  assert (h116 := gmul_1 w _ _ _ _ _ _ _ _ W k110 HS2 1.5748e-6 4.5450e-5 ltac:(clear; lra) ltac:(clear; lra) ltac:(clear; lra) ltac:(clear; lra)).
  assert (h117 := gsub w 1 _ _ _ _ _ _ _ _ W one_ok h115 h116 2.4787e-6 7.1539e-5 ltac:(clear; lra) ltac:(clear; lra) ltac:(clear; lra) ltac:(clear; lra)).
  assert (h118 := gmul_l w t _ _ _ _ _ _ _ _ W T HE2 k64 3.0001e0 6.4801e-5 ltac:(clear; lra) ltac:(clear; lra) ltac:(clear; lra) ltac:(clear; lra)).
  assert (h119 := gmul_l w t _ _ _ _ _ _ _ _ W T h118 h22 9.0016e0 2.6463e1 ltac:(clear; lra) ltac:(clear; lra) ltac:(clear; lra) ltac:(clear; lra)).
  assert (h120 := gmul_l w t _ _ _ _ _ _ _ _ W T h119 h114 2.2313e-5 7.0956e-4 ltac:(clear; lra) ltac:(clear; lra) ltac:(clear; lra) ltac:(clear; lra)).
  assert (h121 := gadd w t _ _ _ _ _ _ _ _ W T h99 h120 3.2726e-3 1.5045e-2 ltac:(clear; lra) ltac:(clear; lra) ltac:(clear; lra) ltac:(clear; lra)).
  assert (h122 := gmul_1 w _ _ _ _ _ _ _ _ W k61 HT 2.0061e1 4.1401e2 ltac:(clear; lra) ltac:(clear; lra) ltac:(clear; lra) ltac:(clear; lra)).
  assert (h123 := gmul_1 w _ _ _ _ _ _ _ _ W h122 h22 6.0192e1 1.4192e3 ltac:(clear; lra) ltac:(clear; lra) ltac:(clear; lra) ltac:(clear; lra)).
  assert (h124 := gsub w 1 _ _ _ _ _ _ _ _ W one_ok k56 h123 6.0193e1 1.4193e3 ltac:(clear; lra) ltac:(clear; lra) ltac:(clear; lra) ltac:(clear; lra)).
  assert (h125 := gmul_l w t _ _ _ _ _ _ _ _ W T HE2 h124 6.0194e1 1.4194e3 ltac:(clear; lra) ltac:(clear; lra) ltac:(clear; lra) ltac:(clear; lra)).
  assert (h126 := gmul_l w t _ _ _ _ _ _ _ _ W T h125 h114 1.4921e-4 7.8245e-3 ltac:(clear; lra) ltac:(clear; lra) ltac:(clear; lra) ltac:(clear; lra)).
  assert (h127 := gadd w t _ _ _ _ _ _ _ _ W T h105 h126 1.7751e-3 1.7380e-2 ltac:(clear; lra) ltac:(clear; lra) ltac:(clear; lra) ltac:(clear; lra)).
  assert (h128 := gmul_l w t _ _ _ _ _ _ _ _ W T HE2 k61 2.0001e0 4.3201e-5 ltac:(clear; lra) ltac:(clear; lra) ltac:(clear; lra) ltac:(clear; lra)).
  assert (h129 := gmul_l w t _ _ _ _ _ _ _ _ W T h128 h22 6.0012e0 1.7642e1 ltac:(clear; lra) ltac:(clear; lra) ltac:(clear; lra) ltac:(clear; lra)).
  assert (h130 := gmul_l w t _ _ _ _ _ _ _ _ W T h129 h117 1.4876e-5 4.7305e-4 ltac:(clear; lra) ltac:(clear; lra) ltac:(clear; lra) ltac:(clear; lra)).
  assert (h131 := gadd w t _ _ _ _ _ _ _ _ W T h109 h130 1.5881e-5 4.7312e-4 ltac:(clear; lra) ltac:(clear; lra) ltac:(clear; lra) ltac:(clear; lra)).
  assert (k132 : gb w 1 2.5325e-6 3.2923e-11 (coefficient_b64 0.957161207093473e-6 (b64 (1 / 7))) (0.957161207093473e-6 / sqrt (1 / 7))) by (apply (coef_gb_d w 0.957161207093473e-6 (1 / 7) (b64 (1 / 7)) 0.37796 2.5325e-6 3.2923e-11); [exact W|exact (b64_near_pos (1 / 7) ltac:(lra))|lra|lra|lra|abs_lit|abs_lit|lra|lra]).
  assert (h133 := gmul_1 w _ _ _ _ _ _ _ _ W k132 HC0 2.5326e-6 2.5695e-9 ltac:(clear; lra) ltac:(clear; lra) ltac:(clear; lra) ltac:(clear; lra)).
  assert (h134 := gmul_1 w _ _ _ _ _ _ _ _ W k58 HS0 1.0001e-9 1.0017e-12 ltac:(clear; lra) ltac:(clear; lra) ltac:(clear; lra) ltac:(clear; lra)).
  assert (h135 := gadd w 1 _ _ _ _ _ _ _ _ W one_ok h133 h134 2.5337e-6 2.5746e-9 ltac:(clear; lra) ltac:(clear; lra) ltac:(clear; lra) ltac:(clear; lra)).
  assert (h136 := gmul_1 w _ _ _ _ _ _ _ _ W k58 HC0 1.0001e-9 1.0017e-12 ltac:(clear; lra) ltac:(clear; lra) ltac:(clear; lra) ltac:(clear; lra)).
  assert (h137 := gmul_1 w _ _ _ _ _ _ _ _ W k132 HS0 2.5326e-6 2.5695e-9 ltac:(clear; lra) ltac:(clear; lra) ltac:(clear; lra) ltac:(clear; lra)).
  assert (h138 := gsub w 1 _ _ _ _ _ _ _ _ W one_ok h136 h137 2.5337e-6 2.5746e-9 ltac:(clear; lra) ltac:(clear; lra) ltac:(clear; lra) ltac:(clear; lra)).
  assert (h139 := gmul_l w t _ _ _ _ _ _ _ _ W T HE3 k65 4.0001e0 1.6641e-4 ltac:(clear; lra) ltac:(clear; lra) ltac:(clear; lra) ltac:(clear; lra)).
  assert (h140 := gmul_l w t _ _ _ _ _ _ _ _ W T h139 h26 1.6003e1 5.2935e1 ltac:(clear; lra) ltac:(clear; lra) ltac:(clear; lra) ltac:(clear; lra)).
  assert (h141 := gmul_l w t _ _ _ _ _ _ _ _ W T h140 h135 4.0547e-5 1.3417e-4 ltac:(clear; lra) ltac:(clear; lra) ltac:(clear; lra) ltac:(clear; lra)).
  assert (h142 := gadd w t _ _ _ _ _ _ _ _ W T h121 h141 3.3132e-3 1.5180e-2 ltac:(clear; lra) ltac:(clear; lra) ltac:(clear; lra) ltac:(clear; lra)).
  assert (h143 := gmul_1 w _ _ _ _ _ _ _ _ W k59 HT 1.0031e-5 2.0701e-4 ltac:(clear; lra) ltac:(clear; lra) ltac:(clear; lra) ltac:(clear; lra)).
  assert (h144 := gmul_1 w _ _ _ _ _ _ _ _ W h143 h26 4.0130e-5 9.6089e-4 ltac:(clear; lra) ltac:(clear; lra) ltac:(clear; lra) ltac:(clear; lra)).
  assert (h145 := gsub w 1 _ _ _ _ _ _ _ _ W one_ok h30 h144 9.0022e0 3.5286e1 ltac:(clear; lra) ltac:(clear; lra) ltac:(clear; lra) ltac:(clear; lra)).
  assert (h146 := gmul_l w t _ _ _ _ _ _ _ _ W T HE3 h145 9.0023e0 3.5287e1 ltac:(clear; lra) ltac:(clear; lra) ltac:(clear; lra) ltac:(clear; lra)).
  assert (h147 := gmul_l w t _ _ _ _ _ _ _ _ W T h146 h135 2.2810e-5 8.9430e-5 ltac:(clear; lra) ltac:(clear; lra) ltac:(clear; lra) ltac:(clear; lra)).
  assert (h148 := gadd w t _ _ _ _ _ _ _ _ W T h127 h147 1.7980e-3 1.7470e-2 ltac:(clear; lra) ltac:(clear; lra) ltac:(clear; lra) ltac:(clear; lra)).
  assert (h149 := gmul_l w t _ _ _ _ _ _ _ _ W T HE3 k59 1.0001e-6 4.1601e-11 ltac:(clear; lra) ltac:(clear; lra) ltac:(clear; lra) ltac:(clear; lra)).
  assert (h150 := gmul_l w t _ _ _ _ _ _ _ _ W T h149 h26 4.0010e-6 1.3235e-5 ltac:(clear; lra) ltac:(clear; lra) ltac:(clear; lra) ltac:(clear; lra)).
  assert (h151 := gmul_l w t _ _ _ _ _ _ _ _ W T h150 h138 1.0138e-11 3.3544e-11 ltac:(clear; lra) ltac:(clear; lra) ltac:(clear; lra) ltac:(clear; lra)).
  assert (h152 := gadd w t _ _ _ _ _ _ _ _ W T h131 h151 1.5882e-5 4.7313e-4 ltac:(clear; lra) ltac:(clear; lra) ltac:(clear; lra) ltac:(clear; lra)).
  assert (k153 : gb w 1 2.1932e-6 2.8512e-11 (coefficient_b64 0.203046201047864e-5 (b64 (6 / 7))) (0.203046201047864e-5 / sqrt (6 / 7))) by (apply (coef_gb_d w 0.203046201047864e-5 (6 / 7) (b64 (6 / 7)) 0.92582 2.1932e-6 2.8512e-11); [exact W|exact (b64_near_pos (6 / 7) ltac:(lra))|lra|lra|lra|abs_lit|abs_lit|lra|lra]).
  assert (k154 : gb w 1 2.6809e-7 3.4852e-12 (coefficient_b64 0.248200415856872e-6 (b64 (6 / 7))) (0.248200415856872e-6 / sqrt (6 / 7))) by (apply (coef_gb_d w 0.248200415856872e-6 (6 / 7) (b64 (6 / 7)) 0.92582 2.6809e-7 3.4852e-12); [exact W|exact (b64_near_pos (6 / 7) ltac:(lra))|lra|lra|lra|abs_lit|abs_lit|lra|lra]).
  assert (h155 := gmul_1 w _ _ _ _ _ _ _ _ W k153 HC1 2.1933e-6 3.1653e-5 ltac:(clear; lra) ltac:(clear; lra) ltac:(clear; lra) ltac:(clear; lra)).
  assert (h156 := gmul_1 w _ _ _ _ _ _ _ _ W k154 HS1 2.6810e-7 3.8691e-6 ltac:(clear; lra) ltac:(clear; lra) ltac:(clear; lra) ltac:(clear; lra)).
  assert (h157 := gadd w 1 _ _ _ _ _ _ _ _ W one_ok h155 h156 2.4615e-6 3.5523e-5 ltac:(clear; lra) ltac:(clear; lra) ltac:(clear; lra) ltac:(clear; lra)).
  assert (h158 := gmul_1 w _ _ _ _ _ _ _ _ W k154 HC1 2.6810e-7 3.8691e-6 ltac:(clear; lra) ltac:(clear; lra) ltac:(clear; lra) ltac:(clear; lra)).
  assert (h159 := gmul_1 w _ _ _ _ _ _ _ _ W k153 HS1 2.1933e-6 3.1653e-5 ltac:(clear; lra) ltac:(clear; lra) ltac:(clear; lra) ltac:(clear; lra)).
  assert (h160 := gsub w 1 _ _ _ _ _ _ _ _ W one_ok h158 h159 2.4615e-6 3.5523e-5 ltac:(clear; lra) ltac:(clear; lra) ltac:(clear; lra) ltac:(clear; lra)).
  assert (h161 := gmul_l w t _ _ _ _ _ _ _ _ W T HE3 k65 4.0001e0 1.6641e-4 ltac:(clear; lra) ltac:(clear; lra) ltac:(clear; lra) ltac:(clear; lra)).
  assert (h162 := gmul_l w t _ _ _ _ _ _ _ _ W T h161 h30 3.6010e1 1.4115e2 ltac:(clear; lra) ltac:(clear; lra) ltac:(clear; lra) ltac:(clear; lra)).
  assert (h163 := gmul_l w t _ _ _ _ _ _ _ _ W T h162 h157 8.8639e-5 1.6267e-3 ltac:(clear; lra) ltac:(clear; lra) ltac:(clear; lra) ltac:(clear; lra)).
  assert (h164 := gadd w t _ _ _ _ _ _ _ _ W T h142 h163 3.4019e-3 1.6807e-2 ltac:(clear; lra) ltac:(clear; lra) ltac:(clear; lra) ltac:(clear; lra)).
  assert (h165 := gmul_1 w _ _ _ _ _ _ _ _ W k60 HT 1.0031e1 2.0701e2 ltac:(clear; lra) ltac:(clear; lra) ltac:(clear; lra) ltac:(clear; lra)).
  assert (h166 := gmul_1 w _ _ _ _ _ _ _ _ W h165 h30 9.0301e1 2.2175e3 ltac:(clear; lra) ltac:(clear; lra) ltac:(clear; lra) ltac:(clear; lra)).
  assert (h167 := gsub w 1 _ _ _ _ _ _ _ _ W one_ok h32 h166 1.0531e2 2.2837e3 ltac:(clear; lra) ltac:(clear; lra) ltac:(clear; lra) ltac:(clear; lra)).
  assert (h168 := gmul_l w t _ _ _ _ _ _ _ _ W T HE3 h167 1.0532e2 2.2838e3 ltac:(clear; lra) ltac:(clear; lra) ltac:(clear; lra) ltac:(clear; lra)).
  assert (h169 := gmul_l w t _ _ _ _ _ _ _ _ W T h168 h157 2.5925e-4 9.3629e-3 ltac:(clear; lra) ltac:(clear; lra) ltac:(clear; lra) ltac:(clear; lra)).
  assert (h170 := gadd w t _ _ _ _ _ _ _ _ W T h148 h169 2.0573e-3 2.6833e-2 ltac:(clear; lra) ltac:(clear; lra) ltac:(clear; lra) ltac:(clear; lra)).
  assert (h171 := gmul_l w t _ _ _ _ _ _ _ _ W T HE3 k60 1.0001e0 4.1601e-5 ltac:(clear; lra) ltac:(clear; lra) ltac:(clear; lra) ltac:(clear; lra)).
  assert (h172 := gmul_l w t _ _ _ _ _ _ _ _ W T h171 h30 9.0031e0 3.5289e1 ltac:(clear; lra) ltac:(clear; lra) ltac:(clear; lra) ltac:(clear; lra)).
  assert (h173 := gmul_l w t _ _ _ _ _ _ _ _ W T h172 h160 2.2162e-5 4.0669e-4 ltac:(clear; lra) ltac:(clear; lra) ltac:(clear; lra) ltac:(clear; lra)).
  assert (h174 := gadd w t _ _ _ _ _ _ _ _ W T h152 h173 3.8045e-5 8.7983e-4 ltac:(clear; lra) ltac:(clear; lra) ltac:(clear; lra) ltac:(clear; lra)).
  assert (k175 : gb w 1 3.0905e-7 4.0177e-12 (coefficient_b64 0.904787894809528e-6 (b64 (60 / 7))) (0.904787894809528e-6 / sqrt (60 / 7))) by (apply (coef_gb_d w 0.904787894809528e-6 (60 / 7) (b64 (60 / 7)) 2.9277 3.0905e-7 4.0177e-12); [exact W|exact (b64_near_pos (60 / 7) ltac:(lra))|lra|lra|lra|abs_lit|abs_lit|lra|lra]).
  assert (k176 : gb w 1 2.1144e-7 2.7488e-12 (coefficient_b64 (-0.619005475177618e-6) (b64 (60 / 7))) (-0.619005475177618e-6 / sqrt (60 / 7))) by (apply (coef_gb_d w (-0.619005475177618e-6) (60 / 7) (b64 (60 / 7)) 2.9277 2.1144e-7 2.7488e-12); [exact W|exact (b64_near_pos (60 / 7) ltac:(lra))|lra|lra|lra|abs_lit|abs_lit|lra|lra]).
  assert (h177 := gmul_1 w _ _ _ _ _ _ _ _ W k175 HC2 3.0906e-7 8.9199e-6 ltac:(clear; lra) ltac:(clear; lra) ltac:(clear; lra) ltac:(clear; lra)).
  assert (h178 := gmul_1 w _ _ _ _ _ _ _ _ W k176 HS2 2.1145e-7 6.1026e-6 ltac:(clear; lra) ltac:(clear; lra) ltac:(clear; lra) ltac:(clear; lra)).
  assert (h179 := gadd w 1 _ _ _ _ _ _ _ _ W one_ok h177 h178 5.2052e-7 1.5023e-5 ltac:(clear; lra) ltac:(clear; lra) ltac:(clear; lra) ltac:(clear; lra)).
  assert (h180 := gmul_1 w _ _ _ _ _ _ _ _ W k176 HC2 2.1145e-7 6.1026e-6 ltac:(clear; lra) ltac:(clear; lra) ltac:(clear; lra) ltac:(clear; lra)).
  assert (h181 := gmul_1 w _ _ _ _ _ _ _ _ W k175 HS2 3.0906e-7 8.9199e-6 ltac:(clear; lra) ltac:(clear; lra) ltac:(clear; lra) ltac:(clear; lra)).
  assert (h182 := gsub w 1 _ _ _ _ _ _ _ _ W one_ok h180 h181 5.2052e-7 1.5023e-5 ltac:(clear; lra) ltac:(clear; lra) ltac:(clear; lra) ltac:(clear; lra)).
  assert (h183 := gmul_l w t _ _ _ _ _ _ _ _ W T HE3 k65 4.0001e0 1.6641e-4 ltac:(clear; lra) ltac:(clear; lra) ltac:(clear; lra) ltac:(clear; lra)).
  assert (h184 := gmul_l w t _ _ _ _ _ _ _ _ W T h183 h32 6.0014e1 2.6465e2 ltac:(clear; lra) ltac:(clear; lra) ltac:(clear; lra) ltac:(clear; lra)).
  assert (h185 := gmul_l w t _ _ _ _ _ _ _ _ W T h184 h179 3.1239e-5 1.0394e-3 ltac:(clear; lra) ltac:(clear; lra) ltac:(clear; lra) ltac:(clear; lra)).
  assert (h186 := gadd w t _ _ _ _ _ _ _ _ W T h164 h185 3.4332e-3 1.7847e-2 ltac:(clear; lra) ltac:(clear; lra) ltac:(clear; lra) ltac:(clear; lra)).
  assert (h187 := gmul_1 w _ _ _ _ _ _ _ _ W k61 HT 2.0061e1 4.1401e2 ltac:(clear; lra) ltac:(clear; lra) ltac:(clear; lra) ltac:(clear; lra)).
  assert (h188 := gmul_1 w _ _ _ _ _ _ _ _ W h187 h32 3.0098e2 7.5386e3 ltac:(clear; lra) ltac:(clear; lra) ltac:(clear; lra) ltac:(clear; lra)).
  assert (h189 := gsub w 1 _ _ _ _ _ _ _ _ W one_ok h34 h188 3.1599e2 7.6048e3 ltac:(clear; lra) ltac:(clear; lra) ltac:(clear; lra) ltac:(clear; lra)).
  assert (h190 := gmul_l w t _ _ _ _ _ _ _ _ W T HE3 h189 3.1600e2 7.6049e3 ltac:(clear; lra) ltac:(clear; lra) ltac:(clear; lra) ltac:(clear; lra)).
  assert (h191 := gmul_l w t _ _ _ _ _ _ _ _ W T h190 h179 1.6449e-4 8.7058e-3 ltac:(clear; lra) ltac:(clear; lra) ltac:(clear; lra) ltac:(clear; lra)).
  assert (h192 := gadd w t _ _ _ _ _ _ _ _ W T h170 h191 2.2218e-3 3.5539e-2 ltac:(clear; lra) ltac:(clear; lra) ltac:(clear; lra) ltac:(clear; lra)).
  assert (h193 := gmul_l w t _ _ _ _ _ _ _ _ W T HE3 k61 2.0001e0 8.3201e-5 ltac:(clear; lra) ltac:(clear; lra) ltac:(clear; lra) ltac:(clear; lra)).
  assert (h194 := gmul_l w t _ _ _ _ _ _ _ _ W T h193 h32 3.0008e1 1.3233e2 ltac:(clear; lra) ltac:(clear; lra) ltac:(clear; lra) ltac:(clear; lra)).
  assert (h195 := gmul_l w t _ _ _ _ _ _ _ _ W T h194 h182 1.5620e-5 5.1970e-4 ltac:(clear; lra) ltac:(clear; lra) ltac:(clear; lra) ltac:(clear; lra)).
  assert (h196 := gadd w t _ _ _ _ _ _ _ _ W T h174 h195 5.3666e-5 1.3996e-3 ltac:(clear; lra) ltac:(clear; lra) ltac:(clear; lra) ltac:(clear; lra)).
  assert (k197 : gb w 1 1.0059e-7 1.3077e-12 (coefficient_b64 0.721321757121568e-6 (b64 (360 / 7))) (0.721321757121568e-6 / sqrt (360 / 7))) by (apply (coef_gb_d w 0.721321757121568e-6 (360 / 7) (b64 (360 / 7)) 7.17137 1.0059e-7 1.3077e-12); [exact W|exact (b64_near_pos (360 / 7) ltac:(lra))|lra|lra|lra|abs_lit|abs_lit|lra|lra]).
  assert (k198 : gb w 1 1.9723e-7 2.5640e-12 (coefficient_b64 0.141434926192941e-5 (b64 (360 / 7))) (0.141434926192941e-5 / sqrt (360 / 7))) by (apply (coef_gb_d w 0.141434926192941e-5 (360 / 7) (b64 (360 / 7)) 7.17137 1.9723e-7 2.5640e-12); [exact W|exact (b64_near_pos (360 / 7) ltac:(lra))|lra|lra|lra|abs_lit|abs_lit|lra|lra]).
  assert (h199 := gmul_1 w _ _ _ _ _ _ _ _ W k197 HC3 1.0060e-7 4.3548e-6 ltac:(clear; lra) ltac:(clear; lra) ltac:(clear; lra) ltac:(clear; lra)).
  assert (h200 := gmul_1 w _ _ _ _ _ _ _ _ W k198 HS3 1.9724e-7 8.5385e-6 ltac:(clear; lra) ltac:(clear; lra) ltac:(clear; lra) ltac:(clear; lra)).
  assert (h201 := gadd w 1 _ _ _ _ _ _ _ _ W one_ok h199 h200 2.9785e-7 1.2894e-5 ltac:(clear; lra) ltac:(clear; lra) ltac:(clear; lra) ltac:(clear; lra)).
  assert (h202 := gmul_1 w _ _ _ _ _ _ _ _ W k198 HC3 1.9724e-7 8.5385e-6 ltac:(clear; lra) ltac:(clear; lra) ltac:(clear; lra) ltac:(clear; lra)).
  assert (h203 := gmul_1 w _ _ _ _ _ _ _ _ W k197 HS3 1.0060e-7 4.3548e-6 ltac:(clear; lra) ltac:(clear; lra) ltac:(clear; lra) ltac:(clear; lra)).
  assert (h204 := gsub w 1 _ _ _ _ _ _ _ _ W one_ok h202 h203 2.9785e-7 1.2894e-5 ltac:(clear; lra) ltac:(clear; lra) ltac:(clear; lra) ltac:(clear; lra)).
  assert (h205 := gmul_l w t _ _ _ _ _ _ _ _ W T HE3 k65 4.0001e0 1.6641e-4 ltac:(clear; lra) ltac:(clear; lra) ltac:(clear; lra) ltac:(clear; lra)).
  assert (h206 := gmul_l w t _ _ _ _ _ _ _ _ W T h205 h34 6.0014e1 2.6463e2 ltac:(clear; lra) ltac:(clear; lra) ltac:(clear; lra) ltac:(clear; lra)).
  assert (h207 := gmul_l w t _ _ _ _ _ _ _ _ W T h206 h201 1.7876e-5 8.5265e-4 ltac:(clear; lra) ltac:(clear; lra) ltac:(clear; lra) ltac:(clear; lra)).
  assert (h208 := gadd w t _ _ _ _ _ _ _ _ W T h186 h207 3.4511e-3 1.8700e-2 ltac:(clear; lra) ltac:(clear; lra) ltac:(clear; lra) ltac:(clear; lra)).
  assert (h209 := gmul_1 w _ _ _ _ _ _ _ _ W k62 HT 3.0091e1 6.2101e2 ltac:(clear; lra) ltac:(clear; lra) ltac:(clear; lra) ltac:(clear; lra)).
  assert (h210 := gmul_1 w _ _ _ _ _ _ _ _ W h209 h34 4.5146e2 1.1308e4 ltac:(clear; lra) ltac:(clear; lra) ltac:(clear; lra) ltac:(clear; lra)).
  assert (h211 := gsub w 1 _ _ _ _ _ _ _ _ W one_ok k56 h210 4.5147e2 1.1309e4 ltac:(clear; lra) ltac:(clear; lra) ltac:(clear; lra) ltac:(clear; lra)).
  assert (h212 := gmul_l w t _ _ _ _ _ _ _ _ W T HE3 h211 4.5148e2 1.1310e4 ltac:(clear; lra) ltac:(clear; lra) ltac:(clear; lra) ltac:(clear; lra)).
  assert (h213 := gmul_l w t _ _ _ _ _ _ _ _ W T h212 h201 1.3448e-4 9.1901e-3 ltac:(clear; lra) ltac:(clear; lra) ltac:(clear; lra) ltac:(clear; lra)).
  assert (h214 := gadd w t _ _ _ _ _ _ _ _ W T h192 h213 2.3563e-3 4.4730e-2 ltac:(clear; lra) ltac:(clear; lra) ltac:(clear; lra) ltac:(clear; lra)).
  assert (h215 := gmul_l w t _ _ _ _ _ _ _ _ W T HE3 k62 3.0001e0 1.2481e-4 ltac:(clear; lra) ltac:(clear; lra) ltac:(clear; lra) ltac:(clear; lra)).
  assert (h216 := gmul_l w t _ _ _ _ _ _ _ _ W T h215 h34 4.5011e1 1.9848e2 ltac:(clear; lra) ltac:(clear; lra) ltac:(clear; lra) ltac:(clear; lra)).
  assert (h217 := gmul_l w t _ _ _ _ _ _ _ _ W T h216 h204 1.3407e-5 6.3949e-4 ltac:(clear; lra) ltac:(clear; lra) ltac:(clear; lra) ltac:(clear; lra)).
  assert (h218 := gadd w t _ _ _ _ _ _ _ _ W T h196 h217 6.7074e-5 2.0391e-3 ltac:(clear; lra) ltac:(clear; lra) ltac:(clear; lra) ltac:(clear; lra)).
  assert (k219 : gb w 1 1.6200e-6 2.1061e-11 (coefficient_b64 0.539965866638991e-6 (b64 (24 / 216))) (0.539965866638991e-6 / sqrt (24 / 216))) by (apply (coef_gb_d w 0.539965866638991e-6 (24 / 216) (b64 (24 / 216)) 0.33333 1.6200e-6 2.1061e-11); [exact W|exact (b64_near_pos (24 / 216) ltac:(lra))|lra|lra|lra|abs_lit|abs_lit|lra|lra]).
  assert (h220 := gmul_1 w _ _ _ _ _ _ _ _ W k219 HC0 1.6201e-6 1.6437e-9 ltac:(clear; lra) ltac:(clear; lra) ltac:(clear; lra) ltac:(clear; lra)).
  assert (h221 := gmul_1 w _ _ _ _ _ _ _ _ W k58 HS0 1.0001e-9 1.0017e-12 ltac:(clear; lra) ltac:(clear; lra) ltac:(clear; lra) ltac:(clear; lra)).
  assert (h222 := gadd w 1 _ _ _ _ _ _ _ _ W one_ok h220 h221 1.6212e-6 1.6473e-9 ltac:(clear; lra) ltac:(clear; lra) ltac:(clear; lra) ltac:(clear; lra)).
  assert (h223 := gmul_1 w _ _ _ _ _ _ _ _ W k58 HC0 1.0001e-9 1.0017e-12 ltac:(clear; lra) ltac:(clear; lra) ltac:(clear; lra) ltac:(clear; lra)).
  assert (h224 := gmul_1 w _ _ _ _ _ _ _ _ W k219 HS0 1.6201e-6 1.6437e-9 ltac:(clear; lra) ltac:(clear; lra) ltac:(clear; lra) ltac:(clear; lra)).
  assert (h225 := gsub w 1 _ _ _ _ _ _ _ _ W one_ok h223 h224 1.6212e-6 1.6473e-9 ltac:(clear; lra) ltac:(clear; lra) ltac:(clear; lra) ltac:(clear; lra)).
  assert (h226 := gmul_l w t _ _ _ _ _ _ _ _ W T HE4 k66 5.0001e0 3.0801e-4 ltac:(clear; lra) ltac:(clear; lra) ltac:(clear; lra) ltac:(clear; lra)).
  assert (h227 := gmul_l w t _ _ _ _ _ _ _ _ W T h226 h40 4.2510e1 1.8380e2 ltac:(clear; lra) ltac:(clear; lra) ltac:(clear; lra) ltac:(clear; lra)).
  assert (h228 := gmul_l w t _ _ _ _ _ _ _ _ W T h227 h222 6.8918e-5 2.9805e-4 ltac:(clear; lra) ltac:(clear; lra) ltac:(clear; lra) ltac:(clear; lra)).
  assert (h229 := gadd w t _ _ _ _ _ _ _ _ W T h208 h228 3.5201e-3 1.8999e-2 ltac:(clear; lra) ltac:(clear; lra) ltac:(clear; lra) ltac:(clear; lra)).
  assert (h230 := gmul_1 w _ _ _ _ _ _ _ _ W k59 HT 1.0031e-5 2.0701e-4 ltac:(clear; lra) ltac:(clear; lra) ltac:(clear; lra) ltac:(clear; lra)).
  assert (h231 := gmul_1 w _ _ _ _ _ _ _ _ W h230 h40 8.5282e-5 2.1287e-3 ltac:(clear; lra) ltac:(clear; lra) ltac:(clear; lra) ltac:(clear; lra)).
  assert (h232 := gsub w 1 _ _ _ _ _ _ _ _ W one_ok h46 h231 2.5008e1 1.2498e2 ltac:(clear; lra) ltac:(clear; lra) ltac:(clear; lra) ltac:(clear; lra)).
  assert (h233 := gmul_l w t _ _ _ _ _ _ _ _ W T HE4 h232 2.5009e1 1.2499e2 ltac:(clear; lra) ltac:(clear; lra) ltac:(clear; lra) ltac:(clear; lra)).
  assert (h234 := gmul_l w t _ _ _ _ _ _ _ _ W T h233 h222 4.0545e-5 2.0268e-4 ltac:(clear; lra) ltac:(clear; lra) ltac:(clear; lra) ltac:(clear; lra)).
  assert (h235 := gadd w t _ _ _ _ _ _ _ _ W T h214 h234 2.3969e-3 4.4933e-2 ltac:(clear; lra) ltac:(clear; lra) ltac:(clear; lra) ltac:(clear; lra)).
  assert (h236 := gmul_l w t _ _ _ _ _ _ _ _ W T HE4 k59 1.0001e-6 6.1601e-11 ltac:(clear; lra) ltac:(clear; lra) ltac:(clear; lra) ltac:(clear; lra)).
  assert (h237 := gmul_l w t _ _ _ _ _ _ _ _ W T h236 h40 8.5027e-6 3.6763e-5 ltac:(clear; lra) ltac:(clear; lra) ltac:(clear; lra) ltac:(clear; lra)).
  assert (h238 := gmul_l w t _ _ _ _ _ _ _ _ W T h237 h225 1.3785e-11 5.9615e-11 ltac:(clear; lra) ltac:(clear; lra) ltac:(clear; lra) ltac:(clear; lra)).
  assert (h239 := gadd w t _ _ _ _ _ _ _ _ W T h218 h238 6.7075e-5 2.0392e-3 ltac:(clear; lra) ltac:(clear; lra) ltac:(clear; lra) ltac:(clear; lra)).
  assert (k240 : gb w 1 5.0865e-7 6.6125e-12 (coefficient_b64 (-0.536157389388867e-6) (b64 (10 / 9))) (-0.536157389388867e-6 / sqrt (10 / 9))) by (apply (coef_gb_d w (-0.536157389388867e-6) (10 / 9) (b64 (10 / 9)) 1.05409 5.0865e-7 6.6125e-12); [exact W|exact (b64_near_pos (10 / 9) ltac:(lra))|lra|lra|lra|abs_lit|abs_lit|lra|lra]).
  assert (k241 : gb w 1 4.4927e-7 5.8406e-12 (coefficient_b64 (-0.473567346518086e-6) (b64 (10 / 9))) (-0.473567346518086e-6 / sqrt (10 / 9))) by (apply (coef_gb_d w (-0.473567346518086e-6) (10 / 9) (b64 (10 / 9)) 1.05409 4.4927e-7 5.8406e-12); [exact W|exact (b64_near_pos (10 / 9) ltac:(lra))|lra|lra|lra|abs_lit|abs_lit|lra|lra]).
  assert (h242 := gmul_1 w _ _ _ _ _ _ _ _ W k240 HC1 5.0866e-7 7.3409e-6 ltac:(clear; lra) ltac:(clear; lra) ltac:(clear; lra) ltac:(clear; lra)).
  assert (h243 := gmul_1 w _ _ _ _ _ _ _ _ W k241 HS1 4.4928e-7 6.4839e-6 ltac:(clear; lra) ltac:(clear; lra) ltac:(clear; lra) ltac:(clear; lra)).
  assert (h244 := gadd w 1 _ _ _ _ _ _ _ _ W one_ok h242 h243 9.5795e-7 1.3825e-5 ltac:(clear; lra) ltac:(clear; lra) ltac:(clear; lra) ltac:(clear; lra)).
  assert (h245 := gmul_1 w _ _ _ _ _ _ _ _ W k241 HC1 4.4928e-7 6.4839e-6 ltac:(clear; lra) ltac:(clear; lra) ltac:(clear; lra) ltac:(clear; lra)).
  assert (h246 := gmul_1 w _ _ _ _ _ _ _ _ W k240 HS1 5.0866e-7 7.3409e-6 ltac:(clear; lra) ltac:(clear; lra) ltac:(clear; lra) ltac:(clear; lra)).
  assert (h247 := gsub w 1 _ _ _ _ _ _ _ _ W one_ok h245 h246 9.5795e-7 1.3825e-5 ltac:(clear; lra) ltac:(clear; lra) ltac:(clear; lra) ltac:(clear; lra)).
  assert (h248 := gmul_l w t _ _ _ _ _ _ _ _ W T HE4 k66 5.0001e0 3.0801e-4 ltac:(clear; lra) ltac:(clear; lra) ltac:(clear; lra) ltac:(clear; lra)).
  assert (h249 := gmul_l w t _ _ _ _ _ _ _ _ W T h248 h46 1.2504e2 6.2488e2 ltac:(clear; lra) ltac:(clear; lra) ltac:(clear; lra) ltac:(clear; lra)).
  assert (h250 := gmul_l w t _ _ _ _ _ _ _ _ W T h249 h244 1.1979e-4 2.3273e-3 ltac:(clear; lra) ltac:(clear; lra) ltac:(clear; lra) ltac:(clear; lra)).
  assert (h251 := gadd w t _ _ _ _ _ _ _ _ W T h229 h250 3.6399e-3 2.1327e-2 ltac:(clear; lra) ltac:(clear; lra) ltac:(clear; lra) ltac:(clear; lra)).
  assert (h252 := gmul_1 w _ _ _ _ _ _ _ _ W k60 HT 1.0031e1 2.0701e2 ltac:(clear; lra) ltac:(clear; lra) ltac:(clear; lra) ltac:(clear; lra)).
  assert (h253 := gmul_1 w _ _ _ _ _ _ _ _ W h252 h46 2.5085e2 6.4303e3 ltac:(clear; lra) ltac:(clear; lra) ltac:(clear; lra) ltac:(clear; lra)).
  assert (h254 := gsub w 1 _ _ _ _ _ _ _ _ W one_ok h50 h253 3.1087e2 6.7612e3 ltac:(clear; lra) ltac:(clear; lra) ltac:(clear; lra) ltac:(clear; lra)).
  assert (h255 := gmul_l w t _ _ _ _ _ _ _ _ W T HE4 h254 3.1088e2 6.7613e3 ltac:(clear; lra) ltac:(clear; lra) ltac:(clear; lra) ltac:(clear; lra)).
  assert (h256 := gmul_l w t _ _ _ _ _ _ _ _ W T h255 h244 2.9781e-4 1.0775e-2 ltac:(clear; lra) ltac:(clear; lra) ltac:(clear; lra) ltac:(clear; lra)).
  assert (h257 := gadd w t _ _ _ _ _ _ _ _ W T h235 h256 2.6948e-3 5.5709e-2 ltac:(clear; lra) ltac:(clear; lra) ltac:(clear; lra) ltac:(clear; lra)).
  assert (h258 := gmul_l w t _ _ _ _ _ _ _ _ W T HE4 k60 1.0001e0 6.1601e-5 ltac:(clear; lra) ltac:(clear; lra) ltac:(clear; lra) ltac:(clear; lra)).
  assert (h259 := gmul_l w t _ _ _ _ _ _ _ _ W T h258 h46 2.5010e1 1.2499e2 ltac:(clear; lra) ltac:(clear; lra) ltac:(clear; lra) ltac:(clear; lra)).
  assert (h260 := gmul_l w t _ _ _ _ _ _ _ _ W T h259 h247 2.3959e-5 4.6550e-4 ltac:(clear; lra) ltac:(clear; lra) ltac:(clear; lra) ltac:(clear; lra)).
  assert (h261 := gadd w t _ _ _ _ _ _ _ _ W T h239 h260 9.1035e-5 2.5048e-3 ltac:(clear; lra) ltac:(clear; lra) ltac:(clear; lra) ltac:(clear; lra)).
  assert (k262 : gb w 1 7.8375e-8 1.0189e-12 (coefficient_b64 0.350501623962649e-6 20) (0.350501623962649e-6 / sqrt 20)) by (apply (coef_gb_d w 0.350501623962649e-6 20 20 4.47213 7.8375e-8 1.0189e-12); [exact W|exact (near_self 20)|lra|lra|lra|abs_lit|abs_lit|lra|lra]).
  assert (k263 : gb w 1 1.4814e-7 1.9259e-12 (coefficient_b64 0.662480026275829e-6 20) (0.662480026275829e-6 / sqrt 20)) by (apply (coef_gb_d w 0.662480026275829e-6 20 20 4.47213 1.4814e-7 1.9259e-12); [exact W|exact (near_self 20)|lra|lra|lra|abs_lit|abs_lit|lra|lra]).
  assert (h264 := gmul_1 w _ _ _ _ _ _ _ _ W k262 HC2 7.8376e-8 2.2621e-6 ltac:(clear; lra) ltac:(clear; lra) ltac:(clear; lra) ltac:(clear; lra)).
  assert (h265 := gmul_1 w _ _ _ _ _ _ _ _ W k263 HS2 1.4815e-7 4.2757e-6 ltac:(clear; lra) ltac:(clear; lra) ltac:(clear; lra) ltac:(clear; lra)).
  assert (h266 := gadd w 1 _ _ _ _ _ _ _ _ W one_ok h264 h265 2.2653e-7 6.5379e-6 ltac:(clear; lra) ltac:(clear; lra) ltac:(clear; lra) ltac:(clear; lra)).
  assert (h267 := gmul_1 w _ _ _ _ _ _ _ _ W k263 HC2 1.4815e-7 4.2757e-6 ltac:(clear; lra) ltac:(clear; lra) ltac:(clear; lra) ltac:(clear; lra)).
  assert (h268 := gmul_1 w _ _ _ _ _ _ _ _ W k262 HS2 7.8376e-8 2.2621e-6 ltac:(clear; lra) ltac:(clear; lra) ltac:(clear; lra) ltac:(clear; lra)).
  assert (h269 := gsub w 1 _ _ _ _ _ _ _ _ W one_ok h267 h268 2.2653e-7 6.5379e-6 ltac:(clear; lra) ltac:(clear; lra) ltac:(clear; lra) ltac:(clear; lra)).
  assert (h270 := gmul_l w t _ _ _ _ _ _ _ _ W T HE4 k66 5.0001e0 3.0801e-4 ltac:(clear; lra) ltac:(clear; lra) ltac:(clear; lra) ltac:(clear; lra)).
  assert (h271 := gmul_l w t _ _ _ _ _ _ _ _ W T h270 h50 3.0008e2 1.6542e3 ltac:(clear; lra) ltac:(clear; lra) ltac:(clear; lra) ltac:(clear; lra)).
  assert (h272 := gmul_l w t _ _ _ _ _ _ _ _ W T h271 h266 6.7978e-5 2.3367e-3 ltac:(clear; lra) ltac:(clear; lra) ltac:(clear; lra) ltac:(clear; lra)).
  assert (h273 := gadd w t _ _ _ _ _ _ _ _ W T h251 h272 3.7079e-3 2.3664e-2 ltac:(clear; lra) ltac:(clear; lra) ltac:(clear; lra) ltac:(clear; lra)).
  assert (h274 := gmul_1 w _ _ _ _ _ _ _ _ W k61 HT 2.0061e1 4.1401e2 ltac:(clear; lra) ltac:(clear; lra) ltac:(clear; lra) ltac:(clear; lra)).
  assert (h275 := gmul_1 w _ _ _ _ _ _ _ _ W h274 h50 1.2040e3 3.1483e4 ltac:(clear; lra) ltac:(clear; lra) ltac:(clear; lra) ltac:(clear; lra)).
  assert (h276 := gsub w 1 _ _ _ _ _ _ _ _ W one_ok h53 h275 1.3091e3 3.2101e4 ltac:(clear; lra) ltac:(clear; lra) ltac:(clear; lra) ltac:(clear; lra)).
  assert (h277 := gmul_l w t _ _ _ _ _ _ _ _ W T HE4 h276 1.3092e3 3.2102e4 ltac:(clear; lra) ltac:(clear; lra) ltac:(clear; lra) ltac:(clear; lra)).
  assert (h278 := gmul_l w t _ _ _ _ _ _ _ _ W T h277 h266 2.9658e-4 1.5832e-2 ltac:(clear; lra) ltac:(clear; lra) ltac:(clear; lra) ltac:(clear; lra)).
  assert (h279 := gadd w t _ _ _ _ _ _ _ _ W T h257 h278 2.9914e-3 7.1542e-2 ltac:(clear; lra) ltac:(clear; lra) ltac:(clear; lra) ltac:(clear; lra)).
  assert (h280 := gmul_l w t _ _ _ _ _ _ _ _ W T HE4 k61 2.0001e0 1.2321e-4 ltac:(clear; lra) ltac:(clear; lra) ltac:(clear; lra) ltac:(clear; lra)).
  assert (h281 := gmul_l w t _ _ _ _ _ _ _ _ W T h280 h50 1.2004e2 6.6169e2 ltac:(clear; lra) ltac:(clear; lra) ltac:(clear; lra) ltac:(clear; lra)).
  assert (h282 := gmul_l w t _ _ _ _ _ _ _ _ W T h281 h269 2.7193e-5 9.3471e-4 ltac:(clear; lra) ltac:(clear; lra) ltac:(clear; lra) ltac:(clear; lra)).
  assert (h283 := gadd w t _ _ _ _ _ _ _ _ W T h261 h282 1.1823e-4 3.4396e-3 ltac:(clear; lra) ltac:(clear; lra) ltac:(clear; lra) ltac:(clear; lra)).
  assert (k284 : gb w 1 5.9216e-8 7.6981e-13 (coefficient_b64 0.990856766672321e-6 280) (0.990856766672321e-6 / sqrt 280)) by (apply (coef_gb_d w 0.990856766672321e-6 280 280 16.7332 5.9216e-8 7.6981e-13); [exact W|exact (near_self 280)|lra|lra|lra|abs_lit|abs_lit|lra|lra]).
  assert (k285 : gb w 1 1.2010e-8 1.5614e-13 (coefficient_b64 (-0.200956723567452e-6) 280) (-0.200956723567452e-6 / sqrt 280)) by (apply (coef_gb_d w (-0.200956723567452e-6) 280 280 16.7332 1.2010e-8 1.5614e-13); [exact W|exact (near_self 280)|lra|lra|lra|abs_lit|abs_lit|lra|lra]).
  assert (h286 := gmul_1 w _ _ _ _ _ _ _ _ W k284 HC3 5.9217e-8 2.5636e-6 ltac:(clear; lra) ltac:(clear; lra) ltac:(clear; lra) ltac:(clear; lra)).
  assert (h287 := gmul_1 w _ _ _ _ _ _ _ _ W k285 HS3 1.2011e-8 5.1994e-7 ltac:(clear; lra) ltac:(clear; lra) ltac:(clear; lra) ltac:(clear; lra)).
  assert (h288 := gadd w 1 _ _ _ _ _ _ _ _ W one_ok h286 h287 7.1229e-8 3.0836e-6 ltac:(clear; lra) ltac:(clear; lra) ltac:(clear; lra) ltac:(clear; lra)).
  assert (h289 := gmul_1 w _ _ _ _ _ _ _ _ W k285 HC3 1.2011e-8 5.1994e-7 ltac:(clear; lra) ltac:(clear; lra) ltac:(clear; lra) ltac:(clear; lra)).
  assert (h290 := gmul_1 w _ _ _ _ _ _ _ _ W k284 HS3 5.9217e-8 2.5636e-6 ltac:(clear; lra) ltac:(clear; lra) ltac:(clear; lra) ltac:(clear; lra)).
  assert (h291 := gsub w 1 _ _ _ _ _ _ _ _ W one_ok h289 h290 7.1229e-8 3.0836e-6 ltac:(clear; lra) ltac:(clear; lra) ltac:(clear; lra) ltac:(clear; lra)).
  assert (h292 := gmul_l w t _ _ _ _ _ _ _ _ W T HE4 k66 5.0001e0 3.0801e-4 ltac:(clear; lra) ltac:(clear; lra) ltac:(clear; lra) ltac:(clear; lra)).
  assert (h293 := gmul_l w t _ _ _ _ _ _ _ _ W T h292 h53 5.2522e2 3.0877e3 ltac:(clear; lra) ltac:(clear; lra) ltac:(clear; lra) ltac:(clear; lra)).
  assert (h294 := gmul_l w t _ _ _ _ _ _ _ _ W T h293 h288 3.7411e-5 1.8396e-3 ltac:(clear; lra) ltac:(clear; lra) ltac:(clear; lra) ltac:(clear; lra)).
  assert (h295 := gadd w t _ _ _ _ _ _ _ _ W T h273 h294 3.7454e-3 2.5504e-2 ltac:(clear; lra) ltac:(clear; lra) ltac:(clear; lra) ltac:(clear; lra)).
  assert (h296 := gmul_1 w _ _ _ _ _ _ _ _ W k62 HT 3.0091e1 6.2101e2 ltac:(clear; lra) ltac:(clear; lra) ltac:(clear; lra) ltac:(clear; lra)).
  assert (h297 := gmul_1 w _ _ _ _ _ _ _ _ W h296 h53 3.1608e3 8.3813e4 ltac:(clear; lra) ltac:(clear; lra) ltac:(clear; lra) ltac:(clear; lra)).
  assert (h298 := gsub w 1 _ _ _ _ _ _ _ _ W one_ok h55 h297 3.2659e3 8.4431e4 ltac:(clear; lra) ltac:(clear; lra) ltac:(clear; lra) ltac:(clear; lra)).
  assert (h299 := gmul_l w t _ _ _ _ _ _ _ _ W T HE4 h298 3.2660e3 8.4432e4 ltac:(clear; lra) ltac:(clear; lra) ltac:(clear; lra) ltac:(clear; lra)).
  assert (h300 := gmul_l w t _ _ _ _ _ _ _ _ W T h299 h288 2.3264e-4 1.6086e-2 ltac:(clear; lra) ltac:(clear; lra) ltac:(clear; lra) ltac:(clear; lra)).
  assert (h301 := gadd w t _ _ _ _ _ _ _ _ W T h279 h300 3.2241e-3 8.7629e-2 ltac:(clear; lra) ltac:(clear; lra) ltac:(clear; lra) ltac:(clear; lra)).
  assert (h302 := gmul_l w t _ _ _ _ _ _ _ _ W T HE4 k62 3.0001e0 1.8481e-4 ltac:(clear; lra) ltac:(clear; lra) ltac:(clear; lra) ltac:(clear; lra)).
  assert (h303 := gmul_l w t _ _ _ _ _ _ _ _ W T h302 h53 3.1514e2 1.8527e3 ltac:(clear; lra) ltac:(clear; lra) ltac:(clear; lra) ltac:(clear; lra)).
  assert (h304 := gmul_l w t _ _ _ _ _ _ _ _ W T h303 h291 2.2448e-5 1.1038e-3 ltac:(clear; lra) ltac:(clear; lra) ltac:(clear; lra) ltac:(clear; lra)).
  assert (h305 := gadd w t _ _ _ _ _ _ _ _ W T h283 h304 1.4068e-4 4.5435e-3 ltac:(clear; lra) ltac:(clear; lra) ltac:(clear; lra) ltac:(clear; lra)).
  assert (k306 : gb w 1 3.9833e-9 5.1783e-14 (coefficient_b64 (-0.188519633023033e-6) 2240) (-0.188519633023033e-6 / sqrt 2240)) by (apply (coef_gb_d w (-0.188519633023033e-6) 2240 2240 47.32863 3.9833e-9 5.1783e-14); [exact W|exact (near_self 2240)|lra|lra|lra|abs_lit|abs_lit|lra|lra]).
  assert (k307 : gb w 1 6.5247e-9 8.4822e-14 (coefficient_b64 0.308803882149194e-6 2240) (0.308803882149194e-6 / sqrt 2240)) by (apply (coef_gb_d w 0.308803882149194e-6 2240 2240 47.32863 6.5247e-9 8.4822e-14); [exact W|exact (near_self 2240)|lra|lra|lra|abs_lit|abs_lit|lra|lra]).
  assert (h308 := gmul_1 w _ _ _ _ _ _ _ _ W k306 HC4 3.9834e-9 2.2993e-7 ltac:(clear; lra) ltac:(clear; lra) ltac:(clear; lra) ltac:(clear; lra)).
  assert (h309 := gmul_1 w _ _ _ _ _ _ _ _ W k307 HS4 6.5248e-9 3.7662e-7 ltac:(clear; lra) ltac:(clear; lra) ltac:(clear; lra) ltac:(clear; lra)).
  assert (h310 := gadd w 1 _ _ _ _ _ _ _ _ W one_ok h308 h309 1.0509e-8 6.0656e-7 ltac:(clear; lra) ltac:(clear; lra) ltac:(clear; lra) ltac:(clear; lra)).
  assert (h311 := gmul_1 w _ _ _ _ _ _ _ _ W k307 HC4 6.5248e-9 3.7662e-7 ltac:(clear; lra) ltac:(clear; lra) ltac:(clear; lra) ltac:(clear; lra)).
  assert (h312 := gmul_1 w _ _ _ _ _ _ _ _ W k306 HS4 3.9834e-9 2.2993e-7 ltac:(clear; lra) ltac:(clear; lra) ltac:(clear; lra) ltac:(clear; lra)).
  assert (h313 := gsub w 1 _ _ _ _ _ _ _ _ W one_ok h311 h312 1.0509e-8 6.0656e-7 ltac:(clear; lra) ltac:(clear; lra) ltac:(clear; lra) ltac:(clear; lra)).
  assert (h314 := gmul_l w t _ _ _ _ _ _ _ _ W T HE4 k66 5.0001e0 3.0801e-4 ltac:(clear; lra) ltac:(clear; lra) ltac:(clear; lra) ltac:(clear; lra)).
  assert (h315 := gmul_l w t _ _ _ _ _ _ _ _ W T h314 h55 5.2522e2 3.0878e3 ltac:(clear; lra) ltac:(clear; lra) ltac:(clear; lra) ltac:(clear; lra)).
  assert (h316 := gmul_l w t _ _ _ _ _ _ _ _ W T h315 h310 5.5196e-6 3.5103e-4 ltac:(clear; lra) ltac:(clear; lra) ltac:(clear; lra) ltac:(clear; lra)).
  assert (h317 := gadd w t _ _ _ _ _ _ _ _ W T h295 h316 3.7510e-3 2.5856e-2 ltac:(clear; lra) ltac:(clear; lra) ltac:(clear; lra) ltac:(clear; lra)).
  assert (h318 := gmul_1 w _ _ _ _ _ _ _ _ W k63 HT 4.0121e1 8.2801e2 ltac:(clear; lra) ltac:(clear; lra) ltac:(clear; lra) ltac:(clear; lra)).
  assert (h319 := gmul_1 w _ _ _ _ _ _ _ _ W h318 h55 4.2144e3 1.1176e5 ltac:(clear; lra) ltac:(clear; lra) ltac:(clear; lra) ltac:(clear; lra)).
  assert (h320 := gsub w 1 _ _ _ _ _ _ _ _ W one_ok k56 h319 4.2145e3 1.1177e5 ltac:(clear; lra) ltac:(clear; lra) ltac:(clear; lra) ltac:(clear; lra)).
  assert (h321 := gmul_l w t _ _ _ _ _ _ _ _ W T HE4 h320 4.2146e3 1.1178e5 ltac:(clear; lra) ltac:(clear; lra) ltac:(clear; lra) ltac:(clear; lra)).
  assert (h322 := gmul_l w t _ _ _ _ _ _ _ _ W T h321 h310 4.4292e-5 3.7312e-3 ltac:(clear; lra) ltac:(clear; lra) ltac:(clear; lra) ltac:(clear; lra)).
  assert (h323 := gadd w t _ _ _ _ _ _ _ _ W T h301 h322 3.2684e-3 9.1361e-2 ltac:(clear; lra) ltac:(clear; lra) ltac:(clear; lra) ltac:(clear; lra)).
  assert (h324 := gmul_l w t _ _ _ _ _ _ _ _ W T HE4 k63 4.0001e0 2.4641e-4 ltac:(clear; lra) ltac:(clear; lra) ltac:(clear; lra) ltac:(clear; lra)).
  assert (h325 := gmul_l w t _ _ _ _ _ _ _ _ W T h324 h55 4.2018e2 2.4703e3 ltac:(clear; lra) ltac:(clear; lra) ltac:(clear; lra) ltac:(clear; lra)).
  assert (h326 := gmul_l w t _ _ _ _ _ _ _ _ W T h325 h313 4.4157e-6 2.8083e-4 ltac:(clear; lra) ltac:(clear; lra) ltac:(clear; lra) ltac:(clear; lra)).
  assert (h327 := gadd w t _ _ _ _ _ _ _ _ W T h305 h326 1.4510e-4 4.8244e-3 ltac:(clear; lra) ltac:(clear; lra) ltac:(clear; lra) ltac:(clear; lra)).
  cbv beta iota zeta delta [gravity_sums_b64 gravity_sums gravity_term_b64 gravity_term index2 Earth_C Earth_S Earth_C_b64 Earth_S_b64 Earth_DEGREE_AND_ORDER LegendrePolynomial LegendrePolynomial_b64 nth fold_left seq length Nat.add Nat.sub partial_r partial_phi partial_lamb].
  split; [exact h317|]. split; [exact h323|exact h327].
Qed.
