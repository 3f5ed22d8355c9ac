From Coq Require Import Reals Lra Psatz Lia List Nsatz.
From Coquelicot Require Import Coquelicot.
From Verif.Model Require Import Num Functions.
From Verif.Spec Require Import Legendre.
From Verif.Proofs Require Import NumLemmas.
Import ListNotations.
Local Open Scope R_scope.

(** [pderiv] is differentiation and [pmul] multiplication *)
Lemma peval_padd p q x : peval (padd p q) x = peval p x + peval q x.
Proof.
  revert q; induction p as [|a p IH]; intros [|b q]; simpl; try ring. rewrite IH; ring.
Qed.
Lemma peval_pscale k p x : peval (pscale k p) x = k * peval p x.
Proof. induction p as [|a p IH]; unfold pscale in *; simpl in *; [ring|]. rewrite IH; ring. Qed.
Lemma peval_pmul p q x : peval (pmul p q) x = peval p x * peval q x.
Proof.
  induction p as [|a p IH]; simpl; [ring|]. rewrite peval_padd, peval_pscale. simpl. rewrite IH; ring.
Qed.
Lemma peval_ppower p n x : peval (ppower p n) x = peval p x ^ n.
Proof. induction n; simpl; [ring|]. rewrite peval_pmul, IHn; ring. Qed.
Lemma pderiv_from_correct p k x :
  is_derive (fun x => x ^ S k * peval p x) x (x ^ k * peval (pderiv_from (S k) p) x).
Proof.
  revert k. induction p as [|a p IH]; intros k.
  - cbn [peval pderiv_from]. apply is_derive_ext with (f := fun _ => 0). { intros t. symmetry. apply Rmult_0_r. }
    rewrite Rmult_0_r. apply (is_derive_const (0 : R)).
  - cbn [peval pderiv_from].
    apply is_derive_ext with (f := fun t => a * t ^ S k + t ^ S (S k) * peval p t).
    { intros t. change (a * t ^ S k + t ^ S (S k) * peval p t = t ^ S k * (a + t * peval p t)). cbn [pow]. ring. }
    replace (x ^ k * (INR (S k) * a + x * peval (pderiv_from (S (S k)) p) x))
      with (a * (INR (S k) * x ^ k) + x ^ S k * peval (pderiv_from (S (S k)) p) x) by (cbn [pow]; ring).
    apply (is_derive_plus (fun t => a * t ^ S k) (fun t => t ^ S (S k) * peval p t)); [|apply IH].
    apply (is_derive_scal (fun t => t ^ S k)).
    apply is_derive_Reals. apply (derivable_pt_lim_pow x (S k)).
Qed.
Lemma pderiv_correct p x : derivable_pt_lim (peval p) x (peval (pderiv p) x).
Proof.
  apply is_derive_Reals. destruct p as [|a p]; unfold pderiv; cbn [tl peval].
  - apply (is_derive_const (0 : R)).
  - replace (peval (pderiv_from 1 p) x) with (0 + x ^ 0 * peval (pderiv_from 1 p) x) by ring.
    apply (is_derive_plus (fun _ => a) (fun t => t * peval p t)); [apply (is_derive_const (a : R))|].
    apply is_derive_ext with (f := fun t => t ^ 1 * peval p t). { intros t. change (t ^ 1 * peval p t = t * peval p t). ring. }
    apply pderiv_from_correct.
Qed.

Lemma sqrt_cos phi : - (PI / 2) <= phi <= PI / 2 -> sqrt (1 - sin phi * sin phi) = cos phi.
Proof.
  intros H. apply sqrt_eq; [apply cos_ge_0; lra|]. assert (T := sin2_cos2' phi). lra.
Qed.

Definition table (phi : R) (n m : nat) : R := nth m (nth n (LegendrePolynomial phi) []) 0.

Lemma legendre_table phi n m : - (PI / 2) <= phi <= PI / 2 -> (n <= 4)%nat -> (m <= n)%nat ->
  nth m (nth n (LegendrePolynomial phi) []) 0 = legendre n m (sin phi).
Proof.
  intros Hphi Hn Hm. unfold legendre. rewrite sqrt_cos by auto.
  assert (T := sin2_cos2' phi).
  destruct n as [|[|[|[|[|n]]]]]; try lia;
  destruct m as [|[|[|[|[|m]]]]]; try lia;
  cbn [nth LegendrePolynomial]; unfold pscale, pderiv; simpl; qlit; timeout 60 field.
Qed.
Lemma legendre_sentinel phi n : (n <= 4)%nat ->
  length (nth n (LegendrePolynomial phi) []) = (n + 2)%nat /\
  nth (S n) (nth n (LegendrePolynomial phi) []) 0 = 0.
Proof. intros Hn. destruct n as [|[|[|[|[|n]]]]]; try lia; simpl; auto. Qed.

Lemma legendre_derivative phi n m : cos phi <> 0 -> (n <= 4)%nat -> (m <= n)%nat ->
  derivable_pt_lim (fun x => nth m (nth n (LegendrePolynomial x) []) 0) phi
    (nth (S m) (nth n (LegendrePolynomial phi) []) 0
     - INR m * tan phi * nth m (nth n (LegendrePolynomial phi) []) 0).
Proof.
  intros Hc Hn Hm. assert (T := sin2_cos2' phi). unfold tan.
  assert (E : sin phi * sin phi = 1 - cos phi * cos phi) by lra.
  apply is_derive_Reals.
  destruct n as [|[|[|[|[|n]]]]]; try lia;
  destruct m as [|[|[|[|[|m]]]]]; try lia;
  cbn [nth LegendrePolynomial]; (auto_derive; [auto|]); simpl; qlit;
  set (s := sin phi) in *; set (c := cos phi) in *; clearbody s c; clear T;
  (field_simplify_eq; [|auto]); timeout 30 nsatz.
Qed.
