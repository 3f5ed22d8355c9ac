From Coq Require Import Reals ZArith Lra Lia Bool.
From Flocq Require Import Core IEEE754.BinarySingleNaN.
From Verif.Model Require Import Num TimeFloat.
Local Open Scope R_scope.

Notation bin := (binary_float 53 1024).
Lemma P53 : Prec_gt_0 53. Proof. reflexivity. Qed.
Lemma E1024 : Prec_lt_emax 53 1024. Proof. reflexivity. Qed.
#[local] Existing Instance P53. #[local] Existing Instance E1024.

Inductive fexpr :=
| FZ (z : Z)
| FAdd (a b : fexpr) | FSub (a b : fexpr) | FMul (a b : fexpr) | FDiv (a b : fexpr) | FSqrt (a : fexpr).

Fixpoint exact (e : fexpr) : R :=
  match e with
  | FZ z => b64 (IZR z)
  | FAdd a b => b64 (exact a + exact b)
  | FSub a b => b64 (exact a - exact b)
  | FMul a b => b64 (exact a * exact b)
  | FDiv a b => b64 (exact a / exact b)
  | FSqrt a => b64 (sqrt (exact a))
  end.

Definition nonzero (x : bin) : bool := match x with B754_finite _ _ _ _ => true | _ => false end.
Definition ok (x : bin) : option bin := if is_finite x then Some x else None.

Fixpoint calc (e : fexpr) : option bin :=
  match e with
  | FZ z => ok (binary_normalize 53 1024 _ _ mode_NE z 0 false)
  | FAdd a b => match calc a, calc b with Some x, Some y => ok (Bplus mode_NE x y) | _, _ => None end
  | FSub a b => match calc a, calc b with Some x, Some y => ok (Bminus mode_NE x y) | _, _ => None end
  | FMul a b => match calc a, calc b with Some x, Some y => ok (Bmult mode_NE x y) | _, _ => None end
  | FDiv a b => match calc a, calc b with Some x, Some y => if nonzero y then ok (Bdiv mode_NE x y) else None | _, _ => None end
  | FSqrt a => match calc a with Some x => ok (Bsqrt mode_NE x) | _ => None end
  end.

Lemma b64_round x : round radix2 (SpecFloat.fexp 53 1024) (round_mode mode_NE) x = b64 x.
Proof. reflexivity. Qed.

Lemma calc_exact : forall e x, calc e = Some x -> is_finite x = true /\ exact e = B2R x.
Proof.
  assert (K : forall z x, ok z = Some x -> z = x /\ is_finite x = true).
  { unfold ok. intros z x. destruct (is_finite z) eqn:F; [|discriminate]. intros H. injection H as <-. auto. }
  assert (O : forall (z : bin) s, is_finite z = true -> B2SF z = binary_overflow 53 1024 mode_NE s -> False).
  { intros z s F H. destruct z; discriminate. }
  induction e as [z|a IHa b IHb|a IHa b IHb|a IHa b IHb|a IHa b IHb|a IHa]; intros x H; cbn [calc exact] in *.
  - apply K in H. destruct H as [E F]. split; auto.
    generalize (binary_normalize_correct 53 1024 _ _ mode_NE z 0 false). cbv zeta. rewrite E. match goal with |- context [Rlt_bool ?p ?q] => destruct (Rlt_bool p q) end; intros C.
    + destruct C as [C _]. rewrite C. unfold b64. apply (f_equal (fun t => round radix2 (FLT_exp (-1074) 53) ZnearestE t)). unfold F2R. cbn. lra.
    + now apply O in C.
  - destruct (calc a) as [xa|]; [|discriminate]. destruct (calc b) as [xb|]; [|discriminate].
    destruct (IHa _ eq_refl) as [Fa ->], (IHb _ eq_refl) as [Fb ->]. apply K in H. destruct H as [E F]. split; auto.
    generalize (Bplus_correct 53 1024 _ _ mode_NE xa xb Fa Fb). rewrite E. match goal with |- context [Rlt_bool ?p ?q] => destruct (Rlt_bool p q) end; intros C.
    + destruct C as [C _]. rewrite C. reflexivity.
    + destruct C as [C _]. now apply O in C.
  - destruct (calc a) as [xa|]; [|discriminate]. destruct (calc b) as [xb|]; [|discriminate].
    destruct (IHa _ eq_refl) as [Fa ->], (IHb _ eq_refl) as [Fb ->]. apply K in H. destruct H as [E F]. split; auto.
    generalize (Bminus_correct 53 1024 _ _ mode_NE xa xb Fa Fb). rewrite E. match goal with |- context [Rlt_bool ?p ?q] => destruct (Rlt_bool p q) end; intros C.
    + destruct C as [C _]. rewrite C. reflexivity.
    + destruct C as [C _]. now apply O in C.
  - destruct (calc a) as [xa|]; [|discriminate]. destruct (calc b) as [xb|]; [|discriminate].
    destruct (IHa _ eq_refl) as [Fa ->], (IHb _ eq_refl) as [Fb ->]. apply K in H. destruct H as [E F]. split; auto.
    generalize (Bmult_correct 53 1024 _ _ mode_NE xa xb). rewrite E. match goal with |- context [Rlt_bool ?p ?q] => destruct (Rlt_bool p q) end; intros C.
    + destruct C as [C _]. rewrite C. reflexivity.
    + now apply O in C.
  - destruct (calc a) as [xa|]; [|discriminate]. destruct (calc b) as [xb|]; [|discriminate].
    destruct (nonzero xb) eqn:N; [|discriminate].
    destruct (IHa _ eq_refl) as [Fa ->], (IHb _ eq_refl) as [Fb ->]. apply K in H. destruct H as [E F]. split; auto.
    assert (NZ : B2R xb <> 0). { destruct xb; try discriminate. cbn. apply F2R_neq_0. cbn. destruct s; discriminate. }
    generalize (Bdiv_correct 53 1024 _ _ mode_NE xa xb NZ). rewrite E. match goal with |- context [Rlt_bool ?p ?q] => destruct (Rlt_bool p q) end; intros C.
    + destruct C as [C _]. rewrite C. reflexivity.
    + now apply O in C.
  - destruct (calc a) as [xa|]; [|discriminate]. destruct (IHa _ eq_refl) as [Fa ->]. apply K in H. destruct H as [E F]. split; auto.
    generalize (Bsqrt_correct 53 1024 _ _ mode_NE xa). rewrite E. intros [C _]. rewrite C. reflexivity.
Qed.

(** decided signs *)
Definition sgn (e : fexpr) : option comparison :=
  match calc e with
  | Some (B754_zero _) => Some Eq
  | Some (B754_finite true _ _ _) => Some Lt
  | Some (B754_finite false _ _ _) => Some Gt
  | _ => None
  end.
Lemma sgn_spec e : match sgn e with
  | Some Lt => exact e < 0 | Some Gt => 0 < exact e | Some Eq => exact e = 0 | None => True end.
Proof.
  unfold sgn. destruct (calc e) as [x|] eqn:C; auto. apply calc_exact in C. destruct C as [F ->].
  destruct x as [s| | |s m ex B]; cbn; auto; try discriminate. destruct s; cbn.
  - apply F2R_lt_0. reflexivity.
  - apply F2R_gt_0. reflexivity.
Qed.

(** decided equality *)
Definition feq (e f : fexpr) : bool :=
  match calc e, calc f with Some x, Some y => Beqb x y | _, _ => false end.
Lemma feq_spec e f : feq e f = true -> exact e = exact f.
Proof.
  unfold feq. destruct (calc e) as [x|] eqn:X; [|discriminate]. destruct (calc f) as [y|] eqn:Y; [|discriminate].
  apply calc_exact in X. apply calc_exact in Y. destruct X as [FX ->], Y as [FY ->]. intros H.
  rewrite Beqb_correct in H by auto. generalize (Req_bool_spec (B2R x) (B2R y)). rewrite H. now inversion 1.
Qed.
