(** Functions with bounded Lipschitz derivatives up to a given order, on any set of
    points with a measure of the gap between two of them. *)
From Coq Require Import Reals Lra Psatz Lia.
From Verif.Spec Require Import Geometry.
From Verif.Proofs Require Import NumLemmas LinalgProofs MatrixProofs Analysis CelestialProofs AccelerationProofs.
Local Open Scope R_scope.

(** Points of [dom]; two points are compared when [rel] holds; [inc i] is the change
    of the [i]-th coordinate. *)
Record space := Space {
  carrier : Type; dom : carrier -> Prop; rel : carrier -> carrier -> Prop;
  gap : carrier -> carrier -> R; gap_pos : forall p q, 0 <= gap p q;
  dims : nat; inc : nat -> carrier -> carrier -> R }.

Definition calm (X : space) (f : carrier X -> R) : Prop := exists M, 0 <= M /\
  (forall p, dom X p -> Rabs (f p) <= M) /\
  (forall p q, dom X p -> dom X q -> rel X p q -> Rabs (f q - f p) <= M * gap X p q).
Definition lin (X : space) (g : nat -> carrier X -> R) (p q : carrier X) : R :=
  sum (dims X) (fun i => g i p * inc X i p q).
Definition grows (X : space) (f : carrier X -> R) (g : nat -> carrier X -> R) : Prop := exists M, 0 <= M /\
  forall p q, dom X p -> dom X q -> rel X p q -> Rabs (f q - f p - lin X g p q) <= M * (gap X p q * gap X p q).
Fixpoint smooth (X : space) (n : nat) (f : carrier X -> R) : Prop :=
  calm X f /\ match n with
  | O => True
  | S n => exists g, (forall i, smooth X n (g i)) /\ grows X f g
  end.

Lemma calm_intro X f B L : (forall p, dom X p -> Rabs (f p) <= B) ->
  (forall p q, dom X p -> dom X q -> rel X p q -> Rabs (f q - f p) <= L * gap X p q) -> calm X f.
Proof.
  intros HB HL. exists (Rabs B + Rabs L). assert (B1 := Rle_abs B). assert (L1 := Rle_abs L).
  assert (B2 := Rabs_pos B). assert (L2 := Rabs_pos L). split; [lra|]. split.
  - intros p Hp. generalize (HB p Hp). lra.
  - intros p q Hp Hq R. eapply Rle_trans; [apply HL; auto|]. apply Rmult_le_compat_r; [apply gap_pos|lra].
Qed.
Lemma grows_intro X f g M : (forall p q, dom X p -> dom X q -> rel X p q ->
  Rabs (f q - f p - lin X g p q) <= M * (gap X p q * gap X p q)) -> grows X f g.
Proof.
  intros H. exists (Rabs M). split; [apply Rabs_pos|]. intros p q Hp Hq R. eapply Rle_trans; [apply H; auto|].
  apply Rmult_le_compat_r; [|apply Rle_abs]. apply Rmult_le_pos; apply gap_pos.
Qed.
Lemma smooth_calm X n f : smooth X n f -> calm X f.
Proof. destruct n; simpl; tauto. Qed.
Lemma smooth_lower X n : forall f, smooth X (S n) f -> smooth X n f.
Proof.
  induction n as [|n IH]; intros f (C & g & G & W).
  - split; auto.
  - split; auto. exists g. split; auto.
Qed.
Lemma smooth_le X n m f : (n <= m)%nat -> smooth X m f -> smooth X n f.
Proof. intros H. induction H; auto using smooth_lower. Qed.
Lemma calm_ext X f g : (forall p, dom X p -> f p = g p) -> calm X f -> calm X g.
Proof.
  intros E (M & M0 & B & L). exists M. split; auto. split.
  - intros p Hp. rewrite <- E; auto.
  - intros p q Hp Hq R. rewrite <- !E; auto.
Qed.
Lemma smooth_ext X n f g : (forall p, dom X p -> f p = g p) -> smooth X n f -> smooth X n g.
Proof.
  intros E. destruct n; simpl.
  - intros (C & _). split; auto. eapply calm_ext; eauto.
  - intros (C & d & D & M & M0 & W). split; [eapply calm_ext; eauto|]. exists d. split; auto. exists M. split; auto.
    intros p q Hp Hq R. rewrite <- !E; auto.
Qed.

(** * Linear parts *)
Lemma lin_plus X f g p q : lin X (fun i x => f i x + g i x) p q = lin X f p q + lin X g p q.
Proof. unfold lin. rewrite sum_plus. apply sum_ext. intros. ring. Qed.
Lemma lin_mult X a f p q : lin X (fun i x => a x * f i x) p q = a p * lin X f p q.
Proof. unfold lin. rewrite sum_scal_l. apply sum_ext. intros. ring. Qed.
Lemma lin_zero X p q : lin X (fun _ _ => 0) p q = 0.
Proof. unfold lin. rewrite (sum_ext _ _ (fun _ => 0)) by (intros; ring). apply sum_zero. Qed.
Lemma lin_opp X f p q : lin X (fun i x => - f i x) p q = - lin X f p q.
Proof.
  unfold lin. replace (- sum (dims X) (fun i => f i p * inc X i p q)) with (-1 * sum (dims X) (fun i => f i p * inc X i p q)) by ring.
  rewrite sum_scal_l. apply sum_ext. intros. ring.
Qed.

(** * Closure *)
Lemma calm_const X c : calm X (fun _ => c).
Proof.
  apply (calm_intro X _ (Rabs c) 0); intros; [lra|]. replace (c - c) with 0 by ring. rewrite Rabs_R0. lra.
Qed.
Lemma smooth_const X n : forall c, smooth X n (fun _ => c).
Proof.
  induction n as [|n IH]; intros c; split; auto using calm_const. exists (fun _ _ => 0). split; auto.
  apply (grows_intro X _ _ 0). intros. rewrite lin_zero. replace (c - c - 0) with 0 by ring. rewrite Rabs_R0. lra.
Qed.
Lemma calm_plus X f g : calm X f -> calm X g -> calm X (fun p => f p + g p).
Proof.
  intros (M & M0 & B & L) (N & N0 & B' & L'). apply (calm_intro X _ (M + N) (M + N)).
  - intros p Hp. eapply Rle_trans; [apply Rabs_triang|]. generalize (B p Hp) (B' p Hp). lra.
  - intros p q Hp Hq R. replace (f q + g q - (f p + g p)) with ((f q - f p) + (g q - g p)) by ring.
    eapply Rle_trans; [apply Rabs_triang|]. generalize (L p q Hp Hq R) (L' p q Hp Hq R). lra.
Qed.
Lemma smooth_plus X n : forall f g, smooth X n f -> smooth X n g -> smooth X n (fun p => f p + g p).
Proof.
  induction n as [|n IH]; intros f g (C & F) (C' & G); split; auto using calm_plus.
  destruct F as (d & D & M & M0 & W). destruct G as (d' & D' & M' & M0' & W').
  exists (fun i x => d i x + d' i x). split; [intros; apply IH; auto|]. apply (grows_intro X _ _ (M + M')).
  intros p q Hp Hq R. rewrite lin_plus.
  replace (f q + g q - (f p + g p) - (lin X d p q + lin X d' p q)) with ((f q - f p - lin X d p q) + (g q - g p - lin X d' p q)) by ring.
  eapply Rle_trans; [apply Rabs_triang|]. generalize (W p q Hp Hq R) (W' p q Hp Hq R). lra.
Qed.
Lemma calm_opp X f : calm X f -> calm X (fun p => - f p).
Proof.
  intros (M & M0 & B & L). apply (calm_intro X _ M M).
  - intros p Hp. rewrite Rabs_Ropp. auto.
  - intros p q Hp Hq R. replace (- f q - - f p) with (- (f q - f p)) by ring. rewrite Rabs_Ropp. auto.
Qed.
Lemma smooth_opp X n : forall f, smooth X n f -> smooth X n (fun p => - f p).
Proof.
  induction n as [|n IH]; intros f (C & F); split; auto using calm_opp.
  destruct F as (d & D & M & M0 & W). exists (fun i x => - d i x). split; [intros; apply IH; auto|]. apply (grows_intro X _ _ M).
  intros p q Hp Hq R. rewrite lin_opp. replace (- f q - - f p - - lin X d p q) with (- (f q - f p - lin X d p q)) by ring.
  rewrite Rabs_Ropp. auto.
Qed.
Lemma calm_mult X f g : calm X f -> calm X g -> calm X (fun p => f p * g p).
Proof.
  intros (M & M0 & B & L) (N & N0 & B' & L'). apply (calm_intro X _ (M * N) (M * N + N * M)).
  - intros p Hp. apply ab_mult; auto.
  - intros p q Hp Hq R. replace (f q * g q - f p * g p) with (f q * (g q - g p) + (f q - f p) * g p) by ring.
    eapply Rle_trans; [apply Rabs_triang|]. assert (D := gap_pos X p q).
    assert (A1 := ab_mult _ _ _ _ (B q Hq) (L' p q Hp Hq R)). assert (A2 := ab_mult _ _ _ _ (L p q Hp Hq R) (B' p Hp)).
    lra.
Qed.
Lemma smooth_mult X n : forall f g, smooth X n f -> smooth X n g -> smooth X n (fun p => f p * g p).
Proof.
  induction n as [|n IH]; intros f g F G; assert (F' := F); assert (G' := G); destruct F as (C & F); destruct G as (C' & G); split; auto using calm_mult.
  destruct F as (d & D & M & M0 & W). destruct G as (d' & D' & M' & M0' & W').
  exists (fun i x => g x * d i x + f x * d' i x). split.
  { intros i. apply smooth_plus; apply IH; auto using smooth_lower. }
  destruct C as (A & A0 & B & L). destruct C' as (A' & A0' & B' & L').
  apply (grows_intro X _ _ (M * A' + A * M' + A * A')). intros p q Hp Hq R.
  assert (E : lin X (fun i x => g x * d i x + f x * d' i x) p q = g p * lin X d p q + f p * lin X d' p q).
  { rewrite (lin_plus X (fun i x => g x * d i x) (fun i x => f x * d' i x)), !lin_mult. reflexivity. }
  rewrite E.
  replace (f q * g q - f p * g p - (g p * lin X d p q + f p * lin X d' p q)) with
    ((f q - f p - lin X d p q) * g p + f p * (g q - g p - lin X d' p q) + (f q - f p) * (g q - g p)) by ring.
  eapply Rle_trans; [apply Rabs_triang|]. assert (H1 := Rabs_triang ((f q - f p - lin X d p q) * g p) (f p * (g q - g p - lin X d' p q))).
  assert (A1 := ab_mult _ _ _ _ (W p q Hp Hq R) (B' p Hp)). assert (A2 := ab_mult _ _ _ _ (B p Hp) (W' p q Hp Hq R)).
  assert (A3 := ab_mult _ _ _ _ (L p q Hp Hq R) (L' p q Hp Hq R)). lra.
Qed.
Lemma calm_inv X c f : 0 < c -> (forall p, dom X p -> c <= Rabs (f p)) -> calm X f -> calm X (fun p => / f p).
Proof.
  intros Hc H (M & M0 & B & L). apply (calm_intro X _ (/ c) (/ c * / c * M)).
  - intros p Hp. rewrite Rabs_inv. apply Rinv_le_contravar; auto.
  - intros p q Hp Hq R. assert (H1 := H p Hp). assert (H2 := H q Hq).
    assert (f p <> 0). { intros E. rewrite E, Rabs_R0 in H1. lra. }
    assert (f q <> 0). { intros E. rewrite E, Rabs_R0 in H2. lra. }
    replace (/ f q - / f p) with (/ f q * / f p * (f p - f q)) by (field; auto).
    replace (/ c * / c * M * gap X p q) with (/ c * / c * (M * gap X p q)) by ring.
    apply ab_mult; [apply ab_mult; rewrite Rabs_inv; apply Rinv_le_contravar; auto|].
    rewrite Rabs_minus_sym. auto.
Qed.
Lemma smooth_inv X c n : forall f, 0 < c -> (forall p, dom X p -> c <= Rabs (f p)) -> smooth X n f -> smooth X n (fun p => / f p).
Proof.
  induction n as [|n IH]; intros f Hc H F; assert (F' := F); destruct F as (C & F); assert (CI := calm_inv X c f Hc H C); split; auto.
  destruct F as (d & D & M & M0 & W). assert (I := IH f Hc H (smooth_lower _ _ _ F')).
  exists (fun i x => - (/ f x * / f x) * d i x). split.
  { intros i. apply (smooth_mult X n (fun x => - (/ f x * / f x))); auto. apply smooth_opp. apply (smooth_mult X n (fun x => / f x)); auto. }
  destruct C as (A & A0 & B & L). destruct CI as (A' & A0' & B' & L').
  apply (grows_intro X _ _ (A' * A' * M + A' * A * A')). intros p q Hp Hq R.
  rewrite (lin_mult X (fun x => - (/ f x * / f x)) d).
  assert (H1 := H p Hp). assert (H2 := H q Hq).
  assert (f p <> 0). { intros E. rewrite E, Rabs_R0 in H1. lra. }
  assert (f q <> 0). { intros E. rewrite E, Rabs_R0 in H2. lra. }
  replace (/ f q - / f p - - (/ f p * / f p) * lin X d p q) with
    (- (/ f p * / f p * (f q - f p - lin X d p q)) + - (/ f p * (f q - f p) * (/ f q - / f p))) by (field; auto).
  eapply Rle_trans; [apply Rabs_triang|]. rewrite !Rabs_Ropp.
  assert (A1 := ab_mult _ _ _ _ (ab_mult _ _ _ _ (B' p Hp) (B' p Hp)) (W p q Hp Hq R)).
  assert (A2 := ab_mult _ _ _ _ (ab_mult _ _ _ _ (B' p Hp) (L p q Hp Hq R)) (L' p q Hp Hq R)). lra.
Qed.
Lemma calm_sqrt X c f : 0 < c -> (forall p, dom X p -> c <= f p) -> calm X f -> calm X (fun p => sqrt (f p)).
Proof.
  intros Hc H (M & M0 & B & L). assert (Sc : 0 < sqrt c) by (apply sqrt_lt_R0; auto).
  apply (calm_intro X _ (sqrt M) (/ sqrt c * M)).
  - intros p Hp. rewrite Rabs_pos_eq by apply sqrt_pos. apply sqrt_le_1_alt. eapply Rle_trans; [apply Rle_abs|]. auto.
  - intros p q Hp Hq R. assert (H1 := H p Hp). assert (H2 := H q Hq).
    assert (S1 : sqrt c <= sqrt (f p)) by (apply sqrt_le_1_alt; auto).
    assert (S2 : sqrt c <= sqrt (f q)) by (apply sqrt_le_1_alt; auto).
    replace (sqrt (f q) - sqrt (f p)) with (/ (sqrt (f q) + sqrt (f p)) * (f q - f p)).
    + rewrite Rmult_assoc. apply ab_mult; auto. rewrite Rabs_pos_eq by (left; apply Rinv_0_lt_compat; lra).
      apply Rinv_le_contravar; lra.
    + assert (Q1 := sqrt_sqrt (f p) ltac:(lra)). assert (Q2 := sqrt_sqrt (f q) ltac:(lra)).
      set (a := sqrt (f p)) in *. set (b := sqrt (f q)) in *. rewrite <- Q1, <- Q2. field. lra.
Qed.
Lemma smooth_sqrt X c n : forall f, 0 < c -> (forall p, dom X p -> c <= f p) -> smooth X n f -> smooth X n (fun p => sqrt (f p)).
Proof.
  induction n as [|n IH]; intros f Hc H F; assert (F' := F); destruct F as (C & F); assert (CI := calm_sqrt X c f Hc H C); split; auto.
  destruct F as (d & D & M & M0 & W). assert (I := IH f Hc H (smooth_lower _ _ _ F')).
  assert (Sc : 0 < sqrt c) by (apply sqrt_lt_R0; auto).
  assert (Low : forall p, dom X p -> sqrt c <= Rabs (sqrt (f p))).
  { intros p Hp. rewrite Rabs_pos_eq by apply sqrt_pos. apply sqrt_le_1_alt; auto. }
  assert (J := smooth_inv X (sqrt c) n _ Sc Low I).
  exists (fun i x => (/ 2 * / sqrt (f x)) * d i x). split.
  { intros i. apply (smooth_mult X n (fun x => / 2 * / sqrt (f x))); auto. apply (smooth_mult X n (fun _ => / 2)); auto using smooth_const. }
  destruct C as (A & A0 & B & L). assert (CJ := smooth_calm _ _ _ J). destruct CI as (A' & A0' & B' & L'). destruct CJ as (A2 & A20 & B2 & _).
  apply (grows_intro X _ _ (/ 2 * A2 * M + / 2 * A2 * (A' * A'))). intros p q Hp Hq R.
  rewrite (lin_mult X (fun x => / 2 * / sqrt (f x)) d).
  assert (H1 := H p Hp). assert (H2 := H q Hq).
  assert (Q1 := sqrt_sqrt (f p) ltac:(lra)). assert (Q2 := sqrt_sqrt (f q) ltac:(lra)).
  assert (P1 : 0 < sqrt (f p)) by (apply sqrt_lt_R0; lra).
  assert (E : sqrt (f q) - sqrt (f p) - / 2 * / sqrt (f p) * lin X d p q =
    / 2 * / sqrt (f p) * (f q - f p - lin X d p q) + - (/ 2 * / sqrt (f p) * ((sqrt (f q) - sqrt (f p)) * (sqrt (f q) - sqrt (f p))))).
  { rewrite <- Q1 at 4. rewrite <- Q2 at 2. set (a := sqrt (f p)) in *. set (b := sqrt (f q)) in *. field. lra. }
  rewrite E. eapply Rle_trans; [apply Rabs_triang|]. rewrite Rabs_Ropp.
  assert (Hh : Rabs (/ 2) <= / 2) by (rewrite Rabs_pos_eq; lra).
  assert (X1 := ab_mult _ _ _ _ (ab_mult _ _ _ _ Hh (B2 p Hp)) (W p q Hp Hq R)).
  assert (X2 := ab_mult _ _ _ _ (ab_mult _ _ _ _ Hh (B2 p Hp)) (ab_mult _ _ _ _ (L' p q Hp Hq R) (L' p q Hp Hq R))). lra.
Qed.
Lemma calm_sin X f : calm X f -> calm X (fun p => sin (f p)).
Proof.
  intros (M & M0 & B & L). apply (calm_intro X _ 1 M); intros; [apply sin_abs|].
  eapply Rle_trans; [apply sin_lip|]. auto.
Qed.
Lemma calm_cos X f : calm X f -> calm X (fun p => cos (f p)).
Proof.
  intros (M & M0 & B & L). apply (calm_intro X _ 1 M); intros; [apply cos_abs|].
  eapply Rle_trans; [apply cos_lip|]. auto.
Qed.
Lemma sin_growth x y : Rabs (sin y - sin x - cos x * (y - x)) <= (y - x) * (y - x).
Proof.
  set (F := fun u => sin u - cos x * u). set (F' := fun u => cos u - cos x).
  assert (Dv : forall c, derivable_pt_lim F c (F' c)).
  { intros c. unfold F, F'. apply derivable_pt_lim_minus; [apply derivable_pt_lim_sin|].
    replace (cos x) with (cos x * 1) at 2 by ring. apply derivable_pt_lim_scal, derivable_pt_lim_id. }
  assert (Main : forall a b, a < b -> a <= x <= b -> Rabs (F b - F a) <= (b - a) * (b - a)).
  { intros a b Hab Hx. destruct (MVT_cor2 F F' a b Hab (fun c _ => Dv c)) as (c & E & Hc). rewrite E.
    apply Rle_trans with ((b - a) * Rabs (b - a)); [|rewrite Rabs_pos_eq; lra].
    apply ab_mult; [|lra]. unfold F'. eapply Rle_trans; [apply cos_lip|]. unfold Rabs; destruct Rcase_abs; lra. }
  replace (sin y - sin x - cos x * (y - x)) with (F y - F x) by (unfold F; ring).
  destruct (Rtotal_order x y) as [H|[H|H]].
  - apply Main; lra.
  - subst y. replace (F x - F x) with 0 by ring. rewrite Rabs_R0. nra.
  - rewrite Rabs_minus_sym. replace ((y - x) * (y - x)) with ((x - y) * (x - y)) by ring. apply Main; lra.
Qed.
Lemma cos_growth x y : Rabs (cos y - cos x - - sin x * (y - x)) <= (y - x) * (y - x).
Proof.
  assert (H := sin_growth (PI / 2 - x) (PI / 2 - y)). rewrite !sin_shift, cos_shift in H.
  replace (- sin x * (y - x)) with (sin x * (PI / 2 - y - (PI / 2 - x))) by ring.
  replace ((y - x) * (y - x)) with ((PI / 2 - y - (PI / 2 - x)) * (PI / 2 - y - (PI / 2 - x))) by ring. exact H.
Qed.
Lemma smooth_trig X n : forall f, smooth X n f -> smooth X n (fun p => sin (f p)) /\ smooth X n (fun p => cos (f p)).
Proof.
  induction n as [|n IH]; intros f F; assert (F' := F); destruct F as (C & F); (split; split; [apply calm_sin; auto| |apply calm_cos; auto|]); auto;
  destruct F as (d & D & M & M0 & W); destruct (IH f (smooth_lower _ _ _ F')) as (I1 & I2); destruct C as (A & A0 & B & L).
  - exists (fun i x => cos (f x) * d i x). split; [intros i; apply (smooth_mult X n (fun x => cos (f x))); auto|].
    apply (grows_intro X _ _ (A * A + 1 * M)). intros p q Hp Hq R. rewrite (lin_mult X (fun x => cos (f x)) d).
    replace (sin (f q) - sin (f p) - cos (f p) * lin X d p q) with
      ((sin (f q) - sin (f p) - cos (f p) * (f q - f p)) + cos (f p) * (f q - f p - lin X d p q)) by ring.
    eapply Rle_trans; [apply Rabs_triang|]. assert (G := sin_growth (f p) (f q)).
    assert (X1 := ab_mult _ _ _ _ (cos_abs (f p)) (W p q Hp Hq R)).
    assert (X2 := ab_mult _ _ _ _ (L p q Hp Hq R) (L p q Hp Hq R)). rewrite (Rabs_pos_eq ((f q - f p) * (f q - f p))) in X2 by apply Rle_0_sqr. lra.
  - exists (fun i x => - sin (f x) * d i x). split; [intros i; apply (smooth_mult X n (fun x => - sin (f x))); auto using smooth_opp|].
    apply (grows_intro X _ _ (A * A + 1 * M)). intros p q Hp Hq R. rewrite (lin_mult X (fun x => - sin (f x)) d).
    replace (cos (f q) - cos (f p) - - sin (f p) * lin X d p q) with
      ((cos (f q) - cos (f p) - - sin (f p) * (f q - f p)) + - (sin (f p) * (f q - f p - lin X d p q))) by ring.
    eapply Rle_trans; [apply Rabs_triang|]. rewrite Rabs_Ropp. assert (G := cos_growth (f p) (f q)).
    assert (X1 := ab_mult _ _ _ _ (sin_abs (f p)) (W p q Hp Hq R)).
    assert (X2 := ab_mult _ _ _ _ (L p q Hp Hq R) (L p q Hp Hq R)). rewrite (Rabs_pos_eq ((f q - f p) * (f q - f p))) in X2 by apply Rle_0_sqr. lra.
Qed.
