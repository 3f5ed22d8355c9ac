(** Proofs about the relative Kalman filter. *)
From Coq Require Import Reals Lra Lia List.
From Verif.Model Require Import Num Constants Linalg Functions Time Celestial Positions States Relative Obs Filtering.
From Verif.Spec Require Import Geometry Hill Covariance.
From Verif.Proofs Require Import NumLemmas LinalgProofs MatrixProofs StatesProofs RelativeProofs.
Local Open Scope R_scope.

(** * Sandwich products A P A^T *)
Definition sandwich (m : nat) (a p : nat -> nat -> R) (i j : nat) : R :=
  sum m (fun k => a i k * sum m (fun l => p k l * a j l)).

Lemma quad_ext n m m' v v' : (forall i j, (i < n)%nat -> (j < n)%nat -> m i j = m' i j) ->
  (forall i, (i < n)%nat -> v i = v' i) -> quad n m v = quad n m' v'.
Proof.
  intros H V. unfold quad. apply sum_ext; intros i Hi. apply sum_ext; intros j Hj. rewrite H, !V by auto. reflexivity.
Qed.
Lemma quad_plus n a b v : quad n (fun i j => a i j + b i j) v = quad n a v + quad n b v.
Proof.
  unfold quad. rewrite sum_plus. apply sum_ext; intros. rewrite sum_plus. apply sum_ext; intros. ring.
Qed.
Lemma quad_sandwich n m a p v :
  quad n (sandwich m a p) v = quad m p (fun k => sum n (fun i => a i k * v i)).
Proof.
  unfold quad, sandwich.
  transitivity (sum n (fun i => sum n (fun j => sum m (fun k => sum m (fun l => (a i k * v i) * p k l * (a j l * v j)))))).
  - apply sum_ext; intros i _. apply sum_ext; intros j _.
    rewrite sum_scal_l, sum_scal_r. apply sum_ext; intros k _.
    rewrite <- Rmult_assoc, sum_scal_l, sum_scal_r. apply sum_ext; intros l _. ring.
  - transitivity (sum m (fun k => sum n (fun i => sum m (fun l => sum n (fun j => (a i k * v i) * p k l * (a j l * v j)))))).
    + rewrite (sum_ext n _ (fun i => sum m (fun k => sum n (fun j => sum m (fun l => (a i k * v i) * p k l * (a j l * v j)))))).
      2:{ intros i _. apply sum_swap. }
      rewrite sum_swap. apply sum_ext; intros k _. apply sum_ext; intros i _. apply sum_swap.
    + apply sum_ext; intros k _. rewrite sum_swap. apply sum_ext; intros l _.
      rewrite (sum_scal_r n (p k l)). rewrite sum_scal_r. apply sum_ext; intros i _.
      rewrite sum_scal_l. reflexivity.
Qed.
Lemma sandwich_symmetric n m a p : symmetric m p -> symmetric n (sandwich m a p).
Proof.
  intros H i j _ _. unfold sandwich.
  rewrite (sum_ext m _ (fun k => sum m (fun l => a i k * (p k l * a j l)))) by (intros; apply sum_scal_l).
  rewrite sum_swap. apply sum_ext; intros k Hk. rewrite sum_scal_l. apply sum_ext; intros l Hl. rewrite (H l k) by auto. ring.
Qed.
Lemma symmetric_plus n a b : symmetric n a -> symmetric n b -> symmetric n (fun i j => a i j + b i j).
Proof. intros A B i j Hi Hj. rewrite A, B by auto. reflexivity. Qed.
Lemma symmetric_ext n a b : (forall i j, (i < n)%nat -> (j < n)%nat -> a i j = b i j) -> symmetric n b -> symmetric n a.
Proof. intros E H i j Hi Hj. rewrite !E, H by auto. reflexivity. Qed.

(** * Entries of the filter's matrices *)
Lemma ent_predicted f p q i j : (i < 6)%nat -> (j < 6)%nat ->
  ent66 (predicted_covariance f p q) i j = sandwich 6 (ent66 f) (ent66 p) i j + ent66 q i j.
Proof.
  intros Hi Hj. unfold predicted_covariance, sandwich. rewrite ent_m66_plus, ent_m66_multiply_matrix by auto. f_equal.
  apply sum_ext; intros k Hk. rewrite ent_m66_multiply_matrix by auto. apply Rmult_eq_compat_l. apply sum_ext; intros l Hl.
  rewrite ent_m66_transpose by auto. reflexivity.
Qed.
Definition leftover (g : mat63) (i k : nat) : R := delta i k - (if Nat.ltb k 3 then ent63 g i k else 0).
Lemma cases3 (P : nat -> Prop) i : (i < 3)%nat -> P 0%nat -> P 1%nat -> P 2%nat -> P i.
Proof. intros H A B C. destruct i as [|[|[|i]]]; auto; lia. Qed.
Lemma cases6 (P : nat -> Prop) i : (i < 6)%nat -> P 0%nat -> P 1%nat -> P 2%nat -> P 3%nat -> P 4%nat -> P 5%nat -> P i.
Proof. intros H A B C D E F. destruct i as [|[|[|[|[|[|i]]]]]]; auto; lia. Qed.
Lemma ent_KH i j : (i < 3)%nat -> (j < 6)%nat -> ent36 KH i j = delta i j.
Proof. intros Hi Hj. apply (cases3 (fun i => ent36 KH i j = delta i j)); auto; apply (cases6 (fun j => _ j = _ j)); auto; reflexivity. Qed.
Lemma ent_KHT i j : (i < 6)%nat -> (j < 3)%nat -> ent63 KHT i j = delta i j.
Proof. intros Hi Hj. unfold KHT. rewrite ent_m36_transpose, ent_KH by auto. unfold delta. rewrite Nat.eqb_sym. reflexivity. Qed.
Lemma ent_leftover g i k : (i < 6)%nat -> (k < 6)%nat ->
  ent66 (m66_minus KI (m63_multiply_matrix3by6 g KH)) i k = leftover g i k.
Proof.
  intros Hi Hk. rewrite ent_m66_minus, ent_m66_identity, ent_m63_multiply_matrix3by6 by auto. unfold leftover. f_equal.
  rewrite (sum_ext 3 _ (fun l => ent63 g i l * delta l k)) by (intros; rewrite ent_KH by auto; reflexivity).
  apply (cases6 (fun k => sum 3 (fun l => ent63 g i l * delta l k) = if Nat.ltb k 3 then ent63 g i k else 0)); auto; cbn; ring.
Qed.
Lemma ent_updated p g r i j : (i < 6)%nat -> (j < 6)%nat ->
  ent66 (updated_covariance p g r) i j = sandwich 6 (leftover g) (ent66 p) i j + sandwich 3 (ent63 g) (ent33 r) i j.
Proof.
  intros Hi Hj. unfold updated_covariance, sandwich. cbv zeta. rewrite ent_m66_plus, ent_m66_multiply_matrix, ent_m63_multiply_matrix3by6 by auto. f_equal.
  - apply sum_ext; intros k Hk. rewrite ent_leftover, ent_m66_multiply_matrix by auto. f_equal. apply sum_ext; intros l Hl.
    rewrite ent_m66_transpose, ent_leftover by auto. reflexivity.
  - apply sum_ext; intros k Hk. rewrite ent_m3_multiply_matrix3by6 by auto. apply Rmult_eq_compat_l. apply sum_ext; intros l Hl.
    rewrite ent_m63_transpose by auto. reflexivity.
Qed.
Lemma ent_innovation p r i j : (i < 3)%nat -> (j < 3)%nat ->
  ent33 (m3_plus (m36_multiply_matrix_6by3 KH (m66_multiply_matrix_6by3 p KHT)) r) i j = innovation p r i j.
Proof.
  intros Hi Hj. rewrite ent_m3_plus, ent_m36_multiply_matrix_6by3 by auto. unfold innovation. f_equal.
  rewrite (sum_ext 6 _ (fun k => delta i k * ent66 p k j)).
  - rewrite sum_delta by lia. reflexivity.
  - intros k Hk. rewrite ent_KH by auto. f_equal. rewrite ent_m66_multiply_matrix_6by3 by lia.
    rewrite (sum_ext 6 _ (fun l => delta j l * ent66 p k l)).
    + rewrite sum_delta by lia. reflexivity.
    + intros l Hl. rewrite ent_KHT by auto. unfold delta. rewrite Nat.eqb_sym. ring.
Qed.
Lemma ent_noise h i j : (i < 3)%nat -> (j < 3)%nat -> ent33 (measurement_noise h) i j = delta i j * (ent3v h i * ent3v h i).
Proof.
  intros Hi Hj. destruct i as [|[|[|i]]], j as [|[|[|j]]]; try lia; cbn; ring.
Qed.

(** * Definiteness *)
Lemma quad_diagonal n (d : nat -> R) v : quad n (fun i j => delta i j * d i) v = sum n (fun i => d i * (v i * v i)).
Proof.
  unfold quad. apply sum_ext; intros i Hi. rewrite <- (sum_delta n i (fun j => d i * (v i * v j))) by auto.
  apply sum_ext; intros j Hj. ring.
Qed.
Lemma sum_nonneg n f : (forall i, (i < n)%nat -> 0 <= f i) -> 0 <= sum n f.
Proof. induction n; simpl; intros H; [lra|]. assert (A := IHn (fun i Hi => H i (Nat.lt_lt_succ_r _ _ Hi))). assert (B := H n (Nat.lt_succ_diag_r n)). lra. Qed.
Lemma sum_pos n f i : (forall i, (i < n)%nat -> 0 <= f i) -> (i < n)%nat -> 0 < f i -> 0 < sum n f.
Proof.
  induction n; simpl; intros H Hi P; [lia|].
  assert (A : 0 <= sum n f) by (apply sum_nonneg; intros; apply H; lia). assert (B := H n (Nat.lt_succ_diag_r n)).
  destruct (Nat.eq_dec i n) as [->|N]; [lra|]. assert (0 < sum n f) by (apply IHn; [intros; apply H; lia|lia|auto]). lra.
Qed.
Lemma quad_diagonal_nonneg n d : (forall i, (i < n)%nat -> 0 <= d i) -> semidefinite n (fun i j => delta i j * d i).
Proof.
  intros H v. rewrite quad_diagonal. apply sum_nonneg; intros i Hi. apply Rmult_le_pos; auto. apply Rle_0_sqr.
Qed.
Lemma quad_diagonal_pos n d : (forall i, (i < n)%nat -> 0 < d i) -> definite n (fun i j => delta i j * d i).
Proof.
  intros H v (i & Hi & V). rewrite quad_diagonal. apply (sum_pos n _ i); auto.
  - intros k Hk. apply Rmult_le_pos; [apply Rlt_le; auto|apply Rle_0_sqr].
  - apply Rmult_lt_0_compat; auto. apply Rsqr_pos_lt; auto.
Qed.
Lemma diagonal_symmetric n d : symmetric n (fun i j => delta i j * d i).
Proof.
  intros i j _ _. unfold delta. rewrite (Nat.eqb_sym j i). destruct (Nat.eqb i j) eqn:E; [|ring].
  apply Nat.eqb_eq in E. subst. reflexivity.
Qed.
Lemma semidefinite_ext n a b : (forall i j, (i < n)%nat -> (j < n)%nat -> a i j = b i j) -> semidefinite n b -> semidefinite n a.
Proof. intros E H v. rewrite (quad_ext n a b v v) by auto. apply H. Qed.
Lemma definite_ext n a b : (forall i j, (i < n)%nat -> (j < n)%nat -> a i j = b i j) -> definite n b -> definite n a.
Proof. intros E H v V. rewrite (quad_ext n a b v v) by auto. apply H; auto. Qed.
Lemma sandwich_semidefinite n m a p : semidefinite m p -> semidefinite n (sandwich m a p).
Proof. intros H v. rewrite quad_sandwich. apply H. Qed.

Lemma noise_semidefinite h : semidefinite 3 (ent33 (measurement_noise h)).
Proof.
  apply (semidefinite_ext 3 _ (fun i j => delta i j * (ent3v h i * ent3v h i))); [intros; apply ent_noise; auto|].
  apply (quad_diagonal_nonneg 3 (fun i => ent3v h i * ent3v h i)). intros. apply Rle_0_sqr.
Qed.
Lemma noise_symmetric h : symmetric 3 (ent33 (measurement_noise h)).
Proof.
  apply (symmetric_ext 3 _ (fun i j => delta i j * (ent3v h i * ent3v h i))); [intros; apply ent_noise; auto|].
  apply (diagonal_symmetric 3 (fun i => ent3v h i * ent3v h i)).
Qed.
Lemma ent_default_noise i j : (i < 6)%nat -> (j < 6)%nat -> ent66 DEFAULT_NOISE i j = delta i j * 1e-16.
Proof. intros Hi Hj. destruct i as [|[|[|[|[|[|i]]]]]], j as [|[|[|[|[|[|j]]]]]]; try lia; unfold delta; cbn [Nat.eqb ent66 ent6v DEFAULT_NOISE m66_row1 m66_row2 m66_row3 m66_row4 m66_row5 m66_row6 x6 y6 z6 vx6 vy6 vz6]; lra. Qed.
Lemma ent_default_covariance i j : (i < 6)%nat -> (j < 6)%nat ->
  ent66 DEFAULT_COVARIANCE i j = delta i j * (if Nat.ltb i 3 then 0.5 else 5e-5).
Proof. intros Hi Hj. destruct i as [|[|[|[|[|[|i]]]]]], j as [|[|[|[|[|[|j]]]]]]; try lia; unfold delta; cbn [Nat.eqb Nat.ltb Nat.leb ent66 ent6v DEFAULT_COVARIANCE m66_row1 m66_row2 m66_row3 m66_row4 m66_row5 m66_row6 x6 y6 z6 vx6 vy6 vz6]; lra. Qed.
Lemma default_noise_definite : definite 6 (ent66 DEFAULT_NOISE).
Proof.
  apply (definite_ext 6 _ _ ent_default_noise). apply (quad_diagonal_pos 6 (fun _ => 1e-16)). intros. lra.
Qed.
Lemma default_noise_symmetric : symmetric 6 (ent66 DEFAULT_NOISE).
Proof. apply (symmetric_ext 6 _ _ ent_default_noise). apply (diagonal_symmetric 6 (fun _ => 1e-16)). Qed.
Lemma default_covariance_semidefinite : semidefinite 6 (ent66 DEFAULT_COVARIANCE).
Proof.
  apply (semidefinite_ext 6 _ _ ent_default_covariance). apply (quad_diagonal_nonneg 6 (fun i => if Nat.ltb i 3 then 0.5 else 5e-5)).
  intros. destruct (Nat.ltb i 3); lra.
Qed.
Lemma default_covariance_symmetric : symmetric 6 (ent66 DEFAULT_COVARIANCE).
Proof. apply (symmetric_ext 6 _ _ ent_default_covariance). apply (diagonal_symmetric 6 (fun i => if Nat.ltb i 3 then 0.5 else 5e-5)). Qed.

Lemma predicted_definite f p q : semidefinite 6 (ent66 p) -> definite 6 (ent66 q) -> definite 6 (ent66 (predicted_covariance f p q)).
Proof.
  intros P Q v V. rewrite (quad_ext 6 _ (fun i j => sandwich 6 (ent66 f) (ent66 p) i j + ent66 q i j) v v)
    by (intros; auto using ent_predicted).
  rewrite quad_plus. assert (A := sandwich_semidefinite 6 6 (ent66 f) (ent66 p) P v). assert (B := Q v V). lra.
Qed.
Lemma predicted_symmetric f p q : symmetric 6 (ent66 p) -> symmetric 6 (ent66 q) -> symmetric 6 (ent66 (predicted_covariance f p q)).
Proof.
  intros P Q. apply (symmetric_ext 6 _ (fun i j => sandwich 6 (ent66 f) (ent66 p) i j + ent66 q i j)); [intros; apply ent_predicted; auto|].
  apply symmetric_plus; auto. apply sandwich_symmetric; auto.
Qed.
Lemma updated_semidefinite p g r : semidefinite 6 (ent66 p) -> semidefinite 3 (ent33 r) -> semidefinite 6 (ent66 (updated_covariance p g r)).
Proof.
  intros P Q v. rewrite (quad_ext 6 _ (fun i j => sandwich 6 (leftover g) (ent66 p) i j + sandwich 3 (ent63 g) (ent33 r) i j) v v)
    by (intros; auto using ent_updated).
  rewrite quad_plus. assert (A := sandwich_semidefinite 6 6 (leftover g) (ent66 p) P v).
  assert (B := sandwich_semidefinite 6 3 (ent63 g) (ent33 r) Q v). lra.
Qed.
Lemma updated_symmetric p g r : symmetric 6 (ent66 p) -> symmetric 3 (ent33 r) -> symmetric 6 (ent66 (updated_covariance p g r)).
Proof.
  intros P Q. apply (symmetric_ext 6 _ (fun i j => sandwich 6 (leftover g) (ent66 p) i j + sandwich 3 (ent63 g) (ent33 r) i j)).
  - intros; apply ent_updated; auto.
  - apply symmetric_plus; apply sandwich_symmetric; auto.
Qed.

(** The variance of the estimate is the quadratic form of the updated
    covariance, for every gain. *)
Lemma sum_leftover g v k : (k < 6)%nat -> sum 6 (fun i => leftover g i k * v i) =
  v k - (if Nat.ltb k 3 then sum 6 (fun i => ent63 g i k * v i) else 0).
Proof.
  intros Hk. unfold leftover. rewrite (sum_ext 6 _ (fun i => delta k i * v i + (- (if Nat.ltb k 3 then ent63 g i k else 0)) * v i)).
  2:{ intros i _. unfold delta. rewrite Nat.eqb_sym. ring. }
  rewrite <- sum_plus, sum_delta by auto. unfold Rminus. f_equal. destruct (Nat.ltb k 3).
  - cbn [sum]. ring.
  - cbn [sum]. ring.
Qed.
Lemma updated_variance p g r v : quad 6 (ent66 (updated_covariance p g r)) v = variance p r g v.
Proof.
  rewrite (quad_ext 6 _ (fun i j => sandwich 6 (leftover g) (ent66 p) i j + sandwich 3 (ent63 g) (ent33 r) i j) v v)
    by (intros; auto using ent_updated).
  rewrite quad_plus, !quad_sandwich. unfold variance. f_equal. apply quad_ext; auto. intros. apply sum_leftover; auto.
Qed.

(** * The innovation covariance is invertible *)
Lemma innovation_definite p r : definite 6 (ent66 p) -> semidefinite 3 (ent33 r) -> definite 3 (innovation p r).
Proof.
  intros P Q v (i & Hi & V). unfold innovation. rewrite quad_plus. assert (B := Q v).
  assert (E : quad 3 (ent66 p) v = quad 6 (ent66 p) (fun i => if Nat.ltb i 3 then v i else 0)) by (unfold quad; cbn [sum Nat.ltb Nat.leb]; ring).
  rewrite E. assert (A : 0 < quad 6 (ent66 p) (fun i => if Nat.ltb i 3 then v i else 0)); [|lra].
  apply P. exists i. split; [lia|]. destruct (Nat.ltb_spec i 3); auto; lia.
Qed.
Lemma definite_determinant m : symmetric 3 (ent33 m) -> definite 3 (ent33 m) -> 0 < m3_determinant m.
Proof.
  intros S D. assert (S01 := S 0%nat 1%nat ltac:(lia) ltac:(lia)). assert (S02 := S 0%nat 2%nat ltac:(lia) ltac:(lia)). assert (S12 := S 1%nat 2%nat ltac:(lia) ltac:(lia)).
  destruct m as [[a b c] [b' d e] [c' e' f]]. cbn in S01, S02, S12. subst b' c' e'.
  assert (A : 0 < a).
  { assert (Q := D (fun i => if Nat.eqb i 0 then 1 else 0) ltac:(exists 0%nat; split; [lia|cbn; lra])). unfold quad in Q. cbn in Q. lra. }
  assert (B : 0 < a * d - b * b).
  { assert (Q := D (fun i => match i with 0%nat => - b | 1%nat => a | _ => 0 end) ltac:(exists 1%nat; split; [lia|cbn; lra])).
    unfold quad in Q. cbn in Q. assert (E : 0 < a * (a * d - b * b)) by lra. apply (Rmult_lt_reg_l a); lra. }
  assert (Q := D (fun i => match i with 0%nat => b * e - c * d | 1%nat => b * c - a * e | _ => a * d - b * b end) ltac:(exists 2%nat; split; [lia|cbn; lra])).
  unfold quad in Q. cbn in Q. unfold m3_determinant. cbn.
  assert (E : forall x, 0 < (a * d - b * b) * x -> 0 < x) by (intros x Hx; apply (Rmult_lt_reg_l (a * d - b * b)); lra).
  apply E. eapply Rlt_le_trans; [exact Q|]. right. ring.
Qed.
Lemma gain_ok p r : definite 6 (ent66 p) -> symmetric 6 (ent66 p) -> semidefinite 3 (ent33 r) -> symmetric 3 (ent33 r) ->
  exists g, kalman_gain p r = Ok g /\
  forall i j, (i < 6)%nat -> (j < 3)%nat -> sum 3 (fun k => ent63 g i k * innovation p r k j) = ent66 p i j.
Proof.
  intros P PS Q QS. unfold kalman_gain. cbv zeta. set (s := m3_plus _ r).
  assert (ES : forall i j, (i < 3)%nat -> (j < 3)%nat -> ent33 s i j = innovation p r i j) by (intros; apply ent_innovation; auto).
  assert (D : 0 < m3_determinant s).
  { apply definite_determinant.
    - apply (symmetric_ext 3 _ (innovation p r)); auto. apply symmetric_plus; auto. intros i j Hi Hj. apply PS; lia.
    - apply (definite_ext 3 _ (innovation p r)); auto. apply innovation_definite; auto. }
  destruct (inverse_spec s) as (w & E & W); [lra|]. rewrite E. cbn [bind]. eexists. split; [reflexivity|].
  intros i j Hi Hj.
  rewrite (sum_ext 3 _ (fun k => sum 3 (fun l => ent66 p i l * ent33 w l k) * ent33 s k j)).
  - rewrite sum_assoc. rewrite (sum_ext 3 _ (fun l => delta j l * ent66 p i l)).
    + rewrite sum_delta by auto. reflexivity.
    + intros l Hl. destruct (W l j Hl Hj) as [_ W2]. rewrite W2. unfold delta. rewrite Nat.eqb_sym. ring.
  - intros k Hk. rewrite ES by auto. f_equal. rewrite ent_m66_multiply_matrix_6by3 by auto.
    rewrite (sum_ext 6 _ (fun l => ent66 p i l * (if Nat.ltb l 3 then ent33 w l k else 0))).
    + cbn [sum Nat.ltb Nat.leb]. ring.
    + intros l Hl. apply Rmult_eq_compat_l. rewrite ent_m63_multiply by auto.
      rewrite (sum_ext 3 _ (fun m => delta l m * ent33 w m k)) by (intros; rewrite ent_KHT by auto; reflexivity).
      destruct (Nat.ltb_spec l 3); [apply (sum_delta 3 l (fun m => ent33 w m k)); auto|].
      rewrite <- (sum_zero 3). apply sum_ext; intros m Hm. unfold delta. destruct (Nat.eqb_spec l m); [lia|ring].
Qed.

(** * Optimality *)
Lemma joseph_short p g r : symmetric 6 (ent66 p) ->
  (forall i j, (i < 6)%nat -> (j < 3)%nat -> sum 3 (fun k => ent63 g i k * innovation p r k j) = ent66 p i j) ->
  forall i j, (i < 6)%nat -> (j < 6)%nat ->
  ent66 (updated_covariance p g r) i j = ent66 p i j - sum 3 (fun k => ent63 g i k * ent66 p k j).
Proof.
  intros PS K i j Hi Hj. rewrite ent_updated by auto.
  assert (L : forall i (f : nat -> R), (i < 6)%nat -> sum 6 (fun k => leftover g i k * f k) = f i - sum 3 (fun k => ent63 g i k * f k)).
  { intros a f Ha. unfold leftover. rewrite (sum_ext 6 _ (fun k => delta a k * f k + (- (if Nat.ltb k 3 then ent63 g a k else 0)) * f k)) by (intros; ring).
    rewrite <- sum_plus, sum_delta by auto. cbn [sum Nat.ltb Nat.leb]. ring. }
  unfold sandwich. rewrite L by auto.
  rewrite (sum_ext 6 (fun l => ent66 p i l * leftover g j l) (fun l => leftover g j l * ent66 p i l)) by (intros; ring).
  rewrite L by auto.
  rewrite (sum_ext 3 (fun k => ent63 g i k * sum 6 (fun l => ent66 p k l * leftover g j l))
     (fun k => ent63 g i k * (ent66 p k j - sum 3 (fun l => ent63 g j l * ent66 p k l)))).
  2:{ intros k Hk. apply Rmult_eq_compat_l. rewrite (sum_ext 6 _ (fun l => leftover g j l * ent66 p k l)) by (intros; ring). apply L; auto. }
  assert (K0 := K i 0%nat Hi ltac:(lia)). assert (K1 := K i 1%nat Hi ltac:(lia)). assert (K2 := K i 2%nat Hi ltac:(lia)).
  unfold innovation in *. cbn [sum] in *. rewrite <- K0, <- K1, <- K2. ring.
Qed.

Lemma variance_expand p r g v : symmetric 6 (ent66 p) ->
  variance p r g v = quad 6 (ent66 p) v
    - 2 * sum 3 (fun i => sum 6 (fun k => ent63 g k i * v k) * sum 6 (fun j => ent66 p i j * v j))
    + quad 3 (innovation p r) (fun i => sum 6 (fun k => ent63 g k i * v k)).
Proof.
  intros PS. unfold variance, innovation. rewrite (quad_plus 3 (ent66 p) (ent33 r)). set (a := fun i => sum 6 (fun k => ent63 g k i * v k)).
  change (fun j => sum 6 (fun k => ent63 g k j * v k)) with a.
  enough (E : quad 6 (ent66 p) (fun i => v i - (if Nat.ltb i 3 then a i else 0)) =
    quad 6 (ent66 p) v - 2 * sum 3 (fun i => a i * sum 6 (fun j => ent66 p i j * v j)) + quad 3 (ent66 p) a).
  { change (quad 6 (ent66 p) (fun i => v i - (if Nat.ltb i 3 then a i else 0)) + quad 3 (ent33 r) a =
      quad 6 (ent66 p) v - 2 * sum 3 (fun i => a i * sum 6 (fun j => ent66 p i j * v j)) + (quad 3 (ent66 p) a + quad 3 (ent33 r) a)).
    rewrite E. ring. }
  clearbody a. unfold quad. cbn [sum Nat.ltb Nat.leb].
  assert (S : forall i j, (i < 6)%nat -> (j < 6)%nat -> ent66 p i j = ent66 p j i) by exact PS.
  rewrite (S 1 0)%nat, (S 2 0)%nat, (S 3 0)%nat, (S 4 0)%nat, (S 5 0)%nat, (S 2 1)%nat, (S 3 1)%nat, (S 4 1)%nat, (S 5 1)%nat, (S 3 2)%nat, (S 4 2)%nat, (S 5 2)%nat by lia.
  ring.
Qed.

Lemma gain_optimal p r g l v : symmetric 6 (ent66 p) -> symmetric 3 (ent33 r) -> definite 6 (ent66 p) -> semidefinite 3 (ent33 r) ->
  (forall i j, (i < 6)%nat -> (j < 3)%nat -> sum 3 (fun k => ent63 g i k * innovation p r k j) = ent66 p i j) ->
  variance p r g v <= variance p r l v.
Proof.
  intros PS RS PD RD K. rewrite !variance_expand by auto.
  set (a := fun i => sum 6 (fun k => ent63 l k i * v k)). set (b := fun i => sum 6 (fun k => ent63 g k i * v k)).
  assert (SS : symmetric 3 (innovation p r)) by (apply symmetric_plus; auto; intros i j Hi Hj; apply PS; lia).
  assert (W : forall i, (i < 3)%nat -> sum 6 (fun j => ent66 p i j * v j) = sum 3 (fun j => innovation p r i j * b j)).
  { intros i Hi. unfold b. rewrite (sum_ext 6 _ (fun k => sum 3 (fun j => ent63 g k j * innovation p r j i) * v k)).
    2:{ intros k Hk. rewrite K by auto. rewrite PS by lia. reflexivity. }
    rewrite (sum_ext 6 _ (fun k => sum 3 (fun j => innovation p r i j * (ent63 g k j * v k)))).
    2:{ intros k Hk. rewrite sum_scal_r. apply sum_ext; intros j Hj. rewrite (SS j i) by auto. ring. }
    rewrite sum_swap. apply sum_ext; intros. rewrite sum_scal_l. reflexivity. }
  assert (Q : 0 <= quad 3 (innovation p r) (fun i => a i - b i)).
  { destruct (Req_dec (quad 3 (innovation p r) (fun i => a i - b i)) 0) as [E|N]; [lra|].
    apply Rlt_le. apply innovation_definite; auto.
    destruct (Req_dec (a 0%nat - b 0%nat) 0) as [A0|A0]; [|exists 0%nat; split; [lia|auto]].
    destruct (Req_dec (a 1%nat - b 1%nat) 0) as [A1|A1]; [|exists 1%nat; split; [lia|auto]].
    destruct (Req_dec (a 2%nat - b 2%nat) 0) as [A2|A2]; [|exists 2%nat; split; [lia|auto]].
    exfalso. apply N. unfold quad. cbn [sum]. rewrite A0, A1, A2. ring. }
  rewrite (sum_ext 3 (fun i => a i * _) (fun i => a i * sum 3 (fun j => innovation p r i j * b j))) by (intros; rewrite W by auto; reflexivity).
  rewrite (sum_ext 3 (fun i => b i * _) (fun i => b i * sum 3 (fun j => innovation p r i j * b j))) by (intros; rewrite W by auto; reflexivity).
  fold b. fold a. clearbody a b. clear W. unfold quad in *. cbn [sum] in *.
  rewrite (SS 1 0)%nat, (SS 2 0)%nat, (SS 2 1)%nat in * by lia. lra.
Qed.

(** * When the coordinate conversion fails *)
Lemma on_axis_components o p : ~ radial_orbit o -> cross p (cross (g_position o) (g_velocity o)) = zero3 ->
  x3 (apply3 (frame o) p) = 0 /\ y3 (apply3 (frame o) p) = 0.
Proof.
  intros H X. unfold radial_orbit in H. set (h := cross (g_position o) (g_velocity o)) in *.
  assert (D : 0 < dot h h). { apply norm_pos in H. assert (A := norm_sq h). nra. }
  assert (HR : dot (g_position o) h = 0) by (unfold h, dot, cross; cbn; ring).
  assert (Rr : forall u, dot u h = 0 -> dot u p = 0).
  { intros u U. assert (E : dot u p * dot h h = dot u h * dot h p + dot u (cross h (cross p h))) by (unfold dot, cross; cbn; ring).
    rewrite U, X in E. assert (Z : dot u (cross h zero3) = 0) by (unfold dot, cross, zero3; cbn; ring). rewrite Z in E.
    assert (E' : dot u p * dot h h = 0) by lra. apply Rmult_integral in E'. destruct E'; lra. }
  unfold apply3, frame. cbv zeta. fold h. cbn [m3_row1 m3_row2 m3_row3 x3 y3]. split; apply Rr.
  - assert (A : dot (scale (/ norm (g_position o)) (g_position o)) h = / norm (g_position o) * dot (g_position o) h) by (unfold dot, scale; cbn; ring).
    rewrite A, HR. ring.
  - unfold dot, cross, scale; cbn. ring.
Qed.
Lemma hcw_cases o s :
  (~ radial_orbit o /\ cross (g_position s) (cross (g_position o) (g_velocity o)) <> zero3 /\
   exists h, gcrf_to_hcw o s = Ok h /\ hcw_to_gcrf h o = Ok (GCRF (g_epoch o) (g_position s) (g_velocity s))) \/
  ((radial_orbit o \/ cross (g_position s) (cross (g_position o) (g_velocity o)) = zero3) /\
   gcrf_to_hcw o s = Err ZeroDivisionError).
Proof.
  destruct (vec3_zero_dec (cross (g_position o) (g_velocity o))) as [E|E].
  - right. split; [left; exact E|]. unfold gcrf_to_hcw. cbv zeta. rewrite frame_err by exact E. reflexivity.
  - destruct (vec3_zero_dec (cross (g_position s) (cross (g_position o) (g_velocity o)))) as [X|X].
    + right. split; auto. destruct (on_axis_components o (g_position s) E X). apply gcrf_to_hcw_axis; auto.
    + left. split; auto. split; auto. apply gcrf_hcw_gcrf; auto.
Qed.

(** * Histories *)
Definition good (k : kalman) : Prop :=
  hl_n (k_propagator k) <> 0 /\ symmetric 6 (ent66 (k_p00 k)) /\ semidefinite 6 (ent66 (k_p00 k)) /\
  k_q k = DEFAULT_NOISE /\ k_x00 k = state_vector (hl_state (k_propagator k)).
Lemma good_start e h k : RelativeKalman e h = Ok k -> good k /\ k_epoch k = e /\ k_propagator k = h.
Proof.
  unfold RelativeKalman, system_matrix. destruct (Req_dec (hl_n h) 0) as [E|N].
  - rewrite E, pdiv_zero. discriminate.
  - rewrite pdiv_ok by auto. cbn [bind]. intros E. inversion E. split; [|split; destruct e; reflexivity].
    split; [exact N|]. split; [apply default_covariance_symmetric|]. split; [apply default_covariance_semidefinite|].
    split; [reflexivity|]. cbn [k_x00 k_propagator]. unfold v6_copy. destruct (state_vector _); reflexivity.
Qed.
Lemma start_ok e h : hl_n h <> 0 -> exists k, RelativeKalman e h = Ok k.
Proof. intros N. unfold RelativeKalman, system_matrix. rewrite pdiv_ok by auto. eexists; reflexivity. Qed.

Lemma matrix_motion h t f : hl_n h <> 0 -> system_matrix h t = Ok f -> forall s, m66_multiply_vector f s = motion (hl_n h) s t.
Proof.
  intros N F s. unfold system_matrix in F. rewrite pdiv_ok in F by auto. cbn [bind] in F. injection F as <-.
  unfold m66_multiply_vector, motion, v6_dot. cbv zeta. cbn [m66_row1 m66_row2 m66_row3 m66_row4 m66_row5 m66_row6 x6 y6 z6 vx6 vy6 vz6].
  apply RelativeProofs.vec6_ext; cbn [x6 y6 z6 vx6 vy6 vz6]; field; auto.
Qed.

Definition accepted (k : kalman) (ob : space_obs) (k' : kalman) : Prop :=
  exists hz he f g p,
    gcrf_to_hcw (so_observer_state ob) (GCRF (so_epoch ob) (seen ob) (g_velocity (so_observer_state ob))) = Ok hz /\
    hcw_to_gcrf hz (so_observer_state ob) = Ok (GCRF (so_epoch ob) (seen ob) (g_velocity (so_observer_state ob))) /\
    gcrf_to_hcw (so_observer_state ob) (GCRF (so_epoch ob) (displaced ob) (g_velocity (so_observer_state ob))) = Ok he /\
    system_matrix (k_propagator k) (seconds_between (k_epoch k) (so_epoch ob)) = Ok f /\
    p = predicted_covariance f (k_p00 k) (k_q k) /\
    kalman_gain p (measurement_noise (s_position he)) = Ok g /\
    k' = mkKalman (so_epoch ob)
      (set_hl_state (k_propagator k) (HCW_from_state_vector (updated_state (m66_multiply_vector f (k_x00 k)) g (s_position hz))))
      (updated_state (m66_multiply_vector f (k_x00 k)) g (s_position hz)) (Some (m66_multiply_vector f (k_x00 k)))
      (updated_covariance p g (measurement_noise (s_position he))) (Some p) (k_q k) f (Some g) (Some (s_position hz))
      (so_range_error ob) (so_angular_error ob) (Some (measurement_noise (s_position he))).

Lemma displaced_errors ob : v3_plus (g_position (so_observer_state ob)) (observation_errors ob) = displaced ob.
Proof.
  unfold observation_errors, displaced, spherical_to_cartesian, v3_plus, v3_minus, v3_scaled, add, sub. cbn [x3 y3 z3 radius right_ascension declination].
  f_equal; ring.
Qed.

Lemma prediction_good k f : good k -> definite 6 (ent66 (predicted_covariance f (k_p00 k) (k_q k))) /\
  symmetric 6 (ent66 (predicted_covariance f (k_p00 k) (k_q k))).
Proof.
  intros (N & S & P & Q & X). rewrite Q. split.
  - apply predicted_definite; auto. apply default_noise_definite.
  - apply predicted_symmetric; auto. apply default_noise_symmetric.
Qed.

Lemma process_cases k ob : good k ->
  (observable ob /\ exists k', kalman_process k ob = (k', Ok tt) /\ accepted k ob k') \/
  (~ observable ob /\ exists k', kalman_process k ob = (k', Err ZeroDivisionError) /\
     k_epoch k' = so_epoch ob /\ k_x00 k' = k_x00 k /\ k_p00 k' = k_p00 k /\ k_q k' = k_q k /\ k_propagator k' = k_propagator k).
Proof.
  intros G. assert (G' := G). destruct G' as (N & S & P & Q & X). unfold kalman_process. cbv zeta. unfold epoch_copy.
  assert (EE : Epoch (value (g_epoch (so_observer_state ob))) = so_epoch ob) by (unfold so_epoch; destruct (g_epoch _); reflexivity).
  rewrite EE. cbn [set_k_epoch k_epoch]. rewrite displaced_errors. change v3_plus with add. fold (seen ob).
  set (o := so_observer_state ob). unfold observable, off_axis, momentum. fold o.
  destruct (hcw_cases o (GCRF (so_epoch ob) (seen ob) (g_velocity o))) as [(R & A & hz & Z & ZB)|(R & Z)]; rewrite Z.
  2:{ right. split; [intros (M & A & B); cbn in R; unfold radial_orbit in R; tauto|]. eexists. split; [reflexivity|]. cbn. auto. }
  cbn [set_k_epoch set_k_z k_epoch k_propagator k_x00 k_x10 k_p00 k_p10 k_q k_f k_k k_z k_range_error k_angular_error k_r].
  destruct (hcw_cases o (GCRF (so_epoch ob) (displaced ob) (g_velocity o))) as [(R' & B & he & E & _)|(R' & E)]; rewrite E.
  2:{ right. split; [intros (M & A' & B); cbn in R'; unfold radial_orbit in R'; tauto|]. eexists. split; [reflexivity|]. cbn. auto. }
  left. split; [auto|]. cbn [set_k_r set_k_errors k_epoch k_propagator k_x00 k_x10 k_p00 k_p10 k_q k_f k_k k_z k_range_error k_angular_error k_r].
  assert (F : exists f, system_matrix (k_propagator k) (seconds_between (k_epoch k) (so_epoch ob)) = Ok f) by (unfold system_matrix; rewrite pdiv_ok by auto; eexists; reflexivity).
  destruct F as (f & F). assert (F' := F). unfold seconds_between, so_epoch in F'. fold o in F'. change SECONDS_IN_DAY with 86400. change (k_propagator (set_k_z (set_k_epoch k (so_epoch ob)) (s_position hz))) with (k_propagator k). rewrite F'.
  cbn [set_k_predicted set_k_p10 set_k_errors set_k_r set_k_z set_k_epoch k_epoch k_propagator k_x00 k_x10 k_p00 k_p10 k_q k_f k_k k_z k_range_error k_angular_error k_r].
  destruct (prediction_good k f G) as [PD PS].
  destruct (gain_ok _ (measurement_noise (s_position he)) PD PS (noise_semidefinite _) (noise_symmetric _)) as (g & Gk & _).
  cbn [set_k_epoch set_k_z set_k_r set_k_errors k_x00 k_p00 k_q] . rewrite Gk. eexists. split; [reflexivity|].
  exists hz, he, f, g, (predicted_covariance f (k_p00 k) (k_q k)). fold o. do 6 (split; [assumption || reflexivity|]). reflexivity.
Qed.
Lemma accepted_good k ob k' : good k -> accepted k ob k' -> good k'.
Proof.
  intros G (hz & he & f & g & p & _ & _ & _ & F & E & Gk & ->). destruct (prediction_good k f G) as [PD PS].
  destruct G as (N & S & P & Q & X). unfold good. cbn [k_propagator k_p00 k_q k_x00 set_hl_state hl_n hl_state]. rewrite hcw_vector. subst p.
  split; auto. split; [apply updated_symmetric; auto; apply noise_symmetric|]. split; auto.
  apply updated_semidefinite; [|apply noise_semidefinite]. intros v.
  destruct (Req_dec (quad 6 (ent66 (predicted_covariance f (k_p00 k) (k_q k))) v) 0) as [Z|Z]; [lra|].
  apply Rlt_le, PD.
  destruct (Req_dec (v 0%nat) 0) as [A0|A0]; [|exists 0%nat; split; [lia|auto]].
  destruct (Req_dec (v 1%nat) 0) as [A1|A1]; [|exists 1%nat; split; [lia|auto]].
  destruct (Req_dec (v 2%nat) 0) as [A2|A2]; [|exists 2%nat; split; [lia|auto]].
  destruct (Req_dec (v 3%nat) 0) as [A3|A3]; [|exists 3%nat; split; [lia|auto]].
  destruct (Req_dec (v 4%nat) 0) as [A4|A4]; [|exists 4%nat; split; [lia|auto]].
  destruct (Req_dec (v 5%nat) 0) as [A5|A5]; [|exists 5%nat; split; [lia|auto]].
  exfalso. apply Z. unfold quad. cbn [sum]. rewrite A0, A1, A2, A3, A4, A5. ring.
Qed.
Lemma process_good k ob : good k -> good (fst (kalman_process k ob)).
Proof.
  intros G. destruct (process_cases k ob G) as [(_ & k' & E & A)|(_ & k' & E & Ee & Ex & Ep & Eq & Eh)]; rewrite E; cbn [fst].
  - apply (accepted_good k ob); auto.
  - destruct G as (N & S & P & Q & X). unfold good. rewrite Ex, Ep, Eq, Eh. auto.
Qed.
Lemma history_good l : forall k, good k -> good (observe_all l k).
Proof. induction l as [|ob l IH]; intros k G; [exact G|]. apply (IH (fst (kalman_process k ob))). apply process_good; auto. Qed.
Lemma reachable_good e h k l : RelativeKalman e h = Ok k -> good (observe_all l k).
Proof. intros E. apply history_good. apply (good_start e h k E). Qed.
Lemma process_rate k ob : good k -> hl_n (k_propagator (fst (kalman_process k ob))) = hl_n (k_propagator k).
Proof.
  intros G. destruct (process_cases k ob G) as [(_ & k' & E & A)|(_ & k' & E & Ee & Ex & Ep & Eq & Eh)]; rewrite E; cbn [fst].
  - destruct A as (hz & he & f & g & p & _ & _ & _ & _ & _ & _ & ->). reflexivity.
  - rewrite Eh. reflexivity.
Qed.
Lemma history_rate l : forall k, good k -> hl_n (k_propagator (observe_all l k)) = hl_n (k_propagator k).
Proof.
  induction l as [|ob l IH]; intros k G; [reflexivity|]. change (observe_all (ob :: l) k) with (observe_all l (fst (kalman_process k ob))).
  rewrite IH by (apply process_good; auto). apply process_rate; auto.
Qed.
Lemma process_epoch k ob : good k -> k_epoch (fst (kalman_process k ob)) = so_epoch ob.
Proof.
  intros G. destruct (process_cases k ob G) as [(_ & k' & E & A)|(_ & k' & E & Ee & _)]; rewrite E; cbn [fst]; auto.
  destruct A as (hz & he & f & g & p & _ & _ & _ & _ & _ & _ & ->). reflexivity.
Qed.

Lemma process_accepted k ob k' : good k -> kalman_process k ob = (k', Ok tt) -> observable ob /\ accepted k ob k'.
Proof.
  intros G E. destruct (process_cases k ob G) as [(O & k1 & E1 & A)|(_ & k1 & E1 & _)]; rewrite E1 in E; inversion E; subst; auto.
Qed.
Lemma accepted_optimal k ob k' : good k -> accepted k ob k' -> exists p r g,
  k_p10 k' = Some p /\ k_r k' = Some r /\ k_k k' = Some g /\
  definite 6 (ent66 p) /\ symmetric 6 (ent66 p) /\ semidefinite 3 (ent33 r) /\ symmetric 3 (ent33 r) /\
  (forall i j, (i < 6)%nat -> (j < 3)%nat -> sum 3 (fun m => ent63 g i m * innovation p r m j) = ent66 p i j) /\
  k_p00 k' = updated_covariance p g r.
Proof.
  intros G (hz & he & f & g & p & _ & _ & _ & F & E & Gk & ->). destruct (prediction_good k f G) as [PD PS]. rewrite <- E in PD, PS.
  destruct (gain_ok p _ PD PS (noise_semidefinite (s_position he)) (noise_symmetric (s_position he))) as (g' & Gk' & K).
  rewrite Gk in Gk'. injection Gk' as <-.
  exists p, (measurement_noise (s_position he)), g. cbn [k_p10 k_r k_k k_p00].
  split; [reflexivity|]. split; [reflexivity|]. split; [reflexivity|]. split; [auto|]. split; [auto|].
  split; [apply noise_semidefinite|]. split; [apply noise_symmetric|]. split; auto.
Qed.
Definition no_gain : mat63 := M63 (V3 0 0 0) (V3 0 0 0) (V3 0 0 0) (V3 0 0 0) (V3 0 0 0) (V3 0 0 0).
Lemma no_gain_variance p r v : variance p r no_gain v = quad 6 (ent66 p) v.
Proof. unfold variance, quad. cbn. ring. Qed.

Lemma near_off_axis ob p : momentum ob <> zero3 ->
  norm (sub p (g_position (so_observer_state ob))) < norm (g_position (so_observer_state ob)) -> off_axis ob p.
Proof.
  intros M D X. unfold momentum in *. set (r := g_position (so_observer_state ob)) in *. set (w := g_velocity (so_observer_state ob)) in *.
  set (d := sub p r) in *. set (h := cross r w) in *.
  assert (HH : 0 < dot h h). { apply norm_pos in M. assert (A := norm_sq h). nra. }
  assert (E : dot r p * dot h h = dot r h * dot h p + dot r (cross h (cross p h))) by (unfold dot, cross; cbn; ring).
  rewrite X in E. assert (Z : dot r (cross h zero3) = 0) by (unfold dot, cross, zero3; cbn; ring). rewrite Z in E.
  assert (O : dot r h = 0) by (unfold h, dot, cross; cbn; ring). rewrite O in E.
  assert (P : dot r p = 0). { assert (E' : dot r p * dot h h = 0) by lra. apply Rmult_integral in E'. destruct E'; lra. }
  assert (Q : dot r p = dot r r + dot r d) by (unfold d, sub, dot; cbn; ring).
  assert (C := cauchy_schwarz_norm r d). assert (S := norm_sq r). assert (NN := norm_nonneg r). assert (ND := norm_nonneg d).
  assert (norm r * norm r <= norm r * norm d) by lra. nra.
Qed.
