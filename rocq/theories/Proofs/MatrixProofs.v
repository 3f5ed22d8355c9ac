(** Entries of the matrix operations of every shape. *)
From Coq Require Import Reals Lra Lia.
From Verif.Model Require Import Num Linalg.
From Verif.Spec Require Import Geometry.
From Verif.Proofs Require Import NumLemmas LinalgProofs.
Local Open Scope R_scope.

Ltac entries :=
  repeat match goal with
  | H : (?i < ?n)%nat |- _ =>
      is_var i; cases_lt i n; clear H
  end; simpl; unfold v3_dot, v6_dot, delta; simpl; ring.

Lemma ent_m3_multiply_vector m v i : (i < 3)%nat ->
  ent3v (m3_multiply_vector m v) i = sum 3 (fun k => ent33 m i k * ent3v v k).
Proof. intros; entries. Qed.
Lemma ent_m3_scaled m s i j : (i < 3)%nat -> (j < 3)%nat ->
  ent33 (m3_scaled m s) i j = s * ent33 m i j.
Proof. intros; entries. Qed.
Lemma ent_m3_transpose m i j : (i < 3)%nat -> (j < 3)%nat ->
  ent33 (m3_transpose m) i j = ent33 m j i.
Proof. intros; entries. Qed.
Lemma ent_m3_plus a b i j : (i < 3)%nat -> (j < 3)%nat ->
  ent33 (m3_plus a b) i j = ent33 a i j + ent33 b i j.
Proof. intros; entries. Qed.
Lemma ent_m3_diagonal m i : (i < 3)%nat -> ent3v (m3_diagonal m) i = ent33 m i i.
Proof. intros; entries. Qed.
Lemma ent_m3_columns m i : (i < 3)%nat ->
  ent3v (m3_column_1 m) i = ent33 m i 0 /\ ent3v (m3_column_2 m) i = ent33 m i 1 /\
  ent3v (m3_column_3 m) i = ent33 m i 2.
Proof. intros; repeat split; entries. Qed.
Lemma ent_m3_multiply_matrix3by6 a b i j : (i < 3)%nat -> (j < 6)%nat ->
  ent36 (m3_multiply_matrix3by6 a b) i j = sum 3 (fun k => ent33 a i k * ent36 b k j).
Proof. intros; entries. Qed.

Lemma ent_m36_columns m i : (i < 3)%nat ->
  ent3v (m36_column_1 m) i = ent36 m i 0 /\ ent3v (m36_column_2 m) i = ent36 m i 1 /\
  ent3v (m36_column_3 m) i = ent36 m i 2 /\ ent3v (m36_column_4 m) i = ent36 m i 3 /\
  ent3v (m36_column_5 m) i = ent36 m i 4 /\ ent3v (m36_column_6 m) i = ent36 m i 5.
Proof. intros; repeat split; entries. Qed.
Lemma ent_m36_multiply_vector m v i : (i < 3)%nat ->
  ent3v (m36_multiply_vector m v) i = sum 6 (fun k => ent36 m i k * ent6v v k).
Proof. intros; entries. Qed.
Lemma ent_m36_transpose m i j : (i < 6)%nat -> (j < 3)%nat ->
  ent63 (m36_transpose m) i j = ent36 m j i.
Proof. intros; entries. Qed.
Lemma ent_m36_multiply_matrix_6by3 a b i j : (i < 3)%nat -> (j < 3)%nat ->
  ent33 (m36_multiply_matrix_6by3 a b) i j = sum 6 (fun k => ent36 a i k * ent63 b k j).
Proof. intros; entries. Qed.

Lemma ent_m63_columns m i : (i < 6)%nat ->
  ent6v (m63_column_1 m) i = ent63 m i 0 /\ ent6v (m63_column_2 m) i = ent63 m i 1 /\
  ent6v (m63_column_3 m) i = ent63 m i 2.
Proof. intros; repeat split; entries. Qed.
Lemma ent_m63_transpose m i j : (i < 3)%nat -> (j < 6)%nat ->
  ent36 (m63_transpose m) i j = ent63 m j i.
Proof. intros; entries. Qed.
Lemma ent_m63_multiply a b i j : (i < 6)%nat -> (j < 3)%nat ->
  ent63 (m63_multiply a b) i j = sum 3 (fun k => ent63 a i k * ent33 b k j).
Proof. intros; entries. Qed.
Lemma ent_m63_multiply_vector m v i : (i < 6)%nat ->
  ent6v (m63_multiply_vector m v) i = sum 3 (fun k => ent63 m i k * ent3v v k).
Proof. intros; entries. Qed.
Lemma ent_m63_multiply_matrix3by6 a b i j : (i < 6)%nat -> (j < 6)%nat ->
  ent66 (m63_multiply_matrix3by6 a b) i j = sum 3 (fun k => ent63 a i k * ent36 b k j).
Proof. intros; entries. Qed.

Lemma ent_m66_identity i j : (i < 6)%nat -> (j < 6)%nat -> ent66 m66_identity i j = delta i j.
Proof. intros; entries. Qed.
Lemma ent_m66_diagonal m i : (i < 6)%nat -> ent6v (m66_diagonal m) i = ent66 m i i.
Proof. intros; entries. Qed.
Lemma ent_m66_columns m i : (i < 6)%nat ->
  ent6v (m66_column_1 m) i = ent66 m i 0 /\ ent6v (m66_column_2 m) i = ent66 m i 1 /\
  ent6v (m66_column_3 m) i = ent66 m i 2 /\ ent6v (m66_column_4 m) i = ent66 m i 3 /\
  ent6v (m66_column_5 m) i = ent66 m i 4 /\ ent6v (m66_column_6 m) i = ent66 m i 5.
Proof. intros; repeat split; entries. Qed.
Lemma ent_m66_multiply_vector m v i : (i < 6)%nat ->
  ent6v (m66_multiply_vector m v) i = sum 6 (fun k => ent66 m i k * ent6v v k).
Proof. intros; entries. Qed.
Lemma ent_m66_transpose m i j : (i < 6)%nat -> (j < 6)%nat ->
  ent66 (m66_transpose m) i j = ent66 m j i.
Proof. intros; entries. Qed.
Lemma ent_m66_multiply_matrix_6by3 a b i j : (i < 6)%nat -> (j < 3)%nat ->
  ent63 (m66_multiply_matrix_6by3 a b) i j = sum 6 (fun k => ent66 a i k * ent63 b k j).
Proof. intros; entries. Qed.
Lemma ent_m66_multiply_matrix a b i j : (i < 6)%nat -> (j < 6)%nat ->
  ent66 (m66_multiply_matrix a b) i j = sum 6 (fun k => ent66 a i k * ent66 b k j).
Proof. intros; entries. Qed.
Lemma ent_m66_plus a b i j : (i < 6)%nat -> (j < 6)%nat ->
  ent66 (m66_plus a b) i j = ent66 a i j + ent66 b i j.
Proof. intros; entries. Qed.
Lemma ent_m66_minus a b i j : (i < 6)%nat -> (j < 6)%nat ->
  ent66 (m66_minus a b) i j = ent66 a i j - ent66 b i j.
Proof. intros; entries. Qed.

Lemma ent_v6_plus a b i : (i < 6)%nat -> ent6v (v6_plus a b) i = ent6v a i + ent6v b i.
Proof. intros; entries. Qed.
Lemma ent_v6_minus a b i : (i < 6)%nat -> ent6v (v6_minus a b) i = ent6v a i - ent6v b i.
Proof. intros; entries. Qed.
Lemma ent_v6_dot a b : v6_dot a b = sum 6 (fun k => ent6v a k * ent6v b k).
Proof. entries. Qed.

(** ** Extensionality *)
Lemma vec3_ext a b : (forall i, (i < 3)%nat -> ent3v a i = ent3v b i) -> a = b.
Proof.
  intros H. apply vec3_eq; [apply (H 0%nat)|apply (H 1%nat)|apply (H 2%nat)]; lia.
Qed.
Lemma vec6_ext a b : (forall i, (i < 6)%nat -> ent6v a i = ent6v b i) -> a = b.
Proof.
  intros H. apply vec6_eq; [apply (H 0%nat)|apply (H 1%nat)|apply (H 2%nat)
                            |apply (H 3%nat)|apply (H 4%nat)|apply (H 5%nat)]; lia.
Qed.
Lemma mat3_ext a b : (forall i j, (i < 3)%nat -> (j < 3)%nat -> ent33 a i j = ent33 b i j) -> a = b.
Proof.
  intros H. destruct a, b. f_equal; apply vec3_ext; intros.
  apply (H 0%nat i); lia. apply (H 1%nat i); lia. apply (H 2%nat i); lia.
Qed.
Lemma mat36_ext a b : (forall i j, (i < 3)%nat -> (j < 6)%nat -> ent36 a i j = ent36 b i j) -> a = b.
Proof.
  intros H. destruct a, b. f_equal; apply vec6_ext; intros.
  apply (H 0%nat i); lia. apply (H 1%nat i); lia. apply (H 2%nat i); lia.
Qed.
Lemma mat63_ext a b : (forall i j, (i < 6)%nat -> (j < 3)%nat -> ent63 a i j = ent63 b i j) -> a = b.
Proof.
  intros H. destruct a, b. f_equal; apply vec3_ext; intros.
  apply (H 0%nat i); lia. apply (H 1%nat i); lia. apply (H 2%nat i); lia.
  apply (H 3%nat i); lia. apply (H 4%nat i); lia. apply (H 5%nat i); lia.
Qed.
Lemma mat66_ext a b : (forall i j, (i < 6)%nat -> (j < 6)%nat -> ent66 a i j = ent66 b i j) -> a = b.
Proof.
  intros H. destruct a, b. f_equal; apply vec6_ext; intros.
  apply (H 0%nat i); lia. apply (H 1%nat i); lia. apply (H 2%nat i); lia.
  apply (H 3%nat i); lia. apply (H 4%nat i); lia. apply (H 5%nat i); lia.
Qed.

(** ** Sums *)
Lemma sum_ext n f g : (forall k, (k < n)%nat -> f k = g k) -> sum n f = sum n g.
Proof.
  induction n; simpl; intros H; auto. rewrite IHn, H; auto; intros; apply H; lia.
Qed.
Lemma sum_scal_l n c f : c * sum n f = sum n (fun k => c * f k).
Proof. induction n; simpl; [ring|]. rewrite <- IHn. ring. Qed.
Lemma sum_scal_r n c f : sum n f * c = sum n (fun k => f k * c).
Proof. induction n; simpl; [ring|]. rewrite <- IHn. ring. Qed.
Lemma sum_plus n f g : sum n f + sum n g = sum n (fun k => f k + g k).
Proof. induction n; simpl; [ring|]. rewrite <- IHn. ring. Qed.
Lemma sum_zero n : sum n (fun _ => 0) = 0.
Proof. induction n; simpl; [ring|]. rewrite IHn. ring. Qed.
Lemma sum_swap n m f : sum n (fun i => sum m (fun j => f i j)) = sum m (fun j => sum n (fun i => f i j)).
Proof.
  induction n; simpl; [symmetry; apply sum_zero|]. rewrite IHn. apply sum_plus.
Qed.
Lemma sum_delta n j f : (j < n)%nat -> sum n (fun k => delta j k * f k) = f j.
Proof.
  intros H. induction n; [lia|]. simpl. destruct (Nat.eq_dec j n) as [->|E].
  - rewrite (sum_ext n _ (fun _ => 0)), sum_zero.
    + unfold delta; rewrite Nat.eqb_refl; ring.
    + intros k Hk. unfold delta. rewrite (proj2 (Nat.eqb_neq n k)) by lia. ring.
  - rewrite IHn by lia. unfold delta at 1. rewrite (proj2 (Nat.eqb_neq j n)) by lia. ring.
Qed.
(** entry of a triple product, bracketed either way *)
Lemma sum_assoc n m (a : nat -> R) (b : nat -> nat -> R) (c : nat -> R) :
  sum m (fun k => sum n (fun l => a l * b l k) * c k) = sum n (fun l => a l * sum m (fun k => b l k * c k)).
Proof.
  rewrite (sum_ext m _ (fun k => sum n (fun l => a l * (b l k * c k)))).
  - rewrite sum_swap. apply sum_ext; intros. rewrite sum_scal_l. reflexivity.
  - intros k _. rewrite sum_scal_r. apply sum_ext; intros. ring.
Qed.

Lemma m66_assoc a b c :
  m66_multiply_matrix (m66_multiply_matrix a b) c = m66_multiply_matrix a (m66_multiply_matrix b c).
Proof.
  apply mat66_ext; intros i j Hi Hj. rewrite !ent_m66_multiply_matrix by auto.
  rewrite (sum_ext 6 _ (fun k => sum 6 (fun l => ent66 a i l * ent66 b l k) * ent66 c k j))
    by (intros; rewrite ent_m66_multiply_matrix by auto; reflexivity).
  rewrite sum_assoc. apply sum_ext; intros. rewrite ent_m66_multiply_matrix by auto. reflexivity.
Qed.
Lemma m66_transpose_mult a b :
  m66_transpose (m66_multiply_matrix a b) = m66_multiply_matrix (m66_transpose b) (m66_transpose a).
Proof.
  apply mat66_ext; intros i j Hi Hj. rewrite ent_m66_transpose, !ent_m66_multiply_matrix by auto.
  apply sum_ext; intros. rewrite !ent_m66_transpose by auto. ring.
Qed.
Lemma m66_identity_l a : m66_multiply_matrix m66_identity a = a.
Proof.
  apply mat66_ext; intros i j Hi Hj. rewrite !ent_m66_multiply_matrix by auto.
  rewrite <- (sum_delta 6 i (fun k => ent66 a k j)) by auto.
  apply sum_ext; intros. rewrite ent_m66_identity by auto. reflexivity.
Qed.
Lemma m66_identity_r a : m66_multiply_matrix a m66_identity = a.
Proof.
  apply mat66_ext; intros i j Hi Hj. rewrite !ent_m66_multiply_matrix by auto.
  rewrite <- (sum_delta 6 j (fun k => ent66 a i k)) by auto.
  apply sum_ext; intros. rewrite ent_m66_identity by auto.
  unfold delta. rewrite Nat.eqb_sym. ring.
Qed.
Lemma m66_vector_assoc a b v :
  m66_multiply_vector (m66_multiply_matrix a b) v = m66_multiply_vector a (m66_multiply_vector b v).
Proof.
  apply vec6_ext; intros i Hi. rewrite !ent_m66_multiply_vector by auto.
  rewrite (sum_ext 6 _ (fun k => sum 6 (fun l => ent66 a i l * ent66 b l k) * ent6v v k))
    by (intros; rewrite ent_m66_multiply_matrix by auto; reflexivity).
  rewrite sum_assoc. apply sum_ext; intros. rewrite ent_m66_multiply_vector by auto. reflexivity.
Qed.
Lemma m36_transpose_involutive a : m63_transpose (m36_transpose a) = a.
Proof.
  apply mat36_ext; intros i j Hi Hj. rewrite ent_m63_transpose, ent_m36_transpose by auto. reflexivity.
Qed.
Lemma m63_transpose_involutive a : m36_transpose (m63_transpose a) = a.
Proof.
  apply mat63_ext; intros i j Hi Hj. rewrite ent_m36_transpose, ent_m63_transpose by auto. reflexivity.
Qed.
Lemma m63_36_vector_assoc a b v :
  m66_multiply_vector (m63_multiply_matrix3by6 a b) v = m63_multiply_vector a (m36_multiply_vector b v).
Proof.
  apply vec6_ext; intros i Hi. rewrite !ent_m66_multiply_vector, ent_m63_multiply_vector by auto.
  rewrite (sum_ext 6 _ (fun k => sum 3 (fun l => ent63 a i l * ent36 b l k) * ent6v v k))
    by (intros; rewrite ent_m63_multiply_matrix3by6 by auto; reflexivity).
  rewrite sum_assoc. apply sum_ext; intros. rewrite ent_m36_multiply_vector by auto. reflexivity.
Qed.
