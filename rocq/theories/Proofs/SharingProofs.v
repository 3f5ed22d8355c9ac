(** Filters that share a propagator. *)
From Coq Require Import List Reals Lra Arith.
From Verif.Model Require Import Num Constants Linalg Functions Time Celestial Positions States Relative Obs Filtering.
From Verif.Spec Require Import Sharing.
Import ListNotations.

Lemma system_matrix_rate h h' t : hl_n h = hl_n h' -> system_matrix h t = system_matrix h' t.
Proof. unfold system_matrix. intros ->. reflexivity. Qed.

Lemma move_rate h t h' : hill_step_by_seconds h t = Ok h' -> hl_n h' = hl_n h.
Proof.
  unfold hill_step_by_seconds. destruct (system_matrix h t) as [m|]; cbn; [|discriminate].
  intros E. assert (h' = set_hl_state h (HCW_from_state_vector (m66_multiply_vector m (state_vector (hl_state h)))))
    as -> by congruence. reflexivity.
Qed.

(** An observation reads the rate of the propagator only. *)
Lemma process_holding k h ob :
  hl_n h = hl_n (k_propagator k) ->
  snd (kalman_process (holding k h) ob) = snd (kalman_process k ob) /\
  same_filter (fst (kalman_process (holding k h) ob)) (fst (kalman_process k ob)) /\
  hl_n (k_propagator (fst (kalman_process (holding k h) ob))) = hl_n h /\
  hl_n (k_propagator (fst (kalman_process k ob))) = hl_n h.
Proof.
  intros N. unfold kalman_process, same_filter.
  cbn [k_epoch k_propagator k_x00 k_x10 k_p00 k_p10 k_q k_f k_k k_z k_range_error k_angular_error k_r
       holding set_k_epoch set_k_z set_k_r set_k_errors set_k_predicted set_k_p10 set_k_gain set_k_state set_k_p00].
  rewrite (system_matrix_rate h (k_propagator k)) by exact N.
  destruct (gcrf_to_hcw _ _) as [hz|]; [|cbn; auto].
  destruct (gcrf_to_hcw _ _) as [he|]; [|cbn; auto].
  destruct (system_matrix _ _) as [f|]; [|cbn; auto].
  destruct (kalman_gain _ _) as [g|]; [|cbn; auto].
  cbn. auto.
Qed.

Lemma same_filter_holding k k' h : same_filter k k' -> holding k h = holding k' h.
Proof. unfold same_filter. intros ->. reflexivity. Qed.

Lemma set_filter_same ks i k : set_filter ks i k i = k.
Proof. unfold set_filter. now rewrite Nat.eqb_refl. Qed.

Lemma set_filter_other ks i k j : j <> i -> set_filter ks i k j = ks j.
Proof. unfold set_filter. intros H. destruct (Nat.eqb_spec j i); congruence. Qed.

Theorem shared_alone es : forall ks h i k,
  same_filter (ks i) k -> hl_n h = hl_n (k_propagator k) ->
  let '(ks', h', rs) := shared ks h es in
  let '(k', rs') := alone i k es in
  same_filter (ks' i) k' /\ hl_n h' = hl_n h /\ filter (fun r => Nat.eqb (fst r) i) rs = rs'.
Proof.
  induction es as [|[j ob|t] es IH]; intros ks h i k Sm N; cbn [shared alone].
  - auto.
  - destruct (Nat.eqb_spec j i) as [->|Ne].
    + pose proof (process_holding k h ob N) as P.
      rewrite (same_filter_holding _ _ h Sm).
      destruct (kalman_process (holding k h) ob) as [k1 r1].
      destruct (kalman_process k ob) as [k2 r2]. cbn [fst snd] in P.
      destruct P as (-> & Sm' & N1 & N2).
      specialize (IH (set_filter ks i k1) (k_propagator k1) i k2).
      rewrite set_filter_same in IH. specialize (IH Sm' ltac:(congruence)).
      destruct (shared _ _ es) as [[ks' h'] rs]. destruct (alone i k2 es) as [k' rs'].
      destruct IH as (A & B & C). split; [exact A|]. split; [congruence|].
      cbn. rewrite Nat.eqb_refl. now rewrite C.
    + assert (hl_n (k_propagator (fst (kalman_process (holding (ks j) h) ob))) = hl_n h) as N1.
      { exact (proj1 (proj2 (proj2 (process_holding (holding (ks j) h) h ob eq_refl)))). }
      destruct (kalman_process (holding (ks j) h) ob) as [k1 r1]. cbn [fst] in N1.
      specialize (IH (set_filter ks j k1) (k_propagator k1) i k).
      rewrite set_filter_other in IH by auto. specialize (IH Sm ltac:(congruence)).
      destruct (shared _ _ es) as [[ks' h'] rs]. destruct (alone i k es) as [k' rs'].
      destruct IH as (A & B & C). split; [exact A|]. split; [congruence|].
      cbn. destruct (Nat.eqb_spec j i); [congruence|exact C].
  - destruct (hill_step_by_seconds h t) as [h1|] eqn:E.
    + pose proof (move_rate _ _ _ E) as N1. specialize (IH ks h1 i k Sm ltac:(congruence)).
      destruct (shared _ _ es) as [[ks' h'] rs]. destruct (alone i k es) as [k' rs'].
      destruct IH as (A & B & C). split; [exact A|]. split; [congruence|exact C].
    + exact (IH ks h i k Sm N).
Qed.
