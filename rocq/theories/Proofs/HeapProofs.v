(** Symbolic execution of the methods on the heap, and the frame they keep. *)
From Coq Require Import List Lia Arith.
From Verif.Model Require Import Num Constants Linalg Functions Time Celestial Positions States Inertial Heap.
From Verif.Spec Require Import Heap.
Import ListNotations.

Definition ext (h h' : heap) : Prop :=
  next h <= next h' /\ forall l o, cell h l = Some o -> cell h' l = Some o.

Lemma ext_refl h : ext h h.
Proof. split; auto. Qed.

Lemma ext_trans h1 h2 h3 : ext h1 h2 -> ext h2 h3 -> ext h1 h3.
Proof. intros (A & B) (C & D). split; [lia|auto]. Qed.

Lemma ext_vec h h' l x : ext h h' -> vec_at h l = Some x -> vec_at h' l = Some x.
Proof.
  intros (_ & E). unfold vec_at. destruct (cell h l) as [o|] eqn:Q; [|discriminate].
  rewrite (E _ _ Q). auto.
Qed.

Lemma ext_epoch h h' l x : ext h h' -> epoch_at h l = Some x -> epoch_at h' l = Some x.
Proof.
  intros (_ & E). unfold epoch_at. destruct (cell h l) as [o|] eqn:Q; [|discriminate].
  rewrite (E _ _ Q). auto.
Qed.

Lemma ext_cell h h' l o : ext h h' -> cell h l = Some o -> cell h' l = Some o.
Proof. intros (_ & E). auto. Qed.

Lemma state_at_inv h l x :
  state_at h l = Some x ->
  exists a b c d, cell h l = Some (OState a b c d (g_srp_scalar x) (g_use_perturbations x)) /\
    epoch_at h a = Some (g_epoch x) /\ vec_at h b = Some (g_position x) /\
    vec_at h c = Some (g_velocity x) /\ vec_at h d = Some (g_thrust x).
Proof.
  unfold state_at. destruct (cell h l) as [[ | |a b c d k u| ]|] eqn:Q; try discriminate.
  destruct (epoch_at h a) eqn:Qa; [|discriminate].
  destruct (vec_at h b) eqn:Qb; [|discriminate].
  destruct (vec_at h c) eqn:Qc; [|discriminate].
  destruct (vec_at h d) eqn:Qd; [|discriminate].
  intros H. assert (x = Gcrf e v v0 v1 k u) as -> by congruence. cbn.
  exists a, b, c, d. auto.
Qed.

Lemma state_at_intro h l a b c d k u e r v t :
  cell h l = Some (OState a b c d k u) -> epoch_at h a = Some e -> vec_at h b = Some r ->
  vec_at h c = Some v -> vec_at h d = Some t -> state_at h l = Some (Gcrf e r v t k u).
Proof. unfold state_at. intros -> -> -> -> ->. reflexivity. Qed.

Lemma prop_at_inv h l x :
  prop_at h l = Some x ->
  exists s d, cell h l = Some (OProp s (step_size x) (m_dot x) (m0 x) d (isp x)) /\
    state_at h s = Some (rk_state x) /\ vec_at h d = Some (thrust_direction x).
Proof.
  unfold prop_at. destruct (cell h l) as [[ | | |s a b c d i]|] eqn:Q; try discriminate.
  destruct (state_at h s) eqn:Qs; [|discriminate].
  destruct (vec_at h d) eqn:Qd; [|discriminate].
  intros H. assert (x = Rk4 g a b c v i) as -> by congruence. cbn. exists s, d. auto.
Qed.

Lemma prop_at_intro h l s a b c d i x v :
  cell h l = Some (OProp s a b c d i) -> state_at h s = Some x -> vec_at h d = Some v ->
  prop_at h l = Some (Rk4 x a b c v i).
Proof. unfold prop_at. intros -> -> ->. reflexivity. Qed.

Lemma ext_state h h' l x : ext h h' -> state_at h l = Some x -> state_at h' l = Some x.
Proof.
  intros E H. destruct (state_at_inv _ _ _ H) as (a & b & c & d & Q & Qa & Qb & Qc & Qd).
  destruct x as [e r v t k u]. cbn in *.
  eapply state_at_intro; eauto using ext_cell, ext_vec, ext_epoch.
Qed.

Lemma ext_prop h h' l x : ext h h' -> prop_at h l = Some x -> prop_at h' l = Some x.
Proof.
  intros E H. destruct (prop_at_inv _ _ _ H) as (s & d & Q & Qs & Qd). destruct x. cbn in *.
  eapply prop_at_intro; eauto using ext_cell, ext_vec, ext_state.
Qed.

(** ** Primitive operations *)

Lemma seq_ok {A B} (m : act A) (k : A -> act B) h h' a :
  m h = (h', Ok a) -> seq m k h = k a h'.
Proof. unfold seq. intros ->. reflexivity. Qed.

Lemma seq_err {A B} (m : act A) (k : A -> act B) h h' e :
  m h = (h', Err e) -> seq m k h = (h', Err e).
Proof. unfold seq. intros ->. reflexivity. Qed.

Lemma read_ok {A} (f : heap -> option A) h a : f h = Some a -> read f h = (h, Ok a).
Proof. unfold read. intros ->. reflexivity. Qed.

Lemma put_same c l o : put c l o l = Some o.
Proof. unfold put. now rewrite Nat.eqb_refl. Qed.

Lemma put_other c l o l' : l' <> l -> put c l o l' = c l'.
Proof. unfold put. intros H. destruct (Nat.eqb_spec l' l); congruence. Qed.

Lemma below h l o : sound_heap h -> cell h l = Some o -> l < next h.
Proof.
  intros S H. destruct (Nat.lt_ge_cases l (next h)) as [|G]; auto.
  rewrite (S l G) in H. discriminate.
Qed.

(** [made m h l h' F]: [m] created [l], and [F] holds of the new heap. *)
Definition made (m : act loc) (h : heap) (F : heap -> loc -> Prop) : Prop :=
  exists h' l, m h = (h', Ok l) /\ sound_heap h' /\ ext h h' /\ next h <= l /\ F h' l.

Lemma create_made h o : sound_heap h -> made (create o) h (fun h' l => cell h' l = Some o).
Proof.
  intros S. exists (Heap (Datatypes.S (next h)) (put (cell h) (next h) o)), (next h).
  split; [reflexivity|]. cbn. split; [|split; [|split; [lia|apply put_same]]].
  - intros l Hl. cbn in *. rewrite put_other by lia. apply S. lia.
  - split; cbn; [lia|]. intros l o' H. pose proof (below _ _ _ S H).
    rewrite put_other by lia. exact H.
Qed.

Lemma create_vec h v : sound_heap h -> made (create (OVec v)) h (fun h' l => vec_at h' l = Some v).
Proof.
  intros S. destruct (create_made h (OVec v) S) as (h' & l & E & S' & X & N & F).
  exists h', l. repeat split; auto; try apply X. unfold vec_at. now rewrite F.
Qed.

Lemma create_epoch h v : sound_heap h -> made (create (OEpoch v)) h (fun h' l => epoch_at h' l = Some v).
Proof.
  intros S. destruct (create_made h (OEpoch v) S) as (h' & l & E & S' & X & N & F).
  exists h', l. repeat split; auto; try apply X. unfold epoch_at. now rewrite F.
Qed.

Lemma made_read {A} (f : heap -> option A) (k : A -> act loc) h a F :
  f h = Some a -> made (k a) h F -> made (seq (read f) k) h F.
Proof.
  intros R (h' & l & E & H). exists h', l. rewrite (seq_ok _ _ _ _ _ (read_ok f h a R)). auto.
Qed.

Lemma vec_copy_made h a x : sound_heap h -> vec_at h a = Some x ->
  made (vec_copy a) h (fun h' l => vec_at h' l = Some x).
Proof.
  intros S H. unfold vec_copy. apply (made_read _ _ _ x); [exact H|].
  replace (v3_copy x) with x by (destruct x; reflexivity). now apply create_vec.
Qed.

Lemma vec_plus_made h a b x y : sound_heap h -> vec_at h a = Some x -> vec_at h b = Some y ->
  made (vec_plus a b) h (fun h' l => vec_at h' l = Some (v3_plus x y)).
Proof.
  intros S H1 H2. unfold vec_plus. apply (made_read _ _ _ x); [exact H1|].
  apply (made_read _ _ _ y); [exact H2|]. now apply create_vec.
Qed.

Lemma vec_scaled_made h a x k : sound_heap h -> vec_at h a = Some x ->
  made (vec_scaled a k) h (fun h' l => vec_at h' l = Some (v3_scaled x k)).
Proof.
  intros S H. unfold vec_scaled. apply (made_read _ _ _ x); [exact H|]. now apply create_vec.
Qed.

Lemma ep_copy_made h a x : sound_heap h -> epoch_at h a = Some x ->
  made (ep_copy a) h (fun h' l => epoch_at h' l = Some x).
Proof.
  intros S H. unfold ep_copy. apply (made_read _ _ _ x); [exact H|].
  replace (epoch_copy x) with x by (destruct x; reflexivity). now apply create_epoch.
Qed.

Lemma ep_plus_made h a x t : sound_heap h -> epoch_at h a = Some x ->
  made (ep_plus_days a t) h (fun h' l => epoch_at h' l = Some (plus_days x t)).
Proof.
  intros S H. unfold ep_plus_days. apply (made_read _ _ _ x); [exact H|]. now apply create_epoch.
Qed.

(** Carry every fact about [h] over to the larger heap of [X]. *)
Ltac up X :=
  let h := match type of X with ext ?h _ => h end in
  repeat match goal with
  | H : vec_at h _ = Some _ |- _ => apply (ext_vec _ _ _ _ X) in H
  | H : epoch_at h _ = Some _ |- _ => apply (ext_epoch _ _ _ _ X) in H
  | H : state_at h _ = Some _ |- _ => apply (ext_state _ _ _ _ X) in H
  | H : prop_at h _ = Some _ |- _ => apply (ext_prop _ _ _ _ X) in H
  | H : cell h _ = Some _ |- _ => apply (ext_cell _ _ _ _ X) in H
  end.

(** Execute one creating operation with the lemma [L]. *)
Ltac run L h' l F :=
  let E := fresh "E" in let S := fresh "S" in let X := fresh "X" in let N := fresh "N" in
  destruct L as (h' & l & E & S & X & N & F);
  rewrite (seq_ok _ _ _ _ _ E); clear E; up X.

(** [s] is a state all of whose objects are new since [h]. *)
Definition new_since (h h' : heap) (s : loc) (x : gcrf) : Prop :=
  state_at h' s = Some x /\
  exists a b c d k u, cell h' s = Some (OState a b c d k u) /\
    next h <= a /\ next h <= b /\ next h <= c /\ next h <= d.

Lemma new_state_made h e r v x y z :
  sound_heap h -> epoch_at h e = Some x -> vec_at h r = Some y -> vec_at h v = Some z ->
  made (new_state e r v) h (fun h' l => new_since h h' l (GCRF x y z)).
Proof.
  intros S He Hr Hv. unfold new_state, made.
  run (ep_copy_made h e x S He) h1 e' F1.
  run (vec_copy_made h1 r y S0 Hr) h2 r' F2.
  run (vec_copy_made h2 v z S1 Hv) h3 v' F3.
  run (create_vec h3 (V3 0 0 0) S2) h4 t F4.
  destruct (create_made h4 (OState e' r' v' t 0 true) S3) as (h5 & s & E & S5 & X5 & N5 & F5).
  up X5. exists h5, s. split; [exact E|]. split; [exact S5|].
  pose proof (proj1 X). pose proof (proj1 X0). pose proof (proj1 X1). pose proof (proj1 X2).
  split; [eauto using ext_trans|]. split; [lia|]. split.
  - eapply state_at_intro; eauto.
  - exists e', r', v', t, 0%R, true. split; [exact F5|]. lia.
Qed.

Lemma fields_ok h s a b c d k u :
  cell h s = Some (OState a b c d k u) -> state_fields s h = (h, Ok (a, b, c, d, k, u)).
Proof. intros H. unfold state_fields. apply read_ok. now rewrite H. Qed.

Lemma pfields_ok h p a x y z d w :
  cell h p = Some (OProp a x y z d w) -> prop_fields p h = (h, Ok (a, x, y, z, d, w)).
Proof. intros H. unfold prop_fields. apply read_ok. now rewrite H. Qed.

Lemma state_copy_made h s x :
  sound_heap h -> state_at h s = Some x ->
  made (state_copy s) h (fun h' l => new_since h h' l (gcrf_copy x)).
Proof.
  intros S H. destruct (state_at_inv _ _ _ H) as (a & b & c & d & Q & Qa & Qb & Qc & Qd).
  unfold state_copy, made. rewrite (seq_ok _ _ _ _ _ (fields_ok _ _ _ _ _ _ _ _ Q)).
  exact (new_state_made h a b c _ _ _ S Qa Qb Qc).
Qed.

Lemma derivative_ok h s x k :
  sound_heap h -> state_at h s = Some x -> derivative x = Ok k ->
  exists h' a b, state_derivative s h = (h', Ok (a, b)) /\ sound_heap h' /\ ext h h' /\
    vec_at h' a = Some (fst k) /\ vec_at h' b = Some (snd k).
Proof.
  intros S H D. unfold state_derivative.
  rewrite (seq_ok _ _ h h x) by (apply read_ok; exact H).
  rewrite (seq_ok _ _ h h k) by (unfold raise; now rewrite D).
  run (create_vec h (fst k) S) h1 a F1.
  run (create_vec h1 (snd k) S0) h2 b F2.
  exists h2, a, b. split; [reflexivity|]. eauto using ext_trans.
Qed.

Lemma derivative_err h s x e :
  state_at h s = Some x -> derivative x = Err e -> state_derivative s h = (h, Err e).
Proof.
  intros H D. unfold state_derivative.
  rewrite (seq_ok _ _ h h x) by (apply read_ok; exact H).
  apply seq_err. unfold raise. now rewrite D.
Qed.

Lemma thrust_ok h p x dt t :
  sound_heap h -> prop_at h p = Some x -> thrust_vector x dt = Ok t ->
  made (new_thrust p dt) h (fun h' l => vec_at h' l = Some t).
Proof.
  intros S H D. unfold new_thrust, made.
  rewrite (seq_ok _ _ h h x) by (apply read_ok; exact H).
  rewrite (seq_ok _ _ h h t) by (unfold raise; now rewrite D).
  exact (create_vec h t S).
Qed.

Lemma thrust_err h p x dt e :
  prop_at h p = Some x -> thrust_vector x dt = Err e -> new_thrust p dt h = (h, Err e).
Proof.
  intros H D. unfold new_thrust.
  rewrite (seq_ok _ _ h h x) by (apply read_ok; exact H).
  apply seq_err. unfold raise. now rewrite D.
Qed.

(** Assigning a thrust to a state. *)
Lemma kind_vec h a s x b c d e k u :
  vec_at h a = Some x -> cell h s = Some (OState b c d e k u) -> a <> s.
Proof. unfold vec_at. intros H Q ->. rewrite Q in H. discriminate. Qed.

Lemma kind_epoch h a s x b c d e k u :
  epoch_at h a = Some x -> cell h s = Some (OState b c d e k u) -> a <> s.
Proof. unfold epoch_at. intros H Q ->. rewrite Q in H. discriminate. Qed.

Lemma vec_at_put h l o a n : a <> l -> vec_at (Heap n (put (cell h) l o)) a = vec_at h a.
Proof. intros H. unfold vec_at. cbn. now rewrite put_other. Qed.

Lemma epoch_at_put h l o a n : a <> l -> epoch_at (Heap n (put (cell h) l o)) a = epoch_at h a.
Proof. intros H. unfold epoch_at. cbn. now rewrite put_other. Qed.

Lemma assign_thrust_ok h s x t y a b c d k u :
  sound_heap h -> cell h s = Some (OState a b c d k u) -> state_at h s = Some x -> vec_at h t = Some y ->
  exists h', assign_thrust s t h = (h', Ok tt) /\ sound_heap h' /\ next h' = next h /\
    (forall l, l <> s -> cell h' l = cell h l) /\
    cell h' s = Some (OState a b c t k u) /\
    state_at h' s = Some (set_thrust x y).
Proof.
  intros S Q H T. unfold assign_thrust.
  rewrite (seq_ok _ _ _ _ _ (fields_ok _ _ _ _ _ _ _ _ Q)).
  eexists. split; [reflexivity|]. cbn [next cell].
  destruct (state_at_inv _ _ _ H) as (a' & b' & c' & d' & Q' & Qa & Qb & Qc & Qd).
  rewrite Q in Q'. assert (a' = a /\ b' = b /\ c' = c /\ d' = d /\
    k = g_srp_scalar x /\ u = g_use_perturbations x) as (-> & -> & -> & -> & -> & ->)
    by (repeat split; congruence). clear Q'.
  split; [|split; [reflexivity|split; [|split]]].
  - intros l Hl. cbn in *. destruct (Nat.eq_dec l s) as [->|n].
    + rewrite (S s Hl) in Q. discriminate.
    + rewrite put_other by exact n. now apply S.
  - intros l n. now apply put_other.
  - apply put_same.
  - destruct x as [e r v t' k u]. cbn in *. unfold set_thrust. cbn.
    eapply state_at_intro; cbn [cell]; [apply put_same| | | |].
    + rewrite epoch_at_put; eauto using kind_epoch.
    + rewrite vec_at_put; eauto using kind_vec.
    + rewrite vec_at_put; eauto using kind_vec.
    + rewrite vec_at_put; eauto using kind_vec.
Qed.

Lemma stage_ok h p x e r v k ve vr vv va vb dt tt y :
  sound_heap h -> prop_at h p = Some x -> epoch_at h e = Some ve -> vec_at h r = Some vr ->
  vec_at h v = Some vv -> vec_at h (fst k) = Some va -> vec_at h (snd k) = Some vb ->
  stage x ve vr vv (va, vb) dt tt = Ok y ->
  exists h' l, stage_at p e r v k dt tt h = (h', Ok l) /\ sound_heap h' /\ ext h h' /\ state_at h' l = Some y.
Proof.
  intros S Hp He Hr Hv Ha Hb G. unfold stage in G. cbn [fst snd] in G.
  destruct (thrust_vector x tt) as [t|] eqn:T; cbn in G; [|discriminate].
  assert (y = set_thrust (GCRF ve (v3_plus vr (v3_scaled va dt)) (v3_plus vv (v3_scaled vb dt))) t)
    as -> by congruence. clear G.
  unfold stage_at.
  run (vec_scaled_made h _ _ dt S Ha) h1 a F1.
  run (vec_plus_made h1 _ _ _ _ S0 Hr F1) h2 r' F2.
  run (vec_scaled_made h2 _ _ dt S1 Hb) h3 b F3.
  run (vec_plus_made h3 _ _ _ _ S2 Hv F3) h4 v' F4.
  run (new_state_made h4 _ _ _ _ _ _ S3 He F2 F4) h5 s F5.
  destruct F5 as (F5 & a0 & b0 & c0 & d0 & k0 & u0 & Q & _).
  run (thrust_ok h5 p x tt t S4 Hp T) h6 l6 F6.
  destruct (assign_thrust_ok h6 s _ l6 t _ _ _ _ _ _ S5 Q F5 F6)
    as (h7 & E7 & S7 & N7 & K7 & C7 & G7).
  rewrite (seq_ok _ _ _ _ _ E7). exists h7, s. split; [reflexivity|]. split; [exact S7|].
  split; [|exact G7].
  assert (ext h h6) as (XA & XB) by eauto 10 using ext_trans.
  pose proof (proj1 X). pose proof (proj1 X0). pose proof (proj1 X1). pose proof (proj1 X2).
  split; [lia|]. intros l o Hl. rewrite K7; [now apply XB|].
  pose proof (below _ _ _ S Hl). lia.
Qed.

Lemma stage_err h p x e r v k ve vr vv va vb dt tt er :
  sound_heap h -> prop_at h p = Some x -> epoch_at h e = Some ve -> vec_at h r = Some vr ->
  vec_at h v = Some vv -> vec_at h (fst k) = Some va -> vec_at h (snd k) = Some vb ->
  stage x ve vr vv (va, vb) dt tt = Err er ->
  exists h', stage_at p e r v k dt tt h = (h', Err er) /\ sound_heap h' /\ ext h h'.
Proof.
  intros S Hp He Hr Hv Ha Hb G. unfold stage in G. cbn [fst snd] in G.
  destruct (thrust_vector x tt) as [t|] eqn:T; cbn in G; [discriminate|].
  assert (e0 = er) as -> by congruence. clear G.
  unfold stage_at.
  run (vec_scaled_made h _ _ dt S Ha) h1 a F1.
  run (vec_plus_made h1 _ _ _ _ S0 Hr F1) h2 r' F2.
  run (vec_scaled_made h2 _ _ dt S1 Hb) h3 b F3.
  run (vec_plus_made h3 _ _ _ _ S2 Hv F3) h4 v' F4.
  run (new_state_made h4 _ _ _ _ _ _ S3 He F2 F4) h5 s F5.
  rewrite (seq_err _ _ _ _ _ (thrust_err h5 p x tt er Hp T)).
  exists h5. split; [reflexivity|]. split; [exact S4|]. eauto 10 using ext_trans.
Qed.

Lemma average_made h a b c d va vb vc vd :
  sound_heap h -> vec_at h a = Some va -> vec_at h b = Some vb -> vec_at h c = Some vc -> vec_at h d = Some vd ->
  made (average_at a b c d) h (fun h' l => vec_at h' l = Some (rk_average va vb vc vd)).
Proof.
  intros S Ha Hb Hc Hd. unfold average_at, made.
  run (vec_scaled_made h _ _ 2 S Hb) h1 l1 F1.
  run (vec_scaled_made h1 _ _ 2 S0 Hc) h2 l2 F2.
  run (vec_plus_made h2 _ _ _ _ S1 F2 Hd) h3 l3 F3.
  run (vec_plus_made h3 _ _ _ _ S2 F1 F3) h4 l4 F4.
  run (vec_plus_made h4 _ _ _ _ S3 Ha F4) h5 l5 F5.
  destruct (vec_scaled_made h5 _ _ (1 / 6) S4 F5) as (h6 & l6 & E & S6 & X6 & N6 & F6).
  exists h6, l6. split; [exact E|]. split; [exact S6|].
  split; [eauto 10 using ext_trans|].
  pose proof (proj1 X). pose proof (proj1 X0). pose proof (proj1 X1). pose proof (proj1 X2). pose proof (proj1 X3).
  split; [lia|exact F6].
Qed.
