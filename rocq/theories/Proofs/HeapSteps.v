(** What the methods of a propagator do to the heap, against the value model. *)
From Coq Require Import List Lia Arith.
From Verif.Model Require Import Num Constants Linalg Functions Time Celestial Positions States Inertial Heap.
From Verif.Spec Require Import Heap.
From Verif.Proofs Require Import HeapProofs.
Import ListNotations.

(** ** Reachability *)

Lemma reach_agree h h' p l :
  (forall x, reach h p x -> cell h' x = cell h x) -> reach h' p l -> reach h p l.
Proof.
  intros A R. revert A. induction R as [a|a o b c Ha Hb R IH]; intros A; [constructor|].
  assert (cell h a = Some o) as Ha' by (rewrite <- Ha; symmetry; apply A; constructor).
  eapply reach_attr; eauto. apply IH. intros x Hx. apply A. eapply reach_attr; eauto.
Qed.

Lemma reach_agree_iff h h' p l :
  (forall x, reach h p x -> cell h' x = cell h x) -> (reach h' p l <-> reach h p l).
Proof.
  intros A. split; [now apply reach_agree|]. intros R. revert A.
  induction R as [a|a o b c Ha Hb R IH]; intros A; [constructor|].
  eapply reach_attr; [rewrite A; [exact Ha|constructor]|exact Hb|].
  apply IH. intros x Hx. apply A. eapply reach_attr; eauto.
Qed.

Lemma reach_vec h a b x : vec_at h a = Some x -> reach h a b -> b = a.
Proof.
  unfold vec_at. intros H R. destruct R as [|a o b c Ha Hb R]; auto.
  rewrite Ha in H. destruct o; try discriminate. destruct Hb.
Qed.

Lemma reach_epoch h a b x : epoch_at h a = Some x -> reach h a b -> b = a.
Proof.
  unfold epoch_at. intros H R. destruct R as [|a o b c Ha Hb R]; auto.
  rewrite Ha in H. destruct o; try discriminate. destruct Hb.
Qed.

Lemma reach_state h s x a b c d k u l :
  state_at h s = Some x -> cell h s = Some (OState a b c d k u) ->
  reach h s l -> In l [s; a; b; c; d].
Proof.
  intros H Q R. destruct (state_at_inv _ _ _ H) as (a' & b' & c' & d' & Q' & Qa & Qb & Qc & Qd).
  rewrite Q in Q'. assert (a' = a /\ b' = b /\ c' = c /\ d' = d) as (-> & -> & -> & ->)
    by (repeat split; congruence).
  destruct R as [|s o y z Hs Hy R]; [now left|]. rewrite Q in Hs.
  assert (o = OState a b c d k u) as -> by congruence. cbn in Hy.
  destruct Hy as [<-|[<-|[<-|[<-|[]]]]].
  - apply reach_epoch with (1 := Qa) in R as ->. cbn. auto.
  - apply reach_vec with (1 := Qb) in R as ->. cbn. auto.
  - apply reach_vec with (1 := Qc) in R as ->. cbn. auto.
  - apply reach_vec with (1 := Qd) in R as ->. cbn. auto 6.
Qed.

Lemma reach_prop h p x s a' b' c' d' w l :
  prop_at h p = Some x -> cell h p = Some (OProp s a' b' c' d' w) ->
  reach h p l -> l = p \/ l = d' \/ reach h s l.
Proof.
  intros H Q R. destruct (prop_at_inv _ _ _ H) as (s' & d & Q' & Qs & Qd).
  rewrite Q in Q'. assert (s' = s /\ d = d') as (-> & ->) by (split; congruence).
  destruct R as [|p o y z Hs Hy R]; [now left|]. rewrite Q in Hs.
  assert (o = OProp s a' b' c' d' w) as -> by congruence. cbn in Hy.
  destruct Hy as [<-|[<-|[]]]; auto.
  apply reach_vec with (1 := Qd) in R as ->. auto.
Qed.

Lemma vec_cell h a x : vec_at h a = Some x -> exists o, cell h a = Some o.
Proof. unfold vec_at. destruct (cell h a); [eauto|discriminate]. Qed.

Lemma epoch_cell h a x : epoch_at h a = Some x -> exists o, cell h a = Some o.
Proof. unfold epoch_at. destruct (cell h a); [eauto|discriminate]. Qed.

(** Everything a propagator is made of exists. *)
Lemma reach_exists h p x l : prop_at h p = Some x -> reach h p l -> exists o, cell h l = Some o.
Proof.
  intros H R. destruct (prop_at_inv _ _ _ H) as (s & d & Q & Qs & Qd).
  destruct (reach_prop _ _ _ _ _ _ _ _ _ _ H Q R) as [->|[->|R']]; eauto using vec_cell.
  destruct (state_at_inv _ _ _ Qs) as (a & b & c & e & Q' & Qa & Qb & Qc & Qe).
  destruct (reach_state _ _ _ _ _ _ _ _ _ _ Qs Q' R') as [<-|[<-|[<-|[<-|[<-|[]]]]]];
    eauto using vec_cell, epoch_cell.
Qed.

Lemma ext_agree h h' p x : ext h h' -> prop_at h p = Some x ->
  forall l, reach h p l -> cell h' l = cell h l.
Proof.
  intros (_ & E) H l R. destruct (reach_exists _ _ _ _ H R) as (o & Q). rewrite Q. auto.
Qed.

Lemma prop_agree h h' p x :
  prop_at h p = Some x -> (forall l, reach h p l -> cell h' l = cell h l) -> prop_at h' p = Some x.
Proof.
  intros H A. destruct (prop_at_inv _ _ _ H) as (s & d & Q & Qs & Qd).
  destruct (state_at_inv _ _ _ Qs) as (a & b & c & e & Q' & Qa & Qb & Qc & Qe).
  assert (reach h p s) as Rs by (apply (reach_attr h p _ s s Q); [cbn; auto|constructor]).
  assert (forall l, reach h s l -> reach h p l) as Up
    by (intros l R; apply (reach_attr h p _ s l Q); [cbn; auto|exact R]).
  assert (forall l, In l [a; b; c; e] -> reach h p l) as Rl
    by (intros l Hl; apply Up; apply (reach_attr h s _ l l Q'); [exact Hl|constructor]).
  assert (forall l y, reach h p l -> vec_at h l = Some y -> vec_at h' l = Some y) as V
    by (intros l y R; unfold vec_at; now rewrite (A _ R)).
  assert (forall l y, reach h p l -> epoch_at h l = Some y -> epoch_at h' l = Some y) as Ve
    by (intros l y R; unfold epoch_at; now rewrite (A _ R)).
  destruct x as [[e0 r v t k u] z1 z2 z3 dir z4]. cbn in *.
  eapply prop_at_intro.
  - rewrite A; [exact Q|constructor].
  - eapply state_at_intro.
    + rewrite A; [exact Q'|exact Rs].
    + apply Ve; auto.
    + apply V; auto.
    + apply V; auto.
    + apply V; auto 6.
  - apply V; auto. eapply reach_attr; [exact Q|cbn; auto|constructor].
Qed.

(** ** The frame of a call on [p] *)

Definition framed (h : heap) (p : loc) (h' : heap) : Prop :=
  next h <= next h' /\
  (forall l o, cell h l = Some o -> ~ reach h p l -> cell h' l = Some o) /\
  (forall l, reach h' p l -> reach h p l \/ next h <= l).

Definition called (h : heap) (p : loc) (h' : heap) (x' : rk4) : Prop :=
  sound_heap h' /\ prop_at h' p = Some x' /\ framed h p h'.

Lemma framed_trans h p h1 h2 :
  sound_heap h -> framed h p h1 -> framed h1 p h2 -> framed h p h2.
Proof.
  intros S (A & B & C) (A' & B' & C'). split; [lia|]. split.
  - intros l o Q N. apply B'; [now apply B|]. intros R.
    destruct (C _ R) as [|G]; [contradiction|]. pose proof (below _ _ _ S Q). lia.
  - intros l R. destruct (C' _ R) as [R'|G]; [auto|right; lia].
Qed.

Lemma framed_ext h p x h' : prop_at h p = Some x -> ext h h' -> framed h p h'.
Proof.
  intros H E. split; [apply E|]. split.
  - intros l o Q _. now apply E.
  - intros l R. left. apply (reach_agree h h'); auto. now apply (ext_agree h h' p x).
Qed.

Lemma called_ext h p x h' : sound_heap h' -> prop_at h p = Some x -> ext h h' -> called h p h' x.
Proof. intros S H E. split; [exact S|]. split; [eauto using ext_prop|eauto using framed_ext]. Qed.

Lemma called_trans h p h1 x1 h2 x2 :
  sound_heap h -> called h p h1 x1 -> called h1 p h2 x2 -> called h p h2 x2.
Proof. intros S (A & B & C) (A' & B' & C'). repeat split; auto; eapply framed_trans; eauto. Qed.

(** Assigning to an attribute of [p] itself. *)
Lemma state_at_put h l o s x n :
  state_at h s = Some x -> (forall y, vec_at h l = Some y -> False) -> (forall y, epoch_at h l = Some y -> False) ->
  (forall y, state_at h l = Some y -> False) ->
  state_at (Heap n (put (cell h) l o)) s = Some x.
Proof.
  intros H Nv Ne Ns. destruct (state_at_inv _ _ _ H) as (a & b & c & d & Q & Qa & Qb & Qc & Qd).
  assert (s <> l) by (intros ->; eauto).
  assert (a <> l) by (intros ->; eauto). assert (b <> l) by (intros ->; eauto).
  assert (c <> l) by (intros ->; eauto). assert (d <> l) by (intros ->; eauto).
  destruct x as [e r v t k u]. cbn in *.
  eapply state_at_intro; cbn [cell]; [rewrite put_other by auto; exact Q| | | |].
  - now rewrite epoch_at_put.
  - now rewrite vec_at_put.
  - now rewrite vec_at_put.
  - now rewrite vec_at_put.
Qed.

Lemma prop_kind h p x : prop_at h p = Some x ->
  (forall y, vec_at h p = Some y -> False) /\ (forall y, epoch_at h p = Some y -> False) /\
  (forall y, state_at h p = Some y -> False).
Proof.
  intros H. destruct (prop_at_inv _ _ _ H) as (s & d & Q & _). unfold vec_at, epoch_at, state_at.
  rewrite Q. repeat split; discriminate.
Qed.

Lemma sound_put h l o x : sound_heap h -> cell h l = Some x -> sound_heap (Heap (next h) (put (cell h) l o)).
Proof.
  intros S Q k Hk. cbn in *. pose proof (below _ _ _ S Q). rewrite put_other by lia. now apply S.
Qed.

Lemma called_assign h0 h p x s d a b c i y v :
  sound_heap h0 -> sound_heap h -> prop_at h p = Some x -> framed h0 p h ->
  state_at h s = Some y -> vec_at h d = Some v ->
  (forall l, reach h s l -> reach h0 p l \/ next h0 <= l) -> (reach h0 p d \/ next h0 <= d) ->
  called h0 p (Heap (next h) (put (cell h) p (OProp s a b c d i))) (Rk4 y a b c v i).
Proof.
  intros S0 S H (F1 & F2 & F3) Hs Hd Rs Rd. destruct (prop_kind _ _ _ H) as (Kv & Ke & Ks).
  destruct (prop_at_inv _ _ _ H) as (s0 & d0 & Q & Qs & Qd).
  assert (prop_at (Heap (next h) (put (cell h) p (OProp s a b c d i))) p = Some (Rk4 y a b c v i)) as P'.
  { eapply prop_at_intro; cbn [cell]; [apply put_same| |].
    - now apply state_at_put.
    - rewrite vec_at_put; auto. intros ->. eauto. }
  split; [eauto using sound_put|]. split; [exact P'|].
  split; [cbn; lia|]. split.
  - intros l o Ql N. cbn. rewrite put_other; [now apply F2|]. intros ->. apply N. constructor.
  - intros l R.
    destruct (reach_prop _ _ _ _ _ _ _ _ _ _ P' (put_same _ _ _) R) as [->|[->|R']].
    + left. constructor.
    + exact Rd.
    + apply Rs. apply (reach_agree _ _ _ _) with (2 := R'). intros z Rz. cbn. apply put_other.
      intros ->. destruct (state_at_inv _ _ _ Hs) as (a1 & b1 & c1 & d1 & Q1 & Qa & Qb & Qc & Qe).
      destruct (reach_state _ _ _ _ _ _ _ _ _ _ Hs Q1 Rz) as [<-|[<-|[<-|[<-|[<-|[]]]]]]; eauto.
Qed.

Lemma framed_refl h p : framed h p h.
Proof. split; [lia|]. split; auto. Qed.

Lemma reach_own_state h p s a b c d i l :
  cell h p = Some (OProp s a b c d i) -> reach h s l -> reach h p l.
Proof. intros Q R. apply (reach_attr h p _ s l Q); [cbn; auto|exact R]. Qed.

Lemma reach_own_dir h p s a b c d i l :
  cell h p = Some (OProp s a b c d i) -> reach h d l -> reach h p l.
Proof. intros Q R. apply (reach_attr h p _ d l Q); [cbn; auto|exact R]. Qed.

Lemma assign_size_called h p x k :
  sound_heap h -> prop_at h p = Some x ->
  exists h', assign_step_size p k h = (h', Ok tt) /\ called h p h' (set_step_size x k).
Proof.
  intros S H. destruct (prop_at_inv _ _ _ H) as (s & d & Q & Qs & Qd).
  unfold assign_step_size. rewrite (seq_ok _ _ _ _ _ (pfields_ok _ _ _ _ _ _ _ _ Q)).
  eexists. split; [reflexivity|]. unfold set_step_size.
  eapply called_assign; eauto using framed_refl.
  - intros l R. left. eapply reach_own_state; eauto.
  - left. eapply reach_own_dir; eauto. constructor.
Qed.

Lemma assign_off_called h p x :
  sound_heap h -> prop_at h p = Some x ->
  exists h', assign_thruster_off p h = (h', Ok tt) /\ called h p h' (set_thruster_off x).
Proof.
  intros S H. destruct (prop_at_inv _ _ _ H) as (s & d & Q & Qs & Qd).
  unfold assign_thruster_off. rewrite (seq_ok _ _ _ _ _ (pfields_ok _ _ _ _ _ _ _ _ Q)).
  eexists. split; [reflexivity|]. unfold set_thruster_off.
  eapply called_assign; eauto using framed_refl.
  - intros l R. left. eapply reach_own_state; eauto.
  - left. eapply reach_own_dir; eauto. constructor.
Qed.

(** The thrust of line 45 goes into the state the propagator holds. *)
Lemma thrust_called h p x s d t y a b c e k u z1 z2 z3 z4 :
  sound_heap h -> prop_at h p = Some x -> cell h p = Some (OProp s z1 z2 z3 d z4) ->
  cell h s = Some (OState a b c e k u) -> vec_at h t = Some y -> forall h0, sound_heap h0 ->
  framed h0 p h -> next h0 <= t ->
  exists h', assign_thrust s t h = (h', Ok tt) /\ cell h' p = Some (OProp s z1 z2 z3 d z4) /\
    cell h' s = Some (OState a b c t k u) /\ (forall l, l <> s -> cell h' l = cell h l) /\
    called h0 p h' (set_rk_state x (set_thrust (rk_state x) y)).
Proof.
  intros S H Q Qs T h0 S0 (F1 & F2 & F3) N.
  destruct (prop_at_inv _ _ _ H) as (s' & d' & Q' & Hs & Hd).
  rewrite Q in Q'. assert (s' = s /\ d' = d /\ z1 = step_size x /\ z2 = m_dot x /\ z3 = m0 x /\ z4 = isp x)
    as (-> & -> & -> & -> & -> & ->) by (repeat split; congruence). clear Q'.
  destruct (assign_thrust_ok h s _ t y _ _ _ _ _ _ S Qs Hs T) as (h' & E & S' & N' & K & C & G).
  exists h'. split; [exact E|].
  assert (p <> s) as Nps by (intros ->; congruence).
  assert (cell h' p = Some (OProp s (step_size x) (m_dot x) (m0 x) d (isp x))) as Qp' by (rewrite K; auto).
  split; [exact Qp'|]. split; [exact C|]. split; [exact K|].
  assert (prop_at h' p = Some (set_rk_state x (set_thrust (rk_state x) y))) as P'.
  { unfold set_rk_state. eapply prop_at_intro; eauto. unfold vec_at. rewrite K; [exact Hd|].
    eauto using kind_vec. }
  split; [exact S'|]. split; [exact P'|]. split; [lia|]. split.
  - intros l o Ql Nl. assert (cell h l = Some o) as Ql' by auto. rewrite K; auto. intros ->.
    assert (reach h p s) as R by (eapply reach_own_state; eauto; constructor).
    destruct (F3 _ R) as [|G']; [contradiction|]. pose proof (below _ _ _ S0 Ql). lia.
  - intros l R.
    destruct (reach_prop _ _ _ _ _ _ _ _ _ _ P' Qp' R) as [->|[->|R']].
    + left. constructor.
    + apply F3. eapply reach_own_dir; eauto. constructor.
    + destruct (reach_state _ _ _ _ _ _ _ _ _ _ G C R') as [<-|[<-|[<-|[<-|[<-|[]]]]]].
      * apply F3. eapply reach_own_state; eauto. constructor.
      * apply F3. eapply reach_own_state; eauto. apply (reach_attr h s _ a a Qs); [cbn; auto|constructor].
      * apply F3. eapply reach_own_state; eauto. apply (reach_attr h s _ b b Qs); [cbn; auto|constructor].
      * apply F3. eapply reach_own_state; eauto. apply (reach_attr h s _ c c Qs); [cbn; auto|constructor].
      * right. exact N.
Qed.

(** ** RK4.step *)

(** The exception leaves a heap with new objects only. *)
Ltac leave :=
  cbn [bind fst snd]; eexists; split; [reflexivity|];
  match goal with F : forall h', _ -> _ -> called _ _ h' _ |- _ => apply F; eauto using ext_trans end.

Lemma step_called h p x :
  sound_heap h -> prop_at h p = Some x ->
  exists h', prop_step p h = (h', snd (rk4_step x)) /\ called h p h' (fst (rk4_step x)).
Proof.
  intros S H. destruct (prop_at_inv _ _ _ H) as (s & d & Q & Qs & Qd).
  destruct (state_at_inv _ _ _ Qs) as (a & b & c & e & Q' & Qa & Qb & Qc & Qe).
  unfold prop_step, rk4_step.
  rewrite (seq_ok _ _ _ _ _ (pfields_ok _ _ _ _ _ _ _ _ Q)).
  rewrite (seq_ok _ _ _ _ _ (fields_ok _ _ _ _ _ _ _ _ Q')).
  assert (forall h', sound_heap h' -> ext h h' -> called h p h' x) as Fin0
    by (intros h' S' X'; exact (called_ext h p x h' S' H X')).
  run (ep_copy_made h _ _ S Qa) h1 ep0 F0.
  destruct (thrust_vector x 0) as [t0|er] eqn:T.
  2: { rewrite (seq_err _ _ _ _ _ (thrust_err h1 p x _ er H T)). cbn [fst snd].
       exists h1. split; [reflexivity|]. auto. }
  run (thrust_ok h1 p x _ t0 S0 H T) h2 lth F2.
  assert (ext h h2) as X2 by eauto using ext_trans.
  destruct (thrust_called h2 p x s d lth t0 _ _ _ _ _ _ _ _ _ _ S1 H Q Q' F2 h S
    (proj2 (proj2 (Fin0 h2 S1 X2))) ltac:(pose proof (proj1 X); lia))
    as (h3 & E3 & Q3 & Q3' & K3 & CA3).
  pose proof CA3 as (S3 & P3 & FR3).
  rewrite (seq_ok _ _ _ _ _ E3). clear E3.
  assert (epoch_at h3 ep0 = Some (g_epoch (rk_state x))) as G0.
  { unfold epoch_at. rewrite K3; [exact F0|]. exact (kind_epoch _ _ _ _ _ _ _ _ _ _ F0 Q'). }
  clear F0 F2 X X0 X2 S0 S1 N N0 H Q Qs Qd Q' Qa Qb Qc Qe K3 h1 h2.
  set (x3 := set_rk_state x (set_thrust (rk_state x) t0)) in *.
  destruct (prop_at_inv _ _ _ P3) as (s' & d' & Q & Qs & Qd).
  rewrite Q3 in Q. assert (s' = s /\ d' = d) as (-> & ->) by (split; congruence). clear Q.
  destruct (state_at_inv _ _ _ Qs) as (a' & b' & c' & e' & Q' & Qa & Qb & Qc & Qe).
  rewrite Q3' in Q'. assert (a' = a /\ b' = b /\ c' = c /\ e' = lth) as (-> & -> & -> & ->)
    by (repeat split; congruence). clear Q'.
  change (g_epoch (rk_state x)) with (g_epoch (rk_state x3)) in G0.
  change (step_size x) with (step_size x3) in *. change (m_dot x) with (m_dot x3) in *.
  change (m0 x) with (m0 x3) in *. change (isp x) with (isp x3) in *.
  clearbody x3. clear T Fin0.
  unfold vector_list at 1.
  rewrite (seq_ok _ _ h3 h3 (b, c)) by (rewrite (seq_ok _ _ _ _ _ (fields_ok _ _ _ _ _ _ _ _ Q3')); reflexivity).
  (* from here on every operation only creates *)
  assert (forall h', sound_heap h' -> ext h3 h' -> called h p h' x3) as Fin
    by (intros h' S' X'; eapply called_trans; [exact S|exact CA3|eapply called_ext; eauto]).
  unfold step_result, gcrf_vector_list.
  replace (epoch_copy (g_epoch (rk_state x3))) with (g_epoch (rk_state x3))
    by (destruct (g_epoch (rk_state x3)); reflexivity).
  assert (ext h3 h3) as XX by apply ext_refl.
  destruct (derivative (rk_state x3)) as [[k1a k1b]|er] eqn:D1; cbn [bind fst snd].
  2: { rewrite (seq_err _ _ _ _ _ (derivative_err h3 s _ er Qs D1)). leave. }
  destruct (derivative_ok h3 s _ _ S3 Qs D1) as (h4 & l1a & l1b & E4 & S4 & X4 & G1a & G1b).
  rewrite (seq_ok _ _ _ _ _ E4). clear E4 D1. pose proof X4 as XX4. up X4. clear XX X4. cbn [fst snd] in *.
  run (ep_plus_made h4 ep0 _ (step_size x3 / 2 / SECONDS_IN_DAY) S4 G0) h5 ep1 G5.
  assert (ext h3 h5) as XX by eauto using ext_trans. clear XX4 X S4 N h4.
  set (EP1 := plus_days (g_epoch (rk_state x3)) (step_size x3 / 2 / SECONDS_IN_DAY)) in *.
  destruct (stage x3 EP1 _ _ (k1a, k1b) (step_size x3 / 2) (step_size x3 / 2)) as [y1|er] eqn:D1; cbn [bind].
  2: { destruct (stage_err h5 p x3 ep1 b c (l1a, l1b) _ _ _ _ _ _ _ er S0 P3 G5 Qb Qc G1a G1b D1)
         as (h6 & E6 & S6 & X6). rewrite (seq_err _ _ _ _ _ E6). leave. }
  destruct (stage_ok h5 p x3 ep1 b c (l1a, l1b) _ _ _ _ _ _ _ y1 S0 P3 G5 Qb Qc G1a G1b D1)
    as (h6 & ly1 & E6 & S6 & X6 & Y1). rewrite (seq_ok _ _ _ _ _ E6). clear E6 D1. up X6.
  assert (ext h3 h6) as XX6 by eauto using ext_trans. clear XX X6 S0 h5.
  destruct (derivative y1) as [[k2a k2b]|er] eqn:D1; cbn [bind fst snd].
  2: { rewrite (seq_err _ _ _ _ _ (derivative_err h6 ly1 _ er Y1 D1)). leave. }
  destruct (derivative_ok h6 ly1 _ _ S6 Y1 D1) as (h7 & l2a & l2b & E7 & S7 & X7 & G2a & G2b).
  rewrite (seq_ok _ _ _ _ _ E7). clear E7 D1. up X7.
  assert (ext h3 h7) as XX7 by eauto using ext_trans. clear XX6 X7 S6 h6. cbn [fst snd] in *.
  destruct (stage x3 EP1 _ _ (k2a, k2b) (step_size x3 / 2) (step_size x3 / 2)) as [y2|er] eqn:D1; cbn [bind].
  2: { destruct (stage_err h7 p x3 ep1 b c (l2a, l2b) _ _ _ _ _ _ _ er S7 P3 G5 Qb Qc G2a G2b D1)
         as (h8 & E8 & S8 & X8). rewrite (seq_err _ _ _ _ _ E8). leave. }
  destruct (stage_ok h7 p x3 ep1 b c (l2a, l2b) _ _ _ _ _ _ _ y2 S7 P3 G5 Qb Qc G2a G2b D1)
    as (h8 & ly2 & E8 & S8 & X8 & Y2). rewrite (seq_ok _ _ _ _ _ E8). clear E8 D1. up X8.
  assert (ext h3 h8) as XX8 by eauto using ext_trans. clear XX7 X8 S7 h7.
  destruct (derivative y2) as [[k3a k3b]|er] eqn:D1; cbn [bind fst snd].
  2: { rewrite (seq_err _ _ _ _ _ (derivative_err h8 ly2 _ er Y2 D1)). leave. }
  destruct (derivative_ok h8 ly2 _ _ S8 Y2 D1) as (h9 & l3a & l3b & E9 & S9 & X9 & G3a & G3b).
  rewrite (seq_ok _ _ _ _ _ E9). clear E9 D1. up X9.
  assert (ext h3 h9) as XX9 by eauto using ext_trans. clear XX8 X9 S8 h8. cbn [fst snd] in *.
  run (ep_plus_made h9 ep1 _ (step_size x3 / 2 / SECONDS_IN_DAY) S9 G5) h10 ep2 G10.
  assert (ext h3 h10) as XX10 by eauto using ext_trans. clear XX9 X S9 N h9.
  set (EP2 := plus_days EP1 (step_size x3 / 2 / SECONDS_IN_DAY)) in *.
  destruct (stage x3 EP2 _ _ (k3a, k3b) (step_size x3) (step_size x3 / 2 * 2)) as [y3|er] eqn:D1; cbn [bind].
  2: { destruct (stage_err h10 p x3 ep2 b c (l3a, l3b) _ _ _ _ _ _ _ er S0 P3 G10 Qb Qc G3a G3b D1)
         as (h11 & E11 & S11 & X11). rewrite (seq_err _ _ _ _ _ E11). leave. }
  destruct (stage_ok h10 p x3 ep2 b c (l3a, l3b) _ _ _ _ _ _ _ y3 S0 P3 G10 Qb Qc G3a G3b D1)
    as (h11 & ly3 & E11 & S11 & X11 & Y3). rewrite (seq_ok _ _ _ _ _ E11). clear E11 D1. up X11.
  assert (ext h3 h11) as XX11 by eauto using ext_trans. clear XX10 X11 S0 h10.
  destruct (derivative y3) as [[k4a k4b]|er] eqn:D1; cbn [bind fst snd].
  2: { rewrite (seq_err _ _ _ _ _ (derivative_err h11 ly3 _ er Y3 D1)). leave. }
  destruct (derivative_ok h11 ly3 _ _ S11 Y3 D1) as (h12 & l4a & l4b & E12 & S12 & X12 & G4a & G4b).
  rewrite (seq_ok _ _ _ _ _ E12). clear E12 D1. up X12.
  assert (ext h3 h12) as XX12 by eauto using ext_trans. clear XX11 X12 S11 h11. cbn [fst snd] in *.
  run (average_made h12 l1a l2a l3a l4a _ _ _ _ S12 G1a G2a G3a G4a) h13 dv F13.
  run (average_made h13 l1b l2b l3b l4b _ _ _ _ S0 G1b G2b G3b G4b) h14 da F14.
  rewrite (seq_ok _ _ _ _ _ (fields_ok _ _ _ _ _ _ _ _ Q3')).
  run (vec_scaled_made h14 dv _ (step_size x3) S1 F13) h15 l15 F15.
  run (vec_plus_made h15 b l15 _ _ S2 Qb F15) h16 l16 F16.
  run (vec_scaled_made h16 da _ (step_size x3) S4 F14) h17 l17 F17.
  run (vec_plus_made h17 c l17 _ _ S5 Qc F17) h18 l18 F18.
  run (new_state_made h18 ep2 l16 l18 _ _ _ S6 G10 F16 F18) h19 st F19.
  assert (ext h3 h18) as XX18 by eauto 10 using ext_trans.
  assert (ext h3 h19) as XX19 by eauto using ext_trans.
  destruct F19 as (F19 & fa & fb & fc & fd & fk & fu & FQ & Na & Nb & Nc & Nd).
  unfold assign_state. rewrite (seq_ok _ _ _ _ _ (pfields_ok _ _ _ _ _ _ _ _ Q3)).
  cbn [fst snd]. eexists. split; [reflexivity|].
  pose proof (Fin h19 S7 XX19) as (_ & _ & FR19).
  assert (next h <= next h18) by (pose proof (proj1 FR3); pose proof (proj1 XX18); lia).
  unfold set_rk_state. eapply called_assign with (h := h19); eauto.
  - intros l R. right.
    destruct (reach_state _ _ _ _ _ _ _ _ _ _ F19 FQ R) as [<-|[<-|[<-|[<-|[<-|[]]]]]]; lia.
  - apply FR19. eapply reach_own_dir; eauto. constructor.
Qed.
