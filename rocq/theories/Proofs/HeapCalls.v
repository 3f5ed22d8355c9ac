(** The longer methods, and whole programs. *)
From Coq Require Import List Lia Arith.
From Verif.Model Require Import Num Constants Linalg Functions Time Celestial Positions States Inertial Heap.
From Verif.Spec Require Import Heap.
From Verif.Proofs Require Import HeapProofs HeapSteps.
Import ListNotations.

Lemma steps_called n : forall h p x,
  sound_heap h -> prop_at h p = Some x ->
  exists h', prop_steps n p h = (h', snd (rk4_steps n x)) /\ called h p h' (fst (rk4_steps n x)).
Proof.
  induction n as [|n IH]; intros h p x S H; cbn [prop_steps rk4_steps].
  - exists h. split; [reflexivity|]. eapply called_ext; eauto using ext_refl.
  - destruct (step_called h p x S H) as (h1 & E1 & C1).
    destruct (rk4_step x) as [x1 [[]|er]]; cbn [fst snd] in *.
    + rewrite (seq_ok _ _ _ _ _ E1). pose proof C1 as (S1 & H1 & _).
      destruct (IH h1 p x1 S1 H1) as (h2 & E2 & C2). exists h2. split; [exact E2|].
      eauto using called_trans.
    + rewrite (seq_err _ _ _ _ _ E1). eauto.
Qed.

Lemma step_to_called h p x e t :
  sound_heap h -> prop_at h p = Some x -> epoch_at h e = Some t ->
  exists h', prop_step_to p e h = (h', snd (rk4_step_to_epoch x t)) /\
    called h p h' (fst (rk4_step_to_epoch x t)).
Proof.
  intros S H He. destruct (prop_at_inv _ _ _ H) as (s & d & Q & Qs & Qd).
  destruct (state_at_inv _ _ _ Qs) as (a & b & c & f & Q' & Qa & Qb & Qc & Qe).
  unfold prop_step_to, rk4_step_to_epoch.
  rewrite (seq_ok _ _ _ _ _ (pfields_ok _ _ _ _ _ _ _ _ Q)).
  rewrite (seq_ok _ _ _ _ _ (fields_ok _ _ _ _ _ _ _ _ Q')).
  rewrite (seq_ok _ _ h h t) by (apply read_ok; exact He).
  rewrite (seq_ok _ _ h h (g_epoch (rk_state x))) by (apply read_ok; exact Qa).
  set (dt := (_ * SECONDS_IN_DAY)%R). set (num := nceil _).
  set (x1 := if (0 <? num)%Z then set_step_size x (dt / of_Z num) else x).
  assert (exists h1, (if (0 <? num)%Z then assign_step_size p (dt / of_Z num) else ret tt) h = (h1, Ok tt) /\
    called h p h1 x1) as (h1 & E1 & C1).
  { unfold x1. destruct (0 <? num)%Z.
    - now apply assign_size_called.
    - exists h. split; [reflexivity|]. eapply called_ext; eauto using ext_refl. }
  rewrite (seq_ok _ _ _ _ _ E1). pose proof C1 as (S1 & H1 & _).
  destruct (steps_called (Z.to_nat num) h1 p x1 S1 H1) as (h2 & E2 & C2).
  destruct (rk4_steps (Z.to_nat num) x1) as [x2 [[]|er]]; cbn [fst snd] in *.
  - rewrite (seq_ok _ _ _ _ _ E2). pose proof C2 as (S2 & H2 & _).
    destruct (assign_size_called h2 p x2 (step_size x) S2 H2) as (h3 & E3 & C3).
    exists h3. split; [exact E3|]. eauto using called_trans.
  - rewrite (seq_err _ _ _ _ _ E2). eauto using called_trans.
Qed.

Lemma maneuver_called h p x d v mdot mass imp :
  sound_heap h -> prop_at h p = Some x -> vec_at h d = Some v ->
  exists h', prop_maneuver p d mdot mass imp h = (h', snd (rk4_maneuver x v mdot mass imp)) /\
    called h p h' (fst (rk4_maneuver x v mdot mass imp)).
Proof.
  intros S H Hd. unfold prop_maneuver, rk4_maneuver.
  rewrite (seq_ok _ _ h h v) by (apply read_ok; exact Hd).
  destruct (burn_duration (v3_magnitude v) mdot mass imp) as [T|er].
  2: { rewrite (seq_err _ _ h h er) by reflexivity. cbn [fst snd]. exists h. split; [reflexivity|].
       eapply called_ext; eauto using ext_refl. }
  rewrite (seq_ok _ _ h h T) by reflexivity.
  assert (forall h', ext h h' -> framed h p h') as Fr by (intros h' X'; exact (framed_ext h p x h' H X')).
  run (vec_copy_made h d v S Hd) h1 dcopy F1.
  destruct (prop_at_inv _ _ _ H) as (s & d0 & Q & Qs & Qd).
  assert (exists h2, assign_thruster p dcopy mass mdot imp h1 = (h2, Ok tt) /\
    called h p h2 (set_thruster x (v3_copy v) mass mdot imp)) as (h2 & E2 & C2).
  { unfold assign_thruster. rewrite (seq_ok _ _ _ _ _ (pfields_ok _ _ _ _ _ _ _ _ Q)).
    eexists. split; [reflexivity|]. unfold set_thruster.
    replace (v3_copy v) with v by (destruct v; reflexivity).
    eapply called_assign; eauto.
    intros l R. apply (Fr h1 X). eapply reach_own_state; eauto. }
  rewrite (seq_ok _ _ _ _ _ E2). pose proof C2 as (S2 & H2 & _).
  clear Q Qs Qd. set (x1 := set_thruster x (v3_copy v) mass mdot imp) in *.
  destruct (prop_at_inv _ _ _ H2) as (s2 & d2 & Q & Qs & Qd).
  destruct (state_at_inv _ _ _ Qs) as (a & b & c & f & Q' & Qa & Qb & Qc & Qe).
  rewrite (seq_ok _ _ _ _ _ (pfields_ok _ _ _ _ _ _ _ _ Q)).
  rewrite (seq_ok _ _ _ _ _ (fields_ok _ _ _ _ _ _ _ _ Q')).
  assert (forall h', sound_heap h' -> ext h2 h' -> called h p h' x1) as Fin.
  { intros h' S' X'. eapply called_trans; [exact S|exact C2|]. eapply called_ext; eauto. }
  run (ep_plus_made h2 a _ (T / SECONDS_IN_DAY) S2 Qa) h3 e3 F3.
  pose proof (Fin h3 S1 X0) as C3.
  destruct (step_to_called h3 p x1 e3 _ S1 H2 F3) as (h4 & E4 & C4).
  destruct (rk4_step_to_epoch x1 _) as [x2 [[]|er]]; cbn [fst snd] in *.
  - rewrite (seq_ok _ _ _ _ _ E4). pose proof C4 as (S4 & H4 & _).
    destruct (assign_off_called h4 p x2 S4 H4) as (h5 & E5 & C5).
    exists h5. split; [exact E5|]. eauto using called_trans.
  - rewrite (seq_err _ _ _ _ _ E4). eauto using called_trans.
Qed.

(** A new propagator is made of new objects. *)
Lemma new_prop_made h s x :
  sound_heap h -> state_at h s = Some x ->
  exists h' p, new_prop s h = (h', Ok p) /\ sound_heap h' /\ ext h h' /\
    prop_at h' p = Some (RK4 x) /\ (forall l, reach h' p l -> next h <= l).
Proof.
  intros S H. unfold new_prop.
  run (state_copy_made h s x S H) h1 s1 F1.
  destruct F1 as (F1 & a & b & c & d & k & u & FQ & Na & Nb & Nc & Nd).
  run (create_vec h1 (V3 0 0 0) S0) h2 dnew F2.
  destruct (create_made h2 (OProp s1 MAX_STEP 0 0 dnew 0) S1) as (h3 & p & E3 & S3 & X3 & N3 & F3).
  up X3. exists h3, p. split; [exact E3|]. split; [exact S3|]. split; [eauto using ext_trans|].
  assert (prop_at h3 p = Some (RK4 x)) as P by (unfold RK4; eapply prop_at_intro; eauto).
  split; [exact P|]. intros l R.
  pose proof (proj1 X). pose proof (proj1 X0).
  destruct (reach_prop _ _ _ _ _ _ _ _ _ _ P F3 R) as [->|[->|R']]; try lia.
  destruct (reach_state _ _ _ _ _ _ _ _ _ _ F1 FQ R') as [<-|[<-|[<-|[<-|[<-|[]]]]]]; lia.
Qed.

Lemma get_state_made h p x :
  sound_heap h -> prop_at h p = Some x ->
  made (get_state p) h (fun h' l => new_since h h' l (gcrf_copy (rk_state x))).
Proof.
  intros S H. destruct (prop_at_inv _ _ _ H) as (s & d & Q & Qs & Qd).
  unfold get_state, made. rewrite (seq_ok _ _ _ _ _ (pfields_ok _ _ _ _ _ _ _ _ Q)).
  exact (state_copy_made h s _ S Qs).
Qed.

(** ** The invariant of a program *)

Definition inv (h : heap) (C : names) (P : props) : Prop :=
  sound_heap h /\ closed h C /\
  (forall p x, P p = Some x -> prop_at h p = Some x) /\
  (forall p x l, P p = Some x -> reach h p l -> C l -> False) /\
  (forall p q x y, P p = Some x -> P q = Some y -> p <> q -> apart h p q).

Lemma closed_below h C l : sound_heap h -> closed h C -> C l -> l < next h.
Proof. intros S K H. destruct (K l H) as (o & Q & _). eauto using below. Qed.

Lemma inv_ext h C P h' :
  inv h C P -> sound_heap h' -> ext h h' ->
  (forall p x l, P p = Some x -> reach h' p l -> reach h p l) /\ inv h' C P.
Proof.
  intros (S & K & A & B & D) S' X.
  assert (forall p x l, P p = Some x -> reach h' p l -> reach h p l) as Rd.
  { intros p x l Hp R. apply (reach_agree h h'); auto. apply (ext_agree h h' p x X). eauto. }
  split; [exact Rd|]. split; [exact S'|]. split; [|split; [|split]].
  - intros l Hl. destruct (K l Hl) as (o & Q & N). exists o. split; [now apply X|exact N].
  - eauto using ext_prop.
  - eauto.
  - intros p q x y Hp Hq N l R1 R2. eapply (D p q); eauto.
Qed.

Lemma reach_below h p x l : sound_heap h -> prop_at h p = Some x -> reach h p l -> l < next h.
Proof. intros S H R. destruct (reach_exists _ _ _ _ H R) as (o & Q). eauto using below. Qed.

(** New names for fresh objects. *)
Lemma inv_also h C P l o :
  inv h C P -> cell h l = Some o -> all_named C (refs o) ->
  (forall p x, P p = Some x -> reach h p l -> False) -> inv h (also C l) P.
Proof.
  intros (S & K & A & B & D) Q N F. split; [exact S|]. split; [|split; [exact A|split; [|exact D]]].
  - intros z [->|Hz].
    + exists o. split; [exact Q|]. intros y Hy. right. auto.
    + destruct (K z Hz) as (o' & Q' & N'). exists o'. split; [exact Q'|]. intros y Hy. right. auto.
  - intros p x z Hp R [->|Hz]; eauto.
Qed.

(** A call on [p]. *)
Lemma inv_call h C P p x h' x' :
  inv h C P -> P p = Some x -> called h p h' x' -> inv h' C (with_prop P p x').
Proof.
  intros (S & K & A & B & D) Hp (S' & H' & (F1 & F2 & F3)).
  assert (forall q y, P q = Some y -> q <> p -> forall l, reach h q l -> cell h' l = cell h l) as Ag.
  { intros q y Hq N l R. destruct (reach_exists _ _ _ _ (A _ _ Hq) R) as (o & Q). rewrite Q.
    apply F2; [exact Q|]. intros Rp. exact (D q p y x Hq Hp N l R Rp). }
  split; [exact S'|]. split; [|split; [|split]].
  - intros l Hl. destruct (K l Hl) as (o & Q & N). exists o. split; [|exact N].
    apply F2; [exact Q|]. intros R. exact (B p x l Hp R Hl).
  - intros q y. unfold with_prop. destruct (Nat.eqb_spec q p) as [->|N]; intros Hq.
    + congruence.
    + eapply prop_agree; eauto.
  - intros q y l. unfold with_prop. destruct (Nat.eqb_spec q p) as [->|N]; intros Hq R Hl.
    + destruct (F3 _ R) as [R'|G]; [exact (B p x l Hp R' Hl)|].
      pose proof (closed_below _ _ _ S K Hl). lia.
    + exact (B q y l Hq (reach_agree h h' q l (Ag q y Hq N) R) Hl).
  - assert (forall q y l, P q = Some y -> q <> p -> reach h' p l -> reach h' q l -> False) as Sep.
    { intros q y l Hq N Rp Rq. assert (reach h q l) as Rq' by exact (reach_agree h h' q l (Ag q y Hq N) Rq).
      destruct (F3 _ Rp) as [R'|G]; [exact (D q p y x Hq Hp N l Rq' R')|].
      pose proof (reach_below _ _ _ _ S (A _ _ Hq) Rq'). lia. }
    intros q r y z. unfold with_prop, apart.
    destruct (Nat.eqb_spec q p) as [->|N]; destruct (Nat.eqb_spec r p) as [->|N']; intros Hq Hr Ne l R1 R2.
    + congruence.
    + eauto.
    + eauto.
    + exact (D q r y z Hq Hr Ne l (reach_agree h h' q l (Ag q y Hq N) R1) (reach_agree h h' r l (Ag r z Hr N') R2)).
Qed.

Theorem program_inv h C P outs pure h' C' P' :
  program h C P outs pure h' C' P' -> inv h C P -> outs = pure /\ inv h' C' P'.
Proof.
  induction 1 as
    [h C P
    |h C P o h1 l outs pure h' C' P' No E Pr IH
    |h C P l o h1 outs pure h' C' P' Hl No E Pr IH
    |h C P s x h1 p outs pure h' C' P' Hs Sx E Pr IH
    |h C P p x h1 out outs pure h' C' P' Hp E Pr IH
    |h C P p x e t h1 out outs pure h' C' P' Hp He Ht E Pr IH
    |h C P p x d v mdot mass imp h1 out outs pure h' C' P' Hp Hd Hv E Pr IH
    |h C P p x h1 s e r v t k b outs pure h' C' P' Hp E Q Pr IH]; intros I.
  - auto.
  - apply IH. clear IH Pr. pose proof I as (S & K & A & B & D).
    destruct (create_made h o S) as (h2 & l2 & E2 & S2 & X2 & N2 & F2).
    rewrite E in E2. assert (h2 = h1 /\ l2 = l) as (-> & ->) by (split; congruence).
    destruct (inv_ext h C P h1 I S2 X2) as (Rd & I1). eapply inv_also; eauto.
    intros p x Hp R. pose proof (reach_below _ _ _ _ S (A _ _ Hp) (Rd _ _ _ Hp R)). lia.
  - apply IH. clear IH Pr. pose proof I as (S & K & A & B & D).
    assert (h1 = Heap (next h) (put (cell h) l o)) as -> by (unfold assign in E; congruence). clear E.
    assert (forall p x, P p = Some x -> forall z, reach h p z -> cell (Heap (next h) (put (cell h) l o)) z = cell h z) as Ag.
    { intros p x Hp z R. cbn. apply put_other. intros ->. exact (B p x l Hp R Hl). }
    destruct (K l Hl) as (o0 & Q0 & _).
    split; [eapply sound_put; eauto|]. split; [|split; [|split]].
    + intros z Hz. cbn. destruct (Nat.eq_dec z l) as [->|N].
      * exists o. split; [apply put_same|exact No].
      * rewrite put_other by exact N. auto.
    + intros p x Hp. eapply prop_agree; eauto.
    + intros p x z Hp R Hz. exact (B p x z Hp (reach_agree h _ p z (Ag p x Hp) R) Hz).
    + intros p q x y Hp Hq N z R1 R2. exact (D p q x y Hp Hq N z (reach_agree h _ p z (Ag p x Hp) R1) (reach_agree h _ q z (Ag q y Hq) R2)).
  - apply IH. clear IH Pr. pose proof I as (S & K & A & B & D).
    destruct (new_prop_made h s x S Sx) as (h2 & p2 & E2 & S2 & X2 & H2 & R2).
    rewrite E in E2. assert (h2 = h1 /\ p2 = p) as (-> & ->) by (split; congruence).
    destruct (inv_ext h C P h1 I S2 X2) as (Rd & (_ & K1 & A1 & B1 & D1)).
    assert (forall q y l, P q = Some y -> reach h1 q l -> l < next h) as Old.
    { intros q y l Hq R. exact (reach_below _ _ _ _ S (A _ _ Hq) (Rd _ _ _ Hq R)). }
    split; [exact S2|]. split; [exact K1|]. unfold with_prop. split; [|split].
    + intros q y. destruct (Nat.eqb_spec q p) as [->|N]; intros Hq; [congruence|auto].
    + intros q y l. destruct (Nat.eqb_spec q p) as [->|N]; intros Hq R Hl; [|eauto].
      pose proof (R2 _ R). pose proof (closed_below _ _ _ S K Hl). lia.
    + intros q r y z. unfold apart.
      destruct (Nat.eqb_spec q p) as [->|N]; destruct (Nat.eqb_spec r p) as [->|N'];
        intros Hq Hr Ne l R3 R4.
      * congruence.
      * pose proof (R2 _ R3). pose proof (Old _ _ _ Hr R4). lia.
      * pose proof (R2 _ R4). pose proof (Old _ _ _ Hq R3). lia.
      * exact (D1 q r y z Hq Hr Ne l R3 R4).
  - pose proof I as (S & K & A & B & D).
    destruct (step_called h p x S (A _ _ Hp)) as (h2 & E2 & C2). rewrite E in E2.
    assert (h2 = h1 /\ out = snd (rk4_step x)) as (-> & ->) by (split; congruence).
    destruct (IH (inv_call _ _ _ _ _ _ _ I Hp C2)) as (-> & I'). auto.
  - pose proof I as (S & K & A & B & D).
    destruct (step_to_called h p x e t S (A _ _ Hp) Ht) as (h2 & E2 & C2). rewrite E in E2.
    assert (h2 = h1 /\ out = snd (rk4_step_to_epoch x t)) as (-> & ->) by (split; congruence).
    destruct (IH (inv_call _ _ _ _ _ _ _ I Hp C2)) as (-> & I'). auto.
  - pose proof I as (S & K & A & B & D).
    destruct (maneuver_called h p x d v mdot mass imp S (A _ _ Hp) Hv) as (h2 & E2 & C2). rewrite E in E2.
    assert (h2 = h1 /\ out = snd (rk4_maneuver x v mdot mass imp)) as (-> & ->) by (split; congruence).
    destruct (IH (inv_call _ _ _ _ _ _ _ I Hp C2)) as (-> & I'). auto.
  - apply IH. clear IH Pr. pose proof I as (S & K & A & B & D).
    destruct (get_state_made h p x S (A _ _ Hp)) as (h2 & l2 & E2 & S2 & X2 & N2 & F2).
    rewrite E in E2. assert (h2 = h1 /\ l2 = s) as (-> & ->) by (split; congruence).
    destruct F2 as (F2 & a1 & b1 & c1 & d1 & k1 & u1 & Q1 & Na & Nb & Nc & Nd).
    rewrite Q in Q1. assert (a1 = e /\ b1 = r /\ c1 = v /\ d1 = t) as (-> & -> & -> & ->)
      by (repeat split; congruence). clear Q1.
    destruct (inv_ext h C P h1 I S2 X2) as (Rd & I1).
    assert (forall l, next h <= l -> forall q y, P q = Some y -> reach h1 q l -> False) as Fr.
    { intros l Hl q y Hq R. pose proof (reach_below _ _ _ _ S (A _ _ Hq) (Rd _ _ _ Hq R)). lia. }
    destruct (state_at_inv _ _ _ F2) as (a1 & b1 & c1 & d1 & Q1 & Qa & Qb & Qc & Qd).
    rewrite Q in Q1. assert (a1 = e /\ b1 = r /\ c1 = v /\ d1 = t) as (-> & -> & -> & ->)
      by (repeat split; congruence). clear Q1.
    assert (forall z y, vec_at h1 z = Some y -> exists o, cell h1 z = Some o /\ refs o = []) as Vr.
    { intros z y. unfold vec_at. destruct (cell h1 z) as [[]|]; try discriminate. eauto. }
    assert (forall z y, epoch_at h1 z = Some y -> exists o, cell h1 z = Some o /\ refs o = []) as Er.
    { intros z y. unfold epoch_at. destruct (cell h1 z) as [[]|]; try discriminate. eauto. }
    assert (forall C0 z o, cell h1 z = Some o -> refs o = [] -> next h <= z -> inv h1 C0 P -> inv h1 (also C0 z) P) as Add.
    { intros C0 z o Qz Rz Nz I0. eapply inv_also; eauto. rewrite Rz. intros y []. }
    destruct (Er _ _ Qa) as (o1 & Q1 & R1). destruct (Vr _ _ Qb) as (o2 & Q2 & R2).
    destruct (Vr _ _ Qc) as (o3 & Q3 & R3). destruct (Vr _ _ Qd) as (o4 & Q4 & R4).
    eapply inv_also; [|exact Q| |eauto].
    + eauto 10.
    + intros y [<-|[<-|[<-|[<-|[]]]]]; unfold also; auto 8.
Qed.
