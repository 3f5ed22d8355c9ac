(** C111: propagators share no object with the program that uses them. *)
From Coq Require Import List Lia Arith Lra.
From Verif.Model Require Import Num Constants Linalg Functions Time Celestial Positions States Inertial Heap.
From Verif.Spec Require Import Heap.
From Verif.Proofs Require Import HeapProofs HeapSteps HeapCalls.
Import ListNotations.

(** C111: whatever objects a program creates, shares and overwrites, in
    whatever order it does so between the calls on any number of propagators
    made from its states, every call has the outcome and every propagator has
    the value it would have if objects were values; no object a propagator is
    made of can be named by the program or belongs to another propagator. *)
Theorem C111_isolated : forall h C outs pure h' C' P',
  sound_heap h -> closed h C ->
  program h C (fun _ => None) outs pure h' C' P' ->
  outs = pure /\
  (forall p x, P' p = Some x -> prop_at h' p = Some x) /\
  (forall p x l, P' p = Some x -> reach h' p l -> ~ C' l) /\
  (forall p q x y, P' p = Some x -> P' q = Some y -> p <> q -> apart h' p q).
Proof.
  intros h C outs pure h' C' P' S K Pr.
  destruct (program_inv _ _ _ _ _ _ _ _ Pr) as (E & (_ & _ & A & B & D)).
  - split; [exact S|]. split; [exact K|]. repeat split; intros; discriminate.
  - split; [exact E|]. split; [exact A|]. split; [|exact D].
    intros p x l Hp R Hl. exact (B p x l Hp R Hl).
Qed.
Print Assumptions C111_isolated.

(** C111: a call changes only objects of the propagator it is made on. *)
Theorem C111_frame : forall h p x h' r,
  sound_heap h -> prop_at h p = Some x ->
  (prop_step p h = (h', r) \/
   (exists e t, epoch_at h e = Some t /\ prop_step_to p e h = (h', r)) \/
   (exists d v mdot mass imp, vec_at h d = Some v /\ prop_maneuver p d mdot mass imp h = (h', r))) ->
  forall l o, cell h l = Some o -> ~ reach h p l -> cell h' l = Some o.
Proof.
  intros h p x h' r S H W l o Q N.
  destruct W as [E|[(e & t & Ht & E)|(d & v & md & m & i & Hv & E)]].
  - destruct (step_called h p x S H) as (h2 & E2 & _ & _ & _ & F & _).
    assert (h2 = h') as -> by congruence. auto.
  - destruct (step_to_called h p x e t S H Ht) as (h2 & E2 & _ & _ & _ & F & _).
    assert (h2 = h') as -> by congruence. auto.
  - destruct (maneuver_called h p x d v md m i S H Hv) as (h2 & E2 & _ & _ & _ & F & _).
    assert (h2 = h') as -> by congruence. auto.
Qed.
Print Assumptions C111_frame.

(** C111: a new propagator, and a copy of a propagator's state, consist of
    objects that did not exist before; every older object is as it was. *)
Theorem C111_new : forall h s x, sound_heap h -> state_at h s = Some x ->
  exists h' p, new_prop s h = (h', Ok p) /\ prop_at h' p = Some (RK4 x) /\
    (forall l, reach h' p l -> cell h l = None) /\
    (forall l o, cell h l = Some o -> cell h' l = Some o).
Proof.
  intros h s x S H. destruct (new_prop_made h s x S H) as (h' & p & E & S' & X & P & R).
  exists h', p. split; [exact E|]. split; [exact P|]. split; [|apply X].
  intros l Hl. apply S. auto.
Qed.
Print Assumptions C111_new.

Theorem C111_copy : forall h p x, sound_heap h -> prop_at h p = Some x ->
  exists h' s, get_state p h = (h', Ok s) /\ state_at h' s = Some (gcrf_copy (rk_state x)) /\
    (forall l, reach h' s l -> cell h l = None) /\
    (forall l o, cell h l = Some o -> cell h' l = Some o).
Proof.
  intros h p x S H. destruct (get_state_made h p x S H) as (h' & s & E & S' & X & N & F).
  destruct F as (F & a & b & c & d & k & u & Q & Na & Nb & Nc & Nd).
  exists h', s. split; [exact E|]. split; [exact F|]. split; [|apply X].
  intros l R. apply S.
  destruct (reach_state _ _ _ _ _ _ _ _ _ _ F Q R) as [<-|[<-|[<-|[<-|[<-|[]]]]]]; auto.
Qed.
Print Assumptions C111_copy.

(** A concrete program: a state, two propagators made from it, the state's
    position overwritten between the calls. *)
Definition empty_heap : heap := Heap 0 (fun _ => None).

Example C111_example :
  sound_heap empty_heap /\ closed empty_heap (fun _ => False) /\
  exists outs pure h' C' P' p q, program empty_heap (fun _ => False) (fun _ => None) outs pure h' C' P' /\
    length outs = 3 /\ p <> q /\ P' p <> None /\ P' q <> None.
Proof.
  split; [intros l _; reflexivity|]. split; [intros l []|].
  do 5 eexists. exists 10, 17. split; [|split; [|split; [|split]]].
  - eapply (prog_create _ _ _ (OEpoch (Epoch 59000))); [intros l []|reflexivity|]. cbn [next empty_heap].
    eapply (prog_create _ _ _ (OVec (V3 42164 0 0))); [intros l []|reflexivity|]. cbn [next].
    eapply (prog_create _ _ _ (OVec (V3 0 3 0))); [intros l []|reflexivity|]. cbn [next].
    eapply (prog_create _ _ _ (OState 0 1 2 2 0 true)); [|reflexivity|].
    { intros l [<-|[<-|[<-|[<-|[]]]]]; unfold also; auto. }
    cbn [next].
    eapply (prog_new _ _ _ 3); [left; reflexivity|reflexivity|reflexivity|]. cbn [next].
    eapply (prog_assign _ _ _ 1 (OVec (V3 1 2 3))); [unfold also; auto|intros l []|reflexivity|].
    eapply (prog_new _ _ _ 3); [left; reflexivity|reflexivity|reflexivity|]. cbn [next].
    eapply (prog_maneuver _ _ _ 10 _ 2 _ 1 1000 300);
      [reflexivity|unfold also; auto|reflexivity|apply surjective_pairing|].
    eapply (prog_step _ _ _ 10); [reflexivity|apply surjective_pairing|].
    eapply (prog_step _ _ _ 17); [reflexivity|apply surjective_pairing|].
    apply prog_end.
  - reflexivity.
  - discriminate.
  - discriminate.
  - discriminate.
Qed.

(** The exception: [p.state.vector_list()] returns the propagator's own
    vectors, so overwriting one of them moves the propagator. *)
Theorem C111_vector_list_refuted :
  ~ (forall h p x s a b c d i r v o h1 h2,
       sound_heap h -> prop_at h p = Some x -> cell h p = Some (OProp s a b c d i) ->
       vector_list s h = (h1, Ok (r, v)) -> assign r (OVec o) h1 = (h2, Ok tt) ->
       prop_at h2 p = Some x).
Proof.
  intros W.
  set (c := fun l : loc => match l with
    | 0 => Some (OEpoch (Epoch 59000)) | 1 => Some (OVec (V3 42164 0 0)) | 2 => Some (OVec (V3 0 3 0))
    | 3 => Some (OVec (V3 0 0 0)) | 4 => Some (OState 0 1 2 3 0 true)
    | 5 => Some (OProp 4 300 0 0 3 0) | _ => None end).
  assert (sound_heap (Heap 6 c)) as S.
  { intros l Hl. cbn in *. do 6 (destruct l as [|l]; [lia|]). reflexivity. }
  pose proof (W (Heap 6 c) 5 _ 4 _ _ _ _ _ 1 2 (V3 0 0 0) _ _ S eq_refl eq_refl eq_refl eq_refl) as E.
  cbn in E. assert (V3 0 0 0 = V3 42164 0 0) as E' by congruence.
  assert (0 = 42164)%R by (apply (f_equal x3) in E'; exact E'). lra.
Qed.
Print Assumptions C111_vector_list_refuted.
