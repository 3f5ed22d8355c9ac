(** Ownership of objects, independent of the propagator's code: what can be
    reached from an object, and a program that uses propagators without ever
    being handed one of their inner objects. *)
From Coq Require Import List.
From Verif.Model Require Import Num Linalg Time States Inertial Heap.
Import ListNotations.

(** The objects that the attributes of an object name. *)
Definition refs (o : obj) : list loc :=
  match o with
  | OVec _ | OEpoch _ => []
  | OState ep pos vel thr _ _ => [ep; pos; vel; thr]
  | OProp st _ _ _ dir _ => [st; dir]
  end.

(** [reach h a b]: following attributes from [a] leads to [b]. *)
Inductive reach (h : heap) : loc -> loc -> Prop :=
| reach_self : forall a, reach h a a
| reach_attr : forall a o b c, cell h a = Some o -> In b (refs o) -> reach h b c -> reach h a c.

(** Nothing exists beyond the locations handed out so far. *)
Definition sound_heap (h : heap) : Prop := forall l, next h <= l -> cell h l = None.

(** The locations a program may name. *)
Definition names := loc -> Prop.
Definition also (C : names) (l : loc) : names := fun x => x = l \/ C x.
Definition all_named (C : names) (ls : list loc) : Prop := forall l, In l ls -> C l.
Definition closed (h : heap) (C : names) : Prop :=
  forall l, C l -> exists o, cell h l = Some o /\ all_named C (refs o).

(** The values the propagators of a program have in the value model. *)
Definition props := loc -> option rk4.
Definition with_prop (P : props) (p : loc) (x : rk4) : props :=
  fun l => if Nat.eqb l p then Some x else P l.

(** A program. It creates objects and assigns to the attributes of the
    objects it can name, in any order, makes propagators, calls their methods
    and asks for copies of their states. [C] is what it can name, [P] the
    value each of its propagators has if objects were values: the methods of
    the value model applied to the argument values at the time of the call.
    [outs] are the outcomes of the calls with objects, [pure] the outcomes in
    the value model. *)
Inductive program : heap -> names -> props -> list (res unit) -> list (res unit) ->
                    heap -> names -> props -> Prop :=
| prog_end : forall (h : heap) (C : names) (P : props), program h C P [] [] h C P
| prog_create : forall (h : heap) (C : names) (P : props) o h1 l outs pure h' C' P',
    all_named C (refs o) -> create o h = (h1, Ok l) ->
    program h1 (also C l) P outs pure h' C' P' ->
    program h C P outs pure h' C' P'
| prog_assign : forall (h : heap) (C : names) (P : props) l o h1 outs pure h' C' P',
    C l -> all_named C (refs o) -> assign l o h = (h1, Ok tt) ->
    program h1 C P outs pure h' C' P' ->
    program h C P outs pure h' C' P'
| prog_new : forall (h : heap) (C : names) (P : props) s x h1 p outs pure h' C' P',
    C s -> state_at h s = Some x -> new_prop s h = (h1, Ok p) ->
    program h1 C (with_prop P p (RK4 x)) outs pure h' C' P' ->
    program h C P outs pure h' C' P'
| prog_step : forall (h : heap) (C : names) (P : props) p x h1 out outs pure h' C' P',
    P p = Some x -> prop_step p h = (h1, out) ->
    program h1 C (with_prop P p (fst (rk4_step x))) outs pure h' C' P' ->
    program h C P (out :: outs) (snd (rk4_step x) :: pure) h' C' P'
| prog_step_to : forall (h : heap) (C : names) (P : props) p x e t h1 out outs pure h' C' P',
    P p = Some x -> C e -> epoch_at h e = Some t -> prop_step_to p e h = (h1, out) ->
    program h1 C (with_prop P p (fst (rk4_step_to_epoch x t))) outs pure h' C' P' ->
    program h C P (out :: outs) (snd (rk4_step_to_epoch x t) :: pure) h' C' P'
| prog_maneuver : forall (h : heap) (C : names) (P : props) p x d v mdot mass imp h1 out outs pure h' C' P',
    P p = Some x -> C d -> vec_at h d = Some v -> prop_maneuver p d mdot mass imp h = (h1, out) ->
    program h1 C (with_prop P p (fst (rk4_maneuver x v mdot mass imp))) outs pure h' C' P' ->
    program h C P (out :: outs) (snd (rk4_maneuver x v mdot mass imp) :: pure) h' C' P'
| prog_get : forall (h : heap) (C : names) (P : props) p x h1 s e r v t k b outs pure h' C' P',
    P p = Some x -> get_state p h = (h1, Ok s) -> cell h1 s = Some (OState e r v t k b) ->
    program h1 (also (also (also (also (also C e) r) v) t) s) P outs pure h' C' P' ->
    program h C P outs pure h' C' P'.

(** Objects [a] and [b] have no object in common. *)
Definition apart (h : heap) (a b : loc) : Prop := forall l, reach h a l -> reach h b l -> False.
