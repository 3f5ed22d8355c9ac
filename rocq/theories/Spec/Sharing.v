(** Several filters made from one Hill propagator. The constructor keeps the
    propagator it is given, so they all hold the same object, and so does the
    program that made it. *)
From Coq Require Import List Reals.
From Verif.Model Require Import Num Linalg Time States Relative Obs Filtering.
Import ListNotations.

(** The filter whose propagator object has the value [h]. *)
Definition holding (k : kalman) (h : hill) : kalman :=
  mkKalman (k_epoch k) h (k_x00 k) (k_x10 k) (k_p00 k) (k_p10 k) (k_q k) (k_f k)
    (k_k k) (k_z k) (k_range_error k) (k_angular_error k) (k_r k).

(** What a program does: give filter [i] an observation, or move the
    propagator itself. *)
Inductive event :=
| Observe (i : nat) (ob : space_obs)
| Move (t : num).

(** The filters, and the one propagator they share. *)
Definition set_filter (ks : nat -> kalman) (i : nat) (k : kalman) : nat -> kalman :=
  fun j => if Nat.eqb j i then k else ks j.

Fixpoint shared (ks : nat -> kalman) (h : hill) (es : list event)
  : (nat -> kalman) * hill * list (nat * res unit) :=
  match es with
  | [] => (ks, h, [])
  | Observe i ob :: es =>
      let '(k, r) := kalman_process (holding (ks i) h) ob in
      let '(ks', h', rs) := shared (set_filter ks i k) (k_propagator k) es in
      (ks', h', (i, r) :: rs)
  | Move t :: es =>
      match hill_step_by_seconds h t with
      | Ok h1 => shared ks h1 es
      | Err _ => shared ks h es
      end
  end.

(** Filter [i] with a propagator of its own. *)
Fixpoint alone (i : nat) (k : kalman) (es : list event) : kalman * list (nat * res unit) :=
  match es with
  | [] => (k, [])
  | Observe j ob :: es =>
      if Nat.eqb j i then
        let '(k, r) := kalman_process k ob in
        let '(k', rs) := alone i k es in (k', (i, r) :: rs)
      else alone i k es
  | Move _ :: es => alone i k es
  end.

(** The two filters differ at most in the state of their propagators. *)
Definition same_filter (k k' : kalman) : Prop := k' = holding k (k_propagator k').
