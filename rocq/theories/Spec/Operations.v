(** Histories of operations on any number of spacecraft, and what is meant by
    orthogonal axes, pointing and synchronised targets. *)
From Coq Require Import Reals List Arith.
From Verif.Model Require Import Num Linalg Time Celestial States Inertial Payloads Artificial.
From Verif.Spec Require Import Geometry.
Import ListNotations.
Local Open Scope R_scope.

(** What a user can do: create a spacecraft, call one of the public methods
    that change it, or assign its scalar attributes (albedo, radius, masses...). *)
Inductive op :=
| New (s : gcrf)
| Assign (i : nat) (p : params)
| Step (i : nat)
| StepTo (i : nat) (e : epoch)
| TrackLvlh (i : nat)
| TrackSun (i : nat)
| TrackState (i j : nat)
| UpdateAttitude (i : nat)
| Impulse (i : nat) (burn : vec3)
| Finite (i : nat) (dv : vec3)
| Acquire (i j : nat)
| ProcessWide (z1 z2 u : R) (i j : nat)
| ProcessNarrow (z1 z2 u : R) (i j : nat).

Definition run_op (fuel : nat) (o : op) (w : world) : world * res unit :=
  match o with
  | New s => match Spacecraft s with Ok c => (w ++ [c], Ok tt) | Err e => (w, Err e) end
  | Assign i p =>
      match nth_error w i with
      | Some c => (set_nth w i (set_params c p), Ok tt)
      | None => (w, Err AttributeError)
      end
  | Step i => sc_step fuel i w
  | StepTo i e => sc_step_to_epoch fuel i e w
  | TrackLvlh i => track_lvlh fuel i w
  | TrackSun i => track_sun fuel i w
  | TrackState i j => track_state fuel i j w
  | UpdateAttitude i => update_attitude fuel i w
  | Impulse i b => impulsive_maneuver i b w
  | Finite i dv => finite_maneuver i dv w
  | Acquire i j => acquire fuel i j w
  | ProcessWide z1 z2 u i j => process_wfov z1 z2 u i j w
  | ProcessNarrow z1 z2 u i j => process_nfov z1 z2 u i j w
  end.

(** Worlds reachable by any history of operations, whether they returned or raised. *)
Inductive reachable : world -> Prop :=
| reach_start : reachable []
| reach_op : forall fuel o w w' r, reachable w -> run_op fuel o w = (w', r) -> reachable w'.

(** The position, epoch and velocity the propagator holds. *)
Definition place_of (c : craft) : vec3 := g_position (rk_state (propagator c)).
Definition motion_of (c : craft) : vec3 := g_velocity (rk_state (propagator c)).
Definition clock (c : craft) : R := value (g_epoch (rk_state (propagator c))).

(** Three mutually orthogonal axes, x cross y along +z. *)
Definition axes_ok (c : craft) : Prop :=
  dot (body_x c) (body_y c) = 0 /\ dot (body_y c) (body_z c) = 0 /\ dot (body_x c) (body_z c) = 0 /\
  exists k, 0 <= k /\ cross (body_x c) (body_y c) = scale k (body_z c).

(** Where the steering mode says the payload deck points, in the world [w]. *)
Definition points (w : world) (c : craft) : Prop :=
  match steering c with
  | Lvlh => body_z c = sub zero3 (place_of c) /\ body_y c = cross (place_of c) (motion_of c)
  | Solar => body_z c = sub (place_of c) (Sun_get_position (g_epoch (rk_state (propagator c))))
  | Target => exists j t, tracked_target c = Some j /\ nth_error w j = Some t /\
      body_z c = sub (place_of t) (place_of c) /\ clock t = clock c
  end.

(** [follows w i j]: [i] is in target mode and tracks [j], whose clock differs
    from [t]; [chain w t i j] is one or more such links. *)
Inductive chain (w : world) (t : R) : nat -> nat -> Prop :=
| chain_one : forall i j c d, nth_error w i = Some c -> steering c = Target -> tracked_target c = Some j ->
    nth_error w j = Some d -> clock d <> t -> chain w t i j
| chain_more : forall i j k c d, nth_error w i = Some c -> steering c = Target -> tracked_target c = Some j ->
    nth_error w j = Some d -> clock d <> t -> chain w t j k -> chain w t i k.

(** Two stores that differ in the scalar attributes (albedo, radius, masses,
    flow rate, ...) of their spacecraft only. *)
Definition same_but_params (w v : world) : Prop := Forall2 (fun c d => d = set_params c (sc_params d)) w v.

(** Histories in which every operation returned and none was a finite burn. *)
Inductive orderly : world -> Prop :=
| orderly_start : orderly []
| orderly_op : forall fuel o w w', orderly w -> (forall i dv, o <> Finite i dv) -> run_op fuel o w = (w', Ok tt) -> orderly w'.

(** A spacecraft left slewing towards a target with no end of the slew set. *)
Definition stuck (w : world) (i : nat) : Prop :=
  exists c, nth_error w i = Some c /\ slewing c = true /\ slew_stop c = None /\ steering c = Target.
