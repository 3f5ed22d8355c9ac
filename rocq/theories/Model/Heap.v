(** Model of object identity: which Python objects the classes of
    src/openspace/propagators/inertial.py and coordinates/states.py create,
    share and assign to.

    The other model files treat objects as values. Here an object is a
    location of a heap, an attribute holding an object is a location, and two
    variables may name the same object. Only the objects that a propagator
    holds or is handed are on the heap: vectors, epochs, GCRF states and RK4
    propagators. Floats, lists and the vectors that live only inside
    [derivative] and [thrust_vector] are values. The attribute [vector] of a
    state (a snapshot no propagator reads) is left out. *)
From Verif.Model Require Import Num Constants Linalg Functions Time Celestial Positions States Inertial.
Local Open Scope R_scope.

Definition loc := nat.

(** linalg.py:121-141 Vector3D; time.py:21-27 Epoch; states.py:12-33, 118-138
    GCRF (its epoch, position, velocity, thrust, srp_scalar and
    use_perturbations); inertial.py:10-37 RK4 (its state, step_size, m_dot,
    m0, thrust_direction and isp) *)
Inductive obj :=
| OVec (v : vec3)
| OEpoch (e : epoch)
| OState (ep pos vel thr : loc) (srp : num) (pert : bool)
| OProp (st : loc) (size mdot mass : num) (dir : loc) (imp : num).

(** [next] is the first location never used. *)
Record heap := Heap { next : loc; cell : loc -> option obj }.

(** A method call: the heap it leaves behind and its outcome. *)
Definition act (A : Type) := heap -> heap * res A.
Definition ret {A} (a : A) : act A := fun h => (h, Ok a).
Definition raise {A} (r : res A) : act A := fun h => (h, r).
Definition seq {A B} (m : act A) (k : A -> act B) : act B := fun h =>
  match m h with (h', Ok a) => k a h' | (h', Err e) => (h', Err e) end.
Notation "'do' x '<-' m 'in' k" := (seq m (fun x => k))
  (at level 200, x pattern, m at level 100, k at level 200, right associativity).

(** Creating an object; assigning to the attributes of one. *)
Definition put (c : loc -> option obj) (l : loc) (o : obj) : loc -> option obj :=
  fun l' => if Nat.eqb l' l then Some o else c l'.
Definition create (o : obj) : act loc := fun h => (Heap (S (next h)) (put (cell h) (next h) o), Ok (next h)).
Definition assign (l : loc) (o : obj) : act unit := fun h => (Heap (next h) (put (cell h) l o), Ok tt).

(** Reading. A name that is not an object of the expected class has no such
    attribute. *)
Definition vec_at (h : heap) (l : loc) : option vec3 :=
  match cell h l with Some (OVec v) => Some v | _ => None end.
Definition epoch_at (h : heap) (l : loc) : option epoch :=
  match cell h l with Some (OEpoch e) => Some e | _ => None end.
Definition state_at (h : heap) (l : loc) : option gcrf :=
  match cell h l with
  | Some (OState ep pos vel thr srp pert) =>
      match epoch_at h ep, vec_at h pos, vec_at h vel, vec_at h thr with
      | Some e, Some r, Some v, Some t => Some (Gcrf e r v t srp pert)
      | _, _, _, _ => None
      end
  | _ => None
  end.
Definition prop_at (h : heap) (l : loc) : option rk4 :=
  match cell h l with
  | Some (OProp st size mdot mass dir imp) =>
      match state_at h st, vec_at h dir with
      | Some s, Some d => Some (Rk4 s size mdot mass d imp)
      | _, _ => None
      end
  | _ => None
  end.
Definition read {A} (f : heap -> option A) : act A := fun h =>
  match f h with Some a => (h, Ok a) | None => (h, Err AttributeError) end.

(** linalg.py:183-189, 191-199, 247-255 *)
Definition vec_copy (a : loc) : act loc := do x <- read (fun h => vec_at h a) in create (OVec (v3_copy x)).
Definition vec_plus (a b : loc) : act loc :=
  do x <- read (fun h => vec_at h a) in do y <- read (fun h => vec_at h b) in create (OVec (v3_plus x y)).
Definition vec_scaled (a : loc) (k : num) : act loc :=
  do x <- read (fun h => vec_at h a) in create (OVec (v3_scaled x k)).
(** time.py:29-35, 85-93 *)
Definition ep_copy (a : loc) : act loc := do x <- read (fun h => epoch_at h a) in create (OEpoch (epoch_copy x)).
Definition ep_plus_days (a : loc) (t : num) : act loc :=
  do x <- read (fun h => epoch_at h a) in create (OEpoch (plus_days x t)).

(** Attributes of a state. *)
Definition state_fields (s : loc) : act (loc * loc * loc * loc * num * bool) :=
  read (fun h => match cell h s with
                 | Some (OState a b c d x y) => Some (a, b, c, d, x, y) | _ => None end).
(** Attributes of a propagator. *)
Definition prop_fields (p : loc) : act (loc * num * num * num * loc * num) :=
  read (fun h => match cell h p with
                 | Some (OProp a x y z d w) => Some (a, x, y, z, d, w) | _ => None end).

(** states.py:12-33, 118-138 GCRF.__init__ *)
Definition new_state (e r v : loc) : act loc :=
  do e' <- ep_copy e in
  do r' <- vec_copy r in
  do v' <- vec_copy v in
  do t <- create (OVec (V3 0 0 0)) in
  create (OState e' r' v' t 0 true).

(** states.py:35-37 *)
Definition state_copy (s : loc) : act loc :=
  do (e, r, v, _, _, _) <- state_fields s in new_state e r v.

(** states.py:39-45: the vectors themselves, not copies *)
Definition vector_list (s : loc) : act (loc * loc) :=
  do (_, r, v, _, _, _) <- state_fields s in ret (r, v).

(** The attribute assignment [s.thrust = t] *)
Definition assign_thrust (s t : loc) : act unit :=
  do (e, r, v, _, k, b) <- state_fields s in assign s (OState e r v t k b).

(** states.py:253-266: two new vectors *)
Definition state_derivative (s : loc) : act (loc * loc) :=
  do x <- read (fun h => state_at h s) in
  do k <- raise (derivative x) in
  do a <- create (OVec (fst k)) in
  do b <- create (OVec (snd k)) in
  ret (a, b).

(** inertial.py:15-37 RK4.__init__ *)
Definition new_prop (s : loc) : act loc :=
  do s' <- state_copy s in
  do d <- create (OVec (V3 0 0 0)) in
  create (OProp s' MAX_STEP 0 0 d 0).

(** Attribute assignments [p.state = s], [p.step_size = x], and of the thruster *)
Definition assign_state (p s : loc) : act unit :=
  do (_, x, y, z, d, w) <- prop_fields p in assign p (OProp s x y z d w).
Definition assign_step_size (p : loc) (x : num) : act unit :=
  do (s, _, y, z, d, w) <- prop_fields p in assign p (OProp s x y z d w).
Definition assign_thruster (p d : loc) (mass mdot imp : num) : act unit :=
  do (s, x, _, _, _, _) <- prop_fields p in assign p (OProp s x mdot mass d imp).
Definition assign_thruster_off (p : loc) : act unit :=
  do (s, x, _, _, d, w) <- prop_fields p in assign p (OProp s x 0 0 d w).

(** inertial.py:129-148: a new vector *)
Definition new_thrust (p : loc) (dt : num) : act loc :=
  do x <- read (fun h => prop_at h p) in
  do t <- raise (thrust_vector x dt) in
  create (OVec t).

(** inertial.py:53-54, 57-58, 62-63 *)
Definition stage_at (p e r v : loc) (k : loc * loc) (dt t_thrust : num) : act loc :=
  do a <- vec_scaled (fst k) dt in
  do r' <- vec_plus r a in
  do b <- vec_scaled (snd k) dt in
  do v' <- vec_plus v b in
  do y <- new_state e r' v' in
  do t <- new_thrust p t_thrust in
  do _ <- assign_thrust y t in
  ret y.

(** inertial.py:67-68 *)
Definition average_at (k1 k2 k3 k4 : loc) : act loc :=
  do a <- vec_scaled k2 2 in
  do b <- vec_scaled k3 2 in
  do c <- vec_plus b k4 in
  do d <- vec_plus a c in
  do f <- vec_plus k1 d in
  vec_scaled f (1 / 6).

(** inertial.py:39-74 RK4.step *)
Definition prop_step (p : loc) : act unit :=
  do (s, h, _, _, _, _) <- prop_fields p in
  do (ep, _, _, _, _, _) <- state_fields s in
  do epoch_0 <- ep_copy ep in
  do t0 <- new_thrust p 0 in
  do _ <- assign_thrust s t0 in
  do (r, v) <- vector_list s in
  do k1 <- state_derivative s in
  let dsecs := h / 2 in
  let ddays := dsecs / SECONDS_IN_DAY in
  do epoch_1 <- ep_plus_days epoch_0 ddays in
  do y1 <- stage_at p epoch_1 r v k1 dsecs dsecs in
  do k2 <- state_derivative y1 in
  do y2 <- stage_at p epoch_1 r v k2 dsecs dsecs in
  do k3 <- state_derivative y2 in
  do epoch_2 <- ep_plus_days epoch_1 ddays in
  do y3 <- stage_at p epoch_2 r v k3 h (dsecs * 2) in
  do k4 <- state_derivative y3 in
  do dv <- average_at (fst k1) (fst k2) (fst k3) (fst k4) in
  do da <- average_at (snd k1) (snd k2) (snd k3) (snd k4) in
  do (_, pos, vel, _, _, _) <- state_fields s in
  do a <- vec_scaled dv h in
  do r' <- vec_plus pos a in
  do b <- vec_scaled da h in
  do v' <- vec_plus vel b in
  do s' <- new_state epoch_2 r' v' in
  assign_state p s'.

(** inertial.py:121-124 *)
Fixpoint prop_steps (num_steps : nat) (p : loc) : act unit :=
  match num_steps with
  | O => ret tt
  | S n => do _ <- prop_step p in prop_steps n p
  end.

(** inertial.py:100-127 RK4.step_to_epoch *)
Definition prop_step_to (p e : loc) : act unit :=
  do (s, old_step, _, _, _, _) <- prop_fields p in
  do (ep, _, _, _, _, _) <- state_fields s in
  do t <- read (fun h => epoch_at h e) in
  do t0 <- read (fun h => epoch_at h ep) in
  let dt := (value t - value t0) * SECONDS_IN_DAY in
  let num_steps := nceil (nabs (dt / MAX_STEP)) in
  do _ <- (if (0 <? num_steps)%Z then assign_step_size p (dt / of_Z num_steps) else ret tt) in
  do _ <- prop_steps (Z.to_nat num_steps) p in
  assign_step_size p old_step.

(** inertial.py:76-98 RK4.maneuver *)
Definition prop_maneuver (p thrust : loc) (mdot mass imp : num) : act unit :=
  do t <- read (fun h => vec_at h thrust) in
  do dv_duration <- raise (burn_duration (v3_magnitude t) mdot mass imp) in
  do d <- vec_copy thrust in
  do _ <- assign_thruster p d mass mdot imp in
  do (s, _, _, _, _, _) <- prop_fields p in
  do (ep, _, _, _, _, _) <- state_fields s in
  do e <- ep_plus_days ep (dv_duration / SECONDS_IN_DAY) in
  do _ <- prop_step_to p e in
  assign_thruster_off p.

(** artificial.py:472-478 [self.propagator.state.copy()] *)
Definition get_state (p : loc) : act loc :=
  do (s, _, _, _, _, _) <- prop_fields p in state_copy s.
