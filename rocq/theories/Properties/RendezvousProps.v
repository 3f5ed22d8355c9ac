(** Properties of relative states of two unperturbed bodies (C99, C100). *)
From Coq Require Import Reals Lra List.
From Coquelicot Require Import Coquelicot.
From Verif.Model Require Import Num Constants Linalg Functions Time Positions States Relative.
From Verif.Spec Require Import Geometry Gravity TwoBody Hill Motion Rendezvous.
From Verif.Proofs Require Import TwoBodyProofs HillTwoBodyProofs.
Local Open Scope R_scope.

(** * C99 Hill propagation follows two-body motion to second order in the separation *)

(** One body is on a circular orbit of radius [a]; [w t] is the relative state that the
    conversion returns for the two bodies at time [t].  As long as the second body
    stays nearby, one Hill step of any length, started from [w 0], misses [w T] by no
    more than a multiple of the square of the separation over the radius.  The angle
    that the first body covers meanwhile is [u]. *)
Theorem C99_second_order : forall ro vo rc vc e a rho T w h,
  unperturbed_motion ro vo -> unperturbed_motion rc vc -> (forall t, norm (ro t) = a) -> rho <= a / 10 ->
  Hill (w 0) a = Ok h ->
  (forall t, until T t ->
    gcrf_to_hcw (GCRF (later e t) (ro t) (vo t)) (GCRF (later e t) (rc t) (vc t)) = Ok (w t) /\
    nearby (hl_n h) a rho (w t)) ->
  exists h', hill_step_by_seconds h T = Ok h' /\
    let u := hl_n h * Rabs T in let d := rho * rho / a in
    let p := s_position (hl_state h') in let v := s_velocity (hl_state h') in
    Rabs (x3 p - x3 (s_position (w T))) <= 38 * u * d /\
    Rabs (y3 p - y3 (s_position (w T))) <= (68 + 21 * u) * u * d /\
    Rabs (z3 p - z3 (s_position (w T))) <= 5 * u * d /\
    Rabs (x3 v - x3 (s_velocity (w T))) <= 24 * u * (hl_n h * d) /\
    Rabs (y3 v - y3 (s_velocity (w T))) <= 69 * u * (hl_n h * d) /\
    Rabs (z3 v - z3 (s_velocity (w T))) <= 5 * u * (hl_n h * d).
Proof. exact hill_two_body. Qed.
Print Assumptions C99_second_order.

(** A day of two geostationary orbits of which one is 20 km higher. *)
Example C99_example : exists ro vo rc vc w h, unperturbed_motion ro vo /\ unperturbed_motion rc vc /\ (forall t, norm (ro t) = 42164) /\
  Hill (w 0) 42164 = Ok h /\
  (forall t, until 86400 t -> gcrf_to_hcw (GCRF (later (Epoch 51544.5) t) (ro t) (vo t)) (GCRF (later (Epoch 51544.5) t) (rc t) (vc t)) = Ok (w t) /\ nearby (hl_n h) 42164 40 (w t)) /\
  s_position (w 0) = V3 20 0 0 /\ y3 (s_velocity (w 0)) < 0.
Proof. exact two_rings_near. Qed.

(** * C100 Relative velocity and the change of relative position *)

(** The first body is in unperturbed motion that does not head straight for the centre;
    the second follows any path with velocity [vc].  The radial velocity of the
    conversion is the rate of the radial component, and the other two velocities are the
    rates of the two angles, times the radius. *)
Theorem C100_rates : forall e ro vo rc vc w t1 t2,
  unperturbed_motion ro vo -> cross (ro 0) (vo 0) <> zero3 -> (forall t, rate_of rc t (vc t)) ->
  (forall t, t1 < t < t2 -> gcrf_to_hcw (GCRF (later e t) (ro t) (vo t)) (GCRF (later e t) (rc t) (vc t)) = Ok (w t)) ->
  forall t, t1 < t < t2 -> y3 (s_position (w t)) <> PI * norm (ro t) ->
  is_derive (fun s => x3 (s_position (w s))) t (x3 (s_velocity (w t))) /\
  is_derive (fun s => y3 (s_position (w s)) / norm (ro s)) t (y3 (s_velocity (w t)) / norm (ro t)) /\
  is_derive (fun s => z3 (s_position (w s)) / norm (ro s)) t (z3 (s_velocity (w t)) / norm (ro t)).
Proof. exact relative_rates. Qed.
Print Assumptions C100_rates.

(** On a circular orbit it is simply the rate of the relative position. *)
Theorem C100_circular : forall e ro vo rc vc w a t1 t2,
  unperturbed_motion ro vo -> (forall t, norm (ro t) = a) -> (forall t, rate_of rc t (vc t)) ->
  (forall t, t1 < t < t2 -> gcrf_to_hcw (GCRF (later e t) (ro t) (vo t)) (GCRF (later e t) (rc t) (vc t)) = Ok (w t)) ->
  forall t, t1 < t < t2 -> y3 (s_position (w t)) <> PI * a ->
  rate_of (fun s => s_position (w s)) t (s_velocity (w t)).
Proof. exact relative_rates_circular. Qed.
Print Assumptions C100_circular.

(** Otherwise the change of the radius adds to the rates of the last two components. *)
Theorem C100_any_orbit : forall e ro vo rc vc w t1 t2,
  unperturbed_motion ro vo -> cross (ro 0) (vo 0) <> zero3 -> (forall t, rate_of rc t (vc t)) ->
  (forall t, t1 < t < t2 -> gcrf_to_hcw (GCRF (later e t) (ro t) (vo t)) (GCRF (later e t) (rc t) (vc t)) = Ok (w t)) ->
  forall t, t1 < t < t2 -> y3 (s_position (w t)) <> PI * norm (ro t) ->
  let k := dot (ro t) (vo t) / (norm (ro t) * norm (ro t)) in
  rate_of (fun s => s_position (w s)) t (add (s_velocity (w t)) (V3 0 (k * y3 (s_position (w t))) (k * z3 (s_position (w t))))).
Proof. exact relative_rates_full. Qed.
Print Assumptions C100_any_orbit.

(** So the along-track velocity is not the rate of the along-track position wherever the
    first body is rising or falling and the second is ahead or behind. *)
Theorem C100_eccentric_refuted : forall e ro vo rc vc w t1 t2,
  unperturbed_motion ro vo -> cross (ro 0) (vo 0) <> zero3 -> (forall t, rate_of rc t (vc t)) ->
  (forall t, t1 < t < t2 -> gcrf_to_hcw (GCRF (later e t) (ro t) (vo t)) (GCRF (later e t) (rc t) (vc t)) = Ok (w t)) ->
  forall t, t1 < t < t2 -> y3 (s_position (w t)) <> PI * norm (ro t) -> dot (ro t) (vo t) <> 0 -> y3 (s_position (w t)) <> 0 ->
  ~ is_derive (fun s => y3 (s_position (w s))) t (y3 (s_velocity (w t))).
Proof. exact relative_rates_eccentric. Qed.
Print Assumptions C100_eccentric_refuted.

(** A rising first body, and a second one ahead of it by a fixed angle. *)
Example C100_example : exists ro vo rc vc w, unperturbed_motion ro vo /\ cross (ro 0) (vo 0) <> zero3 /\ (forall t, rate_of rc t (vc t)) /\
  (forall t, gcrf_to_hcw (GCRF (later (Epoch 51544.5) t) (ro t) (vo t)) (GCRF (later (Epoch 51544.5) t) (rc t) (vc t)) = Ok (w t) /\
     0 < y3 (s_position (w t)) < PI * norm (ro t)) /\ dot (ro 0) (vo 0) <> 0.
Proof. exact turned_chaser. Qed.
