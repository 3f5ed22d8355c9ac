(** C103: propagation along any route through time. *)
From Coq Require Import Reals Lra Lia List.
From Verif.Model Require Import Num Constants Linalg Time States Inertial.
From Verif.Spec Require Import Geometry Propagation Motion Route.
From Verif.Proofs Require Import NumLemmas StatesProofs InertialProofs SafeStep ConvergenceProofs MotionExists OrderProofs RouteProofs.
Import ListNotations.
Local Open Scope R_scope.

(** step_to_epoch() through any list of epochs, in any order, forwards and
    backwards, with legs of at most [h] seconds: no exception, the last epoch is
    reached, and the state there is right to the fourth power of [h]. *)
Theorem C103_route : forall speed longest, exists C, 0 < C /\ forall s T r v D h l, r 0 = g_position s -> v 0 = g_velocity s ->
  norm (g_velocity s) <= speed -> Rabs T <= longest ->
  natural_motion (g_epoch s) T r v -> clear_along (g_epoch s) T r D -> one_utc_day (g_epoch s) T ->
  (forall t, In t l -> during T t) -> legs_within h 0 l -> route_length 0 l <= longest -> 0 <= h <= 300 -> C * h <= D ->
  exists q, visited (RK4 s) (map (later (g_epoch s)) l) q /\ g_epoch (rk_state q) = later (g_epoch s) (last l 0) /\
    separation (g_position (rk_state q)) (g_velocity (rk_state q)) (r (last l 0)) (v (last l 0)) <= C * h ^ 4.
Proof. exact route. Qed.
Print Assumptions C103_route.

(** Away and back again: the spacecraft returns to where it started. *)
Theorem C103_there_and_back : forall speed longest, exists C, 0 < C /\ forall s T r v D h l, r 0 = g_position s -> v 0 = g_velocity s ->
  norm (g_velocity s) <= speed -> Rabs T <= longest ->
  natural_motion (g_epoch s) T r v -> clear_along (g_epoch s) T r D -> one_utc_day (g_epoch s) T ->
  (forall t, In t l -> during T t) -> legs_within h 0 l -> route_length 0 l <= longest -> 0 <= h <= 300 -> C * h <= D -> last l 0 = 0 ->
  exists q, visited (RK4 s) (map (later (g_epoch s)) l) q /\ g_epoch (rk_state q) = g_epoch s /\
    separation (g_position (rk_state q)) (g_velocity (rk_state q)) (g_position s) (g_velocity s) <= C * h ^ 4.
Proof.
  intros V B. destruct (route V B) as (C & C0 & H). exists C. split; auto. intros s T r v D h l R0 V0 HV HB NM Cl Day Du Lg Rl Hh HD La.
  destruct (H s T r v D h l R0 V0 HV HB NM Cl Day Du Lg Rl Hh HD) as (q & Q1 & Q2 & Q3). rewrite La in Q2, Q3. rewrite R0, V0 in Q3.
  exists q. split; auto. split; auto. rewrite Q2. unfold later. rewrite epoch_zero. reflexivity.
Qed.
Print Assumptions C103_there_and_back.

(** Two routes to the same epoch end in the same state. *)
Theorem C103_two_routes : forall speed longest, exists C, 0 < C /\ forall s T r v D h l k, r 0 = g_position s -> v 0 = g_velocity s ->
  norm (g_velocity s) <= speed -> Rabs T <= longest ->
  natural_motion (g_epoch s) T r v -> clear_along (g_epoch s) T r D -> one_utc_day (g_epoch s) T ->
  (forall t, In t (l ++ k) -> during T t) -> legs_within h 0 l -> legs_within h 0 k -> route_length 0 l <= longest -> route_length 0 k <= longest ->
  0 <= h <= 300 -> C * h <= D -> last l 0 = last k 0 ->
  exists p q, visited (RK4 s) (map (later (g_epoch s)) l) p /\ visited (RK4 s) (map (later (g_epoch s)) k) q /\ g_epoch (rk_state p) = g_epoch (rk_state q) /\
    separation (g_position (rk_state p)) (g_velocity (rk_state p)) (g_position (rk_state q)) (g_velocity (rk_state q)) <= C * h ^ 4.
Proof.
  intros V B. destruct (route V B) as (C & C0 & H). exists (2 * C). split; [lra|]. intros s T r v D h l k R0 V0 HV HB NM Cl Day Du Ll Lk Rl Rk Hh HD La.
  assert (HD' : C * h <= D) by (assert (0 <= C * h) by (apply Rmult_le_pos; lra); lra).
  destruct (H s T r v D h l R0 V0 HV HB NM Cl Day (fun t Ht => Du t (in_or_app l k t (or_introl Ht))) Ll Rl Hh HD') as (p & P1 & P2 & P3).
  destruct (H s T r v D h k R0 V0 HV HB NM Cl Day (fun t Ht => Du t (in_or_app l k t (or_intror Ht))) Lk Rk Hh HD') as (q & Q1 & Q2 & Q3).
  exists p, q. split; auto. split; auto. split; [congruence|]. rewrite La in P3.
  eapply Rle_trans; [apply (separation_triangle _ _ (r (last k 0)) (v (last k 0)))|].
  assert (S : forall a b c d, separation a b c d = separation c d a b).
  { intros a b c d. unfold separation. rewrite (sub_sym a c), (sub_sym b d). reflexivity. }
  rewrite (S (r _)). lra.
Qed.
Print Assumptions C103_two_routes.

(** A geosynchronous state taken ten minutes ahead and back in steps of half a
    minute: twenty legs out and twenty home. *)
Definition out_and_home : list R := map (fun i => INR i * 30) (seq 1 20) ++ map (fun i => 600 - INR i * 30) (seq 1 20).
Example C103_example : one_utc_day (g_epoch (rk_state geo)) 600 /\ (forall t, In t out_and_home -> during 600 t) /\ legs_within 30 0 out_and_home /\
  route_length 0 out_and_home <= 1200 /\ last out_and_home 0 = 0 /\
  exists r v, r 0 = g_position (rk_state geo) /\ v 0 = g_velocity (rk_state geo) /\
  natural_motion (g_epoch (rk_state geo)) 600 r v /\ clear_along (g_epoch (rk_state geo)) 600 r 1000.
Proof.
  split; [exact geo_day|]. split; [|split; [|split; [|split]]].
  - intros t Ht. unfold out_and_home in Ht. apply in_app_or in Ht. assert (G : 0 <= t <= 600).
    { destruct Ht as [Ht|Ht]; apply in_map_iff in Ht as (i & <- & Hi); apply in_seq in Hi; assert (I1 := le_INR i 20 ltac:(lia)); assert (I0 := pos_INR i); replace (INR 20) with 20 in I1 by (cbn; lra); lra. }
    exists (t / 600). split; [lra|field].
  - cbn. repeat match goal with |- _ /\ _ => split end; auto; apply Rabs_le; lra.
  - cbn. repeat match goal with |- context [Rabs ?x] => first [rewrite (Rabs_pos_eq x) by lra | rewrite (Rabs_left x) by lra] end. lra.
  - cbn. lra.
  - apply motion_margin; [lra|exact geo_margin].
Qed.
Print Assumptions C103_example.
