(** Proofs about histories of operations of bodies/artificial.py. *)
From Coq Require Import Reals Lra Psatz Lia List Arith ZArith Bool Classical.
From Verif.Model Require Import Num Constants Linalg Functions Time Celestial Positions States
  Inertial Relative Obs Filtering Constraints Payloads Artificial.
From Verif.Spec Require Import Geometry Operations Sensing.
From Verif.Proofs Require Import NumLemmas LinalgProofs FunctionsProofs CelestialProofs StatesProofs InertialProofs PayloadsProofs ArtificialProofs SensorProofs SafeStep.
Import ListNotations.
Local Open Scope R_scope.

Lemma set_nth_self w : forall i c, nth_error w i = Some c -> set_nth w i c = w.
Proof. induction w as [|d w IH]; intros [|i] c H; cbn in *; try discriminate; [congruence|]. rewrite IH; auto. Qed.
Lemma nth_set w i k c d e : nth_error w i = Some c -> nth_error (set_nth w i d) k = Some e -> (k = i /\ e = d) \/ (k <> i /\ nth_error w k = Some e).
Proof.
  intros E H. destruct (Nat.eq_dec k i) as [->|N]; [left|right].
  - rewrite (set_nth_same w i d c E) in H. injection H as <-. auto.
  - rewrite set_nth_other in H by auto. auto.
Qed.
Lemma nth_set_exists w i k c d a : nth_error w i = Some c -> nth_error w k = Some a -> exists b, nth_error (set_nth w i d) k = Some b.
Proof.
  intros E H. destruct (Nat.eq_dec k i) as [->|N]; [exists d; eapply set_nth_same; eauto|exists a; rewrite set_nth_other; auto].
Qed.

(** * Relations kept by updates *)
Section Rel.
  Variable Rl : craft -> craft -> Prop.
  Hypothesis Rrefl : forall c, Rl c c.
  Hypothesis Rtrans : forall a b c, Rl a b -> Rl b c -> Rl a c.
  Hypothesis Rlv : forall c, Rl c (attitude_lvlh c).
  Hypothesis Rso : forall c, Rl c (attitude_solar c).
  Hypothesis Rta : forall c t, Rl c (attitude_target c t).
  Hypothesis Rsl : forall c d, update_slew c = Ok d -> Rl c d.
  Hypothesis Rpr : forall c p, Rl c (set_propagator c p).
  Lemma rel_set w i c d : nth_error w i = Some c -> Rl c d -> Forall2 Rl w (set_nth w i d).
  Proof.
    revert i. induction w as [|e w IH]; intros [|i] E H; cbn in *; try discriminate.
    - injection E as ->. constructor; auto. clear - Rrefl. induction w; constructor; auto.
    - constructor; auto.
  Qed.
  Lemma rel_refl w : Forall2 Rl w w. Proof. induction w; constructor; auto. Qed.
  Lemma rel_trans w v u : Forall2 Rl w v -> Forall2 Rl v u -> Forall2 Rl w u.
  Proof.
    intros H. revert u. induction H; intros u G; inversion G; subst; constructor; eauto.
  Qed.
  Lemma finish_rel i w r w' r' : finish i (w, r) = (w', r') -> Forall2 Rl w w'.
  Proof.
    unfold finish. intros E. destruct r as [u|e]; [|injection E as <- _; apply rel_refl].
    destruct (nth_error w i) as [c|] eqn:Ei; [|injection E as <- _; apply rel_refl].
    destruct (update_slew c) as [d|e] eqn:Es; injection E as <- _; [|apply rel_refl].
    eapply rel_set; eauto.
  Qed.
  Lemma update_rel : forall fuel i w w' r, update_attitude fuel i w = (w', r) -> Forall2 Rl w w'.
  Proof.
    induction fuel as [|fuel IH]; intros i w w' r E; [injection E as <- _; apply rel_refl|].
    rewrite update_unfold in E. destruct (nth_error w i) as [c|] eqn:Ei; [|injection E as <- _; apply rel_refl].
    destruct (aim fuel i c w) as [w1 r1] eqn:Ea. eapply rel_trans; [|eapply finish_rel; eauto]. clear E.
    unfold aim in Ea. destruct (steering c).
    - injection Ea as <- _. eapply rel_set; eauto.
    - injection Ea as <- _. eapply rel_set; eauto.
    - destruct (tracked_target c) as [j|]; [|injection Ea as <- _; apply rel_refl].
      destruct (nth_error w j) as [t|] eqn:Ej; [|injection Ea as <- _; apply rel_refl].
      destruct (sync fuel j (current_epoch c) t w) as [w2 r2] eqn:Es.
      assert (H2 : Forall2 Rl w w2).
      { unfold sync in Es. destruct (neq _ _); [injection Es as <- _; apply rel_refl|].
        destruct (rk4_step_to_epoch (propagator t) (current_epoch c)) as [p [u|e]] eqn:Er.
        - eapply rel_trans; [eapply rel_set; [exact Ej|apply (Rpr t p)]|]. eapply IH; eauto.
        - injection Es as <- _. eapply rel_set; eauto. }
      destruct r2 as [u|e]; [|injection Ea as <- _; auto].
      destruct (nth_error w2 i) as [c2|] eqn:E1; [|injection Ea as <- _; auto].
      destruct (nth_error w2 j) as [t2|]; [|injection Ea as <- _; auto].
      injection Ea as <- _. eapply rel_trans; [exact H2|]. eapply rel_set; eauto.
  Qed.
End Rel.
Lemma forall2_nth (Rl : craft -> craft -> Prop) w v : Forall2 Rl w v -> forall i c, nth_error w i = Some c -> exists d, nth_error v i = Some d /\ Rl c d.
Proof. induction 1; intros [|i] c E; cbn in *; try discriminate; eauto. injection E as <-. eauto. Qed.
Lemma forall2_nth_none (Rl : craft -> craft -> Prop) w v : Forall2 Rl w v -> forall i, nth_error w i = None -> nth_error v i = None.
Proof. induction 1; intros [|i] E; cbn in *; try discriminate; eauto. Qed.

(** * Stuck spacecraft *)
Definition stuckc (c : craft) : Prop := slewing c = true /\ slew_stop c = None /\ steering c = Target.
Lemma stuck_iff w i : stuck w i <-> exists c, nth_error w i = Some c /\ stuckc c.
Proof. reflexivity. Qed.
Lemma update_stuck fuel i w w' r k : update_attitude fuel i w = (w', r) -> stuck w k -> stuck w' k.
Proof.
  intros U (c & E & S). assert (F : Forall2 (fun c d => stuckc c -> stuckc d) w w').
  { refine (update_rel (fun c d => stuckc c -> stuckc d) _ _ _ _ _ _ _ fuel i w w' r U).
    - intros x H. exact H.
    - intros x y z H1 H2 H. auto.
    - intros x H. exact H.
    - intros x H. exact H.
    - intros x y H. exact H.
    - intros c0 d Es (A & B & C). exfalso. unfold update_slew in Es. rewrite A, B in Es. discriminate.
    - intros x y H. exact H. }
  destruct (forall2_nth _ _ _ F k c E) as (d & Ed & H). exists d. exact (conj Ed (H S)).
Qed.
Lemma update_stuck_raises fuel i w w' r : update_attitude fuel i w = (w', r) -> stuck w i -> r <> Ok tt.
Proof.
  intros U S Z. subst r. assert (S' := update_stuck _ _ _ _ _ i U S). destruct S as (c & E & S1 & S2 & S3).
  destruct (update_spec fuel i w c w' (Ok tt) E U) as [[_ _ _ _ D] _]. destruct (D eq_refl) as (c' & E' & _ & _ & [Sl _]).
  destruct S' as (c2 & E2 & T1 & _). rewrite E' in E2. injection E2 as <-. destruct (Sl T1) as [_ (e & X & _)]. congruence.
Qed.
Lemma set_stuck w i k c d : nth_error w i = Some c -> (stuckc c -> stuckc d) -> stuck w k -> stuck (set_nth w i d) k.
Proof.
  intros E H (a & Ea & S). destruct (Nat.eq_dec k i) as [->|N].
  - rewrite E in Ea. injection Ea as <-. exists d. split; [eapply set_nth_same; eauto|apply H; exact S].
  - exists a. rewrite set_nth_other by auto. auto.
Qed.
Lemma store_stuck fuel i w c cr w' r k : nth_error w i = Some c -> k <> i -> store_and_update fuel i w cr = (w', r) -> stuck w k -> stuck w' k.
Proof.
  intros E N U S. assert (S' : forall d, stuck (set_nth w i d) k).
  { intros d. destruct S as (a & Ea & S). exists a. rewrite set_nth_other by auto. auto. }
  unfold store_and_update in U. destruct cr as [d [u|e]]; [eapply update_stuck; eauto|injection U as <- _; auto].
Qed.
Lemma track_state_target fuel i j w c t : nth_error w i = Some c -> nth_error w j = Some t -> steering c = Target ->
  track_state fuel i j w = update_attitude fuel i w.
Proof. intros E Et S. unfold track_state. rewrite E, Et, S. cbn [mode_eqb store_and_update]. rewrite set_nth_self by auto. reflexivity. Qed.
Lemma track_state_stuck fuel i j w w' r k : track_state fuel i j w = (w', r) -> stuck w k -> stuck w' k.
Proof.
  intros U S. destruct (nth_error w i) as [c|] eqn:E.
  2: { unfold track_state in U. rewrite E in U. injection U as <- _. auto. }
  destruct (nth_error w j) as [t|] eqn:Et.
  2: { unfold track_state in U. rewrite E, Et in U. injection U as <- _. auto. }
  destruct (Nat.eq_dec k i) as [->|N].
  - destruct S as (a & Ea & S). rewrite E in Ea. injection Ea as <-. rewrite (track_state_target fuel i j w c t) in U; auto; [|apply S].
    eapply update_stuck; [exact U|]. exists c. exact (conj E S).
  - unfold track_state in U. rewrite E, Et in U. eapply store_stuck; [exact E|exact N|exact U|exact S].
Qed.
Lemma run_stuck fuel o w w' r i : run_op fuel o w = (w', r) -> o <> TrackLvlh i -> o <> TrackSun i -> stuck w i -> stuck w' i.
Proof.
  intros E N1 N2 S. destruct o as [s|k p|k|k e|k|k|k j|k|k b|k dv|k j|z1 z2 u k j|z1 z2 u k j]; cbn [run_op] in E.
  - destruct (Spacecraft s) as [c|e]; injection E as <- _; auto. destruct S as (a & Ea & S). exists a. split; auto.
    rewrite nth_error_app1; auto. apply nth_error_Some. congruence.
  - destruct (nth_error w k) as [c|] eqn:Ek; injection E as <- _; auto. eapply set_stuck; eauto.
  - unfold sc_step in E. destruct (nth_error w k) as [c|] eqn:Ek; [|injection E as <- _; auto].
    destruct (rk4_step (propagator c)) as [p [u|e]].
    + eapply update_stuck; [exact E|]. eapply set_stuck; eauto.
    + injection E as <- _. eapply set_stuck; eauto.
  - unfold sc_step_to_epoch in E. destruct (nth_error w k) as [c|] eqn:Ek; [|injection E as <- _; auto].
    destruct (rk4_step_to_epoch (propagator c) e) as [p [u|x]].
    + eapply update_stuck; [exact E|]. eapply set_stuck; eauto.
    + injection E as <- _. eapply set_stuck; eauto.
  - unfold track_lvlh in E. destruct (nth_error w k) as [c|] eqn:Ek; [|injection E as <- _; auto].
    eapply store_stuck; [exact Ek| |exact E|exact S]. congruence.
  - unfold track_sun in E. destruct (nth_error w k) as [c|] eqn:Ek; [|injection E as <- _; auto].
    eapply store_stuck; [exact Ek| |exact E|exact S]. congruence.
  - eapply track_state_stuck; eauto.
  - eapply update_stuck; eauto.
  - unfold impulsive_maneuver in E. destruct (nth_error w k) as [c|] eqn:Ek; [|injection E as <- _; auto].
    destruct (hcw_to_gcrf _ _) as [g|e]; injection E as <- _; auto. eapply set_stuck; eauto.
  - unfold finite_maneuver in E. destruct (nth_error w k) as [c|] eqn:Ek; [|injection E as <- _; auto].
    destruct (craft_finite_maneuver c dv) as [c' r0] eqn:Ef. injection E as <- _. eapply set_stuck; eauto. intros Sc.
    unfold craft_finite_maneuver in Ef. destruct (HCW_frame_matrix _); [|injection Ef as <- _; exact Sc].
    destruct (rk4_maneuver _ _ _ _ _) as [p [u|e]]; [|injection Ef as <- _; exact Sc].
    destruct (finite_dt _ _ _ _); injection Ef as <- _; exact Sc.
  - unfold acquire in E. destruct (nth_error w k) as [c|] eqn:Ek; [|injection E as <- _; auto].
    destruct (nth_error w j) as [t|] eqn:Ej; [|injection E as <- _; auto].
    destruct (make_filter c t) as [f|e]; [|injection E as <- _; auto].
    eapply track_state_stuck; [exact E|]. eapply set_stuck; eauto.
  - unfold process_wfov, process in E. destruct (nth_error w k) as [c|] eqn:Ek; [|injection E as <- _; auto].
    destruct (nth_error w j) as [t|] eqn:Ej; [|injection E as <- _; auto].
    destruct (observe wfov z1 z2 u c t) as [ob|e]; [|injection E as <- _; auto].
    destruct (sc_filter c) as [f|]; [|injection E as <- _; auto]. destruct (kalman_process f ob) as [f' r'].
    injection E as <- _. eapply set_stuck; eauto.
  - unfold process_nfov, process in E. destruct (nth_error w k) as [c|] eqn:Ek; [|injection E as <- _; auto].
    destruct (nth_error w j) as [t|] eqn:Ej; [|injection E as <- _; auto].
    destruct (observe nfov z1 z2 u c t) as [ob|e]; [|injection E as <- _; auto].
    destruct (sc_filter c) as [f|]; [|injection E as <- _; auto]. destruct (kalman_process f ob) as [f' r'].
    injection E as <- _. eapply set_stuck; eauto.
Qed.
Definition updates (o : op) (i : nat) : Prop :=
  match o with Step k | StepTo k _ | UpdateAttitude k | TrackState k _ | Acquire k _ => k = i | _ => False end.
Lemma run_stuck_raises fuel o w w' r i : run_op fuel o w = (w', r) -> updates o i -> stuck w i -> r <> Ok tt.
Proof.
  intros E Up S. destruct o as [s|k p|k|k e|k|k|k j|k|k b|k dv|k j|z1 z2 u k j|z1 z2 u k j]; cbn in Up; try contradiction; subst k; cbn [run_op] in E.
  - unfold sc_step in E. destruct (nth_error w i) as [c|] eqn:Ek; [|injection E as _ <-; discriminate].
    destruct (rk4_step (propagator c)) as [p [u|e]]; [|injection E as _ <-; discriminate].
    eapply update_stuck_raises; [exact E|]. eapply set_stuck; eauto.
  - unfold sc_step_to_epoch in E. destruct (nth_error w i) as [c|] eqn:Ek; [|injection E as _ <-; discriminate].
    destruct (rk4_step_to_epoch (propagator c) e) as [p [u|x]]; [|injection E as _ <-; discriminate].
    eapply update_stuck_raises; [exact E|]. eapply set_stuck; eauto.
  - destruct S as (c & Ec & S). destruct (nth_error w j) as [t|] eqn:Et.
    + rewrite (track_state_target fuel i j w c t) in E; auto; [|apply S]. eapply update_stuck_raises; [exact E|]. exists c. exact (conj Ec S).
    + unfold track_state in E. rewrite Ec, Et in E. injection E as _ <-. discriminate.
  - eapply update_stuck_raises; eauto.
  - unfold acquire in E. destruct S as (c & Ec & S). rewrite Ec in E.
    destruct (nth_error w j) as [t|] eqn:Et; [|injection E as _ <-; discriminate].
    destruct (make_filter c t) as [f|e]; [|injection E as _ <-; discriminate].
    set (w0 := set_nth w i (set_filter c f)) in *. assert (Ei : nth_error w0 i = Some (set_filter c f)) by (eapply set_nth_same; eauto).
    destruct (nth_set_exists w i j c (set_filter c f) t Ec Et) as (t0 & Ej). fold w0 in Ej.
    rewrite (track_state_target fuel i j w0 (set_filter c f) t0) in E; auto; [|apply S].
    eapply update_stuck_raises; [exact E|]. exists (set_filter c f). exact (conj Ei S).
Qed.

(** * The slew clock *)
Definition on_time (c : craft) : Prop := slewing c = true -> exists e, slew_stop c = Some e /\ clock c <= value e.
Lemma update_on_time fuel i w w' : update_attitude fuel i w = (w', Ok tt) ->
  (forall k d, k <> i -> nth_error w k = Some d -> on_time d) -> forall k d, nth_error w' k = Some d -> on_time d.
Proof.
  intros U H k d E. destruct (nth_error w i) as [c|] eqn:Ei.
  2: { destruct fuel; cbn in U; rewrite ?Ei in U; discriminate. }
  destruct (update_spec fuel i w c w' (Ok tt) Ei U) as [[_ R S _ D] _].
  destruct (Nat.eq_dec k i) as [->|N].
  - destruct (D eq_refl) as (c' & E' & K & _ & [Sl _]). rewrite E in E'. injection E' as <-. intros X. destruct (Sl X) as [_ (e & Se & L)].
    exists e. destruct (kept_clock _ _ K) as (-> & _). destruct K as (_ & _ & _ & _ & ->). auto.
  - destruct (classic (chain w (clock c) i k)) as [C|C].
    + destruct (S eq_refl k C) as (a & a' & A1 & A2 & A3 & _ & _ & _ & _ & A4 & [A5 _]). rewrite E in A2. injection A2 as <-.
      intros X. destruct (A5 X) as [_ (e & Se & L)]. exists e. rewrite A3, A4. auto.
    + rewrite R in E by auto. eapply H; eauto.
Qed.
Lemma store_on_time fuel i w cr w' c : nth_error w i = Some c -> store_and_update fuel i w cr = (w', Ok tt) -> Forall on_time w -> Forall on_time w'.
Proof.
  intros E U H. unfold store_and_update in U. destruct cr as [d [u|e]]; [|discriminate].
  apply Forall_forall. intros x Hx. apply In_nth_error in Hx. destruct Hx as [k Hk]. revert Hk. eapply update_on_time; eauto.
  intros k0 d0 N E0. rewrite set_nth_other in E0 by auto. eapply nth_forall; eauto.
Qed.
Lemma step_on_time fuel i w p c w' : nth_error w i = Some c -> update_attitude fuel i (set_nth w i (set_propagator c p)) = (w', Ok tt) -> Forall on_time w -> Forall on_time w'.
Proof. intros E U H. eapply (store_on_time fuel i w (set_propagator c p, Ok tt)); eauto. Qed.
Lemma track_state_on_time fuel i j w w' : track_state fuel i j w = (w', Ok tt) -> Forall on_time w -> Forall on_time w'.
Proof.
  unfold track_state. intros E H. destruct (nth_error w i) as [c|] eqn:Ei; [|discriminate]. destruct (nth_error w j) as [t|]; [|discriminate].
  eapply store_on_time; eauto.
Qed.
Lemma orderly_on_time w : orderly w -> Forall on_time w.
Proof.
  induction 1 as [|fuel o w w' Ow IH NF E]; [constructor|].
  destruct o as [s|k p|k|k e|k|k|k j|k|k b|k dv|k j|z1 z2 u k j|z1 z2 u k j]; cbn [run_op] in E.
  - destruct (Spacecraft s) as [c|e] eqn:Es; [|discriminate]. injection E as <-. apply Forall_app. split; auto. constructor; auto.
    apply Spacecraft_inv in Es. destruct Es as (k & wf & n & _ & _ & _ & ->). intros X. discriminate.
  - destruct (nth_error w k) as [c|] eqn:Ek; [|discriminate]. injection E as <-. apply set_nth_forall; auto.
    exact (nth_forall on_time w k c IH Ek).
  - unfold sc_step in E. destruct (nth_error w k) as [c|] eqn:Ek; [|discriminate].
    destruct (rk4_step (propagator c)) as [p [u|e]]; [|discriminate]. eapply step_on_time; eauto.
  - unfold sc_step_to_epoch in E. destruct (nth_error w k) as [c|] eqn:Ek; [|discriminate].
    destruct (rk4_step_to_epoch (propagator c) e) as [p [u|x]]; [|discriminate]. eapply step_on_time; eauto.
  - unfold track_lvlh in E. destruct (nth_error w k) as [c|] eqn:Ek; [|discriminate]. eapply store_on_time; eauto.
  - unfold track_sun in E. destruct (nth_error w k) as [c|] eqn:Ek; [|discriminate]. eapply store_on_time; eauto.
  - eapply track_state_on_time; eauto.
  - apply Forall_forall. intros x Hx. apply In_nth_error in Hx. destruct Hx as [n Hn]. revert Hn. eapply update_on_time; eauto.
    intros k0 d0 N E0. eapply nth_forall; eauto.
  - destruct (nth_error w k) as [c|] eqn:Ek; [|unfold impulsive_maneuver in E; rewrite Ek in E; discriminate].
    destruct (vec3_zero_dec (cross (place_of c) (motion_of c))) as [Z|N].
    + rewrite (impulse_err k b w c Ek Z) in E. discriminate.
    + destruct (impulse_ok k b w c Ek N) as (dv & _ & I). rewrite I in E. injection E as <-. apply set_nth_forall; auto.
      exact (nth_forall on_time w k c IH Ek).
  - exfalso. eapply NF; eauto.
  - unfold acquire in E. destruct (nth_error w k) as [c|] eqn:Ek; [|discriminate].
    destruct (nth_error w j) as [t|] eqn:Ej; [|discriminate].
    destruct (make_filter c t) as [f|e]; [|discriminate]. eapply track_state_on_time; [exact E|]. apply set_nth_forall; auto.
    exact (nth_forall on_time w k c IH Ek).
  - unfold process_wfov, process in E. destruct (nth_error w k) as [c|] eqn:Ek; [|discriminate].
    destruct (nth_error w j) as [t|] eqn:Ej; [|discriminate].
    destruct (observe wfov z1 z2 u c t) as [ob|e]; [|discriminate].
    destruct (sc_filter c) as [f|]; [|discriminate]. destruct (kalman_process f ob) as [f' r'].
    injection E as <- _. apply set_nth_forall; auto. exact (nth_forall on_time w k c IH Ek).
  - unfold process_nfov, process in E. destruct (nth_error w k) as [c|] eqn:Ek; [|discriminate].
    destruct (nth_error w j) as [t|] eqn:Ej; [|discriminate].
    destruct (observe nfov z1 z2 u c t) as [ob|e]; [|discriminate].
    destruct (sc_filter c) as [f|]; [|discriminate]. destruct (kalman_process f ob) as [f' r'].
    injection E as <- _. apply set_nth_forall; auto. exact (nth_forall on_time w k c IH Ek).
Qed.

(** * Starting a slew *)
Lemma start_slew_ok c d th : body_z c <> zero3 -> d <> zero3 -> v3_angle (body_z c) d = Ok th ->
  start_slew c d = (set_slew_stop c (Epoch (clock c + th * slew_scalar (sc_params c))), Ok tt).
Proof. intros Hz Hd E. unfold start_slew. rewrite E. reflexivity. Qed.
(** [m]: the new mode; [d]: its pointing direction as seen from [c]. *)
Lemma mode_change fuel i w c c1 d w' : nth_error w i = Some c -> body_z c <> zero3 -> d <> zero3 -> 0 <= slew_scalar (sc_params c) ->
  propagator c1 = propagator c -> body_z c1 = body_z c -> sc_params c1 = sc_params c -> slewing c1 = true ->
  store_and_update fuel i w (start_slew c1 d) = (w', Ok tt) ->
  exists c' th, nth_error w' i = Some c' /\ angle_between (body_z c) d th /\ propagator c' = propagator c /\ steering c' = steering c1 /\
    tracked_target c' = tracked_target c1 /\ points w' c' /\
    slew_stop c' = Some (Epoch (clock c + th * slew_scalar (sc_params c))) /\ slewing c' = true.
Proof.
  intros E Hz Hd Hs P1 B1 Q1 S1 U. destruct (angle_spec (body_z c) d Hz Hd) as (th & Et & Rt & Ct & _).
  rewrite (start_slew_ok c1 d th) in U; rewrite ?B1; auto. cbn [store_and_update] in U.
  set (c2 := set_slew_stop c1 _) in *.
  destruct (update_spec fuel i _ c2 w' (Ok tt) (set_nth_same w i c2 c E) U) as [[_ _ _ _ D] _].
  destruct (D eq_refl) as (c' & E' & K & Pt & [_ Sl]). exists c', th. split; auto. split; [split; auto|].
  destruct K as (K1 & K2 & K3 & K4 & K5).
  assert (Cc : clock c1 = clock c) by (unfold clock; rewrite P1; auto).
  split; [rewrite K1; exact P1|]. split; [exact K2|]. split; [exact K3|]. split; [exact Pt|]. split.
  - rewrite K5. unfold c2. cbn [slew_stop set_slew_stop]. rewrite Cc, Q1. reflexivity.
  - apply Sl. split; [exact S1|]. eexists. split; [reflexivity|]. change (clock c2) with (clock c1). rewrite Q1. cbn [value].
    assert (0 <= th * slew_scalar (sc_params c)) by (apply Rmult_le_pos; lra). lra.
Qed.

(** * Synchronisation by step_to_epoch *)
Lemma chain_own w i c d t k : nth_error w i = Some c -> kept (set_propagator c (propagator d)) d -> clock d = t -> k <> i ->
  (chain w t i k <-> chain (set_nth w i d) t i k).
Proof.
  intros E K T N. split; intros H.
  - destruct (chain_after w t i c d E K T i k H) as [?|[?|?]]; auto; contradiction.
  - eapply chain_before; eauto.
Qed.
Lemma late_length t w : (late t w <= length w)%nat.
Proof. unfold late. induction w as [|c w IH]; cbn; [lia|]. destruct (negb _); cbn; lia. Qed.
Lemma propagated fuel i w c p w' r t : nth_error w i = Some c -> clock (set_propagator c p) = t ->
  update_attitude fuel i (set_nth w i (set_propagator c p)) = (w', r) ->
  length w' = length w /\
  ((length w < fuel)%nat -> r <> Err OutOfFuel) /\
  (forall k, k <> i -> ~ chain w t i k -> nth_error w' k = nth_error w k) /\
  (r = Ok tt -> (exists c', nth_error w' i = Some c' /\ propagator c' = p /\ steering c' = steering c /\ tracked_target c' = tracked_target c /\ points w' c' /\
                   slew_stop c' = slew_stop c /\ (slewing c' = true <-> slewing c = true /\ exists e, slew_stop c = Some e /\ t <= value e)) /\
    forall k, k <> i -> chain w t i k -> exists d, nth_error w' k = Some d /\ clock d = t /\ points w' d).
Proof.
  intros E T U. set (d := set_propagator c p) in *. assert (Ed := set_nth_same w i d c E).
  destruct (update_spec fuel i _ d w' r Ed U) as [[L R S _ D] F]. rewrite set_nth_length in L. rewrite T in *.
  assert (Kd : kept (set_propagator c (propagator d)) d) by apply kept_refl.
  split; auto. split; [|split].
  - intros H. apply F. assert (X := late_length t (set_nth w i d)). rewrite set_nth_length in X. lia.
  - intros k N C. rewrite R; [apply set_nth_other; auto|auto|]. intros X. apply C. apply (chain_own w i c d t k); auto.
  - intros ->. split.
    + destruct (D eq_refl) as (c' & E' & (K1 & K2 & K3 & K4 & K5) & Pt & Sl). exists c'.
      split; [exact E'|]. split; [exact K1|]. split; [exact K2|]. split; [exact K3|]. split; [exact Pt|]. split; [exact K5|]. exact Sl.
    + intros k N C. destruct (S eq_refl k) as (a & a' & _ & A2 & A3 & A4 & _); [apply (chain_own w i c d t k); auto|]. exists a'. auto.
Qed.

(** * The scalar attributes do not influence propagation *)
Lemma twin_set w v i c d c' d' : same_but_params w v -> nth_error w i = Some c -> nth_error v i = Some d ->
  d' = set_params c' (sc_params d') -> same_but_params (set_nth w i c') (set_nth v i d').
Proof.
  unfold same_but_params. intros H. revert i. induction H as [|a b w v Hab H IH]; intros [|i] E1 E2 E; cbn in *; try discriminate; constructor; auto.
Qed.
Lemma finish_twin i w v r w' r' : same_but_params w v -> finish i (w, r) = (w', r') -> exists v', finish i (v, r) = (v', r') /\ same_but_params w' v'.
Proof.
  intros H E. unfold finish in *. destruct r as [u|e]; [|injection E as <- <-; eauto].
  destruct (nth_error w i) as [c|] eqn:Ec.
  2: { rewrite (forall2_nth_none _ _ _ H i Ec). injection E as <- <-. eauto. }
  destruct (forall2_nth _ _ _ H i c Ec) as (d & Ed & D). rewrite Ed. revert D. generalize (sc_params d). intros pd ->.
  unfold update_slew in *. cbn [slewing slew_stop set_params]. destruct (slewing c).
  - destruct (slew_stop c) as [s|]; [|injection E as <- <-; eauto].
    change (current_epoch (set_params c pd)) with (current_epoch c). destruct (nlt _ _); injection E as <- <-; eexists; (split; [reflexivity|]); eapply twin_set; eauto.
  - injection E as <- <-. eexists. split; [reflexivity|]. eapply twin_set; eauto.
Qed.
Lemma update_twin : forall fuel i w v w' r, same_but_params w v -> update_attitude fuel i w = (w', r) ->
  exists v', update_attitude fuel i v = (v', r) /\ same_but_params w' v'.
Proof.
  induction fuel as [|fuel IH]; intros i w v w' r H E; [injection E as <- <-; eexists; split; [reflexivity|auto]|].
  rewrite update_unfold in *. destruct (nth_error w i) as [c|] eqn:Ec.
  2: { rewrite (forall2_nth_none _ _ _ H i Ec). injection E as <- <-. eauto. }
  destruct (forall2_nth _ _ _ H i c Ec) as (d & Ed & D). rewrite Ed.
  destruct (aim fuel i c w) as [w1 r1] eqn:Ea.
  assert (A : exists v1, aim fuel i d v = (v1, r1) /\ same_but_params w1 v1).
  { clear E. revert D Ed. generalize (sc_params d). intros pd -> Ed. unfold aim in *. cbn [steering tracked_target set_params] in *.
    destruct (steering c).
    - injection Ea as <- <-. eexists. split; [reflexivity|]. eapply twin_set; eauto.
    - injection Ea as <- <-. eexists. split; [reflexivity|]. eapply twin_set; eauto.
    - destruct (tracked_target c) as [j|]; [|injection Ea as <- <-; eauto].
      destruct (nth_error w j) as [t|] eqn:Et.
      2: { rewrite (forall2_nth_none _ _ _ H j Et). injection Ea as <- <-. eauto. }
      destruct (forall2_nth _ _ _ H j t Et) as (t' & Et' & T). rewrite Et'. 
      change (current_epoch (set_params c pd)) with (current_epoch c).
      destruct (sync fuel j (current_epoch c) t w) as [w2 r2] eqn:Es.
      assert (S : exists v2, sync fuel j (current_epoch c) t' v = (v2, r2) /\ same_but_params w2 v2).
      { clear Ea. revert T Et'. generalize (sc_params t'). intros pt -> Et'. unfold sync in *.
        change (current_epoch (set_params t pt)) with (current_epoch t). cbn [propagator set_params] in *.
        destruct (neq _ _); [injection Es as <- <-; eauto|].
        destruct (rk4_step_to_epoch (propagator t) (current_epoch c)) as [p [u|e]].
        - eapply IH; [|exact Es]. eapply twin_set; eauto.
        - injection Es as <- <-. eexists. split; [reflexivity|]. eapply twin_set; eauto. }
      destruct S as (v2 & -> & S2). destruct r2 as [u|e]; [|injection Ea as <- <-; eauto].
      destruct (nth_error w2 i) as [c2|] eqn:E1.
      2: { rewrite (forall2_nth_none _ _ _ S2 i E1). injection Ea as <- <-. eauto. }
      destruct (forall2_nth _ _ _ S2 i c2 E1) as (d2 & Ed2 & D2). rewrite Ed2.
      destruct (nth_error w2 j) as [t2|] eqn:E2.
      2: { rewrite (forall2_nth_none _ _ _ S2 j E2). injection Ea as <- <-. eauto. }
      destruct (forall2_nth _ _ _ S2 j t2 E2) as (t2' & Et2 & T2). rewrite Et2.
      injection Ea as <- <-. eexists. split; [reflexivity|]. eapply twin_set; eauto. rewrite D2, T2. reflexivity. }
  destruct A as (v1 & -> & H1). eapply finish_twin; eauto.
Qed.
Lemma step_twin fuel i w v w' r : same_but_params w v -> sc_step fuel i w = (w', r) -> exists v', sc_step fuel i v = (v', r) /\ same_but_params w' v'.
Proof.
  intros H E. unfold sc_step in *. destruct (nth_error w i) as [c|] eqn:Ec.
  2: { rewrite (forall2_nth_none _ _ _ H i Ec). injection E as <- <-. eauto. }
  destruct (forall2_nth _ _ _ H i c Ec) as (d & Ed & D). rewrite Ed. revert D Ed. generalize (sc_params d). intros pd -> Ed. cbn [propagator set_params].
  destruct (rk4_step (propagator c)) as [p [u|e]].
  - eapply update_twin; [|exact E]. eapply twin_set; eauto.
  - injection E as <- <-. eexists. split; [reflexivity|]. eapply twin_set; eauto.
Qed.
Lemma step_to_twin fuel i e w v w' r : same_but_params w v -> sc_step_to_epoch fuel i e w = (w', r) -> exists v', sc_step_to_epoch fuel i e v = (v', r) /\ same_but_params w' v'.
Proof.
  intros H E. unfold sc_step_to_epoch in *. destruct (nth_error w i) as [c|] eqn:Ec.
  2: { rewrite (forall2_nth_none _ _ _ H i Ec). injection E as <- <-. eauto. }
  destruct (forall2_nth _ _ _ H i c Ec) as (d & Ed & D). rewrite Ed. revert D Ed. generalize (sc_params d). intros pd -> Ed. cbn [propagator set_params].
  destruct (rk4_step_to_epoch (propagator c) e) as [p [u|x]].
  - eapply update_twin; [|exact E]. eapply twin_set; eauto.
  - injection E as <- <-. eexists. split; [reflexivity|]. eapply twin_set; eauto.
Qed.

(** * A failed mode change *)
Lemma angle_zero_right a : v3_angle a zero3 = Err ZeroDivisionError.
Proof. unfold v3_angle. spec_ops. replace (norm zero3) with 0 by (symmetry; apply norm_zero; auto). rewrite Rmult_0_r, pdiv_zero. reflexivity. Qed.
Lemma track_coincident fuel i j w c t : nth_error w i = Some c -> nth_error w j = Some t -> steering c <> Target -> place_of t = place_of c ->
  track_state fuel i j w = (set_nth w i (set_slewing (set_tracked (set_steering c Target) j) true), Err ZeroDivisionError).
Proof.
  intros E Et S P. unfold track_state. rewrite E, Et.
  assert (M : mode_eqb (steering c) Target = false) by (destruct (steering c); auto; contradiction). rewrite M. cbv zeta.
  unfold start_slew. set (c1 := set_slewing _ true).
  replace (target_vector c1 t) with zero3; [rewrite angle_zero_right; reflexivity|].
  unfold target_vector, sc_position. rewrite !v3_copy_id. change (g_position (current_state t)) with (place_of t). change (g_position (current_state c1)) with (place_of c).
  rewrite P. veq; ring.
Qed.
(** * A quarter orbit after the x axis *)
Lemma quarter_frame o R V : 0 < R -> 0 < V -> g_position o = V3 0 R 0 -> g_velocity o = V3 (- V) 0 0 ->
  frame o = M3 (V3 0 1 0) (V3 (-1) 0 0) (V3 0 0 1).
Proof.
  intros HR HV Er Ev. unfold frame. rewrite Er, Ev. cbv zeta.
  assert (N1 : norm (V3 0 R 0) = R) by (unfold norm; apply sqrt_eq; [lra|unfold dot; cbn [x3 y3 z3]; ring]).
  assert (H : cross (V3 0 R 0) (V3 (- V) 0 0) = V3 0 0 (R * V)) by (veq; ring).
  assert (P : 0 < R * V) by nra.
  assert (N2 : norm (V3 0 0 (R * V)) = R * V) by (unfold norm; apply sqrt_eq; [lra|unfold dot; cbn [x3 y3 z3]; ring]).
  rewrite H, N1, N2. f_equal; veq; field; lra.
Qed.

(** The frame of a prograde equatorial state at right ascension [t]. *)
Lemma equatorial_frame o R t a b : 0 < R -> 0 < cos t * b - sin t * a ->
  g_position o = V3 (R * cos t) (R * sin t) 0 -> g_velocity o = V3 a b 0 ->
  frame o = M3 (V3 (cos t) (sin t) 0) (V3 (- sin t) (cos t) 0) (V3 0 0 1).
Proof.
  intros HR HV Er Ev. unfold frame. rewrite Er, Ev. cbv zeta. assert (U := sin2_cos2 t). unfold Rsqr in U.
  set (c := cos t) in *. set (s := sin t) in *. clearbody c s.
  assert (N1 : norm (V3 (R * c) (R * s) 0) = R). { unfold norm; apply sqrt_eq; [lra|]. transitivity (R * R * (s * s + c * c)); [rewrite U; ring|unfold dot; cbn [x3 y3 z3]; ring]. }
  assert (H : cross (V3 (R * c) (R * s) 0) (V3 a b 0) = V3 0 0 (R * (c * b - s * a))) by (veq; ring).
  set (k := c * b - s * a) in *. clearbody k. assert (P : 0 < R * k) by nra.
  assert (N2 : norm (V3 0 0 (R * k)) = R * k) by (unfold norm; apply sqrt_eq; [lra|unfold dot; cbn [x3 y3 z3]; ring]).
  rewrite H, N1, N2. f_equal; veq; field; lra.
Qed.

(** * Concrete spacecraft *)
Lemma camera_total : exists w n, Camera_wfov = Ok w /\ Camera_nfov = Ok n /\ limits w = mkOptical (PI / 3) (PI / 2) (PI / 18) (PI / 9) 15 (PI / 36) (characterization (limits w)).
Proof.
  unfold Camera_wfov, Camera_nfov. assert (P := PI_RGT_0).
  rewrite (camera_ok DEFAULT_WIDE_PIXELS DEFAULT_WFOV), (camera_ok DEFAULT_NARROW_PIXELS DEFAULT_NFOV).
  - do 2 eexists. split; [reflexivity|]. split; [reflexivity|]. cbn [limits characterization]. f_equal.
    unfold DEFAULT_WFOV, radians. lra.
  - unfold DEFAULT_NARROW_PIXELS. lra.
  - unfold DEFAULT_NFOV, radians. lra.
  - unfold DEFAULT_WIDE_PIXELS. lra.
  - unfold DEFAULT_WFOV, radians. lra.
Qed.
Lemma Spacecraft_ok s : exists c, Spacecraft s = Ok c /\ propagator c = RK4 s /\ steering c = Lvlh /\ slewing c = false /\
  slew_stop c = None /\ tracked_target c = None /\ body_z c = sub zero3 (g_position s) /\
  sc_params c = Params 0.3 0.005 DEFAULT_SLEW_SCALE 1e-5 0.003 350 600 200 /\
  sun_soft (limits (wfov c)) = PI / 2.
Proof.
  destruct camera_total as (wf & nf & E1 & E2 & L). unfold Spacecraft. rewrite E1, E2. cbn [bind].
  unfold srp_scalar, total_mass, DEFAULT_MASS, DEFAULT_PROP_MASS, DEFAULT_ALBEDO, DEFAULT_RADIUS, DEFAULT_POINTING_ACCURACY, DEFAULT_M_DOT, DEFAULT_ISP.
  cbn [dry_mass propellant_mass]. rewrite pdiv_ok by lra. cbn [bind]. unfold update_slew. cbn [slewing attitude_lvlh set_body].
  eexists. split; [reflexivity|]. do 5 (split; [reflexivity|]). split; [|split; [reflexivity|]].
  - cbn [body_z attitude_lvlh set_body]. unfold earth_vector. rewrite v3_scaled_scale. veq; cbn; ring.
  - cbn [wfov attitude_lvlh set_body]. rewrite L. reflexivity.
Qed.

(** two spacecraft in target mode, each tracking the other *)
Lemma mutual : exists a b w', let e := Epoch (51544.5 + 60 / 86400) in
  propagator a = geo /\ propagator b = leo /\ steering a = Target /\ steering b = Target /\
  tracked_target a = Some 1%nat /\ tracked_target b = Some 0%nat /\
  sc_step_to_epoch 3 0 e [a; b] = (w', Ok tt).
Proof.
  destruct (Spacecraft_ok (GCRF j2000 (V3 42164 0 0) (V3 0 3.07 0))) as (ga & _ & Pa & _ & Sa & _).
  destruct (Spacecraft_ok (GCRF j2000 (V3 7200 0 0) (V3 0 7.5 0))) as (gb & _ & Pb & _ & Sb & _).
  set (a := set_tracked (set_steering ga Target) 1). set (b := set_propagator (set_tracked (set_steering gb Target) 0) leo).
  exists a, b. cbv zeta. set (e := Epoch (51544.5 + 60 / 86400)).
  destruct (safe_step_to_epoch geo e 0) as (q & Q & _).
  { apply off_bounded. reflexivity. } { cbn. rewrite Rabs_R0. lra. }
  { apply geo_clear; [|lra]. cbn. apply Rabs_le. lra. }
  destruct (safe_step_to_epoch leo e 0) as (q2 & Q2 & _).
  { apply off_bounded. reflexivity. } { cbn. rewrite Rabs_R0. lra. }
  { apply leo_clear. cbn. apply Rabs_le. lra. }
  assert (L1 := proj1 (step_to_epoch_lands _ _ _ Q)). assert (L2 := proj1 (step_to_epoch_lands _ _ _ Q2)).
  assert (X : exists w', sc_step_to_epoch 3 0 e [a; b] = (w', Ok tt)).
  { unfold sc_step_to_epoch. cbn [nth_error set_nth]. change (propagator a) with (propagator ga). rewrite Pa. change (RK4 _) with geo. rewrite Q.
    set (a1 := set_propagator a q).
    assert (Ca : current_epoch a1 = e). { unfold current_epoch, current_state. change (propagator a1) with q. unfold gcrf_copy. cbn. rewrite L1. reflexivity. }
    rewrite update_unfold. cbn [nth_error]. unfold aim. change (steering a1) with Target. change (tracked_target a1) with (Some 1%nat). cbv iota. cbn [nth_error].
    unfold sync. rewrite Ca. rewrite neq_false.
    2: { change (value (current_epoch b)) with 51544.5. unfold e. cbn [value]. lra. }
    change (propagator b) with leo. rewrite Q2. cbn [set_nth].
    set (b1 := set_propagator b q2).
    assert (Cb : current_epoch b1 = e). { unfold current_epoch, current_state. change (propagator b1) with q2. unfold gcrf_copy. cbn. rewrite L2. reflexivity. }
    rewrite update_unfold. cbn [nth_error]. unfold aim. change (steering b1) with Target. change (tracked_target b1) with (Some 0%nat). cbv iota. cbn [nth_error].
    unfold sync. rewrite Ca, Cb. rewrite neq_true by auto. cbn [nth_error set_nth]. unfold finish. cbn [nth_error].
    unfold update_slew at 1. change (slewing (attitude_target b1 a1)) with (slewing gb). rewrite Sb. cbn [set_nth nth_error].
    unfold update_slew. match goal with |- context [slewing (attitude_target a1 ?x)] => change (slewing (attitude_target a1 x)) with (slewing ga) end. rewrite Sa.
    eexists. reflexivity. }
  destruct X as [w' X]. exists w'. repeat split; auto.
Qed.
