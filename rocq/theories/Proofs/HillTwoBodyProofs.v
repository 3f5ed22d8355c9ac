(** Relative motion of two unperturbed bodies in the curvilinear coordinates of the code (C99, C100). *)
From Coq Require Import Reals Lra Psatz List.
From Coquelicot Require Import Coquelicot.
From Verif.Model Require Import Num Constants Linalg Functions Time Positions States Relative.
From Verif.Spec Require Import Geometry Gravity Forces Orbit TwoBody Propagation Hill Motion Rendezvous.
From Verif.Proofs Require Import NumLemmas LinalgProofs MatrixProofs Analysis InertialProofs StatesProofs RelativeProofs TwoBodyProofs.
Local Open Scope R_scope.

(** * Derivative of the polar angle *)
Lemma near_gt (f : R -> R) t c : continuous f t -> c < f t -> locally t (fun s => c < f s).
Proof. intros C H. apply (C (fun y => c < y)). apply (open_gt c); auto. Qed.
Lemma near_lt (f : R -> R) t c : continuous f t -> f t < c -> locally t (fun s => f s < c).
Proof. intros C H. apply (C (fun y => y < c)). apply (open_lt c); auto. Qed.
Lemma d_cont (f : R -> R) t a : is_derive f t a -> continuous f t.
Proof. intros H. apply (ex_derive_continuous f). exists a. auto. Qed.
Lemma d_atan (f : R -> R) t a : is_derive f t a -> is_derive (fun t => atan (f t)) t (a / (1 + f t * f t)).
Proof.
  intros F. apply (d_eq _ t (a * / (1 + (f t) ^ 2))); [|unfold Rdiv; do 2 f_equal; ring]. apply (is_derive_comp atan f); auto. apply is_derive_Reals, derivable_pt_lim_atan.
Qed.
Lemma d_div (f g : R -> R) t a b : g t <> 0 -> is_derive f t a -> is_derive g t b -> is_derive (fun t => f t / g t) t ((a * g t - f t * b) / (g t * g t)).
Proof.
  intros G F D. apply (d_eq _ t (a * / g t + f t * (- b / (g t) ^ 2))).
  - apply (d_mult f (fun s => / g s)); auto. apply d_inv; auto.
  - field. auto.
Qed.
Lemma d_atan2 (X Y : R -> R) t dX dY : is_derive X t dX -> is_derive Y t dY -> 0 < X t * X t + Y t * Y t -> atan2 (Y t) (X t) <> PI ->
  is_derive (fun s => atan2 (Y s) (X s)) t ((X t * dY - Y t * dX) / (X t * X t + Y t * Y t)).
Proof.
  intros HX HY P NP. set (l := atan2 (Y t) (X t)) in *. assert (Rg := atan2_range (Y t) (X t)). fold l in Rg.
  assert (Po := atan2_polar (Y t) (X t)). fold l in Po. set (q := sqrt (X t * X t + Y t * Y t)) in *.
  assert (q0 : 0 < q) by (apply sqrt_lt_R0; auto). assert (qq : q * q = X t * X t + Y t * Y t) by (apply sqrt_sqrt; lra).
  set (U := fun s => X s * cos l + Y s * sin l). set (V := fun s => Y s * cos l - X s * sin l).
  assert (T := sin2_cos2' l).
  assert (dU : is_derive U t (dX * cos l + dY * sin l)). { unfold U. eapply d_eq. der. cbn. ring. }
  assert (dV : is_derive V t (dY * cos l - dX * sin l)). { unfold V. eapply d_eq. der. cbn. ring. }
  assert (U0 : U t = q). { unfold U. destruct Po as (-> & ->). replace (q * cos l * cos l + q * sin l * sin l) with (q * (cos l * cos l + sin l * sin l)) by ring. replace (cos l * cos l + sin l * sin l) with 1 by lra. ring. }
  assert (V0 : V t = 0). { unfold V. destruct Po as (-> & ->). ring. }
  set (G := fun s => l + atan (V s / U s)).
  assert (dG : is_derive G t ((X t * dY - Y t * dX) / (X t * X t + Y t * Y t))).
  { unfold G. eapply d_eq. { apply d_plus; [apply d_const|]. apply d_atan. apply d_div; [rewrite U0; lra|exact dV|exact dU]. }
    cbv beta. rewrite U0, V0, <- qq. replace (X t) with (q * cos l) by lra. replace (Y t) with (q * sin l) by lra. field. lra. }
  assert (G0 : G t = l) by (unfold G; rewrite V0; unfold Rdiv; rewrite Rmult_0_l, atan_0; ring).
  apply (is_derive_ext_loc G); auto.
  assert (L1 := near_gt U t 0 (d_cont _ _ _ dU) ltac:(lra)). assert (L2 := near_gt G t (- PI) (d_cont _ _ _ dG) ltac:(lra)).
  assert (L3 := near_lt G t PI (d_cont _ _ _ dG) ltac:(lra)).
  generalize (filter_and _ _ L1 (filter_and _ _ L2 L3)). apply filter_imp. intros s (A & B & C).
  symmetry. set (m := sqrt (U s * U s + V s * V s)).
  assert (M0 : 0 < m) by (apply sqrt_lt_R0; nra).
  assert (At : m * cos (atan (V s / U s)) = U s /\ m * sin (atan (V s / U s)) = V s).
  { assert (K := atan2_polar (V s) (U s)). fold m in K. unfold atan2 in K. destruct (nlt_spec 0 (U s)); [|lra]. lra. }
  replace (X s) with (m * cos (G s)). replace (Y s) with (m * sin (G s)). { apply atan2_unique; auto; lra. }
  - unfold G. rewrite sin_plus. replace (m * (sin l * cos (atan (V s / U s)) + cos l * sin (atan (V s / U s)))) with (sin l * (m * cos (atan (V s / U s))) + cos l * (m * sin (atan (V s / U s)))) by ring.
    destruct At as (-> & ->). unfold U, V. replace (_ + _) with (Y s * (sin l * sin l + cos l * cos l)) by ring. replace (_ + _) with 1 by lra. ring.
  - unfold G. rewrite cos_plus. replace (m * (cos l * cos (atan (V s / U s)) - sin l * sin (atan (V s / U s)))) with (cos l * (m * cos (atan (V s / U s))) - sin l * (m * sin (atan (V s / U s)))) by ring.
    destruct At as (-> & ->). unfold U, V. replace (_ - _) with (X s * (sin l * sin l + cos l * cos l)) by ring. replace (_ + _) with 1 by lra. ring.
Qed.

(** * Spherical coordinates in the rotating frame *)
Definition turning (n : R) (X Y Z U V W : R -> R) : Prop := forall t,
  let r := sqrt (X t * X t + Y t * Y t + Z t * Z t) in let k := mu_earth / (r * r * r) in
  is_derive X t (U t + n * Y t) /\ is_derive Y t (V t - n * X t) /\ is_derive Z t (W t) /\
  is_derive U t (- k * X t + n * V t) /\ is_derive V t (- k * Y t - n * U t) /\ is_derive W t (- k * Z t).
Lemma alg_r S H Z W p r k : 0 < p -> 0 < r -> r * r = p * p + Z * Z ->
  (((S * S + H * H) / (p * p) - k * (p * p) + (W * W + Z * (- k * Z))) * r - (S + Z * W) * ((S + Z * W) / r)) / (r * r) =
  r * ((p * W - Z * S / p) / (r * r) * ((p * W - Z * S / p) / (r * r))) + (H / (p * p) - 0) * (H / (p * p) - 0) * (p * p) / r - k * (r * r * r) / (r * r).
Proof.
  intros P0 R0 E. assert (K : W * W = ((S + Z * W) * (S + Z * W) + (p * W - Z * S / p) * (p * W - Z * S / p)) / (r * r) - S * S / (p * p)). { rewrite E. field. nra. }
  replace (- k * (p * p)) with (- k * (p * p)) by ring.
  replace ((S * S + H * H) / (p * p) - k * (p * p) + (W * W + Z * (- k * Z))) with (S * S / (p * p) + H * H / (p * p) + W * W - k * (p * p + Z * Z)) by (field; lra).
  rewrite <- E. rewrite K at 1. field. lra.
Qed.
Lemma alg_l S H Z W p r : 0 < p -> 0 < r -> r * r = p * p + Z * Z ->
  (0 * (p * p) - H * (2 * S)) / (p * p * (p * p)) - 0 = - 2 * (H / (p * p)) * ((S + Z * W) / r / r - Z / p * ((p * W - Z * S / p) / (r * r))).
Proof.
  intros P0 R0 E. replace ((S + Z * W) / r / r) with ((S + Z * W) / (r * r)) by (field; lra). rewrite E. field. nra.
Qed.
Lemma alg_f S H Z W p r k : 0 < p -> 0 < r -> r * r = p * p + Z * Z ->
  let q := p * W - Z * S / p in
  ((S / p * W + p * (- k * Z) - ((W * S + Z * ((S * S + H * H) / (p * p) - k * (p * p))) * p - Z * S * (S / p)) / (p * p)) * (r * r) - q * ((S + Z * W) / r * r + r * ((S + Z * W) / r))) / (r * r * (r * r)) =
  - 2 * ((S + Z * W) / r / r) * (q / (r * r)) - H / (p * p) * (H / (p * p)) * (p * Z) / (r * r).
Proof. intros P0 R0 E q. field. lra. Qed.

Lemma spherical_rates n X Y Z U V W : turning n X Y Z U V W -> forall t, 0 < X t * X t + Y t * Y t ->
  let P := fun s => X s * X s + Y s * Y s in let p := fun s => sqrt (P s) in let r := fun s => sqrt (P s + Z s * Z s) in
  let S := fun s => X s * U s + Y s * V s in let H := fun s => X s * V s - Y s * U s in
  let vr := fun s => (S s + Z s * W s) / r s in let vl := fun s => H s / P s - n in
  let vf := fun s => (p s * W s - Z s * S s / p s) / (r s * r s) in
  is_derive r t (vr t) /\ is_derive (fun s => atan (Z s / p s)) t (vf t) /\
  (atan2 (Y t) (X t) <> PI -> is_derive (fun s => atan2 (Y s) (X s)) t (vl t)) /\
  is_derive vr t (r t * (vf t * vf t) + (vl t + n) * (vl t + n) * (P t) / r t - mu_earth / (r t * r t)) /\
  is_derive vl t (- 2 * (vl t + n) * (vr t / r t - Z t / p t * vf t)) /\
  is_derive vf t (- 2 * (vr t / r t) * vf t - (vl t + n) * (vl t + n) * (p t * Z t) / (r t * r t)).
Proof.
  intros Tu t P0 P p r S H vr vl vf. destruct (Tu t) as (dX & dY & dZ & dU & dV & dW). clear Tu.
  fold (P t) in dU, dV, dW, P0. fold (r t) in dU, dV, dW. set (k := mu_earth / (r t * r t * r t)) in *.
  assert (Zs := Rle_0_sqr (Z t)). unfold Rsqr in Zs.
  assert (p0 : 0 < p t) by (apply sqrt_lt_R0; auto). assert (pp : p t * p t = P t) by (apply sqrt_sqrt; lra).
  assert (r0 : 0 < r t) by (apply sqrt_lt_R0; lra). assert (rr : r t * r t = P t + Z t * Z t) by (apply sqrt_sqrt; lra).
  assert (dP : is_derive P t (2 * S t)). { unfold P. eapply d_eq. der. unfold S. cbn. ring. }
  assert (Lag : U t * U t + V t * V t = (S t * S t + H t * H t) / (p t * p t)). { rewrite pp. unfold S, H, P. field. fold (P t). lra. }
  assert (dS : is_derive S t ((S t * S t + H t * H t) / (p t * p t) - k * (p t * p t))). { rewrite <- Lag, pp. unfold S. eapply d_eq. der. cbv beta. unfold P. ring. }
  assert (dH : is_derive H t 0). { unfold H. eapply d_eq. der. cbv beta. ring. }
  assert (dp : is_derive p t (S t / p t)). { unfold p. eapply d_eq. apply d_sqrt; [exact P0|exact dP]. fold (p t). field. lra. }
  assert (dr : is_derive r t (vr t)).
  { unfold r. eapply d_eq. { apply d_sqrt; [cbv beta; lra|]. apply d_plus; [exact dP|]. apply d_mult; exact dZ. } cbv beta. fold (r t). unfold vr. field. lra. }
  assert (Ek : mu_earth = k * (r t * r t * r t)) by (unfold k; field; lra). clearbody k. split; [exact dr|]. split; [|split; [|split; [|split]]].
  - eapply d_eq. { apply d_atan. apply d_div; [lra|exact dZ|exact dp]. } cbv beta. unfold vf. rewrite rr, <- pp. field. split; [lra|]. nra.
  - intros NP. eapply d_eq. { apply (d_atan2 X Y t); eauto. } unfold vl, H. unfold P in *. field. lra.
  - eapply d_eq. { unfold vr. apply d_div; [lra| |exact dr]. apply d_plus; [exact dS|apply d_mult; [exact dZ|exact dW]]. } cbv beta.
    unfold vl, vf, vr. rewrite Ek, <- pp. rewrite alg_r; auto; [|lra]. field. lra.
  - eapply d_eq. { unfold vl. apply d_minus; [|apply d_const]. apply d_div; [lra|exact dH|exact dP]. } cbv beta.
    unfold vl, vr, vf. rewrite <- pp. rewrite alg_l with (W := W t) (Z := Z t) (r := r t); auto; [|lra]. field. lra.
  - eapply d_eq. { unfold vf. apply d_div; [nra| |apply d_mult; exact dr]. apply d_minus; [apply d_mult; [exact dp|exact dW]|]. apply d_div; [lra| |exact dp]. apply d_mult; [exact dZ|exact dS]. } cbv beta.
    unfold vl, vr, vf. rewrite <- pp. rewrite alg_f; auto; [|lra]. field. lra.
Qed.

(** * Departure from the linear equations *)
Lemma abs_mul a b A B : Rabs a <= A -> Rabs b <= B -> Rabs (a * b) <= A * B.
Proof. intros. rewrite Rabs_mult. apply Rmult_le_compat; auto using Rabs_pos. Qed.
Lemma abs_add a b A B : Rabs a <= A -> Rabs b <= B -> Rabs (a + b) <= A + B.
Proof. intros. apply Rle_trans with (1 := Rabs_triang a b). lra. Qed.
Lemma abs_sub a b A B : Rabs a <= A -> Rabs b <= B -> Rabs (a - b) <= A + B.
Proof. intros. unfold Rminus. apply abs_add; auto. rewrite Rabs_Ropp. auto. Qed.
Lemma cw_error n G1 G2 G3 T (x y z vx vy vz gx gy gz : R -> R) : 0 < n ->
  (forall t, Rmin 0 T <= t <= Rmax 0 T ->
    is_derive x t (vx t) /\ is_derive y t (vy t) /\ is_derive z t (vz t) /\
    is_derive vx t (3 * n ^ 2 * x t + 2 * n * vy t + gx t) /\ is_derive vy t (- 2 * n * vx t + gy t) /\ is_derive vz t (- n ^ 2 * z t + gz t) /\
    Rabs (gx t) <= G1 /\ Rabs (gy t) <= G2 /\ Rabs (gz t) <= G3) ->
  let m := motion n (V6 (x 0) (y 0) (z 0) (vx 0) (vy 0) (vz 0)) T in
  Rabs (x6 m - x T) <= (G1 + 4 * G2) / n * Rabs T /\ Rabs (y6 m - y T) <= (4 * G1 + (4 + 3 * n * Rabs T) * G2) / n * Rabs T /\
  Rabs (z6 m - z T) <= G3 / n * Rabs T /\
  Rabs (vx6 m - vx T) <= (G1 + 2 * G2) * Rabs T /\ Rabs (vy6 m - vy T) <= (2 * G1 + 7 * G2) * Rabs T /\ Rabs (vz6 m - vz T) <= G3 * Rabs T.
Proof.
  intros N H m.
  assert (M : forall F dF B, (forall t, Rmin 0 T <= t <= Rmax 0 T -> is_derive F t (dF t) /\ Rabs (dF t) <= B) -> Rabs (F 0 - F T) <= B * Rabs T).
  { intros F dF B K. destruct (MVT_gen F 0 T dF) as (c & Hc & E).
    - intros t Ht. apply K. lra.
    - intros t Ht. apply continuity_pt_filterlim. apply (d_cont F t (dF t)). apply K. auto.
    - rewrite Rabs_minus_sym, E, Rminus_0_r, Rabs_mult. apply Rmult_le_compat_r; [apply Rabs_pos|]. apply K; auto. }
  assert (N1 : Rabs (/ n) <= / n) by (apply Req_le, Rabs_right; apply Rle_ge, Rlt_le, Rinv_0_lt_compat; auto).
  assert (Sb : forall u, Rabs (sin u) <= 1) by (intros u; apply Rabs_le; generalize (cos_sin_range u); lra).
  assert (Cb : forall u, Rabs (cos u) <= 1) by (intros u; apply Rabs_le; generalize (cos_sin_range u); lra).
  assert (C1 : forall u, Rabs (1 - cos u) <= 2) by (intros u; apply Rabs_le; generalize (cos_sin_range u); lra).
  assert (C4 : forall u, Rabs (4 * cos u - 3) <= 7) by (intros u; apply Rabs_le; generalize (cos_sin_range u); lra).
  assert (A2 : Rabs 2 <= 2) by (apply Req_le, Rabs_right; lra).
  assert (A4 : Rabs 4 <= 4) by (apply Req_le, Rabs_right; lra).
  assert (A3 : Rabs 3 <= 3) by (apply Req_le, Rabs_right; lra).
  assert (An : Rabs n <= n) by (apply Req_le, Rabs_right; lra).
  assert (Tb : forall t, Rmin 0 T <= t <= Rmax 0 T -> Rabs (T - t) <= Rabs T).
  { intros t Ht. unfold Rmin, Rmax in Ht. destruct (Rle_dec 0 T). rewrite !Rabs_right; lra. rewrite !Rabs_left1; lra. }
  set (f := fun t => motion n (V6 (x t) (y t) (z t) (vx t) (vy t) (vz t)) (T - t)).
  assert (f0 : f 0 = m) by (unfold f, m; rewrite Rminus_0_r; reflexivity).
  assert (f1 : f T = V6 (x T) (y T) (z T) (vx T) (vy T) (vz T)). { unfold f. rewrite Rminus_diag_eq by reflexivity. apply motion_zero. lra. }
  assert (dL : forall t, is_derive (fun t => n * (T - t)) t (- n)) . { intros t. eapply d_eq; [apply (d_mult (fun _ => n) (fun t => T - t)); [apply d_const|apply (d_minus (fun _ => T) (fun t => t)); [apply d_const|apply d_id]]|cbv beta; ring]. }
  assert (dS : forall t, is_derive (fun t => sin (n * (T - t))) t (- n * cos (n * (T - t)))) by (intros; eapply d_eq; [apply (d_sin (fun t => n * (T - t))); apply dL|cbv beta; ring]).
  assert (dC : forall t, is_derive (fun t => cos (n * (T - t))) t (n * sin (n * (T - t)))) by (intros; eapply d_eq; [apply (d_cos (fun t => n * (T - t))); apply dL|cbv beta; ring]).
  assert (dDn : forall (g : R -> R) t b, is_derive g t b -> is_derive (fun t => g t / n) t (b / n)).
  { intros g t b D. unfold Rdiv. eapply d_eq. apply d_mult; [exact D|apply d_const]. cbv beta. ring. }
  replace (x T) with (x6 (f T)) by (rewrite f1; reflexivity). replace (y T) with (y6 (f T)) by (rewrite f1; reflexivity).
  replace (z T) with (z6 (f T)) by (rewrite f1; reflexivity). replace (vx T) with (vx6 (f T)) by (rewrite f1; reflexivity).
  replace (vy T) with (vy6 (f T)) by (rewrite f1; reflexivity). replace (vz T) with (vz6 (f T)) by (rewrite f1; reflexivity).
  rewrite <- f0. clearbody m. clear f0 f1. unfold f. unfold motion. cbn [x6 y6 z6 vx6 vy6 vz6]. clear f.
  split; [|split; [|split; [|split; [|split]]]].
  - apply (M (fun t => (4 - 3 * cos (n * (T - t))) * x t + sin (n * (T - t)) / n * vx t + 2 * (1 - cos (n * (T - t))) / n * vy t)
      (fun t => / n * (sin (n * (T - t)) * gx t + 2 * (1 - cos (n * (T - t))) * gy t))).
    intros t Ht. destruct (H t Ht) as (dx & dy & dz & dvx & dvy & dvz & b1 & b2 & b3). specialize (dS t). specialize (dC t). split.
    + unfold Rdiv. eapply d_eq. der. cbv beta. field. lra.
    + replace ((G1 + 4 * G2) / n) with (/ n * (1 * G1 + 2 * 2 * G2)) by (field; lra). apply abs_mul; auto. apply abs_add; apply abs_mul; auto. apply abs_mul; auto.
  - assert (Y0 : forall t, 6 * (sin (n * (T - t)) - n * (T - t)) * x t + y t - 2 * (1 - cos (n * (T - t))) / n * vx t + (4 * sin (n * (T - t)) - 3 * n * (T - t)) / n * vy t
       = 6 * (sin (n * (T - t)) - n * (T - t)) * x t + y t - 2 * (1 - cos (n * (T - t))) / n * vx t + (4 * sin (n * (T - t)) - 3 * (n * (T - t))) / n * vy t) by (intros; field; lra).
    rewrite (Y0 0), (Y0 T).
    apply (M (fun t => 6 * (sin (n * (T - t)) - n * (T - t)) * x t + y t - 2 * (1 - cos (n * (T - t))) / n * vx t + (4 * sin (n * (T - t)) - 3 * (n * (T - t))) / n * vy t)
      (fun t => / n * ((4 * sin (n * (T - t)) - 3 * (n * (T - t))) * gy t - 2 * (1 - cos (n * (T - t))) * gx t))).
    intros t Ht. destruct (H t Ht) as (dx & dy & dz & dvx & dvy & dvz & b1 & b2 & b3). specialize (dS t). specialize (dC t). specialize (dL t). split.
    + unfold Rdiv. eapply d_eq. { set (L := fun t => n * (T - t)) in *. change (is_derive (fun t => 6 * (sin (L t) - L t) * x t + y t - 2 * (1 - cos (L t)) * / n * vx t + (4 * sin (L t) - 3 * L t) * / n * vy t) t ?e) || idtac.
        apply d_plus; [apply d_minus; [apply d_plus; [apply d_mult; [apply d_mult; [apply d_const|apply d_minus; [exact dS|exact dL]]|exact dx]|exact dy]|]|].
        * apply d_mult; [|exact dvx]. apply d_mult; [|apply d_const]. apply d_mult; [apply d_const|]. apply d_minus; [apply d_const|exact dC].
        * apply d_mult; [|exact dvy]. apply d_mult; [|apply d_const]. apply d_minus; [apply d_mult; [apply d_const|exact dS]|]. apply d_mult; [apply d_const|exact dL]. }
      cbv beta. field. lra.
    + replace ((4 * G1 + (4 + 3 * n * Rabs T) * G2) / n) with (/ n * ((4 * 1 + 3 * (n * Rabs T)) * G2 + 2 * 2 * G1)) by (field; lra).
      apply abs_mul; auto. apply abs_sub; apply abs_mul; auto. apply abs_sub; apply abs_mul; auto. apply abs_mul; auto. apply abs_mul; auto.
  - apply (M (fun t => cos (n * (T - t)) * z t + sin (n * (T - t)) / n * vz t) (fun t => / n * (sin (n * (T - t)) * gz t))).
    intros t Ht. destruct (H t Ht) as (dx & dy & dz & dvx & dvy & dvz & b1 & b2 & b3). specialize (dS t). specialize (dC t). split.
    + unfold Rdiv. eapply d_eq. der. cbv beta. field. lra.
    + replace (G3 / n) with (/ n * (1 * G3)) by (field; lra). apply abs_mul; auto. apply abs_mul; auto.
  - apply (M (fun t => 3 * n * sin (n * (T - t)) * x t + cos (n * (T - t)) * vx t + 2 * sin (n * (T - t)) * vy t) (fun t => cos (n * (T - t)) * gx t + 2 * sin (n * (T - t)) * gy t)).
    intros t Ht. destruct (H t Ht) as (dx & dy & dz & dvx & dvy & dvz & b1 & b2 & b3). specialize (dS t). specialize (dC t). split.
    + eapply d_eq. der. cbv beta. ring.
    + replace (G1 + 2 * G2) with (1 * G1 + 2 * 1 * G2) by ring. apply abs_add; apply abs_mul; auto. apply abs_mul; auto.
  - apply (M (fun t => - 6 * n * (1 - cos (n * (T - t))) * x t - 2 * sin (n * (T - t)) * vx t + (4 * cos (n * (T - t)) - 3) * vy t) (fun t => (4 * cos (n * (T - t)) - 3) * gy t - 2 * sin (n * (T - t)) * gx t)).
    intros t Ht. destruct (H t Ht) as (dx & dy & dz & dvx & dvy & dvz & b1 & b2 & b3). specialize (dS t). specialize (dC t). split.
    + eapply d_eq. der. cbv beta. ring.
    + replace (2 * G1 + 7 * G2) with (7 * G2 + 2 * 1 * G1) by ring. apply abs_sub; apply abs_mul; auto. apply abs_mul; auto.
  - apply (M (fun t => - n * sin (n * (T - t)) * z t + cos (n * (T - t)) * vz t) (fun t => cos (n * (T - t)) * gz t)).
    intros t Ht. destruct (H t Ht) as (dx & dy & dz & dvx & dvy & dvz & b1 & b2 & b3). specialize (dS t). specialize (dC t). split.
    + eapply d_eq. der. cbv beta. ring.
    + replace G3 with (1 * G3) by ring. apply abs_mul; auto.
Qed.

(** The residuals, with lengths in units of [a] and times in units of 1/n. *)
Lemma residual_x e xi l f s : e <= 1/10 -> Rabs xi <= e -> Rabs l <= e -> Rabs f <= e -> Rabs s <= e ->
  Rabs ((1 + xi) * (f * f) + (1 + l) * (1 + l) * (1 + xi) * (1 - s * s) - 1 / ((1 + xi) * (1 + xi)) - 3 * xi - 2 * l) <= 10 * (e * e).
Proof.
  intros E Hx Hl Hf Hs. assert (e0 := Rle_trans _ _ _ (Rabs_pos xi) Hx).
  assert (x0 : - (1/10) <= xi <= 1/10) by (apply Rabs_le_between; lra).
  assert (l0 : - (1/10) <= l <= 1/10) by (apply Rabs_le_between; lra).
  replace (_ - _ - _ - _) with ((1 + xi) * (f * f) + (1 + xi) * (l * l) + 2 * (xi * l) - (1 + l) * (1 + l) * (1 + xi) * (s * s) - (3 + 2 * xi) / ((1 + xi) * (1 + xi)) * (xi * xi)) by (field; lra).
  assert (P : forall u v, Rabs u <= e -> Rabs v <= e -> Rabs (u * v) <= e * e) by (intros; apply abs_mul; auto).
  assert (B1 : Rabs (1 + xi) <= 11/10) by (apply Rabs_le; lra). assert (B2 : Rabs (1 + l) <= 11/10) by (apply Rabs_le; lra).
  assert (B3 : Rabs ((3 + 2 * xi) / ((1 + xi) * (1 + xi))) <= 4).
  { rewrite Rabs_right by (apply Rle_ge, Rdiv_le_0_compat; nra). apply Rle_div_l; nra. }
  assert (A2 : Rabs 2 <= 2) by (apply Req_le, Rabs_right; lra).
  apply Rle_trans with (11/10 * (e * e) + 11/10 * (e * e) + 2 * (e * e) + 11/10 * (11/10) * (11/10) * (e * e) + 4 * (e * e)).
  - apply abs_sub; [apply abs_sub; [apply abs_add; [apply abs_add|]|]|]; repeat (apply abs_mul; auto).
  - assert (0 <= e * e) by nra. lra.
Qed.
Lemma residual_y e xi l f v tn : e <= 1/10 -> Rabs xi <= e -> Rabs l <= e -> Rabs f <= e -> Rabs v <= e -> Rabs tn <= 11/10 * e ->
  Rabs (- 2 * (1 + l) * (v / (1 + xi) - tn * f) + 2 * v) <= 7 * (e * e).
Proof.
  intros E Hx Hl Hf Hv Ht. assert (e0 := Rle_trans _ _ _ (Rabs_pos xi) Hx).
  assert (x0 : - (1/10) <= xi <= 1/10) by (apply Rabs_le_between; lra).
  assert (l0 : - (1/10) <= l <= 1/10) by (apply Rabs_le_between; lra).
  replace (_ + _) with (2 / (1 + xi) * (v * (xi - l)) + 2 * ((1 + l) * (tn * f))) by (field; lra).
  assert (A2 : Rabs 2 <= 2) by (apply Req_le, Rabs_right; lra).
  assert (B2 : Rabs (1 + l) <= 11/10) by (apply Rabs_le; lra).
  assert (B3 : Rabs (2 / (1 + xi)) <= 223/100). { rewrite Rabs_right by (apply Rle_ge, Rdiv_le_0_compat; lra). apply Rle_div_l; lra. }
  apply Rle_trans with (223/100 * (e * (e + e)) + 2 * (11/10 * (11/10 * e * e))).
  - apply abs_add; apply abs_mul; auto; apply abs_mul; auto. apply abs_sub; auto. apply abs_mul; auto.
  - assert (0 <= e * e) by nra. lra.
Qed.
Lemma residual_z e xi l f v phi : e <= 1/10 -> Rabs xi <= e -> Rabs l <= e -> Rabs f <= e -> Rabs v <= e -> Rabs phi <= e ->
  Rabs (- 2 * (v / (1 + xi)) * f - (1 + l) * (1 + l) * (cos phi * sin phi) + phi) <= 5 * (e * e).
Proof.
  intros E Hx Hl Hf Hv Hp. assert (e0 := Rle_trans _ _ _ (Rabs_pos xi) Hx).
  assert (x0 : - (1/10) <= xi <= 1/10) by (apply Rabs_le_between; lra).
  assert (l0 : - (1/10) <= l <= 1/10) by (apply Rabs_le_between; lra).
  assert (p0 : - (1/10) <= phi <= 1/10) by (apply Rabs_le_between; lra).
  replace (_ + _) with (- 2 / (1 + xi) * (v * f) - (2 + l) * l * (cos phi * sin phi) + (phi * (1 - cos phi) + cos phi * (phi - sin phi))) by (field; lra).
  assert (B2 : Rabs (2 + l) <= 21/10) by (apply Rabs_le; lra).
  assert (B3 : Rabs (- 2 / (1 + xi)) <= 223/100). { replace (- 2 / (1 + xi)) with (- (2 / (1 + xi))) by (field; lra). rewrite Rabs_Ropp, Rabs_right by (apply Rle_ge, Rdiv_le_0_compat; lra). apply Rle_div_l; lra. }
  assert (Cb : Rabs (cos phi) <= 1) by (apply Rabs_le; generalize (cos_sin_range phi); lra).
  assert (Sb : Rabs (sin phi) <= e). { assert (L := sin_lip phi 0). rewrite sin_0, !Rminus_0_r in L. lra. }
  assert (pp : phi * phi <= e * e). { rewrite <- (Rabs_pos_eq (phi * phi)) by nra. apply abs_mul; auto. }
  assert (C1 : Rabs (1 - cos phi) <= 1/2 * (e * e)). { assert (L := cos_lower phi). apply Rabs_le. generalize (cos_sin_range phi). lra. }
  assert (S1 : Rabs (phi - sin phi) <= 1/2 * (e * e)). { assert (L := sin_taylor1 0 phi). rewrite Rplus_0_l, sin_0, cos_0 in L. rewrite Rabs_minus_sym. replace (sin phi - phi) with (sin phi - 0 - phi * 1) by ring. lra. }
  apply Rle_trans with (223/100 * (e * e) + 21/10 * e * (1 * e) + (e * (1/2 * (e * e)) + 1 * (1/2 * (e * e)))).
  - apply abs_add; [apply abs_sub|apply abs_add]; apply abs_mul; auto; apply abs_mul; auto.
  - assert (0 <= e * e) by nra. assert (e * (e * e) <= 1/10 * (e * e)) by (apply Rmult_le_compat_r; lra). lra.
Qed.

(** * A circular orbit *)
Lemma dot_scale_r k a b : dot a (scale k b) = k * dot a b.
Proof. unfold dot, scale; cbn; ring. Qed.
Lemma dot_scale_l k a b : dot (scale k a) b = k * dot a b.
Proof. unfold dot, scale; cbn; ring. Qed.
Lemma circular_orbit r v a n : unperturbed_motion r v -> (forall t, norm (r t) = a) -> 0 < n -> n ^ 2 * a ^ 3 = mu_earth -> forall t,
  0 < a /\ dot (r t) (v t) = 0 /\ dot (v t) (v t) = (n * a) * (n * a) /\ rate_of r t (v t) /\ rate_of v t (scale (- n ^ 2) (r t)).
Proof.
  intros M C N E t. assert (a0 : forall u, 0 < a) by (intros u; rewrite <- (C u); apply norm_pos, (motion_off r v u M)). specialize (a0 0).
  assert (K : mu_earth / (a * a * a) = n ^ 2) by (rewrite <- E; field; lra).
  assert (Rt : forall u, rate_of r u (v u) /\ rate_of v u (scale (- n ^ 2) (r u))).
  { intros u. destruct (motion_rates r v u M) as (A & B). rewrite C, K in B. split; auto. }
  assert (D0 : forall u, dot (r u) (v u) = 0).
  { intros u. destruct (Rt u) as (A & _). assert (D := dot_rate r r u _ _ A A).
    assert (D' : is_derive (fun t => dot (r t) (r t)) u 0). { apply (d_ext (fun _ => a * a)); [intros x; rewrite <- (C x); apply norm_sq|apply d_const]. }
    assert (Q := is_derive_unique _ _ _ D). rewrite (is_derive_unique _ _ _ D') in Q. unfold dot in *. lra. }
  destruct (Rt t) as (A & B). split; [lra|]. split; [apply D0|]. split; [|split; auto].
  assert (D := dot_rate r v t _ _ A B). assert (D' : is_derive (fun t => dot (r t) (v t)) t 0) by (apply (d_ext (fun _ => 0)); [intros x; symmetry; apply D0|apply d_const]).
  assert (Q := is_derive_unique _ _ _ D). rewrite (is_derive_unique _ _ _ D') in Q. rewrite dot_scale_r, <- (norm_sq (r t)), C in Q. nra.
Qed.

Definition e1 (a : R) (r v : vec3) : vec3 := scale (/ a) r.
Definition e2 (n a : R) (r v : vec3) : vec3 := scale (/ (n * a)) v.
Definition e3 (n a : R) (r v : vec3) : vec3 := scale (/ (n * (a * a))) (cross r v).
Lemma norm_of u k : 0 <= k -> dot u u = k * k -> norm u = k.
Proof. intros K E. unfold norm. rewrite E. apply sqrt_square; auto. Qed.
Lemma lagrange_dot r v : dot (cross r v) (cross r v) = dot r r * dot v v - dot r v * dot r v.
Proof. unfold dot, cross; cbn; ring. Qed.
Lemma circular_frame e r v a n : 0 < n -> 0 < a -> norm r = a -> dot r v = 0 -> dot v v = (n * a) * (n * a) ->
  ~ radial_orbit (GCRF e r v) /\ frame (GCRF e r v) = M3 (e1 a r v) (e2 n a r v) (e3 n a r v) /\ norm (cross r v) = n * (a * a).
Proof.
  intros N A R D V. assert (Na : 0 < n * (a * a)) by (apply Rmult_lt_0_compat; nra). assert (R2 := norm_sq r). rewrite R in R2.
  assert (L : norm (cross r v) = n * (a * a)) by (apply norm_of; [lra|]; rewrite lagrange_dot, D, V, <- R2; ring).
  split; [|split; [|auto]].
  - unfold radial_orbit. cbn [g_position g_velocity GCRF]. intros Z. rewrite Z in L. unfold norm, dot, zero3 in L; cbn in L. replace (0 * 0 + 0 * 0 + 0 * 0) with 0 in L by ring. rewrite sqrt_0 in L. lra.
  - unfold frame. cbn [g_position g_velocity GCRF]. rewrite R, L. unfold e1, e2, e3. f_equal.
    transitivity (scale (/ (n * (a * a)) * / a) (cross (cross r v) r)); [veq; ring|].
    transitivity (scale (/ (n * (a * a)) * / a) (sub (scale (dot r r) v) (scale (dot r v) r))).
    { f_equal. unfold cross, sub, scale, dot. apply vec3_eq; cbn [x3 y3 z3]; ring. }
    rewrite D, <- R2. unfold sub, scale. apply vec3_eq; cbn [x3 y3 z3]; field; lra.
Qed.
Lemma circular_turning ro vo rc vc a n : unperturbed_motion ro vo -> (forall t, norm (ro t) = a) -> 0 < n -> n ^ 2 * a ^ 3 = mu_earth -> unperturbed_motion rc vc ->
  turning n (fun t => dot (e1 a (ro t) (vo t)) (rc t)) (fun t => dot (e2 n a (ro t) (vo t)) (rc t)) (fun t => dot (e3 n a (ro t) (vo t)) (rc t))
            (fun t => dot (e1 a (ro t) (vo t)) (vc t)) (fun t => dot (e2 n a (ro t) (vo t)) (vc t)) (fun t => dot (e3 n a (ro t) (vo t)) (vc t)).
Proof.
  intros Mo C N E Mc t. cbv zeta. destruct (circular_orbit ro vo a n Mo C N E t) as (A & D & V & Dr & Dv).
  destruct (motion_rates rc vc t Mc) as (Cr & Cv).
  destruct (circular_frame (Epoch 0) (ro t) (vo t) a n N A (C t) D V) as (NR & F & _).
  assert (Fr := frame_rotation _ NR). rewrite F in Fr. assert (Rn := rotation_norm _ (rc t) Fr).
  replace (sqrt _) with (norm (rc t)).
  set (k := mu_earth / (norm (rc t) * norm (rc t) * norm (rc t))) in *. clearbody k.
  assert (d1 : rate_of (fun t => e1 a (ro t) (vo t)) t (scale n (e2 n a (ro t) (vo t)))).
  { destruct Dr as (X1 & X2 & X3). unfold e1, e2, scale; split; [|split]; cbn [x3 y3 z3]; (eapply d_eq; [der|cbv beta; field; lra]). }
  assert (d2 : rate_of (fun t => e2 n a (ro t) (vo t)) t (scale (- n) (e1 a (ro t) (vo t)))).
  { destruct Dv as (X1 & X2 & X3). unfold e1, e2, scale in *; cbn [x3 y3 z3] in *; split; [|split]; cbn [x3 y3 z3]; (eapply d_eq; [der|cbv beta; field; lra]). }
  assert (d3 : rate_of (fun t => e3 n a (ro t) (vo t)) t zero3).
  { assert (K := momentum_kept ro vo Mo). unfold momentum in K. unfold e3. unfold rate_of. unfold scale; cbn [x3 y3 z3].
    split; [|split]; cbn [zero3 x3 y3 z3];
    [apply (d_ext (fun _ => / (n * (a * a)) * x3 (cross (ro 0) (vo 0))))|apply (d_ext (fun _ => / (n * (a * a)) * y3 (cross (ro 0) (vo 0))))|apply (d_ext (fun _ => / (n * (a * a)) * z3 (cross (ro 0) (vo 0))))];
    try (intros u; rewrite (K u); reflexivity); apply d_const. }
  split; [|split; [|split; [|split; [|split]]]]; (eapply d_eq; [apply dot_rate; eauto|]); rewrite ?dot_scale_l, ?dot_scale_r; try ring; unfold zero3, dot; cbn [x3 y3 z3]; ring.
Qed.

(** * What to_hcw returns, in spherical coordinates of the frame of the origin *)
Lemma hcw_general e e' ro vo rc vc w : ~ radial_orbit (GCRF e ro vo) -> gcrf_to_hcw (GCRF e ro vo) (GCRF e' rc vc) = Ok w ->
  let M := frame (GCRF e ro vo) in let R := norm ro in
  let X := dot (m3_row1 M) rc in let Y := dot (m3_row2 M) rc in let Z := dot (m3_row3 M) rc in
  let U := dot (m3_row1 M) vc in let V := dot (m3_row2 M) vc in let W := dot (m3_row3 M) vc in
  let P := X * X + Y * Y in let p := sqrt P in let r := sqrt (P + Z * Z) in
  0 < P /\ state_vector w = V6 (r - R) (R * atan2 Y X) (R * atan (Z / p))
     ((X * U + Y * V + Z * W) / r - dot ro vo / R) (R * ((X * V - Y * U) / P - norm (cross ro vo) / (R * R))) (R * ((p * W - Z * (X * U + Y * V) / p) / (r * r))).
Proof.
  intros NR H. cbv zeta. assert (R0 := norm_pos _ (nonradial_pos _ NR)). cbn [g_position GCRF] in R0.
  set (M := frame (GCRF e ro vo)) in *. set (R := norm ro) in *.
  set (X := dot (m3_row1 M) rc). set (Y := dot (m3_row2 M) rc). set (Z := dot (m3_row3 M) rc).
  set (U := dot (m3_row1 M) vc). set (V := dot (m3_row2 M) vc). set (W := dot (m3_row3 M) vc).
  assert (Aw : apply3 M rc = V3 X Y Z) by reflexivity.
  assert (Av : apply3 M vc = V3 U V W) by reflexivity.
  assert (Au := frame_velocity _ NR). cbn [g_position g_velocity GCRF] in Au. fold M R in Au.
  assert (O : X <> 0 \/ Y <> 0).
  { destruct (Req_dec X 0) as [X0|X0]; auto. destruct (Req_dec Y 0) as [Y0|Y0]; auto. exfalso.
    assert (Q := gcrf_to_hcw_axis (GCRF e ro vo) (GCRF e' rc vc) NR). cbv zeta in Q. cbn [g_position GCRF] in Q. fold M in Q. rewrite Aw in Q. rewrite Q in H; auto. discriminate. }
  assert (P0 : 0 < X * X + Y * Y) by (destruct O; nra). split; auto.
  assert (Q := gcrf_to_hcw_ok (GCRF e ro vo) (GCRF e' rc vc) NR). cbv zeta in Q. cbn [g_position g_velocity g_epoch GCRF] in Q. fold M R in Q. rewrite Aw, Av, Au in Q.
  cbn [x3 y3 z3] in Q. rewrite H in Q by auto. clear H. specialize (Q O). injection Q as ->.
  assert (Nr : norm rc = sqrt (X * X + Y * Y + Z * Z)).
  { rewrite <- (rotation_norm M rc) by (apply frame_rotation; auto). rewrite Aw. reflexivity. }
  rewrite Nr. set (r := sqrt (X * X + Y * Y + Z * Z)). set (p := sqrt (X * X + Y * Y)).
  assert (Zs := Rle_0_sqr Z). unfold Rsqr in Zs.
  assert (p0 : 0 < p) by (apply sqrt_lt_R0; auto). assert (pp : p * p = X * X + Y * Y) by (apply sqrt_sqrt; lra).
  assert (r0 : 0 < r) by (apply sqrt_lt_R0; lra). assert (rr : r * r = X * X + Y * Y + Z * Z) by (apply sqrt_sqrt; lra).
  assert (Po := atan2_polar Y X). fold p in Po. set (l := atan2 Y X) in *.
  destruct (lat_lon (V3 X Y Z) O) as (_ & B1 & B2 & B3 & B4). cbn [x3 y3 z3] in B1, B2, B3, B4. 
  change (norm (V3 X Y Z)) with r in B1, B2, B3, B4. fold l in B4. set (f := asin (Z / r)) in *.
  assert (Cf : cos f = p / r).
  { assert (T := sin2_cos2' f). rewrite B2 in T. apply Rsqr_inj; [lra|apply Rlt_le, Rdiv_lt_0_compat; auto|]. unfold Rsqr.
    replace (p / r * (p / r)) with (p * p / (r * r)) by (field; lra). replace (Z / r * (Z / r)) with (Z * Z / (r * r)) in T by (field; lra).
    assert (Z * Z / (r * r) + p * p / (r * r) = 1) by (rewrite pp, rr; field; lra). lra. }
  assert (Fe : f = atan (Z / p)).
  { assert (Tf : tan f = Z / p) by (unfold tan; rewrite B2, Cf; field; lra). rewrite <- Tf. symmetry. apply atan_tan.
    assert (Bf := asin_bound (Z / r)). fold f in Bf. split.
    - destruct (Rle_lt_or_eq_dec (- (PI/2)) f) as [|Q']; [lra|lra|]. exfalso. rewrite <- Q', cos_neg, cos_PI2 in B3. lra.
    - destruct (Rle_lt_or_eq_dec f (PI/2)) as [|Q']; [lra|lra|]. exfalso. rewrite Q', cos_PI2 in B3. lra. }
  unfold state_vector, v6_from_position_and_velocity. cbn [s_position s_velocity x3 y3 z3].
  unfold apply3, rsw_sez_matrix, dot. cbn [m3_row1 m3_row2 m3_row3 x3 y3 z3].
  rewrite <- Fe. rewrite B2, Cf. assert (Cl : cos l = X / p) by (destruct Po as (Po & _); apply (Rmult_eq_reg_l p); [|lra]; rewrite <- Po; field; lra). assert (Sl : sin l = Y / p) by (destruct Po as (_ & Po); apply (Rmult_eq_reg_l p); [|lra]; rewrite <- Po; field; lra).
  rewrite Cl, Sl. rewrite <- pp. f_equal; field; repeat split; lra.
Qed.
Lemma hcw_coordinates e e' ro vo rc vc a n w : 0 < n -> 0 < a -> norm ro = a -> dot ro vo = 0 -> dot vo vo = (n * a) * (n * a) ->
  gcrf_to_hcw (GCRF e ro vo) (GCRF e' rc vc) = Ok w ->
  let X := dot (e1 a ro vo) rc in let Y := dot (e2 n a ro vo) rc in let Z := dot (e3 n a ro vo) rc in
  let U := dot (e1 a ro vo) vc in let V := dot (e2 n a ro vo) vc in let W := dot (e3 n a ro vo) vc in
  let P := X * X + Y * Y in let p := sqrt P in let r := sqrt (P + Z * Z) in
  0 < P /\ state_vector w = V6 (r - a) (a * atan2 Y X) (a * atan (Z / p))
     ((X * U + Y * V + Z * W) / r) (a * ((X * V - Y * U) / P - n)) (a * ((p * W - Z * (X * U + Y * V) / p) / (r * r))).
Proof.
  intros N A R D V0 H. cbv zeta. destruct (circular_frame e ro vo a n N A R D V0) as (NR & F & L).
  assert (K := hcw_general e e' ro vo rc vc w NR H). cbv zeta in K. rewrite F, R, D, L in K. cbn [m3_row1 m3_row2 m3_row3] in K.
  destruct K as (P0 & K). split; [exact P0|]. rewrite K. f_equal; [unfold Rdiv; ring|]. replace (n * (a * a) / (a * a)) with n by (field; lra). reflexivity.
Qed.

(** * The rate of change of the relative position *)
Lemma spherical_first X Y Z U V W w t : 0 < X t * X t + Y t * Y t ->
  is_derive X t (U + w * Y t) -> is_derive Y t (V - w * X t) -> is_derive Z t W ->
  let P := fun s => X s * X s + Y s * Y s in let p := fun s => sqrt (P s) in let r := fun s => sqrt (P s + Z s * Z s) in
  is_derive r t ((X t * U + Y t * V + Z t * W) / r t) /\ is_derive (fun s => atan (Z s / p s)) t ((p t * W - Z t * (X t * U + Y t * V) / p t) / (r t * r t)) /\
  (atan2 (Y t) (X t) <> PI -> is_derive (fun s => atan2 (Y s) (X s)) t ((X t * V - Y t * U) / P t - w)).
Proof.
  intros P0 dX dY dZ P p r. fold (P t) in P0. set (S := X t * U + Y t * V).
  assert (Zs := Rle_0_sqr (Z t)). unfold Rsqr in Zs.
  assert (p0 : 0 < p t) by (apply sqrt_lt_R0; auto). assert (pp : p t * p t = P t) by (apply sqrt_sqrt; lra).
  assert (r0 : 0 < r t) by (apply sqrt_lt_R0; lra). assert (rr : r t * r t = P t + Z t * Z t) by (apply sqrt_sqrt; lra).
  assert (dP : is_derive P t (2 * S)). { unfold P. eapply d_eq. der. unfold S. cbn. ring. }
  assert (dp : is_derive p t (S / p t)). { unfold p. eapply d_eq. apply d_sqrt; [exact P0|exact dP]. fold (p t). field. lra. }
  split; [|split].
  - unfold r. eapply d_eq. { apply d_sqrt; [cbv beta; lra|]. apply d_plus; [exact dP|]. apply d_mult; exact dZ. } cbv beta. fold (r t). field. lra.
  - eapply d_eq. { apply d_atan. apply d_div; [lra|exact dZ|exact dp]. } cbv beta. rewrite rr, <- pp. field. split; [lra|]. nra.
  - intros NP. eapply d_eq. { apply (d_atan2 X Y t); eauto. } unfold P in *. field. lra.
Qed.
Lemma frame_turns e ro vo : unperturbed_motion ro vo -> cross (ro 0) (vo 0) <> zero3 -> forall t,
  ~ radial_orbit (GCRF (later e t) (ro t) (vo t)) /\
  let M := fun s => frame (GCRF (later e s) (ro s) (vo s)) in let k := norm (cross (ro t) (vo t)) / (norm (ro t) * norm (ro t)) in
  rate_of (fun s => m3_row1 (M s)) t (scale k (m3_row2 (M t))) /\ rate_of (fun s => m3_row2 (M s)) t (scale (- k) (m3_row1 (M t))) /\ rate_of (fun s => m3_row3 (M s)) t zero3.
Proof.
  intros Mo NZ t. assert (K := momentum_kept ro vo Mo). unfold momentum in K.
  assert (NR : forall s, ~ radial_orbit (GCRF (later e s) (ro s) (vo s))) by (intros s; unfold radial_orbit; cbn [g_position g_velocity GCRF]; rewrite (K s); exact NZ).
  split; [apply NR|]. cbv zeta. assert (O := motion_off ro vo t Mo). destruct (motion_rates ro vo t Mo) as (Dr & Dv).
  assert (Nr := norm_rate ro t _ Dr O). assert (R0 := norm_pos _ O). assert (R2 := norm_sq (ro t)). assert (L0 := norm_pos _ (NR t)). cbn [g_position g_velocity GCRF] in L0.
  unfold frame. cbn [g_position g_velocity GCRF m3_row1 m3_row2 m3_row3].
  set (q := fun s => scale (/ norm (ro s)) (ro s)). set (c := scale (/ norm (cross (ro t) (vo t))) (cross (ro t) (vo t))).
  assert (Cc : forall s, scale (/ norm (cross (ro s) (vo s))) (cross (ro s) (vo s)) = c) by (intros s; unfold c; rewrite (K s), (K t); reflexivity).
  set (k := norm (cross (ro t) (vo t)) / (norm (ro t) * norm (ro t))).
  assert (c1 : dot c c = 1). { unfold c. rewrite dot_scale_l, dot_scale_r, <- norm_sq. field. lra. }
  assert (cq : dot c (q t) = 0). { unfold c, q. rewrite dot_scale_l, dot_scale_r. replace (dot (cross (ro t) (vo t)) (ro t)) with 0 by (unfold dot, cross; cbn [x3 y3 z3]; ring). ring. }
  assert (D1 : rate_of q t (scale k (cross c (q t)))).
  { assert (I := d_inv (fun s => norm (ro s)) t _ ltac:(lra) Nr). cbv beta in I. destruct Dr as (X1 & X2 & X3).
    replace (scale k (cross c (q t))) with (scale (/ (norm (ro t) * norm (ro t) * norm (ro t))) (sub (scale (dot (ro t) (ro t)) (vo t)) (scale (dot (ro t) (vo t)) (ro t)))).
    2:{ unfold k, c, q. transitivity (scale (/ (norm (ro t) * norm (ro t) * norm (ro t))) (cross (cross (ro t) (vo t)) (ro t))).
        - f_equal. unfold cross, sub, scale, dot. apply vec3_eq; cbn [x3 y3 z3]; ring.
        - generalize (cross (ro t) (vo t)) (norm (cross (ro t) (vo t))) L0. intros g y Y0. unfold cross, scale. apply vec3_eq; cbn [x3 y3 z3]; field; lra. }
    rewrite <- R2. unfold q, rate_of, scale, sub; cbn [x3 y3 z3]. split; [|split]; (eapply d_eq; [apply d_mult; [exact I|eassumption]|cbv beta; field; lra]). }
  assert (Dc : rate_of (fun _ => c) t zero3) by (unfold rate_of, zero3; cbn [x3 y3 z3]; split; [|split]; apply d_const).
  split; [|split].
  - exact D1.
  - assert (D2 := cross_rate _ _ t _ _ Dc D1).
    assert (Ex : add (cross zero3 (q t)) (cross c (scale k (cross c (q t)))) = scale (- k) (q t)).
    { transitivity (scale k (sub (scale (dot c (q t)) c) (scale (dot c c) (q t)))).
      - unfold zero3, cross, scale, add, sub, dot. apply vec3_eq; cbn [x3 y3 z3]; ring.
      - rewrite c1, cq. unfold scale, sub. apply vec3_eq; cbn [x3 y3 z3]; ring. }
    cbv beta in D2. rewrite Ex in D2. fold (q t). destruct D2 as (X1 & X2 & X3). unfold rate_of. split; [|split]; (eapply d_ext; [|eassumption]); intros s; rewrite Cc; reflexivity.
  - unfold rate_of, zero3; cbn [x3 y3 z3]. split; [|split]; [apply (d_ext (fun _ => x3 c))|apply (d_ext (fun _ => y3 c))|apply (d_ext (fun _ => z3 c))]; try apply d_const; intros s; rewrite Cc; reflexivity.
Qed.
Lemma relative_rates e ro vo rc vc w t1 t2 : unperturbed_motion ro vo -> cross (ro 0) (vo 0) <> zero3 -> (forall t, rate_of rc t (vc t)) ->
  (forall t, t1 < t < t2 -> gcrf_to_hcw (GCRF (later e t) (ro t) (vo t)) (GCRF (later e t) (rc t) (vc t)) = Ok (w t)) ->
  forall t, t1 < t < t2 -> y3 (s_position (w t)) <> PI * norm (ro t) ->
  is_derive (fun s => x3 (s_position (w s))) t (x3 (s_velocity (w t))) /\
  is_derive (fun s => y3 (s_position (w s)) / norm (ro s)) t (y3 (s_velocity (w t)) / norm (ro t)) /\
  is_derive (fun s => z3 (s_position (w s)) / norm (ro s)) t (z3 (s_velocity (w t)) / norm (ro t)).
Proof.
  intros Mo NZ Dc Hw t Ht NP. assert (Fr := frame_turns e ro vo Mo NZ). cbv zeta in Fr.
  assert (R0 : forall s, 0 < norm (ro s)) by (intros s; apply norm_pos, (motion_off ro vo s Mo)).
  set (M := fun s => frame (GCRF (later e s) (ro s) (vo s))) in *.
  assert (Hg := fun s Hs => hcw_general (later e s) (later e s) (ro s) (vo s) (rc s) (vc s) (w s) (proj1 (Fr s)) (Hw s Hs)). cbv zeta in Hg. fold M in Hg.
  set (X := fun s => dot (m3_row1 (M s)) (rc s)). set (Y := fun s => dot (m3_row2 (M s)) (rc s)). set (Z := fun s => dot (m3_row3 (M s)) (rc s)).
  set (P := fun s => X s * X s + Y s * Y s). set (p := fun s => sqrt (P s)). set (r := fun s => sqrt (P s + Z s * Z s)).
  assert (Lo : forall f g : R -> R, (forall s, t1 < s < t2 -> f s = g s) -> locally t (fun s => f s = g s)).
  { intros f g E. assert (L1 := near_gt (fun s => s) t t1 (d_cont _ _ _ (d_id t)) ltac:(lra)). assert (L2 := near_lt (fun s => s) t t2 (d_cont _ _ _ (d_id t)) ltac:(lra)).
    generalize (filter_and _ _ L1 L2). apply filter_imp. intros s Hs. apply E. lra. }
  assert (Cm : forall s, t1 < s < t2 -> x3 (s_position (w s)) = r s - norm (ro s) /\ y3 (s_position (w s)) = norm (ro s) * atan2 (Y s) (X s) /\ z3 (s_position (w s)) = norm (ro s) * atan (Z s / p s)).
  { intros s Hs. destruct (Hg s Hs) as (_ & Q). destruct (w s) as [es [p1 p2 p3] [v1 v2 v3]]. unfold state_vector, v6_from_position_and_velocity in Q. cbn [s_position s_velocity x3 y3 z3] in *. injection Q. intros. subst. repeat split. }
  destruct (Hg t Ht) as (P0 & Q). destruct (Fr t) as (_ & F1 & F2 & F3). set (k := norm (cross (ro t) (vo t)) / (norm (ro t) * norm (ro t))) in *.
  destruct (spherical_first X Y Z (dot (m3_row1 (M t)) (vc t)) (dot (m3_row2 (M t)) (vc t)) (dot (m3_row3 (M t)) (vc t)) k t P0) as (D1 & D2 & D3).
  { eapply d_eq; [apply dot_rate; [exact F1|apply Dc]|]. rewrite dot_scale_l. unfold Y. ring. }
  { eapply d_eq; [apply dot_rate; [exact F2|apply Dc]|]. rewrite dot_scale_l. unfold X. ring. }
  { eapply d_eq; [apply dot_rate; [exact F3|apply Dc]|]. unfold zero3, dot at 1; cbn [x3 y3 z3]. ring. }
  change (is_derive r t ((X t * dot (m3_row1 (M t)) (vc t) + Y t * dot (m3_row2 (M t)) (vc t) + Z t * dot (m3_row3 (M t)) (vc t)) / r t)) in D1.
  change (atan2 (Y t) (X t) <> PI -> is_derive (fun s => atan2 (Y s) (X s)) t ((X t * dot (m3_row2 (M t)) (vc t) - Y t * dot (m3_row1 (M t)) (vc t)) / P t - k)) in D3.
  change (is_derive (fun s => atan (Z s / p s)) t ((p t * dot (m3_row3 (M t)) (vc t) - Z t * (X t * dot (m3_row1 (M t)) (vc t) + Y t * dot (m3_row2 (M t)) (vc t)) / p t) / (r t * r t))) in D2.
  destruct (Cm t Ht) as (_ & Ey & _). destruct (motion_rates ro vo t Mo) as (Dr & _).
  assert (Nr := norm_rate ro t _ Dr (motion_off ro vo t Mo)).
  assert (Qv : x3 (s_velocity (w t)) = (X t * dot (m3_row1 (M t)) (vc t) + Y t * dot (m3_row2 (M t)) (vc t) + Z t * dot (m3_row3 (M t)) (vc t)) / r t - dot (ro t) (vo t) / norm (ro t) /\
     y3 (s_velocity (w t)) = norm (ro t) * ((X t * dot (m3_row2 (M t)) (vc t) - Y t * dot (m3_row1 (M t)) (vc t)) / P t - k) /\
     z3 (s_velocity (w t)) = norm (ro t) * ((p t * dot (m3_row3 (M t)) (vc t) - Z t * (X t * dot (m3_row1 (M t)) (vc t) + Y t * dot (m3_row2 (M t)) (vc t)) / p t) / (r t * r t))).
  { destruct (w t) as [es [p1 p2 p3] [v1 v2 v3]]. unfold state_vector, v6_from_position_and_velocity in Q. cbn [s_position s_velocity x3 y3 z3] in *. injection Q. intros. subst. repeat split. }
  clear Q. destruct Qv as (-> & -> & ->). specialize (R0 t) as Rt. split; [|split].
  - apply (is_derive_ext_loc (fun s => r s - norm (ro s))). { apply Lo. intros s Hs. symmetry. apply Cm; auto. }
    apply d_minus; [exact D1|exact Nr].
  - apply (is_derive_ext_loc (fun s => atan2 (Y s) (X s))). { apply Lo. intros s Hs. destruct (Cm s Hs) as (_ & Es & _). rewrite Es. generalize (R0 s) (atan2 (Y s) (X s)). intros G g. field. lra. }
    eapply d_eq; [apply D3|]. { intros E. apply NP. rewrite Ey, E. ring. } set (u := (X t * dot (m3_row2 (M t)) (vc t) - Y t * dot (m3_row1 (M t)) (vc t)) / P t - k). clearbody u. field. lra.
  - apply (is_derive_ext_loc (fun s => atan (Z s / p s))). { apply Lo. intros s Hs. destruct (Cm s Hs) as (_ & _ & Es). rewrite Es. generalize (R0 s) (atan (Z s / p s)). intros G g. field. lra. }
    eapply d_eq; [apply D2|]. set (u := (p t * dot (m3_row3 (M t)) (vc t) - Z t * (X t * dot (m3_row1 (M t)) (vc t) + Y t * dot (m3_row2 (M t)) (vc t)) / p t) / (r t * r t)). clearbody u. field. lra.
Qed.

Lemma relative_rates_full e ro vo rc vc w t1 t2 : unperturbed_motion ro vo -> cross (ro 0) (vo 0) <> zero3 -> (forall t, rate_of rc t (vc t)) ->
  (forall t, t1 < t < t2 -> gcrf_to_hcw (GCRF (later e t) (ro t) (vo t)) (GCRF (later e t) (rc t) (vc t)) = Ok (w t)) ->
  forall t, t1 < t < t2 -> y3 (s_position (w t)) <> PI * norm (ro t) ->
  let k := dot (ro t) (vo t) / (norm (ro t) * norm (ro t)) in
  rate_of (fun s => s_position (w s)) t (add (s_velocity (w t)) (V3 0 (k * y3 (s_position (w t))) (k * z3 (s_position (w t))))).
Proof.
  intros Mo NZ Dc Hw t Ht NP k. destruct (relative_rates e ro vo rc vc w t1 t2 Mo NZ Dc Hw t Ht NP) as (D1 & D2 & D3).
  assert (R0 : forall s, 0 < norm (ro s)) by (intros s; apply norm_pos, (motion_off ro vo s Mo)).
  destruct (motion_rates ro vo t Mo) as (Dr & _). assert (Nr := norm_rate ro t _ Dr (motion_off ro vo t Mo)). specialize (R0 t) as Rt.
  unfold rate_of, add. cbn [x3 y3 z3]. split; [|split].
  - eapply d_eq; [exact D1|]. ring.
  - apply (d_ext (fun s => y3 (s_position (w s)) / norm (ro s) * norm (ro s))). { intros s. specialize (R0 s). field. lra. }
    eapply d_eq; [apply d_mult; [exact D2|exact Nr]|]. cbv beta. unfold k. field. lra.
  - apply (d_ext (fun s => z3 (s_position (w s)) / norm (ro s) * norm (ro s))). { intros s. specialize (R0 s). field. lra. }
    eapply d_eq; [apply d_mult; [exact D3|exact Nr]|]. cbv beta. unfold k. field. lra.
Qed.
Lemma relative_rates_circular e ro vo rc vc w a t1 t2 : unperturbed_motion ro vo -> (forall t, norm (ro t) = a) -> (forall t, rate_of rc t (vc t)) ->
  (forall t, t1 < t < t2 -> gcrf_to_hcw (GCRF (later e t) (ro t) (vo t)) (GCRF (later e t) (rc t) (vc t)) = Ok (w t)) ->
  forall t, t1 < t < t2 -> y3 (s_position (w t)) <> PI * a -> rate_of (fun s => s_position (w s)) t (s_velocity (w t)).
Proof.
  intros Mo C Dc Hw t Ht NP. assert (a0 : 0 < a) by (rewrite <- (C 0); apply norm_pos, (motion_off ro vo 0 Mo)).
  destruct (Hill_ok (w t) a a0) as (h & _ & N & En & _).
  assert (Co := circular_orbit ro vo a (hl_n h) Mo C N En).
  destruct (Co 0) as (_ & D0 & V0 & _). destruct (circular_frame (Epoch 0) (ro 0) (vo 0) a (hl_n h) N a0 (C 0) D0 V0) as (NR & _).
  assert (K := relative_rates_full e ro vo rc vc w t1 t2 Mo NR Dc Hw t Ht ltac:(rewrite C; exact NP)). cbv zeta in K.
  destruct (Co t) as (_ & Dt & _). rewrite Dt in K. replace (s_velocity (w t)) with (add (s_velocity (w t)) (V3 0 (0 / (norm (ro t) * norm (ro t)) * y3 (s_position (w t))) (0 / (norm (ro t) * norm (ro t)) * z3 (s_position (w t))))); [exact K|].
  unfold Rdiv. rewrite Rmult_0_l, !Rmult_0_l. unfold add. destruct (s_velocity (w t)). cbn. f_equal; ring.
Qed.
Lemma relative_rates_eccentric e ro vo rc vc w t1 t2 : unperturbed_motion ro vo -> cross (ro 0) (vo 0) <> zero3 -> (forall t, rate_of rc t (vc t)) ->
  (forall t, t1 < t < t2 -> gcrf_to_hcw (GCRF (later e t) (ro t) (vo t)) (GCRF (later e t) (rc t) (vc t)) = Ok (w t)) ->
  forall t, t1 < t < t2 -> y3 (s_position (w t)) <> PI * norm (ro t) -> dot (ro t) (vo t) <> 0 -> y3 (s_position (w t)) <> 0 ->
  ~ is_derive (fun s => y3 (s_position (w s))) t (y3 (s_velocity (w t))).
Proof.
  intros Mo NZ Dc Hw t Ht NP ND NY D. assert (K := relative_rates_full e ro vo rc vc w t1 t2 Mo NZ Dc Hw t Ht NP). cbv zeta in K. destruct K as (_ & K & _).
  assert (Q := is_derive_unique _ _ _ K). rewrite (is_derive_unique _ _ _ D) in Q. unfold add in Q; cbn [x3 y3 z3] in Q.
  assert (R0 : 0 < norm (ro t)) by (apply norm_pos, (motion_off ro vo t Mo)).
  assert (Z : dot (ro t) (vo t) / (norm (ro t) * norm (ro t)) * y3 (s_position (w t)) <> 0).
  { apply Rmult_integral_contrapositive_currified; auto. apply Rmult_integral_contrapositive_currified; auto. apply Rinv_neq_0_compat. nra. }
  lra.
Qed.
Lemma turned_chaser : exists ro vo rc vc w, unperturbed_motion ro vo /\ cross (ro 0) (vo 0) <> zero3 /\ (forall t, rate_of rc t (vc t)) /\
  (forall t, gcrf_to_hcw (GCRF (later (Epoch 51544.5) t) (ro t) (vo t)) (GCRF (later (Epoch 51544.5) t) (rc t) (vc t)) = Ok (w t) /\
     0 < y3 (s_position (w t)) < PI * norm (ro t)) /\ dot (ro 0) (vo 0) <> 0.
Proof.
  destruct (motion_exists (State (Epoch 51544.5) (V3 7000 0 0) (V3 1 0 8))) as (ro & vo & Mo & E1 & E2).
  { split.
    - unfold orbital_energy. cbn [s_position s_velocity]. rewrite (norm_of (V3 7000 0 0) 7000), norm_sq; try lra; unfold mu_earth, dot; cbn [x3 y3 z3]; lra.
    - unfold momentum, cross, zero3. cbn [s_position s_velocity x3 y3 z3]. intros Q. injection Q. lra. }
  { unfold equatorial, momentum, cross. cbn [s_position s_velocity x3 y3 z3]. lra. }
  cbn [s_position s_velocity] in E1, E2.
  assert (NZ : cross (ro 0) (vo 0) <> zero3) by (rewrite E1, E2; unfold cross, zero3; cbn [x3 y3 z3]; intros Q; injection Q; lra).
  set (c := scale (/ norm (cross (ro 0) (vo 0))) (cross (ro 0) (vo 0))). set (j := fun u => add (scale (3/5) u) (scale (4/5) (cross c u))).
  assert (dJ : forall t, rate_of (fun s => j (ro s)) t (j (vo t))).
  { intros t. destruct (motion_rates ro vo t Mo) as ((X1 & X2 & X3) & _). unfold j, rate_of, add, scale at 1 3 5 7, cross. destruct c as [ca cb cc]. unfold scale. cbn [x3 y3 z3]. split; [|split]; (eapply d_eq; [der|cbv beta; ring]). }
  assert (Fr := frame_turns (Epoch 51544.5) ro vo Mo NZ). cbv zeta in Fr. assert (K := momentum_kept ro vo Mo). unfold momentum in K.
  set (w := fun t => match gcrf_to_hcw (GCRF (later (Epoch 51544.5) t) (ro t) (vo t)) (GCRF (later (Epoch 51544.5) t) (j (ro t)) (j (vo t))) with Ok s => s | Err _ => State (Epoch 0) zero3 zero3 end).
  exists ro, vo, (fun t => j (ro t)), (fun t => j (vo t)), w. split; [exact Mo|]. split; [exact NZ|]. split; [exact dJ|]. split.
  2:{ rewrite E1, E2. unfold dot; cbn [x3 y3 z3]. lra. }
  intros t. destruct (Fr t) as (NR & _). set (M := frame (GCRF (later (Epoch 51544.5) t) (ro t) (vo t))).
  assert (R0 : 0 < norm (ro t)) by (apply norm_pos, (motion_off ro vo t Mo)). assert (R2 := norm_sq (ro t)).
  assert (Mc : M = M3 (scale (/ norm (ro t)) (ro t)) (cross c (scale (/ norm (ro t)) (ro t))) c) by (unfold M, frame; cbn [g_position g_velocity GCRF]; unfold c; rewrite (K t); reflexivity).
  assert (c1 : dot c c = 1). { unfold c. rewrite dot_scale_l, dot_scale_r, <- norm_sq. field. generalize (norm_pos _ NZ). lra. }
  assert (cq : dot c (ro t) = 0). { unfold c. rewrite <- (K t), dot_scale_l. replace (dot (cross (ro t) (vo t)) (ro t)) with 0 by (unfold dot, cross; cbn [x3 y3 z3]; ring). ring. }
  assert (X : dot (m3_row1 M) (j (ro t)) = 3/5 * norm (ro t)).
  { rewrite Mc; cbn [m3_row1]. unfold j. transitivity (/ norm (ro t) * (3/5 * dot (ro t) (ro t))); [|rewrite <- R2; field; lra]. unfold dot, add, scale, cross; cbn [x3 y3 z3]. ring. }
  assert (Y : dot (m3_row2 M) (j (ro t)) = 4/5 * norm (ro t)).
  { rewrite Mc; cbn [m3_row2]. unfold j. transitivity (/ norm (ro t) * (4/5 * (dot c c * dot (ro t) (ro t) - dot c (ro t) * dot c (ro t)))); [unfold dot, add, scale, cross; cbn [x3 y3 z3]; ring|].
    rewrite c1, cq, <- R2. field. lra. }
  assert (Q := gcrf_to_hcw_ok (GCRF (later (Epoch 51544.5) t) (ro t) (vo t)) (GCRF (later (Epoch 51544.5) t) (j (ro t)) (j (vo t))) NR). cbv zeta in Q. cbn [g_position g_velocity g_epoch GCRF] in Q. fold M in Q.
  assert (O : x3 (apply3 M (j (ro t))) <> 0 \/ y3 (apply3 M (j (ro t))) <> 0) by (left; unfold apply3; cbn [x3 y3 z3]; rewrite X; lra).
  specialize (Q O). assert (G : gcrf_to_hcw (GCRF (later (Epoch 51544.5) t) (ro t) (vo t)) (GCRF (later (Epoch 51544.5) t) (j (ro t)) (j (vo t))) = Ok (w t)) by (unfold w; rewrite Q; reflexivity).
  split; [exact G|]. destruct (hcw_general _ _ _ _ _ _ _ NR G) as (_ & Sv). fold M in Sv. rewrite X, Y in Sv. 
  assert (Ey := f_equal y6 Sv). cbn [y6] in Ey. unfold state_vector, v6_from_position_and_velocity in Ey. cbn [y6] in Ey. rewrite Ey. clear Ey Sv Q.
  unfold atan2. destruct (nlt_spec 0 (3/5 * norm (ro t))) as [_|L]; [|lra]. replace (4/5 * norm (ro t) / (3/5 * norm (ro t))) with (4/3) by (field; lra).
  assert (B := atan_bound (4/3)). assert (A0 : 0 < atan (4/3)) by (rewrite <- atan_0; apply atan_increasing; lra). assert (PP := PI_pos). nra.
Qed.

(** * Hill propagation against two-body motion *)
Lemma shift_derive (f : R -> R) a t d : is_derive f t d -> is_derive (fun s => f s - a) t d.
Proof. intros D. eapply d_eq. apply d_minus; [exact D|apply d_const]. ring. Qed.
Lemma scale_derive (f : R -> R) a t d : is_derive f t d -> is_derive (fun s => a * f s) t (a * d).
Proof. intros D. eapply d_eq. apply d_mult; [apply d_const|exact D]. cbv beta. ring. Qed.
Lemma abs_div x k e : 0 < k -> Rabs x <= k * e -> Rabs (x / k) <= e.
Proof. intros K H. unfold Rdiv. rewrite Rabs_mult, (Rabs_right (/ k)) by (apply Rle_ge, Rlt_le, Rinv_0_lt_compat; auto). apply Rle_div_l; lra. Qed.
Lemma hill_two_body ro vo rc vc e a rho T w h : unperturbed_motion ro vo -> unperturbed_motion rc vc -> (forall t, norm (ro t) = a) -> rho <= a / 10 ->
  Hill (w 0) a = Ok h ->
  (forall t, until T t -> gcrf_to_hcw (GCRF (later e t) (ro t) (vo t)) (GCRF (later e t) (rc t) (vc t)) = Ok (w t) /\ nearby (hl_n h) a rho (w t)) ->
  exists h', hill_step_by_seconds h T = Ok h' /\
    let u := hl_n h * Rabs T in let d := rho * rho / a in let p := s_position (hl_state h') in let v := s_velocity (hl_state h') in
    Rabs (x3 p - x3 (s_position (w T))) <= 38 * u * d /\
    Rabs (y3 p - y3 (s_position (w T))) <= (68 + 21 * u) * u * d /\
    Rabs (z3 p - z3 (s_position (w T))) <= 5 * u * d /\
    Rabs (x3 v - x3 (s_velocity (w T))) <= 24 * u * (hl_n h * d) /\
    Rabs (y3 v - y3 (s_velocity (w T))) <= 69 * u * (hl_n h * d) /\
    Rabs (z3 v - z3 (s_velocity (w T))) <= 5 * u * (hl_n h * d).
Proof.
  intros Mo Mc C Hr Hh Hw. assert (a0 : 0 < a) by (rewrite <- (C 0); apply norm_pos, (motion_off ro vo 0 Mo)).
  destruct (Hill_ok (w 0) a a0) as (h1 & E1 & N & En & Es & _). rewrite Hh in E1. injection E1 as <-. set (n := hl_n h) in *.
  assert (Tu := circular_turning ro vo rc vc a n Mo C N En Mc).
  set (X := fun t => dot (e1 a (ro t) (vo t)) (rc t)) in *. set (Y := fun t => dot (e2 n a (ro t) (vo t)) (rc t)) in *. set (Z := fun t => dot (e3 n a (ro t) (vo t)) (rc t)) in *.
  set (U := fun t => dot (e1 a (ro t) (vo t)) (vc t)) in *. set (V := fun t => dot (e2 n a (ro t) (vo t)) (vc t)) in *. set (W := fun t => dot (e3 n a (ro t) (vo t)) (vc t)) in *.
  set (P := fun s => X s * X s + Y s * Y s). set (p := fun s => sqrt (P s)). set (r := fun s => sqrt (P s + Z s * Z s)).
  set (S := fun s => X s * U s + Y s * V s). set (H := fun s => X s * V s - Y s * U s).
  set (vr := fun s => (S s + Z s * W s) / r s). set (vl := fun s => H s / P s - n).
  set (vf := fun s => (p s * W s - Z s * S s / p s) / (r s * r s)).
  assert (I0 : until T 0) by (unfold until, Rmin, Rmax; destruct (Rle_dec 0 T); lra).
  assert (IT : until T T) by (unfold until, Rmin, Rmax; destruct (Rle_dec 0 T); lra).
  assert (Co : forall t, until T t -> 0 < P t /\ state_vector (w t) = V6 (r t - a) (a * atan2 (Y t) (X t)) (a * atan (Z t / p t)) (vr t) (a * vl t) (a * vf t)).
  { intros t Ht. destruct (Hw t Ht) as (G & _). destruct (circular_orbit ro vo a n Mo C N En t) as (_ & D & Vv & _).
    exact (hcw_coordinates (later e t) (later e t) (ro t) (vo t) (rc t) (vc t) a n (w t) N a0 (C t) D Vv G). }
  set (eps := rho / a). assert (Er : rho = a * eps) by (unfold eps; field; lra).
  assert (E10 : eps <= 1/10) by (apply Rle_div_l; lra).
  set (gx := fun t => r t * (vf t * vf t) + (vl t + n) * (vl t + n) * P t / r t - mu_earth / (r t * r t) - 3 * n ^ 2 * (r t - a) - 2 * n * (a * vl t)).
  set (gy := fun t => a * (- 2 * (vl t + n) * (vr t / r t - Z t / p t * vf t)) + 2 * n * vr t).
  set (gz := fun t => a * (- 2 * (vr t / r t) * vf t - (vl t + n) * (vl t + n) * (p t * Z t) / (r t * r t)) + n ^ 2 * (a * atan (Z t / p t))).
  assert (Bd : forall t, until T t -> Rabs (gx t) <= n * n * a * (10 * (eps * eps)) /\ Rabs (gy t) <= n * n * a * (7 * (eps * eps)) /\ Rabs (gz t) <= n * n * a * (5 * (eps * eps)) /\ atan2 (Y t) (X t) <> PI).
  { intros t Ht. destruct (Co t Ht) as (P0 & Sv). destruct (Hw t Ht) as (_ & Nb). unfold nearby in Nb. rewrite Er in Nb.
    assert (Q : forall f, f (state_vector (w t)) = f (V6 (r t - a) (a * atan2 (Y t) (X t)) (a * atan (Z t / p t)) (vr t) (a * vl t) (a * vf t)) :> R) by (intros; rewrite Sv; auto).
    assert (Q1 := Q x6). assert (Q2 := Q y6). assert (Q3 := Q z6). assert (Q4 := Q vx6). assert (Q5 := Q vy6). assert (Q6 := Q vz6). cbn in Q1, Q2, Q3, Q4, Q5, Q6. clear Q Sv.
    rewrite Q1, Q2, Q3, Q4, Q5, Q6 in Nb. clear Q1 Q2 Q3 Q4 Q5 Q6. destruct Nb as (N1 & N2 & N3 & N4 & N5 & N6).
    assert (Zs := Rle_0_sqr (Z t)). unfold Rsqr in Zs.
    assert (p0 : 0 < p t) by (apply sqrt_lt_R0; auto). assert (pp : p t * p t = P t) by (apply sqrt_sqrt; lra).
    assert (r0 : 0 < r t) by (apply sqrt_lt_R0; lra). assert (rr : r t * r t = P t + Z t * Z t) by (apply sqrt_sqrt; lra).
    assert (NP : atan2 (Y t) (X t) <> PI).
    { intros K. rewrite K in N2. assert (PI3 : 3 < PI) by (generalize PI_bounds; lra). rewrite Rabs_right in N2 by (apply Rle_ge, Rmult_le_pos; lra). nra. }
    set (phi := atan (Z t / p t)) in *.
    assert (Tp : tan phi = Z t / p t) by (unfold phi; apply tan_atan). assert (Bp := atan_bound (Z t / p t)). fold phi in Bp.
    assert (Cp : 0 < cos phi) by (apply cos_gt_0; lra).
    assert (Sp' : sin phi * p t = Z t * cos phi). { unfold tan in Tp. assert (sin phi = Z t / p t * cos phi) by (rewrite <- Tp; field; lra). rewrite H0. field. lra. }
    assert (T2 := sin2_cos2' phi).
    assert (Cr : cos phi * r t = p t).
    { apply Rsqr_inj; [apply Rmult_le_pos; lra|lra|]. unfold Rsqr. replace (cos phi * r t * (cos phi * r t)) with (cos phi * cos phi * (r t * r t)) by ring. rewrite rr, <- pp.
      replace (cos phi * cos phi * (p t * p t + Z t * Z t)) with (cos phi * cos phi * (p t * p t) + Z t * cos phi * (Z t * cos phi)) by ring. rewrite <- Sp'.
      replace (cos phi * cos phi * (p t * p t) + sin phi * p t * (sin phi * p t)) with ((sin phi * sin phi + cos phi * cos phi) * (p t * p t)) by ring. replace (sin phi * sin phi + cos phi * cos phi) with 1 by lra. ring. }
    assert (Sr : sin phi * r t = Z t). { apply (Rmult_eq_reg_r (cos phi)); [|lra]. rewrite <- Sp', <- Cr. ring. }
    set (xi := (r t - a) / a). set (l := vl t / n). set (f := vf t / n). set (vv := vr t / (n * a)).
    assert (Na : 0 < n * a) by nra.
    assert (A1 : Rabs xi <= eps) by (apply abs_div; auto).
    assert (A3 : Rabs phi <= eps). { replace phi with (a * phi / a) by (field; lra). apply abs_div; auto. }
    assert (A4 : Rabs vv <= eps) by (apply abs_div; auto; lra).
    assert (A5 : Rabs l <= eps). { unfold l. replace (vl t / n) with (a * vl t / (n * a)) by (field; lra). apply abs_div; auto; lra. }
    assert (A6 : Rabs f <= eps). { unfold f. replace (vf t / n) with (a * vf t / (n * a)) by (field; lra). apply abs_div; auto; lra. }
    assert (As : Rabs (sin phi) <= eps). { assert (L := sin_lip phi 0). rewrite sin_0, !Rminus_0_r in L. lra. }
    assert (At : Rabs (Z t / p t) <= 11/10 * eps).
    { rewrite <- Tp. unfold tan. apply abs_div; auto. apply Rle_trans with (1 := As). assert (L := cos_lower phi). assert (e0 := Rle_trans _ _ _ (Rabs_pos phi) A3).
      assert (phi * phi <= 1/100) by (apply Rabs_le_between in A3; nra). nra. }
    assert (x0 : - (1/10) <= xi <= 1/10) by (apply Rabs_le_between; lra).
    assert (Rt : r t = a * (1 + xi)) by (unfold xi; field; lra).
    assert (Lt : vl t = n * l) by (unfold l; field; lra). assert (Ft : vf t = n * f) by (unfold f; field; lra). assert (Vt : vr t = n * a * vv) by (unfold vv; field; lra).
    assert (Pt : P t = r t * r t * (1 - sin phi * sin phi)). { rewrite <- pp, <- Cr. replace (1 - sin phi * sin phi) with (cos phi * cos phi) by lra. ring. }
    assert (PZ : p t * Z t / (r t * r t) = cos phi * sin phi) by (rewrite <- Cr, <- Sr; field; lra).
    assert (Fac : forall k b, Rabs k <= b -> Rabs (n * n * a * k) <= n * n * a * b). { intros k b K. rewrite Rabs_mult, (Rabs_right (n * n * a)) by nra. apply Rmult_le_compat_l; [nra|auto]. }
    split; [|split; [|split; [|exact NP]]].
    - unfold gx. rewrite Pt, <- En, Lt, Ft, Rt.
      replace (_ - _ - _) with (n * n * a * ((1 + xi) * (f * f) + (1 + l) * (1 + l) * (1 + xi) * (1 - sin phi * sin phi) - 1 / ((1 + xi) * (1 + xi)) - 3 * xi - 2 * l)) by (field; lra).
      apply Fac. apply residual_x; auto.
    - unfold gy. set (tn := Z t / p t) in *. rewrite Lt, Ft, Vt, Rt.
      replace (_ + _) with (n * n * a * (- 2 * (1 + l) * (vv / (1 + xi) - tn * f) + 2 * vv)) by (field; lra).
      apply Fac. apply residual_y; auto.
    - unfold gz. fold phi. replace ((vl t + n) * (vl t + n) * (p t * Z t) / (r t * r t)) with ((vl t + n) * (vl t + n) * (p t * Z t / (r t * r t))) by (field; lra). rewrite PZ, Lt, Ft, Vt, Rt.
      replace (_ + _) with (n * n * a * (- 2 * (vv / (1 + xi)) * f - (1 + l) * (1 + l) * (cos phi * sin phi) + phi)) by (field; lra).
      apply Fac. apply residual_z; auto. }
  assert (K := cw_error n (n * n * a * (10 * (eps * eps))) (n * n * a * (7 * (eps * eps))) (n * n * a * (5 * (eps * eps))) T
    (fun t => r t - a) (fun t => a * atan2 (Y t) (X t)) (fun t => a * atan (Z t / p t)) vr (fun t => a * vl t) (fun t => a * vf t) gx gy gz N).
  cbv zeta in K. rewrite step_ok by (fold n; lra). eexists; split; [reflexivity|]. cbv zeta. cbn [set_hl_state hl_state]. fold n.
  rewrite Es. destruct (Co 0 I0) as (_ & S0). destruct (Co T IT) as (_ & ST). rewrite S0.
  assert (Q : forall f, f (state_vector (w T)) = f (V6 (r T - a) (a * atan2 (Y T) (X T)) (a * atan (Z T / p T)) (vr T) (a * vl T) (a * vf T)) :> R) by (intros; rewrite ST; auto).
  assert (Q1 := Q x6). assert (Q2 := Q y6). assert (Q3 := Q z6). assert (Q4 := Q vx6). assert (Q5 := Q vy6). assert (Q6 := Q vz6). cbn in Q1, Q2, Q3, Q4, Q5, Q6. 
  rewrite Q1, Q2, Q3, Q4, Q5, Q6. clear Q Q1 Q2 Q3 Q4 Q5 Q6 S0 ST.
  destruct K as (K1 & K2 & K3 & K4 & K5 & K6).
  { intros t Ht. destruct (Co t Ht) as (P0 & _). destruct (Bd t Ht) as (G1 & G2 & G3 & NP).
    destruct (spherical_rates n X Y Z U V W Tu t P0) as (R1 & R2 & R3 & R4 & R5 & R6).
    split; [apply shift_derive; exact R1|]. split; [apply scale_derive; exact (R3 NP)|]. split; [apply scale_derive; exact R2|].
    split; [eapply d_eq; [exact R4|]; unfold gx, vr, vl, vf, H, S, r, p, P; ring|]. split; [eapply d_eq; [apply scale_derive; exact R5|]; unfold gy, vr, vl, vf, H, S, r, p, P; ring|].
    split; [eapply d_eq; [apply scale_derive; exact R6|]; unfold gz, vr, vl, vf, H, S, r, p, P; ring|]. auto. }
  clear Bd Co Hw Tu. set (m := motion _ _ _) in *. clearbody m.
  assert (Ed : rho * rho / a = a * (eps * eps)) by (rewrite Er; field; lra). rewrite Ed.
  cbn [HCW_from_state_vector s_position s_velocity x3 y3 z3]. 
  split; [|split; [|split; [|split; [|split]]]].
  - eapply Rle_trans; [exact K1|]. apply Req_le. field. lra.
  - eapply Rle_trans; [exact K2|]. apply Req_le. field. lra.
  - eapply Rle_trans; [exact K3|]. apply Req_le. field. lra.
  - eapply Rle_trans; [exact K4|]. apply Req_le. ring.
  - eapply Rle_trans; [exact K5|]. apply Req_le. ring.
  - eapply Rle_trans; [exact K6|]. apply Req_le. ring.
Qed.

(** * Two circular orbits in one plane *)
Definition ring_r (a n t : R) : vec3 := V3 (a * cos (n * t)) (a * sin (n * t)) 0.
Definition ring_v (a n t : R) : vec3 := V3 (- (a * n) * sin (n * t)) (a * n * cos (n * t)) 0.
Lemma ring_norm a n t : 0 < a -> norm (ring_r a n t) = a.
Proof.
  intros A. apply norm_of; [lra|]. unfold ring_r, dot; cbn [x3 y3 z3]. assert (T := sin2_cos2' (n * t)).
  replace (_ + _) with (a * a * (sin (n * t) * sin (n * t) + cos (n * t) * cos (n * t))) by ring. replace (_ + _) with 1 by lra. ring.
Qed.
Lemma ring_motion a n : 0 < a -> n ^ 2 * a ^ 3 = mu_earth -> unperturbed_motion (ring_r a n) (ring_v a n).
Proof.
  intros A E t. assert (N := ring_norm a n t A).
  assert (Z : ring_r a n t <> zero3) by (intros Z; apply norm_zero in Z; lra).
  exists (Epoch 0), 0. eexists. eexists. split; [rewrite derivative_two_body by auto; reflexivity|].
  cbn [g_velocity g_position g_thrust]. 
  assert (dS : is_derive (fun t => sin (n * t)) t (n * cos (n * t))) by (apply (d_sin (fun t => n * t)), d_lin).
  assert (dC : is_derive (fun t => cos (n * t)) t (n * - sin (n * t))) by (apply (d_cos (fun t => n * t)), d_lin).
  split.
  - unfold ring_r, ring_v, rate_of. cbn [x3 y3 z3]. split; [|split]; (eapply d_eq; [der|cbv beta; ring]).
  - unfold attraction. replace (norm (sub zero3 (ring_r a n t))) with a.
    2:{ rewrite <- N at 1. unfold norm. f_equal. unfold zero3, sub, dot; cbn. ring. }
    replace (mu_earth / (a * a * a)) with (n * n) by (rewrite <- E; field; lra).
    unfold ring_r, ring_v, rate_of, zero3, add, scale, sub. cbn [x3 y3 z3]. split; [|split]; (eapply d_eq; [der|cbv beta; ring]).
Qed.
Lemma ring_frame a n t : 0 < a -> 0 < n ->
  e1 a (ring_r a n t) (ring_v a n t) = V3 (cos (n * t)) (sin (n * t)) 0 /\ e2 n a (ring_r a n t) (ring_v a n t) = V3 (- sin (n * t)) (cos (n * t)) 0 /\
  e3 n a (ring_r a n t) (ring_v a n t) = V3 0 0 1.
Proof.
  intros A N. assert (T := sin2_cos2' (n * t)). unfold e1, e2, e3, ring_r, ring_v, scale, cross. cbn [x3 y3 z3]. split; [|split]; apply vec3_eq; cbn [x3 y3 z3]; try (field; lra).
  replace (a * cos (n * t) * (a * n * cos (n * t)) - a * sin (n * t) * (- (a * n) * sin (n * t))) with (n * (a * a) * (sin (n * t) * sin (n * t) + cos (n * t) * cos (n * t))) by ring.
  replace (_ + _) with 1 by lra. field. lra.
Qed.
Lemma two_rings e a b n m t : 0 < a -> 0 < b -> 0 < n -> - PI < (m - n) * t <= PI ->
  exists s, gcrf_to_hcw (GCRF e (ring_r a n t) (ring_v a n t)) (GCRF e (ring_r b m t) (ring_v b m t)) = Ok s /\
    state_vector s = V6 (b - a) (a * ((m - n) * t)) 0 0 (a * (m - n)) 0.
Proof.
  intros A B N Hl. assert (T1 := sin2_cos2' (n * t)). assert (T2 := sin2_cos2' ((m - n) * t)).
  assert (D : dot (ring_r a n t) (ring_v a n t) = 0) by (unfold ring_r, ring_v, dot; cbn [x3 y3 z3]; ring).
  assert (V : dot (ring_v a n t) (ring_v a n t) = (n * a) * (n * a)).
  { unfold ring_v, dot; cbn [x3 y3 z3]. replace (_ + _) with (n * a * (n * a) * (sin (n * t) * sin (n * t) + cos (n * t) * cos (n * t))) by ring. replace (_ + _) with 1 by lra. ring. }
  destruct (ring_frame a n t A N) as (F1 & F2 & F3).
  destruct (circular_frame e (ring_r a n t) (ring_v a n t) a n N A (ring_norm a n t A) D V) as (NR & F & _).
  replace (m * t) with (n * t + (m - n) * t) in * by ring.
  assert (K : forall w, gcrf_to_hcw (GCRF e (ring_r a n t) (ring_v a n t)) (GCRF e (ring_r b m t) (ring_v b m t)) = Ok w -> state_vector w = V6 (b - a) (a * ((m - n) * t)) 0 0 (a * (m - n)) 0).
  { intros w G. assert (H := hcw_coordinates e e _ _ _ _ a n w N A (ring_norm a n t A) D V G). cbv zeta in H. rewrite F1, F2, F3 in H. destruct H as (P0 & ->).
    unfold ring_r, ring_v, dot in *. cbn [x3 y3 z3] in *. replace (m * t) with (n * t + (m - n) * t) in * by ring. rewrite cos_plus, sin_plus in *.
    set (c := cos (n * t)) in *. set (s := sin (n * t)) in *. set (C := cos ((m - n) * t)) in *. set (S := sin ((m - n) * t)) in *.
    assert (EX : c * (b * (c * C - s * S)) + s * (b * (s * C + c * S)) + 0 * 0 = b * C). { replace (_ + _) with ((s * s + c * c) * (b * C)) by ring. replace (s * s + c * c) with 1 by lra. ring. }
    assert (EY : - s * (b * (c * C - s * S)) + c * (b * (s * C + c * S)) + 0 * 0 = b * S). { replace (_ + _) with ((s * s + c * c) * (b * S)) by ring. replace (s * s + c * c) with 1 by lra. ring. }
    assert (EU : c * (- (b * m) * (s * C + c * S)) + s * (b * m * (c * C - s * S)) + 0 * 0 = - (b * m * S)). { replace (_ + _) with (- ((s * s + c * c) * (b * m * S))) by ring. replace (s * s + c * c) with 1 by lra. ring. }
    assert (EV : - s * (- (b * m) * (s * C + c * S)) + c * (b * m * (c * C - s * S)) + 0 * 0 = b * m * C). { replace (_ + _) with ((s * s + c * c) * (b * m * C)) by ring. replace (s * s + c * c) with 1 by lra. ring. }
    rewrite EX, EY, EU, EV in *. 
    assert (Pe : b * C * (b * C) + b * S * (b * S) = b * b). { replace (_ + _) with ((S * S + C * C) * (b * b)) by ring. replace (S * S + C * C) with 1 by lra. ring. }
    rewrite Pe. repeat match goal with |- context[0 * ?u + 0 * ?v + 1 * 0] => replace (0 * u + 0 * v + 1 * 0) with 0 by ring end.
    replace (b * b + 0 * 0) with (b * b) by ring. rewrite sqrt_square by lra.
    assert (At : atan2 (b * S) (b * C) = (m - n) * t) by (apply atan2_unique; auto). rewrite At.
    replace (0 / b) with 0 by (field; lra). rewrite atan_0.
    f_equal; try (field; lra); try ring.
    replace (b * C * (b * m * C) - b * S * - (b * m * S)) with (m * (b * C * (b * C) + b * S * (b * S))) by ring. rewrite Pe. field. lra. }
  assert (Q := gcrf_to_hcw_ok (GCRF e (ring_r a n t) (ring_v a n t)) (GCRF e (ring_r b m t) (ring_v b m t)) NR). cbv zeta in Q. cbn [g_position g_velocity g_epoch GCRF] in Q.
  eexists. rewrite Q; [split; [reflexivity|apply K, Q]|].
  all: rewrite F, F1, F2, F3; unfold apply3, ring_r, dot; cbn [m3_row1 m3_row2 m3_row3 x3 y3 z3];
    replace (m * t) with (n * t + (m - n) * t) by ring; rewrite cos_plus, sin_plus;
    set (c := cos (n * t)) in *; set (s := sin (n * t)) in *; set (C := cos ((m - n) * t)) in *; set (S := sin ((m - n) * t)) in *;
    assert (EX : c * (b * (c * C - s * S)) + s * (b * (s * C + c * S)) + 0 * 0 = b * C) by (replace (_ + _) with ((s * s + c * c) * (b * C)) by ring; replace (s * s + c * c) with 1 by lra; ring);
    assert (EY : - s * (b * (c * C - s * S)) + c * (b * (s * C + c * S)) + 0 * 0 = b * S) by (replace (_ + _) with ((s * s + c * c) * (b * S)) by ring; replace (s * s + c * c) with 1 by lra; ring);
    rewrite EX, EY; destruct (Req_dec (b * C) 0) as [Z1|Z1]; [|auto]; destruct (Req_dec (b * S) 0) as [Z2|Z2]; [|auto]; exfalso; nra.
Qed.
Lemma two_rings_near : exists ro vo rc vc w h, unperturbed_motion ro vo /\ unperturbed_motion rc vc /\ (forall t, norm (ro t) = 42164) /\
  Hill (w 0) 42164 = Ok h /\
  (forall t, until 86400 t -> gcrf_to_hcw (GCRF (later (Epoch 51544.5) t) (ro t) (vo t)) (GCRF (later (Epoch 51544.5) t) (rc t) (vc t)) = Ok (w t) /\ nearby (hl_n h) 42164 40 (w t)) /\
  s_position (w 0) = V3 20 0 0 /\ y3 (s_velocity (w 0)) < 0.
Proof.
  set (a := 42164). set (b := 42184). assert (a0 : 0 < a) by (unfold a; lra). assert (b0 : 0 < b) by (unfold b; lra).
  set (dummy := State (Epoch 0) zero3 zero3).
  destruct (Hill_ok dummy a a0) as (ha & _ & N & En & _). destruct (Hill_ok dummy b b0) as (hb & _ & M & Em & _).
  set (n := hl_n ha) in *. set (m := hl_n hb) in *. clearbody n m. clear ha hb.
  assert (Mu : mu_earth < 400000) by (unfold mu_earth; lra). assert (Mp := mup).
  assert (nb : n < 1/10000). { apply Rnot_le_lt. intros K. assert (1/10000 * (1/10000) <= n * n) by (apply Rmult_le_compat; lra). unfold a in En. nra. }
  assert (mn : m < n). { apply Rnot_le_lt. intros K. assert (n * n <= m * m) by (apply Rmult_le_compat; lra). unfold a, b in *. nra. }
  assert (mm : a * (n - m) <= 40 * n).
  { assert (Q : n * (a * a) <= m * (b * b)).
    { apply Rsqr_incr_0_var; [|apply Rmult_le_pos; [lra|nra]]. unfold Rsqr. 
      replace (n * (a * a) * (n * (a * a))) with (a * (n ^ 2 * a ^ 3)) by ring. replace (m * (b * b) * (m * (b * b))) with (b * (m ^ 2 * b ^ 3)) by ring. rewrite En, Em. unfold a, b. nra. }
    unfold a, b in *. nra. }
  set (w := fun t => match gcrf_to_hcw (GCRF (later (Epoch 51544.5) t) (ring_r a n t) (ring_v a n t)) (GCRF (later (Epoch 51544.5) t) (ring_r b m t) (ring_v b m t)) with Ok s => s | Err _ => dummy end).
  destruct (Hill_ok (w 0) a a0) as (h & Eh & Nh & Enh & _).
  assert (hn : hl_n h = n). { apply Rsqr_inj; [lra|lra|]. unfold Rsqr. apply (Rmult_eq_reg_r (a ^ 3)); [|unfold a; lra]. lra. }
  assert (PI3 := PI_bounds).
  assert (K : forall t, until 86400 t -> gcrf_to_hcw (GCRF (later (Epoch 51544.5) t) (ring_r a n t) (ring_v a n t)) (GCRF (later (Epoch 51544.5) t) (ring_r b m t) (ring_v b m t)) = Ok (w t) /\
     state_vector (w t) = V6 (b - a) (a * ((m - n) * t)) 0 0 (a * (m - n)) 0 /\ 0 <= (n - m) * t <= 1/100).
  { intros t Ht. unfold until in Ht. rewrite Rmin_left, Rmax_right in Ht by lra.
    assert (Q : 0 <= (n - m) * t <= 1/100).
    { split; [apply Rmult_le_pos; lra|]. assert (n - m <= 1/10000000) by (unfold a in mm; lra). apply Rle_trans with (1/10000000 * 86400); [apply Rmult_le_compat; lra|lra]. }
    destruct (two_rings (later (Epoch 51544.5) t) a b n m t a0 b0 N ltac:(lra)) as (s & G & Sv). split; [|split; [|exact Q]].
    - unfold w. rewrite G. reflexivity.
    - unfold w. rewrite G. exact Sv. }
  exists (ring_r a n), (ring_v a n), (ring_r b m), (ring_v b m), w, h.
  split; [apply ring_motion; auto|]. split; [apply ring_motion; auto|]. split; [intros; apply ring_norm; auto|]. split; [exact Eh|].
  split.
  - intros t Ht. destruct (K t Ht) as (G & Sv & Q). split; [exact G|]. rewrite hn. unfold state_vector, v6_from_position_and_velocity in Sv. 
    destruct (w t) as [et [p1 p2 p3] [v1 v2 v3]]. cbn [s_position s_velocity x3 y3 z3] in Sv. injection Sv as -> -> -> -> -> ->.
    unfold nearby. cbn [s_position s_velocity x3 y3 z3]. rewrite Rabs_R0. unfold a, b in *. split; [|split; [|split; [|split; [|split]]]]; try lra; try (apply Rabs_le; lra); try nra.
    + apply Rabs_lt_between. nra.
  - destruct (K 0 ltac:(unfold until; rewrite Rmin_left, Rmax_right by lra; lra)) as (G & Sv & Q).
    unfold state_vector, v6_from_position_and_velocity in Sv. destruct (w 0) as [et [p1 p2 p3] [v1 v2 v3]]. cbn [s_position s_velocity x3 y3 z3] in *. injection Sv as -> -> -> -> -> ->.
    split; [f_equal; unfold a, b; ring|]. unfold a. nra.
Qed.
