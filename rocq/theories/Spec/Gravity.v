(** The geopotential of degree 2 to 4 in spherical harmonics.

    The normalised coefficients are the EGM96 values the code base quotes; the
    factor that turns them into coefficients of the unnormalised functions is
    the textbook one. *)
From Coq Require Import Reals.
From Verif.Model Require Import Num Linalg.
From Verif.Spec Require Import Geometry Legendre.
Local Open Scope R_scope.

Definition mu_earth : R := 398600.4418.
Definition radius_earth : R := 6378.137.

(** sqrt ((2 - delta_0m) (2n + 1) (n - m)! / (n + m)!) *)
Definition normalisation (n m : nat) : R :=
  sqrt ((2 - delta 0 m) * (2 * INR n + 1) * INR (fact (n - m)) / INR (fact (n + m))).

Definition c_normalised (n m : nat) : R :=
  match n, m with
  | 2%nat, 0%nat => -0.484165143790815e-3
  | 2%nat, 1%nat => -0.206615509074176e-9
  | 2%nat, 2%nat => 0.243938357328313e-5
  | 3%nat, 0%nat => 0.957161207093473e-6
  | 3%nat, 1%nat => 0.203046201047864e-5
  | 3%nat, 2%nat => 0.904787894809528e-6
  | 3%nat, 3%nat => 0.721321757121568e-6
  | 4%nat, 0%nat => 0.539965866638991e-6
  | 4%nat, 1%nat => -0.536157389388867e-6
  | 4%nat, 2%nat => 0.350501623962649e-6
  | 4%nat, 3%nat => 0.990856766672321e-6
  | 4%nat, 4%nat => -0.188519633023033e-6
  | _, _ => 0
  end.
Definition s_normalised (n m : nat) : R :=
  match n, m with
  | 2%nat, 1%nat => 0.138441389137979e-8
  | 2%nat, 2%nat => -0.140027370385934e-5
  | 3%nat, 1%nat => 0.248200415856872e-6
  | 3%nat, 2%nat => -0.619005475177618e-6
  | 3%nat, 3%nat => 0.141434926192941e-5
  | 4%nat, 1%nat => -0.473567346518086e-6
  | 4%nat, 2%nat => 0.662480026275829e-6
  | 4%nat, 3%nat => -0.200956723567452e-6
  | 4%nat, 4%nat => 0.308803882149194e-6
  | _, _ => 0
  end.
Definition c_coefficient n m : R := c_normalised n m * normalisation n m.
Definition s_coefficient n m : R := s_normalised n m * normalisation n m.

(** The degree-[n] part of the geopotential at a point: [z / r] is the sine of
    the geocentric latitude and [atan2 y x] the longitude. *)
Definition potential (n : nat) (p : vec3) : R :=
  let r := norm p in
  let lon := atan2 (y3 p) (x3 p) in
  mu_earth / r * (radius_earth / r) ^ n *
  sum (n + 1) (fun m => legendre n m (z3 p / r) *
    (c_coefficient n m * cos (INR m * lon) + s_coefficient n m * sin (INR m * lon))).

(** [g] is the gradient of [u] at [p]: it gives the rate of change of [u] in
    every direction. *)
Definition gradient_at (u : vec3 -> R) (p g : vec3) : Prop :=
  forall d, derivable_pt_lim (fun t => u (add p (scale t d))) 0 (dot g d).
