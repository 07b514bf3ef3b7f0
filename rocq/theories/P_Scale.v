(** Property theorems of L_Scale.v. Generated by tools/gen.py; statements only, proofs are in L_Scale.v. *)
From Coq Require Import FunctionalExtensionality List Lra Lia.
From Verif Require Import Num L_Num M_Ode M_Spectral L_Ode ScaleSpec.
From Verif Require Import L_Scale.
Import ListNotations.
Open Scope R_scope.

(** RK4 does not depend on the units: with the abscissa in any other unit and from any other origin, every component of the unknown in its own unit (of any sign) and from its own origin, the step converted like the abscissa and the same differential equation written in these variables, the abscissae and the states returned are the old ones converted; a loop that does not end does not end. *)
Theorem C120_rk4 : forall a b s c F F' fuel x y xStop h, 0 < a -> same_equation a b s c F F' ->
  RK4 fuel F' (abscissa a b x) (unknowns s c y) (abscissa a b xStop) (a * h) =
  option_map (fun r => (map (abscissa a b) (fst r), map (unknowns s c) (snd r))) (RK4 fuel F x y xStop h).
Proof. exact rk4_scale. Qed.
Print Assumptions C120_rk4.

(** Neither does RKF45: with one unit (of any sign) common to all the components and to the tolerance, and an origin for each, the abscissae chosen by the step control and the states are the old ones converted, over the whole run with its rejected steps, including when it ends before xStop or at the cap on the number of passes. *)
Theorem C120_rkf45 : forall a b s c F F' n x y xStop h tol, 0 < a -> s <> 0 -> same_equation a b (fun _ => s) c F F' ->
  RKF45 n F' (abscissa a b x) (unknowns (fun _ => s) c y) (abscissa a b xStop) (a * h) (Rabs s * tol) =
  (map (abscissa a b) (fst (RKF45 n F x y xStop h tol)), map (unknowns (fun _ => s) c) (snd (RKF45 n F x y xStop h tol))).
Proof. exact rkf45_scale. Qed.
Print Assumptions C120_rkf45.

(** For a linear system, with coefficients depending on x, the states RK4 returns from a combination of two starting points are the same combination of the states returned from each, at the same abscissae. *)
Theorem C120_superposition : forall F al be fuel x y z xStop h P Y Q Z, linear_rhs F ->
  RK4 fuel F x y xStop h = Some (P, Y) -> RK4 fuel F x z xStop h = Some (Q, Z) ->
  P = Q /\ exists W, RK4 fuel F x (combine_states al be y z) xStop h = Some (P, W) /\ length W = length P /\
  forall k, (k < length P)%nat -> nth k W (fun _ => 0) = combine_states al be (nth k Y (fun _ => 0)) (nth k Z (fun _ => 0)).
Proof. exact rk4_superposition. Qed.
Print Assumptions C120_superposition.

(** On another interval (in another unit, from another origin, even reversed) the derivative matrix of order k is the old one divided by the k-th power of the unit, after any requests before; orders below 1 are refused alike. *)
Theorem C120_matder : forall n l r a b past k, a <> 0 ->
  fst (matder k (on_interval n (abscissa a b l) (abscissa a b r) past)) = rescaled_matrix a k (fst (matder k (on_interval n l r past))).
Proof. exact matder_units. Qed.
Print Assumptions C120_matder.

(** The collocation points are converted like the interval, and converted abscissae have the same position in [-1, 1]. *)
Theorem C120_nodes : forall n l r a b i v x, a <> 0 ->
  (cheb_x n (Some l) (Some r) i = Some v -> cheb_x n (Some (abscissa a b l)) (Some (abscissa a b r)) i = Some (abscissa a b v)) /\
  x_to_xi (Some (abscissa a b l)) (Some (abscissa a b r)) (Some (abscissa a b x)) = x_to_xi (Some l) (Some r) (Some x).
Proof. exact nodes_units. Qed.
Print Assumptions C120_nodes.

(** extrapol at a converted abscissa, and fit_to_gauss of samples at converted abscissae, return exactly what they return before conversion, with any linear solver and least squares routine, after any requests. *)
Theorem C120_interpolation : forall solve lstsq n l r a b past fk x m (xs : nat -> R) f, a <> 0 ->
  extrapol solve (on_interval n (abscissa a b l) (abscissa a b r) past) fk (Some (abscissa a b x)) = extrapol solve (on_interval n l r past) fk (Some x) /\
  fit_to_gauss lstsq (on_interval n (abscissa a b l) (abscissa a b r) past) m (fun i => Some (abscissa a b (xs i))) f =
  fit_to_gauss lstsq (on_interval n l r past) m (fun i => Some (xs i)) f.
Proof. exact interpolation_units. Qed.
Print Assumptions C120_interpolation.

(** a growth rate per hour and per second, an unknown in degrees Celsius and Fahrenheit; a linear system; three points on an interval in metres and millimetres *)
Example C120_example : same_equation 3600 0 (fun _ => 9 / 5) (fun _ => 32) (fun _ y i => - y i) (fun _ y i => - (y i - 32) / 3600) /\
  same_equation 1 0 (fun i => match i with O => 2 | _ => -1 end) (fun _ => 0)
    (fun x y i => match i with O => y 1%nat | _ => x * y 0%nat end) (fun x y i => match i with O => -2 * y 1%nat | _ => - (x * y 0%nat) / 2 end) /\
  linear_rhs (fun x y i => match i with O => y 1%nat | _ => x * y 0%nat end) /\
  (exists fuel P Y, RK4 fuel (fun x y i => match i with O => y 1%nat | _ => x * y 0%nat end) 0 (fun _ => 1) 1 (1 / 2) = Some (P, Y)) /\
  fst (matder 1 (on_interval 3 0 2000 nil)) = rescaled_matrix 1000 1 (fst (matder 1 (on_interval 3 0 2 nil))) /\
  (exists A, fst (matder 1 (on_interval 3 0 2 nil)) = Matrix A).
Proof. exact scale_ex. Qed.
