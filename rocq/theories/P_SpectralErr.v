(** Property theorems of L_SpectralErr.v. Generated by tools/gen.py; statements only, proofs are in L_SpectralErr.v. *)
From Verif Require Import Num L_Num PolySpec SmoothSpec LinalgSpec L_Poly M_Spectral M_SpectralNB L_Spectral L_Spectral2 L_Spectral3 L_Spectral4.
From Verif Require Import L_SpectralErr.
Open Scope R_scope.

(** For every npts >= 2, interval, call history, order 1 <= k <= npts and function with all its derivatives on [xmin, xmax], the derivative of order npts being bounded by B there: the matrix matder(k), applied to the values of the function at the collocation points, gives its k-th derivative at each of them within B (xmax-xmin)^(npts-k) / (npts-k)!; and for k = 1 within 4 (npts-1) ((xmax-xmin)/4)^(npts-1) B / npts!. *)
Theorem C110_derivative : forall npts xmin xmax history k F B,
  (2 <= npts)%nat -> xmin < xmax -> (1 <= k <= npts)%nat -> derivatives_on xmin xmax F -> (forall y, xmin <= y <= xmax -> Rabs (F npts y) <= B) ->
  let c := matder_run history (cheb_init npts (Some (Some xmin)) (Some (Some xmax))) in
  let x := cheb_x npts (cb_xmin c) (cb_xmax c) in
  exists A, fst (matder k c) = Matrix A /\
  forall i, (i < npts)%nat -> exists xi d, x i = Some xi /\ xmin <= xi <= xmax /\
    matvec npts A (fun j => option_map (F 0%nat) (x j)) i = Some d /\
    Rabs (d - F k xi) <= B * (xmax - xmin) ^ (npts - k) / INR (fact (npts - k)) /\
    (k = 1%nat -> Rabs (d - F 1%nat xi) <= 4 * INR (npts - 1) * ((xmax - xmin) / 4) ^ (npts - 1) * B / INR (fact npts)).
Proof. exact derivative_error. Qed.
Print Assumptions C110_derivative.

(** Interpolation: under the same hypotheses and with a linear solver whose answers solve the system, every value that extrapol returns at a point of [xmin, xmax] from the values of the function at the collocation points differs from the value of the function by at most 4 ((xmax-xmin)/4)^npts B / npts!. *)
Theorem C110_interpolation : forall solve npts xmin xmax F B z y,
  solves_linear solve -> (2 <= npts)%nat -> xmin < xmax -> derivatives_on xmin xmax F -> (forall y, xmin <= y <= xmax -> Rabs (F npts y) <= B) -> xmin <= z <= xmax ->
  let c := cheb_init npts (Some (Some xmin)) (Some (Some xmax)) in
  extrapol solve c (fun i => option_map (F 0%nat) (cheb_x npts (cb_xmin c) (cb_xmax c) i)) (Some z) = Some y ->
  Rabs (y - F 0%nat z) <= 4 * ((xmax - xmin) / 4) ^ npts * B / INR (fact npts).
Proof. exact interpolation_error. Qed.
Print Assumptions C110_interpolation.

(** The bound for k = 1 cannot be lowered, for any number of points: on [-1, 1], for every npts >= 2 there is a polynomial of degree npts whose derivative of order npts is a constant B > 0, and whose computed derivative at the first point is wrong by exactly 4 (npts-1) (2/4)^(npts-1) B / npts!. *)
Theorem C110_attained : forall npts, (2 <= npts)%nat ->
  let c := cheb_init npts None None in let x := cheb_x npts (cb_xmin c) (cb_xmax c) in
  exists p B A d, (length p = S npts)%nat /\ 0 < B /\ (forall y, Derive_n (peval p) npts y = B) /\ fst (matder 1%nat c) = Matrix A /\ x 0%nat = Some (-1) /\
    matvec npts A (fun j => option_map (peval p) (x j)) 0%nat = Some d /\
    Rabs (d - Derive_n (peval p) 1%nat (-1)) = 4 * INR (npts - 1) * (2 / 4) ^ (npts - 1) * B / INR (fact npts).
Proof. exact bound_attained. Qed.
Print Assumptions C110_attained.
