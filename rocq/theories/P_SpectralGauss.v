(** Property theorems of L_SpectralGauss.v. Generated by tools/gen.py; statements only, proofs are in L_SpectralGauss.v. *)
From Verif Require Import Num L_Num PolySpec SmoothSpec LinalgSpec L_Poly M_Spectral M_SpectralNB L_Spectral L_Spectral2 L_Spectral3 L_Spectral4 L_SpectralErr.
From Verif Require Import L_SpectralGauss.
Open Scope R_scope.

(** Spectral convergence: if the derivatives of the function satisfy |f^(m)| <= K m! / r^m on [xmin, xmax] for every m (an analytic function), the error of the first derivative at every collocation point is at most 4 K/r (npts-1) ((xmax-xmin)/(4 r))^(npts-1), for every number of points: it decreases geometrically as soon as xmax - xmin < 4 r. *)
Theorem C110_geometric : forall npts xmin xmax history F K r,
  (2 <= npts)%nat -> xmin < xmax -> 0 < r -> derivatives_on xmin xmax F -> (forall m y, xmin <= y <= xmax -> Rabs (F m y) <= K * INR (fact m) / r ^ m) ->
  let c := matder_run history (cheb_init npts (Some (Some xmin)) (Some (Some xmax))) in
  let x := cheb_x npts (cb_xmin c) (cb_xmax c) in
  exists A, fst (matder 1%nat c) = Matrix A /\
  forall i, (i < npts)%nat -> exists xi d, x i = Some xi /\ xmin <= xi <= xmax /\
    matvec npts A (fun j => option_map (F 0%nat) (x j)) i = Some d /\
    Rabs (d - F 1%nat xi) <= 4 * K / r * (INR (npts - 1) * ((xmax - xmin) / (4 * r)) ^ (npts - 1)).
Proof. exact geometric. Qed.
Print Assumptions C110_geometric.

(** The three functions of the worked example (docs/examples/common.numspectral.ipynb) are exp(-(x-0.1)^2) and its first and second derivatives, at every x. *)
Theorem C110_notebook : forall x,
  nb_f (Some x) = Some (exp (- (x - 1 / 10) ^ 2)) /\
  nb_df (Some x) = Some (Derive (fun z => exp (- (z - 1 / 10) ^ 2)) x) /\
  nb_df2 (Some x) = Some (Derive_n (fun z => exp (- (z - 1 / 10) ^ 2)) 2%nat x).
Proof. exact notebook_functions. Qed.
Print Assumptions C110_notebook.

(** The convergence study of the worked example: for every rate q > 0 there is a constant K such that for every number of points n >= 2 the quadratic mean error of the computed first derivative is a number between 0 and K q^n: it decreases faster than every geometric sequence. *)
Theorem C110_convergence : forall q, 0 < q -> exists K, 0 < K /\ forall n, (2 <= n)%nat -> exists e, nb_err n = Some e /\ 0 <= e <= K * q ^ n.
Proof. exact notebook_error. Qed.
Print Assumptions C110_convergence.

(** the exponential on [0, 1/2]: all its derivatives are itself, bounded by 2; four points give its first derivative within 2/1000, whatever was computed before. *)
Example C110_example : derivatives_on 0 (1 / 2) (fun _ => exp) /\
  let c := matder_run (2 :: 3 :: nil)%nat (cheb_init 4 (Some (Some 0)) (Some (Some (1 / 2)))) in
  let x := cheb_x 4 (cb_xmin c) (cb_xmax c) in
  exists A, fst (matder 1%nat c) = Matrix A /\
  forall i, (i < 4)%nat -> exists xi d, x i = Some xi /\ matvec 4 A (fun j => option_map exp (x j)) i = Some d /\ Rabs (d - exp xi) <= 2 / 1000.
Proof. exact accuracy_example. Qed.
