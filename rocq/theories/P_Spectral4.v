(** Property theorems of L_Spectral4.v. Generated by tools/gen.py; statements only, proofs are in L_Spectral4.v. *)
From Verif Require Import Num L_Num PolySpec LinalgSpec L_Poly M_Spectral L_Spectral L_Spectral2 L_Spectral3.
From Verif Require Import L_Spectral4.
Open Scope R_scope.

(** For every npts >= 2, interval, finite data fk and linear solver whose answers solve the system: when extrapol returns at all, it returns the value of one fixed polynomial with at most npts coefficients, and that polynomial takes the values fk at the nodes. *)
Theorem C71_extrapol_interpolates : forall solve npts xmin xmax fk,
  solves_linear solve -> (2 <= npts)%nat -> xmin < xmax ->
  let c := cheb_init npts (Some (Some xmin)) (Some (Some xmax)) in
  (forall x, extrapol solve c (fun i => Some (fk i)) x = None) \/
  exists p, (length p <= npts)%nat /\
    (forall x, extrapol solve c (fun i => Some (fk i)) (Some x) = Some (peval p x)) /\
    forall i, (i < npts)%nat -> option_map (peval p) (cheb_x npts (cb_xmin c) (cb_xmax c) i) = Some (fk i).
Proof. exact extrapol_interpolates. Qed.
Print Assumptions C71_extrapol_interpolates.

(** On the nodal values of a polynomial p with at most npts coefficients, every value extrapol returns is p(x), also outside [xmin, xmax]. *)
Theorem C71_extrapol_exact : forall solve npts xmin xmax p x y,
  solves_linear solve -> (2 <= npts)%nat -> xmin < xmax -> (length p <= npts)%nat ->
  let c := cheb_init npts (Some (Some xmin)) (Some (Some xmax)) in
  extrapol solve c (fun i => option_map (peval p) (cheb_x npts (cb_xmin c) (cb_xmax c) i)) (Some x) = Some y ->
  y = peval p x.
Proof. exact extrapol_exact. Qed.
Print Assumptions C71_extrapol_exact.

(** The interpolation system always has exactly one solution, so a linear solver that fails only on systems without a unique solution never fails here. *)
Theorem C71_system_is_regular : forall npts (fk : nat -> R), (2 <= npts)%nat ->
  let row (t : nat -> R) i := numsum npts (fun k => nmul (chebvander (cheb_xi npts) i k) (Some (t k))) in
  exists t, (forall i, (i < npts)%nat -> row t i = Some (fk i)) /\
  forall u, (forall i, (i < npts)%nat -> row u i = Some (fk i)) -> forall k, (k < npts)%nat -> u k = t k.
Proof. exact system_is_regular. Qed.
Print Assumptions C71_system_is_regular.

(** fit_to_gauss applied to samples of a polynomial p with at most npts coefficients, taken at points containing at least npts distinct ones, returns the values of p at the collocation points, for every least-squares solver. *)
Theorem C72_fit_exact : forall lstsq npts xmin xmax p m (x : nat -> R) out,
  least_squares lstsq -> (2 <= npts)%nat -> xmin < xmax -> (length p <= npts)%nat ->
  (exists idx, length idx = npts /\ NoDup (map x idx) /\ forall i, In i idx -> (i < m)%nat) ->
  let c := cheb_init npts (Some (Some xmin)) (Some (Some xmax)) in
  fit_to_gauss lstsq c m (fun i => Some (x i)) (fun i => Some (peval p (x i))) = Some out ->
  forall i, (i < npts)%nat -> out i = option_map (peval p) (cheb_x npts (cb_xmin c) (cb_xmax c) i).
Proof. exact fit_exact. Qed.
Print Assumptions C72_fit_exact.

(** With two points on [0, 4], the values 1 and 3 and an exact solver, extrapol is defined and gives the straight line, also outside the interval: 5 at x = 8. *)
Example C71_example : solves_linear cramer2 /\
  extrapol cramer2 (cheb_init 2%nat (Some (Some 0)) (Some (Some 4))) (fun i => Some (1 + 2 * INR i)) (Some 8) = Some 5.
Proof. exact extrapol_ex. Qed.

(** The hypotheses of the fitting theorem are met by two samples of a line. *)
Example C72_example : exists lstsq out, least_squares lstsq /\
  fit_to_gauss lstsq (cheb_init 2%nat (Some (Some 0)) (Some (Some 4))) 2%nat (fun i => Some (INR i)) (fun i => Some (peval (1 :: 2 :: nil) (INR i))) = Some out /\
  NoDup (map INR (0 :: 1 :: nil)%nat).
Proof. exact fit_ex. Qed.
