(** Property theorems of L_Spectral3.v. Generated by tools/gen.py; statements only, proofs are in L_Spectral3.v. *)
From Verif Require Import Num L_Num PolySpec L_Poly M_Spectral L_Spectral L_Spectral2.
From Verif Require Import L_Spectral3.
Open Scope R_scope.

(** For every npts >= 2, interval xmin < xmax, call history and order k >= 1, matder(k) is a matrix which maps the nodal values of any polynomial with at most npts coefficients to the nodal values of its k-th derivative, exactly. *)
Theorem C47_exact_on_polynomials : forall npts xmin xmax history k p,
  (2 <= npts)%nat -> xmin < xmax -> (1 <= k)%nat -> (length p <= npts)%nat ->
  let c := matder_run history (cheb_init npts (Some (Some xmin)) (Some (Some xmax))) in
  let x := cheb_x npts (cb_xmin c) (cb_xmax c) in
  exists A, fst (matder k c) = Matrix A /\
  forall i, (i < npts)%nat -> exists xi, x i = Some xi /\
    matvec npts A (fun j => option_map (peval p) (x j)) i = Some (Derive_n (peval p) k xi).
Proof. exact exact_on_polynomials. Qed.
Print Assumptions C47_exact_on_polynomials.

(** Constants are mapped to zero by every differentiation matrix. *)
Theorem C47_constants : forall npts xmin xmax history k v,
  (2 <= npts)%nat -> xmin < xmax -> (1 <= k)%nat ->
  let c := matder_run history (cheb_init npts (Some (Some xmin)) (Some (Some xmax))) in
  exists A, fst (matder k c) = Matrix A /\
  forall i, (i < npts)%nat -> matvec npts A (fun _ => Some v) i = Some 0.
Proof. exact constants_to_zero. Qed.
Print Assumptions C47_constants.

(** The bound on the degree is sharp: with npts = 2 the first differentiation matrix is not exact on the polynomial x^2. *)
Theorem C47_too_few_points : exists A, fst (matder 1%nat (cheb_init 2%nat None None)) = Matrix A /\
  exists d, matvec 2%nat A (fun j => option_map (peval (0 :: 0 :: 1 :: nil)) (cheb_x 2%nat (Some (-1)) (Some 1) j)) 1%nat = Some d /\
  cheb_x 2%nat (Some (-1)) (Some 1) 1%nat = Some 1 /\ d <> Derive_n (peval (0 :: 0 :: 1 :: nil)) 1%nat 1.
Proof. exact too_few_points. Qed.
Print Assumptions C47_too_few_points.

(** hypotheses are met by a cubic on 5 points of [0, 3], second derivative, after other requests. *)
Example C47_example : exists A, fst (matder 2%nat (matder_run (1 :: 4 :: nil)%nat (cheb_init 5%nat (Some (Some 0)) (Some (Some 3))))) = Matrix A /\
  matvec 5%nat A (fun j => option_map (fun x => 1 + x ^ 3) (cheb_x 5%nat (Some 0) (Some 3) j)) 4%nat = Some 18.
Proof. exact exact_ex. Qed.
