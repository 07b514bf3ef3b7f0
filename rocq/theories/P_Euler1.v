(** Property theorems of L_Euler1.v. Generated by tools/gen.py; statements only, proofs are in L_Euler1.v. *)
From Verif Require Import Num L_Num M_Spectral M_Euler EulerSpec L_Poly L_Spectral L_Spectral2 L_Spectral3.
From Verif Require Import L_Euler1.
Open Scope R_scope.

(** For every size, differentiation matrix, base state with non-zero density and finite values, and every perturbation w of (rho, u, p): the rows of the operator assembled before boundary conditions, applied to w, are the derivatives at eps = 0 of the discretised density, velocity and pressure equations along base + eps w. *)
Theorem C49_linearisation : forall n D d q r u p g w k,
  (forall i j, (i < n)%nat -> (j < n)%nat -> D i j = Some (d i j)) ->
  (forall i, (i < n)%nat -> e_rho q i = Some (r i) /\ e_u q i = Some (u i) /\ e_p q i = Some (p i) /\ r i <> 0) ->
  e_g q = Some g -> (k < n)%nat ->
  let Bw := matvec (3 * n) (euler_B n D q) (fun j => Some (w j)) in
  exists b0 b1 b2, Bw k = Some b0 /\ Bw (n + k)%nat = Some b1 /\ Bw (2 * n + k)%nat = Some b2 /\
  is_derive (fun eps => rho_t n d (pert r eps w 0) (pert u eps w n) k) 0 b0 /\
  is_derive (fun eps => u_t n d (pert r eps w 0) (pert u eps w n) (pert p eps w (2 * n)) k) 0 b1 /\
  is_derive (fun eps => p_t n d g (pert u eps w n) (pert p eps w (2 * n)) k) 0 b2.
Proof. exact linearisation. Qed.
Print Assumptions C49_linearisation.
