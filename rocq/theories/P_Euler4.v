(** Property theorems of L_Euler4.v. Generated by tools/gen.py; statements only, proofs are in L_Euler4.v. *)
From Coq Require Import String.
From Verif Require Import Num L_Num Spec M_Model1D M_Spectral M_Euler PolySpec EulerSpec L_Poly L_Spectral L_Spectral2 L_Spectral3 L_Euler1 L_Euler2 L_Euler3 L_Model1D.
From Verif Require Import L_Euler4.
Open Scope R_scope.

(** On a new Euler1D object, after set_basestate and set_BC('sym', 'sym'), the first get_RHS_time_matrices returns, for every n >= 3, interval, base state and perturbation: at interior nodes the linearised Euler equations, with an exact differentiation matrix and the identity in time; at both end nodes rho_x, u, p_x without time derivative. *)
Theorem C49_assembled_sym : forall n a b h q r u p g w, (2 <= n)%nat -> a < b -> finite_base n q r u p g ->
  let s := erun (OpBase q :: OpBC (ArgStr "sym") (ArgStr "sym") :: nil) (h, euler_init n (Some (Some a)) (Some (Some b)) None) in
  exists o x d, fst (fst (get_RHS_time_matrices (fst s) (snd s))) = inr o /\ o_size o = (3 * n)%nat /\
  (forall i, (i < n)%nat -> cheb_x n (Some a) (Some b) i = Some (x i)) /\ differentiates n x 1 d /\
  let Bw := matvec (3 * n) (o_B o) (fun j => Some (w j)) in let Aw := matvec (3 * n) (o_At o) (fun j => Some (w j)) in
  (forall k, (0 < k < n - 1)%nat -> linearised_rows n d r u p g w Bw Aw k) /\
  symmetry_rows n d w Bw Aw 0 /\ symmetry_rows n d w Bw Aw (n - 1).
Proof. exact assembled_sym. Qed.
Print Assumptions C49_assembled_sym.

(** The same with periodic conditions at both ends. *)
Theorem C49_assembled_per : forall n a b h q r u p g w, (2 <= n)%nat -> a < b -> finite_base n q r u p g ->
  let s := erun (OpBase q :: OpBC (ArgStr "per") (ArgStr "per") :: nil) (h, euler_init n (Some (Some a)) (Some (Some b)) None) in
  exists o x d, fst (fst (get_RHS_time_matrices (fst s) (snd s))) = inr o /\ o_size o = (3 * n)%nat /\
  (forall i, (i < n)%nat -> cheb_x n (Some a) (Some b) i = Some (x i)) /\ differentiates n x 1 d /\
  let Bw := matvec (3 * n) (o_B o) (fun j => Some (w j)) in let Aw := matvec (3 * n) (o_At o) (fun j => Some (w j)) in
  (forall k, (0 < k < n - 1)%nat -> linearised_rows n d r u p g w Bw Aw k) /\ periodic_rows n d w Bw Aw.
Proof. exact assembled_per. Qed.
Print Assumptions C49_assembled_per.

(** a non-uniform base state on five nodes *)
Example C49_example : finite_base 5%nat (mk_estate (fun i => Some (1 + INR i)) (fun i => Some (2 - INR i)) (fun i => Some (INR i ^ 2)) (Some (5/3)))
  (fun i => 1 + INR i) (fun i => 2 - INR i) (fun i => INR i ^ 2) (5/3) /\ (2 <= 5)%nat /\ 0 < 1.
Proof. exact C49_ex. Qed.
