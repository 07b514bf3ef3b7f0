(** Property theorems of L_Eigen2.v. Generated by tools/gen.py; statements only, proofs are in L_Eigen2.v. *)
From Coq Require Import String.
From Verif Require Import Num L_Num M_Spectral M_Euler M_OrrSommerfeld M_Eigen EigenSpec L_Poly L_Spectral3 L_Spectral4 L_OrrSommerfeld L_Model1D.
From Coquelicot Require Import Complex.
From Verif Require Import L_Eigen2.
Open Scope R_scope.

(** For every pair of matrices B and At, start vector of non zero norm, start value and number of iterations, with a linear solver whose finite solutions are solutions: when converge_eigenpair returns a finite eigenvalue, the returned vector is finite and of unit norm, and the eigenvalue is its Rayleigh quotient for the problem B v = w (-i At) v - unless no system could be solved and the start value and normalised start vector are returned. *)
Theorem C70_unit_rayleigh : forall n B A solve v0 w0 niter w v, norm2 n v0 <> 0 ->
  solver n (fun K v w => solve K v = Solved w) ->
  converge_eigenpair n solve (fun i j => Some (B i j)) (fun i j => Some (A i j)) (Some w0) (fun i => Some (v0 i)) niter = inr (Some w, v) ->
  exists v', (forall i, (i < n)%nat -> v i = Some (v' i)) /\ norm2 n v' = 1 /\
  (rayleigh n B (fun i j => (- Ci * A i j)%C) v' w \/
   w = w0 /\ forall i, (i < n)%nat -> v' i = (v0 i * RtoC (1 / sqrt (norm2 n v0)))%C).
Proof. exact unit_rayleigh. Qed.
Print Assumptions C70_unit_rayleigh.

(** Moreover if the form v* At v vanishes for no non zero v (for example At the identity), and the solver raises nothing but 'Singular matrix', the call returns and the eigenvalue is finite. *)
Theorem C70_finite : forall n B A solve v0 w0 niter, norm2 n v0 <> 0 ->
  solver n (fun K v w => solve K v = Solved w) -> (forall K v, solve K v <> OtherError) ->
  (forall v, norm2 n v <> 0 -> inner n v (Capply n A v) <> RtoC 0) ->
  exists w v, converge_eigenpair n solve (fun i j => Some (B i j)) (fun i j => Some (A i j)) (Some w0) (fun i => Some (v0 i)) niter = inr (Some w, v).
Proof. exact always_finite. Qed.
Print Assumptions C70_finite.

(** An exact eigenpair is returned unchanged, its vector normalised, for every number of iterations, when the solver reports a singular matrix for singular matrices. *)
Theorem C70_exact_pair : forall n B A solve v0 w0 niter, norm2 n v0 <> 0 ->
  (forall K K' v, (forall i j, (i < n)%nat -> (j < n)%nat -> K i j = Some (K' i j)) -> singular n K' -> solve K v = Singular) ->
  eigenpair n B (fun i j => (- Ci * A i j)%C) w0 v0 ->
  exists v, converge_eigenpair n solve (fun i j => Some (B i j)) (fun i j => Some (A i j)) (Some w0) (fun i => Some (v0 i)) niter = inr (Some w0, v) /\
  forall i, (i < n)%nat -> v i = Some (v0 i * RtoC (1 / sqrt (norm2 n v0)))%C.
Proof. exact exact_pair. Qed.
Print Assumptions C70_exact_pair.

(** An error of the solver other than a singular matrix is propagated. *)
Theorem C70_other_error : forall n B A solve v0 w0 niter, (forall K v, solve K v = OtherError) -> (0 < niter)%nat ->
  converge_eigenpair n solve B A w0 v0 niter = inl EigLinAlg.
Proof. exact other_error. Qed.
Print Assumptions C70_other_error.

(** From an exact eigenvector (also an eigenvector of At) and any other shift, a first iteration finds the exact eigenvalue and the following ones keep it: for every number of iterations from one on the call returns that eigenvalue and a unit eigenvector. The solver is assumed to solve every non singular system and to report the singular ones. *)
Theorem C70_exact_vector : forall n B A solve v0 lam mu w0 niter, norm2 n v0 <> 0 ->
  solver n (fun K v w => solve K v = Solved w) ->
  (forall K K' v, (forall i j, (i < n)%nat -> (j < n)%nat -> K i j = Some (K' i j)) -> singular n K' -> solve K v = Singular) ->
  (forall K K' v, (forall i j, (i < n)%nat -> (j < n)%nat -> K i j = Some (K' i j)) -> ~ singular n K' -> exists w, solve K v = Solved w) ->
  eigenpair n B (fun i j => (- Ci * A i j)%C) lam v0 ->
  mu <> RtoC 0 -> (forall i, (i < n)%nat -> Capply n (fun i j => (- Ci * A i j)%C) v0 i = (mu * v0 i)%C) ->
  w0 <> lam -> ~ singular n (fun i j => (B i j - w0 * (- Ci * A i j))%C) -> (1 <= niter)%nat ->
  exists v v', converge_eigenpair n solve (fun i j => Some (B i j)) (fun i j => Some (A i j)) (Some w0) (fun i => Some (v0 i)) niter = inr (Some lam, v) /\
  (forall i, (i < n)%nat -> v i = Some (v' i)) /\ norm2 n v' = 1 /\ eigenpair n B (fun i j => (- Ci * A i j)%C) lam v'.
Proof. exact exact_vector. Qed.
Print Assumptions C70_exact_vector.

(** Cramer's rule for two unknowns meets all the hypotheses on the solver at once; with B = diag(-i, -3i), At = identity, v = (1, 0) is an eigenvector of eigenvalue 1 and 2 is an admissible shift *)
Example C70_example :
  (solver 2 (fun K v w => cramer K v = Solved w) /\ (forall K v, cramer K v <> OtherError) /\
   (forall K K' v, (forall i j, (i < 2)%nat -> (j < 2)%nat -> K i j = Some (K' i j)) -> singular 2 K' -> cramer K v = Singular) /\
   (forall K K' v, (forall i j, (i < 2)%nat -> (j < 2)%nat -> K i j = Some (K' i j)) -> ~ singular 2 K' -> exists w, cramer K v = Solved w)) /\
  let A := fun i j => if Nat.eqb i j then RtoC 1 else RtoC 0 in
  let B := fun i j => if Nat.eqb i j then (if Nat.eqb i 0 then - Ci else - RtoC 3 * Ci)%C else RtoC 0 in
  let v0 := fun i => if Nat.eqb i 0 then RtoC 1 else RtoC 0 in
  norm2 2 v0 <> 0 /\ eigenpair 2 B (fun i j => (- Ci * A i j)%C) (RtoC 1) v0 /\
  (forall i, (i < 2)%nat -> Capply 2 (fun i j => (- Ci * A i j)%C) v0 i = (- Ci * v0 i)%C) /\
  ~ singular 2 (fun i j => (B i j - RtoC 2 * (- Ci * A i j))%C).
Proof. exact C70_ex. Qed.
