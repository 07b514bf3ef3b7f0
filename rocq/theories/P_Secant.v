(** Property theorems of L_Secant.v. Generated by tools/gen.py; statements only, proofs are in L_Secant.v. *)
From Coquelicot Require Import Coquelicot.
From Verif Require Import L_Num Spec NumSpec M_Degree M_IterSolve M_ShockWave L_Degree L_Shock L_Oblique.
From Verif Require Import L_Secant.
Open Scope R_scope.

(** For every f, target, start and tolerance, one call evaluates f at most 20 times (and the first time at the given start). *)
Theorem C27_evaluations : forall f y x tol,
  (length (s_evals (secant_run_of f y x tol)) <= 20)%nat /\
  head (s_evals (secant_run_of f y x tol)) = Some x.
Proof. exact secant_evals. Qed.
Print Assumptions C27_evaluations.

(** If a call returns r without the warning after more than one evaluation, and f is L-Lipschitz between the points it is evaluated at, then |f - y| at the last evaluated point is at most L*max(tol, tol*|r|), and at r itself (when r is in the Lipschitz region) at most twice that. *)
Theorem C27_residual : forall (f : num -> num) (D : R -> Prop) L y x tol r, 0 <= L ->
  let run := secant_run_of f (Some y) (Some x) (Some tol) in
  (forall a b u v, D a -> D b -> f (Some a) = Some u -> f (Some b) = Some v -> Rabs (u - v) <= L * Rabs (a - b)) ->
  (forall a, In (Some a) (s_evals run) -> D a) ->
  s_warned run = false -> s_result run = Some r -> (2 <= length (s_evals run))%nat ->
  exists b v, last (s_evals run) None = Some b /\ f (Some b) = Some v /\
    Rabs (v - y) <= L * Rmax tol (tol * Rabs r) /\
    (forall w, D r -> f (Some r) = Some w -> Rabs (w - y) <= 2 * L * Rmax tol (tol * Rabs r)).
Proof. exact secant_residual. Qed.
Print Assumptions C27_residual.

(** With the default tolerance, f is consulted beyond its start exactly when the start exceeds 0.01 in absolute value. *)
Theorem C27_start : forall f y x, 
  (2 <= length (s_evals (secant_run_of f y (Some x) secant_tol)))%nat <-> 1/100 < Rabs x.
Proof. exact secant_start. Qed.
Print Assumptions C27_start.

(** From any start with |x| <= 0.01 (0 included) secant_solve returns 0.999*x whatever f and the target are, without a warning: the answer does ignore f there. *)
Theorem C27_small_start_refuted : forall f y x, Rabs x <= 1/100 ->
  secant_solve f y (Some x) = Some (x * (999/1000)) /\ s_warned (secant_run_of f y (Some x) secant_tol) = false.
Proof. exact secant_small. Qed.
Print Assumptions C27_small_start_refuted.

(** For every affine f with non-zero slope and every start with |x| > 0.01 the answer is the exact root, without a warning. *)
Theorem C27_affine : forall f a b y x, a <> 0 -> 1/100 < Rabs x ->
  (forall z, f (Some z) = Some (a * z + b)) ->
  secant_solve f (Some y) (Some x) = Some ((y - b) / a) /\
  s_warned (secant_run_of f (Some y) (Some x) secant_tol) = false.
Proof. exact secant_affine. Qed.
Print Assumptions C27_affine.

(** If the start multiplied by 0.999 is already a root (and f differs there from its start value) it is returned. *)
Theorem C27_root_fixed : forall f y x vx, 1/100 < Rabs x -> f (Some x) = Some vx -> vx <> y ->
  f (Some (x * (999/1000))) = Some y ->
  secant_solve f (Some y) (Some x) = Some (x * (999/1000)) /\
  s_evals (secant_run_of f (Some y) (Some x) secant_tol) = [Some x; Some (x * (999/1000))] /\
  s_warned (secant_run_of f (Some y) (Some x) secant_tol) = false.
Proof. exact secant_root. Qed.
Print Assumptions C27_root_fixed.

(** a run that meets every hypothesis of C27_residual: f(z) = 2z from 1 towards 3. *)
Example C27_example : forall f : num -> num, (forall z, f (Some z) = Some (2 * z)) ->
  secant_solve f (Some 3) (Some 1) = Some (3/2) /\
  s_warned (secant_run_of f (Some 3) (Some 1) secant_tol) = false /\
  (2 <= length (s_evals (secant_run_of f (Some 3%R) (Some 1%R) secant_tol)))%nat.
Proof. exact secant_ex. Qed.
