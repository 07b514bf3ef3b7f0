(** Property theorems of L_Secant3.v. Generated by tools/gen.py; statements only, proofs are in L_Secant3.v. *)
From Coquelicot Require Import Coquelicot.
From Verif Require Import L_Num Spec NumSpec M_IterSolve L_Secant L_Secant2.
From Verif Require Import L_Secant3.
Open Scope R_scope.

(** Runs that stay in an interval. Let f be differentiable on [lo, hi] with a positive, non-increasing slope, let r be the root of f = f(r) in it, and let the tangent at hi fall to the value f(r) at lo or later. Then from every start x with lo <= 0.999 x and 0.01 < x <= hi, on either side of r, every point at which f is evaluated and the answer lie in [lo, hi]. *)
Theorem C27_trapped : forall f F G lo hi r x, lo <= r <= hi -> lo <= x * (999/1000) -> 1/100 < x <= hi ->
  (forall z, lo <= z <= hi -> f (Some z) = Some (F z) /\ is_derive F z (G z) /\ 0 < G z) ->
  (forall a b, lo <= a -> a < b -> b <= hi -> G b <= G a) -> lo <= hi - (F hi - F r) / G hi ->
  exists z, secant_solve f (Some (F r)) (Some x) = Some z /\ lo <= z <= hi /\
    List.Forall (fun p => exists a, p = Some a /\ lo <= a <= hi) (s_evals (secant_run_of f (Some (F r)) (Some x) secant_tol)).
Proof. exact secant_trapped. Qed.
Print Assumptions C27_trapped.

(** f(x) = 4x - x^2 on [1/2, 3/2] with the root 1 of f = 3, started beyond the root at 3/2, meets the hypotheses of C27_trapped. *)
Example C27_trapped_example : exists (F G : R -> R) (lo hi r x : R), F = (fun z => 4 * z - z ^ 2) /\ G = (fun z => 4 - 2 * z) /\ lo = 1/2 /\ hi = 3/2 /\ r = 1 /\ x = 3/2 /\ F r = 3 /\
  lo <= r <= hi /\ lo <= x * (999/1000) /\ 1/100 < x <= hi /\ (forall z, lo <= z <= hi -> is_derive F z (G z) /\ 0 < G z) /\
  (forall a b, lo <= a -> a < b -> b <= hi -> G b <= G a) /\ lo <= hi - (F hi - F r) / G hi.
Proof. exact secant_trapped_ex. Qed.
