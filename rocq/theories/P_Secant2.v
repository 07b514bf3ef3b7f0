(** Property theorems of L_Secant2.v. Generated by tools/gen.py; statements only, proofs are in L_Secant2.v. *)
From Coquelicot Require Import Coquelicot.
From Verif Require Import L_Num Spec NumSpec M_IterSolve L_Secant.
From Verif Require Import L_Secant2.
Open Scope R_scope.

(** Runs that cannot diverge. Let r be a root of f = y, and let the start x (|x| > 0.01) and 0.999 x lie on the same side of r. If, on that side, f - y keeps one sign and the chords from the root steepen with the distance (as for a function bending away from the root's tangent), then every point at which f is evaluated and the answer lie between r and the farther of the two start points, and the answer is at least as close to r as every point evaluated. *)
Theorem C27_one_sided : forall f F r t U y x, (t = 1 \/ t = -1) -> 1/100 < Rabs x ->
  (forall z, beside r t U z -> f (Some z) = Some (F z)) -> F r = y ->
  (forall a b, beside r t U a -> beside r t U b -> a <> r -> b <> r -> 0 < (F a - y) * (F b - y)) ->
  (forall a b, beside r t U a -> beside r t U b -> Rabs (a - r) <= Rabs (b - r) -> Rabs (F a - y) * Rabs (b - r) <= Rabs (F b - y) * Rabs (a - r)) ->
  beside r t U x -> beside r t U (x * (999/1000)) ->
  exists z, secant_solve f (Some y) (Some x) = Some z /\ beside r t U z /\
    List.Forall (fun e => exists a, e = Some a /\ beside r t U a /\ Rabs (z - r) <= Rabs (a - r)) (s_evals (secant_run_of f (Some y) (Some x) secant_tol)).
Proof. exact secant_one_sided. Qed.
Print Assumptions C27_one_sided.

(** In particular, for every f that is differentiable between the start and a root above it, with a slope of one sign that gets no steeper towards the root: from a positive start x > 0.01 below the root r the answer z satisfies x <= z <= r, and no point beyond r is ever evaluated. *)
Theorem C27_concave : forall f F G r e x, (e = 1 \/ e = -1) -> 1/100 < x -> x <= r ->
  (forall z, x * (999/1000) <= z <= r -> f (Some z) = Some (F z) /\ is_derive F z (G z)) ->
  (forall z, x * (999/1000) <= z < r -> 0 < e * G z) ->
  (forall a b, x * (999/1000) <= a -> a < b -> b <= r -> e * G b <= e * G a) ->
  exists z, secant_solve f (Some (F r)) (Some x) = Some z /\ x <= z <= r /\
    List.Forall (fun p => exists a, p = Some a /\ x * (999/1000) <= a <= r) (s_evals (secant_run_of f (Some (F r)) (Some x) secant_tol)).
Proof. exact secant_below. Qed.
Print Assumptions C27_concave.
