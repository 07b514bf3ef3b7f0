(** * Polynomials for specifications: a coefficient list, constant term first *)
From Coq Require Import Reals List.
Open Scope R_scope.
Fixpoint peval (c : list R) (x : R) : R :=
  match c with nil => 0 | a :: c => a + x * peval c x end.
