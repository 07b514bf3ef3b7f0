(** * What the nozzle theorems assume of scipy.optimize.newton *)
From Verif Require Import Num M_MassFlow.
Open Scope R_scope.

(** On the area-ratio equation Sigma(m) = s, s >= 1, the solver started at a positive
    number returns an exact root, on the side of Mach 1 it was started from; started from a
    value that is not finite it returns none. [branch_solver_exists] in L_Nozzle1.v builds one. *)
Definition branch_solver (g : R) (newton : solver) : Prop :=
  (forall s x0, 1 <= s -> 0 < x0 ->
    exists r, newton (fun m => nsub (Sigma_Mach m (Some g)) (Some s)) (Some x0) = Some r /\
      0 < r /\ Sigma_Mach (Some r) (Some g) = Some s /\
      (1 < s -> x0 < 1 -> r < 1) /\ (1 < s -> 1 < x0 -> 1 < r)) /\
  (forall f, newton f None = None).
