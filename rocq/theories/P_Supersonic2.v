(** Property theorems of L_Supersonic2.v. Generated by tools/gen.py; statements only, proofs are in L_Supersonic2.v. *)
From Coquelicot Require Import Coquelicot.
From Verif Require Import L_Num Spec NumSpec M_Isentropic M_MassFlow M_IterSolve M_Supersonic L_Isentropic L_Degree L_Supersonic L_Secant L_Secant2 L_Model1D L_Propulsion.
From Verif Require Import L_Supersonic2.
Open Scope R_scope.

(** The secant inversion of the Prandtl-Meyer function, for every gamma >= 1.11 and every Mach number m >= 2: given the Prandtl-Meyer angle of m, the iteration stays supersonic, never evaluates the function beyond m, and returns z with 2 <= z <= m; if it ends without its warning, the Prandtl-Meyer angle of z is within 2e-5 z radians of the requested one. *)
Theorem C22_secant_inverse : forall g m w, 111/100 <= g -> 2 <= m -> PrandtlMeyer_Mach (Some m) (Some g) = Some w ->
  let run := secant_run_of (fun M => PrandtlMeyer_Mach M (Some g)) (Some w) (Some 2) secant_tol in
  exists z, old_Mach_PrandtlMeyer (Some w) (Some g) = Some z /\ 2 <= z <= m /\
    List.Forall (fun p => exists a, p = Some a /\ 2 * (999/1000) <= a <= m) (s_evals run) /\
    (s_warned run = false -> exists w', PrandtlMeyer_Mach (Some z) (Some g) = Some w' /\ Rabs (w' - w) <= 2 / 100000 * z * (180 / PI)).
Proof. exact old_inverse. Qed.
Print Assumptions C22_secant_inverse.

(** gamma = 1.4, the Prandtl-Meyer angle of Mach 3: the hypotheses hold and the answer is between 2 and 3. *)
Example C22_secant_example : exists w z, PrandtlMeyer_Mach (Some 3) (Some (7/5)) = Some w /\ old_Mach_PrandtlMeyer (Some w) (Some (7/5)) = Some z /\ 2 <= z <= 3.
Proof. exact C22_secant_example_lemma. Qed.
