(** Property theorems of L_ConicalEx.v. Generated by tools/gen.py; statements only, proofs are in L_ConicalEx.v. *)
From Verif Require Import Num L_Num M_Degree M_IterSolve M_ShockWave M_Ode M_Conical ConicalSpec L_Conical.
From Coquelicot Require Import Coquelicot.
From Verif Require Import L_ConicalEx.
Open Scope R_scope.

(** A run that returns: gamma = 1.001, shock angle sigma = degrees(atan 3335), normal Mach number M sin sigma = 20 and tolerance sigma: a wall deflection is returned, so the hypotheses of C58_wall are met. *)
Example C58_example : forall sigma M, sigma = atan 3335 * (180 / PI) -> M = 20 / sin (atan 3335) ->
  sigma <= Rabs sigma /\
  exists d, conical_deflection_Mach_sigma 1 (Some M) (Some sigma) (Some (1001 / 1000)) sigma = Some d.
Proof. exact conical_example. Qed.
