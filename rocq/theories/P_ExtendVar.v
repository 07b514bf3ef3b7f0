(** Property theorems of L_ExtendVar.v. Generated by tools/gen.py; statements only, proofs are in L_ExtendVar.v. *)
From Coq Require Import String Ascii.
From Verif Require Import Num L_Num M_DicoVar DicoVarSpec M_ExtendVar CalculatorSpec L_DicoVar.
From Verif Require Import L_ExtendVar.
Open Scope R_scope.

(** After every history of dictionary calls that leaves the names P, rho, V, Vx, Vy bound to proper field names, expressions_from_rhopv returns a dictionary in which every other name is unchanged and whose expressions, read and evaluated by the rules of the vtk calculator at any point with positive pressure and density, give: Pt the isentropic total pressure, T the temperature of a gas with r = 287.1, S = ln(p/rho^1.4), V the speed, a the speed of sound, Mach their ratio, Mx the axial Mach number if Vx is called U_X, and alpha the flow angle in degrees if the axial velocity is positive. PARTIAL: the restrictions on Mx and alpha are needed, other software lacks the names, and the module cannot be imported, see C67_expressions_refuted and C78. *)
Theorem C67_expressions_partial : forall h P rho Vel Vx Vy, named (contents (after h imported)) P rho Vel Vx Vy ->
  exists x, expressions_from_rhopv (contents (after h imported)) = Some x /\
  (forall k, ~ In k new_names -> lookup x k = lookup (contents (after h imported)) k) /\
  forall env p r u v w, at_point env P rho Vel Vx Vy p r u v w ->
    let a := gas_sound p r in let V := speed u v w in
    gives env x "Pt" (p * Rpower (1 + (14 / 10 - 1) / 2 * (V / a) ^ 2) ((14 / 10) / (14 / 10 - 1))) /\
    gives env x "T" (p / (r * (2871 / 10))) /\ gives env x "S" (ln (p / Rpower r (14 / 10))) /\
    gives env x "V" V /\ gives env x "a" a /\ gives env x "Mach" (V / a) /\
    (Vx = "U_X"%string -> gives env x "Mx" (u / a)) /\ (0 < u -> gives env x "alpha" (Ratan2 v u * (180 / PI))).
Proof. exact expressions. Qed.
Print Assumptions C67_expressions_partial.

(** The expressions are wrong outside those restrictions. After any history that leaves the five names bound: (1) Mx reads a field called U_X whatever Vx is called, so where no field has that name it has no value; (2) at every point with negative axial velocity alpha is not the flow angle, it is off by 180 degrees; (3) where the axial velocity is zero alpha has no value. And (4) after switching to OpenFOAM, in any spelling and after any history, expressions_from_rhopv raises ValueError. *)
Theorem C67_expressions_refuted :
  (forall h P rho Vel Vx Vy, named (contents (after h imported)) P rho Vel Vx Vy ->
     exists x, expressions_from_rhopv (contents (after h imported)) = Some x /\
     forall env p r u v w, at_point env P rho Vel Vx Vy p r u v w ->
       (env "U_X"%string = None -> forall y, ~ gives env x "Mx" y) /\
       (u < 0 -> exists y, gives env x "alpha" y /\ Rabs (y - Ratan2 v u * (180 / PI)) = 180) /\
       (u = 0 -> forall y, ~ gives env x "alpha" y)) /\
  (forall h s, denotes s OpenFOAM -> expressions_from_rhopv (contents (after (app h (SetDicoVar s :: nil)) imported)) = None).
Proof. exact expressions_refuted. Qed.
Print Assumptions C67_expressions_refuted.

(** Example: right after import the five names are bound to proper field names, with Vx called U_X; and a point with unit pressure and density. *)
Example C67_example : named (contents (after nil imported)) "P" "RHO" "U" "U_X" "U_Y" /\
  exists env, at_point env "P" "RHO" "U" "U_X" "U_Y" 1 1 3 4 0.
Proof. exact expressions_example. Qed.
