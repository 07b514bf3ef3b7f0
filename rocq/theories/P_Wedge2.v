(** Property theorems of L_Wedge2.v. Generated by tools/gen.py; statements only, proofs are in L_Wedge2.v. *)
From Verif Require Import L_Num Spec NumSpec PolarSpec WedgeSpec M_Isentropic M_MassFlow M_Degree M_IterSolve M_ShockWave M_Supersonic M_Wedge L_Isentropic L_Degree L_Shock L_Oblique L_Oblique2 L_WeakStrong L_Secant L_Sigma L_Sigma2 L_Sigma3 L_Sigma4 L_Polar L_Sonic L_DevMax L_Wedge.
From Verif Require Import L_Wedge2.
Open Scope R_scope.

(** gamma = 1.4, M = 3, d = 1 degree: both shocks are attached, the Mach number behind the first exceeds 1.4, and all the hypotheses of C91_reflexion (hence of C91_shock) hold. *)
Example C91_example : exists dm mu M1 dm1 mu1, dev_Max (Some 3) (Some (7/5)) = Some dm /\ 1 <= dm /\ dasin (ndiv (Some 1) (Some 3)) = Some mu /\ 1/100 < mu + 1 /\
  (forall yend, w_M (rf_1 (reflexion_cells (Some 3) (Some 1) yend (Some (7/5)))) = Some M1) /\ 14/10 < M1 /\
  dev_Max (Some M1) (Some (7/5)) = Some dm1 /\ 1 <= dm1 /\ dasin (ndiv (Some 1) (Some M1)) = Some mu1 /\ 1/100 < mu1 + 1.
Proof. exact wedge_ex. Qed.
