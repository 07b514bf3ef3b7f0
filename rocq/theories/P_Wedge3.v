(** Property theorems of L_Wedge3.v. Generated by tools/gen.py; statements only, proofs are in L_Wedge3.v. *)
From Coquelicot Require Import Coquelicot.
From Verif Require Import L_Num Spec NumSpec PolarSpec WedgeSpec M_Isentropic M_MassFlow M_Degree M_IterSolve M_ShockWave M_Supersonic M_Wedge L_Isentropic L_Degree L_Shock L_Oblique L_Oblique2 L_WeakStrong L_Sigma2 L_Sigma3 L_Polar L_Sonic L_DevMax L_Wedge.
From Verif Require Import L_Wedge3.
Open Scope R_scope.

(** Attached is not enough for a regular reflexion: for every gamma > 1 and M > 1 there is a deflection d0 below dev_Sonic such that every deflection d between d0 and dev_Sonic leaves a supersonic flow behind its weak shock, but one whose dev_Max is smaller than d. *)
Theorem C91_mach_reflexion : forall g M, 1 < g -> 1 < M -> exists d0 ds, dev_Sonic (Some M) (Some g) = Some ds /\ 0 < d0 < ds /\
  forall d w, d0 <= d < ds -> weaksigma_Mach_deflection (Some M) (Some d) (Some g) = Some w ->
    exists m dm, ndiv (downstream_Mn (nmul (Some M) (dsin (Some w))) (Some g)) (dsin (Some (w - d))) = Some m /\ 1 < m /\ dev_Max (Some m) (Some g) = Some dm /\ dm < d.
Proof. exact no_regular. Qed.
Print Assumptions C91_mach_reflexion.
