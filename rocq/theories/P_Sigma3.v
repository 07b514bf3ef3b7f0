(** Property theorems of L_Sigma3.v. Generated by tools/gen.py; statements only, proofs are in L_Sigma3.v. *)
From Coq Require Import List Lra Lia.
From Coquelicot Require Import Coquelicot.
From Verif Require Import L_Num Spec NumSpec M_Degree M_IterSolve M_ShockWave L_Degree L_Shock L_Oblique L_Oblique2 L_WeakStrong L_Secant L_Secant2 L_Secant3 L_Sigma L_Sigma2.
From Verif Require Import L_Sigma3.
Open Scope R_scope.

(** For every gamma > 1, M > 1 and every attached deflection d > 0, sigma_Mach_deflection called without a start returns an angle z between 0.999 times the Mach angle mu and the larger of the weak shock angle w and mu + d, both of which are at most sigma_DevMax: the weak branch, always. The deflection of z misses d by at most an explicit multiple of the solver tolerance if no warning is printed. (mu + d > 0.01, else the solver stops at once.) *)
Theorem C28_default : forall g M d mu w sm sigma, 1 < g -> 1 < M -> 0 < d < 90 -> 0 < sigma < 90 ->
  deflection_Mach_sigma (Some M) (Some sigma) (Some g) = Some d -> dasin (ndiv (Some 1) (Some M)) = Some mu ->
  weaksigma_Mach_deflection (Some M) (Some d) (Some g) = Some w -> sigma_DevMax (Some M) (Some g) = Some sm -> 1/100 < mu + d ->
  exists z th, sigma_Mach_deflection (Some M) (Some d) None (Some g) = Some z /\ 999/1000 * mu <= z <= Rmax w (mu + d) /\ Rmax w (mu + d) <= sm /\
    deflection_Mach_sigma (Some M) (Some z) (Some g) = Some th /\
    (s_warned (secant_run_of (fun s => deflection_Mach_sigma (Some M) s (Some g)) (Some d) (Some (mu + d)) secant_tol) = false ->
     Rabs (th - d) <= 2 * sigma_lip g M * Rmax (1/100000) (1/100000 * z)).
Proof. exact sigma_default_weak. Qed.
Print Assumptions C28_default.
