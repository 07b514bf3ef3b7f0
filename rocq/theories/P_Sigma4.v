(** Property theorems of L_Sigma4.v. Generated by tools/gen.py; statements only, proofs are in L_Sigma4.v. *)
From Coq Require Import List Lra Lia.
From Coquelicot Require Import Coquelicot.
From Verif Require Import L_Num Spec NumSpec M_Degree M_IterSolve M_ShockWave L_Degree L_Shock L_Oblique L_Oblique2 L_WeakStrong L_Secant L_Secant2 L_Sigma L_Sigma2 L_Sigma3.
From Verif Require Import L_Sigma4.
Open Scope R_scope.

(** The clause about the sign fails for large negative deflections. Let d < 0 turn the flow by more than the Mach angle mu, so that the default start mu + d is negative, and let the deflection th0 at the mirrored start be at most d. Then sigma_Mach_deflection returns, instead of minus the weak shock angle, a positive angle z below the Mach angle, where no shock exists and the formula happens to give a deflection th with th0 <= th <= d. *)
Theorem C28_negative_refuted : forall g M d mu th0, 1 < g -> 1 < M -> dasin (ndiv (Some 1) (Some M)) = Some mu ->
  d < 0 -> 1/100 < - d - mu < 90 -> deflection_Mach_sigma (Some M) (Some (- d - mu)) (Some g) = Some th0 -> th0 <= d ->
  exists z th, sigma_Mach_deflection (Some M) (Some d) None (Some g) = Some z /\ - d - mu <= z < mu /\
    deflection_Mach_sigma (Some M) (Some z) (Some g) = Some th /\ th0 <= th <= d.
Proof. exact sigma_negative. Qed.
Print Assumptions C28_negative_refuted.

(** At Mach 3 and gamma = 1.4, turning by d = -(mu + 1/2) degrees (about -20): a shock of that deflection exists, the hypotheses of C28_negative_refuted hold, and the function returns a positive angle below the Mach angle. *)
Example C28_negative_example : exists d mu th0 sigma z, dasin (ndiv (Some 1) (Some 3)) = Some mu /\ d = - (mu + 1/2) /\
  0 < sigma < 90 /\ deflection_Mach_sigma (Some 3) (Some sigma) (Some (7/5)) = Some (Rabs d) /\
  1/100 < - d - mu < 90 /\ deflection_Mach_sigma (Some 3) (Some (- d - mu)) (Some (7/5)) = Some th0 /\ th0 <= d /\
  sigma_Mach_deflection (Some 3) (Some d) None (Some (7/5)) = Some z /\ 0 < z < mu.
Proof. exact sigma_negative_ex. Qed.

(** At Mach 3 and gamma = 1.4, where (3 - gamma) M^2 > 4, the deflection of 20 degrees meets the hypotheses of C28_default. *)
Example C28_default_example : exists d mu w sm sigma, 0 < d < 90 /\ 4 < (3 - 7/5) * 3 ^ 2 /\ 0 < sigma < 90 /\ deflection_Mach_sigma (Some 3) (Some sigma) (Some (7/5)) = Some d /\
  dasin (ndiv (Some 1) (Some 3)) = Some mu /\ weaksigma_Mach_deflection (Some 3) (Some d) (Some (7/5)) = Some w /\ sigma_DevMax (Some 3) (Some (7/5)) = Some sm /\ 1/100 < mu + d /\ d = 20.
Proof. exact sigma_default_ex. Qed.

(** Started between the weak and the strong angle the search can fail outright: for every gamma > 1 and M > 1 (whose angle of maximum deflection sm is between 0.01 and 89.91 degrees) there is a starting angle s next to sm, with the deflection th > 0, such that sigma_Mach_deflection started there has no finite result for any deflection; for every deflection d below th this start lies strictly between the two shock angles that solve the problem. *)
Theorem C28_between_refuted : forall g M sm, 1 < g -> 1 < M -> sigma_DevMax (Some M) (Some g) = Some sm -> 1 / 100 < sm < 8991 / 100 ->
  exists s th, 999/1000 * s < sm < s /\ s < 90 /\ 0 < th /\ deflection_Mach_sigma (Some M) (Some s) (Some g) = Some th /\
  (forall d, sigma_Mach_deflection (Some M) (Some d) (Some (Some s)) (Some g) = None) /\
  forall d, 0 < d < th -> exists w st, weaksigma_Mach_deflection (Some M) (Some d) (Some g) = Some w /\ strongsigma_Mach_deflection (Some M) (Some d) (Some g) = Some st /\ w < s < st.
Proof. exact sigma_between. Qed.
Print Assumptions C28_between_refuted.

(** For gamma = 3 and Mach 2 the angle of maximum deflection is 60 degrees, so the hypotheses of C28_between_refuted hold. *)
Example C28_between_example : 1 < 3 /\ 1 < 2 /\ sigma_DevMax (Some 2) (Some 3) = Some 60 /\ 1 / 100 < 60 < 8991 / 100.
Proof. exact sigma_between_ex. Qed.
