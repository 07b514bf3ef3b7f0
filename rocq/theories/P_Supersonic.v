(** Property theorems of L_Supersonic.v. Generated by tools/gen.py; statements only, proofs are in L_Supersonic.v. *)
From Coquelicot Require Import Coquelicot.
From Verif Require Import L_Num Spec NumSpec M_Isentropic M_Degree M_IterSolve M_MassFlow M_Supersonic L_Isentropic L_Degree.
From Verif Require Import L_Supersonic.
Open Scope R_scope.

(** PrandtlMeyer_Mach has a finite real value exactly when |M| >= 1, and is 0 at M = 1. *)
Theorem C20_domain : forall g M, 1 < g ->
  ((exists w, PrandtlMeyer_Mach (Some M) (Some g) = Some w) <-> 1 <= Rabs M) /\
  PrandtlMeyer_Mach (Some 1) (Some g) = Some 0.
Proof. exact pm_domain. Qed.
Print Assumptions C20_domain.

(** PrandtlMeyer_Mach strictly increases for M >= 1. *)
Theorem C20_increasing : forall g, 1 < g -> incr_on (fun M => 1 <= M) (fun M => PrandtlMeyer_Mach M (Some g)).
Proof. exact pm_increasing. Qed.
Print Assumptions C20_increasing.

(** The values for M >= 1 are exactly the turning angles in [0, 90*(sqrt((gamma+1)/(gamma-1))-1)) degrees, each reached at exactly one M. *)
Theorem C20_range : forall g w, 1 < g ->
  (0 <= w < 90 * (sqrt ((g + 1) / (g - 1)) - 1) <->
   exists M, 1 <= M /\ PrandtlMeyer_Mach (Some M) (Some g) = Some w /\
     forall M', 1 <= M' -> PrandtlMeyer_Mach (Some M') (Some g) = Some w -> M' = M).
Proof. exact pm_range. Qed.
Print Assumptions C20_range.

(** For M > 1 the slope of PrandtlMeyer_Mach (per degree) is sqrt(M^2-1)/(M(1+(gamma-1)/2 M^2)), the Prandtl-Meyer differential relation. *)
Theorem C20_slope : forall g M, 1 < g -> 1 < M ->
  exists nu, (forall m, 1 <= m -> PrandtlMeyer_Mach (Some m) (Some g) = Some (nu m)) /\
    is_derive nu M (180 / PI * (sqrt (M ^ 2 - 1) / (M * (1 + (g - 1) / 2 * M ^ 2)))).
Proof. exact pm_slope. Qed.
Print Assumptions C20_slope.

(** Mach_PMFmmu applied to (Prandtl-Meyer angle minus Mach angle), both in degrees, gives back M for every M >= 1. *)
Theorem C21_PMFmmu : forall g M, 1 < g -> 1 <= M ->
  exists nu mu, PrandtlMeyer_Mach (Some M) (Some g) = Some nu /\
    0 < mu <= 90 /\ dsin (Some mu) = Some (1 / M) /\
    Mach_PMFmmu (Some (nu - mu)) (Some g) = Some M.
Proof. exact PMFmmu_inverse. Qed.
Print Assumptions C21_PMFmmu.

(** Whatever root finder honours its contract, the Mach number returned by Mach_PrandtlMeyer has the requested Prandtl-Meyer angle within the finder's residual. *)
Theorem C22_residual : forall newton eps g w M, solves eps newton ->
  Mach_PrandtlMeyer newton (Some w) (Some g) = Some M ->
  exists w', PrandtlMeyer_Mach (Some M) (Some g) = Some w' /\ Rabs (w' - w) <= eps.
Proof. exact Mach_PM_residual. Qed.
Print Assumptions C22_residual.

(** With an exact root finder, Mach_PrandtlMeyer inverts PrandtlMeyer_Mach uniquely (up to the sign of M, on which the function does not depend). *)
Theorem C22_inverse : forall newton g M w M', solves 0 newton -> 1 < g -> 1 <= M ->
  PrandtlMeyer_Mach (Some M) (Some g) = Some w ->
  Mach_PrandtlMeyer newton (Some w) (Some g) = Some M' -> Rabs M' = M.
Proof. exact Mach_PM_inverse. Qed.
Print Assumptions C22_inverse.

(** The two simple-wave functions are inverse of each other only up to the sign of the deflection: IsentropicPsratio_Mach_deflection must be given minus the deflection returned by deflection_Mach_IsentropicPsratio. (Missing from the full claim: the sign, see C22_sign_refuted.) *)
Theorem C22_turning_pressure_partial : forall newton g M P D P', solves 0 newton -> 1 < g -> 1 <= M -> 0 < P ->
  (deflection_Mach_IsentropicPsratio (Some M) (Some P) (Some g) = Some D ->
   IsentropicPsratio_Mach_deflection newton (Some M) (Some (- D)) (Some g) = Some P' -> P' = P) /\
  (IsentropicPsratio_Mach_deflection newton (Some M) (Some D) (Some g) = Some P' ->
   deflection_Mach_IsentropicPsratio (Some M) (Some P') (Some g) = Some (- D)).
Proof. exact simple_wave_inverse. Qed.
Print Assumptions C22_turning_pressure_partial.

(** Feeding the deflection of any genuine simple wave (pressure ratio different from 1) to IsentropicPsratio_Mach_deflection never gives back that pressure ratio: the two functions use opposite sign conventions. *)
Theorem C22_sign_refuted : forall newton g M P D, solves 0 newton -> 1 < g -> 1 <= M -> 0 < P -> P <> 1 ->
  deflection_Mach_IsentropicPsratio (Some M) (Some P) (Some g) = Some D ->
  IsentropicPsratio_Mach_deflection newton (Some M) (Some D) (Some g) <> Some P.
Proof. exact simple_wave_sign. Qed.
Print Assumptions C22_sign_refuted.

(** the hypotheses are met: a solver exists, and from Mach 2 the pressure ratio PtPs(2)/PtPs(3) is a genuine expansion with finite deflection. *)
Example C22_example : solves 0 (lazy_newton 0) /\ exists P D, 0 < P < 1 /\
  deflection_Mach_IsentropicPsratio (Some 2) (Some P) (Some (7/5)) = Some D /\ 0 < D.
Proof. exact C22_example_lemma. Qed.

(** gamma = 5/3, M = 2: the Prandtl-Meyer angle is 2 atan(sqrt 3 / 2) - 60 degrees. *)
Example C20_example : PrandtlMeyer_Mach (Some 2) (Some (5/3)) = Some ((2 * atan (sqrt 3 / 2) - PI / 3) * (180 / PI)).
Proof. exact C20_example_lemma. Qed.

(** gamma = 5/3, M = 2: the Mach angle is 30 degrees, and Mach_PMFmmu of the Prandtl-Meyer angle minus 30 is 2. *)
Example C21_example : Mach_PMFmmu (Some ((2 * atan (sqrt 3 / 2) - PI / 3) * (180 / PI) - 30)) (Some (5/3)) = Some 2.
Proof. exact C21_example_lemma. Qed.
