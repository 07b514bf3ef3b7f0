(** Property theorems of L_Sigma.v. Generated by tools/gen.py; statements only, proofs are in L_Sigma.v. *)
From Coquelicot Require Import Coquelicot.
From Verif Require Import L_Num Spec NumSpec M_Degree M_IterSolve M_ShockWave L_Degree L_Shock L_Oblique L_Oblique2 L_Secant.
From Verif Require Import L_Sigma.
Open Scope R_scope.

(** When the solver behind sigma_Mach_deflection ends normally from a start above 0.01, having stayed in (0,90) degrees, the returned angle is r*sign(deflection) where the deflection of the shock at r equals |deflection| within an explicit multiple (depending on gamma and M only) of the solver tolerance. (Missing from the full claim: convergence of the iteration itself, and zero deflection, see C28_zero_refuted.) *)
Theorem C28_deflection_partial : forall g M d init sig0 rs, 1 < g -> 0 < M -> d <> 0 ->
  match init with Some i => i | None => nadd (dasin (ndiv (Some 1) (Some M))) (Some d) end = Some sig0 -> 1/100 < sig0 ->
  (forall a, In (Some a) (s_evals (secant_run_of (fun s => deflection_Mach_sigma (Some M) s (Some g)) (Some (Rabs d)) (Some sig0) secant_tol)) -> 0 < a < 90) ->
  s_warned (secant_run_of (fun s => deflection_Mach_sigma (Some M) s (Some g)) (Some (Rabs d)) (Some sig0) secant_tol) = false ->
  sigma_Mach_deflection (Some M) (Some d) init (Some g) = Some rs ->
  exists r, rs = r * Rsign d /\ (0 < r < 90 -> 
   exists th, deflection_Mach_sigma (Some M) (Some r) (Some g) = Some th /\
    Rabs (th - Rabs d) <= 2 * sigma_lip g M * Rmax (1/100000) (1/100000 * r)).
Proof. exact sigma_residual. Qed.
Print Assumptions C28_deflection_partial.

(** With an explicit starting angle, opposite deflections give opposite shock angles. *)
Theorem C28_sign : forall g M d i rs, d <> 0 ->
  sigma_Mach_deflection (Some M) (Some d) (Some i) (Some g) = Some rs ->
  sigma_Mach_deflection (Some M) (Some (- d)) (Some i) (Some g) = Some (- rs).
Proof. exact sigma_odd. Qed.
Print Assumptions C28_sign.

(** For zero deflection sigma_Mach_deflection never returns the Mach wave angle: any finite result is 0, whatever the Mach number, start and gamma; and it does return 0 for Mach 2. *)
Theorem C28_zero_refuted : (forall M init g rs, sigma_Mach_deflection M (Some 0) init g = Some rs -> rs = 0) /\
  sigma_Mach_deflection (Some 2) (Some 0) None (Some (7/5)) = Some 0 /\
  dasin (ndiv (Some 1) (Some 2)) = Some 30.
Proof. exact sigma_zero. Qed.
Print Assumptions C28_zero_refuted.

(** the hypotheses of C28_deflection_partial are met, e.g. at Mach 2 from the angle of maximum deflection: the run evaluates that angle and 0.999 times it, and returns the latter, whose deflection was requested. *)
Example C28_example : exists s0 d, 45 < s0 < 90 /\ 0 < d < 90 /\
  s_evals (secant_run_of (fun s => deflection_Mach_sigma (Some 2) s (Some (7/5))) (Some (Rabs d)) (Some s0) secant_tol) = [Some s0; Some (s0 * (999/1000))] /\
  s_warned (secant_run_of (fun s => deflection_Mach_sigma (Some 2) s (Some (7/5))) (Some (Rabs d)) (Some s0) secant_tol) = false /\
  sigma_Mach_deflection (Some 2) (Some d) (Some (Some s0)) (Some (7/5)) = Some (s0 * (999/1000)).
Proof. exact sigma_ex. Qed.
