(** Property theorems of L_Coflow.v. Generated by tools/gen.py; statements only, proofs are in L_Coflow.v. *)
From Verif Require Import Num L_Num Spec NumSpec M_Isentropic M_Degree M_ShockWave M_MassFlow M_Coflow L_Isentropic L_Degree L_Shock L_Oblique L_WeakStrong.
From Verif Require Import L_Coflow.
Open Scope R_scope.

(** For every profile of height h and chord l (double wedge whose maximum thickness is at mid-chord), prof_ang is the angle, between 0 and 90 degrees, of its sides to the chord: its tangent is h over the half chord. *)
Theorem C95_profile : forall h l, 0 <= h -> 0 < l -> exists a, prof_ang (Some (h / l)) = Some a /\ 0 <= a < 90 /\ tan (a * (PI / 180)) = h / (l / 2).
Proof. exact profile_angle. Qed.
Print Assumptions C95_profile.

(** Whatever the tolerance eps, if the external solver returns a shock angle between the Mach angle and 90 degrees, larger than dev - 90, where the function to solve is at most eps, then the deflection computed by the library for that angle differs from the requested one by at most eps radians; a solver returning exact zeros gives exactly the requested deflection. *)
Theorem C95_residual : forall newton eps M0 dev s, solves eps newton -> 1 <= M0 ->
  sigma_from_M0_Dev newton (Some M0) (Some dev) = Some s ->
  0 < s < 90 -> -90 < s - dev < 90 -> 1 <= M0 * sin (s * (PI / 180)) ->
  exists th, deflection_Mach_sigma (Some M0) (Some s) (Some (14/10)) = Some th /\ Rabs (th - dev) <= eps * (180 / PI).
Proof. exact coflow_residual. Qed.
Print Assumptions C95_residual.

(** Zero is always a root: whatever the Mach number and the deflection, the function to solve vanishes at a shock angle 0, so that even an exact root finder may return 0, which is not a shock. *)
Theorem C95_trivial_refuted : forall M0 dev, cos (dev * (PI / 180)) <> 0 ->
  coflow_f (Some M0) (Some dev) (Some 0) = Some 0 /\
  exists newton, solves 0 newton /\ sigma_from_M0_Dev newton (Some M0) (Some dev) = Some 0.
Proof. exact coflow_trivial. Qed.
Print Assumptions C95_trivial_refuted.

(** All the roots between -90 and 90 degrees, for every supersonic Mach number and every deflection between 0 and 90: 0, one negative root, and exactly the shock angles whose deflection is the requested one, that is, when the deflection can be reached, the weak and the strong angles of the library, and nothing when it cannot. Hence four roots (distinct unless the weak and strong solutions coincide), as the notebook says, or two when the shock is detached. *)
Theorem C95_roots : forall M0 dev, 1 < M0 -> 0 < dev < 90 ->
  exists neg, -90 < neg < 0 /\ forall s, -90 < s < 90 ->
  (coflow_f (Some M0) (Some dev) (Some s) = Some 0 <->
   s = 0 \/ s = neg \/ (0 < s /\ deflection_Mach_sigma (Some M0) (Some s) (Some (14/10)) = Some dev)) /\
  ((exists sigma, 0 < sigma < 90 /\ deflection_Mach_sigma (Some M0) (Some sigma) (Some (14/10)) = Some dev) ->
   (coflow_f (Some M0) (Some dev) (Some s) = Some 0 <->
    s = 0 \/ s = neg \/ weaksigma_Mach_deflection (Some M0) (Some dev) (Some (14/10)) = Some s \/
    strongsigma_Mach_deflection (Some M0) (Some dev) (Some (14/10)) = Some s)).
Proof. exact coflow_roots. Qed.
Print Assumptions C95_roots.

(** at Mach 2 some deflection between 0 and 90 degrees is reached, and a solver meeting the hypotheses exists. *)
Example C95_example : (exists th, 0 < th < 90 /\ exists sigma, 0 < sigma < 90 /\ deflection_Mach_sigma (Some 2) (Some sigma) (Some (14/10)) = Some th) /\
  solves 0 (lazy_newton 0) /\ cos (20 * (PI / 180)) <> 0.
Proof. exact C95_ex. Qed.
