(** Property theorems of L_WeakStrong.v. Generated by tools/gen.py; statements only, proofs are in L_WeakStrong.v. *)
From Verif Require Import L_Num Spec NumSpec M_Isentropic M_Degree M_ShockWave L_Isentropic L_Degree L_Shock L_Oblique L_Oblique2.
From Verif Require Import L_WeakStrong.
Open Scope R_scope.

(** For every M > 1 and deflection in (0,90): if some shock angle in (0,90) has that deflection, then weaksigma and strongsigma return shock angles in (0,90) with exactly that deflection, weak <= strong; otherwise they return the documented fallback (Mach angle, 90 degrees). *)
Theorem C17_weak_strong : forall g M th, 1 < g -> 1 < M -> 0 < th < 90 ->
  ((exists sigma, 0 < sigma < 90 /\ deflection_Mach_sigma (Some M) (Some sigma) (Some g) = Some th) ->
   exists w s, weaksigma_Mach_deflection (Some M) (Some th) (Some g) = Some w /\
     strongsigma_Mach_deflection (Some M) (Some th) (Some g) = Some s /\ 0 < w /\ w <= s /\ s < 90 /\
     deflection_Mach_sigma (Some M) (Some w) (Some g) = Some th /\
     deflection_Mach_sigma (Some M) (Some s) (Some g) = Some th) /\
  (~ (exists sigma, 0 < sigma < 90 /\ deflection_Mach_sigma (Some M) (Some sigma) (Some g) = Some th) ->
   weaksigma_Mach_deflection (Some M) (Some th) (Some g) = dasin (ndiv (Some 1) (Some M)) /\
   strongsigma_Mach_deflection (Some M) (Some th) (Some g) = Some 90).
Proof. exact weak_strong. Qed.
Print Assumptions C17_weak_strong.

(** The test made by the code (no "no shock wave solution" message) passes exactly when an attached shock of that deflection exists; then every shock angle with that deflection is the weak or the strong one. *)
Theorem C17_discriminant : forall g M th sigma w s, 1 < g -> 1 < M -> 0 < th < 90 -> 0 < sigma < 90 ->
  deflection_Mach_sigma (Some M) (Some sigma) (Some g) = Some th ->
  weaksigma_Mach_deflection (Some M) (Some th) (Some g) = Some w ->
  strongsigma_Mach_deflection (Some M) (Some th) (Some g) = Some s ->
  sigma = w \/ sigma = s.
Proof. exact weak_strong_only. Qed.
Print Assumptions C17_discriminant.

(** At Mach 2 and gamma = 1.4 the shock at 60 degrees has a deflection in (0,90), so the hypotheses are met. *)
Example C17_example : exists th, 0 < th < 90 /\
  deflection_Mach_sigma (Some 2) (Some 60) (Some (7/5)) = Some th.
Proof. exact weak_strong_ex. Qed.
