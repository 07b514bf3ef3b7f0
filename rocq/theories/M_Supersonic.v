(** * Model of aerokit/aero/Supersonic.py *)
From Verif Require Import Num M_Isentropic M_MassFlow M_Degree M_IterSolve.
Open Scope num_scope.

(** Supersonic.py:31-53 *)
Definition PrandtlMeyer_Mach (Mach gamma : num) : num :=
  let g := gamma in
  let gm1 := gamma - #1 in
  let beta := nsqrt (Mach ^ 2 - #1) in
  let cg := nsqrt ((g + #1) / gm1) in
  (cg * narctan (beta / cg) - narctan beta) * (#180 / npi).

(** Supersonic.py:56-60 *)
Definition old_Mach_PrandtlMeyer (omega gamma : num) : num :=
  secant_solve (fun m => PrandtlMeyer_Mach m gamma) omega #2.

(** Supersonic.py:63-69 *)
Definition Mach_PrandtlMeyer (newton : solver) (omega gamma : num) : num :=
  newton (fun m => PrandtlMeyer_Mach m gamma - omega) (#2 + #0 * omega).

(** Supersonic.py:72-77 *)
Definition Mach_PMFmmu (om_m_mun gamma : num) : num :=
  let g := gamma in
  let gm1 := gamma - #1 in
  let cg := nsqrt ((g + #1) / gm1) in
  nsqrt ((cg * dtan ((om_m_mun + #90) / cg)) ^ 2 + #1).

(** Supersonic.py:80-82 *)
Definition deflection_Mach_IsentropicPsratio (Mach Pratio gamma : num) : num :=
  let m2 := Mach_PtPs (PtPs_Mach Mach gamma / Pratio) gamma in
  - PrandtlMeyer_Mach Mach gamma + PrandtlMeyer_Mach m2 gamma.

(** Supersonic.py:85-87 *)
Definition IsentropicPsratio_Mach_deflection (newton : solver) (Mach dev gamma : num) : num :=
  let m2 := Mach_PrandtlMeyer newton (PrandtlMeyer_Mach Mach gamma - dev) gamma in
  PtPs_Mach Mach gamma / PtPs_Mach m2 gamma.
