(** * Model of aerokit/aero/CompressibleFlow.py: wrappers with optional arguments.
    An omitted argument is [None] at the Python level, written here [option num]. *)
From Verif Require Import Num M_Isentropic M_MassFlow M_Supersonic.
Open Scope num_scope.

(** Python default value: the argument if given, else the default. *)
Definition dflt (d : num) (a : option num) : num := match a with Some x => x | None => d end.

(** CompressibleFlow.py:12-14 *)
Definition CF_TtTs_Mach (Mach : num) (gamma : option num) := TtTs_Mach Mach (dflt #(14/10) gamma).
(** CompressibleFlow.py:17-19 *)
Definition CF_PtPs_Mach (Mach : num) (gamma : option num) := PtPs_Mach Mach (dflt #(14/10) gamma).
(** CompressibleFlow.py:22-24 *)
Definition CF_Mach_TtTs (TtTs : num) (gamma : option num) := Mach_TtTs TtTs (dflt #(14/10) gamma).
(** CompressibleFlow.py:27-29 *)
Definition CF_Mach_PtPs (PtPs : num) (gamma : option num) := Mach_PtPs PtPs (dflt #(14/10) gamma).
(** CompressibleFlow.py:32-34 *)
Definition CF_Velocity_MachTi (Mach Ti : num) (r gamma : option num) :=
  Velocity_MachTi Mach Ti (dflt #(2871/10) r) (dflt #(14/10) gamma).
(** CompressibleFlow.py:40-42 *)
Definition CF_PrandtlMeyer_Mach (Mach : num) (gamma : option num) :=
  PrandtlMeyer_Mach Mach (dflt #(14/10) gamma).
(** CompressibleFlow.py:45-47 *)
Definition CF_Mach_PrandtlMeyer (newton : solver) (omega : num) (gamma : option num) :=
  Mach_PrandtlMeyer newton omega (dflt #(14/10) gamma).
(** CompressibleFlow.py:50-52 *)
Definition CF_deflection_Mach_IsentropicPsratio (Mach Pratio : num) (gamma : option num) :=
  deflection_Mach_IsentropicPsratio Mach Pratio (dflt #(14/10) gamma).
(** CompressibleFlow.py:55-57 *)
Definition CF_IsentropicPsratio_Mach_deflection (newton : solver) (Mach dev : num) (gamma : option num) :=
  IsentropicPsratio_Mach_deflection newton Mach dev (dflt #(14/10) gamma).
(** CompressibleFlow.py:63-65 *)
Definition CF_WeightMassFlow (Mach : num) (r gamma : option num) :=
  WeightMassFlow Mach (dflt #(2871/10) r) (dflt #(14/10) gamma).
(** CompressibleFlow.py:68-70 *)
Definition CF_Sigma_Mach (Mach : num) (gamma : option num) := Sigma_Mach Mach (dflt #(14/10) gamma).
(** CompressibleFlow.py:73-75 *)
Definition CF_Mach_Sigma (newton : solver) (sigma : num) (Mach gamma : option num) :=
  Mach_Sigma newton sigma (dflt #2 Mach) (dflt #(14/10) gamma).

(** The current modules called with optional arguments: Isentropic.py:30,48,70,84,98;
    Supersonic.py:31,63,80,85; MassFlow.py:25,33,39 ([defg._gamma] = 1.4 at import;
    Velocity: [r=defg._r] = 287.1). *)
Definition IS_TtTs_Mach (Mach : num) (gamma : option num) := TtTs_Mach Mach (dflt dgamma gamma).
Definition IS_PtPs_Mach (Mach : num) (gamma : option num) := PtPs_Mach Mach (dflt dgamma gamma).
Definition IS_Mach_TtTs (TtTs : num) (gamma : option num) := Mach_TtTs TtTs (dflt dgamma gamma).
Definition IS_Mach_PtPs (PtPs : num) (gamma : option num) := Mach_PtPs PtPs (dflt dgamma gamma).
Definition IS_Velocity_MachTt (Mach Tt : num) (r gamma : option num) :=
  Velocity_MachTt Mach Tt (dflt dr r) (dflt dgamma gamma).
Definition SU_PrandtlMeyer_Mach (Mach : num) (gamma : option num) :=
  PrandtlMeyer_Mach Mach (dflt dgamma gamma).
Definition SU_Mach_PrandtlMeyer (newton : solver) (omega : num) (gamma : option num) :=
  Mach_PrandtlMeyer newton omega (dflt dgamma gamma).
Definition SU_deflection_Mach_IsentropicPsratio (Mach Pratio : num) (gamma : option num) :=
  deflection_Mach_IsentropicPsratio Mach Pratio (dflt dgamma gamma).
Definition SU_IsentropicPsratio_Mach_deflection (newton : solver) (Mach dev : num) (gamma : option num) :=
  IsentropicPsratio_Mach_deflection newton Mach dev (dflt dgamma gamma).
Definition MF_WeightMassFlow (Mach : num) (r gamma : option num) :=
  WeightMassFlow Mach (dflt #(2871/10) r) (dflt dgamma gamma).
Definition MF_Sigma_Mach (Mach : num) (gamma : option num) := Sigma_Mach Mach (dflt dgamma gamma).
Definition MF_Mach_Sigma (newton : solver) (sigma : num) (Mach gamma : option num) :=
  Mach_Sigma newton sigma (dflt #2 Mach) (dflt dgamma gamma).
