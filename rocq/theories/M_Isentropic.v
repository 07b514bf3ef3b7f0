(** * Model of aerokit/common/defaultgas.py constants and aerokit/aero/Isentropic.py *)
From Verif Require Import Num.
Open Scope num_scope.

(** defaultgas.py:2 — value of [_gamma] when the flow modules are imported; Python
    evaluates [gamma=defg._gamma] once, at function definition. *)
Definition dgamma : num := #(14/10).
(** defaultgas.py:3 *)
Definition dr : num := #(2871/10).

(** Isentropic.py:30-45 *)
Definition TtTs_Mach (Mach gamma : num) : num :=
  #1 + #(1/2) * (gamma - #1) * Mach ^ 2.

(** Isentropic.py:48-67 *)
Definition PtPs_Mach (Mach gamma : num) : num :=
  (#1 + #(1/2) * (gamma - #1) * Mach ^ 2) ** (gamma / (gamma - #1)).

(** Isentropic.py:70-81 *)
Definition Mach_TtTs (TtTs gamma : num) : num :=
  nsqrt ((TtTs - #1) * #2 / (gamma - #1)).

(** Isentropic.py:84-95 *)
Definition Mach_PtPs (PtPs gamma : num) : num :=
  nsqrt ((PtPs ** ((gamma - #1) / gamma) - #1) * #2 / (gamma - #1)).

(** Isentropic.py:98-111 *)
Definition Velocity_MachTt (Mach Tt r gamma : num) : num :=
  Mach * nsqrt (gamma * r * Tt / TtTs_Mach Mach gamma).

(** Isentropic.py:115-119, backward compatible names: the same function objects. *)
Definition TiTs_Mach := TtTs_Mach.
Definition PiPs_Mach := PtPs_Mach.
Definition Mach_PiPs := Mach_PtPs.
Definition Mach_TiTs := Mach_TtTs.
Definition Velocity_MachTi := Velocity_MachTt.
