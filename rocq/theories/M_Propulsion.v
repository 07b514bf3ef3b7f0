(** * Model of aerokit/aero/Propulsion.py
    The module cannot be imported (line 6, see M_Import); its two functions are modelled as they would run with
    aerokit.aero.IterativeSolve in that place. *)
From Verif Require Import Num M_Isentropic M_MassFlow M_IterSolve.
Open Scope num_scope.

(** Propulsion.py:9-10; default gamma = 1.4 *)
Definition ThrustFunction (Mach gamma : num) : num :=
  Sigma_Mach Mach gamma / PtPs_Mach Mach gamma * (#1 + gamma * Mach ^ 2).
(** Propulsion.py:13-17; default Mach = 2 *)
Definition Mach_ThrustFunction (thrust Mach gamma : num) : num :=
  secant_solve (fun m => ThrustFunction m gamma) thrust Mach.
