(** * Model of aerokit/aero/MassFlow.py *)
From Verif Require Import Num M_Isentropic.
Open Scope num_scope.

(** MassFlow.py:12-15, initial subsonic estimate *)
Definition MachSub_guess (sigma gamma : num) : num :=
  #1 - nsqrt ((#1 - #1 / sigma) * (#4 * (gamma - #1) / (#3 - gamma))).

(** MassFlow.py:18-19, initial supersonic estimate *)
Definition MachSup_guess (sigma gamma : num) : num :=
  #1 + nsqrt ((sigma - #1) * (#4 * (gamma - #1) / (#3 - gamma))).

(** MassFlow.py:25-30 ([r] is unused in the code as well) *)
Definition WeightMassFlow (Mach r gamma : num) : num :=
  nsqrt gamma * Mach
  * (#1 + #(1/2) * (gamma - #1) * Mach ^ 2) ** (#(-1/2) * (gamma + #1) / (gamma - #1)).

(** MassFlow.py:33-36 *)
Definition Sigma_Mach (Mach gamma : num) : num :=
  (#2 / (gamma + #1) * (#1 + #(1/2) * (gamma - #1) * Mach ^ 2))
    ** (#(1/2) * (gamma + #1) / (gamma - #1)) / Mach.

(** A scalar root finder: [newton f x0] (scipy.optimize.newton without derivative).
    [None]: it raised or returned a non-finite number. Not part of /repo: a parameter. *)
Definition solver := (num -> num) -> num -> num.

(** MassFlow.py:39-49, scalar [Mach] (np.size(Mach) == 1). *)
Definition Mach_Sigma (newton : solver) (sigma Mach gamma : num) : num :=
  newton (fun m => Sigma_Mach m gamma - sigma) Mach.

(** MassFlow.py:40-41, array branch: the start is recomputed from each [Mach]'s side;
    written elementwise (scipy solves every component of the array on its own). *)
Definition Mach_Sigma_elt (newton : solver) (sigma Mach gamma : num) : num :=
  newton (fun m => Sigma_Mach m gamma - sigma)
    (nif (Mach <=? #1) (MachSub_guess sigma gamma) (MachSup_guess sigma gamma)).

(** MassFlow.py:52-55 (scalar) *)
Definition MachSub_Sigma (newton : solver) (sigma gamma : num) : num :=
  Mach_Sigma newton sigma (MachSub_guess sigma gamma) gamma.

(** MassFlow.py:58-63 (scalar) *)
Definition MachSup_Sigma (newton : solver) (sigma gamma : num) : num :=
  Mach_Sigma newton sigma (MachSup_guess sigma gamma) gamma.
