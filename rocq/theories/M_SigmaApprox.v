(** * Model of the approximations of Sigma drawn by examples/aero/validation_sigma_convergence.py
      and notebooks/Sigma-approximation.ipynb *)
From Verif Require Import Num M_MassFlow.
Open Scope num_scope.

(** validation_sigma_convergence.py:16 *)
Definition gpuogmu (g : num) : num := (g + #1) / (g - #1).
(** validation_sigma_convergence.py:17, small Mach numbers *)
Definition sig1 (m g : num) : num := #1 / m / ((g + #1) / #2) ** (gpuogmu g / #2).
(** validation_sigma_convergence.py:18, near the throat *)
Definition sig2 (m g : num) : num := #1 + (#3 - g) / #4 / (g - #1) * (m - #1) ^ 2.
(** validation_sigma_convergence.py:19, large Mach numbers *)
Definition sig3 (m g : num) : num := (m ^ 2 / gpuogmu g) ** (gpuogmu g / #2) / m.

(** Sigma-approximation.ipynb, cell 1 ([rgam] = gpuogmu): second and third curves *)
Definition nb_low (M gamma : num) : num := (#2 / (gamma + #1)) ** (#(1/2) * gpuogmu gamma) / M.
Definition nb_high (M gamma : num) : num :=
  (gpuogmu gamma + M * M) ** (#(1/2) * (gpuogmu gamma - #1)) / gpuogmu gamma ** (#(1/2) * gpuogmu gamma).
