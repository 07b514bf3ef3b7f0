(** * Model of notebooks/Shock-31-coflow.ipynb (angle of the shock on a profile)
    The first four one-line functions of cell 2 are the library functions with the default
    gas; the drawings (cells 4 and 5) are the polars of M_Polar.v. *)
From Verif Require Import Num M_Isentropic M_Degree M_ShockWave M_MassFlow.
Open Scope num_scope.

(** Shock-31-coflow.ipynb, cell 1: angle of the profile *)
Definition prof_ang (hol : num) : num := datan (#2 * hol).
(** cell 2 *)
Definition rho_ratio_from_Mn (Mn : num) : num := Rho_ratio Mn dgamma.
(** cell 3, the function to solve *)
Definition coflow_f (M0 dev sig : num) : num :=
  dtan (sig - dev) * rho_ratio_from_Mn (M0 * dsin sig) - dtan sig.
(** cell 3; [newton]: scipy.optimize.newton, see M_MassFlow.v *)
Definition sigma_from_M0_Dev (newton : solver) (M0 dev : num) : num :=
  newton (coflow_f M0 dev) (dasin (#1 / M0) + dev).
