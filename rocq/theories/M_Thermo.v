(** * Model of aerokit/aero/ThermoKerosen.py and aerokit/aero/ThermoRealGas.py
    Overflow of math.exp (ThermoRealGas below about 4.4 K) is not modelled: arithmetic is exact. *)
From Verif Require Import Num.
Open Scope num_scope.

(** ** ThermoKerosen.py *)
(** :5 *)
Definition ke_r : num := #(28704 / 100).
(** :7-8 *)
Definition ke_Cp (T : num) : num :=
  ke_r * (#(447659 / 100000) + (#(801994 / 100000000) - #(18373 / 10000000000) * T) * T).
(** :10-11 *)
Definition ke_Enthalpy (T : num) : num :=
  ke_r * (#(-149054 / 1000) + (#(447659 / 100000) + (#(400997 / 100000000) - #(612432 / 1000000000000) * T) * T) * T).
(** :13-14 *)
Definition ke_Phi (T : num) : num :=
  (#(447659 / 100000) * nlog T + (#(801994 / 100000000) - #(918648 / 1000000000000) * T) * T) / nlog #10.
(** :16-17 *)
Definition ke_Pc_inf : num := #10300 * #4184.
(** :19-20 *)
Definition ke_Pc_eff (T : num) : num :=
  ke_Pc_inf + ke_r * (#(16072 / 10) + (#(-447659 / 100000) + (#(-400997 / 100000000) + #(612432 / 1000000000000) * T) * T) * T).

(** ** ThermoRealGas.py *)
(** :5 *)
Definition rg_r : num := #(28704 / 100).
(** :7-10 *)
Definition rg_Gamma (T : num) : num :=
  let a := nexp (#3090 / T) in
  let cp := (#(35 / 10) + (#(-28 / 1000000) + #(2240 / 100000000000) * T) * T) + (#3090 / T) ^ 2 * a / (a - #1) ^ 2 in
  cp / (cp - #1).
(** :12-14 *)
Definition rg_Cp (T : num) : num :=
  let a := nexp (#3090 / T) in
  rg_r * ((#(35 / 10) + (#(-28 / 1000000) + #(2240 / 100000000000) * T) * T) + (#3090 / T) ^ 2 * a / (a - #1) ^ 2).
(** :16-18 *)
Definition rg_Enthalpy (T : num) : num :=
  let a := nexp (#3090 / T) in
  rg_r * ((#(35 / 10) + (#(-14 / 1000000) + #(7467 / 1000000000000) * T) * T) * T + #3090 / (a - #1)).
(** :20-22 *)
Definition rg_Phi (T : num) : num :=
  let a := nexp (#3090 / T) in
  (((#(35 / 10) * nlog T + (#(-28 / 1000000) + #(112 / 10000000000) * T) * T) + #3090 / T / (a - #1)) - nlog ((a - #1) / a)) / nlog #10.
