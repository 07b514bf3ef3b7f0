(** * Model of aerokit/aero/Fanno.py *)
From Verif Require Import Num.
Open Scope num_scope.

(** Fanno.py:8-18 *)
Definition Fa_maxFparam_Mach (Mach gamma : num) : num :=
  let m2 := Mach ^ 2 in
  (#1 - m2) / (gamma * m2)
  + (gamma + #1) / (#2 * gamma)
    * nlog (m2 * (gamma + #1) / #2 / (#1 + (gamma - #1) / #2 * m2)).
(** Fanno.py:24-26 *)
Definition Fa_Ps_Pscri (Mach gamma : num) : num :=
  #1 / (Mach * nsqrt (#2 / (gamma + #1) * (#1 + (gamma - #1) / #2 * Mach ^ 2))).
(** Fanno.py:29-31 *)
Definition Fa_Ts_Tscri (Mach gamma : num) : num :=
  (gamma + #1) / #2 / (#1 + (gamma - #1) / #2 * Mach ^ 2).
(** Fanno.py:34-36 *)
Definition Fa_Rho_Rhocri (Mach gamma : num) : num :=
  #1 / Mach * nsqrt (#2 / (gamma + #1) * (#1 + (gamma - #1) / #2 * Mach ^ 2)).
(** Fanno.py:39-45 *)
Definition Fa_Pi_Picri (Mach gamma : num) : num :=
  #1 / Mach
  * (#2 / (gamma + #1) * (#1 + (gamma - #1) / #2 * Mach ^ 2)) ** ((gamma + #1) / #2 / (gamma - #1)).
(** Fanno.py:48-50 *)
Definition Fa_V_Vcri (Mach gamma : num) : num :=
  Mach / nsqrt (#2 / (gamma + #1) * (#1 + (gamma - #1) / #2 * Mach ^ 2)).
(** Fanno.py:53-58 *)
Definition Fa_NormdS (Mach gamma : num) : num :=
  nlog (Mach ** ((gamma - #1) / gamma)
    * (#2 / (gamma + #1) * (#1 + (gamma - #1) / #2 * Mach ^ 2)) ** (- (gamma + #1) / #2 / gamma)).
