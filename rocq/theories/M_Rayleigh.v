(** * Model of aerokit/aero/Rayleigh.py *)
From Verif Require Import Num.
Open Scope num_scope.

(** Rayleigh.py:18-20 *)
Definition Ra_Ps_Pscri (Mach gamma : num) : num := (gamma + #1) / (#1 + gamma * Mach ^ 2).
(** Rayleigh.py:23-26 *)
Definition Ra_Ts_Tscri (Mach gamma : num) : num :=
  let m2 := Mach ^ 2 in m2 * ((gamma + #1) / (#1 + gamma * m2)) ^ 2.
(** Rayleigh.py:29-32 *)
Definition Ra_Ti_Ticri (Mach gamma : num) : num :=
  let m2 := Mach ^ 2 in
  #2 * (gamma + #1) * m2 / (#1 + gamma * m2) ^ 2 * (#1 + (gamma - #1) / #2 * m2).
(** Rayleigh.py:35-38 *)
Definition Ra_Rho_Rhocri (Mach gamma : num) : num :=
  let m2 := Mach ^ 2 in (#1 + gamma * m2) / ((gamma + #1) * m2).
(** Rayleigh.py:41-48 *)
Definition Ra_Pi_Picri (Mach gamma : num) : num :=
  let m2 := Mach ^ 2 in
  (gamma + #1) / (#1 + gamma * m2)
  * (#2 / (gamma + #1) * (#1 + (gamma - #1) / #2 * m2)) ** (gamma / (gamma - #1)).
(** Rayleigh.py:51-54 *)
Definition Ra_V_Vcri (Mach gamma : num) : num :=
  let m2 := Mach ^ 2 in m2 * (gamma + #1) / (#1 + gamma * m2).
(** Rayleigh.py:57-60 *)
Definition Ra_NormdS (Mach gamma : num) : num :=
  let m2 := Mach ^ 2 in
  nlog (m2 * ((gamma + #1) / (#1 + gamma * m2)) ** ((gamma + #1) / gamma)).
(** Rayleigh.py:63-66 *)
Definition Ra_SubMach_TiTicri (Tiratio gamma : num) : num :=
  let alpha := nsqrt (#1 - Tiratio) in nsqrt ((#1 - alpha) / (alpha * gamma + #1)).
(** Rayleigh.py:69-72 *)
Definition Ra_SupMach_TiTicri (Tiratio gamma : num) : num :=
  let alpha := nsqrt (#1 - Tiratio) in nsqrt ((#1 + alpha) / (#1 - alpha * gamma)).
(** Rayleigh.py:8-12: the call passes [gamma=1.4] literally; the argument is unused. *)
Definition Ra_maxTiratio_Mach (Mach gamma : num) : num := #1 / Ra_Ti_Ticri Mach #(14/10).
