(** Property theorems of L_Lines.v. Generated by tools/gen.py; statements only, proofs are in L_Lines.v. *)
From Coquelicot Require Import Coquelicot.
From Verif Require Import L_Num Spec NumSpec M_Isentropic M_MassFlow M_ShockWave M_Fanno M_Rayleigh L_Isentropic L_MassFlow L_Shock L_ShockPt L_Fanno L_Rayleigh.
From Verif Require Import L_Lines.
Open Scope R_scope.

(** For every gamma > 1 and upstream Mach number M >= 1, the states before and after a normal shock are on the same Rayleigh line: the Rayleigh pressure, temperature, density and velocity functions of the downstream Mach number are those of M times the jump of the shock functions, and Ti/Ti* is the same. *)
Theorem C85_rayleigh : forall g M, 1 < g -> 1 <= M -> exists m P Rr T,
  downstream_Mn (Some M) (Some g) = Some m /\ Ps_ratio (Some M) (Some g) = Some P /\ Rho_ratio (Some M) (Some g) = Some Rr /\ Ts_ratio (Some M) (Some g) = Some T /\
  let jump f k := exists a, f (Some M) (Some g) = Some a /\ f (Some m) (Some g) = Some (k * a) in
  jump Ra_Ps_Pscri P /\ jump Ra_Ts_Tscri T /\ jump Ra_Rho_Rhocri Rr /\ jump Ra_V_Vcri (1 / Rr) /\ jump Ra_Ti_Ticri 1.
Proof. exact shock_on_rayleigh. Qed.
Print Assumptions C85_rayleigh.

(** The same two states are on the same Fanno line: the Fanno pressure, temperature, density and velocity functions jump as the shock functions say. *)
Theorem C85_fanno : forall g M, 1 < g -> 1 <= M -> exists m P Rr T,
  downstream_Mn (Some M) (Some g) = Some m /\ Ps_ratio (Some M) (Some g) = Some P /\ Rho_ratio (Some M) (Some g) = Some Rr /\ Ts_ratio (Some M) (Some g) = Some T /\
  let jump f k := exists a, f (Some M) (Some g) = Some a /\ f (Some m) (Some g) = Some (k * a) in
  jump Fa_Ps_Pscri P /\ jump Fa_Ts_Tscri T /\ jump Fa_Rho_Rhocri Rr /\ jump Fa_V_Vcri (1 / Rr).
Proof. exact shock_on_fanno. Qed.
Print Assumptions C85_fanno.

(** With K the ratio of total pressures, Ps_ratio times the ratio of PtPs_Mach after and before the shock: the sonic area ratio Sigma, the Fanno Pi/Pi* and the Rayleigh Pi/Pi* of the downstream Mach number are K times those of M (mass flow, total pressure and sonic area are linked); and for gamma = 1.4, K is what Pt_ratio returns. *)
Theorem C85_total_pressure : forall g M, 1 < g -> 1 <= M -> exists m P K q q',
  downstream_Mn (Some M) (Some g) = Some m /\ Ps_ratio (Some M) (Some g) = Some P /\
  PtPs_Mach (Some M) (Some g) = Some q /\ PtPs_Mach (Some m) (Some g) = Some q' /\ P * q' = K * q /\ 0 < q /\
  let jump f k := exists a, f (Some M) (Some g) = Some a /\ f (Some m) (Some g) = Some (k * a) in
  jump Sigma_Mach K /\ jump Fa_Pi_Picri K /\ jump Ra_Pi_Picri K /\
  (g = 14/10 -> Pt_ratio (Some M) (Some g) = Some K).
Proof. exact shock_sigma. Qed.
Print Assumptions C85_total_pressure.

(** hypotheses: air at Mach 2, whose shock has a downstream Mach number 1/sqrt 3. *)
Example C85_example : 1 < 14/10 /\ 1 <= 2 /\ downstream_Mn (Some 2) (Some (14/10)) = Some (sqrt (1/3)).
Proof. exact lines_ex. Qed.
