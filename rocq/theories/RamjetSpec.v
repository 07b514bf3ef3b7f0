(** * Small specification of one-dimensional steady flow of a perfect gas, used by C86.
    A section is given by its Mach number M, its total pressure pi and its area A; total temperatures appear only by their ratio. *)
From Verif Require Import Num M_MassFlow.
Open Scope R_scope.

(** Ttotal/Tstatic, and the static pressure *)
Definition tfun (g M : R) : R := 1 + (g - 1) / 2 * M ^ 2.
Definition static_p (g M pi : R) : R := pi / Rpower (tfun g M) (g / (g - 1)).
(** mass flow per unit area, in units of sqrt(gamma/(r Tt)): p M sqrt(Tt/Ts) *)
Definition mass_flux (g M pi : R) : R := static_p g M pi * M * sqrt (tfun g M).
(** impulse per unit area: p + rho V^2 *)
Definition impulse (g M pi : R) : R := static_p g M pi * (1 + g * M ^ 2).

(** A duct of constant area without friction, in which the total temperature is multiplied by [alpha]: mass and impulse are conserved. *)
Definition duct_flow (g alpha M pi M' pi' : R) : Prop :=
  impulse g M pi = impulse g M' pi' /\ mass_flux g M pi = mass_flux g M' pi' / sqrt alpha.
(** A normal shock: the same without heat, from a supersonic to a subsonic flow. *)
Definition normal_shock (g M pi M' pi' : R) : Prop := 1 <= M /\ 0 < M' <= 1 /\ duct_flow g 1 M pi M' pi'.
(** An isentropic channel, area A to area A': same total pressure, mass is conserved. *)
Definition channel_flow (g A M A' M' : R) : Prop := A * mass_flux g M 1 = A' * mass_flux g M' 1.

(** The gas of the script. *)
Definition air : R := 14 / 10.
(** What the script expects of scipy's newton: Mach_Sigma returns the root on the side of its start. *)
Definition inverts_sigma (newton : solver) : Prop :=
  forall s x, 1 <= s -> 0 < x -> x <> 1 ->
  exists r, Mach_Sigma newton (Some s) (Some x) (Some air) = Some r /\ Sigma_Mach (Some r) (Some air) = Some s /\ (x < 1 -> 0 < r <= 1) /\ (1 < x -> 1 <= r).
(** The inlet contracts the flow: the section of the combustor, 9/10 of the captured one, is larger than the throat, and large
    enough for the nozzle's throat (8/10 of it) to pass the flow. *)
Definition design (M0 M2 : R) : Prop :=
  1 < M0 /\ 1 < M2 /\ exists S0 S2, Sigma_Mach (Some M0) (Some air) = Some S0 /\ Sigma_Mach (Some M2) (Some air) = Some S2 /\
  S2 <= 9 / 10 * S0 /\ 5 / 4 <= 9 / 10 * S0.
