(** * Small specification for the worked examples of the documentation (C105)
    A perfect gas in motion: static pressure [p], static temperature [T], velocity [V]; nothing here mentions the model of the code. *)
From Verif Require Import Num Spec.
Open Scope R_scope.

(** [(pt, Tt)] is what the gas (p, T, V) becomes when brought to rest: energy is conserved, and so is entropy (p / T^(g/(g-1))) *)
Definition comes_to_rest (g r p T V pt Tt : R) : Prop :=
  cp g r * Tt = cp g r * T + V ^ 2 / 2 /\ pt / Rpower Tt (g / (g - 1)) = p / Rpower T (g / (g - 1)).
(** a gas of Mach number M has static pressure [p] and total pressure [pt] (at some, hence any, temperature) *)
Definition has_pressures (g M p pt : R) : Prop :=
  exists r T Tt, 0 < r /\ 0 < T /\ 0 < Tt /\ comes_to_rest g r p T (M * sound g r T) pt Tt.
(** a gas of Mach number M has static temperature [T] and total temperature [Tt] *)
Definition has_temperatures (g r M T Tt : R) : Prop := cp g r * Tt = cp g r * T + (M * sound g r T) ^ 2 / 2.
(** [m] = rho V A for a gas of Mach number M and stagnation conditions (pt, Tt) *)
Definition mass_flow_rate (g r M pt Tt A m : R) : Prop :=
  exists p T, 0 < p /\ 0 < T /\ comes_to_rest g r p T (M * sound g r T) pt Tt /\ m = p / (r * T) * (M * sound g r T) * A.
(** two sections of a duct, of areas A1 and A2 and Mach numbers M1 and M2, pass the same mass flow, whatever the stagnation conditions *)
Definition same_flow (g M1 A1 M2 A2 : R) : Prop :=
  forall r pt Tt, 0 < r -> 0 < pt -> 0 < Tt -> exists m, mass_flow_rate g r M1 pt Tt A1 m /\ mass_flow_rate g r M2 pt Tt A2 m.
