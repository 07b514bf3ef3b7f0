(** * Two-flow turbojet at the flight condition and component qualities of Cycle_Turbofan.py: what its stations must satisfy *)
From Coq Require Import String.
From Verif Require Import Num M_Obj EngineSpec.
Open Scope R_scope.

(** flight condition and component qualities (class attributes, Cycle_Turbofan.py:73-84) *)
Definition P_inf : R := 22700.
Definition T_inf : R := 217.
Definition Mach_inf : R := 8 / 10.
Definition xi_inlet_loss : R := 97 / 100.
Definition eta_compressor : R := 90 / 100.
Definition eta_fan : R := 89 / 100.
Definition eta_burning : R := 99 / 100.
Definition xi_burner_loss : R := 95 / 100.
Definition eta_shaft : R := 98 / 100.
Definition eta_turbine : R := 88 / 100.
Definition xi_nozzle_loss : R := 97 / 100.

(** by-pass ratio, core pressure ratio, turbine inlet temperature, air mass flow, cold gas, hot gas, heating value *)
Record two_flow := { bypass : R; core_ratio : R; T_max : R; air : R; gA : R; rA : R; gB : R; rB : R; heating : R }.
Definition cA (e : two_flow) : R := cp_of (gA e) (rA e).
Definition cB (e : two_flow) : R := cp_of (gB e) (rB e).
Definition inlet_T (e : two_flow) : R := T_inf * temp_ratio (gA e) Mach_inf.
Definition inlet_P (e : two_flow) : R := xi_inlet_loss * (P_inf * pres_ratio (gA e) Mach_inf).
Definition flight_speed (e : two_flow) : R := Mach_inf * sqrt (gA e * rA e * T_inf).
Definition core_air (e : two_flow) : R := air e / (1 + bypass e).
Definition fan_air (e : two_flow) : R := bypass e * air e / (1 + bypass e).
Definition compressed_T (e : two_flow) : R := inlet_T e * Rpower (core_ratio e) ((gA e - 1) / (gA e * eta_compressor)).
Definition fuel_ratio (e : two_flow) : R := (cB e * T_max e - cA e * compressed_T e) / (eta_burning * heating e - cB e * T_max e).
Definition sensible (e : two_flow) : Prop :=
  0 < bypass e /\ 0 < core_ratio e /\ 0 < T_max e /\ 0 < air e /\ 1 < gA e /\ 1 < gB e /\ 0 < rA e /\ 0 < rB e /\
  cB e * T_max e < eta_burning * heating e /\ cA e * compressed_T e < eta_burning * heating e.
Definition gases (e : two_flow) (o : obj) : Prop := has o "g.gamma" (gA e).

(** core: compressor, combustor; [W] is the power taken from the turbine shaft after losses *)
Record core := { Tt3 : R; Pt3 : R; alpha : R; Pt4 : R; Tt5 : R; Pt5 : R }.
Definition core_cycle (e : two_flow) (c : core) : Prop :=
  Pt3 c = core_ratio e * inlet_P e /\ compression (gA e) eta_compressor (inlet_P e) (inlet_T e) (Pt3 c) (Tt3 c) /\
  burner (cA e) (cB e) eta_burning (heating e) (alpha c) (Tt3 c) (T_max e) /\ Pt4 c = xi_burner_loss * Pt3 c.
Definition shaft (e : two_flow) (c : core) (power : R) : Prop :=
  eta_shaft * (core_air e * (1 + alpha c) * cB e * (T_max e - Tt5 c)) = power.
Definition core_shows (o : obj) (e : two_flow) (c : core) : Prop :=
  has o "Tt2" (inlet_T e) /\ has o "Pt2" (inlet_P e) /\ has o "V0" (flight_speed e) /\ has o "m_c" (core_air e) /\ has o "m_f" (fan_air e) /\
  has o "Tt3" (Tt3 c) /\ has o "Pt3" (Pt3 c) /\ has o "alpha" (alpha c) /\ has o "m_k" (alpha c * core_air e) /\ has o "Pt4" (Pt4 c) /\
  has o "Tt5" (Tt5 c) /\ has o "Pt5" (Pt5 c).
(** thrust of the two flows as the code has it: the momentum of the fuel is left out *)
Definition thrust_without_fuel (e : two_flow) (V9 V19 : R) : R :=
  core_air e * (V9 - flight_speed e) + fan_air e * (V19 - flight_speed e).
(** momentum balance *)
Definition thrust (e : two_flow) (a V9 V19 : R) : R :=
  core_air e * ((1 + a) * V9 - flight_speed e) + fan_air e * (V19 - flight_speed e).
Definition kinetic_power (e : two_flow) (a V9 V19 : R) : R :=
  (core_air e * ((1 + a) * V9 ^ 2 - flight_speed e ^ 2) + fan_air e * (V19 ^ 2 - flight_speed e ^ 2)) / 2.
(** g/s of fuel per kN of thrust *)
Definition grams_per_kN (fuel_kg_s thrust_N : R) : R := (1000 * fuel_kg_s) / (thrust_N / 1000).

(** ** Ideal turbofan (no losses, fuel mass neglected): the bypass ratio, and the heating, ram and compressor temperature
    ratios [cB Tt4 / (cA T0)], [Tt0 / T0], [Tt3 / Tt2].  Jet energies are in units of [cA T0]. *)
Record ideal_fan := { byp : R; heat : R; ram : R; comp : R }.
(** energy of the core jet: what the turbine leaves after driving compressor and fan, minus the enthalpy at the exit pressure *)
Definition core_jet (i : ideal_fan) (tf : R) : R :=
  heat i - ram i * (comp i - 1) - byp i * (ram i * (tf - 1)) - heat i / (ram i * comp i).
(** energy of the fan jet, for a fan temperature ratio [tf] *)
Definition fan_jet (i : ideal_fan) (tf : R) : R := ram i * tf - 1.
Definition can_run (i : ideal_fan) (tf : R) : Prop := 0 <= core_jet i tf /\ 0 <= fan_jet i tf.
(** momentum of both jets per unit of core flow *)
Definition jets (i : ideal_fan) (tf : R) : R := sqrt (core_jet i tf) + byp i * sqrt (fan_jet i tf).
Definition optimal_fan (i : ideal_fan) (tf : R) : Prop := can_run i tf /\ forall tf', can_run i tf' -> jets i tf' <= jets i tf.
(** textbook closed form of the optimum *)
Definition best_fan (i : ideal_fan) : R :=
  (heat i - ram i * (comp i - 1) - heat i / (ram i * comp i) + byp i * ram i + 1) / (ram i * (1 + byp i)).
