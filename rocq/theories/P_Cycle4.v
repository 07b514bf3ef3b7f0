(** Property theorems of L_Cycle4.v. Generated by tools/gen.py; statements only, proofs are in L_Cycle4.v. *)
From Coq Require Import String.
From Verif Require Import Num L_Num M_Isentropic M_Obj L_Obj M_Engine M_Cycle EngineSpec CycleSpec L_Engine L_Engine2 L_Cycle L_Cycle2 L_Cycle3.
From Verif Require Import L_Cycle4.
Open Scope R_scope.

(** cycle_taux_fan_fixe, for all arguments and gases in the sensible range and a turbine able to drive compressor and fan: the computed object shows the flight conditions, the split of the mass flow, polytropic compression, combustor energy balance with efficiency eta_comb and pressure loss, shaft balance with losses over compressor and fan, polytropic turbine expansion; and, when both nozzles discharge above ambient pressure, their adapted isentropic expansions and the performance formulas. PARTIAL: the fan compression holds with the efficiency of the compressor (see C62_propu_be_refuted); the thrust leaves out the fuel and the consumption is ten times the printed unit (C75). *)
Theorem C74_fixed_fan_partial : forall e pkA x, sensible e -> 0 < x ->
  cA e * (compressed_T e - inlet_T e) + bypass e * cA e * (fan_T e eta_compressor x - inlet_T e) < eta_shaft * (1 + fuel_ratio e) * cB e * T_max e ->
  exists o c Tt13 Pt13, computed (fixe_init (fixe_of e pkA x)) fixe_5_to_9 = Some o /\ core_shows (attrs o) e c /\ core_cycle e c /\
  has (attrs o) "Tt13" Tt13 /\ has (attrs o) "Pt13" Pt13 /\ Pt13 = x * inlet_P e /\ compression (gA e) eta_compressor (inlet_P e) (inlet_T e) Pt13 Tt13 /\
  shaft e c (core_air e * cA e * (Tt3 c - inlet_T e) + fan_air e * cA e * (Tt13 - inlet_T e)) /\
  expansion (gB e) eta_turbine (Pt4 c) (T_max e) (Pt5 c) (Tt5 c) /\ 0 < Tt5 c /\ 0 < Pt5 c /\ 0 < 1 + alpha c /\
  (P_inf <= Pt5 c * xi_nozzle_loss -> P_inf <= Pt13 * xi_nozzle_loss ->
   exists M9 V9 M19 V19, has (attrs o) "M9" M9 /\ has (attrs o) "V9" V9 /\ has (attrs o) "M19" M19 /\ has (attrs o) "V19" V19 /\
   nozzle (gB e) (rB e) (Pt5 c * xi_nozzle_loss) (Tt5 c) P_inf M9 V9 /\ nozzle (gA e) (rA e) (Pt13 * xi_nozzle_loss) Tt13 P_inf M19 V19 /\
   performance (attrs o) e (alpha c) V9 V19).
Proof. exact fixed_fan. Qed.
Print Assumptions C74_fixed_fan_partial.

(** cycle_taux_fan_calcule, for all arguments and gases in the sensible range, a turbine able to drive the compressor and a mechanical ratio in [0, 1]: flight conditions, split of the mass flow, compression, combustor balance; the compressor turbine (shaft balance, polytropic expansion to Tt4_etoile, Pt4_etoile); the fan turbine takes the fraction taux_meca of the ideal power of an expansion from there to ambient pressure and expands polytropically to Tt5, Pt5; when Pt4_etoile is at least the ambient pressure, its power after losses heats the fan flow, compressed with the polytropic efficiency of the fan; and, when both nozzles discharge above ambient, their isentropic expansions and the performance formulas (thrust without the fuel and consumption: see C75). *)
Theorem C74_computed_fan : forall e pkA taux, sensible e -> 0 <= taux <= 1 -> 0 < T_between e ->
  exists o c T4s P4s, computed (calc_init (calc_of e pkA taux)) calc_5_to_9 = Some o /\ core_cycle e c /\
  has (attrs o) "Tt3" (Tt3 c) /\ has (attrs o) "Pt3" (Pt3 c) /\ has (attrs o) "alpha" (alpha c) /\ has (attrs o) "Pt4" (Pt4 c) /\ has (attrs o) "Tt5" (Tt5 c) /\ has (attrs o) "Pt5" (Pt5 c) /\
  has (attrs o) "Tt4_etoile" T4s /\ has (attrs o) "Pt4_etoile" P4s /\
  eta_shaft * (core_air e * (1 + alpha c) * cB e * (T_max e - T4s)) = core_air e * cA e * (Tt3 c - inlet_T e) /\
  expansion (gB e) eta_turbine (Pt4 c) (T_max e) P4s T4s /\ 0 < T4s /\ 0 < P4s /\
  (let fan_power := core_air e * (1 + alpha c) * cB e * (T4s - Tt5 c) in
   fan_power = taux * (core_air e * (1 + alpha c) * cB e * T4s * (1 - Rpower (P_inf / P4s) ((gB e - 1) / gB e))) /\
   expansion (gB e) eta_turbine P4s T4s (Pt5 c) (Tt5 c) /\ 0 < Tt5 c /\ 0 < Pt5 c /\
   (P_inf <= P4s ->
    exists Tt13 Pt13, core_shows (attrs o) e c /\ has (attrs o) "Tt13" Tt13 /\ has (attrs o) "Pt13" Pt13 /\
    fan_air e * cA e * (Tt13 - inlet_T e) = eta_shaft * fan_power /\
    compression (gA e) eta_fan (inlet_P e) (inlet_T e) Pt13 Tt13 /\
    (P_inf <= Pt5 c * xi_nozzle_loss -> P_inf <= Pt13 * xi_nozzle_loss ->
     exists M9 V9 M19 V19, has (attrs o) "M9" M9 /\ has (attrs o) "V9" V9 /\ has (attrs o) "M19" M19 /\ has (attrs o) "V19" V19 /\
     nozzle (gB e) (rB e) (Pt5 c * xi_nozzle_loss) (Tt5 c) P_inf M9 V9 /\ nozzle (gA e) (rA e) (Pt13 * xi_nozzle_loss) Tt13 P_inf M19 V19 /\
     performance (attrs o) e (alpha c) V9 V19))).
Proof. exact computed_fan. Qed.
Print Assumptions C74_computed_fan.
