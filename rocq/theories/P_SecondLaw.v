(** Property theorems of L_SecondLaw.v. Generated by tools/gen.py; statements only, proofs are in L_SecondLaw.v. *)
From Coq Require Import String.
From Verif Require Import Num L_Num M_Isentropic M_Obj L_Obj M_Engine EngineSpec IdealSpec L_Engine L_Engine2 L_Ideal.
From Verif Require Import L_SecondLaw.
Open Scope R_scope.

(** No turbojet beats the Brayton cycle: for every engine in the operating range whose efficiencies and pressure recoveries (nozzle included) are at most 1, whose hot gas has a gamma not above that of the air (the gas constants are free), whose compressor compresses and whose combustor heats, at every flight condition and after any history: update succeeds and thermal_efficiency is at most xi_cc (1 - T0/Tt3), with Tt3 the compressor exit temperature; in particular it is below 1. *)
Theorem C108_turbojet : forall o e xn, described o e -> has o "xi_nozzle" xn -> in_range e -> feasible e (xi_cc e) -> passive e -> burning e -> xn <= 1 ->
  exists o' t3 eta, run tj_update o = Some o' /\ has o' "Tt3" t3 /\ T0 e <= t3 /\
  eval o' (thermal_efficiency tj_Wsp_kinEn) = Some (Some eta) /\ eta <= xi_cc e * (1 - T0 e / t3) /\ eta < 1.
Proof. exact sl_turbojet. Qed.
Print Assumptions C108_turbojet.

(** Nor does any turbofan: the same bound for the turbofan with any by-pass ratio > 0 and fan power ratio in [0, 1], whose fan and low pressure turbine efficiencies are at most 1 and whose two nozzles discharge above ambient pressure. *)
Theorem C108_turbofan : forall o e xn bpr fr eB eF, described o e -> has o "xi_nozzle" xn -> has o "bpr" bpr -> has o "fanpower_ratio" fr ->
  has o "etapolTBP" eB -> has o "etapolfan" eF -> in_range e -> feasible e (xi_cc e) -> passive e -> burning e ->
  0 < xn <= 1 -> 0 < bpr -> 0 <= fr <= 1 -> 0 < eB <= 1 -> 0 < eF <= 1 -> P0 e <= xn * (xi_inlet e * (P0 e * pres_ratio (gc e) (M0 e))) ->
  exists o' t3 p45, run tf_update o = Some o' /\ has o' "Tt3" t3 /\ T0 e <= t3 /\ has o' "Pt45" p45 /\
  (P0 e <= p45 * xn -> exists eta, eval o' (thermal_efficiency tf_Wsp_kinEn) = Some (Some eta) /\ eta <= xi_cc e * (1 - T0 e / t3) /\ eta < 1).
Proof. exact sl_turbofan. Qed.
Print Assumptions C108_turbofan.

(** Whatever the state of the object - turbojet or turbofan with a by-pass ratio >= 0, computed or assigned values: when fuel is burnt (far, Pci > 0), the thermopropulsive efficiency exceeds the thermal efficiency at most by the kinetic energy V0^2/2 that the fuel brings on board per unit of its heating value, so that with the bounds above no engine delivers more thrust power than the Brayton cycle and the motion of its fuel provide. *)
Theorem C108_overall : forall o f pci v0 v9, has o "far" f -> has o "Pci" pci -> has o "V0" v0 -> has o "V9" v9 -> 0 < f -> 0 < pci ->
  (exists eth ethp, eval o (thermal_efficiency tj_Wsp_kinEn) = Some (Some eth) /\ eval o (thermoprop_efficiency tj_norm_thrust) = Some (Some ethp) /\
   ethp <= eth + v0 ^ 2 / 2 / pci) /\
  (forall bpr v19, has o "bpr" bpr -> has o "V19" v19 -> 0 <= bpr ->
   exists eth ethp, eval o (thermal_efficiency tf_Wsp_kinEn) = Some (Some eth) /\ eval o (thermoprop_efficiency tf_norm_thrust) = Some (Some ethp) /\
   ethp <= eth + v0 ^ 2 / 2 / pci).
Proof. exact sl_overall. Qed.
Print Assumptions C108_overall.

(** The turbofan of C60_example (with losses in every component) meets the hypotheses of both theorems: it is passive, its compressor compresses and its combustor heats, and it discharges above ambient pressure. *)
Example C108_example : exists o o' s, run ex_tf_body empty_obj = Some o /\ described o ex_engine /\ has o "xi_nozzle" (97 / 100) /\ has o "bpr" 5 /\
  has o "fanpower_ratio" (1 / 2) /\ has o "etapolTBP" (9 / 10) /\ has o "etapolfan" (9 / 10) /\ in_range ex_engine /\ feasible ex_engine (xi_cc ex_engine) /\
  passive ex_engine /\ burning ex_engine /\ run tf_update o = Some o' /\ shows o' s /\ P0 ex_engine <= Pt45 s * (97 / 100).
Proof. exact sl_example. Qed.
