(** Property theorems of L_Ideal.v. Generated by tools/gen.py; statements only, proofs are in L_Ideal.v. *)
From Coq Require Import String.
From Verif Require Import Num L_Num M_Isentropic M_Obj L_Obj M_Engine EngineSpec IdealSpec L_Engine L_Engine2.
From Verif Require Import L_Ideal.
Open Scope R_scope.

(** The ideal turbofan (no losses, same gas in every component; any gamma, gas constant, fuel, pressure ratio >= 1, turbine temperature above the compressor exit, flight condition, by-pass ratio > 0, fan power ratio in [0, 1]; any earlier history of the object): update succeeds, and thermal_efficiency is that of the Brayton cycle, 1 - T0/Tt3 with Tt3 the compressor exit temperature - whatever the by-pass ratio, the fan power ratio, the turbine temperature and the fuel; it lies in [0, 1). *)
Theorem C107_turbofan : forall o e bpr fr, described o e -> has o "xi_nozzle" 1 -> has o "bpr" bpr -> has o "fanpower_ratio" fr ->
  has o "etapolTBP" 1 -> has o "etapolfan" 1 -> in_range e -> ideal e -> running e -> 0 < bpr -> 0 <= fr <= 1 ->
  exists o' t3, run tf_update o = Some o' /\ has o' "Tt3" t3 /\ t3 = T0 e * temp_ratio (gc e) (M0 e) * Rpower (OPR e) ((gc e - 1) / gc e) /\
  eval o' (thermal_efficiency tf_Wsp_kinEn) = Some (Some (1 - T0 e / t3)) /\ 0 <= 1 - T0 e / t3 < 1.
Proof. exact ideal_turbofan_brayton. Qed.
Print Assumptions C107_turbofan.

(** The ideal turbojet, in the same generality: update succeeds, the nozzle discharges above ambient pressure (the floor on Pt9 is not needed), and thermal_efficiency is 1 - T0/Tt3: the same as that of every ideal turbofan built on the same core. *)
Theorem C107_turbojet : forall o e, described o e -> has o "xi_nozzle" 1 -> in_range e -> ideal e -> running e ->
  exists o' t3 p45 p9, run tj_update o = Some o' /\ has o' "Tt3" t3 /\ t3 = T0 e * temp_ratio (gc e) (M0 e) * Rpower (OPR e) ((gc e - 1) / gc e) /\
  has o' "Pt45" p45 /\ has o' "Pt9" p9 /\ p9 = p45 /\ P0 e <= p9 /\
  eval o' (thermal_efficiency tj_Wsp_kinEn) = Some (Some (1 - T0 e / t3)).
Proof. exact ideal_turbojet_brayton. Qed.
Print Assumptions C107_turbojet.

(** The best fan of the ideal turbofan: take two such engines that differ only in their fan power ratio. If the second one has equal jet velocities (V9 = V19) then the first has at most its thrust, and the same thrust only if its own jets are equal too. *)
Theorem C107_optimum : forall o1 o2 e bpr fr1 fr2, ideal_fan o1 e bpr fr1 -> ideal_fan o2 e bpr fr2 ->
  exists o1' o2' F1 F2 u9 u19 v9 v19, run tf_update o1 = Some o1' /\ run tf_update o2 = Some o2' /\
  has o1' "V9" u9 /\ has o1' "V19" u19 /\ has o2' "V9" v9 /\ has o2' "V19" v19 /\
  eval o1' tf_spec_thrust = Some (Some F1) /\ eval o2' tf_spec_thrust = Some (Some F2) /\
  (v9 = v19 -> F1 <= F2 /\ (F1 = F2 -> u9 = u19)).
Proof. exact ideal_optimum. Qed.
Print Assumptions C107_optimum.

(** That optimum is reached: for every ideal core in flight whose turbojet jet is faster than the flight, and every by-pass ratio, some fan power ratio in [0, 1] makes both jets of the turbofan equally fast. *)
Theorem C107_optimal_fan : forall o e v9 v0, described o e -> has o "xi_nozzle" 1 -> in_range e -> ideal e -> running e ->
  (exists o', run tj_update o = Some o' /\ has o' "V9" v9 /\ has o' "V0" v0) -> v0 < v9 ->
  forall bpr, 0 < bpr -> exists fr, 0 <= fr <= 1 /\ 
  forall o1, ideal_fan o1 e bpr fr -> exists o1' u, run tf_update o1 = Some o1' /\ has o1' "V9" u /\ has o1' "V19" u.
Proof. exact ideal_optimal_fan. Qed.
Print Assumptions C107_optimal_fan.
