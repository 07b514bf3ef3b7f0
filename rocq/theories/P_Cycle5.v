(** Property theorems of L_Cycle5.v. Generated by tools/gen.py; statements only, proofs are in L_Cycle5.v. *)
From Coq Require Import String.
From Verif Require Import Num L_Num M_Isentropic M_Obj L_Obj M_Engine M_Cycle EngineSpec CycleSpec L_Engine L_Engine2 L_Cycle L_Cycle2 L_Cycle3 L_Cycle4.
From Verif Require Import L_Cycle5.
Open Scope R_scope.

(** In both classes the thrust is not the momentum balance of the two flows: for all arguments in the sensible range, on a completed object with finite jet velocities, F is below it by the momentum of the fuel alpha m_c V9 - although the kinetic power that enters the efficiencies counts the fuel - so they differ as soon as fuel is burnt and the core jet moves. *)
Theorem C75_thrust_refuted : forall e pkA x o a V9 V19 F, sensible e -> completed e pkA x o ->
  has (attrs o) "alpha" a -> has (attrs o) "V9" V9 -> has (attrs o) "V19" V19 -> has (attrs o) "F" F ->
  F = thrust e a V9 V19 - a * core_air e * V9 /\ (a * V9 <> 0 -> F <> thrust e a V9 V19).
Proof. exact thrust_refuted. Qed.
Print Assumptions C75_thrust_refuted.

(** In both classes the specific consumption, printed with the unit g/kN/s, is ten times that quantity (10e6 instead of 1e6), whenever the jet velocities are finite and the thrust is not zero. *)
Theorem C75_consumption_refuted : forall e pkA x o mk V9 V19 F, sensible e -> completed e pkA x o ->
  has (attrs o) "m_k" mk -> has (attrs o) "V9" V9 -> has (attrs o) "V19" V19 -> has (attrs o) "F" F -> F <> 0 ->
  has (attrs o) "mk_spe" (10 * grams_per_kN mk F) /\ (mk <> 0 -> 10 * grams_per_kN mk F <> grams_per_kN mk F).
Proof. exact consumption_refuted. Qed.
Print Assumptions C75_consumption_refuted.

(** An engine of by-pass ratio 5 with a fan ratio that raises the fan temperature by ten per cent meets the hypotheses of C74_fixed_fan_partial including those on the nozzles, with fuel burnt and a moving core jet (so the refutations of C75 apply to it). *)
Example C74_example : exists x, 1 < x /\ sensible ex_two_flow /\
  cA ex_two_flow * (compressed_T ex_two_flow - inlet_T ex_two_flow) + bypass ex_two_flow * cA ex_two_flow * (fan_T ex_two_flow eta_compressor x - inlet_T ex_two_flow) <
    eta_shaft * (1 + fuel_ratio ex_two_flow) * cB ex_two_flow * T_max ex_two_flow /\
  exists o a V9 V19, completed ex_two_flow 0 x o /\ has (attrs o) "alpha" a /\ has (attrs o) "V9" V9 /\ has (attrs o) "V19" V19 /\ 0 < a /\ 0 < V9 /\
  performance (attrs o) ex_two_flow a V9 V19.
Proof. exact ex_fixed. Qed.

(** Example: the engine of C74_example meets the hypotheses of both refutations: it burns fuel and its core jet moves, so its reported thrust is below the momentum balance. *)
Example C75_example : exists x o a V9 V19 F, sensible ex_two_flow /\ completed ex_two_flow 0 x o /\ has (attrs o) "alpha" a /\ has (attrs o) "V9" V9 /\
  has (attrs o) "V19" V19 /\ has (attrs o) "F" F /\ F < thrust ex_two_flow a V9 V19.
Proof. exact C75_example_lemma. Qed.
