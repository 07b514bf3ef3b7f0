(** Property theorems of L_InflowNB.v. Generated by tools/gen.py; statements only, proofs are in L_InflowNB.v. *)
From Verif Require Import L_Num Spec NumSpec InflowNBSpec M_Isentropic M_MassFlow M_ShockWave M_Model1D M_Unsteady1D M_Riemann M_Inflow M_InflowNB L_Isentropic L_MassFlow L_Shock L_Model1D L_Unsteady L_Riemann1 L_Riemann2 L_Nozzle1 L_Inflow.
From Verif Require Import L_InflowNB.
Open Scope R_scope.
Open Scope list_scope.

(** With an exact root finder, for every initial Mach number, every list of total-pressure ratios from 1 and every row of ratio above 1 whose inflow is not reversed: the mass flow at the initial Mach number is exactly pi times the initial one; mf0 < mf1 < mf2 and mf0 < mff; the transmitted wave is a shock, the plotted pressure ratio and Mach number are its own (related by Rankine-Hugoniot, its speed is that Mach number times the initial sound speed ahead of the initial velocity); both sides of the contact have one velocity, above the initial one, the inflow side is denser and has the imposed total pressure; 0 < M1 < M2, M0 < M2; the curves normalised by either final state are positive and ordered; when M2 is at most 1 the inflow overshoots the final state of the same Mach number (2fb above 1); and as long as the final state of the same static pressure is not supersonic M2 is below 1 and the inflow stays below that state (2f below 1). *)
Theorem C102_rows : forall fsolve M0 pis rows, solves 0 fsolve -> 0 < M0 -> (forall x, In x pis -> 1 <= x) ->
  inb_run fsolve (Some M0) (Some 1) (map (@Some R) pis) = Some rows ->
  length rows = length pis /\
  forall i pi row, nth_error pis i = Some pi -> nth_error rows i = Some row -> 1 < pi -> (forall m, r_mf1 row = Some m -> 0 <= m) -> row_facts M0 pi row.
Proof. exact inflow_rows. Qed.
Print Assumptions C102_rows.

(** At the ratio 1, where the notebook's range starts, all five mass flows are equal, so that none of the four normalised curves has a value there. *)
Theorem C102_start_refuted : forall fsolve M0 pis rows i row, solves 0 fsolve -> 0 < M0 -> (forall x, In x pis -> 1 <= x) ->
  inb_run fsolve (Some M0) (Some 1) (map (@Some R) pis) = Some rows ->
  nth_error pis i = Some 1 -> nth_error rows i = Some row -> (forall m, r_mf1 row = Some m -> 0 <= m) -> start_facts M0 row.
Proof. exact inflow_start. Qed.
Print Assumptions C102_start_refuted.

(** For every total-temperature ratio, every ratio from 1 and every row: the final state of the initial Mach number carries pi/sqrt(taux) times the initial mass flow, that of the initial static pressure has a Mach number Mf with PtPs(Mf) = pi PtPs(M0) and the mass flow M0 sqrt(1.4) (Mf/M0) sqrt(TtTs(Mf)/TtTs(M0)) / sqrt(taux); the flows on the two sides of the contact have one velocity and the plotted static pressure, and the inflow side has exactly the imposed total pressure and temperature. *)
Theorem C102_heated : forall fsolve M0 ta pis rows, solves 0 fsolve -> 0 < M0 -> 0 < ta -> (forall x, In x pis -> 1 <= x) ->
  inb_run fsolve (Some M0) (Some ta) (map (@Some R) pis) = Some rows ->
  length rows = length pis /\
  forall i pi row, nth_error pis i = Some pi -> nth_error rows i = Some row ->
  exists mf1 mf2 mff mffb ps rR rL Mf pt0 tt0 ttf, r_mf0 row = Some (M0 * sqrt (14/10)) /\ r_mf1 row = Some mf1 /\ r_mf2 row = Some mf2 /\ r_mff row = Some mff /\ r_mffb row = Some mffb /\ r_ps row = Some ps /\
    mffb * sqrt ta = pi * (M0 * sqrt (14/10)) /\
    PtPs_Mach (Some M0) (Some (14/10)) = Some pt0 /\ TtTs_Mach (Some M0) (Some (14/10)) = Some tt0 /\
    0 < Mf /\ PtPs_Mach (Some Mf) (Some (14/10)) = Some (pi * pt0) /\ TtTs_Mach (Some Mf) (Some (14/10)) = Some ttf /\
    mff * sqrt ta = Mf * sqrt (14/10) * sqrt (ttf / tt0) /\
    0 < rR /\ 0 < rL /\ mf1 / rR = mf2 / rL /\
    Ptot (mk_state (Some (14/10)) (Some rL) (Some (mf2 / rL)) (Some ps)) = Some (pi * pt0) /\
    rTtot (mk_state (Some (14/10)) (Some rL) (Some (mf2 / rL)) (Some ps)) = Some (ta * tt0) /\
    exists wo wi, joined_by_wave 1 (14/10) (mkflow 1 (M0 * sqrt (14/10)) 1) (mkflow rR (mf1 / rR) ps) wo wi.
Proof. exact inflow_heated. Qed.
Print Assumptions C102_heated.

(** there is an exact root finder with which the notebook's cell completes for every initial Mach number below 5 and every list of ratios from 1, with no reversed inflow, so that the two theorems above describe every row of it. *)
Example C102_example : exists fsolve : (num -> num) -> num -> num, solves 0 fsolve /\ forall M0 pis, 0 < M0 < 5 -> (forall x, In x pis -> 1 <= x) ->
  exists rows, inb_run fsolve (Some M0) (Some 1) (map (@Some R) pis) = Some rows /\ forall row, In row rows -> exists m, r_mf1 row = Some m /\ 0 < m.
Proof. exact inflow_nb_example. Qed.

(** Below Mach 2 the equation solved for every ratio from 1 also has a root of reversed flow: some exact root finder makes the notebook draw a negative mass flow behind the wave. *)
Theorem C102_reversed_refuted : forall M0 pi, 0 < M0 < 2 -> 1 <= pi -> exists fsolve row m, solves 0 fsolve /\
  inb_run fsolve (Some M0) (Some 1) (Some pi :: nil) = Some (row :: nil) /\ r_mf1 row = Some m /\ m < 0.
Proof. exact inflow_reversed. Qed.
Print Assumptions C102_reversed_refuted.
