(** Property theorems of L_Better.v. Generated by tools/gen.py; statements only, proofs are in L_Better.v. *)
From Coq Require Import String Psatz.
From Verif Require Import Num L_Num M_Isentropic M_Obj L_Obj M_Engine EngineSpec L_Engine L_Engine2 L_Ideal BetterSpec.
From Verif Require Import L_Better.
Open Scope R_scope.

(** For all pairs of turbojets with the same gases, fuel, combustor, overall pressure ratio (at least 1) and flight conditions, whatever happened to the objects before: if turbine inlet temperature and every component efficiency (inlet, compressor, turbine, shaft, nozzle) of the second are at least those of the first, then after update the second burns at least as much fuel per unit air and has at least the turbine exit temperature and pressure, the jet velocity, the specific thrust and the kinetic energy of the first. *)
Theorem C119_turbojet : forall o1 o2 e f xn yn, described o1 e -> has o1 "xi_nozzle" xn -> described o2 f -> has o2 "xi_nozzle" yn -> in_range e -> in_range f ->
  feasible e (xi_cc e) -> feasible f (xi_cc f) -> 1 <= OPR e -> at_least_as_good e f -> xn <= yn ->
  exists o1' o2' s t v1 v2 F1 F2 K1 K2, run tj_update o1 = Some o1' /\ run tj_update o2 = Some o2' /\ shows o1' s /\ shows o2' t /\
  has o1' "V9" v1 /\ has o2' "V9" v2 /\ eval o1' tj_norm_thrust = Some (Some F1) /\ eval o2' tj_norm_thrust = Some (Some F2) /\
  eval o1' tj_Wsp_kinEn = Some (Some K1) /\ eval o2' tj_Wsp_kinEn = Some (Some K2) /\
  far s <= far t /\ Tt45 s <= Tt45 t /\ Pt45 s <= Pt45 t /\ v1 <= v2 /\ F1 <= F2 /\ K1 <= K2 /\
  (Tt4 e = Tt4 f -> eC e = eC f -> far s = far t /\
   (0 < far s -> 0 < F1 -> exists c1 c2 h1 h2, eval o1' (Sfc tj_norm_thrust) = Some (Some c1) /\ eval o2' (Sfc tj_norm_thrust) = Some (Some c2) /\ c2 <= c1 /\
    eval o1' (thermal_efficiency tj_Wsp_kinEn) = Some (Some h1) /\ eval o2' (thermal_efficiency tj_Wsp_kinEn) = Some (Some h2) /\ h1 <= h2)).
Proof. exact better_turbojet. Qed.
Print Assumptions C119_turbojet.

(** For all pairs of turbofans as in C119_turbojet with the same by-pass ratio and fraction of power sent to the fan, whose low pressure turbine and fan discharge above ambient pressure: if the efficiencies of the fan and of the low pressure turbine of the second are at least those of the first too, the second sends at least the power to its fan and has at least the fan exit temperature and pressure and the by-pass jet velocity of the first; if they differ in the fan efficiency only, the core jet is the same and thrust and kinetic energy are at least those of the first. *)
Theorem C119_turbofan : forall o1 o2 e f xn yn bpr fr eB1 eB2 eF1 eF2, described o1 e -> has o1 "xi_nozzle" xn -> has o1 "bpr" bpr -> has o1 "fanpower_ratio" fr -> has o1 "etapolTBP" eB1 -> has o1 "etapolfan" eF1 ->
  described o2 f -> has o2 "xi_nozzle" yn -> has o2 "bpr" bpr -> has o2 "fanpower_ratio" fr -> has o2 "etapolTBP" eB2 -> has o2 "etapolfan" eF2 ->
  in_range e -> in_range f -> feasible e (xi_cc e) -> feasible f (xi_cc f) -> 1 <= OPR e -> at_least_as_good e f ->
  0 < xn <= yn -> 0 < bpr -> 0 <= fr <= 1 -> 0 < eB1 <= eB2 -> 0 < eF1 <= eF2 -> P0 e <= xn * (xi_inlet e * (P0 e * pres_ratio (gc e) (M0 e))) ->
  exists o1' o2' s t, run tf_update o1 = Some o1' /\ run tf_update o2 = Some o2' /\ shows o1' s /\ shows o2' t /\
  far s <= far t /\ Tt45 s <= Tt45 t /\ Pt45 s <= Pt45 t /\
  (P0 e <= Pt45 s * xn -> exists x1 x2 p1 p2 T1 T2 P1 P2 v1 v2 c1 c2 F1 F2 K1 K2, 
   has o1' "Tt5" x1 /\ has o2' "Tt5" x2 /\ has o1' "Pt5" p1 /\ has o2' "Pt5" p2 /\
   has o1' "Tt17" T1 /\ has o2' "Tt17" T2 /\ has o1' "Pt17" P1 /\ has o2' "Pt17" P2 /\ has o1' "V19" v1 /\ has o2' "V19" v2 /\ has o1' "V9" c1 /\ has o2' "V9" c2 /\
   eval o1' tf_norm_thrust = Some (Some F1) /\ eval o2' tf_norm_thrust = Some (Some F2) /\ eval o1' tf_Wsp_kinEn = Some (Some K1) /\ eval o2' tf_Wsp_kinEn = Some (Some K2) /\
   (1 + far s) * cph e * (Tt45 s - x1) <= (1 + far t) * cph f * (Tt45 t - x2) /\ T1 <= T2 /\ P1 <= P2 /\ v1 <= v2 /\
   (e = f -> xn = yn -> eB1 = eB2 -> x1 = x2 /\ p1 = p2 /\ c1 = c2 /\ F1 <= F2 /\ K1 <= K2)).
Proof. exact better_turbofan. Qed.
Print Assumptions C119_turbofan.

(** Two turbojets built by their constructors and flown at Mach 1, the second with better inlet, turbine and nozzle, meet the hypotheses of C119_turbojet, and so do the turbofans of C60_example and one differing in its fan efficiency those of C119_turbofan, turbines discharging above ambient pressure. *)
Example C119_example : (exists o1 o2, run (tj_init_body (ex_args (97 / 100)) ++ flight_conditions (Some 200) (Some 20000) (Some 1))%list empty_obj = Some o1 /\
    run (tj_init_body ex_better_args ++ flight_conditions (Some 200) (Some 20000) (Some 1))%list empty_obj = Some o2 /\
    described o1 ex_engine /\ has o1 "xi_nozzle" (97 / 100) /\ described o2 ex_better /\ has o2 "xi_nozzle" (98 / 100)) /\
  in_range ex_engine /\ in_range ex_better /\ feasible ex_engine (xi_cc ex_engine) /\ feasible ex_better (xi_cc ex_better) /\ 1 <= OPR ex_engine /\ at_least_as_good ex_engine ex_better /\
  at_least_as_good ex_engine ex_engine /\ xi_inlet ex_engine < xi_inlet ex_better /\ eT ex_engine < eT ex_better /\
  (exists o o' s, run ex_tf_body empty_obj = Some o /\ described o ex_engine /\ has o "xi_nozzle" (97 / 100) /\ has o "bpr" 5 /\ has o "fanpower_ratio" (1 / 2) /\ has o "etapolTBP" (9 / 10) /\ has o "etapolfan" (9 / 10) /\
    P0 ex_engine <= 97 / 100 * (xi_inlet ex_engine * (P0 ex_engine * pres_ratio (gc ex_engine) (M0 ex_engine))) /\ run tf_update o = Some o' /\ shows o' s /\ P0 ex_engine <= Pt45 s * (97 / 100)) /\
  (exists o, run (ex_tf_body ++ (("etapolfan"%string, L (Some (95 / 100))) :: nil))%list empty_obj = Some o /\ described o ex_engine /\ has o "xi_nozzle" (97 / 100) /\ has o "bpr" 5 /\ has o "fanpower_ratio" (1 / 2) /\
    has o "etapolTBP" (9 / 10) /\ has o "etapolfan" (95 / 100)).
Proof. exact better_example. Qed.
