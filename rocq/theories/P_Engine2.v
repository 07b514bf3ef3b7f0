(** Property theorems of L_Engine2.v. Generated by tools/gen.py; statements only, proofs are in L_Engine2.v. *)
From Coq Require Import String.
From Verif Require Import Num L_Num M_Isentropic M_Obj L_Obj M_Engine EngineSpec L_Engine.
From Verif Require Import L_Engine2.
Open Scope R_scope.

(** On any object of either class, in any state: when the thermal and propulsive efficiencies are defined, so is the thermopropulsive one, and it is their product. *)
Theorem C60_efficiencies : forall o Wk Nt eth eprop, eval o (thermal_efficiency Wk) = Some (Some eth) ->
  eval o (propulsive_efficiency Wk Nt) = Some (Some eprop) ->
  eval o (thermoprop_efficiency Nt) = Some (Some (eth * eprop)).
Proof. exact efficiencies. Qed.
Print Assumptions C60_efficiencies.

(** For every object with parameters in the operating range, whatever happened to it before, update gives the stations of C59 and an adapted nozzle: Pt9 = max(xi_nozzle Pt45, P0), isentropic expansion from (Pt9, Tt45) to P0, jet velocity V9 from the enthalpy drop; the thrust per unit air flow is (1+far) V9 - V0 and the kinetic energy ((1+far) V9^2 - V0^2)/2. *)
Theorem C60_turbojet : forall o e xn, described o e -> has o "xi_nozzle" xn -> in_range e -> feasible e (xi_cc e) ->
  exists o' s M9 V9, run tj_update o = Some o' /\ described o' e /\ has o' "xi_nozzle" xn /\ shows o' s /\ cycle e s /\
  burner (cpc e) (cph e) (xi_cc e) (Pci e) (far s) (Tt3 s) (Tt4 e) /\ 0 < 1 + far s /\ 0 < Tt45 s /\ 0 < Pt45 s /\
  has o' "Pt9" (Rmax (Pt45 s * xn) (P0 e)) /\ has o' "M9" M9 /\ has o' "V9" V9 /\
  nozzle (gh e) (rh e) (Rmax (Pt45 s * xn) (P0 e)) (Tt45 s) (P0 e) M9 V9 /\
  eval o' tj_norm_thrust = Some (Some ((1 + far s) * V9 - V0 s)) /\
  eval o' tj_spec_thrust = Some (Some ((1 + far s) * V9 - V0 s)) /\
  eval o' tj_Wsp_kinEn = Some (Some (((1 + far s) * V9 ^ 2 - V0 s ^ 2) / 2)) /\
  eval o' Wsp_cc = Some (Some (far s * Pci e)).
Proof. exact turbojet. Qed.
Print Assumptions C60_turbojet.

(** For every object with parameters in the operating range (fan power ratio between 0 and 1, positive by-pass ratio, nozzle loss and efficiencies) whose low pressure turbine and fan discharge above ambient pressure: after update the turbine gives the fraction fanpower_ratio of the work of a full expansion (efficiency etapolTBP) to ambient pressure, expands polytropically, its power times eta_shaft drives the fan, which compresses polytropically; both nozzles have the pressure loss xi_nozzle and expand isentropically to P0; thrust and kinetic energy are the sums over the two streams, the specific thrust is per unit of total flow. *)
Theorem C60_turbofan : forall o e xn bpr fr eB eF, described o e -> has o "xi_nozzle" xn -> has o "bpr" bpr -> has o "fanpower_ratio" fr ->
  has o "etapolTBP" eB -> has o "etapolfan" eF -> in_range e -> feasible e (xi_cc e) -> 
  0 < xn -> 0 < bpr -> 0 <= fr <= 1 -> 0 < eB -> 0 < eF -> P0 e <= xn * (xi_inlet e * (P0 e * pres_ratio (gc e) (M0 e))) ->
  exists o' s, run tf_update o = Some o' /\ described o' e /\ shows o' s /\ cycle e s /\
  burner (cpc e) (cph e) (xi_cc e) (Pci e) (far s) (Tt3 s) (Tt4 e) /\ 0 < 1 + far s /\ 0 < Tt45 s /\ 0 < Pt45 s /\
  (P0 e <= Pt45 s * xn -> 
   exists Tt5 Pt5 M9 V9 Tt17 Pt17 M19 V19,
   let power := (1 + far s) * cph e * (Tt45 s - Tt5) in
   has o' "Tt5" Tt5 /\ has o' "Pt5" Pt5 /\ has o' "M9" M9 /\ has o' "V9" V9 /\ has o' "Tt17" Tt17 /\ has o' "Pt17" Pt17 /\
   has o' "M19" M19 /\ has o' "V19" V19 /\
   power = fr * ((1 + far s) * cph e * Tt45 s * (1 - Rpower (P0 e / (xn * Pt45 s)) ((gh e - 1) * eB / gh e))) /\
   expansion (gh e) eB (Pt45 s) (Tt45 s) Pt5 Tt5 /\
   bpr * cpc e * (Tt17 - Tt2 s) = eS e * power /\
   compression (gc e) eF (Pt2 s) (Tt2 s) Pt17 Tt17 /\
   has o' "Pt9" (Pt5 * xn) /\ nozzle (gh e) (rh e) (Pt5 * xn) Tt5 (P0 e) M9 V9 /\
   has o' "Pt19" (Pt17 * xn) /\ nozzle (gc e) (rc e) (Pt17 * xn) Tt17 (P0 e) M19 V19 /\
   eval o' tf_norm_thrust = Some (Some ((1 + far s) * V9 - V0 s + bpr * (V19 - V0 s))) /\
   eval o' tf_spec_thrust = Some (Some (((1 + far s) * V9 - V0 s + bpr * (V19 - V0 s)) / (1 + bpr))) /\
   eval o' tf_Wsp_kinEn = Some (Some (((1 + far s) * V9 ^ 2 - V0 s ^ 2 + bpr * (V19 ^ 2 - V0 s ^ 2)) / 2))).
Proof. exact turbofan. Qed.
Print Assumptions C60_turbofan.

(** For every turbofan of C60_turbofan: with fanpower_ratio = 0 the core is the turbojet of the same parameters (no temperature drop, no pressure drop, same M9 and V9) and the fan leaves the by-pass air at inlet conditions; with fanpower_ratio = 1 the core jet has no velocity left, for every turbine efficiency and nozzle loss. *)
Theorem C60_fan_extremes : forall o e xn bpr fr eB eF, described o e -> has o "xi_nozzle" xn -> has o "bpr" bpr -> has o "fanpower_ratio" fr ->
  has o "etapolTBP" eB -> has o "etapolfan" eF -> in_range e -> feasible e (xi_cc e) -> 
  0 < xn -> 0 < bpr -> 0 < eB -> 0 < eF -> P0 e <= xn * (xi_inlet e * (P0 e * pres_ratio (gc e) (M0 e))) ->
  exists o' oj s, run tf_update o = Some o' /\ run tj_update o = Some oj /\ shows o' s /\ shows oj s /\
  (P0 e <= Pt45 s * xn ->
   (fr = 0 -> has o' "Tt5" (Tt45 s) /\ has o' "Pt5" (Pt45 s) /\ has o' "Tt17" (Tt2 s) /\ has o' "Pt17" (Pt2 s) /\ o' "M9"%string = oj "M9"%string /\ o' "V9"%string = oj "V9"%string) /\
   (fr = 1 -> has o' "V9" 0)).
Proof. exact fan_extremes. Qed.
Print Assumptions C60_fan_extremes.

(** For all constructor arguments, defined or not, and whatever the object held: every attribute of a turbofan holds the argument of its name (eta_cc is not stored, and xi_nozzle is 1: see C60_nozzle_loss_refuted), and no other attribute is touched. *)
Theorem C60_constructor : forall opr tt4 gamc gamh rcold rhot xin xnoz xcc etacc pci ec et es bpr fr eB eF o,
  let p := {| a_core := {| a_OPR := opr; a_Tt4 := tt4; a_gam_cold := gamc; a_gam_hot := gamh; a_r_cold := rcold; a_r_hot := rhot; a_xi_inlet := xin;
                a_xi_nozzle := xnoz; a_xi_cc := xcc; a_eta_cc := etacc; a_Pci := pci; a_etapolCHP := ec; a_etapolTHP := et; a_eta_shaft := es |};
              a_bpr := bpr; a_fanpower_ratio := fr; a_etapolTBP := eB; a_etapolfan := eF |} in
  exists o', run (tf_init_body p) o = Some o' /\
  (o' "OPR" = Some opr /\ o' "Tt4" = Some tt4 /\ o' "gam_cold" = Some gamc /\ o' "gam_hot" = Some gamh /\ o' "r_cold" = Some rcold /\
   o' "r_hot" = Some rhot /\ o' "xi_inlet" = Some xin /\ o' "xi_cc" = Some xcc /\ o' "Pci" = Some pci /\ o' "etapolCHP" = Some ec /\
   o' "etapolTHP" = Some et /\ o' "eta_shaft" = Some es /\ o' "xi_nozzle" = Some (Some 1) /\ o' "bpr" = Some bpr /\
   o' "fanpower_ratio" = Some fr /\ o' "etapolTBP" = Some eB /\ o' "etapolfan" = Some eF)%string /\
  (forall a, ~ In a ["OPR"; "Tt4"; "gam_cold"; "gam_hot"; "r_cold"; "r_hot"; "xi_inlet"; "xi_cc"; "Pci"; "etapolCHP"; "etapolTHP"; "eta_shaft";
    "xi_nozzle"; "bpr"; "fanpower_ratio"; "etapolTBP"; "etapolfan"]%string -> o' a = o a).
Proof. exact tf_constructor. Qed.
Print Assumptions C60_constructor.

(** The turbofan constructor drops its xi_nozzle argument: whatever value is passed, the object built is the one for xi_nozzle = 1 and its nozzles have no pressure loss; the turbojet constructor keeps it. *)
Theorem C60_nozzle_loss_refuted : 
  (forall p x o, run (tf_init_body (tf_with_nozzle p x)) o = run (tf_init_body (tf_with_nozzle p (Some 1))) o) /\
  (forall p o o', run (tf_init_body p) o = Some o' -> has o' "xi_nozzle" 1) /\
  (forall p o o', run (tj_init_body p) o = Some o' -> o' "xi_nozzle"%string = Some (a_xi_nozzle p)).
Proof. exact nozzle_loss_refuted. Qed.
Print Assumptions C60_nozzle_loss_refuted.

(** The specific power of an ideal low pressure turbine expanding from (Pt45, Tt45) to P19 is (1+far) cp Tt45 (1 - (P19/Pt45)^((g-1)/g)); Wsp_TBP_ideal returns minus that power divided by (g-1): with far > -1, Tt45 > 0 and P19 < Pt45 the result is negative, hence so is thermal_efficiency of the gas generator with far, Pci > 0. *)
Theorem C60_ideal_power_refuted : forall o f g r t p p19 pci P, has o "far" f -> has o "gam_hot" g -> has o "r_hot" r -> has o "Tt45" t -> has o "Pt45" p -> has o "Pci" pci ->
  eval o P = Some (Some p19) -> 1 < g -> 0 < r -> -1 < f -> 0 < t -> 0 < p19 < p ->
  let ideal := (1 + f) * cp_of g r * t * (1 - Rpower (p19 / p) ((g - 1) / g)) in
  0 < ideal /\ eval o (Wsp_TBP_ideal P) = Some (Some (- ideal / (g - 1))) /\ - ideal / (g - 1) < 0 /\
  (0 < f -> 0 < pci -> has o "P0" p19 -> exists eta, eval o gg_thermal_efficiency = Some (Some eta) /\ eta < 0).
Proof. exact ideal_power_refuted. Qed.
Print Assumptions C60_ideal_power_refuted.

(** Propulsive efficiency of the turbojet (after any history): where the kinetic energy gain is positive, it is at most 1 exactly when (1+far)(V9-V0)^2 >= far V0^2; in particular always when far = 0, where it is Froude's 2 V0/(V9+V0). The jet efficiency can exceed 1 because the fuel's own momentum is counted. *)
Theorem C60_propulsive : forall o f v9 v0, has o "far" f -> has o "V9" v9 -> has o "V0" v0 -> 0 < (1 + f) * v9 ^ 2 - v0 ^ 2 ->
  exists eta, eval o (propulsive_efficiency tj_Wsp_kinEn tj_norm_thrust) = Some (Some eta) /\
  (eta <= 1 <-> f * v0 ^ 2 <= (1 + f) * (v9 - v0) ^ 2) /\
  (f = 0 -> 0 <= v0 -> 0 < v9 -> eta = 2 * v0 / (v9 + v0)).
Proof. exact propulsive. Qed.
Print Assumptions C60_propulsive.

(** On any object of either class, in any state with a positive thrust: the specific consumption is the fuel flow per unit of thrust, and the thermopropulsive efficiency is V0 / (consumption * Pci). *)
Theorem C60_sfc : forall o nt f t, nt = tj_norm_thrust \/ nt = tf_norm_thrust -> has o "far" f -> eval o nt = Some (Some t) -> 0 < t ->
  exists c, eval o (Sfc nt) = Some (Some c) /\ c * t = f /\
  (forall v0 pci, has o "V0" v0 -> has o "Pci" pci -> 0 < f * pci ->
   exists eta, eval o (thermoprop_efficiency nt) = Some (Some eta) /\ eta = v0 / (c * pci)).
Proof. exact sfc_thrust. Qed.
Print Assumptions C60_sfc.

(** A turbofan built by its constructor, given its nozzle loss by assignment (see C60_nozzle_loss_refuted) and flight conditions at Mach 1: all hypotheses of C60_turbojet, C60_turbofan and C60_fan_extremes hold and the turbine discharges above ambient pressure. *)
Example C60_example : exists o o' s, run ex_tf_body empty_obj = Some o /\ in_range ex_engine /\ feasible ex_engine (xi_cc ex_engine) /\
  described o ex_engine /\ has o "xi_nozzle" (97 / 100) /\ has o "bpr" 5 /\ has o "fanpower_ratio" (1 / 2) /\ has o "etapolTBP" (9 / 10) /\ has o "etapolfan" (9 / 10) /\
  P0 ex_engine <= 97 / 100 * (xi_inlet ex_engine * (P0 ex_engine * pres_ratio (gc ex_engine) (M0 ex_engine))) /\
  run tf_update o = Some o' /\ shows o' s /\ P0 ex_engine <= Pt45 s * (97 / 100).
Proof. exact tf_example. Qed.
