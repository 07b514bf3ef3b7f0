(** Property theorems of L_Engine.v. Generated by tools/gen.py; statements only, proofs are in L_Engine.v. *)
From Coq Require Import String.
From Verif Require Import Num L_Num M_Isentropic M_Obj L_Obj M_Engine EngineSpec.
From Verif Require Import L_Engine.
Open Scope R_scope.

(** For every object - whatever was called or computed on it before - whose parameters and flight conditions are finite and in the operating range (positive temperatures, pressures, efficiencies; gammas > 1; a turbine able to drive the compressor), update succeeds, leaves the parameters unchanged, and the stored stations satisfy: flight total conditions, inlet loss, pressure ratio and polytropic compression, combustor pressure loss, shaft power balance, polytropic expansion. PARTIAL: the combustor energy balance holds with the pressure loss coefficient xi_cc in place of the combustion efficiency eta_cc (see C59_eta_cc_refuted). *)
Theorem C59_cycle_partial : forall o e, described o e -> in_range e -> feasible e (xi_cc e) ->
  exists o' s, run gg_update o = Some o' /\ described o' e /\ shows o' s /\ cycle e s /\
  burner (cpc e) (cph e) (xi_cc e) (Pci e) (far s) (Tt3 s) (Tt4 e).
Proof. exact gg_cycle. Qed.
Print Assumptions C59_cycle_partial.

(** update depends only on the parameters and flight conditions: two objects that agree on them (and may differ in anything else, such as the results of earlier updates) end with the same stations; this includes the AttributeError when one of them was never set, e.g. update before flight_conditions. *)
Theorem C59_no_history : forall o1 o2, (forall a, In a gg_inputs -> o1 a = o2 a) ->
  (forall o1', run gg_update o1 = Some o1' -> exists o2', run gg_update o2 = Some o2' /\ forall a, In a (gg_inputs ++ writes gg_update) -> o1' a = o2' a) /\
  (run gg_update o1 = None <-> run gg_update o2 = None) /\
  (forall a, In a gg_inputs -> o1 a = None -> run gg_update o1 = None).
Proof. exact gg_no_history. Qed.
Print Assumptions C59_no_history.

(** The constructor ignores eta_cc: objects built with any two values of it are identical, and after update the combustor energy balance with efficiency eta is false for every eta other than xi_cc, as soon as fuel is burnt (far <> 0) with a non-zero heating value. *)
Theorem C59_eta_cc_refuted : 
  (forall p x o, run (gg_init_body (with_eta_cc p x)) o = run (gg_init_body p) o) /\
  (forall o e eta, described o e -> in_range e -> feasible e (xi_cc e) -> eta <> xi_cc e -> Pci e <> 0 ->
   exists o' s, run gg_update o = Some o' /\ shows o' s /\
   (far s <> 0 -> ~ burner (cpc e) (cph e) eta (Pci e) (far s) (Tt3 s) (Tt4 e))).
Proof. exact gg_eta_cc_refuted. Qed.
Print Assumptions C59_eta_cc_refuted.

(** For all constructor arguments and flight conditions, defined or not, and whatever the object held: every attribute holds the argument of its name (eta_cc excepted, see C59_eta_cc_refuted), and no other attribute is touched. *)
Theorem C59_constructor : forall opr tt4 gamc gamh rcold rhot xin xnoz xcc etacc pci ec et es t0 p0 m0 o,
  let p := {| a_OPR := opr; a_Tt4 := tt4; a_gam_cold := gamc; a_gam_hot := gamh; a_r_cold := rcold; a_r_hot := rhot; a_xi_inlet := xin;
              a_xi_nozzle := xnoz; a_xi_cc := xcc; a_eta_cc := etacc; a_Pci := pci; a_etapolCHP := ec; a_etapolTHP := et; a_eta_shaft := es |} in
  exists o', run (gg_init_body p ++ flight_conditions t0 p0 m0) o = Some o' /\
  (o' "OPR" = Some opr /\ o' "Tt4" = Some tt4 /\ o' "gam_cold" = Some gamc /\ o' "gam_hot" = Some gamh /\ o' "r_cold" = Some rcold /\
   o' "r_hot" = Some rhot /\ o' "xi_inlet" = Some xin /\ o' "xi_cc" = Some xcc /\ o' "Pci" = Some pci /\ o' "etapolCHP" = Some ec /\
   o' "etapolTHP" = Some et /\ o' "eta_shaft" = Some es /\ o' "T0" = Some t0 /\ o' "P0" = Some p0 /\ o' "M0" = Some m0)%string /\
  (forall a, ~ In a ["OPR"; "Tt4"; "gam_cold"; "gam_hot"; "r_cold"; "r_hot"; "xi_inlet"; "xi_cc"; "Pci"; "etapolCHP"; "etapolTHP"; "eta_shaft"; "T0"; "P0"; "M0"]%string ->
   o' a = o a).
Proof. exact gg_constructor. Qed.
Print Assumptions C59_constructor.

(** A gas generator built from its two required arguments only is the ideal engine running on air: gamma 1.4 and r 287.1 on both sides, no pressure losses, all efficiencies 1, fuel of 42.8 MJ/kg. For every pressure ratio, turbine inlet temperature and flight condition in range, its update gives the whole cycle including the combustor energy balance with combustion efficiency 1. *)
Theorem C59_defaults : forall opr tt4 t0 p0 m0,
  let e := {| OPR := opr; Tt4 := tt4; gc := 14 / 10; gh := 14 / 10; rc := 2871 / 10; rh := 2871 / 10; xi_inlet := 1; xi_cc := 1;
              Pci := 42800000; eC := 1; eT := 1; eS := 1; T0 := t0; P0 := p0; M0 := m0 |} in
  in_range e -> feasible e 1 -> exists o o' s,
  run (gg_init_body (gg_default (Some opr) (Some tt4)) ++ flight_conditions (Some t0) (Some p0) (Some m0)) empty_obj = Some o /\
  run gg_update o = Some o' /\ described o' e /\ shows o' s /\ cycle e s /\ burner (cpc e) (cph e) 1 (Pci e) (far s) (Tt3 s) tt4.
Proof. exact gg_defaults. Qed.
Print Assumptions C59_defaults.

(** pressure ratio 2^3.5, 1600 K, Mach 1 at 200 K and 20000 Pa are in range. *)
Example C59_defaults_example :
  let e := {| OPR := Rpower 2 (7 / 2); Tt4 := 1600; gc := 14 / 10; gh := 14 / 10; rc := 2871 / 10; rh := 2871 / 10; xi_inlet := 1; xi_cc := 1;
              Pci := 42800000; eC := 1; eT := 1; eS := 1; T0 := 200; P0 := 20000; M0 := 1 |} in in_range e /\ feasible e 1.
Proof. exact gg_defaults_ex. Qed.

(** A gas generator built by the constructor and given flight conditions at Mach 1 meets the hypotheses, with far > 0. *)
Example C59_example : exists o e, run (gg_init_body (ex_args 1) ++ flight_conditions (Some 200) (Some 20000) (Some 1)) empty_obj = Some o /\
  described o e /\ in_range e /\ feasible e (xi_cc e) /\ cpc e * compressor_exit e < cph e * Tt4 e /\ xi_cc e <> 99 / 100 /\ Pci e <> 0.
Proof. exact gg_example. Qed.
