(** Property theorems of L_Units.v. Generated by tools/gen.py; statements only, proofs are in L_Units.v. *)
From Coq Require Import String List ZArith FunctionalExtensionality Lra Lia Psatz.
From Verif Require Import Num L_Num M_Isentropic M_Obj M_Engine M_Cycle L_Cycle2 UnitsSpec.
From Verif Require Import L_Units.
Import ListNotations.
Open Scope R_scope.

(** Gas generators, turbojets and turbofans do not depend on the units of pressure, temperature and velocity: for every change of units and every object, whatever it holds (missing or undefined attributes included), update on the object expressed in the new units fails when it fails in the old ones, and otherwise gives the old result expressed in the new units; the readings (thrust, specific energies, efficiencies, consumption) change like their dimensions. *)
Theorem C117_units : forall u o, proper u ->
  run gg_update (rescale u o) = option_map (rescale u) (run gg_update o) /\
  run tj_update (rescale u o) = option_map (rescale u) (run tj_update o) /\
  run tf_update (rescale u o) = option_map (rescale u) (run tf_update o) /\
  eval (rescale u o) gg_thermal_efficiency = eval o gg_thermal_efficiency /\
  (forall W N, (W, N) = (tj_Wsp_kinEn, tj_norm_thrust) \/ (W, N) = (tf_Wsp_kinEn, tf_norm_thrust) ->
   eval (rescale u o) N = option_map (convert u velocity) (eval o N) /\ eval (rescale u o) W = option_map (convert u energy) (eval o W) /\
   eval (rescale u o) (thermal_efficiency W) = eval o (thermal_efficiency W) /\
   eval (rescale u o) (propulsive_efficiency W N) = eval o (propulsive_efficiency W N) /\
   eval (rescale u o) (thermoprop_efficiency N) = eval o (thermoprop_efficiency N) /\
   eval (rescale u o) (Sfc N) = option_map (convert u consumption) (eval o (Sfc N))).
Proof. exact units_update. Qed.
Print Assumptions C117_units.

(** The same for the two-flow turbojet classes and every sequence of their methods from every object, and for the three script functions: the units of mass flow, pressure, temperature and velocity do not matter. *)
Theorem C117_classes : forall u, proper u ->
  (forall h c, List.Forall (fun m => In m fixe_methods) h \/ List.Forall (fun m => In m calc_methods) h ->
   history h (on_attrs (rescale u) c) = option_map (on_attrs (rescale u)) (history h c)) /\
  (forall o, run propu_be_body (rescale u o) = option_map (rescale u) (run propu_be_body o) /\
   run double_corps_body (rescale u o) = option_map (rescale u) (run double_corps_body o) /\
   run tau_optimum_body (rescale u o) = option_map (rescale u) (run tau_optimum_body o)).
Proof. exact units_classes. Qed.
Print Assumptions C117_classes.

(** From the constructor on: the gas generator, the turbojet and the turbofan built from arguments expressed in other units and flown in conditions expressed in these units give the object of the first units, expressed in the others (and fail exactly when it fails). *)
Theorem C117_arguments : forall u p q T0 P0 M0, proper u ->
  let flight := flight_conditions T0 P0 M0 in
  let flight' := flight_conditions (convert u temperature T0) (convert u pressure P0) M0 in
  run (gg_init_body (convert_args u p) ++ flight' ++ gg_update)%list empty_obj = option_map (rescale u) (run (gg_init_body p ++ flight ++ gg_update)%list empty_obj) /\
  run (tj_init_body (convert_args u p) ++ flight' ++ tj_update)%list empty_obj = option_map (rescale u) (run (tj_init_body p ++ flight ++ tj_update)%list empty_obj) /\
  run (tf_init_body (convert_tf u q) ++ flight' ++ tf_update)%list empty_obj = option_map (rescale u) (run (tf_init_body q ++ flight ++ tf_update)%list empty_obj).
Proof. exact units_arguments. Qed.
Print Assumptions C117_arguments.

(** Multiplying the ambient pressure of a gas generator, a turbojet or a turbofan by k > 0 multiplies every pressure by k and leaves every other attribute (temperatures, velocities, specific thrust ...) as it was: at a given Mach number and temperature the engine does not see the altitude. *)
Theorem C117_altitude : forall k p q T0 P0 M0, 0 < k ->
  let flight := flight_conditions T0 P0 M0 in
  let flight' := flight_conditions T0 (nmul (Some k) P0) M0 in
  run (gg_init_body p ++ flight' ++ gg_update)%list empty_obj = option_map (pressurised k) (run (gg_init_body p ++ flight ++ gg_update)%list empty_obj) /\
  run (tj_init_body p ++ flight' ++ tj_update)%list empty_obj = option_map (pressurised k) (run (tj_init_body p ++ flight ++ tj_update)%list empty_obj) /\
  run (tf_init_body q ++ flight' ++ tf_update)%list empty_obj = option_map (pressurised k) (run (tf_init_body q ++ flight ++ tf_update)%list empty_obj).
Proof. exact altitude. Qed.
Print Assumptions C117_altitude.

(** For all arguments, a two-flow turbojet object of either class built with k > 0 times the mass flow and put through any sequence of method calls holds k times the flows, thrusts and powers and the same pressures, temperatures, velocities, specific thrust, efficiencies and specific consumption as the one built with the given flow and put through the same calls; the same holds of the three script functions. *)
Theorem C117_size : forall k, 0 < k ->
  (forall l pc t4 m g gf x h, List.Forall (fun f => In f fixe_methods) h ->
   built (init_fixe l pc t4 (nmul (Some k) m) g gf x) h = option_map (on_attrs (sized k)) (built (init_fixe l pc t4 m g gf x) h)) /\
  (forall l pc t4 m g gf x h, List.Forall (fun f => In f calc_methods) h ->
   built (init_calcule l pc t4 (nmul (Some k) m) g gf x) h = option_map (on_attrs (sized k)) (built (init_calcule l pc t4 m g gf x) h)) /\
  (forall l pc t4 pf m, propu_be_calculs script_globals l pc t4 pf (nmul (Some k) m) = option_map (sized k) (propu_be_calculs script_globals l pc t4 pf m)) /\
  (forall l pc t4 m x, double_corps_calculs script_globals l pc t4 (nmul (Some k) m) x = option_map (sized k) (double_corps_calculs script_globals l pc t4 m x)) /\
  (forall l pc t4 m, tau_optimum script_globals l pc t4 (nmul (Some k) m) = option_map (sized k) (tau_optimum script_globals l pc t4 m)).
Proof. exact size. Qed.
Print Assumptions C117_size.

(** Grams per second, millibars, tenths of a kelvin and kilometres per second are proper units; in them the default heating value 42.8 MJ/kg of the gas generator reads 42.8 and Python's 1500 K reads 15000; a turbofan and a two-flow object of 200 kg/s can be built and updated (so the two sides of C117_arguments, C117_altitude and C117_size are objects, not failures), and for the latter the thrust is what is multiplied, the turbine outlet temperature is not. *)
Example C117_example : let u := {| u_m := 1000; u_p := / 100; u_t := 10; u_v := / 1000 |} in proper u /\
  a_Pci (convert_args u (gg_default (Some 30) (Some 1500))) = Some (428 / 10) /\ a_Tt4 (convert_args u (gg_default (Some 30) (Some 1500))) = Some 15000 /\
  (exists o, run (tf_init_body {| a_core := gg_default (Some 30) (Some 1500); a_bpr := Some 5; a_fanpower_ratio := Some (1 / 2); a_etapolTBP := Some 1; a_etapolfan := Some 1 |} ++
     flight_conditions (Some 220) (Some 20000) (Some (8 / 10)) ++ tf_update)%list empty_obj = Some o) /\
  (exists c, built (init_fixe (Some 5) (Some 40) (Some 1600) (Some 200) gaz_default gaz_fuel (Some (3/2))) (fixe_5_to_9 :: nil) = Some c /\ In fixe_5_to_9 fixe_methods /\
     sized 2 (attrs c) "F"%string = option_map (nmul (Some 2)) (attrs c "F"%string) /\ sized 2 (attrs c) "Tt5"%string = attrs c "Tt5"%string).
Proof. exact units_example. Qed.
