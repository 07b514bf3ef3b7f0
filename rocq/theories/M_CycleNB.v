(** * Model of the classes of notebooks/Turbofan_pyclass_design.ipynb (code cells 2 to 5)
    Compared line by line with aerokit/engine/Cycle_Turbofan.py: the class Gaz, the class attributes, the attributes set
    by the constructors, and all the methods are the same text, except the line computing V9 in the two methods stage_9
    (cell 4, line 46 and cell 5, line 39), which hands r to Velocity_MachTi as its fourth argument (gamma). The
    definitions of M_Cycle.v are therefore used for the rest. Printing is left out. *)
From Coq Require Import String.
From Verif Require Import Num M_Isentropic M_Obj M_Engine M_Cycle.
Open Scope string_scope.
Open Scope list_scope.
Open Scope obj_scope.

(** cell 4, stage_9 and cell 5, stage_9 *)
Definition nb_core_nozzle : prog :=
  [ ("Tt9", V "Tt5"); ("Pt9", V "Pt5" * V "xi_tuy"); ("P9", V "P0");
    ("M9", F2 Mach_PtPs (V "Pt9" / V "P9") (V "g_fuel.gamma"));
    ("V9", F4 Velocity_MachTi (V "M9") (V "Tt9") (V "g_fuel.r") (V "g_fuel.r"));
    ("F_c", V "m_c" * (V "V9" - V "V0")) ].
Definition nb_fixe_stage_9 : stage := {| guard := corps_is 5; code := nb_core_nozzle; new_corps := become 9; new_fan := keep |}.
Definition nb_calc_stage_9 : stage := {| guard := corps_is 6; code := nb_core_nozzle; new_corps := become 9; new_fan := keep |}.
(** cell 4, calculs_5_to_9 *)
Definition nb_fixe_5_to_9 : method :=
  [ (fan_is 0, [fixe_stage_13; stage_19; fixe_stage_5; nb_fixe_stage_9; perfo]);
    (fan_is 13, [stage_19; fixe_stage_5; nb_fixe_stage_9; perfo]);
    (fan_is 19, [fixe_stage_5; nb_fixe_stage_9; perfo]);
    (corps_is 5, [nb_fixe_stage_9; perfo]);
    (done_both, [perfo]) ].
Definition nb_fixe_methods : list method :=
  [ prim InitialValues; prim stage_2; prim stage_3; prim stage_4; calculs_1_to_4; prim fixe_stage_13; prim stage_19;
    prim fixe_stage_5; prim nb_fixe_stage_9; prim perfo; nb_fixe_5_to_9 ].
(** cell 5, calculs_5_to_9 *)
Definition nb_calc_5_to_9 : method :=
  [ (corps_is 4, [calc_stage_4_etoile; calc_stage_5; nb_calc_stage_9; calc_stage_13; stage_19; perfo]);
    (corps_is 5, [calc_stage_5; nb_calc_stage_9; calc_stage_13; stage_19; perfo]);
    (corps_is 6, [nb_calc_stage_9; calc_stage_13; stage_19; perfo]);
    (corps_is 9, [calc_stage_13; stage_19; perfo]);
    (fan_is 13, [stage_19; perfo]);
    (done_both, [perfo]) ].
Definition nb_calc_methods : list method :=
  [ prim InitialValues; prim stage_2; prim stage_3; prim stage_4; calculs_1_to_4; prim calc_stage_4_etoile; prim calc_stage_5;
    prim nb_calc_stage_9; prim calc_stage_13; prim stage_19; prim perfo; nb_calc_5_to_9 ].
