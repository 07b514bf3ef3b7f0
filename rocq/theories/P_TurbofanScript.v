(** Property theorems of L_TurbofanScript.v. Generated by tools/gen.py; statements only, proofs are in L_TurbofanScript.v. *)
From Coq Require Import String ZArith.
From Verif Require Import Num L_Num M_Isentropic M_Obj L_Obj M_Engine M_TurbofanScript EngineSpec IdealSpec L_Engine L_Engine2 L_Ideal.
From Verif Require Import L_TurbofanScript.
Open Scope R_scope.

(** examples/turbofan.py, at every point of its grid (every pressure ratio and every by-pass ratio of its two arrays): the model can be built, updated and plotted - no undefined value; both jets are faster than the flight, the specific thrust is positive, and the thermopropulsive efficiency lies strictly between 0 and the Brayton efficiency 1 - T0/Tt3 of the point, itself below 1: every point falls within the range of the contour levels. *)
Theorem C107_script : forall opr bpr, In opr s_Opr -> In bpr s_Bpr ->
  exists o t3 v0 v9 v19 F eta, run (s_model opr bpr) empty_obj = Some o /\ has o "Tt3" t3 /\ has o "V0" v0 /\ has o "V9" v9 /\ has o "V19" v19 /\
  0 < v0 < v9 /\ v0 < v19 /\
  s_point opr bpr = Some (opr, Some F, Some eta) /\ 0 < F /\ 0 < eta < 1 - 200 / t3 /\ 200 < t3 < 800.
Proof. exact s_script. Qed.
Print Assumptions C107_script.

(** The grid of the script: its compressor exit temperatures are 252, 302, 352, ... by steps of 50 K, below half the turbine temperature (800 K), its by-pass ratios 0.2, 0.4, ... below 10, and its pressure ratios those of the temperatures: the ratio to the flight total temperature 210 K, to the power 3.2. *)
Theorem C107_grid : forall y, (In y s_Tt3 <-> exists i : nat, y = Some (252 + INR i * 50) /\ 252 + INR i * 50 < 800)
  /\ (In y s_Bpr <-> exists j : nat, y = Some (2 / 10 + INR j * (2 / 10)) /\ 2 / 10 + INR j * (2 / 10) < 10)
  /\ (In y s_Opr <-> exists t, In (Some t) s_Tt3 /\ y = Some (Rpower (t / 210) (32 / 10))).
Proof. exact s_grid. Qed.
Print Assumptions C107_grid.

(** The temperatures Tt3 from which the script derives its pressure ratios are not those of the engines it draws: at every point of the grid the compressor exit temperature of the model is lower than the one chosen (the script raises the ratio to the power 3.2, while the model, left at its default efficiency 1, compresses with the power 3.5). *)
Theorem C107_target_refuted : forall tt3 bpr, In tt3 s_Tt3 -> In bpr s_Bpr ->
  exists o t t', tt3 = Some t /\ In (opr_of tt3) s_Opr /\ run (s_model (opr_of tt3) bpr) empty_obj = Some o /\ has o "Tt3" t' /\ t' < t.
Proof. exact s_target_refuted. Qed.
Print Assumptions C107_target_refuted.

(** The grid holds among others the temperatures 252 K and 752 K and the by-pass ratios 0.2 and 9.8, and the object the script builds there is an ideal turbofan of the kind the other theorems speak of; its core is one whose turbojet jet is faster than the flight. *)
Example C107_example : In (Some 252) s_Tt3 /\ In (Some 752) s_Tt3 /\ In (Some (2 / 10)) s_Bpr /\ In (Some (98 / 10)) s_Bpr /\
  (exists o, run (s_model (opr_of (Some 752)) (Some (98 / 10))) empty_obj = run tf_update o /\ ideal_fan o (s_engine 752) (98 / 10) (98 / 118)) /\
  (exists o o' v0 v9, described o (s_engine 752) /\ has o "xi_nozzle" 1 /\ in_range (s_engine 752) /\ ideal (s_engine 752) /\ running (s_engine 752) /\
   run tj_update o = Some o' /\ has o' "V9" v9 /\ has o' "V0" v0 /\ v0 < v9).
Proof. exact s_example. Qed.
