(** Property theorems of L_Cycle6.v. Generated by tools/gen.py; statements only, proofs are in L_Cycle6.v. *)
From Coq Require Import String.
From Verif Require Import Num L_Num M_Isentropic M_Obj L_Obj M_Engine M_Cycle EngineSpec CycleSpec L_Engine L_Engine2 L_Cycle L_Cycle2.
From Verif Require Import L_Cycle6.
Open Scope R_scope.

(** calculs_tau_optimum does not give the optimal fan. The optimum of the ideal turbofan - the fan temperature ratio for which no other one gives more jet momentum - is unique and is the textbook closed form whenever the engine can run at all; and for every by-pass ratio, turbine inlet temperature and mass flow, and every compressor pressure ratio whose temperature ratio is at least 2, the value the script prints and goes on with lies strictly above that closed form (the heating ratio is taken with Tt0 instead of T0 and multiplies the ram ratio where it should be added), so it is never the optimum. *)
Theorem C76_tau_optimum_refuted : forall l pc t4 m, 0 < l -> 0 < pc -> 0 < t4 ->
  let i := script_engine l pc t4 in
  (forall t, optimal_fan i t -> t = best_fan i) /\ (forall t, can_run i t -> optimal_fan i (best_fan i)) /\
  exists o t, tau_optimum script_globals (Some l) (Some pc) (Some t4) m = Some o /\ has o "tau_f" t /\ (2 <= comp i -> best_fan i < t /\ ~ optimal_fan i t).
Proof. exact tau_optimum_refuted. Qed.
Print Assumptions C76_tau_optimum_refuted.

(** Once it has its fan temperature ratio, calculs_tau_optimum is consistent: for all arguments for which that ratio is positive, every quantity it computes is the one propu_be.calculs computes for the fan pressure ratio it derives, each defined on one side exactly when on the other. PARTIAL: the ratio itself is not the optimum, see C76_tau_optimum_refuted, and the function returns nothing (its return statement is commented out). *)
Theorem C76_tau_optimum_partial : forall l pc t4 m o tf, tau_optimum script_globals l pc t4 m = Some o -> has o "tau_f" tf -> 0 < tf ->
  exists pf s, o "pi_f"%string = Some pf /\ propu_be_calculs script_globals l pc t4 pf m = Some s /\ agree o s names_opt.
Proof. exact tau_optimum_consistent. Qed.
Print Assumptions C76_tau_optimum_partial.

(** Example: by-pass ratio 5, turbine inlet temperature 1400 K and a compressor that doubles the temperature; the engine can run without its fan doing work, the compressor is in the range of the refutation, and the printed fan ratio is positive. *)
Example C76_example : let i := script_engine 5 (Rpower 2 (63 / 20)) 1400 in
  comp i = 2 /\ can_run i 1 /\ exists o t, tau_optimum script_globals (Some 5) (Some (Rpower 2 (63 / 20))) (Some 1400) (Some 180) = Some o /\ has o "tau_f" t /\ 0 < t.
Proof. exact tau_optimum_example. Qed.
