(** Property theorems of L_DocExamples.v. Generated by tools/gen.py; statements only, proofs are in L_DocExamples.v. *)
From Verif Require Import L_Num Spec NumSpec NozzleSpec DocSpec M_Isentropic M_MassFlow M_DocExamples L_Isentropic L_MassFlow L_Nozzle1.
From Verif Require Import L_DocExamples.
Open Scope R_scope.

(** The stagnation recipe: for every static pressure, temperature and Mach number (of either sign) the two printed values are what the gas becomes when it is brought to rest, energy and entropy being conserved. *)
Theorem C105_stagnation : forall r p T M, 0 < r -> 0 < p -> 0 < T ->
  exists ps Ts, doc_stagnation (Some p) (Some T) (Some M) = (Some ps, Some Ts) /\ comes_to_rest (14/10) r p T (M * sound (14/10) r T) ps Ts.
Proof. exact doc_stagnation_rest. Qed.
Print Assumptions C105_stagnation.

(** The exit Mach number recipe divides the static pressure by the total one. For every flow that moves (P < Pt) it returns nan, although the flow has exactly one Mach number, which the same function finds from Pt/P; and when it does return a number, as with the notebook's own 10 atm and 0.45 atm, no flow at any Mach number has these two pressures. *)
Theorem C105_exit_Mach_refuted : forall g P Pt, 1 < g -> 0 < P -> 0 < Pt ->
  (P < Pt -> doc_exit_Mach (Some P) (Some Pt) (Some g) = None /\
     exists M, 0 < M /\ Mach_PtPs (Some (Pt / P)) (Some g) = Some M /\ has_pressures g M P Pt /\
       forall M', 0 <= M' -> has_pressures g M' P Pt -> M' = M) /\
  (Pt < P -> (exists M, doc_exit_Mach (Some P) (Some Pt) (Some g) = Some M /\ 0 < M) /\ forall M, ~ has_pressures g M P Pt).
Proof. exact doc_exit_Mach_swapped. Qed.
Print Assumptions C105_exit_Mach_refuted.

(** The pipe recipe divides the static temperature by the total one. For every flow that moves (T < Tt) the Mach number and the velocity are nan, although the flow has one Mach number and one velocity, which the same two functions find from Tt/T; and when numbers come out (Tt < T, as with the notebook's 390 K and 280 K) no flow has these temperatures, and the velocity printed is not even that of the gas with the two temperatures exchanged: its kinetic energy is smaller by the factor Tt/T. *)
Theorem C105_pipe_refuted : forall T Tt, 0 < T -> 0 < Tt ->
  (T < Tt -> doc_pipe_Mach (Some T) (Some Tt) = None /\ doc_pipe_velocity (Some T) (Some Tt) = None /\
     exists M V, 0 < M /\ Mach_TtTs (Some (Tt / T)) (Some (14/10)) = Some M /\ has_temperatures (14/10) (2871/10) M T Tt /\
       Velocity_MachTt (Some M) (Some Tt) (Some (2871/10)) (Some (14/10)) = Some V /\ V = M * sound (14/10) (2871/10) T) /\
  (Tt < T -> (forall M, ~ has_temperatures (14/10) (2871/10) M T Tt) /\
     exists V, doc_pipe_velocity (Some T) (Some Tt) = Some V /\ 0 < V /\
       V ^ 2 / 2 = cp (14/10) (2871/10) * (T - Tt) * (Tt / T)).
Proof. exact doc_pipe_swapped. Qed.
Print Assumptions C105_pipe_refuted.

(** The supersonic nozzle recipe: for every exit area larger than the throat (and a root finder that stays on the side it starts from), the printed Mach number is supersonic, passes through the exit the mass flow of the sonic throat whatever the stagnation conditions, and is the only supersonic one that does. *)
Theorem C105_adapted : forall newton At Ae, branch_solver (14/10) newton -> 0 < At -> At < Ae ->
  exists M, doc_adapted newton (Some At) (Some Ae) = Some M /\ 1 < M /\ same_flow (14/10) 1 At M Ae /\
    forall M', 1 <= M' -> same_flow (14/10) 1 At M' Ae -> M' = M.
Proof. exact doc_adapted_flow. Qed.
Print Assumptions C105_adapted.

(** The mass flow recipe: for every throat area and stagnation conditions the printed number is rho V A of the sonic throat, and every other Mach number passes strictly less through the same area. *)
Theorem C105_mass_flow : forall A pt Tt r, 0 < A -> 0 < pt -> 0 < Tt -> 0 < r ->
  exists m, doc_mass_flow (Some A) (Some pt) (Some Tt) (Some r) = Some m /\ mass_flow_rate (14/10) r 1 pt Tt A m /\
    forall M m', 0 < M -> M <> 1 -> mass_flow_rate (14/10) r M pt Tt A m' -> m' < m.
Proof. exact doc_mass_flow_max. Qed.
Print Assumptions C105_mass_flow.

(** The subsonic recipe: for every gamma in (1, 1.4], subsonic throat Mach number and exit area at least that of the throat, the printed Mach number is subsonic, not above that of the throat, passes the same mass flow through the exit as through the throat, and is the only subsonic one that does. *)
Theorem C105_subsonic : forall newton g At Ae Mt, branch_solver g newton -> 1 < g <= 14/10 -> 0 < At -> At <= Ae -> 0 < Mt < 1 ->
  exists M, doc_subsonic newton (Some At) (Some Ae) (Some Mt) (Some g) = Some M /\ 0 < M < 1 /\ M <= Mt /\
    same_flow g Mt At M Ae /\ forall M', 0 < M' <= 1 -> same_flow g Mt At M' Ae -> M' = M.
Proof. exact doc_subsonic_flow. Qed.
Print Assumptions C105_subsonic.

(** the notebooks' own numbers meet the hypotheses above (the Mach 0.8 flow at 1e5 Pa and 280 K; the throat of 0.1 and exit of 0.25 square metres, the subsonic flow at Mach 0.85 of a gas of ratio 1.25), a root finder as required exists, and their pressures and temperatures (10 and 0.45 atm; 390 and 280 K) are the impossible ones *)
Example C105_example : (exists newton, branch_solver (14/10) newton) /\ (exists newton, branch_solver (125/100) newton) /\
  (exists ps, fst (doc_stagnation (Some 100000) (Some 280) (Some (8/10))) = Some ps /\ 100000 < ps) /\
  snd (doc_stagnation (Some 100000) (Some 280) (Some (8/10))) = Some (280 * (1128/1000)) /\
  (exists M, doc_exit_Mach (Some (10 * (101/100 * 1000000))) (Some (45/100 * (101/100 * 1000000))) (Some (11/10)) = Some M) /\
  (forall M, ~ has_pressures (11/10) M (10 * (101/100 * 1000000)) (45/100 * (101/100 * 1000000))) /\
  (forall M, ~ has_temperatures (14/10) (2871/10) M 390 280).
Proof. exact doc_example. Qed.
