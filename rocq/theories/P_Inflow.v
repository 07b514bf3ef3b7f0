(** Property theorems of L_Inflow.v. Generated by tools/gen.py; statements only, proofs are in L_Inflow.v. *)
From Verif Require Import L_Num Spec NumSpec M_Isentropic M_MassFlow M_ShockWave M_Model1D M_Unsteady1D M_Riemann M_Inflow L_Isentropic L_Shock L_Model1D L_Unsteady L_Riemann1 L_Riemann2.
From Verif Require Import L_Inflow.
Open Scope R_scope.

(** With an exact root finder, for every gas, initial state, total pressure pt0 and total rT rtt0 for which the solver returns and the inflow velocity is below the limit velocity of rtt0: all four accessors answer; the states on both sides of the contact have the same positive pressure and the same velocity; the right one keeps gamma and is joined to the initial state by a right-running wave, a Rankine-Hugoniot shock when its pressure is higher and an isentropic simple wave otherwise; density, velocity and pressure of the left one have, for the gas of the problem, exactly the requested total pressure and total rT. PARTIAL: the left state object gets gamma 1.4, see C68_other_gas_refuted, and the two fastest-wave accessors never work, see C68_fastest_refuted. *)
Theorem C68_inflow_partial : forall fsolve g q pt0 rtt0 S, solves 0 fsolve -> 1 < g -> positive_state q -> 0 < pt0 -> 0 < rtt0 ->
  solve_with_pt0_rtt0 fsolve (inflow_init (obj g q)) (Some pt0) (Some rtt0) = Some S ->
  (forall u, inflow_ustar S = Some (Some u) -> u ^ 2 < 2 * g / (g - 1) * rtt0) ->
  exists p u rL rR wo wi,
    inflow_pstar S = Some (Some p) /\ inflow_ustar S = Some (Some u) /\ 0 < p /\ 0 < rL /\ 0 < rR /\
    inflow_qstarR S = Some (obj g (mkflow rR u p)) /\ joined_by_wave 1 g q (mkflow rR u p) wo wi /\
    inflow_qstarL S = Some (mk_state (Some (14/10)) (Some rL) (Some u) (Some p)) /\
    Ptot (obj g (mkflow rL u p)) = Some pt0 /\ rTtot (obj g (mkflow rL u p)) = Some rtt0.
Proof. exact inflow_solution. Qed.
Print Assumptions C68_inflow_partial.

(** For gamma = 1.4 nothing is missing from the solution: whenever the solver returns, the inflow velocity is below the limit velocity, both star states have the same positive pressure and the same velocity and keep gamma, the right one is joined to the initial state by a right-running shock or simple wave, and the left one reports exactly the requested total pressure and total rT. *)
Theorem C68_inflow_air : forall fsolve q pt0 rtt0 S, solves 0 fsolve -> positive_state q -> 0 < pt0 -> 0 < rtt0 ->
  solve_with_pt0_rtt0 fsolve (inflow_init (obj (14/10) q)) (Some pt0) (Some rtt0) = Some S ->
  exists p u rL rR wo wi,
    inflow_pstar S = Some (Some p) /\ inflow_ustar S = Some (Some u) /\ 0 < p /\ 0 < rL /\ 0 < rR /\ u ^ 2 < 7 * rtt0 /\
    inflow_qstarR S = Some (obj (14/10) (mkflow rR u p)) /\ joined_by_wave 1 (14/10) q (mkflow rR u p) wo wi /\
    inflow_qstarL S = Some (obj (14/10) (mkflow rL u p)) /\
    Ptot (obj (14/10) (mkflow rL u p)) = Some pt0 /\ rTtot (obj (14/10) (mkflow rL u p)) = Some rtt0.
Proof. exact inflow_air. Qed.
Print Assumptions C68_inflow_air.

(** For a root finder that only guarantees a residual of at most eps below pt0, the two star states have the same velocity, the total conditions of the left state are still exact, and the error appears as a pressure jump of at most eps at the contact. *)
Theorem C68_residual : forall fsolve eps g q pt0 rtt0 S, solves eps fsolve -> eps < pt0 -> 1 < g -> positive_state q -> 0 < pt0 -> 0 < rtt0 ->
  solve_with_pt0_rtt0 fsolve (inflow_init (obj g q)) (Some pt0) (Some rtt0) = Some S ->
  (forall u, inflow_ustar S = Some (Some u) -> u ^ 2 < 2 * g / (g - 1) * rtt0) ->
  exists p pL u rL rR,
    inflow_pstar S = Some (Some p) /\ inflow_qstarR S = Some (obj g (mkflow rR u p)) /\
    inflow_qstarL S = Some (mk_state (Some (14/10)) (Some rL) (Some u) (Some pL)) /\
    Ptot (obj g (mkflow rL u pL)) = Some pt0 /\ rTtot (obj g (mkflow rL u pL)) = Some rtt0 /\ Rabs (p - pL) <= eps.
Proof. exact inflow_residual. Qed.
Print Assumptions C68_residual.

(** For every other gas and every nonzero inflow velocity, the left state object does not report the requested total rT. *)
Theorem C68_other_gas_refuted : forall fsolve g q pt0 rtt0 S u, solves 0 fsolve -> 1 < g -> g <> 14/10 -> positive_state q -> 0 < pt0 -> 0 < rtt0 ->
  solve_with_pt0_rtt0 fsolve (inflow_init (obj g q)) (Some pt0) (Some rtt0) = Some S ->
  inflow_ustar S = Some (Some u) -> 0 < u ^ 2 < 2 * g / (g - 1) * rtt0 ->
  exists qL t, inflow_qstarL S = Some qL /\ st_g qL = Some (14/10) /\ rTtot qL = Some t /\ t <> rtt0.
Proof. exact inflow_other_gas. Qed.
Print Assumptions C68_other_gas_refuted.

(** left_fastest and right_fastest raise AttributeError after every history of solve calls; the four other accessors raise it exactly before the first successful solve. *)
Theorem C68_fastest_refuted : forall fsolve q l S, solve_all fsolve (inflow_init q) l = Some S ->
  inflow_left_fastest S = None /\ inflow_right_fastest S = None /\
  (inflow_pstar S = None <-> l = []) /\ (inflow_ustar S = None <-> l = []) /\ (inflow_qstarL S = None <-> l = []) /\ (inflow_qstarR S = None <-> l = []).
Proof. exact inflow_fastest. Qed.
Print Assumptions C68_fastest_refuted.

(** An object may be solved again and again: after every history of successful solve calls it holds what a fresh object holds after the last of them, and the initial state is unchanged. *)
Theorem C68_history : forall fsolve q l pt0 rtt0 S, solve_all fsolve (inflow_init q) (app l ((pt0, rtt0) :: nil)) = Some S ->
  solve_with_pt0_rtt0 fsolve (inflow_init q) pt0 rtt0 = Some S /\ in_qR S = q.
Proof. exact inflow_history. Qed.
Print Assumptions C68_history.

(** For every gas, initial state of velocity below 2a/(gamma-1) and total rT, there is a pressure p0, that of the gas brought to rest by a wave, such that the equation handed to the root finder has a root with non-negative velocity below the limit velocity exactly when pt0 is at least p0, and then exactly one. *)
Theorem C68_one_solution : forall g q rtt0, 1 < g -> positive_state q -> 0 < rtt0 -> f_u q < 2 * flow_sound g q / (g - 1) ->
  let solution pt0 p := 0 < p /\ pt0_from_pstar_rtt0 (obj g q) (Some p) (Some rtt0) = Some pt0 /\
    exists u, (st_u (obj g q) + delta_uR (obj g q) (Some p))%num = Some u /\ 0 <= u /\ u ^ 2 < 2 * g / (g - 1) * rtt0 in
  exists p0, 0 < p0 /\ delta_uR (obj g q) (Some p0) = Some (- f_u q) /\
    forall pt0, ((exists p, solution pt0 p) <-> p0 <= pt0) /\ (forall p p', solution pt0 p -> solution pt0 p' -> p = p').
Proof. exact inflow_one_solution. Qed.
Print Assumptions C68_one_solution.

(** Gas at rest with rho = 0.2, p = 1, fed with pt0 = 512 and rtt0 = 12/7: an exact root finder gives p* = 4 and u* = 3 behind a shock; the hypotheses of the theorems above hold. *)
Example C68_example : let q := mkflow (2/10) 0 1 in positive_state q /\ solves 0 (try_value 4) /\ f_u q < 2 * flow_sound (14/10) q / (14/10 - 1) /\
  exists S, solve_with_pt0_rtt0 (try_value 4) (inflow_init (obj (14/10) q)) (Some 512) (Some (12/7)) = Some S /\ inflow_pstar S = Some (Some 4) /\ inflow_ustar S = Some (Some 3) /\ f_p q < 4.
Proof. exact inflow_example. Qed.
