(** Property theorems of L_ShockTube.v. Generated by tools/gen.py; statements only, proofs are in L_ShockTube.v. *)
From Verif Require Import L_Num Spec NumSpec M_Isentropic M_MassFlow M_Model1D M_Unsteady1D M_Riemann M_ShockTube ShockTubeSpec L_Isentropic L_Shock L_Model1D L_Unsteady L_Riemann1 L_Riemann2 L_GuideVane.
From Verif Require Import L_ShockTube.
Open Scope R_scope.

(** For every initial pressure, driver ratio > 1, temperature, gas constants and gammas, and an exact root finder: when the cells run, the driver gas expands isentropically, the incident wave in the driven gas, the wave transmitted through the interface to the second gas, the wave reflected by the wall and the wave sent back into the first gas at the second passage are all Rankine-Hugoniot shocks (at the speeds used by the diagram), each raising the pressure; pressure and velocity are equal on both sides of every contact, the incident gas and the interface move to the right, the gas at the wall is at rest, the reflected shock moves to the left, and each shock overtakes the gas behind it. *)
Theorem C98_states : forall newton P pr T r1 r2 g1 g2 S, solves 0 newton -> 0 < P -> 1 < pr -> 0 < T -> 0 < r1 -> 0 < r2 -> 1 < g1 -> 1 < g2 ->
  shocktube_cells newton (Some P) (Some pr) (Some T) (Some r1) (Some r2) (Some g1) (Some g2) = Some S ->
  exists q21 q11 q12 q01 q02 q13 q03 w1 w2 w3 w4,
    let q20 := mkflow (P * pr / (r1 * T)) 0 (P * pr) in
    let q10 := mkflow (P / (r1 * T)) 0 P in
    let q00 := mkflow (P / (r2 * T)) 0 P in
    t_q20 S = obj g1 q20 /\ t_q10 S = obj g1 q10 /\ t_q00 S = obj g2 q00 /\
    t_q21 S = obj g1 q21 /\ t_q11 S = obj g1 q11 /\ t_q12 S = obj g1 q12 /\ t_q01 S = obj g2 q01 /\ t_q02 S = obj g2 q02 /\
    t_q13 S = obj g1 q13 /\ t_q03 S = obj g2 q03 /\
    (positive_state q21 /\ positive_state q11 /\ positive_state q12 /\ positive_state q01 /\ positive_state q02 /\ positive_state q13 /\ positive_state q03) /\
    right_fastest (t_pb1 S) = Some w1 /\ right_fastest (t_pb2 S) = Some w2 /\ left_fastest (t_pbw S) = Some w3 /\ left_fastest (t_pb3 S) = Some w4 /\
    (rankine_hugoniot g1 w1 q10 q11 /\ P < f_p q11 < P * pr /\ 0 < f_u q11 < w1) /\
    (entropy_fn g1 q21 = entropy_fn g1 q20 /\ riemann_invariant (-1) g1 q21 = riemann_invariant (-1) g1 q20 /\ f_p q21 = f_p q11 /\ f_u q21 = f_u q11) /\
    (rankine_hugoniot g2 w2 q00 q01 /\ P < f_p q01 /\ 0 < f_u q01 < w2 /\ f_p q12 = f_p q01 /\ f_u q12 = f_u q01) /\
    (rankine_hugoniot g2 w3 q01 q02 /\ f_p q01 < f_p q02 /\ f_u q02 = 0 /\ w3 < 0) /\
    (rankine_hugoniot g1 w4 q12 q13 /\ f_p q12 < f_p q13 /\ w4 < f_u q13 /\ f_p q03 = f_p q13 /\ f_u q03 = f_u q13).
Proof. exact tube_states. Qed.
Print Assumptions C98_states.

(** Two fronts at different speeds: xt_intersect returns the only point of the (x,t) plane lying on both lines. *)
Theorem C98_intersect : forall x1 t1 u1 x2 t2 u2, u1 <> u2 ->
  exists x t, xt_intersect (Some x1) (Some t1) (Some u1) (Some x2) (Some t2) (Some u2) = (Some x, Some t) /\
    x = x1 + u1 * (t - t1) /\ x = x2 + u2 * (t - t2) /\
    forall x' t', x' = x1 + u1 * (t' - t1) -> x' = x2 + u2 * (t' - t2) -> x' = x /\ t' = t.
Proof. exact intersect_point. Qed.
Print Assumptions C98_intersect.

(** For an interface at 0 < x_int < x_Rwall: the drawn shock is a broken line through the origin, the interface, the wall and the second encounter with the interface, whose times increase and whose four segments have exactly the speeds of the incident, transmitted, reflected and returning shocks; the drawn interface stays at x_int until the shock arrives, then moves with the gas on both sides to the same second encounter, then with the gas behind the returning shock; the encounter is strictly between the interface and the wall. *)
Theorem C98_diagram : forall newton P pr T r1 r2 g1 g2 S xi xR, solves 0 newton -> 0 < P -> 1 < pr -> 0 < T -> 0 < r1 -> 0 < r2 -> 1 < g1 -> 1 < g2 ->
  shocktube_cells newton (Some P) (Some pr) (Some T) (Some r1) (Some r2) (Some g1) (Some g2) = Some S -> 0 < xi < xR ->
  exists w1 w2 w3 w4 u12 u13 t1 t2 x3 t3 x4 y4 t4,
    right_fastest (t_pb1 S) = Some w1 /\ right_fastest (t_pb2 S) = Some w2 /\ left_fastest (t_pbw S) = Some w3 /\ left_fastest (t_pb3 S) = Some w4 /\
    st_u (t_q12 S) = Some u12 /\ st_u (t_q13 S) = Some u13 /\ st_u (t_q01 S) = Some u12 /\ st_u (t_q03 S) = Some u13 /\
    drawn_shocks S (Some xi) (Some xR) = (Some 0, Some 0) :: (Some xi, Some t1) :: (Some xR, Some t2) :: (Some x3, Some t3) :: (Some x4, Some t4) :: nil /\
    travels w1 (0, 0) (xi, t1) /\ travels w2 (xi, t1) (xR, t2) /\ travels w3 (xR, t2) (x3, t3) /\ travels w4 (x3, t3) (x4, t4) /\
    drawn_interface S (Some xi) (Some xR) = (Some xi, Some 0) :: (Some xi, Some t1) :: (Some x3, Some t3) :: (Some y4, Some t4) :: nil /\
    travels 0 (xi, 0) (xi, t1) /\ travels u12 (xi, t1) (x3, t3) /\ travels u13 (x3, t3) (y4, t4) /\ xi < x3 < xR.
Proof. exact tube_diagram. Qed.
Print Assumptions C98_diagram.

(** For a left wall at x_Lwall < 0: the head of the expansion is drawn to the wall at a positive time, at the speed of sound of the driver gas; the tail is drawn at the acoustic speed u - a of the expanded gas, at a positive time exactly when the expanded gas is subsonic (otherwise the tail never meets the wall, and the drawn time is negative or undefined). *)
Theorem C98_expansion : forall newton P pr T r1 r2 g1 g2 S xL, solves 0 newton -> 0 < P -> 1 < pr -> 0 < T -> 0 < r1 -> 0 < r2 -> 1 < g1 -> 1 < g2 ->
  shocktube_cells newton (Some P) (Some pr) (Some T) (Some r1) (Some r2) (Some g1) (Some g2) = Some S -> xL < 0 ->
  exists a th u21 a21, asound (t_q20 S) = Some a /\ 0 < a /\ st_u (t_q21 S) = Some u21 /\ asound (t_q21 S) = Some a21 /\ 0 < u21 /\
    drawn_head S (Some xL) = (Some 0, Some 0) :: (Some xL, Some th) :: nil /\ travels (- a) (0, 0) (xL, th) /\
    (u21 < a21 -> exists tt, drawn_tail S (Some xL) = (Some 0, Some 0) :: (Some xL, Some tt) :: nil /\ travels (u21 - a21) (0, 0) (xL, tt) /\ th < tt) /\
    (a21 < u21 -> exists tt, drawn_tail S (Some xL) = (Some 0, Some 0) :: (Some xL, Some tt) :: nil /\ tt < 0).
Proof. exact tube_expansion. Qed.
Print Assumptions C98_expansion.

(** The printed Mach number of the incident shock is the Mach number of the shock relative to the gas ahead, and is higher than 1. Missing: the same for the reflected shock (C98_reflected_mach_refuted). *)
Theorem C98_incident_mach_partial : forall newton P pr T r1 r2 g1 g2 S, solves 0 newton -> 0 < P -> 1 < pr -> 0 < T -> 0 < r1 -> 0 < r2 -> 1 < g1 -> 1 < g2 ->
  shocktube_cells newton (Some P) (Some pr) (Some T) (Some r1) (Some r2) (Some g1) (Some g2) = Some S ->
  exists u w a m, st_u (t_q10 S) = Some u /\ right_fastest (t_pb1 S) = Some w /\ asound (t_q10 S) = Some a /\
    printed_mach1 S = Some m /\ m = (w - u) / a /\ 1 < m.
Proof. exact tube_mach. Qed.
Print Assumptions C98_incident_mach_partial.

(** The number printed as the Mach number of the shock reflected by the wall is not one: it is negative for every choice of gases and pressures, while the Mach number of that shock relative to the gas ahead (moving towards the wall) is higher than 1. *)
Theorem C98_reflected_mach_refuted : forall newton P pr T r1 r2 g1 g2 S, solves 0 newton -> 0 < P -> 1 < pr -> 0 < T -> 0 < r1 -> 0 < r2 -> 1 < g1 -> 1 < g2 ->
  shocktube_cells newton (Some P) (Some pr) (Some T) (Some r1) (Some r2) (Some g1) (Some g2) = Some S ->
  exists u w a m, st_u (t_q01 S) = Some u /\ left_fastest (t_pbw S) = Some w /\ asound (t_q01 S) = Some a /\
    printed_machw S = Some m /\ m < 0 /\ 0 < u /\ 1 < (u - w) / a.
Proof. exact tube_mach_refuted. Qed.
Print Assumptions C98_reflected_mach_refuted.

(** None of the four problems meets a vacuum: for every initial pressure, driver ratio > 1, temperature, gas constants and gammas there is an exact root finder with which all the cells run. *)
Theorem C98_runs : forall P pr T r1 r2 g1 g2, 0 < P -> 1 < pr -> 0 < T -> 0 < r1 -> 0 < r2 -> 1 < g1 -> 1 < g2 ->
  exists newton S, solves 0 newton /\ shocktube_cells newton (Some P) (Some pr) (Some T) (Some r1) (Some r2) (Some g1) (Some g2) = Some S.
Proof. exact tube_runs. Qed.
Print Assumptions C98_runs.

(** the values of the notebooks (air and helium, ratio 2.38, interface at 2.5, walls at -1 and 3) meet the hypotheses, with an exact root finder for which the cells run. *)
Example C98_example : 1 < 238/100 /\ 0 < 25/10 < 3 /\ -1 < 0 /\ 1 < 5/3 /\
  exists newton S, solves 0 newton /\
    shocktube_cells newton (Some 100000) (Some (238/100)) (Some (29315/100)) (Some (2871/10)) (Some 2078) (Some (14/10)) (Some (5/3)) = Some S.
Proof. exact tube_ex98. Qed.
