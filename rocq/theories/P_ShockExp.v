(** Property theorems of L_ShockExp.v. Generated by tools/gen.py; statements only, proofs are in L_ShockExp.v. *)
From Verif Require Import L_Num Spec NumSpec PolarSpec WedgeSpec M_Isentropic M_MassFlow M_Degree M_IterSolve M_ShockWave M_Supersonic M_Wedge L_Isentropic L_Degree L_Shock L_Oblique L_Oblique2 L_WeakStrong L_Secant L_Sigma L_Sigma2 L_Sigma3 L_Sigma4 L_Polar L_Supersonic L_Fan5 L_Sonic L_DevMax L_Wedge L_Wedge2.
From Verif Require Import L_ShockExp.
Open Scope R_scope.

(** The expansion of the shock-expansion notebook, from any region behind the first shock with Mach number M1 >= 1 and pressure P1, whatever the residual eps of the Newton solver: if it returns M2 >= 1, the Prandtl-Meyer angle has grown by the turn a1 - a2 within eps; p2p0 is defined and the total pressure is exactly the same on both sides of the fan; and if the turn is larger than eps the flow accelerates and its pressure falls - so the pressure pushes more on the front face than on the rear face. *)
Theorem C92_fan : forall newton eps g M0 a1 a2 P1 M1 M2, solves eps newton -> 1 < g ->
  let x := shock_expansion_cells newton M0 (Some a1) (Some a2) (Some g) in
  w_p (sx_1 x) = Some P1 -> 0 < P1 -> w_M (sx_1 x) = Some M1 -> 1 <= M1 -> sx_M2 x = Some M2 -> 1 <= M2 ->
  exists w1 w2 p2, PrandtlMeyer_Mach (Some M1) (Some g) = Some w1 /\ PrandtlMeyer_Mach (Some M2) (Some g) = Some w2 /\ sx_om2 x = Some (w1 + (a1 - a2)) /\
    Rabs (w2 - (w1 + (a1 - a2))) <= eps /\ sx_p2p0 x = Some p2 /\ 0 < p2 /\
    p2 * Rpower (1 + (g - 1) / 2 * M2 ^ 2) (g / (g - 1)) = P1 * Rpower (1 + (g - 1) / 2 * M1 ^ 2) (g / (g - 1)) /\
    (eps < a1 - a2 -> M1 < M2 /\ p2 < P1).
Proof. exact shex_fan. Qed.
Print Assumptions C92_fan.

(** There is a limit to the expansion: if the Prandtl-Meyer angle asked for exceeds 90 (sqrt((gamma+1)/(gamma-1)) - 1) degrees by more than the solver's residual (or reaches it, for an exact solver), then M2, p2p0 and everything behind the fan are undefined. *)
Theorem C92_vacuum : forall newton eps g M0 a1 a2 M1 w1, solves eps newton -> 1 < g ->
  let x := shock_expansion_cells newton M0 (Some a1) (Some a2) (Some g) in
  w_M (sx_1 x) = Some M1 -> PrandtlMeyer_Mach (Some M1) (Some g) = Some w1 -> 90 * (sqrt ((g + 1) / (g - 1)) - 1) + eps <= w1 + (a1 - a2) ->
  sx_M2 x = None /\ sx_p2p0 x = None /\ w_sig (sx_3 x) = None /\ w_p (sx_3 x) = None /\ w_M (sx_3 x) = None /\ sx_p3p0 x = None.
Proof. exact shex_vacuum. Qed.
Print Assumptions C92_vacuum.

(** The tail shock: when the flow M2 > 1 behind the fan can be turned back by -a2 > 0, the angle and the pressure behind are defined and belong to an oblique shock, p3p0 is the product of the three pressure ratios, and without a solver warning the flow leaves parallel to the axis again within the solver tolerance. *)
Theorem C92_tail : forall newton g M0 a1 a2 M2 dm mu, 1 < g ->
  let x := shock_expansion_cells newton M0 (Some a1) (Some a2) (Some g) in
  sx_M2 x = Some M2 -> 1 < M2 -> dev_Max (Some M2) (Some g) = Some dm -> 0 < - a2 <= dm -> dasin (ndiv (Some 1) (Some M2)) = Some mu -> 1/100 < mu - a2 ->
  exists z th P3 m3, w_sig (sx_3 x) = Some z /\ 0 < z < 90 /\ w_p (sx_3 x) = Some P3 /\ shock_to g M2 z th P3 m3 /\
    (forall p2, sx_p2p0 x = Some p2 -> sx_p3p0 x = Some (p2 * P3)) /\
    (- a2 < z -> exists M3, w_M (sx_3 x) = Some M3 /\ M3 * sin ((z + a2) * (PI / 180)) = m3 * sin ((z - th) * (PI / 180))) /\
    (s_warned (secant_run_of (fun s => deflection_Mach_sigma (Some M2) s (Some g)) (Some (- a2)) (Some (mu - a2)) secant_tol) = false ->
      Rabs (a2 + th) <= 2 * sigma_lip g M2 * Rmax (1/100000) (1/100000 * z)) /\
    (0 < th -> 1 < P3 /\ m3 * sin ((z - th) * (PI / 180)) < 1 < M2 * sin (z * (PI / 180))).
Proof. exact shex_tail. Qed.
Print Assumptions C92_tail.

(** Total pressure across the shocks: for every shock angle with a supersonic normal Mach number, the static pressure ratio times the isentropic pt/p of the Mach number behind is strictly less than the pt/p in front. With C92_fan, where it is conserved, the total pressure only falls at the two shocks. *)
Theorem C92_loss : forall g M s th, 1 < g -> 0 < M -> 0 < s < 90 -> 1 < M * sin (s * (PI / 180)) -> deflection_Mach_sigma (Some M) (Some s) (Some g) = Some th ->
  exists P m, Ps_ratio (nmul (Some M) (dsin (Some s))) (Some g) = Some P /\ ndiv (downstream_Mn (nmul (Some M) (dsin (Some s))) (Some g)) (dsin (Some (s - th))) = Some m /\
    shock_to g M s th P m /\ P * Rpower (1 + (g - 1) / 2 * m ^ 2) (g / (g - 1)) < Rpower (1 + (g - 1) / 2 * M ^ 2) (g / (g - 1)).
Proof. exact shock_loss. Qed.
Print Assumptions C92_loss.

(** The drawn geometry: for angles 0 < a1 < 90 and -90 < a2 < 0 the obstacle's faces are inclined at a1 and a2 and end on the axis, and the tail shock starts from the very corner where the rear face ends; the two Mach lines that bound the expansion start at the top corner, are inclined at a1 plus the Mach angle of M1 and a2 plus the Mach angle of M2, and the second lies below the first whenever 1 < M1 < M2: the fan opens. *)
Theorem C92_walls : forall L a1 a2, 0 < L -> 0 < a1 < 90 -> -90 < a2 < 0 -> exists h x3,
  wall_corners (Some L) (Some a1) (Some a2) = [(Some 0, Some 0); (Some L, Some h); (Some x3, Some 0)] /\ 0 < h /\ inclined 0 0 L h a1 /\ inclined L h x3 0 a2 /\
  (L = 1 -> tail_foot (Some a1) (Some a2) = Some x3) /\
  (forall M1 M2 dx, 1 < M1 -> M1 < M2 -> 0 < dx -> exists mu1 mu2, dasin (ndiv (Some 1) (Some M1)) = Some mu1 /\ dasin (ndiv (Some 1) (Some M2)) = Some mu2 /\ 0 < mu2 < mu1 /\
    (a1 + mu1 < 90 -> exists y1 y2, fan_line (Some a1) (Some M1) (Some dx) (Some L, Some h) = (Some (L + dx), Some y1) /\ fan_line (Some a2) (Some M2) (Some dx) (Some L, Some h) = (Some (L + dx), Some y2) /\
       inclined L h (L + dx) y1 (a1 + mu1) /\ inclined L h (L + dx) y2 (a2 + mu2) /\ y2 < y1)).
Proof. exact shex_walls. Qed.
Print Assumptions C92_walls.

(** gamma = 1.4, M = 3, faces inclined at 1 and -1 degrees, with an exact root finder: the hypotheses of C92_fan and C92_tail hold. *)
Example C92_example : exists newton P1 M1 M2 dm mu, solves 0 newton /\
  let x := shock_expansion_cells newton (Some 3) (Some 1) (Some (-1)) (Some (7/5)) in
  w_p (sx_1 x) = Some P1 /\ 0 < P1 /\ w_M (sx_1 x) = Some M1 /\ 1 <= M1 /\ sx_M2 x = Some M2 /\ 1 < M2 /\ 0 < 1 - (-1) /\
  dev_Max (Some M2) (Some (7/5)) = Some dm /\ 0 < - (-1) <= dm /\ dasin (ndiv (Some 1) (Some M2)) = Some mu /\ 1/100 < mu - (-1).
Proof. exact shex_ex. Qed.
