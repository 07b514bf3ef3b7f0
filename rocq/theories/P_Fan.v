(** Property theorems of L_Fan.v. Generated by tools/gen.py; statements only, proofs are in L_Fan.v. *)
From Coquelicot Require Import Coquelicot.
From Verif Require Import L_Num Spec NumSpec M_Degree M_IterSolve M_MassFlow M_Isentropic M_Supersonic M_Fan FanSpec L_Isentropic L_Degree L_Supersonic.
From Verif Require Import L_Fan.
Open Scope R_scope.

(** Centred expansion over a corner turning by a < 0, any Mach number M0 >= 1, exact root finder: the downstream Mach number M1 is larger, with Prandtl-Meyer angle increased by -a. At every point other than the corner the answer (flow direction, C+, C-) is that of one Mach number with its Mach angle, a function of the polar angle only, continuous everywhere, with the invariant direction + Prandtl-Meyer angle constant; it is the upstream state above the first Mach line, the downstream state (along the wall) below the last one, and between them the C+ points away from the corner and the Mach number grows strictly as the angle decreases. *)
Theorem C89_fan : forall newton g m0 a m1 c, solves 0 newton -> 1 < g -> 1 <= m0 -> a < 0 ->
  c = init_case newton (Some g) (Some m0) (Some a) -> M1 c = Some m1 -> 0 < m1 ->
  m0 < m1 /\ pm_deg g m1 = pm_deg g m0 - a /\
  exists mu0 mu1 (mach dir mu : R -> R), is_mach_angle m0 mu0 /\ is_mach_angle m1 mu1 /\ a + mu1 < mu0 /\
    (forall x y r phi, polar x y r phi -> flow_prop (Some g) c (Some x) (Some y) =
       Some {| p_ang := Some (dir phi); p_plus := Some (dir phi + mu phi); p_minus := Some (dir phi - mu phi) |}) /\
    (forall phi, m0 <= mach phi <= m1 /\ is_mach_angle (mach phi) (mu phi) /\ dir phi + pm_deg g (mach phi) = pm_deg g m0) /\
    (forall phi, continuity_pt mach phi /\ continuity_pt dir phi) /\
    (forall phi, mu0 <= phi -> mach phi = m0 /\ dir phi = 0) /\
    (forall phi, phi <= a + mu1 -> mach phi = m1 /\ dir phi = a) /\
    (forall phi, a + mu1 <= phi <= mu0 -> dir phi + mu phi = phi) /\
    strictly_decreasing_on (fun phi => a + mu1 <= phi <= mu0) mach.
Proof. exact fan_solution. Qed.
Print Assumptions C89_fan.
