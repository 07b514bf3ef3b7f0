(** Property theorems of L_SmoothWall2.v. Generated by tools/gen.py; statements only, proofs are in L_SmoothWall2.v. *)
From Coquelicot Require Import Coquelicot.
From Verif Require Import L_Num Spec NumSpec M_Degree M_IterSolve M_MassFlow M_Isentropic M_Supersonic M_Fan M_SmoothWall FanSpec L_Isentropic L_Degree L_Supersonic L_Supersonic2 L_Fan L_Fan2 L_Fan3 L_SmoothWall.
From Verif Require Import L_SmoothWall2.
Open Scope R_scope.

(** Upstream of the first characteristic nothing is disturbed. On the ramp, any M0 > 1 and ramp angle below the Mach angle mu0 of M0, with exact root finders: at every point on or above the line of angle mu0 through (-1e-4, 0) - so also everywhere above the flat wall far upstream - if mach(x, y) returns a value it is M0, and the flow there is parallel to the flat wall with characteristics at +mu0 and -mu0. *)
Theorem C90_uniform : forall fuel newton fsolve g M0 mu0 ang x y m, solves 0 newton -> solves 0 fsolve -> 1 < g -> 1 < M0 ->
  is_mach_angle M0 mu0 -> -90 < ang < mu0 -> tan (rd mu0) * (x + 1/10000) <= y ->
  mach_at fuel newton fsolve (Some g) (Some M0) (wall_om0 (Some g) (Some M0)) (ywall_ramp (Some ang)) (Some x) (Some y) = Some m ->
  m = M0 /\ wall_flow_prop (Some g) (wall_om0 (Some g) (Some M0)) (Some m) = {| p_ang := Some 0; p_plus := Some mu0; p_minus := Some (- mu0) |}.
Proof. exact smooth_uniform. Qed.
Print Assumptions C90_uniform.
