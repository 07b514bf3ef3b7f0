(** Property theorems of L_SmoothWall3.v. Generated by tools/gen.py; statements only, proofs are in L_SmoothWall3.v. *)
From Coquelicot Require Import Coquelicot.
From Verif Require Import L_Num Spec NumSpec M_Degree M_IterSolve M_MassFlow M_Isentropic M_Supersonic M_Fan M_SmoothWall FanSpec L_Isentropic L_Degree L_Supersonic L_Supersonic2 L_Fan L_Fan2 L_Fan3 L_SmoothWall L_SmoothWall2.
From Verif Require Import L_SmoothWall3.
Open Scope R_scope.

(** The flow built from the wall is a solution of the steady Euler equations. For any wall and any fields of Mach number, direction and foot (the wall point of the characteristic) around a point, with exact root finders: if one turn of the loop of mach reproduces the Mach number and gives the foot, and the direction is the one of flow_prop, at every point nearby, the flow is supersonic at the point, and foot, wall, and Mach number along the wall are differentiable there, then mass and momentum are conserved at the point, the density, pressure and velocity being those of the isentropic flow at that Mach number and direction. *)
Theorem C90_euler : forall newton fsolve g om0 ywall yw mwall mach dir foot x y r, solves 0 fsolve -> 1 < g -> 0 < r ->
  (forall s, ywall (Some s) = Some (yw s)) ->
  (forall x' y', Rabs (x' - x) < r -> Rabs (y' - y) < r -> 1 <= mach x' y' /\
     mach_turn newton fsolve (Some g) (Some om0) ywall (Some x') (Some y') (Some (mach x' y')) = (Some (mach x' y'), Some (mach x' y'), Some (foot x' y')) /\
     p_ang (wall_flow_prop (Some g) (Some om0) (Some (mach x' y'))) = Some (dir x' y')) ->
  1 < mach x y ->
  (forall s, Rabs (s - foot x y) < r -> mach_wall newton (Some g) (Some om0) ywall (Some s) = Some (mwall s)) ->
  (exists dy, derivable_pt_lim yw (foot x y) dy) -> (exists dm, derivable_pt_lim mwall (foot x y) dm) ->
  (exists fx, partial_x foot x y fx) -> (exists fy, partial_y foot x y fy) ->
  steady_euler g dir mach x y.
Proof. exact wall_euler. Qed.
Print Assumptions C90_euler.

(** Over an expanding wall characteristics never meet: for every wall whose slope never increases, exact root finder, and two wall points where the wall angle is that of the tangent (as on the ramp) and supersonic flow has been found, with characteristics at angles in (-90, 90): if the two characteristics pass through one same point downstream of both, the two wall points are the same - so the state at a point is unique. *)
Theorem C90_one_foot : forall newton g om0 ywall yw dyw x y s1 s2 m1 m2 a1 a2 c1 c2, solves 0 newton -> 1 < g ->
  (forall s, ywall (Some s) = Some (yw s)) -> (forall s, derivable_pt_lim yw s (dyw s)) -> (forall s t, s <= t -> dyw t <= dyw s) ->
  mach_wall newton (Some g) (Some om0) ywall (Some s1) = Some m1 -> mach_wall newton (Some g) (Some om0) ywall (Some s2) = Some m2 -> 1 <= m1 -> 1 <= m2 ->
  wall_angle ywall (Some s1) = Some a1 -> wall_angle ywall (Some s2) = Some a2 -> tan (rd a1) = dyw s1 -> tan (rd a2) = dyw s2 ->
  p_plus (wall_flow_prop (Some g) (Some om0) (Some m1)) = Some c1 -> p_plus (wall_flow_prop (Some g) (Some om0) (Some m2)) = Some c2 ->
  -90 < c1 < 90 -> -90 < c2 < 90 -> s1 <= x -> s2 <= x ->
  y - yw s1 = tan (rd c1) * (x - s1) -> y - yw s2 = tan (rd c2) * (x - s2) -> s1 = s2.
Proof. exact one_foot. Qed.
Print Assumptions C90_one_foot.
