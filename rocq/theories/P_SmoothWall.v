(** Property theorems of L_SmoothWall.v. Generated by tools/gen.py; statements only, proofs are in L_SmoothWall.v. *)
From Coquelicot Require Import Coquelicot.
From Verif Require Import L_Num Spec NumSpec M_Degree M_IterSolve M_MassFlow M_Isentropic M_Supersonic M_Fan M_SmoothWall FanSpec L_Isentropic L_Degree L_Supersonic L_Fan L_Fan2 L_Fan3.
From Verif Require Import L_SmoothWall.
Open Scope R_scope.

(** The wall angle of the notebook, for every wall which is a differentiable curve: it is the angle, strictly between -90 and 90 degrees, of the tangent of the wall at some point less than 1e-4 away. *)
Theorem C90_wall_angle : forall ywall yw dyw x, (forall s, ywall (Some s) = Some (yw s)) ->
  (forall s, x - 1/10000 <= s <= x + 1/10000 -> derivable_pt_lim yw s (dyw s)) ->
  exists a xi, wall_angle ywall (Some x) = Some a /\ -90 < a < 90 /\ x - 1/10000 < xi < x + 1/10000 /\ tan (rd a) = dyw xi.
Proof. exact wall_angle_tangent. Qed.
Print Assumptions C90_wall_angle.

(** The walls of the notebook are defined everywhere and differentiable everywhere, including at the ends of the curved part of the ramp. The bump is (1/10) exp(-4 x^2). The ramp of any angle in (-90, 90) is flat at height 0 for x <= 0, has the slope tan(angle) x for 0 <= x <= 1, and is straight with the full angle from x = 1 on. *)
Theorem C90_walls : (forall x, ywall_bump (Some x) = Some (1 / 10 * exp (- (4 * x ^ 2)))) /\
  (forall ang, -90 < ang < 90 -> exists yw, (forall x, ywall_ramp (Some ang) (Some x) = Some (yw x)) /\ (forall x, x <= 0 -> yw x = 0) /\
    forall x, derivable_pt_lim yw x (tan (rd ang) * Rmax 0 (Rmin x 1))).
Proof. exact walls. Qed.
Print Assumptions C90_walls.

(** On the ramp the wall angle is exact: 0 for x <= -1e-4; with tangent tan(angle) x for 1e-4 <= x <= 1 - 1e-4; and the full angle for x >= 1 + 1e-4. *)
Theorem C90_ramp_angle : forall ang x, -90 < ang < 90 ->
  (x <= - (1/10000) -> wall_angle (ywall_ramp (Some ang)) (Some x) = Some 0) /\
  (1/10000 <= x <= 1 - 1/10000 -> exists a, wall_angle (ywall_ramp (Some ang)) (Some x) = Some a /\ -90 < a < 90 /\ tan (rd a) = tan (rd ang) * x) /\
  (1 + 1/10000 <= x -> wall_angle (ywall_ramp (Some ang)) (Some x) = Some ang).
Proof. exact ramp_angle. Qed.
Print Assumptions C90_ramp_angle.

(** At the wall the flow follows the wall: with a root finder of tolerance eps and any wall, wherever the Mach number at the wall is found and at least 1, the flow direction that flow_prop gives for it is the wall angle within eps. *)
Theorem C90_slip : forall newton eps g om0 ywall x m a, solves eps newton -> 1 < g -> 1 <= m ->
  mach_wall newton (Some g) (Some om0) ywall (Some x) = Some m -> wall_angle ywall (Some x) = Some a ->
  exists th, p_ang (wall_flow_prop (Some g) (Some om0) (Some m)) = Some th /\ Rabs (th - a) <= eps.
Proof. exact wall_slip. Qed.
Print Assumptions C90_slip.

(** What mach(x, y) returns, for every wall, point and start M0 >= 1, when its loop ends, with root finders of tolerances eps (Prandtl-Meyer) and eps' (foot): the mean m of two Mach numbers m' and mw less than 2e-6 apart; the straight line through (x, y) of slope tan(C+), C+ being the characteristic angle that flow_prop gives for m', meets the wall at the foot xw with residual at most eps'; and mw is the Mach number at the wall there: its Prandtl-Meyer angle is om0 minus the wall angle within eps. *)
Theorem C90_residual : forall fuel newton fsolve eps eps' g M0 om0 ywall yw x y m, solves eps newton -> solves eps' fsolve -> 1 <= M0 ->
  ywall None = None -> (forall s, ywall (Some s) = Some (yw s)) ->
  mach_at fuel newton fsolve (Some g) (Some M0) (Some om0) ywall (Some x) (Some y) = Some m ->
  exists m' mw xw a w c, m = (m' + mw) / 2 /\ Rabs (m' - mw) <= 2 / 1000000 /\
    p_plus (wall_flow_prop (Some g) (Some om0) (Some m')) = Some c /\ Rabs (y - yw xw + tan (rd c) * (xw - x)) <= eps' /\
    wall_angle ywall (Some xw) = Some a /\ PrandtlMeyer_Mach (Some mw) (Some g) = Some w /\ Rabs (w - (om0 - a)) <= eps.
Proof. exact mach_residual. Qed.
Print Assumptions C90_residual.
