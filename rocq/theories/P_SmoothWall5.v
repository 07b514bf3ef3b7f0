(** Property theorems of L_SmoothWall5.v. Generated by tools/gen.py; statements only, proofs are in L_SmoothWall5.v. *)
From Coquelicot Require Import Coquelicot.
From Verif Require Import L_Num Spec NumSpec M_Degree M_IterSolve M_MassFlow M_Isentropic M_Supersonic M_Fan M_SmoothWall FanSpec L_Isentropic L_Degree L_Supersonic L_Supersonic2 L_Fan L_Fan2 L_Fan3 L_SmoothWall L_SmoothWall2 L_SmoothWall3 L_SmoothWall4.
From Verif Require Import L_SmoothWall5.
Open Scope R_scope.

(** The characteristics drawn by plot_CP_focus, for every wall and wall point xw, eps > 0: the segment starts at the wall point and follows the characteristic of slope r1 there. If the characteristic from xw + eps has a larger slope r2, the segment ends at the point where the two characteristics cross, which lies on both lines, and is downstream of xw exactly when the wall rises by less than r2 eps between the two points; otherwise the segment ends at the abscissa xmax. *)
Theorem C90_focus : forall newton g om0 ywall xw eps xmax r1 r2 y1 y2, 0 < eps ->
  ywall (Some xw) = Some y1 -> ywall (Some (xw + eps)) = Some y2 ->
  cp_slope newton (Some g) (Some om0) ywall (Some xw) = Some r1 -> cp_slope newton (Some g) (Some om0) ywall (Some (xw + eps)) = Some r2 ->
  exists xi yi, focus_segment newton (Some g) (Some om0) ywall (Some xmax) (Some eps) (Some xw) = Some [(Some xw, Some y1); (Some xi, Some yi)] /\
    yi - y1 = r1 * (xi - xw) /\ (r1 < r2 -> yi - y2 = r2 * (xi - (xw + eps)) /\ (xw < xi <-> y2 - y1 < r2 * eps)) /\ (r2 <= r1 -> xi = xmax).
Proof. exact focus_ends. Qed.
Print Assumptions C90_focus.

(** xy_intersect_rate returns the common point of the two lines through (x1,y1) with slope r1 and (x2,y2) with slope r2, for all different slopes; for equal slopes it has no value. *)
Theorem C90_intersect : forall x1 y1 r1 x2 y2 r2,
  (r1 <> r2 -> exists x y, xy_intersect_rate (Some x1) (Some y1) (Some r1) (Some x2) (Some y2) (Some r2) = (Some x, Some y) /\ y - y1 = r1 * (x - x1) /\ y - y2 = r2 * (x - x2)) /\
  (r1 = r2 -> xy_intersect_rate (Some x1) (Some y1) (Some r1) (Some x2) (Some y2) (Some r2) = (None, None)).
Proof. exact intersect. Qed.
Print Assumptions C90_intersect.

(** With an exact root finder the slope used by plot_CP_focus at a wall point is the tangent of the C+ angle (flow angle plus Mach angle) that flow_prop gives for the Mach number at that wall point, and the flow angle there is the wall's. *)
Theorem C90_focus_slope : forall newton g om0 ywall xw m, solves 0 newton ->
  mach_wall newton (Some g) (Some om0) ywall (Some xw) = Some m ->
  let q := wall_flow_prop (Some g) (Some om0) (Some m) in
  p_ang q = wall_angle ywall (Some xw) /\ cp_slope newton (Some g) (Some om0) ywall (Some xw) = dtan (p_plus q).
Proof. exact focus_slope. Qed.
Print Assumptions C90_focus_slope.

(** Over a compressing ramp the answer is not determined, and is wrong downstream of the focus. For every gamma > 1, M0 > 1 and ramp angle 0 < ang below the Mach angle of M0, M1 being the Mach number after the turn (1 <= M1, ang + mu1 < 90): there is a point above the wall, downstream of the ramp, that lies both on the characteristic from the wall point -1 upstream, where the flow is the undisturbed one, and on the characteristic from the wall point 2 downstream of the ramp, where the flow is at Mach M1 < M0 and turned by ang. With exact root finders mach returns M0, if anything, at this point, as if the ramp was not there, although M1 is equally reproduced by a turn of its loop, with foot 2. *)
Theorem C90_compression_refuted : forall g M0 M1 ang mu0 mu1, 1 < g -> 1 < M0 -> 1 <= M1 -> is_mach_angle M0 mu0 -> is_mach_angle M1 mu1 ->
  0 < ang < mu0 -> ang + mu1 < 90 -> pm_deg g M1 = pm_deg g M0 - ang ->
  exists x y y2, M1 < M0 /\ 2 < x /\ ywall_ramp (Some ang) (Some 2) = Some y2 /\ y2 < y /\
    y = tan (rd mu0) * (x + 1) /\ y - y2 = tan (rd (ang + mu1)) * (x - 2) /\
    forall newton fsolve, solves 0 newton -> solves 0 fsolve ->
      (forall fuel m, mach_at fuel newton fsolve (Some g) (Some M0) (wall_om0 (Some g) (Some M0)) (ywall_ramp (Some ang)) (Some x) (Some y) = Some m -> m = M0) /\
      (forall m mw xw, mach_turn newton fsolve (Some g) (wall_om0 (Some g) (Some M0)) (ywall_ramp (Some ang)) (Some x) (Some y) (Some M1) = (Some m, mw, xw) ->
         xw = Some 2 /\ (mw = Some M1 /\ m = M1 \/ mw = Some (- M1))).
Proof. exact compression. Qed.
Print Assumptions C90_compression_refuted.

(** gamma = 7/5, M0 = 2 as in the notebook. Far above the ramp of -20 degrees mach returns 2 in two turns, with exact root finders; from Mach 2 the flow can be turned by some expansion angle ang in (-90, 0), to Mach 3, and compressed by some angle 0 < ang < mu0, to Mach M1 with ang + mu1 < 90; and on the bump the wall angle at the top is 0. *)
Example C90_example : (exists newton fsolve, solves 0 newton /\ solves 0 fsolve /\
    mach_at 2 newton fsolve (Some (7/5)) (Some 2) (wall_om0 (Some (7/5)) (Some 2)) (ywall_ramp (Some (-20))) (Some (-1)) (Some 1) = Some 2) /\
  (exists ang, -90 < ang < 0 /\ pm_deg (7/5) 3 = pm_deg (7/5) 2 - ang) /\
  (exists ang M1 mu0 mu1, 1 <= M1 /\ is_mach_angle 2 mu0 /\ is_mach_angle M1 mu1 /\ 0 < ang < mu0 /\ ang + mu1 < 90 /\ pm_deg (7/5) M1 = pm_deg (7/5) 2 - ang) /\
  wall_angle ywall_bump (Some 0) = Some 0.
Proof. exact C90_example_lemma. Qed.
