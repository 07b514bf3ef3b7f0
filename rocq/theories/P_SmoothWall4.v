(** Property theorems of L_SmoothWall4.v. Generated by tools/gen.py; statements only, proofs are in L_SmoothWall4.v. *)
From Coquelicot Require Import Coquelicot.
From Verif Require Import L_Num Spec NumSpec M_Degree M_IterSolve M_MassFlow M_Isentropic M_Supersonic M_Fan M_SmoothWall FanSpec L_Isentropic L_Degree L_Supersonic L_Supersonic2 L_Fan L_Fan2 L_Fan3 L_SmoothWall L_SmoothWall2 L_SmoothWall3.
From Verif Require Import L_SmoothWall4.
Open Scope R_scope.

(** The simple wave over an expanding ramp exists: for every gamma > 1, M0 >= 1, ramp angle in (-90, 0) that the flow can turn (M1 the Mach number after the turn), and every point with abscissa at least 1 on the characteristic of any wall point s0 of the curved part, there are exact root finders, and fields of Mach number and foot around the point - s0 at the point, where the Mach number is strictly between M0 and M1 - that a turn of the loop of mach reproduces at every point nearby, and with the directions of flow_prop they solve the steady Euler equations there. *)
Theorem C90_ramp_wave : forall g M0 M1 ang s0 x0, 1 < g -> 1 <= M0 -> 1 <= M1 -> -90 < ang < 0 -> pm_deg g M1 = pm_deg g M0 - ang ->
  1/10000 < s0 < 1 - 1/10000 -> 1 <= x0 ->
  exists newton fsolve mach foot dir y0 yw0 c0 r, solves 0 newton /\ solves 0 fsolve /\ 0 < r /\
    let om0 := wall_om0 (Some g) (Some M0) in let yw := ywall_ramp (Some ang) in
    foot x0 y0 = s0 /\ M0 < mach x0 y0 < M1 /\ yw (Some s0) = Some yw0 /\
    p_plus (wall_flow_prop (Some g) om0 (Some (mach x0 y0))) = Some c0 /\ y0 - yw0 = tan (rd c0) * (x0 - s0) /\
    (forall x y, Rabs (x - x0) < r -> Rabs (y - y0) < r ->
       mach_turn newton fsolve (Some g) om0 yw (Some x) (Some y) (Some (mach x y)) = (Some (mach x y), Some (mach x y), Some (foot x y)) /\
       p_ang (wall_flow_prop (Some g) om0 (Some (mach x y))) = Some (dir x y)) /\
    steady_euler g dir mach x0 y0.
Proof. exact ramp_wave. Qed.
Print Assumptions C90_ramp_wave.
