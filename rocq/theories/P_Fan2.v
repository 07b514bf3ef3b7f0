(** Property theorems of L_Fan2.v. Generated by tools/gen.py; statements only, proofs are in L_Fan2.v. *)
From Coquelicot Require Import Coquelicot.
From Verif Require Import L_Num Spec NumSpec M_Degree M_IterSolve M_MassFlow M_Isentropic M_Supersonic M_Fan FanSpec L_Isentropic L_Degree L_Supersonic L_Fan.
From Verif Require Import L_Fan2.
Open Scope R_scope.

(** The flow drawn by the notebook is a solution of the steady Euler equations: whatever fields of direction and Mach number agree with flow_prop downstream of the corner (x > 0), with density, pressure and velocity those of the isentropic flow at that Mach number and direction, mass and momentum are conserved at every point off the two limiting Mach lines - before, inside and behind the fan. *)
Theorem C89_euler : forall newton g m0 a m1 c mu0 mu1, solves 0 newton -> 1 < g -> 1 <= m0 -> a < 0 ->
  c = init_case newton (Some g) (Some m0) (Some a) -> M1 c = Some m1 -> 0 < m1 ->
  is_mach_angle m0 mu0 -> is_mach_angle m1 mu1 -> forall dir mach,
  (forall x y, 0 < x -> exists mu, is_mach_angle (mach x y) mu /\ flow_prop (Some g) c (Some x) (Some y) =
      Some {| p_ang := Some (dir x y); p_plus := Some (dir x y + mu); p_minus := Some (dir x y - mu) |}) ->
  forall x y r phi, 0 < x -> polar x y r phi -> phi <> mu0 -> phi <> a + mu1 -> steady_euler g dir mach x y.
Proof. exact fan_euler. Qed.
Print Assumptions C89_euler.

(** the hypothesis of C89_euler is met in every such case: there are fields of direction and Mach number that agree with flow_prop on x > 0. *)
Example C89_fields : forall newton g m0 a m1 c, solves 0 newton -> 1 < g -> 1 <= m0 -> a < 0 ->
  c = init_case newton (Some g) (Some m0) (Some a) -> M1 c = Some m1 -> 0 < m1 -> exists dir mach,
  forall x y, 0 < x -> exists mu, is_mach_angle (mach x y) mu /\ flow_prop (Some g) c (Some x) (Some y) =
      Some {| p_ang := Some (dir x y); p_plus := Some (dir x y + mu); p_minus := Some (dir x y - mu) |}.
Proof. exact fan_fields. Qed.
