(** Property theorems of L_Fan3.v. Generated by tools/gen.py; statements only, proofs are in L_Fan3.v. *)
From Coquelicot Require Import Coquelicot.
From Verif Require Import L_Num Spec NumSpec M_Degree M_IterSolve M_MassFlow M_Isentropic M_Supersonic M_Fan FanSpec L_Isentropic L_Degree L_Supersonic L_Fan.
From Verif Require Import L_Fan3.
Open Scope R_scope.

(** The global p1p0 is not the pressure ratio across the fan: it is computed from the Mach number behind the fan and turned once more. For every expansion from a Mach number of at least sqrt 2 (the notebook uses 2), it is strictly smaller than the ratio of the static pressures behind and before the fan. *)
Theorem C89_pressure_refuted : forall newton g m0 a m1 c q, solves 0 newton -> 1 < g -> sqrt 2 <= m0 -> a < 0 ->
  c = init_case newton (Some g) (Some m0) (Some a) -> M1 c = Some m1 -> 0 < m1 -> p1p0 c = Some q ->
  exists p0 p1, PtPs_Mach (Some m0) (Some g) = Some p0 /\ PtPs_Mach (Some m1) (Some g) = Some p1 /\ 0 < p0 /\ 0 < p1 /\ q < p0 / p1.
Proof. exact fan_pressure. Qed.
Print Assumptions C89_pressure_refuted.
