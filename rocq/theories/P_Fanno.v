(** Property theorems of L_Fanno.v. Generated by tools/gen.py; statements only, proofs are in L_Fanno.v. *)
From Coquelicot Require Import Coquelicot.
From Verif Require Import L_Num Spec NumSpec M_Isentropic M_MassFlow M_Fanno L_Isentropic L_MassFlow.
From Verif Require Import L_Fanno.
Open Scope R_scope.

(** For every gamma > 1 and M > 0 the Fanno ratios describe one state: perfect gas law, mass conservation rho V = rho* V*, constant total temperature, V = M a; Pi/Pi* is the total pressure ratio and equals Sigma_Mach; NormdS is minus (gamma-1)/gamma times its logarithm, non-positive and zero only at M = 1. *)
Theorem C23_fanno : forall g M, 1 < g -> 0 < M ->
  exists p T rho V Pi dS t t1 q q1,
    Fa_Ps_Pscri (Some M) (Some g) = Some p /\ Fa_Ts_Tscri (Some M) (Some g) = Some T /\
    Fa_Rho_Rhocri (Some M) (Some g) = Some rho /\ Fa_V_Vcri (Some M) (Some g) = Some V /\
    Fa_Pi_Picri (Some M) (Some g) = Some Pi /\ Fa_NormdS (Some M) (Some g) = Some dS /\
    TtTs_Mach (Some M) (Some g) = Some t /\ TtTs_Mach (Some 1) (Some g) = Some t1 /\
    PtPs_Mach (Some M) (Some g) = Some q /\ PtPs_Mach (Some 1) (Some g) = Some q1 /\
    0 < p /\ 0 < T /\ 0 < rho /\ 0 < V /\
    p = rho * T /\ rho * V = 1 /\ T * t = 1 * t1 /\ V = M * sqrt T /\
    Pi * q1 = p * q /\ Sigma_Mach (Some M) (Some g) = Some Pi /\
    dS = - ((g - 1) / g) * ln Pi /\ dS <= 0 /\ (dS = 0 <-> M = 1).
Proof. exact fanno_consistent. Qed.
Print Assumptions C23_fanno.

(** All Fanno ratios equal 1 at M = 1 and the entropy difference is 0. *)
Theorem C23_sonic : forall g, 1 < g ->
  Fa_Ps_Pscri (Some 1) (Some g) = Some 1 /\ Fa_Ts_Tscri (Some 1) (Some g) = Some 1 /\
  Fa_Rho_Rhocri (Some 1) (Some g) = Some 1 /\ Fa_V_Vcri (Some 1) (Some g) = Some 1 /\
  Fa_Pi_Picri (Some 1) (Some g) = Some 1 /\ Fa_NormdS (Some 1) (Some g) = Some 0 /\
  Fa_maxFparam_Mach (Some 1) (Some g) = Some 0.
Proof. exact fanno_sonic. Qed.
Print Assumptions C23_sonic.

(** maxFparam_Mach satisfies the differential equation of the Fanno line, dF/dM = -2(1-M^2)/(gamma M^3 (1+(gamma-1)/2 M^2)), for all M > 0. *)
Theorem C24_slope : forall g, 1 < g -> exists F,
  (forall M, 0 < M -> Fa_maxFparam_Mach (Some M) (Some g) = Some (F M)) /\
  (forall M, 0 < M -> is_derive F M (- 2 * (1 - M ^ 2) / (g * M ^ 3 * (1 + (g - 1) / 2 * M ^ 2)))).
Proof. exact fparam_slope. Qed.
Print Assumptions C24_slope.

(** The Fanno parameter strictly decreases with M on (0,1]. *)
Theorem C24_decreasing : forall g, 1 < g -> decr_on (fun M => 0 < M <= 1) (fun M => Fa_maxFparam_Mach M (Some g)).
Proof. exact fparam_decr. Qed.
Print Assumptions C24_decreasing.

(** The Fanno parameter strictly increases with M on [1,inf). *)
Theorem C24_increasing : forall g, 1 < g -> incr_on (fun M => 1 <= M) (fun M => Fa_maxFparam_Mach M (Some g)).
Proof. exact fparam_incr. Qed.
Print Assumptions C24_increasing.

(** The Fanno parameter is >= 0 for every M > 0, and 0 exactly at M = 1. *)
Theorem C24_minimum : forall g M, 1 < g -> 0 < M ->
  exists F, Fa_maxFparam_Mach (Some M) (Some g) = Some F /\ 0 <= F /\ (F = 0 <-> M = 1).
Proof. exact fparam_min. Qed.
Print Assumptions C24_minimum.

(** a concrete case: gamma = 3, M = 2 gives T/T* = 2/5 and Pi/Pi* = 5/4. *)
Example C23_example : Fa_Ts_Tscri (Some 2) (Some 3) = Some (2/5) /\ Fa_Pi_Picri (Some 2) (Some 3) = Some (5/4).
Proof. exact fanno_ex. Qed.

(** gamma = 3, M = 2: F = -1/4 + 2/3 ln (8/5), and it is positive. *)
Example C24_example : Fa_maxFparam_Mach (Some 2) (Some 3) = Some (- (1/4) + 2/3 * ln (8/5)) /\ 0 < - (1/4) + 2/3 * ln (8/5).
Proof. exact C24_example_lemma. Qed.
