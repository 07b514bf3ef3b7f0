(** Property theorems of L_Rayleigh.v. Generated by tools/gen.py; statements only, proofs are in L_Rayleigh.v. *)
From Coquelicot Require Import Coquelicot.
From Verif Require Import L_Num Spec NumSpec M_Isentropic M_Rayleigh L_Isentropic L_Fanno.
From Verif Require Import L_Rayleigh.
Open Scope R_scope.

(** For every gamma > 1 and M > 0 the Rayleigh ratios describe one state: perfect gas law, mass conservation, constant impulse p + rho V^2 (in units of the sonic pressure: p + gamma rho V^2 = 1 + gamma), V = M a; Ti and Pi are the corresponding total conditions; NormdS = ln(T) - (gamma-1)/gamma ln(p), non-positive and zero only at M = 1. *)
Theorem C25_rayleigh : forall g M, 1 < g -> 0 < M ->
  exists p T rho V Ti Pi dS t t1 q q1,
    Ra_Ps_Pscri (Some M) (Some g) = Some p /\ Ra_Ts_Tscri (Some M) (Some g) = Some T /\
    Ra_Rho_Rhocri (Some M) (Some g) = Some rho /\ Ra_V_Vcri (Some M) (Some g) = Some V /\
    Ra_Ti_Ticri (Some M) (Some g) = Some Ti /\
    Ra_Pi_Picri (Some M) (Some g) = Some Pi /\ Ra_NormdS (Some M) (Some g) = Some dS /\
    TtTs_Mach (Some M) (Some g) = Some t /\ TtTs_Mach (Some 1) (Some g) = Some t1 /\
    PtPs_Mach (Some M) (Some g) = Some q /\ PtPs_Mach (Some 1) (Some g) = Some q1 /\
    0 < p /\ 0 < T /\ 0 < rho /\ 0 < V /\
    p = rho * T /\ rho * V = 1 /\ p + g * (rho * V ^ 2) = 1 + g /\ V = M * sqrt T /\
    Ti * t1 = T * t /\ Pi * q1 = p * q /\
    dS = ln T - (g - 1) / g * ln p /\ dS <= 0 /\ (dS = 0 <-> M = 1).
Proof. exact rayleigh_consistent. Qed.
Print Assumptions C25_rayleigh.

(** All Rayleigh ratios equal 1 at M = 1. *)
Theorem C25_sonic : forall g, 1 < g ->
  Ra_Ps_Pscri (Some 1) (Some g) = Some 1 /\ Ra_Ts_Tscri (Some 1) (Some g) = Some 1 /\
  Ra_Rho_Rhocri (Some 1) (Some g) = Some 1 /\ Ra_V_Vcri (Some 1) (Some g) = Some 1 /\
  Ra_Ti_Ticri (Some 1) (Some g) = Some 1 /\ Ra_Pi_Picri (Some 1) (Some g) = Some 1 /\
  Ra_NormdS (Some 1) (Some g) = Some 0.
Proof. exact rayleigh_sonic. Qed.
Print Assumptions C25_sonic.

(** Ti/Ti* is at most 1, with equality (for M >= 0) exactly at M = 1. *)
Theorem C26_maximum : forall g M, 1 < g -> 0 <= M ->
  exists t, Ra_Ti_Ticri (Some M) (Some g) = Some t /\ 0 <= t <= 1 /\ (t = 1 <-> M = 1).
Proof. exact rayleigh_ti_max. Qed.
Print Assumptions C26_maximum.

(** SubMach_TiTicri inverts Ti_Ticri on the subsonic branch, in both directions, over the full range [0,1] of the ratio. *)
Theorem C26_sub_inverse : forall g, 1 < g ->
  (forall M t, 0 <= M <= 1 -> Ra_Ti_Ticri (Some M) (Some g) = Some t -> Ra_SubMach_TiTicri (Some t) (Some g) = Some M) /\
  (forall t, 0 <= t <= 1 -> exists M, Ra_SubMach_TiTicri (Some t) (Some g) = Some M /\ 0 <= M <= 1 /\
     Ra_Ti_Ticri (Some M) (Some g) = Some t).
Proof. exact rayleigh_sub. Qed.
Print Assumptions C26_sub_inverse.

(** SupMach_TiTicri inverts Ti_Ticri on the supersonic branch in both directions over the full range (1 - 1/gamma^2, 1] of the ratio there; below that range, where no supersonic state exists, and above 1 it has no finite result. *)
Theorem C26_sup_inverse : forall g, 1 < g ->
  (forall M t, 1 <= M -> Ra_Ti_Ticri (Some M) (Some g) = Some t ->
     1 - 1 / g ^ 2 < t <= 1 /\ Ra_SupMach_TiTicri (Some t) (Some g) = Some M) /\
  (forall t, 1 - 1 / g ^ 2 < t <= 1 -> exists M, Ra_SupMach_TiTicri (Some t) (Some g) = Some M /\ 1 <= M /\
     Ra_Ti_Ticri (Some M) (Some g) = Some t) /\
  (forall t, t <= 1 - 1 / g ^ 2 \/ 1 < t -> Ra_SupMach_TiTicri (Some t) (Some g) = None).
Proof. exact rayleigh_sup. Qed.
Print Assumptions C26_sup_inverse.

(** maxTiratio_Mach is the inverse of Ti/Ti* for gamma = 1.4, whatever gamma is passed. (Missing from the full claim: the requested gamma, see C26_maxTiratio_refuted.) *)
Theorem C26_maxTiratio_partial : forall M g, 0 < M -> exists t, Ra_Ti_Ticri (Some M) (Some (14/10)) = Some t /\
  Ra_maxTiratio_Mach (Some M) (Some g) = Some (1 / t) /\ 1 <= 1 / t.
Proof. exact maxTi_partial. Qed.
Print Assumptions C26_maxTiratio_partial.

(** For every gamma other than 1.4 and every M > 0 other than 1, maxTiratio_Mach(M,gamma) is not 1/Ti_Ticri(M,gamma): the gamma argument is ignored. *)
Theorem C26_maxTiratio_refuted : forall M g t, 1 < g -> g <> 14/10 -> 0 < M -> M <> 1 ->
  Ra_Ti_Ticri (Some M) (Some g) = Some t -> Ra_maxTiratio_Mach (Some M) (Some g) <> Some (1 / t).
Proof. exact maxTi_refuted. Qed.
Print Assumptions C26_maxTiratio_refuted.

(** concrete case: gamma = 3, M = 2: Ti/Ti* = 160/169, inside the supersonic range. *)
Example C26_example : Ra_Ti_Ticri (Some 2) (Some 3) = Some (160/169) /\ 1 - 1 / 3 ^ 2 < 160/169.
Proof. exact rayleigh_ex. Qed.

(** gamma = 3, M = 2: p = 4/13, T = 64/169, rho = 13/16, V = 16/13. *)
Example C25_example : Ra_Ps_Pscri (Some 2) (Some 3) = Some (4/13) /\ Ra_Ts_Tscri (Some 2) (Some 3) = Some (64/169) /\
  Ra_Rho_Rhocri (Some 2) (Some 3) = Some (13/16) /\ Ra_V_Vcri (Some 2) (Some 3) = Some (16/13) /\ Ra_Ti_Ticri (Some 2) (Some 3) = Some (160/169).
Proof. exact C25_example_lemma. Qed.
