(** Property theorems of L_MinNozzle3.v. Generated by tools/gen.py; statements only, proofs are in L_MinNozzle3.v. *)
From Coq Require Import List Lia.
From Coquelicot Require Import Coquelicot.
From Verif Require Import L_Num L_Isentropic L_MassFlow L_Supersonic MocSpec M_MassFlow M_MinNozzle L_MinNozzle L_MinNozzle2.
From Verif Require Import L_MinNozzle3.
Open Scope R_scope.

(** For every design Mach number from 1 (excluded) to 2, every throat area and every number n >= 1 of characteristics the construction succeeds: the loops end, no division by zero or domain error occurs, and a profile and an exit Mach number are returned. *)
Theorem C84_returns : forall Mf area n, 1 < Mf <= 2 -> 0 < area -> (1 <= n)%nat ->
  exists passes net wall Me, Minimum_length_nozzle passes (Some Mf) (Some area) n = Some (net, wall, Me).
Proof. exact nozzle_returns. Qed.
Print Assumptions C84_returns.

(** hypotheses of the theorems above: a nozzle for Mach 2 with 20 characteristics does return *)
Example C84_example : 1 < 2 /\ 0 < 1 /\ exists passes net wall Me, Minimum_length_nozzle passes (Some 2) (Some 1) 20 = Some (net, wall, Me).
Proof. exact nozzle_example. Qed.

(** The theoretical area ratio the script prints is the one of the library: for every Mach number M > 0, rapport_expansion(M) = Sigma_Mach(M, 1.27). *)
Theorem C84_area : forall M, 0 < M -> exists s, rapport_expansion (Some M) = Some s /\ Sigma_Mach (Some M) (Some (127/100)) = Some s.
Proof. exact rapport_area. Qed.
Print Assumptions C84_area.
