(** Property theorems of L_Riemann1.v. Generated by tools/gen.py; statements only, proofs are in L_Riemann1.v. *)
From Verif Require Import L_Num Spec NumSpec M_Isentropic M_MassFlow M_ShockWave M_Model1D M_Unsteady1D M_Riemann L_Isentropic L_Shock L_Model1D L_Unsteady.
From Verif Require Import L_Riemann1.
Open Scope R_scope.

(** For every pair of states (each with its own gas), the velocity mismatch handed to the root finder is defined, continuous and strictly increasing in p > 0. *)
Theorem C36_mismatch_increasing : forall gL gR qL qR, 1 < gL -> 1 < gR -> positive_state qL -> positive_state qR ->
  incr_on (fun p => 0 < p) (riemann_du (obj gL qL) (obj gR qR)) /\
  exists F, (forall p, 0 < p -> riemann_du (obj gL qL) (obj gR qR) (Some p) = Some (F p)) /\
    forall p, 0 < p -> continuous F p.
Proof. exact mismatch_increasing. Qed.
Print Assumptions C36_mismatch_increasing.

(** A star pressure exists exactly when uR - uL < 2 aL/(gL-1) + 2 aR/(gR-1) (no vacuum), and it is unique. *)
Theorem C36_star_pressure : forall gL gR qL qR, 1 < gL -> 1 < gR -> positive_state qL -> positive_state qR ->
  ((exists p, 0 < p /\ riemann_du (obj gL qL) (obj gR qR) (Some p) = Some 0) <->
   f_u qR - f_u qL < 2 * flow_sound gL qL / (gL - 1) + 2 * flow_sound gR qR / (gR - 1)) /\
  (forall p p', 0 < p -> 0 < p' -> riemann_du (obj gL qL) (obj gR qR) (Some p) = Some 0 ->
     riemann_du (obj gL qL) (obj gR qR) (Some p') = Some 0 -> p = p').
Proof. exact star_pressure. Qed.
Print Assumptions C36_star_pressure.

(** For identical states the star pressure is their common pressure, and nothing else. *)
Theorem C36_identical : forall g q, 1 < g -> positive_state q -> forall p, 0 < p ->
  (riemann_du (obj g q) (obj g q) (Some p) = Some 0 <-> p = f_p q).
Proof. exact identical_states. Qed.
Print Assumptions C36_identical.

(** With a single gas: if both waves of the exact solution are expansions, the initial estimate IS the exact star pressure; and conversely whenever the estimate does not exceed either pressure (and there is no vacuum) it solves the problem exactly. *)
Theorem C36_two_expansions : forall g qL qR p, 1 < g -> positive_state qL -> positive_state qR ->
  f_u qR - f_u qL < 2 * flow_sound g qL / (g - 1) + 2 * flow_sound g qR / (g - 1) ->
  0 < p -> p <= f_p qL -> p <= f_p qR ->
  (riemann_du (obj g qL) (obj g qR) (Some p) = Some 0 <->
   pstar_estimate_expansion (obj g qL) (obj g qR) = Some p).
Proof. exact two_expansions. Qed.
Print Assumptions C36_two_expansions.

(** two states of different gases, no vacuum; and the identical-states case *)
Example C36_example :
  let qL := mkflow (14/10) 0 1 in let qR := mkflow (5/3) 1 1 in
  positive_state qL /\ positive_state qR /\
  f_u qR - f_u qL < 2 * flow_sound (14/10) qL / (14/10 - 1) + 2 * flow_sound (5/3) qR / (5/3 - 1) /\
  riemann_du (obj (14/10) qL) (obj (14/10) qL) (Some 1) = Some 0.
Proof. exact C36_example_lemma. Qed.
