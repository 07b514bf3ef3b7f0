(** Property theorems of L_Unsteady.v. Generated by tools/gen.py; statements only, proofs are in L_Unsteady.v. *)
From Verif Require Import L_Num Spec NumSpec M_Isentropic M_ShockWave M_Model1D M_Unsteady1D L_Isentropic L_Shock L_Model1D.
From Verif Require Import L_Unsteady.
Open Scope R_scope.

(** For every state and every shock speed other than the flow velocity, _rankinehugoniot_from_ushock returns a state of the same gas satisfying the Rankine-Hugoniot relations in the frame of the shock. *)
Theorem C35_moving_shock : forall g w q, 1 < g -> positive_state q -> f_u q <> w ->
  exists q', rankinehugoniot_from_ushock (obj g q) (Some w) = obj g q' /\ 0 < f_rho q' /\
    rankine_hugoniot g w q q'.
Proof. exact moving_shock. Qed.
Print Assumptions C35_moving_shock.

(** The moving shock commutes with every change of inertial frame. *)
Theorem C35_galilean : forall g w v q, 1 < g -> positive_state q -> f_u q <> w ->
  exists q', rankinehugoniot_from_ushock (obj g q) (Some w) = obj g q' /\
    rankinehugoniot_from_ushock (obj g (galilean v q)) (Some (w + v)) = obj g (galilean v q').
Proof. exact moving_shock_galilean. Qed.
Print Assumptions C35_galilean.

(** With a shock speed equal to the flow velocity there is no finite jump state. *)
Theorem C35_standing_front_none : forall g q, 1 < g -> positive_state q ->
  st_u (rankinehugoniot_from_ushock (obj g q) (Some (f_u q))) = None.
Proof. exact standing_front. Qed.
Print Assumptions C35_standing_front_none.

(** For every pressure p > 0 and either direction s, delta_u_shock and rho_through_shock describe the jump of one and the same moving shock: with speed w = u + s a Mn_Ps_ratio(p/p0), _rankinehugoniot_from_ushock gives pressure p, the density rho_through_shock(p) and the velocity u + s delta_u_shock(p); the jump satisfies Rankine-Hugoniot. *)
Theorem C35_shock_functions : forall g q p s, 1 < g -> positive_state q -> 0 < p -> s = 1 \/ s = -1 ->
  exists M w q', Mn_Ps_ratio (Some (p / f_p q)) (Some g) = Some M /\
    w = f_u q + s * flow_sound g q * M /\
    rankinehugoniot_from_ushock (obj g q) (Some w) = obj g q' /\
    f_p q' = p /\ rho_through_shock (obj g q) (Some p) = Some (f_rho q') /\
    delta_u_shock (obj g q) (Some p) = Some (s * (f_u q' - f_u q)) /\
    rankine_hugoniot g w q q'.
Proof. exact shock_functions. Qed.
Print Assumptions C35_shock_functions.

(** For every pressure p > 0 and either direction s, the state with pressure p, density rho_through_isentropic(p) and velocity u + s delta_u_expansion(p) has the same entropy and the same Riemann invariant u - s 2a/(gamma-1) as the initial state. *)
Theorem C35_simple_wave : forall g q p s, 1 < g -> positive_state q -> 0 < p -> s = 1 \/ s = -1 ->
  exists r1 du, rho_through_isentropic (obj g q) (Some p) = Some r1 /\ 0 < r1 /\
    delta_u_expansion (obj g q) (Some p) = Some du /\
    let q1 := mkflow r1 (f_u q + s * du) p in
    entropy_fn g q1 = entropy_fn g q /\ riemann_invariant s g q1 = riemann_invariant s g q.
Proof. exact simple_wave. Qed.
Print Assumptions C35_simple_wave.

(** the Mach 2 shock running at speed -2 into gas at rest (gamma = 1.4, rho = 1.4, p = 1) *)
Example C35_example :
  let q := mkflow (14/10) 0 1 in positive_state q /\ f_u q <> -2 /\
  rankinehugoniot_from_ushock (obj (14/10) q) (Some (-2)) = obj (14/10) (mkflow (14/10 * (8/3)) (-5/4) (9/2)).
Proof. exact C35_example_lemma. Qed.
