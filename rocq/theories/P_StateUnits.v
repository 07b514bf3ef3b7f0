(** Property theorems of L_StateUnits.v. Generated by tools/gen.py; statements only, proofs are in L_StateUnits.v. *)
From Coq Require Import ZArith Lra Lia.
From Verif Require Import Num L_Num M_Isentropic M_ShockWave M_Model1D M_Unsteady1D M_Riemann M_Inflow UnitsSpec StateUnitsSpec L_Units.
From Verif Require Import L_StateUnits.
Open Scope num_scope.

(** The state of the unsteady solvers is the same in every system of units of pressure and velocity, undefined values included: sound and wave speeds, Mach number, mass flux, total pressure and r times total temperature of the converted state are the converted ones, and so are the state behind a shock, the states built from total conditions, the mirrored state, the state behind a given moving shock, and the velocity change and density behind a given pressure. *)
Theorem C118_states : forall u q, proper u ->
  asound (state_in u q) = convert u velocity (asound q) /\ left_acoustic (state_in u q) = convert u velocity (left_acoustic q) /\
  right_acoustic (state_in u q) = convert u velocity (right_acoustic q) /\ Mach (state_in u q) = Mach q /\
  massflow (state_in u q) = convert u mass_flux (massflow q) /\ Ptot (state_in u q) = convert u pressure (Ptot q) /\ rTtot (state_in u q) = convert u energy (rTtot q) /\
  state_RH (state_in u q) = state_in u (state_RH q) /\ copysymmetric (state_in u q) = state_in u (copysymmetric q) /\
  (forall pt rtt x, compute_from_pt_rtt_M (state_in u q) (convert u pressure pt) (convert u energy rtt) x = state_in u (compute_from_pt_rtt_M q pt rtt x) /\
    compute_from_pt_rtt_u (state_in u q) (convert u pressure pt) (convert u energy rtt) (convert u velocity x) = state_in u (compute_from_pt_rtt_u q pt rtt x) /\
    compute_from_pt_rtt_p (state_in u q) (convert u pressure pt) (convert u energy rtt) (convert u pressure x) = state_in u (compute_from_pt_rtt_p q pt rtt x)) /\
  (forall w, rankinehugoniot_from_ushock (state_in u q) (convert u velocity w) = state_in u (rankinehugoniot_from_ushock q w)) /\
  (forall p, delta_u_expansion (state_in u q) (convert u pressure p) = convert u velocity (delta_u_expansion q p) /\
    delta_u_shock (state_in u q) (convert u pressure p) = convert u velocity (delta_u_shock q p) /\
    rho_through_shock (state_in u q) (convert u pressure p) = convert u density (rho_through_shock q p) /\
    rho_through_isentropic (state_in u q) (convert u pressure p) = convert u density (rho_through_isentropic q p)).
Proof. exact states. Qed.
Print Assumptions C118_states.

(** The state at a given Mach number derived by state_isentropic_Mach does depend on the units: whenever its pressure is a non-zero number and the factor of pressure is not the square of the factor of velocity, the derived state of the converted state is not the converted derived state (its pressure is computed from r times the total temperature). *)
Theorem C118_isentropic_refuted : forall u q M x, proper u -> st_p (state_isentropic_Mach q M) = Some x -> x <> 0%R -> u_p u <> (u_v u ^ 2)%R ->
  st_p (state_isentropic_Mach (state_in u q) M) <> convert u pressure (st_p (state_isentropic_Mach q M)).
Proof. exact isentropic_units_refuted. Qed.
Print Assumptions C118_isentropic_refuted.

(** Neither does the Riemann problem, for all pairs of states: the mismatch function of the converted states is the converted one, with the same roots, the starting pressure is the converted one (powers of pressures included), and when the root finder returns the converted answer the whole solution (states, star values, waves) is the converted solution and its sampling at every converted speed is the converted sample. *)
Theorem C118_riemann : forall u qL qR, proper u ->
  (forall p, riemann_du (state_in u qL) (state_in u qR) (convert u pressure p) = convert u velocity (riemann_du qL qR p)) /\
  (forall p, riemann_du (state_in u qL) (state_in u qR) (convert u pressure p) = Some 0%R <-> riemann_du qL qR p = Some 0%R) /\
  pstar_estimate_expansion (state_in u qL) (state_in u qR) = convert u pressure (pstar_estimate_expansion qL qR) /\
  (forall newton newton',
    same_answer u newton newton' (riemann_du qL qR) (riemann_du (state_in u qL) (state_in u qR)) (pstar_estimate_expansion qL qR) (pstar_estimate_expansion (state_in u qL) (state_in u qR)) ->
    riemann_pb newton' (state_in u qL) (state_in u qR) = option_map (riemann_in u) (riemann_pb newton qL qR)) /\
  (forall S x, qsol (riemann_in u S) (convert u velocity x) = option_map (state_in u) (qsol S x)).
Proof. exact riemann_units. Qed.
Print Assumptions C118_riemann.

(** Nor does the unsteady inflow: the pressure function to be solved and its starting point are the converted ones, and every sequence of solve calls on the converted object with converted requests, with a solver that does not look at the units, gives the converted object. *)
Theorem C118_inflow : forall u, proper u ->
  (forall q p rtt, pt0_from_pstar_rtt0 (state_in u q) (convert u pressure p) (convert u energy rtt) = convert u pressure (pt0_from_pstar_rtt0 q p rtt)) /\
  (forall q pt, inflow_estimate (state_in u q) (convert u pressure pt) = convert u pressure (inflow_estimate q pt)) /\
  (forall q, inflow_init (state_in u q) = inflow_in u (inflow_init q)) /\
  (forall solve solve' o l, unit_free u pressure solve solve' ->
   solve_all solve' (inflow_in u o) (map (request_in u) l) = option_map (inflow_in u) (solve_all solve o l)).
Proof. exact inflow_units. Qed.
Print Assumptions C118_inflow.

(** Millibars and kilometres per second are proper units; the secant step from the starting point and its double does not look at the units, neither as solver of the Riemann problem (the hypothesis of C118_riemann for all states) nor of the inflow; and a state at rest with unit pressure and density meets the hypotheses of the refutation. *)
Example C118_example : let u := {| u_m := 1; u_p := / 100; u_t := 1; u_v := / 1000 |} in proper u /\ unit_free u pressure secant secant /\
  (forall qL qR, same_answer u secant secant (riemann_du qL qR) (riemann_du (state_in u qL) (state_in u qR)) (pstar_estimate_expansion qL qR) (pstar_estimate_expansion (state_in u qL) (state_in u qR))) /\
  (exists x, st_p (state_isentropic_Mach (mk_state (Some (14 / 10)%R) (Some 1%R) (Some 0%R) (Some 1%R)) (Some 0%R)) = Some x /\ x <> 0%R) /\ u_p u <> (u_v u ^ 2)%R.
Proof. exact state_units_example. Qed.
