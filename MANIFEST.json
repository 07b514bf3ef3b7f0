{
 "claims": [
  {
   "property": "C01",
   "status": "proved",
   "theorems": [
    "C01_TtTs_energy",
    "C01_TtTs_range",
    "C01_TtTs_increasing"
   ],
   "note": ""
  },
  {
   "property": "C02",
   "status": "proved",
   "theorems": [
    "C02_Mach_of_TtTs",
    "C02_TtTs_of_Mach",
    "C02_domain"
   ],
   "note": ""
  },
  {
   "property": "C03",
   "status": "proved",
   "theorems": [
    "C03_isentropic",
    "C03_Mach_of_PtPs",
    "C03_PtPs_of_Mach",
    "C03_domain",
    "C03_PtPs_increasing"
   ],
   "note": ""
  },
  {
   "property": "C04",
   "status": "proved",
   "theorems": [
    "C04_velocity_energy",
    "C04_velocity_increasing",
    "C04_velocity_limit"
   ],
   "note": ""
  },
  {
   "property": "C05",
   "status": "proved",
   "theorems": [
    "C05_legacy_wrappers",
    "C05_aliases",
    "C05_defaults",
    "C05_given"
   ],
   "note": ""
  },
  {
   "property": "C06",
   "status": "proved",
   "theorems": [
    "C06_minimum",
    "C06_subsonic_decreasing",
    "C06_supersonic_increasing"
   ],
   "note": ""
  },
  {
   "property": "C07",
   "status": "proved",
   "theorems": [
    "C07_mass_flow",
    "C07_mass_flow_maximal",
    "C07_Sigma_is_ratio"
   ],
   "note": ""
  },
  {
   "property": "C08",
   "status": "partial",
   "theorems": [
    "C08_unique_subsonic",
    "C08_unique_supersonic",
    "C08_residual",
    "C08_exact_root",
    "C08_start_supersonic",
    "C08_start_subsonic",
    "C08_start_subsonic_refuted"
   ],
   "note": "Existence, uniqueness, residual, starts: proved. False part: MachSub_Sigma leaves the branch (0,1] for gamma > 1.4 (C08_start_subsonic_refuted)."
  },
  {
   "property": "C09",
   "status": "proved",
   "theorems": [
    "C09_rankine_hugoniot",
    "C09_perfect_gas"
   ],
   "note": ""
  },
  {
   "property": "C10",
   "status": "proved",
   "theorems": [
    "C10_downstream_is_velocity_ratio",
    "C10_involution",
    "C10_exchanges",
    "C10_domain"
   ],
   "note": ""
  },
  {
   "property": "C11",
   "status": "proved",
   "theorems": [
    "C11_Mn_of_Ps",
    "C11_Ps_of_Mn"
   ],
   "note": ""
  },
  {
   "property": "C12",
   "status": "proved",
   "theorems": [
    "C12_total_temperature"
   ],
   "note": ""
  },
  {
   "property": "C13",
   "status": "proved",
   "theorems": [
    "C13_entropy",
    "C13_density_limit",
    "C13_monotone",
    "C13_unit"
   ],
   "note": ""
  },
  {
   "property": "C14",
   "status": "partial",
   "theorems": [
    "C14_air_partial",
    "C14_air_monotone_partial",
    "C14_formula_any_gamma",
    "C14_other_gamma_refuted",
    "C14_Mn_Pt_ratio"
   ],
   "note": "Proved for gamma = 1.4. False of the code for every other gamma: Pt_ratio drops gamma (C14_other_gamma_refuted)."
  },
  {
   "property": "C15",
   "status": "proved",
   "theorems": [
    "C15_turning",
    "C15_theta_beta_M",
    "C15_sign",
    "C15_limit_90"
   ],
   "note": ""
  },
  {
   "property": "C16",
   "status": "proved",
   "theorems": [
    "C16_shock_of_pressure_ratio"
   ],
   "note": ""
  },
  {
   "property": "C17",
   "status": "proved",
   "theorems": [
    "C17_branches",
    "C17_weak_strong",
    "C17_discriminant"
   ],
   "note": ""
  },
  {
   "property": "C18",
   "status": "proved",
   "theorems": [
    "C18_sonic",
    "C18_limit"
   ],
   "note": ""
  },
  {
   "property": "C19",
   "status": "proved",
   "theorems": [
    "C19_increasing",
    "C19_limit",
    "C19_maximum",
    "C19_concave"
   ],
   "note": ""
  },
  {
   "property": "C20",
   "status": "proved",
   "theorems": [
    "C20_domain",
    "C20_increasing",
    "C20_range",
    "C20_slope"
   ],
   "note": "Below |M|=1 no finite value; the function is even in M, so the domain is |M| >= 1."
  },
  {
   "property": "C21",
   "status": "proved",
   "theorems": [
    "C21_PMFmmu"
   ],
   "note": ""
  },
  {
   "property": "C22",
   "status": "partial",
   "theorems": [
    "C22_residual",
    "C22_inverse",
    "C22_turning_pressure_partial",
    "C22_sign_refuted",
    "C22_secant_inverse"
   ],
   "note": "Inversion of Prandtl-Meyer proved, also with the library's own secant iteration (C22_secant_inverse). False part: the two simple-wave functions use opposite sign conventions (C22_sign_refuted)."
  },
  {
   "property": "C23",
   "status": "proved",
   "theorems": [
    "C23_fanno",
    "C23_sonic"
   ],
   "note": ""
  },
  {
   "property": "C24",
   "status": "proved",
   "theorems": [
    "C24_slope",
    "C24_decreasing",
    "C24_increasing",
    "C24_minimum"
   ],
   "note": ""
  },
  {
   "property": "C25",
   "status": "proved",
   "theorems": [
    "C25_rayleigh",
    "C25_sonic"
   ],
   "note": ""
  },
  {
   "property": "C26",
   "status": "partial",
   "theorems": [
    "C26_maximum",
    "C26_sub_inverse",
    "C26_sup_inverse",
    "C26_maxTiratio_partial",
    "C26_maxTiratio_refuted"
   ],
   "note": "Everything but maxTiratio_Mach proved; that function ignores gamma (C26_maxTiratio_refuted)."
  },
  {
   "property": "C27",
   "status": "partial",
   "theorems": [
    "C27_evaluations",
    "C27_residual",
    "C27_start",
    "C27_small_start_refuted",
    "C27_affine",
    "C27_root_fixed",
    "C27_one_sided",
    "C27_concave",
    "C27_trapped",
    "C27_convex"
   ],
   "note": "Everything proved except the last clause, which is false for starts of at most 0.01 (C27_small_start_refuted). Convergence proved for one-sided convex or concave functions (C27_one_sided, C27_concave), and confinement to an interval for concave functions started on either side of the root (C27_trapped)."
  },
  {
   "property": "C28",
   "status": "partial",
   "theorems": [
    "C28_deflection_partial",
    "C28_sign",
    "C28_zero_refuted",
    "C28_weak",
    "C28_strong",
    "C28_default_start",
    "C28_default",
    "C28_negative_refuted",
    "C28_between_refuted"
   ],
   "note": "For every gamma > 1, M > 1 and every attached positive deflection the default start gives the weak branch (C28_default); from a given start, the weak branch from below the weak angle (C28_weak) and the strong branch from above the strong angle (C28_strong); residual and sign for any run that stays in (0,90) and ends normally. Negative deflections: weak branch while mu + d > 0.01 (C28_weak with C28_default_start), false beyond the Mach angle (C28_negative_refuted). The zero-deflection clause is false (C28_zero_refuted). Explicit starts between the branches: false, C28_between_refuted gives a start there without a finite result."
  },
  {
   "property": "C29",
   "status": "proved",
   "theorems": [
    "C29_pythagoras",
    "C29_complement",
    "C29_tan",
    "C29_asin",
    "C29_acos",
    "C29_atan",
    "C29_atan2",
    "C29_periodic"
   ],
   "note": ""
  },
  {
   "property": "C30",
   "status": "proved",
   "theorems": [
    "C30_save_restore",
    "C30_latest_save_wins",
    "C30_restore_needs_save",
    "C30_setters_local"
   ],
   "note": ""
  },
  {
   "property": "C31",
   "status": "partial",
   "theorems": [
    "C31_gamma_getter_partial",
    "C31_refuted",
    "C31_refuted_instance"
   ],
   "note": "False of the code for every gamma other than 1.4 (C31_refuted); what remains true is C31_gamma_getter_partial."
  },
  {
   "property": "C32",
   "status": "partial",
   "theorems": [
    "C32_kept_partial",
    "C32_lost_refuted",
    "C32_getitem_values_partial"
   ],
   "note": "False of the code for indexing, re-initialisation and isentropic states (C32_lost_refuted); the other operations keep the gas (C32_kept_partial)."
  },
  {
   "property": "C33",
   "status": "partial",
   "theorems": [
    "C33_consistency",
    "C33_from_Mach_partial",
    "C33_from_Mach_air",
    "C33_from_velocity_partial",
    "C33_from_pressure_partial",
    "C33_from_velocity_pressure_air",
    "C33_other_gas_refuted",
    "C33_isentropic_Mach_partial",
    "C33_isentropic_Mach_refuted"
   ],
   "note": "Proved for gamma = 1.4, and for every gamma on the stored density, velocity and pressure; false for the reported values of other gases (C33_other_gas_refuted) and for state_isentropic_Mach (C33_isentropic_Mach_refuted)."
  },
  {
   "property": "C34",
   "status": "proved",
   "theorems": [
    "C34_conserves",
    "C34_involution",
    "C34_domain"
   ],
   "note": ""
  },
  {
   "property": "C35",
   "status": "proved",
   "theorems": [
    "C35_moving_shock",
    "C35_galilean",
    "C35_standing_front_none",
    "C35_shock_functions",
    "C35_simple_wave"
   ],
   "note": ""
  },
  {
   "property": "C36",
   "status": "proved",
   "theorems": [
    "C36_mismatch_increasing",
    "C36_star_pressure",
    "C36_identical",
    "C36_two_expansions"
   ],
   "note": ""
  },
  {
   "property": "C37",
   "status": "proved",
   "theorems": [
    "C37_star_states",
    "C37_residual"
   ],
   "note": "For an exact root finder; C37_residual states what remains for one with residual eps."
  },
  {
   "property": "C38",
   "status": "proved",
   "theorems": [
    "C38_ordering",
    "C38_lax"
   ],
   "note": ""
  },
  {
   "property": "C39",
   "status": "proved",
   "theorems": [
    "C39_mirror",
    "C39_galilean"
   ],
   "note": ""
  },
  {
   "property": "C40",
   "status": "partial",
   "theorems": [
    "C40_regions_partial",
    "C40_fans_solve_euler",
    "C40_right_fan_edge_refuted",
    "C40_gas_refuted"
   ],
   "note": "Proved except at the inner edge of a right fan (C40_right_fan_edge_refuted) and for the attached gas (C40_gas_refuted), where the code is wrong."
  },
  {
   "property": "C41",
   "status": "proved",
   "theorems": [
    "C41_order",
    "C41_meaning",
    "C41_list_agrees"
   ],
   "note": "Root finder assumed to return the root on the side of Mach 1 it was started from (branch_solver, shown satisfiable)."
  },
  {
   "property": "C42",
   "status": "partial",
   "theorems": [
    "C42_unchoked",
    "C42_shocked",
    "C42_supersonic",
    "C42_limits",
    "C42_shocked_monotone",
    "C42_default_gas_refuted",
    "C42_adapted_jet"
   ],
   "note": "Proved while the default gas is 1.4; false after set_gamma (C42_default_gas_refuted)."
  },
  {
   "property": "C43",
   "status": "partial",
   "theorems": [
    "C43_shape",
    "C43_unchoked",
    "C43_supersonic",
    "C43_shocked",
    "C43_coarse_grid_refuted"
   ],
   "note": "Proved in all regimes; behind a shock only at stations above the sonic area; false at others on coarse grids (C43_coarse_grid_refuted)."
  },
  {
   "property": "C44",
   "status": "partial",
   "theorems": [
    "C44_default_unchanged",
    "C44_saved_pair_refuted",
    "C44_gamma_ignored_limits_refuted",
    "C44_gamma_ignored_throat_refuted"
   ],
   "note": "Default gamma and r: proved. Saved pair and gamma argument: false of the code (three refuted theorems)."
  },
  {
   "property": "C45",
   "status": "proved",
   "theorems": [
    "C45_xi_nodes",
    "C45_x_nodes",
    "C45_default_interval",
    "C45_maps_inverse",
    "C45_single_point"
   ],
   "note": ""
  },
  {
   "property": "C46",
   "status": "proved",
   "theorems": [
    "C46_history_independent",
    "C46_computed_once"
   ],
   "note": ""
  },
  {
   "property": "C47",
   "status": "proved",
   "theorems": [
    "C47_exact_on_polynomials",
    "C47_constants",
    "C47_too_few_points"
   ],
   "note": ""
  },
  {
   "property": "C48",
   "status": "proved",
   "theorems": [
    "C48_computed_at_most_once",
    "C48_same_value_ever_after",
    "C48_objects_are_independent",
    "C48_exception_not_cached"
   ],
   "note": ""
  },
  {
   "property": "C49",
   "status": "proved",
   "theorems": [
    "C49_linearisation",
    "C49_assembled_sym",
    "C49_assembled_per"
   ],
   "note": ""
  },
  {
   "property": "C50",
   "status": "partial",
   "theorems": [
    "C50_sym",
    "C50_per",
    "C50_RH_partial",
    "C50_RH_right_refuted",
    "C50_RH_without_gradient_refuted",
    "C50_RH_twice_refuted",
    "C50_RH_gas_refuted",
    "C50_RH_uniform_refuted",
    "C50_wall"
   ],
   "note": "sym, per, wall proved; RH proved at the left end in the form the code writes it, false at the right end, without gradient, twice, for other gases and for uniform flows (refuted theorems)."
  },
  {
   "property": "C51",
   "status": "partial",
   "theorems": [
    "C51_stale_refuted",
    "C51_failed_request_refuted",
    "C51_first_request_partial",
    "C51_os_stale_refuted",
    "C51_os_failed_request_refuted",
    "C51_os_before_request"
   ],
   "note": "False of the code once a request was made (stale and failed-request theorems); before the first request proved."
  },
  {
   "property": "C52",
   "status": "proved",
   "theorems": [
    "C52_exact",
    "C52_operator",
    "C52_missing_keys",
    "C52_poiseuille"
   ],
   "note": ""
  },
  {
   "property": "C53",
   "status": "proved",
   "theorems": [
    "C53_selection",
    "C53_unknown_key"
   ],
   "note": "argsort assumed to sort; spectrum arbitrary."
  },
  {
   "property": "C54",
   "status": "partial",
   "theorems": [
    "C54_unknown_rejected",
    "C54_one_sided_periodic_refuted",
    "C54_shared_dictionary_refuted",
    "C54_extra_entry",
    "C54_consumed_refuted",
    "C54_strings_ok"
   ],
   "note": "Rejection proved; the dictionaries are consumed (C54_shared_dictionary_refuted, C54_consumed_refuted); a periodic tag on one side only is accepted (C54_one_sided_periodic_refuted)."
  },
  {
   "property": "C55",
   "status": "proved",
   "theorems": [
    "C55_grid",
    "C55_empty",
    "C55_nonterminating",
    "C55_cubic",
    "C55_order",
    "C55_linear"
   ],
   "note": ""
  },
  {
   "property": "C56",
   "status": "proved",
   "theorems": [
    "C56_step",
    "C56_order",
    "C56_polynomial",
    "C56_linear"
   ],
   "note": ""
  },
  {
   "property": "C57",
   "status": "partial",
   "theorems": [
    "C57_accepted",
    "C57_monotone",
    "C57_reaches_partial",
    "C57_refuted",
    "C57_default_refuted",
    "C57_overshoot_refuted",
    "C57_cap_refuted"
   ],
   "note": "Proved when steps ending at xStop are accepted at once; false otherwise (C57_refuted and others)."
  },
  {
   "property": "C58",
   "status": "proved",
   "theorems": [
    "C58_wall",
    "C58_shock_angle",
    "C58_same_rule",
    "C58_taylor_maccoll"
   ],
   "note": "When the marching loop returns; termination is not claimed (fuel)."
  },
  {
   "property": "C59",
   "status": "partial",
   "theorems": [
    "C59_cycle_partial",
    "C59_no_history",
    "C59_eta_cc_refuted",
    "C59_constructor",
    "C59_defaults"
   ],
   "note": "Proved with xi_cc in place of eta_cc; the constructor ignores eta_cc (C59_eta_cc_refuted)."
  },
  {
   "property": "C60",
   "status": "partial",
   "theorems": [
    "C60_efficiencies",
    "C60_turbojet",
    "C60_turbofan",
    "C60_fan_extremes",
    "C60_constructor",
    "C60_nozzle_loss_refuted",
    "C60_ideal_power_refuted",
    "C60_propulsive",
    "C60_sfc"
   ],
   "note": "Identities and balances proved; the turbofan constructor drops xi_nozzle and the ideal power is wrong (C60_nozzle_loss_refuted, C60_ideal_power_refuted)."
  },
  {
   "property": "C61",
   "status": "partial",
   "theorems": [
    "C61_fixed_fan",
    "C61_computed_fan",
    "C61_completion_partial",
    "C61_reset_refuted",
    "C61_printing"
   ],
   "note": "Order independence proved for every sequence; completion by calculs_5_to_9 alone is false after InitialValues (C61_reset_refuted)."
  },
  {
   "property": "C62",
   "status": "partial",
   "theorems": [
    "C62_double_corps",
    "C62_propu_be_partial",
    "C62_propu_be_refuted"
   ],
   "note": "double_corps agreement proved; propu_be agreement false: other fan efficiency (C62_propu_be_refuted)."
  },
  {
   "property": "C63",
   "status": "partial",
   "theorems": [
    "C63_kerosen_gibbs",
    "C63_kerosen_cp_partial",
    "C63_kerosen_cp_refuted",
    "C63_realgas",
    "C63_realgas_enthalpy_partial",
    "C63_realgas_enthalpy_refuted"
   ],
   "note": "Proved up to the coefficient rounding, which is bounded; exact identities are false (refuted theorems)."
  },
  {
   "property": "C64",
   "status": "proved",
   "theorems": [
    "C64_behaves_like_a_map",
    "C64_reset"
   ],
   "note": ""
  },
  {
   "property": "C65",
   "status": "partial",
   "theorems": [
    "C65_case_refuted",
    "C65_case_partial"
   ],
   "note": "False of the code (C65_case_refuted)."
  },
  {
   "property": "C66",
   "status": "partial",
   "theorems": [
    "C66_refused_refuted",
    "C66_refused_partial"
   ],
   "note": "False of the code (C66_refused_refuted)."
  },
  {
   "property": "C67",
   "status": "partial",
   "theorems": [
    "C67_expressions_partial",
    "C67_expressions_refuted"
   ],
   "note": "Proved for Vx named U_X and positive axial velocity; false otherwise (C67_expressions_refuted)."
  },
  {
   "property": "C68",
   "status": "partial",
   "theorems": [
    "C68_inflow_partial",
    "C68_inflow_air",
    "C68_residual",
    "C68_other_gas_refuted",
    "C68_fastest_refuted",
    "C68_history",
    "C68_one_solution"
   ],
   "note": "Proved for gamma = 1.4, and for all gases except the gamma attached to the inlet state (C68_other_gas_refuted) and the fastest-wave accessors (C68_fastest_refuted)."
  },
  {
   "property": "C69",
   "status": "proved",
   "theorems": [
    "C69_minimum",
    "C69_momentum",
    "C69_branches",
    "C69_inverse_partial",
    "C69_inverse",
    "C69_inverse_subsonic"
   ],
   "note": "C69_inverse_partial goes beyond the stated property."
  },
  {
   "property": "C70",
   "status": "proved",
   "theorems": [
    "C70_unit_rayleigh",
    "C70_finite",
    "C70_exact_pair",
    "C70_other_error",
    "C70_exact_vector"
   ],
   "note": ""
  },
  {
   "property": "C71",
   "status": "proved",
   "theorems": [
    "C71_extrapol_interpolates",
    "C71_extrapol_exact",
    "C71_system_is_regular"
   ],
   "note": ""
  },
  {
   "property": "C72",
   "status": "proved",
   "theorems": [
    "C72_fit_exact"
   ],
   "note": ""
  },
  {
   "property": "C73",
   "status": "partial",
   "theorems": [
    "C73_computed_fan",
    "C73_fixed_fan_partial",
    "C73_fixed_fan_refuted",
    "C73_no_reset"
   ],
   "note": "Computed-fan class proved; fixed-fan class keeps a stale fan (C73_fixed_fan_refuted)."
  },
  {
   "property": "C74",
   "status": "partial",
   "theorems": [
    "C74_fixed_fan_partial",
    "C74_computed_fan"
   ],
   "note": "Computed-fan class proved; fixed-fan class uses the compressor efficiency for its fan (C74_fixed_fan_partial, C62_propu_be_refuted)."
  },
  {
   "property": "C75",
   "status": "partial",
   "theorems": [
    "C75_thrust_refuted",
    "C75_consumption_refuted"
   ],
   "note": "False of the code in both parts."
  },
  {
   "property": "C76",
   "status": "partial",
   "theorems": [
    "C76_tau_optimum_refuted",
    "C76_tau_optimum_partial"
   ],
   "note": "False of the code (C76_tau_optimum_refuted); consistency proved."
  },
  {
   "property": "C77",
   "status": "proved",
   "theorems": [
    "C77_kerosen_monotone",
    "C77_realgas_monotone"
   ],
   "note": ""
  },
  {
   "property": "C78",
   "status": "partial",
   "theorems": [
    "C78_imports_partial",
    "C78_imports_refuted",
    "C78_scripts_partial"
   ],
   "note": "Proved for all modules but two, which can never be imported (C78_imports_refuted); four of the sixteen example scripts cannot be started (C78_scripts_partial)."
  },
  {
   "property": "C79",
   "status": "proved",
   "theorems": [
    "C79_sides",
    "C79_sigma_polar",
    "C79_pressure_polar",
    "C79_markers"
   ],
   "note": ""
  },
  {
   "property": "C80",
   "status": "proved",
   "theorems": [
    "C80_curves",
    "C80_points",
    "C80_monotone",
    "C80_characteristic"
   ],
   "note": "Root finder of Mach_PrandtlMeyer as an explicit hypothesis (solves 0 newton)."
  },
  {
   "property": "C81",
   "status": "partial",
   "theorems": [
    "C81_reaches_partial",
    "C81_stall_refuted",
    "C81_overshoot_refuted",
    "C81_end"
   ],
   "note": "Proved for 0 <= x and steps between xStop/2^52 and xStop/2; false in general: the loop never ends when the step is below the spacing of the doubles near x (C81_stall_refuted), and can end past xStop (C81_overshoot_refuted), by at most a rounding error (C81_end)."
  },
  {
   "property": "C82",
   "status": "proved",
   "theorems": [
    "C82_defined",
    "C82_accuracy",
    "C82_small_Mach",
    "C82_close"
   ],
   "note": ""
  },
  {
   "property": "C83",
   "status": "proved",
   "theorems": [
    "C83_defined",
    "C83_accuracy",
    "C83_close"
   ],
   "note": ""
  },
  {
   "property": "C84",
   "status": "partial",
   "theorems": [
    "C84_inverse",
    "C84_no_inverse",
    "C84_net_partial",
    "C84_exit",
    "C84_first_axis_refuted",
    "C84_returns",
    "C84_area"
   ],
   "note": "The axial flow condition fails at the axis point of the first characteristic (C84_first_axis_refuted): its direction is the initial turning angle. All the rest is proved for every returning run; that the construction returns is proved for design Mach numbers up to 2 (C84_returns) and the inversion for every reachable angle (C84_inverse)."
  },
  {
   "property": "C85",
   "status": "proved",
   "theorems": [
    "C85_rayleigh",
    "C85_fanno",
    "C85_total_pressure"
   ],
   "note": ""
  },
  {
   "property": "C86",
   "status": "proved",
   "theorems": [
    "C86_supersonic",
    "C86_working",
    "C86_unstarted",
    "C86_choked"
   ],
   "note": "The solver is a parameter with the hypothesis inverts_sigma (root on the side of the start); for which starts the secant iteration itself meets it is the subject of C08."
  },
  {
   "property": "C87",
   "status": "partial",
   "theorems": [
    "C87_nan_refuted",
    "C87_subsonic_partial",
    "C87_supersonic_partial"
   ],
   "note": "Proved for Mach numbers farther than 2^-20 from 1; false next to the sonic state, where Ti_Ticri can exceed 1 and the inverses are nan (C87_nan_refuted), for gamma = 1.298 at M = 1 itself."
  },
  {
   "property": "C88",
   "status": "partial",
   "theorems": [
    "C88_defined_partial",
    "C88_nan_refuted"
   ],
   "note": "Proved for pressure ratios up to that of a normal Mach number 2^-49 M below M; false for the normal shock itself, e.g. M = 3 with gamma = 1.4 gives nan (C88_nan_refuted). The arc sine itself is not a correctly rounded operation and is not modelled beyond its domain."
  },
  {
   "property": "C89",
   "status": "partial",
   "theorems": [
    "C89_fan",
    "C89_euler",
    "C89_pressure_refuted",
    "C89_trajectory",
    "C89_rays",
    "C89_forward_refuted"
   ],
   "note": "Proved: C89_fan (continuity, invariants, regions), C89_euler (the steady Euler equations hold off the two limiting Mach lines), C89_trajectory and C89_rays (the drawn lines). Refuted by the code: C89_pressure_refuted (p1p0 is computed from the wrong Mach number) and C89_forward_refuted (the forward part of a line can be dropped). The root finder of Mach_PrandtlMeyer is an exact oracle; a line with 0 < smin or smax < 0 (negative indices) is not modelled."
  },
  {
   "property": "C90",
   "status": "partial",
   "theorems": [
    "C90_wall_angle",
    "C90_walls",
    "C90_ramp_angle",
    "C90_slip",
    "C90_residual",
    "C90_uniform",
    "C90_euler",
    "C90_one_foot",
    "C90_ramp_wave",
    "C90_focus",
    "C90_intersect",
    "C90_focus_slope",
    "C90_compression_refuted"
   ],
   "note": "Every part is proved; the uniqueness part is false over a compressing wall (C90_compression_refuted: two states at one point, mach returns the undisturbed one). Convergence of the loop of mach is not proved: C90_residual says what its answer is when it ends."
  },
  {
   "property": "C91",
   "status": "partial",
   "theorems": [
    "C91_shock",
    "C91_reflexion",
    "C91_no_reflexion",
    "C91_lines",
    "C91_zero_refuted",
    "C91_mach_reflexion"
   ],
   "note": "C91_shock, C91_reflexion, C91_lines: the two shocks, pressures, directions and lines. C91_no_reflexion and C91_mach_reflexion: subsonic flow behind the first shock leaves every later result undefined, and close to the sonic deflection there never is a regular reflexion. Refuted at the left end of the widget's slider: for zero deflection the pressure is negative or undefined and no Mach number is computed (C91_zero_refuted), because sigma_Mach_deflection returns 0 there (C28_zero_refuted). Solver residuals are explicit; the miss of the Mach number behind caused by them is stated exactly (M1 sin(z-d) = m sin(z-th))."
  },
  {
   "property": "C92",
   "status": "proved",
   "theorems": [
    "C92_fan",
    "C92_vacuum",
    "C92_tail",
    "C92_loss",
    "C92_walls"
   ],
   "note": "C92_fan, C92_tail, C92_loss, C92_walls; C92_vacuum says what happens beyond the largest expansion. The Newton solver is an explicit parameter with an explicit residual."
  },
  {
   "property": "C93",
   "status": "partial",
   "theorems": [
    "C93_checks",
    "C93_base",
    "C93_shock",
    "C93_operators",
    "C93_arguments",
    "C93_default_gradient_refuted",
    "C93_not_steady_refuted"
   ],
   "note": "proved for all parameters when dM0dx is given; refuted: the default dM0dx=None can never be solved and leaves singular cached matrices (C93_default_gradient_refuted); the base flow is not a steady solution (C93_not_steady_refuted); upstream gradients are those of the code (see C50)"
  },
  {
   "property": "C94",
   "status": "partial",
   "theorems": [
    "C94_low",
    "C94_high",
    "C94_throat",
    "C94_throat_refuted",
    "C94_guess_refuted"
   ],
   "note": "small and large Mach equivalents proved with bounds for every gas; the throat expansion is false (C94_throat_refuted: the true coefficient is 2/(g+1), C94_throat) and so are the starting points (C94_guess_refuted)"
  },
  {
   "property": "C95",
   "status": "partial",
   "theorems": [
    "C95_profile",
    "C95_residual",
    "C95_trivial_refuted",
    "C95_roots"
   ],
   "note": "False as stated because 0 is always a root as well (C95_trivial_refuted) and so is one negative angle (C95_roots lists all roots); residual bound proved for every solver."
  },
  {
   "property": "C96",
   "status": "proved",
   "theorems": [
    "C96_upstream",
    "C96_subsonic",
    "C96_same_mach",
    "C96_same_pressure",
    "C96_first_problem",
    "C96_second_problem"
   ],
   "note": "Exact root finders (convergence is not claimed); C96_first_problem also shows that the first hypothesis of the script is not met by the state actually reached."
  },
  {
   "property": "C97",
   "status": "proved",
   "theorems": [
    "C97_three_advections",
    "C97_families",
    "C97_tube",
    "C97_theory"
   ],
   "note": "the spectrum is that of the matrices passed to scipy.linalg.eig (exact reals); convergence of the collocated eigenvalues to the continuous ones as n grows is not claimed by the code and not proved"
  },
  {
   "property": "C98",
   "status": "partial",
   "theorems": [
    "C98_states",
    "C98_intersect",
    "C98_diagram",
    "C98_expansion",
    "C98_incident_mach_partial",
    "C98_reflected_mach_refuted",
    "C98_runs"
   ],
   "note": "everything is proved except the label of the last printed number: the value printed as Mach number of the reflected shock is negative for all data (C98_reflected_mach_refuted), the shock speed not being taken relative to the gas"
  },
  {
   "property": "C99",
   "status": "proved",
   "theorems": [
    "C99_quantities",
    "C99_functions",
    "C99_same_star",
    "C99_start",
    "C99_report",
    "C99_search",
    "C99_regime",
    "C99_prints_nothing"
   ],
   "note": "The right-shock branch and the report branch of the script are unreachable with the values it holds. fsolve is an oracle; the notebook was never saved with output, so nothing in the repository contradicts it."
  },
  {
   "property": "C100",
   "status": "partial",
   "theorems": [
    "C100_lockstep",
    "C100_core_jet_refuted"
   ],
   "note": "The lockstep is proved for every history on all attributes except those depending on the core jet; there the code contradicts the property: the notebook passes r as gamma to Velocity_MachTi, and C100_core_jet_refuted gives the exact error, its sign and its effect on the thrust."
  },
  {
   "property": "C101",
   "status": "partial",
   "theorems": [
    "C101_section",
    "C101_inlet_refuted",
    "C101_supersonic",
    "C101_exit_shock",
    "C101_subsonic",
    "C101_shocked",
    "C101_library",
    "C101_grid_refuted",
    "C101_widget"
   ],
   "note": "Everything is proved for the section law and the four regimes as drawn. Two parts are false of the code and refuted: for large targets the wanted inlet Mach number, hence the inlet section, is negative (C101_inlet_refuted); and on grids that miss x = 1 (the notebook's own 200 and 400 points) the smallest section is above 1, so the library's nozzle chokes at another throat and has other limits (C101_grid_refuted); with a station at x = 1 they agree (C101_library)."
  },
  {
   "property": "C102",
   "status": "partial",
   "theorems": [
    "C102_rows",
    "C102_start_refuted",
    "C102_heated",
    "C102_reversed_refuted"
   ],
   "note": "Proved for every row of ratio above 1 without reversed inflow; 2f below 1 is proved while the final state is not supersonic. Two parts are false of the code and refuted: at ratio 1, the first of the notebook's range, the four normalised curves are 0/0 (C102_start_refuted); below Mach 2 the equation has a second, reversed-flow root that an exact root finder may return (C102_reversed_refuted)."
  },
  {
   "property": "C103",
   "status": "partial",
   "theorems": [
    "C103_curve",
    "C103_monotone",
    "C103_stages",
    "C103_figure",
    "C103_gamma_refuted"
   ],
   "note": "All parts are proved for the script's gamma = 1.4; for any other gamma the curve does not start at M0 (C103_gamma_refuted)."
  },
  {
   "property": "C104",
   "status": "partial",
   "theorems": [
    "C104_rayleigh",
    "C104_rayleigh_TS",
    "C104_fanno",
    "C104_fanno_TS",
    "C104_massflow",
    "C104_gamma_refuted",
    "C104_sonic_missed"
   ],
   "note": "Rayleigh and Fanno parts hold for every gamma > 1; massflow-diag.py only for gamma = 1.4 (C104_gamma_refuted); no plotted point is at Mach 1 (C104_sonic_missed)."
  },
  {
   "property": "C105",
   "status": "partial",
   "theorems": [
    "C105_stagnation",
    "C105_exit_Mach_refuted",
    "C105_pipe_refuted",
    "C105_adapted",
    "C105_mass_flow",
    "C105_subsonic"
   ],
   "note": "The stagnation, adapted nozzle, mass flow and subsonic recipes are proved; the pressure and temperature recipes are refuted as written (C105_exit_Mach_refuted, C105_pipe_refuted, which also prove that the exchanged quotient gives the one right answer). Root finder: a parameter with the branch_solver contract."
  },
  {
   "property": "C106",
   "status": "partial",
   "theorems": [
    "C106_regular",
    "C106_subsonic",
    "C106_irregular_refuted"
   ],
   "note": "C106_regular and C106_subsonic are proved; the Mach number of the irregular branch is refuted for every flow that takes it (C106_irregular_refuted)."
  },
  {
   "property": "C107",
   "status": "partial",
   "theorems": [
    "C107_turbofan",
    "C107_turbojet",
    "C107_optimum",
    "C107_optimal_fan",
    "C107_script",
    "C107_grid",
    "C107_target_refuted"
   ],
   "note": "All clauses are proved except the last one, which is false: the engines of the example have a lower compressor exit temperature than the one the script chose at each point of its grid (power 3.2 against 3.5), C107_target_refuted."
  },
  {
   "property": "C108",
   "status": "proved",
   "theorems": [
    "C108_turbojet",
    "C108_turbofan",
    "C108_overall"
   ],
   "note": "The turbofan theorem speaks, as C60_turbofan, of engines whose two nozzles discharge above ambient pressure (elsewhere M9 or M19 is undefined); the turbojet theorem has no such condition."
  },
  {
   "property": "C109",
   "status": "proved",
   "theorems": [
    "C109_grid",
    "C109_lines",
    "C109_library",
    "C109_window",
    "C109_dot",
    "C109_check"
   ],
   "note": "Cell 3 (root finder for the shock angle) has the source modelled in M_Coflow.v and is covered by C95. The label 'M=1' is only approximately right: the state drawn has one hundredth of the initial Prandtl-Meyer angle left."
  },
  {
   "property": "C110",
   "status": "proved",
   "theorems": [
    "C110_derivative",
    "C110_interpolation",
    "C110_attained",
    "C110_geometric",
    "C110_notebook",
    "C110_convergence"
   ],
   "note": "exact reals: rounding errors, which dominate for large npts, are not part of the bound"
  },
  {
   "property": "C111",
   "status": "proved",
   "theorems": [
    "C111_mu",
    "C111_steady",
    "C111_unsteady",
    "C111_exists",
    "C111_lambda",
    "C111_curves"
   ],
   "note": "the theorems also show that the two curves of the notebook are not the same quantity: one is per d ln M, the other per M dM"
  },
  {
   "property": "C112",
   "status": "proved",
   "theorems": [
    "C112_density",
    "C112_temperature",
    "C112_downstream",
    "C112_subsonic",
    "C112_sonic"
   ],
   "note": "binary64 round-to-nearest model (Flocq) of the operations in the order of the source; x**2 and np.square(x) modelled as the correctly rounded product x*x"
  },
  {
   "property": "C113",
   "status": "proved",
   "theorems": [
    "C113_fanno",
    "C113_rayleigh",
    "C113_velocity"
   ],
   "note": "binary64 round-to-nearest model (Flocq); x**2 is the correctly rounded product x*x; the columns that use non-integer powers or logarithms are not covered"
  },
  {
   "property": "C114",
   "status": "proved",
   "theorems": [
    "C114_pressure",
    "C114_area",
    "C114_flow",
    "C114_fanno",
    "C114_rayleigh"
   ],
   "note": "binary64 round-to-nearest model (Flocq); the power of the C library is a parameter with a stated accuracy, satisfied for instance by the correctly rounded power"
  },
  {
   "property": "C115",
   "status": "partial",
   "theorems": [
    "C115_defined_partial",
    "C115_throat_refuted"
   ],
   "note": "true at a distance of at least 2^-20 from Mach 1; false at the throat: for gamma = 97/64 and Mach 1 the computed ratio is below 1 and both starting points are nan, with every accurate C library (C115_throat_refuted)"
  },
  {
   "property": "C116",
   "status": "proved",
   "theorems": [
    "C116_accuracy",
    "C116_small_Mach"
   ],
   "note": "binary64 round-to-nearest model (Flocq) with the power of the C library as a parameter; Mach numbers between 2^-30 and 2^-10 are not covered by either part"
  },
  {
   "property": "C117",
   "status": "proved",
   "theorems": [
    "C117_units",
    "C117_classes",
    "C117_arguments",
    "C117_altitude",
    "C117_size"
   ],
   "note": "real-number model; conversion from the arguments on (C117_arguments) is for the three engine classes, for the two-flow classes and scripts it is from any object (their pressure, temperature and gas are class attributes) and from the mass flow argument on (C117_size)"
  },
  {
   "property": "C118",
   "status": "partial",
   "theorems": [
    "C118_states",
    "C118_isentropic_refuted",
    "C118_riemann",
    "C118_inflow"
   ],
   "note": "partial because the code is false for one method: state_isentropic_Mach is refuted (C118_isentropic_refuted); scipy's newton and fsolve have absolute tolerances and steps, so they only approximately satisfy the hypothesis on the root finder"
  },
  {
   "property": "C119",
   "status": "proved",
   "theorems": [
    "C119_turbojet",
    "C119_turbofan"
   ],
   "note": "real-number model; the core thrust of the turbofan need not be monotone in the core efficiencies when the low pressure turbine has losses, so thrust is compared for the fan efficiency only; the combustor parameter xi_cc acts both as pressure loss and efficiency and is kept"
  },
  {
   "property": "C120",
   "status": "proved",
   "theorems": [
    "C120_rk4",
    "C120_rkf45",
    "C120_superposition",
    "C120_matder",
    "C120_nodes",
    "C120_interpolation"
   ],
   "note": "real-number model; different units for different components change the root mean square error of RKF45, hence its steps; a reversed abscissa is not covered for the integrators (RK4 only goes forward)"
  }
 ]
}