# What Print Assumptions lists for each property theorem

Generated by tools/assumptions.py. 518 theorems.

## Closed under the global context (no axioms)

C30_setters_local, C48_computed_at_most_once, C48_exception_not_cached, C48_objects_are_independent, C48_same_value_ever_after, C54_unknown_rejected, C59_constructor, C64_behaves_like_a_map, C64_reset, C65_case_partial, C65_case_refuted, C66_refused_partial, C66_refused_refuted, C78_imports_partial, C78_imports_refuted, C78_scripts_partial

## `ClassicalDedekindReals.sig_forall_dec`

C52_missing_keys, C60_constructor, C60_nozzle_loss_refuted, C61_printing

## `ClassicalDedekindReals.sig_forall_dec`, `FunctionalExtensionality.functional_extensionality_dep`

C01_TtTs_increasing, C01_TtTs_range, C09_perfect_gas, C108_overall, C109_check, C109_grid, C120_rk4, C120_superposition, C13_density_limit, C13_monotone, C13_unit, C26_maxTiratio_partial, C26_maxTiratio_refuted, C26_maximum, C27_affine, C27_evaluations, C27_one_sided, C27_residual, C27_root_fixed, C27_small_start_refuted, C27_start, C30_latest_save_wins, C30_restore_needs_save, C30_save_restore, C31_gamma_getter_partial, C31_refuted, C31_refuted_instance, C32_getitem_values_partial, C45_maps_inverse, C50_per, C50_sym, C50_wall, C52_operator, C53_selection, C53_unknown_key, C55_cubic, C55_empty, C55_grid, C55_linear, C55_nonterminating, C55_order, C56_linear, C56_order, C60_efficiencies, C60_propulsive, C60_sfc, C90_intersect, C97_families, C98_intersect

## `ClassicalDedekindReals.sig_forall_dec`, `ClassicalDedekindReals.sig_not_dec`, `FunctionalExtensionality.functional_extensionality_dep`

C01_TtTs_energy, C02_Mach_of_TtTs, C02_TtTs_of_Mach, C02_domain, C04_velocity_energy, C04_velocity_increasing, C04_velocity_limit, C08_start_subsonic_refuted, C09_rankine_hugoniot, C105_pipe_refuted, C10_domain, C10_downstream_is_velocity_ratio, C10_exchanges, C10_involution, C111_curves, C111_exists, C111_mu, C11_Mn_of_Ps, C11_Ps_of_Mn, C120_interpolation, C120_matder, C120_nodes, C12_total_temperature, C26_sub_inverse, C26_sup_inverse, C29_complement, C29_periodic, C29_pythagoras, C29_tan, C32_kept_partial, C34_conserves, C34_domain, C34_involution, C35_galilean, C35_moving_shock, C35_shock_functions, C35_standing_front_none, C45_default_interval, C45_single_point, C45_x_nodes, C45_xi_nodes, C46_computed_once, C46_history_independent, C51_os_before_request, C51_os_stale_refuted, C56_polynomial, C56_step, C58_same_rule, C70_exact_pair, C70_exact_vector, C70_finite, C70_other_error, C70_unit_rayleigh, C71_extrapol_exact, C71_extrapol_interpolates, C72_fit_exact, C85_fanno, C85_rayleigh, C89_forward_refuted, C89_trajectory

## `ClassicalDedekindReals.sig_forall_dec`, `ClassicalDedekindReals.sig_not_dec`, `Classical_Prop.classic`, `FunctionalExtensionality.functional_extensionality_dep`

C03_Mach_of_PtPs, C03_PtPs_increasing, C03_PtPs_of_Mach, C03_domain, C03_isentropic, C05_aliases, C05_defaults, C05_given, C05_legacy_wrappers, C06_minimum, C06_subsonic_decreasing, C06_supersonic_increasing, C07_Sigma_is_ratio, C07_mass_flow, C07_mass_flow_maximal, C08_exact_root, C08_residual, C08_start_subsonic, C08_start_supersonic, C08_unique_subsonic, C08_unique_supersonic, C100_core_jet_refuted, C100_lockstep, C101_exit_shock, C101_grid_refuted, C101_inlet_refuted, C101_library, C101_section, C101_shocked, C101_subsonic, C101_supersonic, C101_widget, C102_heated, C102_reversed_refuted, C102_rows, C102_start_refuted, C103_curve, C103_figure, C103_gamma_refuted, C103_monotone, C103_stages, C104_fanno, C104_fanno_TS, C104_gamma_refuted, C104_massflow, C104_rayleigh, C104_rayleigh_TS, C104_sonic_missed, C105_adapted, C105_exit_Mach_refuted, C105_mass_flow, C105_stagnation, C105_subsonic, C106_irregular_refuted, C106_regular, C106_subsonic, C107_grid, C107_optimal_fan, C107_optimum, C107_script, C107_target_refuted, C107_turbofan, C107_turbojet, C108_turbofan, C108_turbojet, C109_dot, C109_library, C109_lines, C109_window, C110_attained, C110_convergence, C110_derivative, C110_geometric, C110_interpolation, C110_notebook, C111_lambda, C111_steady, C111_unsteady, C112_density, C112_downstream, C112_sonic, C112_subsonic, C112_temperature, C113_fanno, C113_rayleigh, C113_velocity, C114_area, C114_fanno, C114_flow, C114_pressure, C114_rayleigh, C115_defined_partial, C115_throat_refuted, C116_accuracy, C116_small_Mach, C117_altitude, C117_arguments, C117_classes, C117_size, C117_units, C118_inflow, C118_isentropic_refuted, C118_riemann, C118_states, C119_turbofan, C119_turbojet, C120_rkf45, C13_entropy, C14_Mn_Pt_ratio, C14_air_monotone_partial, C14_air_partial, C14_formula_any_gamma, C14_other_gamma_refuted, C15_limit_90, C15_sign, C15_theta_beta_M, C15_turning, C16_shock_of_pressure_ratio, C17_branches, C17_discriminant, C17_weak_strong, C18_limit, C18_sonic, C19_concave, C19_increasing, C19_limit, C19_maximum, C20_domain, C20_increasing, C20_range, C20_slope, C21_PMFmmu, C22_inverse, C22_residual, C22_secant_inverse, C22_sign_refuted, C22_turning_pressure_partial, C23_fanno, C23_sonic, C24_decreasing, C24_increasing, C24_minimum, C24_slope, C25_rayleigh, C25_sonic, C27_concave, C27_convex, C27_trapped, C28_between_refuted, C28_default, C28_default_start, C28_deflection_partial, C28_negative_refuted, C28_sign, C28_strong, C28_weak, C28_zero_refuted, C29_acos, C29_asin, C29_atan, C29_atan2, C32_lost_refuted, C33_consistency, C33_from_Mach_air, C33_from_Mach_partial, C33_from_pressure_partial, C33_from_velocity_partial, C33_from_velocity_pressure_air, C33_isentropic_Mach_partial, C33_isentropic_Mach_refuted, C33_other_gas_refuted, C35_simple_wave, C36_identical, C36_mismatch_increasing, C36_star_pressure, C36_two_expansions, C37_residual, C37_star_states, C38_lax, C38_ordering, C39_galilean, C39_mirror, C40_fans_solve_euler, C40_gas_refuted, C40_regions_partial, C40_right_fan_edge_refuted, C41_list_agrees, C41_meaning, C41_order, C42_adapted_jet, C42_default_gas_refuted, C42_limits, C42_shocked, C42_shocked_monotone, C42_supersonic, C42_unchoked, C43_coarse_grid_refuted, C43_shape, C43_shocked, C43_supersonic, C43_unchoked, C44_default_unchanged, C44_gamma_ignored_limits_refuted, C44_gamma_ignored_throat_refuted, C44_saved_pair_refuted, C47_constants, C47_exact_on_polynomials, C47_too_few_points, C49_assembled_per, C49_assembled_sym, C49_linearisation, C50_RH_gas_refuted, C50_RH_partial, C50_RH_right_refuted, C50_RH_twice_refuted, C50_RH_uniform_refuted, C50_RH_without_gradient_refuted, C51_failed_request_refuted, C51_first_request_partial, C51_os_failed_request_refuted, C51_stale_refuted, C52_exact, C52_poiseuille, C54_consumed_refuted, C54_extra_entry, C54_one_sided_periodic_refuted, C54_shared_dictionary_refuted, C54_strings_ok, C57_accepted, C57_cap_refuted, C57_default_refuted, C57_monotone, C57_overshoot_refuted, C57_reaches_partial, C57_refuted, C58_shock_angle, C58_taylor_maccoll, C58_wall, C59_cycle_partial, C59_defaults, C59_eta_cc_refuted, C59_no_history, C60_fan_extremes, C60_ideal_power_refuted, C60_turbofan, C60_turbojet, C61_completion_partial, C61_computed_fan, C61_fixed_fan, C61_reset_refuted, C62_double_corps, C62_propu_be_partial, C62_propu_be_refuted, C63_kerosen_cp_partial, C63_kerosen_cp_refuted, C63_kerosen_gibbs, C63_realgas, C63_realgas_enthalpy_partial, C63_realgas_enthalpy_refuted, C67_expressions_partial, C67_expressions_refuted, C68_fastest_refuted, C68_history, C68_inflow_air, C68_inflow_partial, C68_one_solution, C68_other_gas_refuted, C68_residual, C69_branches, C69_inverse, C69_inverse_partial, C69_inverse_subsonic, C69_minimum, C69_momentum, C71_system_is_regular, C73_computed_fan, C73_fixed_fan_partial, C73_fixed_fan_refuted, C73_no_reset, C74_computed_fan, C74_fixed_fan_partial, C75_consumption_refuted, C75_thrust_refuted, C76_tau_optimum_partial, C76_tau_optimum_refuted, C77_kerosen_monotone, C77_realgas_monotone, C79_markers, C79_pressure_polar, C79_sides, C79_sigma_polar, C80_characteristic, C80_curves, C80_monotone, C80_points, C81_end, C81_overshoot_refuted, C81_reaches_partial, C81_stall_refuted, C82_accuracy, C82_close, C82_defined, C82_small_Mach, C83_accuracy, C83_close, C83_defined, C84_area, C84_exit, C84_first_axis_refuted, C84_inverse, C84_net_partial, C84_no_inverse, C84_returns, C85_total_pressure, C87_nan_refuted, C87_subsonic_partial, C87_supersonic_partial, C88_defined_partial, C88_nan_refuted, C89_euler, C89_fan, C89_pressure_refuted, C89_rays, C90_compression_refuted, C90_euler, C90_focus, C90_focus_slope, C90_one_foot, C90_ramp_angle, C90_ramp_wave, C90_residual, C90_slip, C90_uniform, C90_wall_angle, C90_walls, C91_lines, C91_mach_reflexion, C91_no_reflexion, C91_reflexion, C91_shock, C91_zero_refuted, C92_fan, C92_loss, C92_tail, C92_vacuum, C92_walls, C93_arguments, C93_base, C93_checks, C93_default_gradient_refuted, C93_not_steady_refuted, C93_operators, C93_shock, C94_guess_refuted, C94_high, C94_low, C94_throat, C94_throat_refuted, C95_profile, C95_residual, C95_roots, C95_trivial_refuted, C96_first_problem, C96_same_mach, C96_same_pressure, C96_second_problem, C96_subsonic, C96_upstream, C97_theory, C97_three_advections, C97_tube, C98_diagram, C98_expansion, C98_incident_mach_partial, C98_reflected_mach_refuted, C98_runs, C98_states, C99_functions, C99_prints_nothing, C99_quantities, C99_regime, C99_report, C99_same_star, C99_search, C99_start

## `ClassicalDedekindReals.sig_forall_dec`, `ClassicalDedekindReals.sig_not_dec`, `FunctionalExtensionality.functional_extensionality_dep`, `classic`

C86_choked, C86_supersonic, C86_unstarted, C86_working
