{
 "C01": {
  "note": "",
  "status": "proved"
 },
 "C02": {
  "note": "",
  "status": "proved"
 },
 "C03": {
  "note": "",
  "status": "proved"
 },
 "C04": {
  "note": "",
  "status": "proved"
 },
 "C05": {
  "note": "",
  "status": "proved"
 },
 "C06": {
  "note": "",
  "status": "proved"
 },
 "C07": {
  "note": "",
  "status": "proved"
 },
 "C08": {
  "note": "Existence, uniqueness, residual, starts: proved. False part: MachSub_Sigma leaves the branch (0,1] for gamma > 1.4 (C08_start_subsonic_refuted).",
  "status": "partial"
 },
 "C09": {
  "note": "",
  "status": "proved"
 },
 "C10": {
  "note": "",
  "status": "proved"
 },
 "C100": {
  "note": "The lockstep is proved for every history on all attributes except those depending on the core jet; there the code contradicts the property: the notebook passes r as gamma to Velocity_MachTi, and C100_core_jet_refuted gives the exact error, its sign and its effect on the thrust.",
  "status": "partial"
 },
 "C101": {
  "note": "Everything is proved for the section law and the four regimes as drawn. Two parts are false of the code and refuted: for large targets the wanted inlet Mach number, hence the inlet section, is negative (C101_inlet_refuted); and on grids that miss x = 1 (the notebook's own 200 and 400 points) the smallest section is above 1, so the library's nozzle chokes at another throat and has other limits (C101_grid_refuted); with a station at x = 1 they agree (C101_library).",
  "status": "partial"
 },
 "C102": {
  "note": "Proved for every row of ratio above 1 without reversed inflow; 2f below 1 is proved while the final state is not supersonic. Two parts are false of the code and refuted: at ratio 1, the first of the notebook's range, the four normalised curves are 0/0 (C102_start_refuted); below Mach 2 the equation has a second, reversed-flow root that an exact root finder may return (C102_reversed_refuted).",
  "status": "partial"
 },
 "C103": {
  "note": "All parts are proved for the script's gamma = 1.4; for any other gamma the curve does not start at M0 (C103_gamma_refuted).",
  "status": "partial"
 },
 "C104": {
  "note": "Rayleigh and Fanno parts hold for every gamma > 1; massflow-diag.py only for gamma = 1.4 (C104_gamma_refuted); no plotted point is at Mach 1 (C104_sonic_missed).",
  "status": "partial"
 },
 "C105": {
  "note": "The stagnation, adapted nozzle, mass flow and subsonic recipes are proved; the pressure and temperature recipes are refuted as written (C105_exit_Mach_refuted, C105_pipe_refuted, which also prove that the exchanged quotient gives the one right answer). Root finder: a parameter with the branch_solver contract.",
  "status": "partial"
 },
 "C106": {
  "note": "C106_regular and C106_subsonic are proved; the Mach number of the irregular branch is refuted for every flow that takes it (C106_irregular_refuted).",
  "status": "partial"
 },
 "C107": {
  "note": "All clauses are proved except the last one, which is false: the engines of the example have a lower compressor exit temperature than the one the script chose at each point of its grid (power 3.2 against 3.5), C107_target_refuted.",
  "status": "partial"
 },
 "C108": {
  "note": "The turbofan theorem speaks, as C60_turbofan, of engines whose two nozzles discharge above ambient pressure (elsewhere M9 or M19 is undefined); the turbojet theorem has no such condition.",
  "status": "proved"
 },
 "C109": {
  "note": "Cell 3 (root finder for the shock angle) has the source modelled in M_Coflow.v and is covered by C95. The label 'M=1' is only approximately right: the state drawn has one hundredth of the initial Prandtl-Meyer angle left.",
  "status": "proved"
 },
 "C11": {
  "note": "",
  "status": "proved"
 },
 "C110": {
  "note": "exact reals: rounding errors, which dominate for large npts, are not part of the bound",
  "status": "proved"
 },
 "C111": {
  "note": "the theorems also show that the two curves of the notebook are not the same quantity: one is per d ln M, the other per M dM",
  "status": "proved"
 },
 "C112": {
  "note": "binary64 round-to-nearest model (Flocq) of the operations in the order of the source; x**2 and np.square(x) modelled as the correctly rounded product x*x",
  "status": "proved"
 },
 "C113": {
  "note": "binary64 round-to-nearest model (Flocq); x**2 is the correctly rounded product x*x; the columns that use non-integer powers or logarithms are not covered",
  "status": "proved"
 },
 "C114": {
  "note": "binary64 round-to-nearest model (Flocq); the power of the C library is a parameter with a stated accuracy, satisfied for instance by the correctly rounded power",
  "status": "proved"
 },
 "C115": {
  "note": "true at a distance of at least 2^-20 from Mach 1; false at the throat: for gamma = 97/64 and Mach 1 the computed ratio is below 1 and both starting points are nan, with every accurate C library (C115_throat_refuted)",
  "status": "partial"
 },
 "C116": {
  "note": "binary64 round-to-nearest model (Flocq) with the power of the C library as a parameter; Mach numbers between 2^-30 and 2^-10 are not covered by either part",
  "status": "proved"
 },
 "C117": {
  "note": "real-number model; conversion from the arguments on (C117_arguments) is for the three engine classes, for the two-flow classes and scripts it is from any object (their pressure, temperature and gas are class attributes) and from the mass flow argument on (C117_size)",
  "status": "proved"
 },
 "C118": {
  "note": "partial because the code is false for one method: state_isentropic_Mach is refuted (C118_isentropic_refuted); scipy's newton and fsolve have absolute tolerances and steps, so they only approximately satisfy the hypothesis on the root finder",
  "status": "partial"
 },
 "C119": {
  "note": "real-number model; the core thrust of the turbofan need not be monotone in the core efficiencies when the low pressure turbine has losses, so thrust is compared for the fan efficiency only; the combustor parameter xi_cc acts both as pressure loss and efficiency and is kept",
  "status": "proved"
 },
 "C12": {
  "note": "",
  "status": "proved"
 },
 "C120": {
  "note": "real-number model; different units for different components change the root mean square error of RKF45, hence its steps; a reversed abscissa is not covered for the integrators (RK4 only goes forward)",
  "status": "proved"
 },
 "C13": {
  "note": "",
  "status": "proved"
 },
 "C14": {
  "note": "Proved for gamma = 1.4. False of the code for every other gamma: Pt_ratio drops gamma (C14_other_gamma_refuted).",
  "status": "partial"
 },
 "C15": {
  "note": "",
  "status": "proved"
 },
 "C16": {
  "note": "",
  "status": "proved"
 },
 "C17": {
  "note": "",
  "status": "proved"
 },
 "C18": {
  "note": "",
  "status": "proved"
 },
 "C19": {
  "note": "",
  "status": "proved"
 },
 "C20": {
  "note": "Below |M|=1 no finite value; the function is even in M, so the domain is |M| >= 1.",
  "status": "proved"
 },
 "C21": {
  "note": "",
  "status": "proved"
 },
 "C22": {
  "note": "Inversion of Prandtl-Meyer proved, also with the library's own secant iteration (C22_secant_inverse). False part: the two simple-wave functions use opposite sign conventions (C22_sign_refuted).",
  "status": "partial"
 },
 "C23": {
  "note": "",
  "status": "proved"
 },
 "C24": {
  "note": "",
  "status": "proved"
 },
 "C25": {
  "note": "",
  "status": "proved"
 },
 "C26": {
  "note": "Everything but maxTiratio_Mach proved; that function ignores gamma (C26_maxTiratio_refuted).",
  "status": "partial"
 },
 "C27": {
  "note": "Everything proved except the last clause, which is false for starts of at most 0.01 (C27_small_start_refuted). Convergence proved for one-sided convex or concave functions (C27_one_sided, C27_concave), and confinement to an interval for concave functions started on either side of the root (C27_trapped).",
  "status": "partial"
 },
 "C28": {
  "note": "For every gamma > 1, M > 1 and every attached positive deflection the default start gives the weak branch (C28_default); from a given start, the weak branch from below the weak angle (C28_weak) and the strong branch from above the strong angle (C28_strong); residual and sign for any run that stays in (0,90) and ends normally. Negative deflections: weak branch while mu + d > 0.01 (C28_weak with C28_default_start), false beyond the Mach angle (C28_negative_refuted). The zero-deflection clause is false (C28_zero_refuted). Explicit starts between the branches: false, C28_between_refuted gives a start there without a finite result.",
  "status": "partial"
 },
 "C29": {
  "note": "",
  "status": "proved"
 },
 "C30": {
  "note": "",
  "status": "proved"
 },
 "C31": {
  "note": "False of the code for every gamma other than 1.4 (C31_refuted); what remains true is C31_gamma_getter_partial.",
  "status": "partial"
 },
 "C32": {
  "note": "False of the code for indexing, re-initialisation and isentropic states (C32_lost_refuted); the other operations keep the gas (C32_kept_partial).",
  "status": "partial"
 },
 "C33": {
  "note": "Proved for gamma = 1.4, and for every gamma on the stored density, velocity and pressure; false for the reported values of other gases (C33_other_gas_refuted) and for state_isentropic_Mach (C33_isentropic_Mach_refuted).",
  "status": "partial"
 },
 "C34": {
  "note": "",
  "status": "proved"
 },
 "C35": {
  "note": "",
  "status": "proved"
 },
 "C36": {
  "note": "",
  "status": "proved"
 },
 "C37": {
  "note": "For an exact root finder; C37_residual states what remains for one with residual eps.",
  "status": "proved"
 },
 "C38": {
  "note": "",
  "status": "proved"
 },
 "C39": {
  "note": "",
  "status": "proved"
 },
 "C40": {
  "note": "Proved except at the inner edge of a right fan (C40_right_fan_edge_refuted) and for the attached gas (C40_gas_refuted), where the code is wrong.",
  "status": "partial"
 },
 "C41": {
  "note": "Root finder assumed to return the root on the side of Mach 1 it was started from (branch_solver, shown satisfiable).",
  "status": "proved"
 },
 "C42": {
  "note": "Proved while the default gas is 1.4; false after set_gamma (C42_default_gas_refuted).",
  "status": "partial"
 },
 "C43": {
  "note": "Proved in all regimes; behind a shock only at stations above the sonic area; false at others on coarse grids (C43_coarse_grid_refuted).",
  "status": "partial"
 },
 "C44": {
  "note": "Default gamma and r: proved. Saved pair and gamma argument: false of the code (three refuted theorems).",
  "status": "partial"
 },
 "C45": {
  "note": "",
  "status": "proved"
 },
 "C46": {
  "note": "",
  "status": "proved"
 },
 "C47": {
  "note": "",
  "status": "proved"
 },
 "C48": {
  "note": "",
  "status": "proved"
 },
 "C49": {
  "note": "",
  "status": "proved"
 },
 "C50": {
  "note": "sym, per, wall proved; RH proved at the left end in the form the code writes it, false at the right end, without gradient, twice, for other gases and for uniform flows (refuted theorems).",
  "status": "partial"
 },
 "C51": {
  "note": "False of the code once a request was made (stale and failed-request theorems); before the first request proved.",
  "status": "partial"
 },
 "C52": {
  "note": "",
  "status": "proved"
 },
 "C53": {
  "note": "argsort assumed to sort; spectrum arbitrary.",
  "status": "proved"
 },
 "C54": {
  "note": "Rejection proved; the dictionaries are consumed (C54_shared_dictionary_refuted, C54_consumed_refuted); a periodic tag on one side only is accepted (C54_one_sided_periodic_refuted).",
  "status": "partial"
 },
 "C55": {
  "note": "",
  "status": "proved"
 },
 "C56": {
  "note": "",
  "status": "proved"
 },
 "C57": {
  "note": "Proved when steps ending at xStop are accepted at once; false otherwise (C57_refuted and others).",
  "status": "partial"
 },
 "C58": {
  "note": "When the marching loop returns; termination is not claimed (fuel).",
  "status": "proved"
 },
 "C59": {
  "note": "Proved with xi_cc in place of eta_cc; the constructor ignores eta_cc (C59_eta_cc_refuted).",
  "status": "partial"
 },
 "C60": {
  "note": "Identities and balances proved; the turbofan constructor drops xi_nozzle and the ideal power is wrong (C60_nozzle_loss_refuted, C60_ideal_power_refuted).",
  "status": "partial"
 },
 "C61": {
  "note": "Order independence proved for every sequence; completion by calculs_5_to_9 alone is false after InitialValues (C61_reset_refuted).",
  "status": "partial"
 },
 "C62": {
  "note": "double_corps agreement proved; propu_be agreement false: other fan efficiency (C62_propu_be_refuted).",
  "status": "partial"
 },
 "C63": {
  "note": "Proved up to the coefficient rounding, which is bounded; exact identities are false (refuted theorems).",
  "status": "partial"
 },
 "C64": {
  "note": "",
  "status": "proved"
 },
 "C65": {
  "note": "False of the code (C65_case_refuted).",
  "status": "partial"
 },
 "C66": {
  "note": "False of the code (C66_refused_refuted).",
  "status": "partial"
 },
 "C67": {
  "note": "Proved for Vx named U_X and positive axial velocity; false otherwise (C67_expressions_refuted).",
  "status": "partial"
 },
 "C68": {
  "note": "Proved for gamma = 1.4, and for all gases except the gamma attached to the inlet state (C68_other_gas_refuted) and the fastest-wave accessors (C68_fastest_refuted).",
  "status": "partial"
 },
 "C69": {
  "note": "C69_inverse_partial goes beyond the stated property.",
  "status": "proved"
 },
 "C70": {
  "note": "",
  "status": "proved"
 },
 "C71": {
  "note": "",
  "status": "proved"
 },
 "C72": {
  "note": "",
  "status": "proved"
 },
 "C73": {
  "note": "Computed-fan class proved; fixed-fan class keeps a stale fan (C73_fixed_fan_refuted).",
  "status": "partial"
 },
 "C74": {
  "note": "Computed-fan class proved; fixed-fan class uses the compressor efficiency for its fan (C74_fixed_fan_partial, C62_propu_be_refuted).",
  "status": "partial"
 },
 "C75": {
  "note": "False of the code in both parts.",
  "status": "partial"
 },
 "C76": {
  "note": "False of the code (C76_tau_optimum_refuted); consistency proved.",
  "status": "partial"
 },
 "C77": {
  "note": "",
  "status": "proved"
 },
 "C78": {
  "note": "Proved for all modules but two, which can never be imported (C78_imports_refuted); four of the sixteen example scripts cannot be started (C78_scripts_partial).",
  "status": "partial"
 },
 "C79": {
  "note": "",
  "status": "proved"
 },
 "C80": {
  "note": "Root finder of Mach_PrandtlMeyer as an explicit hypothesis (solves 0 newton).",
  "status": "proved"
 },
 "C81": {
  "note": "Proved for 0 <= x and steps between xStop/2^52 and xStop/2; false in general: the loop never ends when the step is below the spacing of the doubles near x (C81_stall_refuted), and can end past xStop (C81_overshoot_refuted), by at most a rounding error (C81_end).",
  "status": "partial"
 },
 "C82": {
  "note": "",
  "status": "proved"
 },
 "C83": {
  "note": "",
  "status": "proved"
 },
 "C84": {
  "note": "The axial flow condition fails at the axis point of the first characteristic (C84_first_axis_refuted): its direction is the initial turning angle. All the rest is proved for every returning run; that the construction returns is proved for design Mach numbers up to 2 (C84_returns) and the inversion for every reachable angle (C84_inverse).",
  "status": "partial"
 },
 "C85": {
  "note": "",
  "status": "proved"
 },
 "C86": {
  "note": "The solver is a parameter with the hypothesis inverts_sigma (root on the side of the start); for which starts the secant iteration itself meets it is the subject of C08.",
  "status": "proved"
 },
 "C87": {
  "note": "Proved for Mach numbers farther than 2^-20 from 1; false next to the sonic state, where Ti_Ticri can exceed 1 and the inverses are nan (C87_nan_refuted), for gamma = 1.298 at M = 1 itself.",
  "status": "partial"
 },
 "C88": {
  "note": "Proved for pressure ratios up to that of a normal Mach number 2^-49 M below M; false for the normal shock itself, e.g. M = 3 with gamma = 1.4 gives nan (C88_nan_refuted). The arc sine itself is not a correctly rounded operation and is not modelled beyond its domain.",
  "status": "partial"
 },
 "C89": {
  "note": "Proved: C89_fan (continuity, invariants, regions), C89_euler (the steady Euler equations hold off the two limiting Mach lines), C89_trajectory and C89_rays (the drawn lines). Refuted by the code: C89_pressure_refuted (p1p0 is computed from the wrong Mach number) and C89_forward_refuted (the forward part of a line can be dropped). The root finder of Mach_PrandtlMeyer is an exact oracle; a line with 0 < smin or smax < 0 (negative indices) is not modelled.",
  "status": "partial"
 },
 "C90": {
  "note": "Every part is proved; the uniqueness part is false over a compressing wall (C90_compression_refuted: two states at one point, mach returns the undisturbed one). Convergence of the loop of mach is not proved: C90_residual says what its answer is when it ends.",
  "status": "partial"
 },
 "C91": {
  "note": "C91_shock, C91_reflexion, C91_lines: the two shocks, pressures, directions and lines. C91_no_reflexion and C91_mach_reflexion: subsonic flow behind the first shock leaves every later result undefined, and close to the sonic deflection there never is a regular reflexion. Refuted at the left end of the widget's slider: for zero deflection the pressure is negative or undefined and no Mach number is computed (C91_zero_refuted), because sigma_Mach_deflection returns 0 there (C28_zero_refuted). Solver residuals are explicit; the miss of the Mach number behind caused by them is stated exactly (M1 sin(z-d) = m sin(z-th)).",
  "status": "partial"
 },
 "C92": {
  "note": "C92_fan, C92_tail, C92_loss, C92_walls; C92_vacuum says what happens beyond the largest expansion. The Newton solver is an explicit parameter with an explicit residual.",
  "status": "proved"
 },
 "C93": {
  "note": "proved for all parameters when dM0dx is given; refuted: the default dM0dx=None can never be solved and leaves singular cached matrices (C93_default_gradient_refuted); the base flow is not a steady solution (C93_not_steady_refuted); upstream gradients are those of the code (see C50)",
  "status": "partial"
 },
 "C94": {
  "note": "small and large Mach equivalents proved with bounds for every gas; the throat expansion is false (C94_throat_refuted: the true coefficient is 2/(g+1), C94_throat) and so are the starting points (C94_guess_refuted)",
  "status": "partial"
 },
 "C95": {
  "note": "False as stated because 0 is always a root as well (C95_trivial_refuted) and so is one negative angle (C95_roots lists all roots); residual bound proved for every solver.",
  "status": "partial"
 },
 "C96": {
  "note": "Exact root finders (convergence is not claimed); C96_first_problem also shows that the first hypothesis of the script is not met by the state actually reached.",
  "status": "proved"
 },
 "C97": {
  "note": "the spectrum is that of the matrices passed to scipy.linalg.eig (exact reals); convergence of the collocated eigenvalues to the continuous ones as n grows is not claimed by the code and not proved",
  "status": "proved"
 },
 "C98": {
  "note": "everything is proved except the label of the last printed number: the value printed as Mach number of the reflected shock is negative for all data (C98_reflected_mach_refuted), the shock speed not being taken relative to the gas",
  "status": "partial"
 },
 "C99": {
  "note": "The right-shock branch and the report branch of the script are unreachable with the values it holds. fsolve is an oracle; the notebook was never saved with output, so nothing in the repository contradicts it.",
  "status": "proved"
 }
}