{"id": "C01", "title": "Isentropic Tt/Ts conserves energy", "statement": "Isentropic.TtTs_Mach(M,gamma) is the ratio Tt/Ts for which cp*Tt = cp*Ts + V^2/2 with V = M*sqrt(gamma*r*Ts), cp = gamma*r/(gamma-1); it is >= 1, equal to 1 only at M=0, even in M and strictly increasing for M >= 0.", "quantifier": "every real Mach number and every real gamma > 1, r > 0, Ts > 0", "why_tests_cant": "a test samples a few (Mach, gamma) pairs; the identity has to hold on the whole continuum", "anchors": ["aerokit/aero/Isentropic.py:TtTs_Mach"]}
{"id": "C02", "title": "Tt/Ts <-> Mach round trip", "statement": "Mach_TtTs(TtTs_Mach(M)) = |M| and TtTs_Mach(Mach_TtTs(t)) = t; Mach_TtTs has a finite real result exactly when the ratio is >= 1.", "quantifier": "every real Mach number and every real gamma > 1; every ratio t", "why_tests_cant": "a test samples a few (Mach, gamma) pairs; the identity has to hold on the whole continuum", "anchors": ["aerokit/aero/Isentropic.py:TtTs_Mach,Mach_TtTs"]}
{"id": "C03", "title": "Pt/Ps <-> Mach round trip and isentropic relation", "statement": "PtPs_Mach = TtTs_Mach**(gamma/(gamma-1)), i.e. p/T^(gamma/(gamma-1)) is the same for static and total conditions; Mach_PtPs(PtPs_Mach(M)) = |M|, PtPs_Mach(Mach_PtPs(q)) = q for q >= 1, Mach_PtPs has no finite real result for 0 < q < 1, PtPs_Mach is strictly increasing in M >= 0.", "quantifier": "every real Mach number and every real gamma > 1; every pressure ratio q", "why_tests_cant": "a test samples a few (Mach, gamma) pairs; the identity has to hold on the whole continuum", "anchors": ["aerokit/aero/Isentropic.py:PtPs_Mach,Mach_PtPs"]}
{"id": "C04", "title": "Velocity from Mach and total temperature", "statement": "Velocity_MachTt(M,Tt,r,gamma) is the V satisfying cp*Tt = cp*T + V^2/2 and V = M*sqrt(gamma*r*T); it increases strictly with M and never reaches sqrt(2*cp*Tt).", "quantifier": "every real Mach number and every real gamma > 1, r > 0, Tt > 0", "why_tests_cant": "a test samples a few (Mach, gamma) pairs; the identity has to hold on the whole continuum", "anchors": ["aerokit/aero/Isentropic.py:Velocity_MachTt"]}
{"id": "C05", "title": "Legacy and backward-compatible names agree", "statement": "Every function of aero.CompressibleFlow and every Ti/Pi alias returns, for all arguments, exactly what the current module's function returns, with the documented default gamma 1.4 and r 287.1.", "quantifier": "every argument tuple", "why_tests_cant": "aliases are tested at one point each", "anchors": ["aerokit/aero/CompressibleFlow.py", "aerokit/aero/Isentropic.py:TiTs_Mach", "aerokit/aero/ShockWave.py:Pi_ratio"]}
{"id": "C06", "title": "Sigma = A/A* is minimal at the throat", "statement": "Sigma_Mach(M,gamma) >= 1 for M > 0, with equality exactly at M = 1; strictly decreasing on (0,1] and strictly increasing on [1,inf).", "quantifier": "every M > 0 and gamma > 1", "why_tests_cant": "a test samples a few (Mach, gamma) pairs; the identity has to hold on the whole continuum", "anchors": ["aerokit/aero/MassFlow.py:Sigma_Mach"]}
{"id": "C07", "title": "Sigma is the mass-flow ratio", "statement": "WeightMassFlow(M) equals rho*V*sqrt(r*Tt)/Pt of the isentropic flow, is maximal exactly at M=1, and Sigma_Mach(M) = WeightMassFlow(1)/WeightMassFlow(M).", "quantifier": "every M > 0, gamma > 1", "why_tests_cant": "a test samples a few (Mach, gamma) pairs; the identity has to hold on the whole continuum", "anchors": ["aerokit/aero/MassFlow.py:WeightMassFlow,Sigma_Mach"]}
{"id": "C08", "title": "Inverting Sigma", "statement": "For every sigma > 1 there is exactly one subsonic and exactly one supersonic Mach number with that Sigma; MachSub_Sigma, MachSup_Sigma and Mach_Sigma return a Mach number whose Sigma is sigma to the root finder's residual; the root finder is started on the requested branch (0,1] or [1,inf).", "quantifier": "every sigma >= 1, 1 < gamma < 3, every root finder with the stated residual", "why_tests_cant": "the set of sigma, gamma and initial guesses is a continuum", "anchors": ["aerokit/aero/MassFlow.py:Mach_Sigma,MachSub_Sigma,MachSup_Sigma"]}
{"id": "C09", "title": "Normal shock ratios satisfy Rankine-Hugoniot", "statement": "With Rho_ratio, Ps_ratio, Ts_ratio applied to any upstream state moving at Mach Mn, mass, momentum and total enthalpy fluxes are the same on both sides, and the downstream state obeys the perfect gas law.", "quantifier": "every Mn <> 0, gamma > 1, upstream rho, p > 0", "why_tests_cant": "a test samples a few (Mach, gamma) pairs; the identity has to hold on the whole continuum", "anchors": ["aerokit/aero/ShockWave.py:Ps_ratio,Rho_ratio,Ts_ratio"]}
{"id": "C10", "title": "Downstream normal Mach number", "statement": "downstream_Mn(Mn) equals the downstream velocity over the downstream sound speed, is an involution on its domain Mn^2 > (gamma-1)/(2 gamma), fixes 1 and exchanges supersonic and subsonic.", "quantifier": "every Mn > sqrt((gamma-1)/(2 gamma)), gamma > 1", "why_tests_cant": "test_shockwave checks 30 points at gamma=1.4", "anchors": ["aerokit/aero/ShockWave.py:downstream_Mn"]}
{"id": "C11", "title": "Static pressure ratio inversion", "statement": "Mn_Ps_ratio(Ps_ratio(Mn)) = |Mn| and Ps_ratio(Mn_Ps_ratio(P)) = P on the domain where the square root exists.", "quantifier": "every Mn, gamma > 1, P", "why_tests_cant": "a test samples a few (Mach, gamma) pairs; the identity has to hold on the whole continuum", "anchors": ["aerokit/aero/ShockWave.py:Mn_Ps_ratio,Ps_ratio"]}
{"id": "C12", "title": "Total temperature is conserved through a shock", "statement": "TtTs_Mach(Mn) = Ts_ratio(Mn)*TtTs_Mach(downstream_Mn(Mn)).", "quantifier": "every Mn in the domain, gamma > 1", "why_tests_cant": "a test samples a few (Mach, gamma) pairs; the identity has to hold on the whole continuum", "anchors": ["aerokit/aero/ShockWave.py:Ts_ratio,downstream_Mn", "aerokit/aero/Isentropic.py:TtTs_Mach"]}
{"id": "C13", "title": "Second law across shocks", "statement": "Entropy p/rho^gamma increases across the jump exactly when Mn > 1 and decreases exactly when Mn < 1; Rho_ratio stays below (gamma+1)/(gamma-1); Ps_ratio, Rho_ratio and Ts_ratio increase strictly with Mn >= 1 and equal 1 at Mn = 1.", "quantifier": "every Mn in the domain, gamma > 1", "why_tests_cant": "a test samples a few (Mach, gamma) pairs; the identity has to hold on the whole continuum", "anchors": ["aerokit/aero/ShockWave.py:Ps_ratio,Rho_ratio,Ts_ratio"]}
{"id": "C14", "title": "Total pressure loss for the requested gamma", "statement": "Pt_ratio(Mn,gamma) is downstream total pressure over upstream total pressure of the gas with that gamma: 1 at Mn=1, < 1 for Mn > 1, strictly decreasing. Mn_Pt_ratio returns 1 for ratios above 1.", "quantifier": "every Mn >= 1, every gamma > 1", "why_tests_cant": "tests only use the default gamma 1.4", "anchors": ["aerokit/aero/ShockWave.py:Pt_ratio,Mn_Pt_ratio"]}
{"id": "C15", "title": "Oblique shock deflection", "statement": "deflection_Mach_sigma(M,sigma) is the angle by which the velocity turns when its normal component is divided by Rho_ratio(M sin sigma) and its tangential component is kept; it is zero at the Mach angle, positive between the Mach angle and 90 degrees, tends to 0 at 90 degrees, and satisfies the theta-beta-M relation.", "quantifier": "every M > 1, sigma between the Mach angle and 90 degrees, gamma > 1", "why_tests_cant": "a test samples a few (Mach, gamma) pairs; the identity has to hold on the whole continuum", "anchors": ["aerokit/aero/ShockWave.py:deflection_Mach_sigma"]}
{"id": "C16", "title": "Oblique shock from pressure ratio", "statement": "deflection_Mach_ShockPsratio and downstreamMach_Mach_ShockPsratio describe the oblique shock of that pressure ratio: its sigma satisfies Ps_ratio(M sin sigma) = P, and the returned downstream Mach number conserves total temperature.", "quantifier": "every M > 1, P between 1 and Ps_ratio(M), gamma > 1", "why_tests_cant": "a test samples a few (Mach, gamma) pairs; the identity has to hold on the whole continuum", "anchors": ["aerokit/aero/ShockWave.py:deflection_Mach_ShockPsratio,downstreamMach_Mach_ShockPsratio"]}
{"id": "C17", "title": "Closed-form weak and strong shock angles", "statement": "When the discriminant test passes, weaksigma_Mach_deflection and strongsigma_Mach_deflection return shock angles in (0,90) whose deflection_Mach_sigma is the requested deflection, weak <= strong; otherwise they return the documented fallback (Mach angle / 90).", "quantifier": "every M > 1, deflection in (0,90), gamma > 1", "why_tests_cant": "the cubic's three-root case analysis cannot be sampled", "anchors": ["aerokit/aero/ShockWave.py:weaksigma_Mach_deflection,strongsigma_Mach_deflection"]}
{"id": "C18", "title": "Sonic shock angle", "statement": "Downstream of the oblique shock at sigma_Sonic(M) the flow Mach number is exactly 1, and dev_Sonic is its deflection.", "quantifier": "every M > 1, gamma > 1", "why_tests_cant": "a test samples a few (Mach, gamma) pairs; the identity has to hold on the whole continuum", "anchors": ["aerokit/aero/ShockWave.py:sigma_Sonic,dev_Sonic"]}
{"id": "C19", "title": "Maximum deflection", "statement": "No shock angle between the Mach angle and 90 degrees deflects more than sigma_DevMax(M), whose deflection is dev_Max(M).", "quantifier": "every M > 1, sigma, gamma > 1", "why_tests_cant": "an optimality claim over a continuum", "anchors": ["aerokit/aero/ShockWave.py:sigma_DevMax,dev_Max"]}
{"id": "C20", "title": "Prandtl-Meyer function", "statement": "PrandtlMeyer_Mach is 0 at M=1, strictly increasing for M >= 1, bounded by 90*(sqrt((gamma+1)/(gamma-1))-1) degrees, has no finite real value below M=1, and its slope is sqrt(M^2-1)/(M(1+(gamma-1)/2 M^2)).", "quantifier": "every M >= 1, gamma > 1", "why_tests_cant": "a test samples a few (Mach, gamma) pairs; the identity has to hold on the whole continuum", "anchors": ["aerokit/aero/Supersonic.py:PrandtlMeyer_Mach"]}
{"id": "C21", "title": "Mach from omega - mu", "statement": "Mach_PMFmmu(PrandtlMeyer_Mach(M) - mu(M)) = M where mu is the Mach angle in degrees.", "quantifier": "every M > 1, gamma > 1", "why_tests_cant": "a test samples a few (Mach, gamma) pairs; the identity has to hold on the whole continuum", "anchors": ["aerokit/aero/Supersonic.py:Mach_PMFmmu"]}
{"id": "C22", "title": "Simple-wave turning and pressure are inverse", "statement": "Mach_PrandtlMeyer inverts PrandtlMeyer_Mach (to the root finder's residual, uniquely); IsentropicPsratio_Mach_deflection and deflection_Mach_IsentropicPsratio are mutually inverse.", "quantifier": "every M > 1, pressure ratio, gamma > 1", "why_tests_cant": "sign conventions of the pair are only tested separately", "anchors": ["aerokit/aero/Supersonic.py:Mach_PrandtlMeyer,deflection_Mach_IsentropicPsratio,IsentropicPsratio_Mach_deflection"]}
{"id": "C23", "title": "Fanno ratios are mutually consistent", "statement": "The Fanno ratios equal 1 at M=1, satisfy p = rho*T, rho*V = 1, constant total temperature, V = M*sqrt(T), Pi/Pi* = (p/p*)*PtPs(M)/PtPs(1) = Sigma_Mach(M), and NormdS = -(gamma-1)/gamma*ln(Pi/Pi*) <= 0.", "quantifier": "every M > 0, gamma > 1", "why_tests_cant": "a test samples a few (Mach, gamma) pairs; the identity has to hold on the whole continuum", "anchors": ["aerokit/aero/Fanno.py"]}
{"id": "C24", "title": "Fanno friction parameter", "statement": "maxFparam_Mach is >= 0, zero exactly at M=1, decreasing on (0,1], increasing on [1,inf), with the Fanno-line derivative dF/dM = -2(1-M^2)/(gamma M^3 (1+(gamma-1)/2 M^2)).", "quantifier": "every M > 0, gamma > 1", "why_tests_cant": "a test samples a few (Mach, gamma) pairs; the identity has to hold on the whole continuum", "anchors": ["aerokit/aero/Fanno.py:maxFparam_Mach"]}
{"id": "C25", "title": "Rayleigh ratios are mutually consistent", "statement": "The Rayleigh ratios equal 1 at M=1, satisfy p = rho*T, rho*V = 1, constant p + rho V^2, V = M*sqrt(T), Ti/Ti* = (T/T*)*TtTs(M)/TtTs(1), Pi/Pi* likewise, NormdS <= 0 with its maximum at M=1.", "quantifier": "every M > 0, gamma > 1", "why_tests_cant": "a test samples a few (Mach, gamma) pairs; the identity has to hold on the whole continuum", "anchors": ["aerokit/aero/Rayleigh.py"]}
{"id": "C26", "title": "Rayleigh heating limit and its inverses", "statement": "Ti_Ticri <= 1 with equality only at M=1; SubMach_TiTicri and SupMach_TiTicri invert it on their branches; maxTiratio_Mach(M,gamma) = 1/Ti_Ticri(M,gamma) for the requested gamma.", "quantifier": "every M > 0, gamma > 1", "why_tests_cant": "tests of maxTiratio with gamma=1.3 encode whatever the code returns", "anchors": ["aerokit/aero/Rayleigh.py:Ti_Ticri,SubMach_TiTicri,SupMach_TiTicri,maxTiratio_Mach"]}
{"id": "C27", "title": "secant_solve", "statement": "secant_solve(f,y,x) evaluates f at most 20 times and stops; if it stops without the max-iteration warning the residual |f(x_prev)-y| is at most L*max(tol,tol*|x|) for L-Lipschitz f; it is exact for affine f; the answer does not silently ignore f.", "quantifier": "every function f, target y and start x", "why_tests_cant": "termination and residual for arbitrary f", "anchors": ["aerokit/aero/IterativeSolve.py:secant_solve"]}
{"id": "C28", "title": "sigma_Mach_deflection", "statement": "sigma_Mach_deflection returns the shock angle carrying the sign of the deflection, whose deflection is the requested one within the solver's residual; for zero deflection it returns the Mach wave angle.", "quantifier": "every M > 1, deflection, gamma > 1", "why_tests_cant": "continuum of inputs, sign handling", "anchors": ["aerokit/aero/ShockWave.py:sigma_Mach_deflection"]}
{"id": "C29", "title": "Degree trigonometry", "statement": "asin/acos/atan return principal values in degrees and invert sin/cos/tan; sin^2+cos^2 = 1; sin(a) = cos(90-a); atan2(b sin t, b cos t) = t for |t| < 180; 360-periodic.", "quantifier": "every angle", "why_tests_cant": "a test samples a few (Mach, gamma) pairs; the identity has to hold on the whole continuum", "anchors": ["aerokit/aero/degree.py"]}
{"id": "C30", "title": "Default gas save/restore", "statement": "After save_default, any sequence of set_gamma/set_r_ideal followed by restore_default gives back the saved pair, however often it is repeated; restore without a save raises; setters affect only their own value.", "quantifier": "every sequence of operations", "why_tests_cant": "unbounded histories", "anchors": ["aerokit/common/defaultgas.py"]}
{"id": "C31", "title": "Setting the default gas changes the default of the flow functions", "statement": "After defaultgas.set_gamma(g), calling a flow function without gamma uses g, as the module documentation says.", "quantifier": "every g and every function with a gamma default", "why_tests_cant": "tests never call a flow function after set_gamma", "anchors": ["aerokit/common/defaultgas.py", "aerokit/aero/Isentropic.py", "aerokit/aero/ShockWave.py"]}
{"id": "C32", "title": "A state keeps its gas", "statement": "Indexing a state, re-initialising it from total conditions or deriving an isentropic state keeps the state's gamma.", "quantifier": "every gamma and state", "why_tests_cant": "tests only use gamma = 1.4 on these paths", "anchors": ["aerokit/aero/model1D.py:state"]}
{"id": "C33", "title": "State from total conditions", "statement": "compute_from_pt_rtt_M, _u and _p give a state whose Ptot, rTtot and Mach (resp. u, p) are the requested ones; asound, Mach, massflow, acoustics are mutually consistent; state_isentropic_Mach keeps Ptot and rTtot.", "quantifier": "every pt, rtt > 0 and admissible M, u, p, gamma", "why_tests_cant": "a test samples a few (Mach, gamma) pairs; the identity has to hold on the whole continuum", "anchors": ["aerokit/aero/model1D.py:state"]}
{"id": "C34", "title": "State jump", "statement": "state_RH conserves mass, momentum and energy fluxes, and applied twice gives back the original state.", "quantifier": "every state with M^2 > (gamma-1)/(2 gamma)", "why_tests_cant": "a test samples a few (Mach, gamma) pairs; the identity has to hold on the whole continuum", "anchors": ["aerokit/aero/model1D.py:state.state_RH"]}
{"id": "C35", "title": "Moving shocks and simple waves", "statement": "_rankinehugoniot_from_ushock conserves mass, momentum, energy in the shock frame and commutes with a change of inertial frame; delta_u_shock, rho_through_shock describe the same jump; delta_u_expansion, rho_through_isentropic keep entropy and the Riemann invariant.", "quantifier": "every state, shock speed, pressure, gamma > 1", "why_tests_cant": "a test samples a few (Mach, gamma) pairs; the identity has to hold on the whole continuum", "anchors": ["aerokit/aero/unsteady1D.py:unsteady_state"]}
{"id": "C36", "title": "Riemann star pressure", "statement": "The velocity mismatch is strictly increasing and continuous in p, so the star pressure is unique, and exists exactly when uR-uL < 2aL/(gL-1)+2aR/(gR-1) (no vacuum); identical states give back their pressure; with two expansions and a uniform gamma the initial estimate is already exact.", "quantifier": "every pair of states", "why_tests_cant": "existence and uniqueness over a continuum", "anchors": ["aerokit/instance/riemann.py:riemann_pb._solve,_pstar_estimate_expansion"]}
{"id": "C37", "title": "Riemann star states", "statement": "With an exact star pressure, both star states share p and u; each is joined to its side by a shock satisfying Rankine-Hugoniot with the stored wave speed when p* is higher, else by an isentropic simple wave.", "quantifier": "every pair of states with p, rho > 0, gamma > 1", "why_tests_cant": "a test samples a few (Mach, gamma) pairs; the identity has to hold on the whole continuum", "anchors": ["aerokit/instance/riemann.py:riemann_pb.__init__"]}
{"id": "C38", "title": "Riemann wave ordering", "statement": "waves[0] <= waves[1] < waves[2] < waves[3] <= waves[4]; shocks satisfy the Lax condition (supersonic ahead, subsonic behind); fan edges are acoustic speeds.", "quantifier": "every pair of states", "why_tests_cant": "a test samples a few (Mach, gamma) pairs; the identity has to hold on the whole continuum", "anchors": ["aerokit/instance/riemann.py:riemann_pb.__init__"]}
{"id": "C39", "title": "Riemann symmetries", "statement": "Exchanging and mirroring the states mirrors the solution; adding a velocity to both states shifts all waves and velocities and leaves pressures and densities unchanged.", "quantifier": "every pair of states, every shift", "why_tests_cant": "tests check one pair and one shift", "anchors": ["aerokit/instance/riemann.py:riemann_pb"]}
{"id": "C40", "title": "Riemann sampled solution", "statement": "qsol returns at each x/t the left state, left fan, left star, right star, right fan or right state according to the wave speeds; inside fans it solves the Euler equations; it is continuous at fan edges; the attached gamma is that of the gas on that side of the contact.", "quantifier": "every pair of states and every x/t", "why_tests_cant": "edges of half-open regions are measure-zero for sampling", "anchors": ["aerokit/instance/riemann.py:riemann_pb.qsol"]}
{"id": "C41", "title": "Nozzle pressure ratio limits", "statement": "1 < NPR_choked_subsonic < NPR_shock_at_exit < NPR_choked_supersonic for every area ratio > 1, each being the ratio for the documented regime.", "quantifier": "every As/Ac > 1", "why_tests_cant": "a test samples a few (Mach, gamma) pairs; the identity has to hold on the whole continuum", "anchors": ["aerokit/instance/nozzle.py:_NPR_Ms_list,NPR_choked_subsonic,NPR_shock_at_exit,NPR_choked_supersonic"]}
{"id": "C42", "title": "Nozzle exit Mach", "statement": "Ms_from_AsAc_NPR: unchoked regime matches exit pressure, shocked regime conserves choked mass flow with exit pressure matched, over-NPRsw regime is the supersonic design; the value is continuous at NPR0 and equals Msh at NPRsw; Madapt extends it to the jet.", "quantifier": "every As/Ac > 1 and NPR > 1", "why_tests_cant": "a test samples a few (Mach, gamma) pairs; the identity has to hold on the whole continuum", "anchors": ["aerokit/instance/nozzle.py:Ms_from_AsAc_NPR,Madapt_from_AsAc_NPR"]}
{"id": "C43", "title": "Nozzle profile", "statement": "After set_NPR the Mach, Ps, Ptot arrays have the length of the section, Ps*PtPs(M) = Ptot at each station, Ptot is 1 upstream of the shock and constant <= 1 downstream, area*mass-flow is the same at all stations.", "quantifier": "every section law and NPR", "why_tests_cant": "arrays of any length, any regime", "anchors": ["aerokit/instance/nozzle.py:nozzle"]}
{"id": "C44", "title": "Building a nozzle leaves the default gas alone", "statement": "Constructing a nozzle does not change defaultgas gamma, r or the user's saved pair, and the nozzle's gamma argument is the gamma of all its results.", "quantifier": "every prior history, every gamma", "why_tests_cant": "interaction of two global-state users", "anchors": ["aerokit/instance/nozzle.py:nozzle.__init__", "aerokit/common/defaultgas.py"]}
{"id": "C45", "title": "Chebyshev nodes", "statement": "x is strictly increasing from xmin to xmax with npts points, xi strictly decreasing from 1 to -1, and the maps between them are mutual inverses.", "quantifier": "every npts >= 2, xmin < xmax", "why_tests_cant": "every size", "anchors": ["aerokit/common/numspectral.py:ChebCollocation"]}
{"id": "C46", "title": "Differentiation matrices do not depend on call history", "statement": "matder(k) returns the same matrix whatever sequence of matder calls preceded it.", "quantifier": "every sequence of requests", "why_tests_cant": "unbounded histories, cache", "anchors": ["aerokit/common/numspectral.py:ChebCollocation.matder,compute_matder"]}
{"id": "C47", "title": "Spectral differentiation is exact on polynomials", "statement": "matder(k) applied to the nodal values of a polynomial of degree < npts gives the nodal values of its k-th derivative; constants map to 0.", "quantifier": "every npts >= 2, every polynomial of degree < npts, every order", "why_tests_cant": "every size and polynomial", "anchors": ["aerokit/common/numspectral.py:compute_matder"]}
{"id": "C48", "title": "Lazy properties", "statement": "A lazyprop is computed at most once per object and every read returns the first computed value.", "quantifier": "every sequence of reads over several objects and properties", "why_tests_cant": "unbounded histories", "anchors": ["aerokit/common/_dev.py:lazyprop"]}
{"id": "C49", "title": "Euler operator is the linearisation", "statement": "Interior rows of the Euler1D operator applied to a perturbation equal the directional derivative of the discretised primitive Euler equations at the base state.", "quantifier": "every npts, base state, perturbation and differentiation matrix", "why_tests_cant": "matrices of every size", "anchors": ["aerokit/stability/Euler.py:Euler1D.compute_operators"]}
{"id": "C50", "title": "Stability boundary rows", "statement": "sym, per (Euler) and wall (Orr-Sommerfeld) replace exactly the boundary rows by the stated conditions (zero time matrix row) and leave other rows unchanged; RH can be used on either side.", "quantifier": "every size and matrix", "why_tests_cant": "every size", "anchors": ["aerokit/stability/Euler.py:setBC_sym,setBC_per,setBC_RH", "aerokit/stability/OrrSommerfeld.py:setBC_wall"]}
{"id": "C51", "title": "Operators follow the current base state", "statement": "get_RHS_time_matrices returns the operators of the base state and boundary conditions last set.", "quantifier": "every sequence of set_basestate/set_BC/get", "why_tests_cant": "unbounded histories, cache staleness", "anchors": ["aerokit/stability/_base.py:LinOperator.get_RHS_time_matrices"]}
{"id": "C52", "title": "Orr-Sommerfeld operator", "statement": "B v and At v are the discrete Orr-Sommerfeld operators for the given alpha, Reynolds, profile; missing base-state keys are rejected.", "quantifier": "every size, alpha, Reynolds, profile", "why_tests_cant": "every size", "anchors": ["aerokit/stability/OrrSommerfeld.py:OrrSommerfeldModel"]}
{"id": "C53", "title": "Eigenvalue selection", "statement": "select_and_sort returns exactly the eigenvalues in the half-open window, with matching eigenvectors, and an order sorting them by real part ascending or imaginary part descending; any other sort key is an error.", "quantifier": "every spectrum", "why_tests_cant": "every list of eigenvalues", "anchors": ["aerokit/stability/_base.py:LinOperator.select_and_sort"]}
{"id": "C54", "title": "Boundary condition dictionaries are not consumed", "statement": "set_BC rejects unknown types; building operators twice, or using one dictionary for both sides, works and leaves the caller's dictionaries unchanged.", "quantifier": "every sequence of calls and aliasing pattern", "why_tests_cant": "aliasing and histories", "anchors": ["aerokit/stability/_base.py:set_BC,_check_BC", "aerokit/stability/Euler.py:compute_BC"]}
{"id": "C55", "title": "RK4 integration reaches xStop", "statement": "RK4 returns strictly increasing abscissae from x to exactly xStop with at most ceil((xStop-x)/h)+1 points, and is exact when the right-hand side is a polynomial of degree <= 3 in x.", "quantifier": "every F, x < xStop, h > 0", "why_tests_cant": "every right-hand side and step", "anchors": ["aerokit/common/_ode.py:RK4"]}
{"id": "C56", "title": "Runge-Kutta-Fehlberg step order", "statement": "One _rkf45 step satisfies the order-5 (and embedded order-4) conditions: exact for polynomial right-hand sides of degree <= 4 in x, error estimate zero up to degree 3, and for linear y'=ly the step reproduces the exponential series through order 5.", "quantifier": "every polynomial, l, h", "why_tests_cant": "coefficient errors of small size escape approximate tests", "anchors": ["aerokit/common/_ode.py:_rkf45"]}
{"id": "C57", "title": "RKF45 integration reaches xStop", "statement": "RKF45 returns abscissae ending at xStop (unless the 10000 step cap is hit).", "quantifier": "every F, x, xStop, h, tol", "why_tests_cant": "rejection pattern of the last step depends on F", "anchors": ["aerokit/common/_ode.py:RKF45"]}
{"id": "C58", "title": "Conical shock marching", "statement": "conical_deflection_Mach_sigma integrates the Taylor-Maccoll equations and, when it returns, the returned wall angle is within tol/2 of both the flow angle and the ray angle at the wall.", "quantifier": "every M, sigma, tol, gamma", "why_tests_cant": "loop exit condition over all step histories", "anchors": ["aerokit/aero/ShockWave.py:conical_deflection_Mach_sigma"]}
{"id": "C59", "title": "Gas generator balances", "statement": "After update: combustor energy balance, shaft power balance, polytropic compression/expansion laws hold with the given efficiencies (eta_cc, eta_shaft, etapol), and update depends only on parameters and flight conditions.", "quantifier": "every parameter set in the operating range", "why_tests_cant": "parameters are a continuum; ignored parameters are invisible at default value 1", "anchors": ["aerokit/engine/gasgenerator.py:base"]}
{"id": "C60", "title": "Turbojet/turbofan performance identities", "statement": "thermoprop efficiency = thermal * propulsive; turbofan turbine/fan power balance; nozzle loss xi_nozzle is honoured; ideal power of the low-pressure turbine is cp*Tt45*(1-(P/Pt45)^((g-1)/g))(1+far).", "quantifier": "every parameter set", "why_tests_cant": "ignored parameters are invisible at default values", "anchors": ["aerokit/engine/turbojet.py", "aerokit/engine/turbofan.py", "aerokit/engine/gasgenerator.py:Wsp_TBP_ideal"]}
{"id": "C61", "title": "Turbofan cycle stages are order independent", "statement": "Whatever sequence of stage methods is called, no stage reads a value not yet computed, each stored value equals its closed form, and calculs_5_to_9 from any reachable state ends with the complete performance.", "quantifier": "every finite sequence of stage calls", "why_tests_cant": "exponentially many schedules", "anchors": ["aerokit/engine/Cycle_Turbofan.py"]}
{"id": "C62", "title": "Class and script versions of the turbofan agree", "statement": "cycle_taux_fan_calcule gives the results of propu_be_double_corps.calculs, cycle_taux_fan_fixe those of propu_be.calculs, for the same inputs.", "quantifier": "every lambda, pi_c, Tt4, m, fan parameter", "why_tests_cant": "a test samples a few (Mach, gamma) pairs; the identity has to hold on the whole continuum", "anchors": ["aerokit/engine/Cycle_Turbofan.py", "aerokit/engine/propu_be.py", "aerokit/engine/propu_be_double_corps.py"]}
{"id": "C63", "title": "Thermodynamic fits are consistent", "statement": "Cp is dEnthalpy/dT and T*dPhi/dT*ln10 = Cp/r up to the stated coefficient rounding; Gamma = Cp/(Cp-r); Pc_eff + Enthalpy is constant.", "quantifier": "every T > 0", "why_tests_cant": "needs derivatives over a continuum", "anchors": ["aerokit/aero/ThermoKerosen.py", "aerokit/aero/ThermoRealGas.py"]}
{"id": "C64", "title": "Variable dictionary behaves like a map", "statement": "get/call/index agree and return the last value set; addVar refuses existing names, setVar refuses unknown ones, refusals change nothing; edits never reach the built-in databases; setDicoVar accepts every spelling of a known software.", "quantifier": "every sequence of operations", "why_tests_cant": "unbounded histories", "anchors": ["aerokit/common/dicovar.py"]}
{"id": "C65", "title": "Variable names are case-insensitive", "statement": "dv['U_avg'] <=> dv['u_avg'] as the module notes promise.", "quantifier": "every known name", "why_tests_cant": "documentation claim never tested", "anchors": ["aerokit/common/dicovar.py:_DicoVar.get"]}
{"id": "C66", "title": "A refused setDicoVar changes nothing", "statement": "setDicoVar with an unknown software raises and keeps the current database.", "quantifier": "every history and name", "why_tests_cant": "exception safety", "anchors": ["aerokit/common/dicovar.py:setDicoVar,_DicoVar.__init__"]}
{"id": "C67", "title": "Extended variable expressions", "statement": "expressions_from_rhopv builds vtk-calculator strings that evaluate to Pt, T, S, V, a, Mach, Mx, alpha of the state.", "quantifier": "every state", "why_tests_cant": "string templates evaluated at any point", "anchors": ["aerokit/common/extendvar.py"]}
{"id": "C68", "title": "Unsteady inflow", "statement": "solve_with_pt0_rtt0 joins the initial state to an inlet state with the requested total conditions, equal pressure and velocity, keeping gamma; accessors work after solving.", "quantifier": "every initial state, pt0, rtt0", "why_tests_cant": "a test samples a few (Mach, gamma) pairs; the identity has to hold on the whole continuum", "anchors": ["aerokit/instance/unsteady_inflow.py:inflow_pb"]}
{"id": "C69", "title": "Thrust function", "statement": "ThrustFunction is the momentum flux A*(p+rho V^2)/(A* Pt), minimal exactly at M=1, decreasing below and increasing above.", "quantifier": "every M > 0, gamma > 1", "why_tests_cant": "a test samples a few (Mach, gamma) pairs; the identity has to hold on the whole continuum", "anchors": ["aerokit/aero/Propulsion.py"]}
{"id": "C70", "title": "Eigenpair refinement", "statement": "converge_eigenpair returns after niter iterations a unit-norm vector and its Rayleigh quotient; an exact eigenpair whose shifted matrix is singular is returned unchanged.", "quantifier": "every matrix pair, start and niter", "why_tests_cant": "singular-matrix path", "anchors": ["aerokit/stability/_base.py:converge_eigenpair"]}
{"id": "C71", "title": "Chebyshev interpolation", "statement": "extrapol(fk, x) evaluates the unique polynomial of degree < npts through the nodal values, at any x, inside or outside [xmin, xmax]; it reproduces polynomials of degree < npts exactly.", "quantifier": "every npts >= 2, interval, nodal values and x", "why_tests_cant": "infinitely many data and sizes", "anchors": ["aerokit/common/numspectral.py:ChebCollocation.extrapol"]}
{"id": "C72", "title": "Fitting scattered data", "statement": "fit_to_gauss(x, f) returns the nodal values of the polynomial of degree < npts that fits the samples: samples of such a polynomial at npts or more distinct points are reproduced.", "quantifier": "every npts, interval, sample set and polynomial", "why_tests_cant": "infinitely many data and sizes", "anchors": ["aerokit/common/numspectral.py:ChebCollocation.fit_to_gauss"]}
{"id": "C73", "title": "Recomputing a turbofan cycle after changing its parameters", "statement": "A cycle object whose parameters are assigned new values and whose cycle method is called again reports the performance a freshly built object with those parameters reports, and reading a value never changes another.", "quantifier": "every history of parameter assignments and cycle calls", "why_tests_cant": "unbounded histories, memoised flags", "anchors": ["aerokit/engine/Cycle_Turbofan.py:moteur,double_flux_taux_fan_fixe,double_flux_taux_fan_calcule"]}
{"id": "C74", "title": "Turbofan cycle stations obey the textbook relations", "statement": "After a cycle call the stored station temperatures, pressures and velocities satisfy inlet recovery, polytropic compression, combustor energy balance, shaft power balance, polytropic expansion and nozzle relations with the engine's efficiencies.", "quantifier": "every operating point in the working range", "why_tests_cant": "continuum of parameters", "anchors": ["aerokit/engine/Cycle_Turbofan.py"]}
{"id": "C75", "title": "Turbofan thrust and consumption", "statement": "The reported thrust is the momentum balance of the two jets including the fuel mass flow, and the specific consumption is in the printed unit g/kN/s.", "quantifier": "every operating point", "why_tests_cant": "continuum of parameters, unit errors", "anchors": ["aerokit/engine/Cycle_Turbofan.py", "aerokit/engine/propu_be.py", "aerokit/engine/propu_be_double_corps.py"]}
{"id": "C76", "title": "Optimal fan ratio", "statement": "calculs_tau_optimum gives the fan temperature ratio for which, with ideal components and small fuel-air ratio, the core and fan jets leave at the same velocity (the optimum of the ideal turbofan).", "quantifier": "every bypass ratio, compression ratio, turbine inlet temperature and flight Mach number", "why_tests_cant": "continuum of parameters", "anchors": ["aerokit/engine/propu_be_double_corps.py:calculs_tau_optimum"]}
{"id": "C77", "title": "Temperature is determined by enthalpy and by entropy", "statement": "Enthalpy and Phi of the thermodynamic fits are strictly increasing, so inverting them is unambiguous (real gas: all T > 0; kerosene products: up to 4850 K).", "quantifier": "every pair of temperatures", "why_tests_cant": "continuum", "anchors": ["aerokit/aero/ThermoKerosen.py", "aerokit/aero/ThermoRealGas.py"]}
{"id": "C78", "title": "Every module can be imported, in any order", "statement": "Every module of the package can be imported, whatever was imported before: no missing module, missing name or import cycle, and no half-initialised module is left behind. The import statements of every example script succeed too.", "quantifier": "every module, every example script and every history of import statements", "why_tests_cant": "unbounded histories of imports; a test session imports in one order", "anchors": ["aerokit/**/*.py import statements", "aerokit/aero/Propulsion.py:6", "aerokit/common/extendvar.py:16"]}
{"id": "C79", "title": "Shock polars", "statement": "plot_theta_sigma and plot_theta_pressure draw npts+1 points that are states reachable through an oblique shock from the given upstream state, from the Mach wave to the normal shock, on the requested side(s), the left side being the mirror image of the right one; the devmax and sonic markers are the shock of largest turning angle and the shock with sonic flow behind.", "quantifier": "every Mach number > 1, gamma > 1, number of points, upstream direction and pressure, curve name and choice of markers", "why_tests_cant": "the correctness of a picture is a statement about every point of it, over a continuum of parameters", "anchors": ["aerokit/aero/plot/shockpolar.py:plot_theta_sigma,plot_theta_pressure"]}
{"id": "C80", "title": "Isentropic polars", "statement": "isentropicpolar.plot_theta_pressure draws states reachable from the upstream state through a simple wave: same total pressure, Prandtl-Meyer angle changed by the deflection, pressure increasing with the direction along C+ and decreasing along C-, both following the characteristic relation dp/p = +-gamma M^2/sqrt(M^2-1) dtheta.", "quantifier": "every Mach number >= 1, gamma > 1, deflection range, number of points, upstream direction and pressure, curve name", "why_tests_cant": "every point of every curve, over a continuum of parameters", "anchors": ["aerokit/aero/plot/isentropicpolar.py:plot_theta_pressure"]}
{"id": "C81", "title": "RK4 reaches the end of the interval in floating point", "statement": "Computed in binary64 arithmetic, RK4 from x to xStop with a positive step ends after finitely many steps, at the abscissa xStop exactly, with strictly increasing abscissae and one value of y per abscissa.", "quantifier": "every pair of doubles x < xStop, every positive double step, every right-hand side", "why_tests_cant": "rounding can stop x from advancing or carry it past xStop for particular operands only; there are 2^192 triples of operands", "anchors": ["aerokit/common/_ode.py:RK4"]}
{"id": "C82", "title": "Temperature ratio in floating point", "statement": "Computed in binary64 arithmetic, TtTs_Mach is finite, at least 1, non-decreasing in the Mach number and accurate to a few units in the last place; Mach_TtTs of it is never nan and gives the Mach number back up to a bounded number of rounding errors, with the loss of accuracy at low Mach number that 1 + x implies.", "quantifier": "every double 1 < gamma <= 2 and every double Mach number up to 2^400", "why_tests_cant": "a rounding error bound ranges over all doubles", "anchors": ["aerokit/aero/Isentropic.py:TtTs_Mach,Mach_TtTs"]}
{"id": "C83", "title": "Shock pressure ratio in floating point", "statement": "Computed in binary64 arithmetic, Ps_ratio is finite, at least 1, non-decreasing in the Mach number and accurate to a few units in the last place; Mn_Ps_ratio of it is never nan, at least 1, and gives the Mach number back with a relative error of at most 2^-49.", "quantifier": "every double 1 < gamma <= 2 and every double Mach number from 1 to 2^400", "why_tests_cant": "a rounding error bound ranges over all doubles", "anchors": ["aerokit/aero/ShockWave.py:Ps_ratio,Mn_Ps_ratio"]}
{"id": "C84", "title": "Minimum length nozzle by the method of characteristics", "statement": "Whenever Minimum_length_nozzle(mach, area, n) returns, the points it built form a consistent characteristic net of a planar flow: a corner fan turning by half the Prandtl-Meyer angle of the design Mach number, invariants theta+nu / theta-nu kept along each C-/C+, each inner point at the intersection of its two characteristics, axial flow on the axis, a wall that turns back monotonically to the axial direction and reflects no wave, and an exit Mach number equal to the design one within the tolerance of the inversion; the Newton inversion of the Prandtl-Meyer function ends for every reachable angle.", "quantifier": "every design Mach number > 1, every throat area > 0, every number n of characteristics, every Prandtl-Meyer angle", "why_tests_cant": "The net has (n+1)(n+4)/2 points each defined by a transcendental inversion; a test looks at one (mach, n) pair and cannot check all intersections, nor convergence of Newton from a fixed start for every angle.", "anchors": ["notebooks/Minimum_length_nozzle.py:Minimum_length_nozzle", "notebooks/Minimum_length_nozzle.py:mach_via_pmeyer", "notebooks/Minimum_length_nozzle.py:new_point", "notebooks/Minimum_length_nozzle.py:rapport_expansion"]}
{"id": "C85", "title": "A normal shock stays on its Fanno and Rayleigh lines", "statement": "The normal-shock functions, the Fanno functions, the Rayleigh functions and Sigma_Mach describe the same gas: across a normal shock the Fanno and Rayleigh pressure, temperature, density and velocity functions of the downstream Mach number jump exactly by Ps_ratio, Ts_ratio, Rho_ratio and 1/Rho_ratio, Ti/Ti* is unchanged, and Sigma and both Pi/Pi* are multiplied by the ratio of total pressures.", "quantifier": "every gamma > 1 and every upstream Mach number >= 1", "why_tests_cant": "an identity between four modules over a continuum of inputs", "anchors": ["aerokit/aero/ShockWave.py:Ps_ratio,Ts_ratio,Rho_ratio,downstream_Mn,Pt_ratio", "aerokit/aero/Fanno.py", "aerokit/aero/Rayleigh.py", "aerokit/aero/MassFlow.py:Sigma_Mach"]}
{"id": "C86", "title": "Working states of a ramjet", "statement": "The four curves drawn by examples/ramjet-working.py are flows that satisfy mass, impulse and energy balances section by section: fully supersonic; conventional (a normal shock in the divergent of the inlet, sonic nozzle throat); unstarted (bow shock, sonic nozzle throat); choked (sonic inlet throat, second shock in the divergent). Their ends are the limits they are meant to be: no heat, choking, shock at the combustor, shock at the throat, sonic throat, and the choked curve ends where the unstarted one begins.", "quantifier": "every flight and throat Mach number for which the inlet contracts the flow and the nozzle's throat can pass it, every number of points and every point; every solver that returns the root on its start's side", "why_tests_cant": "the curves are samples of a continuum; agreement with the balance laws must hold for every design and every heating ratio", "anchors": ["examples/ramjet-working.py", "aerokit/aero/MassFlow.py:Mach_Sigma,Sigma_Mach", "aerokit/aero/ShockWave.py:downstream_Mn,Pi_ratio", "aerokit/aero/Rayleigh.py:Ti_Ticri,Pi_Picri,SubMach_TiTicri,SupMach_TiTicri"]}
{"id": "C87", "title": "Rayleigh temperature ratio in floating point", "statement": "Computed in binary64 arithmetic, Ti_Ticri(M) is a finite number of [0, 1] accurate to a few units in the last place, and SubMach_TiTicri (M <= 1) or SupMach_TiTicri (M >= 1) of it is a number, never nan, that gives the Mach number back up to rounding errors amplified by the distance to the sonic state.", "quantifier": "every double 1 < gamma <= 2 and every double Mach number from 2^-100 to 2^10", "why_tests_cant": "a rounding error of one unit in the last place next to the sonic state decides between a number and nan; tests try a few Mach numbers", "anchors": ["aerokit/aero/Rayleigh.py:Ti_Ticri", "aerokit/aero/Rayleigh.py:SubMach_TiTicri", "aerokit/aero/Rayleigh.py:SupMach_TiTicri"]}
{"id": "C88", "title": "Shock of given pressure ratio in floating point", "statement": "Computed in binary64 arithmetic, deflection_Mach_ShockPsratio(M, P) and downstreamMach_Mach_ShockPsratio(M, P) are defined for every pressure ratio from 1 to that of the normal shock, Ps_ratio(M): the argument Mn/M of the arc sine is a number of (0, 1].", "quantifier": "every double 1 < gamma <= 2, every double Mach number M from 1 to 2^400 and every double P from 1 to Ps_ratio(M)", "why_tests_cant": "whether the quotient of two rounded numbers exceeds 1 depends on the last bit of each operation", "anchors": ["aerokit/aero/ShockWave.py:deflection_Mach_ShockPsratio", "aerokit/aero/ShockWave.py:downstreamMach_Mach_ShockPsratio", "aerokit/aero/ShockWave.py:Mn_Ps_ratio"]}
{"id": "C89", "title": "Expansion fan notebook", "statement": "The flow around a corner drawn by the expansion notebook (Caract-01) is the centred Prandtl-Meyer expansion: continuous, with the C- invariant constant, satisfying the steady Euler equations inside and outside the fan; the pressure ratio it computes is that across the fan; and the lines it draws start at the given point, follow the directions of the flow by midpoint steps, cover the requested lengths, and reproduce the straight characteristics of the fan exactly.", "quantifier": "every gamma > 1, upstream Mach number >= 1, expansion angle, point of the plane, number of points and lengths", "why_tests_cant": "an identity of fields over all points of the plane and all Mach numbers, and a loop over arbitrarily many steps", "anchors": ["notebooks/aero/Caract-01-expansion.ipynb:init_case", "notebooks/aero/Caract-01-expansion.ipynb:flow_prop", "notebooks/aero/Caract-01-expansion.ipynb:integ", "aerokit/aero/Supersonic.py:Mach_PMFmmu", "aerokit/aero/Supersonic.py:Mach_PrandtlMeyer"]}
{"id": "C90", "title": "Smooth-wall notebook: the flow along a curved wall is the simple wave attached to it", "statement": "In the notebook on supersonic flow over a smooth wall: the wall angle is that of the tangent of the wall within the step of its difference quotient (exactly, on the ramp away from its two ends); the flow at the wall follows the wall; the Mach number returned at a point is, within the tolerances, that of the wall point reached by the straight characteristic through it; upstream of the first characteristic it is M0; the field it defines solves the steady Euler equations, over an expanding wall there is exactly one wall point per point, and over a compressing one characteristics cross (where the answer is not determined: refuted).", "quantifier": "all gamma > 1, Mach numbers M0 >= 1, differentiable walls, ramp angles, points, root finders meeting their contract, numbers of turns", "why_tests_cant": "The field is a continuum of points, defined through two root finders and a loop; conservation laws hold at every point of a region, which no finite sample establishes.", "anchors": ["notebooks/aero/Caract-02-smooth wall.ipynb: ywall, wall_angle, mach_wall, mach, flow_prop, xy_intersect_rate, plot_CP_focus"]}
{"id": "C91", "title": "Shock reflexion notebook", "statement": "The wedge notebooks (Shock-21) compute, for an attached deflection, a first oblique shock, its reflexion on the opposite wall and the pressure p2p0 behind both: the states satisfy the oblique shock laws, the flow is turned and turned back within the solver tolerance, both waves are compressions, and the drawn lines have the computed inclinations; when no reflexion exists nothing is computed or no angle solves the problem.", "quantifier": "every gamma > 1, Mach number > 1 and attached deflection of both shocks; every ordinate where the drawing of the reflected shock ends", "why_tests_cant": "the deflection and Mach number sliders are continuous, and the second shock depends on the first through an iterative solver", "anchors": ["notebooks/aero/Shock-21-reflexion.ipynb:code cells 3-5", "notebooks/aero/Shock-21-reflexion-widget.ipynb:plot_all", "aerokit/aero/ShockWave.py:sigma_Mach_deflection"]}
{"id": "C92", "title": "Shock-expansion notebook", "statement": "The shock-expansion notebook (Shock-22) turns the flow by a shock, an expansion and a tail shock around a triangular obstacle: total pressure is conserved through the fan and falls at the shocks, the pressure on the rear face is lower than on the front face, the flow leaves parallel to the axis within the solver tolerance, p3p0 is the product of the three ratios, and the drawn walls, Mach lines and shocks have the computed inclinations.", "quantifier": "every gamma > 1, Mach number > 1, face angles for which the shocks are attached, and every residual of the Newton solver", "why_tests_cant": "continuous inputs through two iterative solvers", "anchors": ["notebooks/aero/Shock-22-shock-expansion.ipynb:code cells 1-7", "aerokit/aero/Supersonic.py:IsentropicPsratio_Mach_deflection", "aerokit/aero/ShockWave.py:sigma_Mach_deflection"]}
{"id": "C93", "title": "Shock-impact stability model", "statement": "ShockModel (examples/stability/shock.py) builds, for any number of nodes, length and Mach number, a base flow of air with uniform total enthalpy and entropy and a velocity going linearly from the state behind the shock to rest at the wall; with M0 given, the state at the first node is the one behind a steady normal shock of Mach number M0. The operators it returns are the Euler equations linearised about that flow, the linearised jump relations at the shock with the shock position as extra unknown, and a slip wall at the other end. The printed checks compare the jump ratios with their exact derivatives.", "quantifier": "all numbers of nodes >= 2, lengths, Mach numbers, gradients, perturbations and heaps", "why_tests_cant": "a test runs one size and one Mach number; the eigenvalues give no reference value to compare with", "anchors": ["examples/stability/shock.py:ShockModel", "examples/stability/shock.py:12-25", "aerokit/stability/Euler.py:Euler1D", "aerokit/aero/model1D.py:compute_from_pt_rtt_u"]}
{"id": "C94", "title": "Approximations of Sigma", "statement": "The approximations of Sigma_Mach drawn by examples/aero/validation_sigma_convergence.py and notebooks/Sigma-approximation.ipynb are what they are presented as: equivalents of Sigma at small and at large Mach numbers (with explicit error bounds) and a second-order expansion at the throat, from which the starting points of the inversion of Sigma are derived.", "quantifier": "all gases gamma > 1 and all Mach numbers > 0; all tolerances near the throat", "why_tests_cant": "a plot shows a finite range of Mach numbers; equivalence is a statement about limits", "anchors": ["examples/aero/validation_sigma_convergence.py:14-20", "notebooks/Sigma-approximation.ipynb", "aerokit/aero/MassFlow.py:Sigma_Mach", "aerokit/aero/MassFlow.py:__MachSub_sigma", "aerokit/aero/MassFlow.py:__MachSup_sigma"]}
{"id": "C95", "title": "The shock angle computed as a root in the co-flow notebook is the shock angle of the library", "statement": "For a supersonic Mach number and a deflection, the shock angle found by the co-flow notebook as a root of tan(sigma - dev) rho2/rho1 = tan(sigma) deflects the flow by the requested angle up to the solver tolerance; the roots are the weak and the strong shock angles of the library.", "quantifier": "every Mach number above 1, every deflection in (0,90), every tolerance and every external solver returning roots up to that tolerance", "why_tests_cant": "the set of roots of a transcendental function over a continuum of Mach numbers and deflections cannot be enumerated, and the root chosen depends on the solver", "anchors": ["notebooks/Shock-31-coflow.ipynb: sigma_from_M0_Dev", "aerokit/aero/ShockWave.py: Rho_ratio, deflection_Mach_sigma, weaksigma_Mach_deflection, strongsigma_Mach_deflection"]}
{"id": "C96", "title": "Choked guide vane: consistent states and waves", "statement": "In the guide vane script, the upstream state is exactly the one that chokes the vane; the two final states keep what they announce (same Mach number and total temperature, or same static pressure and total temperature) with the total pressure multiplied by the ratio; and each Riemann problem sends the waves one expects (shock and expansion, or two shocks).", "quantifier": "every vane angle in (-90,90), throat pressure > 0, Mach number > 0, total pressure ratio > 1, and every exact external root finder", "why_tests_cant": "holds for a continuum of angles, pressures and ratios and for whatever root the solver returns", "anchors": ["notebooks/Riemann-GuideVane.py", "aerokit/instance/riemann.py: riemann_pb", "aerokit/aero/MassFlow.py: Mach_Sigma", "aerokit/aero/model1D.py: state"]}
{"id": "C97", "title": "Spectrum of a uniform periodic flow", "statement": "For a uniform flow on a periodic tube (euler1d.py, or any Euler1D object with a uniform base state and 'per' at both ends), omega is an eigenvalue of the problem solved by solve_eig if and only if it is an eigenvalue of the collocated advection at one of the three speeds u, u + a, u - a; the three families are in the exact ratios of the speeds, each is symmetric under omega -> -conj(omega), and the printed theoretical pulsations generate all the pulsations of the continuous waves on the tube.", "quantifier": "every number of nodes, interval, uniform density, velocity, pressure and gamma, every complex omega, every history of the class attributes before the object is created", "why_tests_cant": "an equivalence between the spectra of matrices of arbitrary size, for all complex numbers; a test compares a few computed eigenvalues on one grid", "anchors": ["examples/stability/euler1d.py: Tube, main", "aerokit/stability/Euler.py: Euler1D.compute_operators, setBC_per", "aerokit/stability/_base.py: solve_eig"]}
{"id": "C98", "title": "Shock tube notebook", "statement": "In the shock-tube notebook (driver and driven gas, second gas behind an interface, end wall), for every initial pressure, driver ratio > 1, temperature and pair of gases: the four Riemann problems chain into a consistent history (isentropic expansion of the driver, incident, transmitted, reflected and returning waves all Rankine-Hugoniot shocks of increasing pressure, equal pressure and velocity at each contact, gas at rest at the wall); the drawn (x,t) lines are the paths of those shocks and of the interface, meeting at the computed points in increasing time, and the printed shock Mach numbers are those of the shocks relative to the gas ahead.", "quantifier": "every pressure, ratio > 1, temperature, gas constants, gammas > 1, interface and wall positions, every exact root finder", "why_tests_cant": "a chain of four nonlinear solutions each started from the previous one; the ordering of the times and the nature of every wave must hold for all gases, a notebook shows one", "anchors": ["notebooks/aero/Riemann-Shocktube.ipynb", "docs/examples/instance.riemann.ipynb", "aerokit/instance/riemann.py: riemann_pb"]}
{"id": "C99", "title": "The stand-alone Riemann search notebook computes the library's solution, and its search never succeeds", "statement": "notebooks/unsteady_inflow_Florian.ipynb re-implements the Riemann problem without the library (gamma 1.4, r 287.1). Its state attributes, velocity jumps, star velocity, starting value and star densities are those of the library's states and Riemann problem for all positive states; with exact root finders it finds the library's star pressure, velocity and star states, and reports exactly when the totals of the left star state are within the tolerances. The triple loop prints, for each (i, j), the first k meeting the criteria and nothing else. With the values written in the script every left state tried gives a shock to the left and an expansion to the right and a left star total pressure below 280000 Pa, so that nothing is ever printed for the imposed 300000 Pa.", "quantifier": "all positive left and right states, all pressures, all root finders (exact, or with residual at most 1 m/s), all imposed totals and tolerances, all loop indices", "why_tests_cant": "The search space is a million Riemann problems with an external root finder; agreement of two implementations for all states and the absence of any solution cannot be settled by running examples.", "anchors": ["notebooks/unsteady_inflow_Florian.ipynb: qR, qL, delta_Ul, delta_Ur, Ustar_from_pstar, estimation_pstar, solve, f", "aerokit/instance/riemann.py: riemann_pb", "aerokit/aero/unsteady1D.py"]}
{"id": "C100", "title": "The turbofan classes of the design notebook compute the same cycle as those of the library", "statement": "For the same constructor arguments and the same sequence of method calls, cycle_taux_fan_fixe and cycle_taux_fan_calcule of Turbofan_pyclass_design.ipynb end in the same stage, with the same attributes and the same values, as the classes of the same names in Cycle_Turbofan.py.", "quantifier": "all constructor arguments (undefined numbers included), both classes, every finite sequence of method calls", "why_tests_cant": "unboundedly many call sequences; the difference is hidden in one argument of one call and only visible in derived numbers", "anchors": ["notebooks/Turbofan_pyclass_design.ipynb", "aerokit/engine/Cycle_Turbofan.py"]}
{"id": "C101", "title": "The nozzle regimes notebook draws the flow of the nozzle it designs, in every regime", "statement": "The section law is at least 1, equal to the target at the exit and 1 only at x = 1, decreasing before and increasing after; in the subsonic, supersonic, exit-shock and shocked regimes the drawn Mach numbers, total and static pressures conserve mass flow (section times total pressure times weighted mass flow), satisfy the isentropic relation at every station and meet the imposed exit pressure; and they agree with what the library's nozzle class computes from the same section law.", "quantifier": "all targets above 1, lengths from 2, numbers of stations, throat Mach numbers, shock position parameters in [0,1], all exact root finders", "why_tests_cant": "The cells are run for one target, one length and one grid; the statement is over every one of them and every station.", "anchors": ["notebooks/aero/Nozzle-regimes.ipynb: cells 1, 2, 3, 7, 9, 11", "notebooks/aero/Nozzle-widget.ipynb: iplot", "aerokit/instance/nozzle.py: nozzle, set_NPR", "aerokit/aero/MassFlow.py", "aerokit/aero/ShockWave.py: Mn_Pi_ratio"]}
{"id": "C102", "title": "The unsteady inflow notebook shows the wave, contact and final states of the inflow it imposes", "statement": "For every initial Mach number and every imposed total-pressure ratio above 1 the drawn mass flows are ordered mf0 < mf1 < mf2, the mass flow of the final state at the initial Mach number is exactly pi times the initial one, the drawn shock Mach number and pressure ratio are those of the transmitted wave, the inflow side has the imposed total conditions, and the normalised curves have a value at every ratio of the range, between 0 and 1 for the final state of the same static pressure.", "quantifier": "all initial Mach numbers, all lists of total-pressure ratios from 1, all total-temperature ratios (for the final states), all exact root finders", "why_tests_cant": "80 ratios at one Mach number are drawn; orderings of mass flows for all ratios and Mach numbers, the missing value at ratio 1 and the second root of the equation are not visible in a plot.", "anchors": ["notebooks/aero/unsteady_inflow.ipynb: cell 1", "aerokit/instance/unsteady_inflow.py: inflow_pb.solve_with_pt0_rtt0", "aerokit/aero/model1D.py: compute_from_pt_rtt_p, compute_from_pt_rtt_M"]}
{"id": "C103", "title": "Heating curves of rayleigh-heating.py", "statement": "The curve that examples/rayleigh-heating.py draws for a starting Mach number M0 is the evolution of a flow heated in a frictionless duct of constant area: it starts at (1, M0), each point satisfies mass and impulse conservation and is the only one on its side of Mach 1, the Mach number moves monotonically towards 1, the last point is thermal choking, beyond which no steady flow exists, and heating in stages follows the same curve. (Fails when the script's gam is changed: the choking limit is always computed for 1.4.)", "quantifier": "every starting Mach number > 0, every number of points, every pair of successive heatings; every gamma for the refuted part", "why_tests_cant": "A test samples a few Mach numbers; that no larger heating is possible, and that stages compose, are statements about all flows.", "anchors": ["examples/rayleigh-heating.py", "aerokit/aero/Rayleigh.py: maxTiratio_Mach, SubMach_TiTicri, SupMach_TiTicri, Ti_Ticri"]}
{"id": "C104", "title": "Ratio and T/S diagrams of the example scripts", "statement": "The curves drawn by rayleigh-diag.py, fanno-diag.py and massflow-diag.py are finite at every plotted Mach number and describe, point by point, one flow obeying the conservation laws (heated duct, adiabatic duct with friction, isentropic channel) that ends at the sonic reference state; the T/S curves have their entropy maximum at Mach 1, their branches do not cross, and the Rayleigh temperature peaks at M^2 = 1/gamma. (Fails: no plotted point is sonic, and massflow-diag.py's mass flow ignores its gam.)", "quantifier": "every gamma > 1, every Mach range and every number of points", "why_tests_cant": "Finite samples of curves cannot show monotonicity, the position of extrema or that branches never cross.", "anchors": ["examples/rayleigh-diag.py", "examples/fanno-diag.py", "examples/massflow-diag.py", "aerokit/aero/Rayleigh.py", "aerokit/aero/Fanno.py", "aerokit/aero/MassFlow.py: WeightMassFlow"]}
{"id": "C105", "title": "Worked examples of the documentation", "statement": "The documentation notebooks aero.Isentropic and aero.MassFlow show how to get stagnation conditions, an exit Mach number from pressures, a Mach number and a velocity from temperatures, the adapted exit Mach number of a nozzle, its mass flow, and a subsonic exit Mach number. Each recipe, applied to other numbers, returns the physical answer: the stagnation values conserve energy and entropy, the exit Mach numbers conserve the mass flow on the announced branch, the mass flow is rho V A at the throat and is the largest. The two recipes that take pressures or temperatures divide them the wrong way round: they return nan for every flow that moves, and numbers only for data that no flow has.", "quantifier": "every positive static and total pressure and temperature, Mach number, gas constant, throat and exit area; every gamma in (1, 1.4] for the subsonic recipe; every root finder that stays on the branch it starts from", "why_tests_cant": "A notebook shows one set of numbers, and two of its sets are impossible flows for which the wrong formula still prints a plausible value; that the recipe works, or fails, for every flow is a statement over all reals.", "anchors": ["docs/examples/aero.Isentropic.ipynb", "docs/examples/aero.MassFlow.ipynb", "aerokit/aero/Isentropic.py:Mach_PtPs, Mach_TtTs, Velocity_MachTt", "aerokit/aero/MassFlow.py:Mach_Sigma, MachSub_Sigma, WeightMassFlow"]}
{"id": "C106", "title": "The documentation's shock reflexion", "statement": "The documentation notebook aero.ShockWave turns a supersonic flow by a wedge, then reflects the shock on the opposite wall: if the deflection does not exceed the largest one of the Mach number behind the first shock, the second shock turns the flow back; otherwise it announces an irregular reflexion and takes the shock whose downstream flow is sonic. In the regular case the two cells compute two oblique shocks with the pressures of the conservation laws and a flow that is parallel to the wall again; in the irregular case the pressure is that of the sonic shock, but the Mach number printed is not 1; and if the flow behind the first shock is subsonic nothing is announced and nothing is defined.", "quantifier": "every gamma > 1, incoming Mach number > 1, deflection and Mach number behind the first shock", "why_tests_cant": "The notebook is run on one Mach number and one deflection, in the regular case; the branch of the irregular case, where the printed value is wrong for every flow, is not executed by it.", "anchors": ["docs/examples/aero.ShockWave.ipynb", "aerokit/aero/ShockWave.py:dev_Max, sigma_Sonic, sigma_Mach_deflection, Ps_ratio, downstream_Mn"]}
{"id": "C107", "title": "Ideal turbojets and turbofans reach the Brayton efficiency; the turbofan example", "statement": "For an engine without losses and with one gas, thermal_efficiency() is 1 - T0/Tt3 whatever the by-pass ratio, the split of the power, the turbine temperature and the fuel, for the turbojet and the turbofan alike; the fan power ratio that gives the largest thrust is the one that makes both jets equally fast, and it exists; examples/turbofan.py computes a defined, positive thrust and an efficiency between 0 and the Brayton efficiency at each point of its grid, for the compressor temperatures it chose.", "quantifier": "every gamma > 1, gas constant, fuel, pressure ratio >= 1, turbine temperature above the compressor exit, flight condition, by-pass ratio, fan power ratio in [0, 1], history of the object; every point of the grid of the example", "why_tests_cant": "a unit test checks a few engines; the efficiency law and the optimum range over all of them", "anchors": ["aerokit/engine/gasgenerator.py:update", "aerokit/engine/turbojet.py:turbojet_opt.update", "aerokit/engine/turbojet.py:thermal_efficiency", "aerokit/engine/turbofan.py:turbofan_adapt.update", "aerokit/engine/turbofan.py:spec_thrust", "examples/turbofan.py"]}
{"id": "C108", "title": "Second law bound on the engine efficiencies", "statement": "For a turbojet or a turbofan made of components that lose (efficiencies and pressure recoveries at most 1, hot gas with a gamma not above that of air), thermal_efficiency() never exceeds the Brayton efficiency 1 - T0/Tt3 of its compression, and thermoprop_efficiency() exceeds it at most by the kinetic energy of the fuel carried, V0^2/(2 Pci).", "quantifier": "every parameter in the operating range, flight condition, by-pass ratio, fan power ratio and history of the object", "why_tests_cant": "a bound over all engines; a counterexample could hide at any parameter set", "anchors": ["aerokit/engine/gasgenerator.py:update", "aerokit/engine/turbojet.py:thermal_efficiency", "aerokit/engine/turbojet.py:thermoprop_efficiency", "aerokit/engine/turbofan.py:turbofan_adapt.update"]}
{"id": "C109", "title": "The polar notebook draws the shocks, limits and isentropic compressions it announces", "statement": "In Shock-00-polar the polars are those of the plotting module and stay inside the axes; the Mach numbers of the two limit lines increase strictly from mmin to mmax; the maximum deviation line carries the most turning shock of each Mach number with strictly increasing deviation, the sonic line the shock with sonic flow behind it, strictly inside; and the dot labelled 'M=1' is drawn at 99 % of the sonic deflection, where the flow is still supersonic.", "quantifier": "every Mach number above 1, gamma above 1 (1.4 for the axes), grid bounds, number of points and exact root finder", "why_tests_cant": "the notebook shows 18 polars of one gas; the ordering of the lines and the window must hold at every Mach number and sampling", "anchors": ["notebooks/Shock-00-polar.ipynb", "aerokit/aero/ShockWave.py:deflection_Mach_sigma", "aerokit/aero/ShockWave.py:sigma_DevMax", "aerokit/aero/ShockWave.py:sigma_Sonic", "aerokit/aero/Supersonic.py:IsentropicPsratio_Mach_deflection"]}
{"id": "C110", "title": "Accuracy of the spectral operators on smooth functions", "statement": "Differentiation and interpolation with ChebCollocation are exact only on polynomials; on any smooth function the error is bounded by its derivative of order npts: matder(k) applied to the sampled values gives the k-th derivative at the collocation points within B (xmax-xmin)^(npts-k)/(npts-k)!, the first derivative within 4 (npts-1) ((xmax-xmin)/4)^(npts-1) B/npts! (attained), extrapol interpolates within 4 ((xmax-xmin)/4)^npts B/npts!; the error decreases geometrically for analytic functions, and in the worked example faster than any geometric sequence.", "quantifier": "every number of points, interval, derivative order, history of earlier calls and smooth function", "why_tests_cant": "every smooth function and every number of points; a test only sees a few sizes and one function, and an asymptotic rate cannot be observed", "anchors": ["aerokit/common/numspectral.py:ChebCollocation.matder,extrapol", "docs/examples/common.numspectral.ipynb"]}
{"id": "C111", "title": "Area rules of the shock stability study", "statement": "The notebook draws, against the Mach number M of a shock, the slope of the steady isentropic area law, steady = d ln A / d ln M (also behind the shock), and Whitham's area rule for a shock running into a gas at rest, unsteady = d ln A / (M dM), with mu the Mach number behind the shock; the coefficient lam of the rule grows with M from 4 to less than 5.08, and the two slopes always have opposite signs.", "quantifier": "every gamma > 1 (lam: gamma = 1.4), every gas at rest and every shock Mach number above 1", "why_tests_cant": "a statement about derivatives along the whole family of shocks, for every gas at rest", "anchors": ["notebooks/article-florian.ipynb", "aerokit/aero/MassFlow.py:Sigma_Mach", "aerokit/aero/ShockWave.py:downstream_Mn"]}
{"id": "C112", "title": "Normal-shock table in double precision", "statement": "Evaluated with IEEE-754 doubles, the density ratio, the temperature ratio and the downstream normal Mach number of a normal shock are the exact values of the documented formulas up to a relative error of at most 2^-50, 2^-48 and 2^-50; at Mach number 1 all the ratios and the downstream Mach number are exactly 1; and the downstream Mach number never exceeds 1 however the operations round.", "quantifier": "every double 1 < gamma <= 2 and every double normal Mach number 1 <= M <= 2^200", "why_tests_cant": "The accuracy and the bound at 1 must hold for about 2^60 pairs of doubles; tests compare a few values with a tolerance.", "anchors": ["aerokit/aero/ShockWave.py:Rho_ratio", "aerokit/aero/ShockWave.py:Ts_ratio", "aerokit/aero/ShockWave.py:downstream_Mn", "aerokit/aero/ShockWave.py:Ps_ratio"]}
{"id": "C113", "title": "Fanno and Rayleigh tables and the flow velocity in double precision", "statement": "Evaluated with IEEE-754 doubles, the pressure, temperature, density and velocity columns of the Fanno and Rayleigh tables, the Rayleigh total temperature and the flow velocity from the Mach number and the total temperature are the exact values of the documented formulas up to a relative error of at most 2^-50 (2^-49 for the Rayleigh static temperature, 2^-48 for the Rayleigh total temperature).", "quantifier": "every double 1 < gamma <= 2, every double Mach number between 2^-100 and 2^100, and for the velocity every double gas constant and total temperature in the same range", "why_tests_cant": "An accuracy claim ranges over all doubles, tests over a few.", "anchors": ["aerokit/aero/Fanno.py:Ps_Pscri", "aerokit/aero/Fanno.py:Ts_Tscri", "aerokit/aero/Fanno.py:Rho_Rhocri", "aerokit/aero/Fanno.py:V_Vcri", "aerokit/aero/Rayleigh.py:Ps_Pscri", "aerokit/aero/Rayleigh.py:Ts_Tscri", "aerokit/aero/Rayleigh.py:Ti_Ticri", "aerokit/aero/Rayleigh.py:Rho_Rhocri", "aerokit/aero/Rayleigh.py:V_Vcri", "aerokit/aero/Isentropic.py:Velocity_MachTt"]}
{"id": "C114", "title": "Powers in double precision: pressure ratios, area ratio and mass flow", "statement": "Evaluated with IEEE-754 doubles and any C library whose pow is accurate to one unit in the last place, the isentropic total to static pressure ratio, the section ratio A/A*, the reduced mass flow and the total pressure columns of the Fanno and Rayleigh tables are the exact values of the documented formulas up to a relative error of at most 2^-45 (2^-43 for the section ratio and the Fanno column, 2^-44 for the mass flow).", "quantifier": "every double 9/8 <= gamma <= 2, every double Mach number between 2^-10 and 16, every power function with a relative error of at most 2^-52", "why_tests_cant": "An exponent such as gamma/(gamma-1) amplifies the rounding errors of its operands; the loss must be bounded for all doubles, and for whatever libm is installed.", "anchors": ["aerokit/aero/Isentropic.py:PtPs_Mach", "aerokit/aero/MassFlow.py:Sigma_Mach", "aerokit/aero/MassFlow.py:WeightMassFlow", "aerokit/aero/Fanno.py:Pi_Picri", "aerokit/aero/Rayleigh.py:Pi_Picri"]}
{"id": "C115", "title": "Inverting the section ratio near the throat in double precision", "statement": "With IEEE-754 doubles and any C library whose pow is accurate to one unit in the last place, the section ratio A/A* of a Mach number other than 1 is above 1, and the subsonic and supersonic inversions of that ratio start from a number on their side of Mach 1.", "quantifier": "every double 9/8 <= gamma <= 2, every double Mach number between 2^-10 and 16, every power function with a relative error of at most 2^-52", "why_tests_cant": "Near the throat the ratio is flat and within rounding errors of 1, and the starting points take the square root of its excess over 1; whether that is negative depends on the last bits for particular pairs of gamma and Mach number.", "anchors": ["aerokit/aero/MassFlow.py:__MachSub_sigma", "aerokit/aero/MassFlow.py:__MachSup_sigma", "aerokit/aero/MassFlow.py:Sigma_Mach", "aerokit/aero/MassFlow.py:MachSub_Sigma", "aerokit/aero/MassFlow.py:MachSup_Sigma"]}
{"id": "C116", "title": "Mach number recovered from the pressure ratio in double precision", "statement": "With IEEE-754 doubles and any C library whose pow is accurate to one unit in the last place, converting a Mach number to the total to static pressure ratio and back returns the Mach number up to (M + 1/((gamma-1) M)) / 2^42; the bound grows like 1/M because the Mach number is the square root of a difference of nearly equal numbers, and below 2^-30 nothing of it is left: the result is not a number or off by at least M.", "quantifier": "every double 9/8 <= gamma <= 2, every double Mach number between 2^-10 and 16 (between 0 and 2^-30 for the second part), every power function with a relative error of at most 2^-52", "why_tests_cant": "The loss comes from two powers, whose exponents are rounded, followed by a cancellation; a test on usual Mach numbers sees agreement to twelve digits.", "anchors": ["aerokit/aero/Isentropic.py:PtPs_Mach", "aerokit/aero/Isentropic.py:Mach_PtPs"]}
{"id": "C117", "title": "The engine cycles do not depend on the units", "statement": "The gas generator, turbojet, turbofan, two-flow classes and the cycle scripts give the same engine in every consistent system of units: converting the arguments and the flight conditions (mass flow, pressure, temperature, velocity, and what derives from them: gas constants, heating value) converts every attribute and reading of the result like its dimension and changes nothing else, whether attributes are missing, undefined or not. In particular multiplying the ambient pressure multiplies all pressures and leaves everything else, and a k times larger mass flow gives k times the flows, thrusts and powers with the same temperatures, specific thrust, efficiencies and specific consumption.", "quantifier": "every proper change of units (positive factors), every object or constructor arguments, every sequence of method calls of the two-flow classes", "why_tests_cant": "A quantity taken from the wrong station, a dropped gas constant or a power in place of a product shows only as a wrong dimension; a test in SI units at one operating point compares with a number computed by the same formula.", "anchors": ["aerokit/engine/gasgenerator.py:update", "aerokit/engine/turbojet.py", "aerokit/engine/turbofan.py", "aerokit/engine/Cycle_Turbofan.py", "aerokit/engine/propu_be.py", "aerokit/engine/propu_be_double_corps.py"]}
{"id": "C118", "title": "States, Riemann problems and unsteady inflows do not depend on the units", "statement": "Expressing density, velocity and pressure in any other consistent units changes nothing but the units: every method of a state returns the converted value or state, the Riemann problem of two converted states has the converted star state, waves and sampled solution as soon as the root finder returns the converted root, and the unsteady inflow solved with converted requests is the converted inflow; undefined values stay undefined.", "quantifier": "every proper change of units of pressure and velocity, every state or pair of states (undefined attributes included), every pressure, speed, abscissa and sequence of inflow requests, every root finder that does not look at the units", "why_tests_cant": "The starting pressure contains powers of dimensional pressures and the methods mix sound speeds, pressures and densities; a misplaced factor is invisible in tests run with unit density and pressure.", "anchors": ["aerokit/aero/model1D.py:state", "aerokit/aero/unsteady1D.py:unsteady_state", "aerokit/instance/riemann.py:riemann_pb", "aerokit/instance/unsteady_inflow.py:inflow_pb"]}
{"id": "C119", "title": "Better components make a better engine", "statement": "For the turbojet, raising the turbine inlet temperature or the efficiency of any component (inlet, compressor, turbine, shaft, nozzle) never lowers the turbine exit temperature and pressure, the jet velocity, the specific thrust or the kinetic energy; when inlet temperature and compressor are the same the fuel is the same, the thermal efficiency does not fall and the specific consumption does not rise. In the turbofan the turbine exit conditions of the core, the power sent to the fan and the by-pass jet never fall either (low pressure turbine and fan efficiencies included), and a better fan alone leaves the core jet and never lowers the thrust.", "quantifier": "every pair of objects with any past, same gases, fuel, combustor, flight conditions, overall pressure ratio >= 1 (by-pass ratio and fan power fraction for the turbofan), any real parameters in the operating range", "why_tests_cant": "A design study relies on the sense of every influence; a test compares two settings at one operating point, while a wrong exponent or a misplaced efficiency can reverse the sense only at others.", "anchors": ["aerokit/engine/gasgenerator.py:update", "aerokit/engine/turbojet.py:turbojet_opt.update", "aerokit/engine/turbofan.py:turbofan_adapt.update"]}
{"id": "C120", "title": "The numerical tools do not depend on the scales", "statement": "RK4 gives the same solution whatever the unit and origin of the abscissa (positive unit) and of each component of the unknown; RKF45 whatever the unit of the abscissa, one unit common to the components and the tolerance, and the origins, its choice of steps included. For a linear system with variable coefficients RK4 respects superposition. A collocation object on another interval has its points, derivative matrices, interpolation and fits converted accordingly: the matrix of order k is divided by the k-th power of the unit, extrapol and fit_to_gauss return the same values.", "quantifier": "every right-hand side, start, end, step, tolerance, number of components and steps; every interval, number of points, unit, origin, sequence of requests, data and linear solver", "why_tests_cant": "Users choose their units and origins freely; a test uses one. An absolute threshold, a step added to the wrong variable or a power of the length lost at some order shows only after a change of scale.", "anchors": ["aerokit/common/_ode.py:RK4", "aerokit/common/_ode.py:RKF45", "aerokit/common/numspectral.py:ChebCollocation"]}
